(** Model of [types/skidbuffer.py] and of chains of skid buffers as built by the AXI
    data channels ([types/axi.py:514-560], [776-800], [941-975], [1135-1160]). *)
From Verif Require Import Base.

Section Skid.
  Context {A : Type}.

  (** [types/skidbuffer.py:90-96] registers m_data, m_valid, tmp_data, tmp_valid. *)
  Record sb := mkSb { m_data : A; m_valid : bool; tmp_data : A; tmp_valid : bool }.

  (** [types/skidbuffer.py:90-96] reset values; the data registers reset to 0, here [z]. *)
  Definition sb_init (z : A) : sb := mkSb z false z false.

  (** [types/skidbuffer.py:101] s_ready *)
  Definition s_ready (b : sb) : bool := negb (tmp_valid b).

  (** [types/skidbuffer.py:103-104] next_data, next_valid *)
  Definition next_data (b : sb) (s_data : A) : A := if tmp_valid b then tmp_data b else s_data.
  Definition next_valid (b : sb) (s_valid : bool) : bool := tmp_valid b || s_valid.

  (** [types/skidbuffer.py:106-118] the three If statements in emission order; conditions and
      right-hand sides read the old state [b], the result is threaded through [n]. *)
  Definition sb_stmt1 (s_data : A) (s_valid m_ready : bool) (b n : sb) : sb :=
    if m_ready || negb (m_valid b)
    then mkSb (next_data b s_data) (next_valid b s_valid) (tmp_data n) (tmp_valid n) else n.
  Definition sb_stmt2 (s_data : A) (s_valid m_ready : bool) (b n : sb) : sb :=
    if negb (tmp_valid b) && m_valid b && negb m_ready
    then mkSb (m_data n) (m_valid n) s_data s_valid else n.
  Definition sb_stmt3 (m_ready : bool) (b n : sb) : sb :=
    if tmp_valid b && m_ready
    then mkSb (m_data n) (m_valid n) (tmp_data n) false else n.

  Definition sb_step (b : sb) (s_valid : bool) (s_data : A) (m_ready : bool) : sb :=
    sb_stmt3 m_ready b (sb_stmt2 s_data s_valid m_ready b (sb_stmt1 s_data s_valid m_ready b b)).

  (** A chain of buffers, first element nearest the producer: the [m_valid]/[m_values] of one
      buffer are the [s_valid]/[s_values] of the next, whose [s_ready] is the [m_ready] of the
      former ([types/axi.py:514-560]). *)
  Definition chain_ready (bs : list sb) (m_ready : bool) : bool :=
    match bs with [] => m_ready | b :: _ => s_ready b end.

  Fixpoint chain_step (bs : list sb) (s_valid : bool) (s_data : A) (m_ready : bool) : list sb :=
    match bs with
    | [] => []
    | b :: r => sb_step b s_valid s_data (chain_ready r m_ready)
                :: chain_step r (m_valid b) (m_data b) m_ready
    end.

  (** Output side of the chain: the last buffer (or the input when there is no buffer). *)
  Fixpoint chain_out (bs : list sb) (s_valid : bool) (s_data : A) : bool * A :=
    match bs with
    | [] => (s_valid, s_data)
    | b :: r => chain_out r (m_valid b) (m_data b)
    end.

  Record sb_in := mkSbIn { in_valid : bool; in_data : A; in_ready : bool }.
  Record sb_out := mkSbOut { out_ready : bool; out_valid : bool; out_data : A }.

  Definition chain_tick (bs : list sb) (i : sb_in) : list sb :=
    chain_step bs (in_valid i) (in_data i) (in_ready i).
  Definition chain_obs (bs : list sb) (i : sb_in) : sb_out :=
    let '(v, d) := chain_out bs (in_valid i) (in_data i) in
    mkSbOut (chain_ready bs (in_ready i)) v d.
End Skid.
Arguments sb : clear implicits.
Arguments sb_in : clear implicits.
Arguments sb_out : clear implicits.
