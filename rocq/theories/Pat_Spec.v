(** Specification of the address generators: nested loops. *)
From Verif Require Import Base Pat_Model.
Open Scope Z_scope.

(** 0, 1, .., n-1 *)
Definition upto (n : Z) : list Z := map Z.of_nat (List.seq 0 (Z.to_nat n)).

(** All index tuples below the given sizes; the first component runs fastest. *)
Fixpoint tuples (sizes : list Z) : list (list Z) :=
  match sizes with
  | [] => [[]]
  | s :: r => flat_map (fun t => map (fun i => i :: t) (upto s)) (tuples r)
  end.
Fixpoint dot (t d : list Z) : Z :=
  match t, d with
  | i :: t, s :: d => i * s + dot t d
  | _, _ => 0
  end.
(** The offsets a pattern visits, and the addresses of [aw] bits. *)
Definition visits (p : pattern) : list Z := map (fun t => dot t (map snd p)) (tuples (map fst p)).
Definition addresses (aw off : Z) (p : pattern) : list Z := map (fun o => (off + o) mod 2 ^ aw) (visits p).
(** Several patterns one after another *)
Fixpoint addresses_of (aw : Z) (offs : list Z) (ps : list pattern) : list Z :=
  match offs, ps with
  | o :: offs, p :: ps => addresses aw o p ++ addresses_of aw offs ps
  | _, _ => []
  end.
(** Row-major position of an element of an array *)
Fixpoint volume (shape : list Z) : Z := match shape with [] => 1 | n :: r => n * volume r end.
Fixpoint row_major (shape t : list Z) : Z :=
  match shape, t with
  | n :: r, i :: t => i * volume r + row_major r t
  | _, _ => 0
  end.

(** Traces: what happens in the cycles [ins] *)
Definition trace {X I O} (step : X -> I -> X) (out : X -> I -> list O) (x : X) (ins : list I) : list O :=
  concat (outs step out x ins).

(** Index of the array element reached when loop [k] runs over dimension [order[k]] and has index [t[k]]:
    its coordinate in dimension [j]. *)
Fixpoint coord (order t : list Z) (j : Z) : Z :=
  match order, t with
  | p :: order, i :: t => if p =? j then i else coord order t j
  | _, _ => 0
  end.
Definition element (shape order t : list Z) : list Z := map (coord order t) (upto (Z.of_nat (length shape))).

(** *** Situations *)
(** settings for [n] dimensions *)
Definition sized (n : nat) (s : setting) : Prop := length (s_sizes s) = n /\ length (s_strides s) = n.
(** the registers after reset, with [n] dimensions *)
Definition src_reset (n : nat) : src := mkSrc 0 0 (repeat 0 n) (repeat 0 n) (repeat 0 n) (repeat 0 n) 0 false true.
Definition snk_reset (n : nat) : snk := mkK 0 0 (repeat 0 n) (repeat 0 n) (repeat 0 n) (repeat 0 n) 0 0 false.
(** cycles without start and stop; numbers of cycles that are not stalled *)
Definition quiet (i : sin) : Prop := start i = false /\ stop i = false.
Definition k_quiet (i : kin) : Prop := k_start i = false /\ k_stop i = false.
Definition m_quiet (i : min) : Prop := m_start i = false /\ m_stop i = false /\ m_set i = None.
Definition n_quiet (i : nin) : Prop := n_start i = false /\ n_stop i = false /\ n_set i = None /\ n_wc i = true.
Definition l_quiet (i : lin) : Prop := l_start i = false /\ l_stop i = false.
Definition lk_quiet (i : lkin) : Prop := lk_start i = false /\ lk_stop i = false.
Definition n_ready (ins : list sin) : nat := length (filter ordy ins).
Definition n_mready (ins : list min) : nat := length (filter m_ordy ins).
Definition n_lready (ins : list lin) : nat := length (filter l_ordy ins).
(** data that a sink takes; a write that is under way at the end of a trace *)
Definition accepted (ins : list kin) : list Z := map k_rd (filter (fun i => k_ordy i && k_wc i) ins).
Definition n_accepted (ins : list nin) : list Z := map n_rd (filter n_ordy ins).
Definition lk_accepted (ins : list lkin) : list Z := map lk_rd (filter (fun i => lk_ordy i && lk_wc i) ins).
Definition k_pend (x : snk) : list (Z * Z) := if k_en x then [(k_addr x, k_data x)] else [].
Definition n_pend (x : msnk) : list (Z * Z) := if n_en x then [(n_addr x, n_data x)] else [].
Definition lk_pend (x : lsnk) : list (Z * Z) := if lk_en x then [(lk_addr x, lk_data x)] else [].
