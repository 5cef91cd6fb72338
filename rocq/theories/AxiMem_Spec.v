(** What a bus master may expect of a memory. *)
From Verif Require Import Base AxiMem_Model.
Open Scope Z_scope.

(** ** Memory contents: byte addresses, little endian *)
Definition byte_of (d i : Z) : Z := d / 2 ^ (8 * i) mod 2 ^ 8.
(** a beat of [nb] bytes at address [a]: the bytes with a strobe are replaced *)
Definition put_beat (nb a d st : Z) (m : Z -> Z) : Z -> Z :=
  fun x => if (a <=? x) && (x <? a + nb) && Z.testbit st (x - a) then byte_of d (x - a) else m x.
(** beats (data, strobes) at consecutive addresses *)
Fixpoint put_beats (nb a : Z) (bs : list (Z * Z)) (m : Z -> Z) : Z -> Z :=
  match bs with
  | [] => m
  | (d, st) :: bs => put_beats nb (a + nb) bs (put_beat nb a d st m)
  end.
(** the word of [n] bytes at address [a] *)
Fixpoint word (n : nat) (m : Z -> Z) (a : Z) : Z :=
  match n with O => 0 | S n => m a + 2 ^ 8 * word n m (a + 1) end.

(** ** Write bursts *)
Record wburst := mkB { b_addr : Z; b_id : Z; b_beats : list (Z * Z) }.
(** address, length minus one, id *)
Definition header (b : wburst) : Z * Z * Z := (b_addr b, Z.of_nat (length (b_beats b)) - 1, b_id b).
(** the last beat is flagged *)
Fixpoint flagged (bs : list (Z * Z)) : list (Z * Z * bool) :=
  match bs with
  | [] => []
  | [x] => [(x, true)]
  | x :: bs => (x, false) :: flagged bs
  end.
Definition headers (B : list wburst) : list (Z * Z * Z) := map header B.
Definition beats (B : list wburst) : list (Z * Z * bool) := concat (map (fun b => flagged (b_beats b)) B).
Definition put_burst (nb : Z) (m : Z -> Z) (b : wburst) : Z -> Z := put_beats nb (b_addr b) (b_beats b) m.
Definition put_bursts (nb : Z) (B : list wburst) (m : Z -> Z) : Z -> Z := fold_left (put_burst nb) B m.
(** [n] bursts and [k] beats of the next one *)
Definition put_part (nb : Z) (B : list wburst) (n k : nat) (m : Z -> Z) : Z -> Z :=
  match nth_error B n with
  | Some b => put_beats nb (b_addr b) (firstn k (b_beats b)) (put_bursts nb (firstn n B) m)
  | None => put_bursts nb (firstn n B) m
  end.
Definition same_mem (m m' : Z -> Z) : Prop := forall x, m x = m' x.

(** ** Read bursts: address, length minus one, id *)
(** address, last flag and id of every beat that is asked for *)
Definition asked1 (nb : Z) (q : Z * Z * Z) : list (Z * bool * Z) :=
  let '(a, l, id) := q in
  map (fun k => (a + nb * Z.of_nat k, Z.of_nat k =? l, id)) (seq 0 (Z.to_nat (l + 1))).
Definition asked (nb : Z) (Q : list (Z * Z * Z)) : list (Z * bool * Z) := concat (map (asked1 nb) Q).
(** a beat answers a question with a memory *)
Definition answer (nb : Z) (m : Z -> Z) (q : Z * bool * Z) : Z * bool * Z :=
  let '(a, l, id) := q in (word (Z.to_nat nb) m a, l, id).

(** the beat [y] answers the question [q] with one of the memories [ms] *)
Definition answered (nb : Z) (ms : list (Z -> Z)) (q y : Z * bool * Z) : Prop :=
  exists m, In m ms /\ y = answer nb m q.

(** ** Legal parameters and requests *)
Record good_mp (p : mp) : Prop := {
  g_dw : exists nb, 1 <= nb /\ p_dw p = 8 * nb;
  g_aw : 8 <= p_aw p;
  g_mw : 0 <= p_mw p <= p_aw p;
  g_qa : 2 <= p_qa p;
  g_da : 2 <= p_da p;
  g_wid : 0 <= p_wid p <= p_bid p;
  g_arid : 0 <= p_arid p <= p_rid p;
  g_ids : p_arid p <= p_wid p
}.
(** bursts of 1 to 256 beats inside the memory *)
Definition legal_req (p : mp) (idw : Z) (q : Z * Z * Z) : Prop :=
  let '(a, l, id) := q in
  0 <= a /\ 0 <= l < 256 /\ a + nbytes p * (l + 1) <= 2 ^ p_mw p /\ 0 <= id < 2 ^ idw.
Definition legal_burst (p : mp) (b : wburst) : Prop := legal_req p (p_wid p) (header b).

(** ** Runs *)
Definition am_run (p : mp) (s : axim) (ins : list axi_in) : axim := final (am_step p) s ins.
Definition seen {A} (p : mp) (o : axim -> axi_in -> list A) (s : axim) (ins : list axi_in) : list A :=
  concat (outs (am_step p) o s ins).
Definition mems (p : mp) (s : axim) (ins : list axi_in) : list (Z -> Z) :=
  outs (am_step p) (fun s _ => a_mem s) s ins.
Definition prefix {A} (l l' : list A) : Prop := exists r, l' = l ++ r.

(** a master keeps a request valid until it is taken *)
Definition aw_held (p : mp) (s : axim) (ins : list axi_in) : Prop :=
  forall ins1 i i' ins2, ins = ins1 ++ i :: i' :: ins2 ->
    some (i_aw i) = true -> aw_taken (am_run p s ins1) i = [] -> some (i_aw i') = true.
Definition ar_held (p : mp) (s : axim) (ins : list axi_in) : Prop :=
  forall ins1 i i' ins2, ins = ins1 ++ i :: i' :: ins2 ->
    some (i_ar i) = true -> ar_taken (am_run p s ins1) i = [] -> some (i_ar i') = true.

(** ** An eager master: it offers its requests and its write data in order as soon as it can, and is
    always ready to receive *)
Record master := mkMaster { t_aw : list (Z * Z * Z); t_w : list (Z * Z * bool); t_ar : list (Z * Z * Z) }.
Definition offer (t : master) : axi_in :=
  mkIn (hd_error (t_aw t)) (hd_error (t_w t)) true (hd_error (t_ar t)) true.
Definition after {A} (l taken : list A) : list A := skipn (length taken) l.
Definition t_next (p : mp) (s : axim) (t : master) : master :=
  mkMaster (after (t_aw t) (aw_taken s (offer t))) (after (t_w t) (w_taken p s (offer t)))
           (after (t_ar t) (ar_taken s (offer t))).
(** its signals in the first [n] cycles *)
Fixpoint eager (p : mp) (n : nat) (s : axim) (t : master) : list axi_in :=
  match n with
  | O => []
  | S n => offer t :: eager p n (am_step p s (offer t)) (t_next p s t)
  end.
(** sleeping is not for ever *)
Definition wakes (p : mp) : Prop :=
  p_sleep p <= 0 \/ (2 <= p_sleep p <= 2 ^ (p_aw p + 1) /\ p_keep p <= 2 ^ (p_aw p + 1)).
(** cycles that suffice for the write bursts [B] and the read bursts [Q] *)
Definition nap (p : mp) : Z := Z.max 1 (p_keep p).
Definition zlen {A} (l : list A) : Z := Z.of_nat (length l).
Definition w_time (p : mp) (B : list wburst) : Z :=
  (nap p + 1) * (3 * zlen (beats B) + zlen B * (Z.max 0 (p_wdelay p) + 4) + Z.max 0 (p_wdelay p) + 3) + nap p + 1.
Definition r_time (p : mp) (Q : list (Z * Z * Z)) : Z :=
  (nap p + 1) * (zlen (asked (nbytes p) Q) + zlen Q * (Z.max 0 (p_rdelay p) + 5) + 2) + nap p.
