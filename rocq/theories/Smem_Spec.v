(** A memory that carries out one burst after the other. *)
From Verif Require Import Base AxiMem_Model AxiMem_Spec Smem_Model.
Open Scope Z_scope.

Inductive op := OW (b : wburst) | OR (q : Z * Z * Z).
Definition writes (ops : list op) : list wburst := flat_map (fun o => match o with OW b => [b] | OR _ => [] end) ops.
Definition reads (ops : list op) : list (Z * Z * Z) := flat_map (fun o => match o with OR q => [q] | OW _ => [] end) ops.
(** the memory afterwards and the answers *)
Definition do_op (nb : Z) (x : (Z -> Z) * list (Z * bool * Z)) (o : op) : (Z -> Z) * list (Z * bool * Z) :=
  match o with
  | OW b => (put_burst nb (fst x) b, snd x)
  | OR q => (fst x, snd x ++ map (answer nb (fst x)) (asked1 nb q))
  end.
Definition do_ops (nb : Z) (m : Z -> Z) (ops : list op) : (Z -> Z) * list (Z * bool * Z) := fold_left (do_op nb) ops (m, []).

(** runs *)
Definition sm_run (p : mp) (s : sm) (ins : list axi_in) : sm := final (sm_step p) s ins.
Definition sseen {A} (p : mp) (o : sm -> axi_in -> list A) (s : sm) (ins : list axi_in) : list A := concat (outs (sm_step p) o s ins).

(** A master with bursts to write and to read: it offers requests and write data in order, whenever it
    likes; a request once offered stays until it is taken ([ma], [mr]: one was offered and not taken); it
    offers a write address only when no response waits after this cycle. *)
Definition s_next (s : sm) (i : axi_in) (t : master) : master :=
  mkMaster (after (t_aw t) (s_aw s i)) (after (t_w t) (s_w s i)) (after (t_ar t) (s_ar s i)).
Definition offers (t : master) (ma mr : bool) (s : sm) (i : axi_in) : Prop :=
  (i_aw i = hd_error (t_aw t) \/ (i_aw i = None /\ ma = false)) /\
  (i_w i = hd_error (t_w t) \/ i_w i = None) /\
  (i_ar i = hd_error (t_ar t) \/ (i_ar i = None /\ mr = false)) /\
  (m_bvalid s = true -> some (i_aw i) = true -> i_bready i = true).
Fixpoint behaves (p : mp) (t : master) (ma mr : bool) (s : sm) (ins : list axi_in) : Prop :=
  match ins with
  | [] => True
  | i :: r => offers t ma mr s i /\ behaves p (s_next s i t) (some (i_aw i) && negb (m_awready s)) (some (i_ar i) && negb (m_arready s)) (sm_step p s i) r
  end.

(** parameters: whole bytes, addresses that hold a burst length, ids that fit *)
Record sm_ok (p : mp) : Prop := {
  so_dw : exists nb, 1 <= nb /\ p_dw p = 8 * nb;
  so_aw : 8 <= p_aw p;
  so_mw : 0 <= p_mw p <= p_aw p;
  so_wid : 0 <= p_wid p <= p_bid p;
  so_arid : 0 <= p_arid p <= p_rid p
}.

(** After a run that ends between bursts, [ops] is what was carried out, in this order: the first of the
    bursts to write and of the requests to read; they alone were taken, the answers are those of a
    memory that carries them out one by one, every write has its response (one may still wait), and
    the memory is as they leave it. *)
Definition carried (p : mp) (m0 : Z -> Z) (B : list wburst) (Q : list (Z * Z * Z)) (ins : list axi_in) (ops : list op) : Prop :=
  let s0 := sm_init m0 in let s := sm_run p s0 ins in
  (exists Br, B = writes ops ++ Br) /\ (exists Qr, Q = reads ops ++ Qr) /\
  sseen p s_aw s0 ins = headers (writes ops) /\ sseen p s_w s0 ins = beats (writes ops) /\ sseen p s_ar s0 ins = reads ops /\
  sseen p s_r s0 ins = snd (do_ops (nbytes p) m0 ops) /\
  sseen p s_b s0 ins ++ (if m_bvalid s then [m_bid s] else []) = map b_id (writes ops) /\
  same_mem (m_mem s) (fst (do_ops (nbytes p) m0 ops)).

(** the same master, which may let a response wait *)
Definition offers_slow (t : master) (ma mr : bool) (i : axi_in) : Prop :=
  (i_aw i = hd_error (t_aw t) \/ (i_aw i = None /\ ma = false)) /\
  (i_w i = hd_error (t_w t) \/ i_w i = None) /\
  (i_ar i = hd_error (t_ar t) \/ (i_ar i = None /\ mr = false)).
Fixpoint behaves_slow (p : mp) (t : master) (ma mr : bool) (s : sm) (ins : list axi_in) : Prop :=
  match ins with
  | [] => True
  | i :: r => offers_slow t ma mr i /\ behaves_slow p (s_next s i t) (some (i_aw i) && negb (m_awready s)) (some (i_ar i) && negb (m_arready s)) (sm_step p s i) r
  end.

(** a master that offers all it has and is always ready *)
Definition eager (t : master) : axi_in := mkIn (hd_error (t_aw t)) (hd_error (t_w t)) true (hd_error (t_ar t)) true.
Fixpoint eager_ins (p : mp) (n : nat) (t : master) (s : sm) : list axi_in :=
  match n with
  | O => []
  | S n => eager t :: eager_ins p n (s_next s (eager t) t) (sm_step p s (eager t))
  end.
