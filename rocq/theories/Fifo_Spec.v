(** Specification of a FIFO: a bounded list. *)
From Verif Require Import Base Fifo_Model.
Open Scope Z_scope.

(** The stored words, oldest first, and the word most recently dequeued (0 after reset). *)
Record queue := mkQueue { q_words : list Z; q_last : Z }.

Definition queue_init : queue := mkQueue [] 0.

Definition queue_step (cap : Z) (q : queue) (i : fifo_in) : queue :=
  let room := Z.of_nat (length (q_words q)) <? cap in
  let added := if i_enq i && room then [i_wdata i] else [] in
  match q_words q with
  | x :: r => if i_deq i then mkQueue (r ++ added) x else mkQueue (x :: r ++ added) (q_last q)
  | [] => mkQueue added (q_last q)
  end.

(** What the ports must show: flags are statements about the number of stored words. *)
Definition queue_out (cap : Z) (q : queue) (_ : fifo_in) : fifo_ports :=
  let n := Z.of_nat (length (q_words q)) in
  mkFifoPorts (n =? 0) (n <=? 1) (n =? cap) (cap - 1 <=? n) (q_last q).

(** Port-level history: what went in and what came out, read off the ports only. *)
Fixpoint accepted (ios : list (fifo_in * fifo_ports)) : list Z :=
  match ios with
  | [] => []
  | (i, o) :: r => (if i_enq i && negb (o_full o) then [i_wdata i] else []) ++ accepted r
  end.

(** A dequeue accepted in one cycle shows its word on rdata in the next cycle. *)
Fixpoint delivered (ios : list (fifo_in * fifo_ports)) : list Z :=
  match ios with
  | (i, o) :: (((_, o') :: _) as r) =>
      (if i_deq i && negb (o_empty o) then [o_rdata o'] else []) ++ delivered r
  | _ => []
  end.

(** For the asynchronous-read FIFO the word is on rdata in the same cycle. *)
Fixpoint delivered_async (ios : list (fifo_in * fifo_ports)) : list Z :=
  match ios with
  | (i, o) :: r =>
      (if i_deq i && negb (o_empty o) then [o_rdata o] else []) ++ delivered_async r
  | [] => []
  end.

Definition fifo_ios (sync : bool) (aw : Z) (m0 : Z -> Z) (ins : list fifo_in) :=
  combine ins (outs (fifo_step sync aw) (fifo_out sync aw) (fifo_init m0) ins).
