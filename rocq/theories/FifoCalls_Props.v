(** C73: calls on a shared FIFO act like single operations on one bounded list of words. *)
From Verif Require Import Base Fifo_Model FifoCalls_Model FifoCalls_Spec FifoCalls_Proofs.
Open Scope Z_scope.

(** Any number of threads, any programs, synchronous or asynchronous read: as long as no two threads
    drive the same port in the same cycle, there are single operations, each inside the call it belongs
    to, that explain all results returned up to every cycle, and the calls wait only as long as the
    list is full or empty. *)
Theorem C73_calls_are_single_operations_partial :
  forall sync aw n m0 gos, 1 <= aw -> always_apart sync aw n (fsys_init m0) gos ->
  exists logs, during sync aw n (fsys_init m0) gos logs /\
    forall k, let s := final (fsys_step sync aw n) (fsys_init m0) (firstn k gos) in
      let log := concat (firstn k logs) in
      accounts n s log /\
      exists l, acts_on (2 ^ aw - 2) [] log = Some l /\
        forall t go, (t < n)%nat -> waits (2 ^ aw - 2) l (z_thr s t) (z_thr (fsys_step sync aw n s go) t).
Proof. exact linearizable. Qed.
Print Assumptions C73_calls_are_single_operations_partial.

(** A producer thread and a consumer thread always stay apart ... *)
Theorem C73_producer_consumer_apart :
  forall sync aw m0 gos, Forall roles gos -> always_apart sync aw 2 (fsys_init m0) gos.
Proof. exact two_threads. Qed.
Print Assumptions C73_producer_consumer_apart.

(** ... and what the consumer receives is what the producer was told was sent, in order, nothing lost
    and nothing twice; fewer than 2^addrwidth words are on the way. *)
Theorem C73_producer_consumer_words :
  forall sync aw m0 gos, 1 <= aw -> Forall roles gos ->
  let s := final (fsys_step sync aw 2) (fsys_init m0) gos in
  exists extra rest pend,
    sent (h_log (z_thr s 0%nat)) ++ extra = received (h_log (z_thr s 1%nat)) ++ pend ++ rest /\
    (length extra <= 1)%nat /\ (extra <> [] -> inside (z_thr s 0%nat)) /\
    (length pend <= 1)%nat /\ (pend <> [] -> inside (z_thr s 1%nat)) /\
    Z.of_nat (length rest) < 2 ^ aw.
Proof. exact pipe. Qed.
Print Assumptions C73_producer_consumer_words.

Definition go2 (a b : option op) : nat -> option op := fun t => match t with 0%nat => a | 1%nat => b | _ => None end.
Definition logs_of sync aw gos : list (op * res) * list (op * res) :=
  let s := final (fsys_step sync aw 2) (fsys_init (fun _ => 0)) gos in
  (h_log (z_thr s 0%nat), h_log (z_thr s 1%nat)).
Definition idle (k : nat) : list (nat -> option op) := repeat (fun _ => None) k.

(** Finding: two threads that call [enq] in the same cycle are both told that their word was taken, and
    one of the words is gone: thread 0 puts 5, then takes 6, then finds the FIFO empty. *)
Theorem C73_two_producers_refuted :
  forall sync, logs_of sync 3 ([go2 (Some (Enq 5)) (Some (Enq 6))] ++ idle 1 ++ [go2 (Some TryDeq) None] ++ idle 2 ++
                     [go2 (Some TryDeq) None] ++ idle 2) =
    ([(Enq 5, RDone); (TryDeq, RTry 6 true); (TryDeq, RTry (if sync then 6 else 0) false)], [(Enq 6, RDone)]).
Proof. intros []; vm_compute; reflexivity. Qed.
Print Assumptions C73_two_producers_refuted.

(** ... and two threads that call [deq] in the same cycle both get the same word. *)
Theorem C73_two_consumers_refuted :
  forall sync, logs_of sync 3 ([go2 (Some (Enq 5)) None] ++ idle 1 ++ [go2 (Some Deq) (Some Deq)] ++ idle 2) =
    ([(Enq 5, RDone); (Deq, RWord 5)], [(Deq, RWord 5)]).
Proof. intros []; vm_compute; reflexivity. Qed.
Print Assumptions C73_two_consumers_refuted.


(** ** The hypotheses are met by non-trivial runs *)
(** Three threads sharing a small FIFO (2 words are taken before it reports almost full): a refused
    [try_enq], an [enq] that has to wait, an unsuccessful [try_deq]. *)
Definition go3 (a b c : option op) : nat -> option op :=
  fun t => match t with 0%nat => a | 1%nat => b | 2%nat => c | _ => None end.
Definition ex_gos : list (nat -> option op) :=
  [go3 (Some (Enq 1)) None None; go3 None (Some (TryEnq 2)) (Some TryDeq); go3 None None None;
   go3 (Some (TryEnq 3)) None None; go3 None None None; go3 None (Some (TryEnq 4)) None; go3 None None None;
   go3 (Some (Enq 5)) None None; go3 None None None; go3 None None (Some Deq)] ++
  idle 3 ++ [go3 None None (Some TryDeq)] ++ idle 2 ++ [go3 None (Some Deq) None] ++ idle 2 ++
  [go3 (Some TryDeq) None None] ++ idle 2.
Fixpoint apartb (sync : bool) (s : fsys) (gos : list (nat -> option op)) : bool :=
  let one (p : nat -> bool) := negb (p 0%nat && p 1%nat) && negb (p 0%nat && p 2%nat) && negb (p 1%nat && p 2%nat) in
  one (fun t => match enq_of (z_thr s t) with Some _ => true | None => false end) &&
  one (fun t => deq_of (z_thr s t)) &&
  match gos with [] => true | go :: r => apartb sync (fsys_step sync 2 3 s go) r end.
Lemma apartb_ok sync : forall gos s, apartb sync s gos = true -> always_apart sync 2 3 s gos.
Proof.
  induction gos as [|go gos IH]; intros s H; cbn [apartb always_apart] in *;
    rewrite !andb_true_iff, !negb_true_iff, !andb_false_iff in H; destruct H as [[[[A1 A2] A3] [[B1 B2] B3]] R].
  all: split; [|first [exact I | exact (IH _ R)]].
  all: intros t u L; assert (C : (t = 0 /\ u = 1 \/ t = 0 /\ u = 2 \/ t = 1 /\ u = 2)%nat) by lia;
    destruct C as [[-> ->]|[[-> ->]|[-> ->]]];
    (split; [|assumption]);
    match goal with |- enq_of ?x = None \/ enq_of ?y = None => destruct (enq_of x), (enq_of y); auto end;
    repeat match goal with H : _ \/ _ |- _ => destruct H end; discriminate.
Qed.
Example C73_ex_apart : forall sync, always_apart sync 2 3 (fsys_init (fun _ => 0)) ex_gos.
Proof. intros []; apply apartb_ok; vm_compute; reflexivity. Qed.
Example C73_ex_logs :
  map (fun t => h_log (z_thr (final (fsys_step true 2 3) (fsys_init (fun _ => 0)) ex_gos) t)) [0%nat; 1%nat; 2%nat] =
  [[(Enq 1, RDone); (TryEnq 3, RAck true); (Enq 5, RDone); (TryDeq, RTry 5 false)];
   [(TryEnq 2, RAck true); (TryEnq 4, RAck false); (Deq, RWord 5)];
   [(TryDeq, RTry 1 true); (Deq, RWord 2); (TryDeq, RTry 3 true)]].
Proof. vm_compute. reflexivity. Qed.

Example C73_ex_roles :
  let gos := [go2 (Some (TryEnq 7)) (Some TryDeq); go2 None None; go2 None None; go2 (Some (Enq 8)) (Some Deq)] ++ idle 3 in
  Forall roles gos /\
  logs_of true 4 gos = ([(TryEnq 7, RAck true); (Enq 8, RDone)], [(TryDeq, RTry 0 false); (Deq, RWord 7)]).
Proof.
  cbv zeta. split; [|vm_compute; reflexivity].
  repeat (apply Forall_cons; [split; exact I|]). apply Forall_nil.
Qed.
