(** Property theorems C11, C12 (FIFO). *)
From Verif Require Import Base Fifo_Model Fifo_Spec Fifo_Proofs FifoThread_Proofs.
Open Scope Z_scope.

(** C11/C12.  For every address width >= 1, every uninitialised memory content and every
    schedule of enq/deq requests, the ports of the synchronous FIFO show, cycle by cycle,
    exactly what a list queue of capacity 2^aw-1 shows (order, data, refused requests, flags). *)
Theorem C11_fifo_is_bounded_queue :
  forall aw m0 ins, 1 <= aw ->
    outs (fifo_step true aw) (fifo_out true aw) (fifo_init m0) ins =
    outs (queue_step (2 ^ aw - 1)) (queue_out (2 ^ aw - 1)) queue_init ins.
Proof. intros aw m0 ins H. exact (refines aw H m0 ins). Qed.
Print Assumptions C11_fifo_is_bounded_queue.

(** C11, read off the ports: accepted words = delivered words ++ what is still inside. *)
Theorem C11_fifo_lossless_in_order :
  forall aw m0 ins, 1 <= aw ->
    exists rest,
      accepted (fifo_ios true aw m0 ins) = delivered (fifo_ios true aw m0 ins) ++ rest /\
      Z.of_nat (length rest) <= 2 ^ aw.
Proof. intros aw m0 ins H. exact (lossless_sync_gen aw H ins _ _ (init_inv aw H m0)). Qed.
Print Assumptions C11_fifo_lossless_in_order.

Theorem C11_async_fifo_lossless_in_order :
  forall aw m0 ins, 1 <= aw ->
    exists rest,
      accepted (fifo_ios false aw m0 ins) = delivered_async (fifo_ios false aw m0 ins) ++ rest /\
      Z.of_nat (length rest) <= 2 ^ aw - 1.
Proof. intros aw m0 ins H. exact (lossless_async_gen aw H ins _ _ (init_inv aw H m0)). Qed.
Print Assumptions C11_async_fifo_lossless_in_order.

(** C11 at thread level: whatever the relative timing of a producer thread calling enq on
    each of [words] and a consumer thread calling deq, the values returned so far are a prefix
    of [words] ... *)
Theorem C11_thread_fifo_prefix :
  forall aw m0 words gs, 1 <= aw ->
    exists rest, words = y_got (final (sys_step aw) (sys_init m0 words) gs) ++ rest.
Proof. intros aw m0 words gs H. exact (sys_prefix aw H m0 words gs). Qed.
Print Assumptions C11_thread_fifo_prefix.

(** ... and if both threads keep calling, all of them arrive within 5 cycles per word
    (address width >= 2). *)
Theorem C11_thread_fifo_delivers_all :
  forall aw m0 words n, 2 <= aw -> (5 * length words <= n)%nat ->
    y_got (final (sys_step aw) (sys_init m0 words) (repeat (mkSched true true) n)) = words.
Proof. intros aw m0 words n H. exact (progress aw (Z.le_trans 1 2 aw ltac:(lia) H) m0 words n H). Qed.
Print Assumptions C11_thread_fifo_delivers_all.

(** Finding: with addrwidth=1 [enq] waits for !almost_full, which is never true, so a thread
    calling enq hangs for ever whatever the consumer does. *)
Theorem C11_thread_fifo_delivers_all_aw1_refuted :
  exists words, words <> [] /\
    forall m0 gs, y_got (final (sys_step 1) (sys_init m0 words) gs) = [].
Proof. exists [7]. split; [discriminate|]. intros m0 gs. exact (aw1_stuck m0 [7] gs). Qed.
Print Assumptions C11_thread_fifo_delivers_all_aw1_refuted.

(** C12.  The count register equals the number of stored words. *)
Theorem C12_count_is_occupancy :
  forall aw sync m0 ins, 1 <= aw ->
    t_count (final (tfifo_step sync aw) (tfifo_init m0) ins) =
    Z.of_nat (length (q_words (final (queue_step (2 ^ aw - 1)) queue_init ins))).
Proof. intros aw sync m0 ins H. exact (tfifo_count aw sync m0 ins H). Qed.
Print Assumptions C12_count_is_occupancy.

(** C12.  has_space(n) holds exactly when n further enqueues would each find the port ready. *)
Theorem C12_has_space_exact :
  forall aw m0 ins num, 1 <= aw -> (1 <= num)%nat ->
  has_space aw (final (tfifo_step true aw) (tfifo_init m0) ins) (Z.of_nat num) = true <->
  (forall k ws, (k < num)%nat -> length ws = k ->
     enq_ready aw (t_fifo (final (tfifo_step true aw)
        (final (tfifo_step true aw) (tfifo_init m0) ins) (map enq_only ws))) = true).
Proof. intros aw m0 ins num H Hn. exact (has_space_exact aw m0 ins num H Hn). Qed.
Print Assumptions C12_has_space_exact.

(** Non-vacuity: a 3-word FIFO filled past its capacity, then drained with a simultaneous enqueue. *)
Definition ex_ins : list fifo_in :=
  [mkFifoIn true 10 false; mkFifoIn true 11 false; mkFifoIn true 12 false; mkFifoIn true 13 false;
   mkFifoIn false 0 true; mkFifoIn true 14 true; mkFifoIn false 0 true; mkFifoIn false 0 true;
   mkFifoIn false 0 true; mkFifoIn false 0 false].
Example ex_fifo_accepts : accepted (fifo_ios true 2 (fun _ => 99) ex_ins) = [10; 11; 12; 14].
Proof. vm_compute. reflexivity. Qed.
Example ex_fifo_delivers : delivered (fifo_ios true 2 (fun _ => 99) ex_ins) = [10; 11; 12; 14].
Proof. vm_compute. reflexivity. Qed.
Example ex_fifo_full : map (fun o => (o_full o, o_empty o))
   (outs (fifo_step true 2) (fifo_out true 2) (fifo_init (fun _ => 99)) ex_ins) =
   [(false,true);(false,false);(false,false);(true,false);(true,false);(false,false);
    (false,false);(false,false);(false,true);(false,true)].
Proof. vm_compute. reflexivity. Qed.
Example ex_thread : y_got (final (sys_step 2) (sys_init (fun _ => 0) [5; 6; 7])
                       (repeat (mkSched true true) 15)) = [5; 6; 7].
Proof. vm_compute. reflexivity. Qed.
