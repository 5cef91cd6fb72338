(** Property theorems C13 (skid buffer). *)
From Verif Require Import Base Skid_Model Skid_Spec Skid_Proofs.

(** C13.  Chains of any number of skid buffers, any data type, any valid/ready traffic on both
    sides: words taken in = words given out ++ at most 2n words still inside. *)
Theorem C13_skid_lossless_in_order :
  forall (A : Type) (z : A) n ins,
    exists rest, taken (history (repeat (sb_init z) n) ins) =
                 given (history (repeat (sb_init z) n) ins) ++ rest /\
                 length rest <= 2 * n.
Proof. intros A z n ins. exact (lossless z n ins). Qed.
Print Assumptions C13_skid_lossless_in_order.

(** C13.  Output valid, once high, stays high with the same data until accepted. *)
Theorem C13_skid_output_stable :
  forall (A : Type) (z : A) n ins, n <> 0 -> stable (history (repeat (sb_init z) n) ins).
Proof.
  intros A z n ins H. refine (stable_gen ins _ _ (init_ok z n)).
  destruct n; [contradiction|discriminate].
Qed.
Print Assumptions C13_skid_output_stable.

(** C13.  With an always-ready consumer the input is accepted in every cycle. *)
Theorem C13_skid_full_throughput :
  forall (A : Type) (z : A) n ins, Forall (fun i : sb_in A => in_ready i = true) ins ->
    Forall (fun o => out_ready o = true) (outs chain_tick chain_obs (repeat (sb_init z) n) ins).
Proof. intros A z n ins H. exact (throughput z n ins H). Qed.
Print Assumptions C13_skid_full_throughput.

(** C13.  After arbitrary traffic, once the producer pauses and the consumer stays ready
    long enough, everything taken in has been given out, exactly once and in order. *)
Theorem C13_skid_drains :
  forall (A : Type) (z : A) n ins x k, n * (n + 2) <= k ->
    taken (history (repeat (sb_init z) n) (ins ++ repeat (mkSbIn false x true) k)) =
    given (history (repeat (sb_init z) n) (ins ++ repeat (mkSbIn false x true) k)).
Proof. intros A z n ins x k H. exact (drains z n ins x k H). Qed.
Print Assumptions C13_skid_drains.

(** Non-vacuity: two buffers in series, stalled consumer, back-pressure reaching the producer. *)
Definition ex_skid_ins : list (sb_in nat) :=
  [mkSbIn true 1 false; mkSbIn true 2 false; mkSbIn true 3 false; mkSbIn true 4 false;
   mkSbIn true 5 false; mkSbIn true 6 false; mkSbIn true 7 true; mkSbIn true 8 true;
   mkSbIn false 0 true; mkSbIn false 0 true; mkSbIn false 0 true].
Example ex_skid_taken : taken (history (repeat (sb_init 0) 2) ex_skid_ins) = [1;2;3;4].
Proof. vm_compute. reflexivity. Qed.
Example ex_skid_given : given (history (repeat (sb_init 0) 2) ex_skid_ins) = [1;2;3;4].
Proof. vm_compute. reflexivity. Qed.
Example ex_skid_backpressure :
  map (@out_ready nat) (outs chain_tick chain_obs (repeat (sb_init 0) 2) ex_skid_ins) =
  [true;true;true;true;false;false;false;false;true;true;true].
Proof. vm_compute. reflexivity. Qed.
