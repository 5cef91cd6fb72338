(** C72: the AXI stream output with FIFOs sends direct writes and DMA transfers out of several FIFOs in
    order, each with its own words, and always finishes -- if at most one FIFO has the stream's width,
    the FIFOs are synchronous, and the transfers out of FIFOs narrower than the stream consist of whole
    stream words. *)
From Verif Require Import Base AxiDma_Model Fifo_Model AxisIn_Model AxisInFifo_Model AxisInFifo_Spec AxisOut_Model AxisOutFifo_Model AxisOutFifo_Spec AxisOutFifo_Proofs.
Open Scope Z_scope.

(** At every moment the jobs issued are those that are over, [D], and the [rest]; what was sent, with the
    word that waits in the channel, is what the jobs over send, in the order in which they were issued,
    and what the running job repacked so far, without a last flag; what left a FIFO is what these jobs
    took. *)
Theorem C72_in_order_partial : forall c m fm ins, vlegal_cfg c -> Forall (vlegal_in c) ins ->
  let s0 := vinit m fm in let s := vrun c true s0 ins in
  exists D rest wss cur sent, vjobs c true s0 ins = D ++ rest /\ Forall2 vown D wss /\ vcursent c rest cur sent /\
    vsents c true s0 ins ++ vpending s = vsendall c D wss ++ vunmarked sent /\
    forall k, (k < nops c)%nat -> vpops c true k s0 ins = vtakes k D wss ++ vcurtake k rest cur.
Proof. intros c m fm ins Hc H. exact (valways c Hc m fm ins H). Qed.
Print Assumptions C72_in_order_partial.

(** When [dma_wait_write] lets a thread pass, every word is sent, except that the last one may wait in
    the channel, and exactly the words requested left the FIFOs. *)
Theorem C72_wait_partial : forall c m fm ins, vlegal_cfg c -> Forall (vlegal_in c) ins ->
  let s0 := vinit m fm in let s := vrun c true s0 ins in
  vidle s = true ->
  exists wss, Forall2 vown (vjobs c true s0 ins) wss /\ vsents c true s0 ins ++ vpending s = vsendall c (vjobs c true s0 ins) wss /\
    forall k, (k < nops c)%nat -> vpops c true k s0 ins = vtakes k (vjobs c true s0 ins) wss.
Proof. intros c m fm ins Hc H. exact (vidle_done c Hc m fm ins H). Qed.
Print Assumptions C72_wait_partial.

(** Without new jobs the engine is idle, no thread is inside [write] and no word waits in the channel
    after a number of good cycles that depends only on the jobs: cycles in which the receiver is ready
    and the running transfer does not wait for an empty FIFO. *)
Theorem C72_finishes_partial : forall c m fm ins more, vlegal_cfg c -> Forall (vlegal_in c) (ins ++ more) -> Forall vquiet_in more ->
  let s0 := vinit m fm in
  vcost c (vjobs c true s0 ins) <= vgoods c true (vrun c true s0 ins) more ->
  let s := vrun c true s0 (ins ++ more) in vidle s = true /\ v_thr s = 0 /\ v_tvalid s = false.
Proof. intros c m fm ins more Hc H1 H2 s0 H3. exact (vfinishes c Hc m fm ins more H1 H2 H3). Qed.
Print Assumptions C72_finishes_partial.

(** What leaves a FIFO is what entered it, in order (for every configuration with a FIFO of two words at
    least, every input, synchronous or not). *)
Theorem C72_delivered : forall c sy m fm ins k, 1 <= o_raw (opk c k) ->
  let s0 := vinit m fm in
  exists l, vpushes c sy k s0 ins = vpops c sy k s0 ins ++ l /\ Z.of_nat (length l) < 2 ^ o_raw (opk c k) /\
    (p_empty (v_f (v_unit (vrun c sy s0 ins) k)) = true <-> l = []).
Proof. intros c sy m fm ins k. exact (vpops_in_order c sy m fm ins k). Qed.
Print Assumptions C72_delivered.

(** A word the receiver does not take stays as it is (for every configuration and state). *)
Theorem C72_hold : forall c sy s i, v_tvalid s = true -> d_ready i = false ->
  let s' := vstep c sy s i in v_tvalid s' = true /\ v_tdata s' = v_tdata s /\ v_tlast s' = v_tlast s.
Proof. intros c sy s i. exact (vhold c sy s i). Qed.
Print Assumptions C72_hold.

(** The statements that set and that clear [write_data_busy] never fire in the same cycle. *)
Theorem C72_busy_partial : forall c m fm ins i, vlegal_cfg c -> Forall (vlegal_in c) ins ->
  let s := vrun c true (vinit m fm) ins in
  (any c (vfin c true s i) || (v_thr s =? 2) && vack s i) && (any c (vdispatch c s) || (v_thr s =? 1) && vidle s) = false.
Proof. intros c m fm ins i Hc H. exact (vno_clash c Hc m fm ins i H). Qed.
Print Assumptions C72_busy_partial.

(** With several FIFOs, all of the stream's width, a request for any but the first is never served: once
    it was accepted, the engine is never idle again, however long it runs: [set_index(1)] for the second
    FIFO lays its states over those of the first one, one off, where nothing starts them. *)
Theorem C72_two_same_refuted : forall c sy m fm ins,
  1 <= g_aw c /\ 1 <= g_sw c /\ 1 <= g_fa c /\ Z.of_nat (nops c) < 2 ^ g_sw c ->
  Forall (fun o => o_ratio o = Same) (g_ops c) ->
  Forall (fun i => match d_req i with Some (k, n) => (k < nops c)%nat /\ 0 <= n < 2 ^ lw c | None => True end) ins ->
  let s0 := vinit m fm in
  existsb (fun j => match j with VDma k _ => negb (Nat.eqb k 0) | VWrite _ _ => false end) (vjobs c sy s0 ins) = true ->
  vidle (vrun c sy s0 ins) = false.
Proof. intros c sy m fm ins H1 H2 H3. exact (vdead c H1 H2 sy m fm ins H3). Qed.
Print Assumptions C72_two_same_refuted.

Definition ex_zero : vst := vinit (fun _ _ => 0) (fun _ => 0).
(** [n] cycles in which the receiver is ready and every FIFO is offered a word *)
Definition ex_flow (n : nat) : list vinp := repeat (mkVinp None None true (fun _ => Some 5)) n.
Definition ex_ask (k : nat) (n : Z) : vinp := mkVinp (Some (k, n)) None true (fun _ => Some 5).
Definition ex_vcfg : cfg := mkCfg 8 4 4 3 [mkOp Same 8 3; mkOp (Narrow 1) 8 3; mkOp (Wide 1) 4 3].
(** a case of the theorem above *)
Example C72_two_same_case :
  let c := mkCfg 8 4 4 3 [mkOp Same 8 3; mkOp Same 8 3] in
  vjobs c true ex_zero (ex_ask 0 2 :: ex_flow 20 ++ ex_ask 1 2 :: ex_flow 60) = [VDma 0 2; VDma 1 2] /\
  vsents c true ex_zero (ex_ask 0 2 :: ex_flow 20 ++ ex_ask 1 2 :: ex_flow 60) = [(5, false); (5, true)].
Proof. vm_compute. auto. Qed.

(** FIFOs without [sync]: a transfer of the stream's width, and one out of a narrow FIFO, sends its words
    but no last flag, and is not over after many more cycles than it needs with [sync]. *)
Theorem C72_async_refuted :
  let run k := ex_ask k 2 :: ex_flow 200 in
  (vsents ex_vcfg false ex_zero (run 0%nat) = [(5, false); (5, false)] /\ vidle (vrun ex_vcfg false ex_zero (run 0%nat)) = false) /\
  (vsents ex_vcfg true ex_zero (run 0%nat) = [(5, false); (5, true)] /\ vidle (vrun ex_vcfg true ex_zero (run 0%nat)) = true) /\
  (vsents ex_vcfg false ex_zero (run 2%nat) = [(85, false)] /\ vidle (vrun ex_vcfg false ex_zero (run 2%nat)) = false) /\
  (vsents ex_vcfg true ex_zero (run 2%nat) = [(85, true)] /\ vidle (vrun ex_vcfg true ex_zero (run 2%nat)) = true).
Proof. vm_compute. repeat split. Qed.
Print Assumptions C72_async_refuted.

(** A transfer of three words out of a FIFO half as wide as the stream takes four words; if the FIFO is
    given only the three, it waits for the fourth, and the third word is not sent. *)
Theorem C72_wide_size_refuted :
  let three := ex_ask 2 3 :: ex_flow 2 ++ repeat (mkVinp None None true (fun _ => None)) 200 in
  length (vpops ex_vcfg true 2 ex_zero (ex_ask 2 3 :: ex_flow 200)) = 4%nat /\ vidle (vrun ex_vcfg true ex_zero (ex_ask 2 3 :: ex_flow 200)) = true /\
  length (vpops ex_vcfg true 2 ex_zero three) = 3%nat /\ vsents ex_vcfg true ex_zero three = [(85, false)] /\ vidle (vrun ex_vcfg true ex_zero three) = false.
Proof. vm_compute. repeat split. Qed.
Print Assumptions C72_wide_size_refuted.

(** Three FIFOs (same width, twice as wide, half as wide) behind an 8-bit stream, and a write; the
    receiver pauses, the producers are slow. *)
Definition ex_vin (n : Z) (r : option (nat * Z)) (w : option (Z * bool)) : vinp :=
  mkVinp r w (negb (n mod 3 =? 1)) (fun k => if Z.odd (n + Z.of_nat k)
    then Some ((n * 17 + 40 * Z.of_nat k) mod (match k with 0%nat => 256 | 1%nat => 65536 | _ => 16 end)) else None).
Definition ex_jobs : list vinp := [ex_vin 1 (Some (0%nat, 3)) (Some (200, true)); ex_vin 2 (Some (1%nat, 2)) None; ex_vin 3 (Some (2%nat, 4)) None].
Definition ex_later : list vinp := map (fun n => ex_vin (Z.of_nat n) None None) (seq 4 100).
Example C72_case :
  vjobs ex_vcfg true ex_zero (ex_jobs ++ ex_later) = [VDma 0 3; VDma 1 2; VDma 2 4; VWrite 200 true] /\
  vpops ex_vcfg true 0 ex_zero (ex_jobs ++ ex_later) = [17; 51; 85] /\ vpops ex_vcfg true 1 ex_zero (ex_jobs ++ ex_later) = [74; 108] /\
  vpops ex_vcfg true 2 ex_zero (ex_jobs ++ ex_later) = [1; 3; 5; 7] /\
  vsents ex_vcfg true ex_zero (ex_jobs ++ ex_later) =
    [(17, false); (51, false); (85, true); (74, false); (0, false); (108, false); (0, true); (49, false); (117, true); (200, true)] /\
  vcost ex_vcfg (vjobs ex_vcfg true ex_zero ex_jobs) <= vgoods ex_vcfg true (vrun ex_vcfg true ex_zero ex_jobs) ex_later.
Proof. vm_compute. repeat split; congruence. Qed.
Example C72_case_legal : vlegal_cfg ex_vcfg /\ Forall (vlegal_in ex_vcfg) (ex_jobs ++ ex_later) /\ Forall vquiet_in ex_later.
Proof.
  split; [|split].
  - unfold vlegal_cfg, ex_vcfg, nops. cbn. repeat split; try lia.
    + repeat constructor; cbn; lia.
    + intros j k Hj Hk. destruct j as [|[|[|j]]], k as [|[|[|k]]]; cbn; auto; try discriminate; lia.
  - apply Forall_app. split; [repeat constructor; cbn; unfold lw; cbn; lia|]. apply Forall_forall. intros x H. apply in_map_iff in H. destruct H as (n & <- & _). exact I.
  - apply Forall_forall. intros x H. apply in_map_iff in H. destruct H as (n & <- & _). split; reflexivity.
Qed.
