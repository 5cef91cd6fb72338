(** C71: the AXI stream input with FIFOs serves direct reads and DMA transfers into several FIFOs in
    order, each from its own words of the stream, and loses no word however full the FIFOs are.
    Partial: at most one FIFO of the stream's width; transfers into a narrower FIFO consist of whole
    stream words, and the FIFO has room in the cycle after the transfer ends.  The refutations at the
    end show that each of the three conditions is needed. *)
From Verif Require Import Base Fifo_Model AxiDma_Model AxiData_Model AxiData_Spec AxisIn_Model AxisInFifo_Model AxisInFifo_Spec AxisInFifo_Proofs.
Open Scope Z_scope.

(** At every moment the words taken so far are the words of the first jobs, in the order in which the
    jobs were issued, and at most those of the next job; the reads returned their own words; and into
    every FIFO went the words its jobs ask for, but for at most one that is still on its way. *)
Theorem C71_in_order_partial : forall c m fm ins, blegal_cfg c -> Forall (blegal_in c) ins -> broomy c (binit m fm) ins ->
  exists D rest wss cur, bjobs c (binit m fm) ins = D ++ rest /\ Forall2 (bown c) D wss /\
    bwords c (binit m fm) ins = concat wss ++ cur /\ bresults c (binit m fm) ins = breads D wss /\
    match rest with [] => cur = [] | j :: _ => (length cur <= bjob_words c j)%nat end /\
    forall k, (k < nops c)%nat -> exists p later, bprogress c k rest cur p /\
      bpushes c k (binit m fm) ins ++ later = bfilled c k D wss ++ bpart c k rest cur p /\ (length later <= 1)%nat.
Proof. intros c m fm ins Hc H HR. exact (always c Hc m fm ins H HR). Qed.
Print Assumptions C71_in_order_partial.

(** When [dma_wait_read] lets a thread pass, all jobs are served: with the next cycle, whatever comes
    in, every FIFO has received exactly what the transfers into it ask for. *)
Theorem C71_wait_partial : forall c m fm ins, blegal_cfg c -> Forall (blegal_in c) ins -> broomy c (binit m fm) ins ->
  let s := brun_ c (binit m fm) ins in let js := bjobs c (binit m fm) ins in
  bidle s = true ->
  exists wss, Forall2 (bown c) js wss /\ bwords c (binit m fm) ins = concat wss /\
    bresults c (binit m fm) ins = breads js wss /\
    forall k i, (k < nops c)%nat -> bpushes c k (binit m fm) (ins ++ [i]) = bfilled c k js wss.
Proof. intros c m fm ins Hc H HR. exact (idle_done c Hc m fm ins H HR). Qed.
Print Assumptions C71_wait_partial.

(** Without new jobs the engine is idle, and no thread is inside [read], after a number of cycles with a
    valid word and room in the FIFOs that depends only on the jobs. *)
Theorem C71_finishes_partial : forall c m fm ins more, blegal_cfg c -> Forall (blegal_in c) (ins ++ more) ->
  broomy c (binit m fm) (ins ++ more) -> Forall bquiet_in more ->
  bcost c (bjobs c (binit m fm) ins) <= bgoods c (brun_ c (binit m fm) ins) more ->
  bidle (brun_ c (binit m fm) (ins ++ more)) = true /\ b_thr (brun_ c (binit m fm) (ins ++ more)) = 0.
Proof. intros c m fm ins more Hc. exact (finishes c Hc m fm ins more). Qed.
Print Assumptions C71_finishes_partial.

(** What leaves a FIFO is what entered it, in order, without any of the three conditions on transfers; a
    word taken shows at the read port in the next cycle. *)
Theorem C71_delivered_partial : forall c m fm ins k, blegal_cfg c -> (k < nops c)%nat ->
  let s := brun_ c (binit m fm) ins in
  exists l, bpushes c k (binit m fm) ins = bpops c k (binit m fm) ins ++ l /\ Z.of_nat (length l) < 2 ^ o_raw (opk c k) /\
    (p_empty (b_f (b_unit s k)) = true <-> l = []) /\
    forall i x, bpop k s i = [x] -> hd_error l = Some x /\ p_rdata true (b_f (b_unit (bstep c s i) k)) = x.
Proof. intros c m fm ins k Hc. exact (pops_in_order c Hc m fm ins k). Qed.
Print Assumptions C71_delivered_partial.

(** The statements that set and that clear [read_data_busy] never fire in the same cycle. *)
Theorem C71_busy_partial : forall c m fm ins i, blegal_cfg c -> Forall (blegal_in c) ins -> broomy c (binit m fm) ins ->
  let s := brun_ c (binit m fm) ins in
  (any c (bfin c s i) || (b_thr s =? 2) && c_valid i) && (any c (bdispatch c s) || (b_thr s =? 1) && bidle s) = false.
Proof. intros c m fm ins i Hc H HR. exact (no_clash c Hc m fm ins i H HR). Qed.
Print Assumptions C71_busy_partial.

(** Three FIFOs of eight places (same width, twice as wide, half as wide) behind an 8-bit stream, all
    three transfers longer than a FIFO, and a read. *)
Definition ex_cfg : cfg := mkCfg 8 4 4 3 [mkOp Same 8 3; mkOp (Narrow 1) 8 3; mkOp (Wide 1) 4 3].
Definition ex_step (n : Z) (r : option (nat * Z)) (rd : bool) : binp :=
  mkBinp r rd true (16 * n + n + 1) (n =? 9) (fun k => Z.odd (n + Z.of_nat k)).
Definition ex_in : list binp := [ex_step 1 (Some (0%nat, 9)) true; ex_step 2 (Some (1%nat, 9)) false; ex_step 3 (Some (2%nat, 10)) false].
Definition ex_more : list binp := map (fun n => ex_step (Z.of_nat n mod 10) None false) (seq 4 120).
Definition ex0 : bst := binit (fun _ _ => 0) (fun _ => 0).
(** the condition on room, for a run of this length *)
Fixpoint roomy_b (c : cfg) (s : bst) (ins : list binp) : bool :=
  forallb (fun k => match o_ratio (opk c k) with
    | Wide _ => negb ((bfsm s (Wide 0) =? 0) && b_wvalid (b_unit s k) && baf c s k) | _ => true end) (seq 0 (nops c))
  && match ins with [] => true | i :: r => roomy_b c (bstep c s i) r end.
Lemma roomy_b_ok c ins : forall s, roomy_b c s ins = true -> broomy c s ins.
Proof.
  assert (G : forall s, forallb (fun k => match o_ratio (opk c k) with
    | Wide _ => negb ((bfsm s (Wide 0) =? 0) && b_wvalid (b_unit s k) && baf c s k) | _ => true end) (seq 0 (nops c)) = true -> broomy1 c s).
  { intros s H k Hk. rewrite forallb_forall in H. specialize (H k ltac:(apply in_seq; lia)). destruct (o_ratio (opk c k)); auto.
    intros E1 E2. rewrite E1, E2 in H. cbn in H. destruct (baf c s k); [discriminate|reflexivity]. }
  induction ins as [|i ins IH]; intros s H; cbn [roomy_b] in H; apply andb_prop in H; destruct H as [H1 H2].
  - split; [apply G, H1|exact I].
  - split; [apply G, H1|apply IH, H2].
Qed.
Example C71_case :
  let ins := ex_in ++ ex_more in let s := brun_ ex_cfg ex0 ins in
  bjobs ex_cfg ex0 ins = [BDma 0 9; BDma 1 9; BDma 2 10; BRead] /\ bidle s = true /\
  map (fun k => length (bpushes ex_cfg k ex0 ins)) [0%nat; 1%nat; 2%nat] = [9%nat; 9%nat; 10%nat] /\
  map (fun k => length (bpops ex_cfg k ex0 ins)) [0%nat; 1%nat; 2%nat] = [9%nat; 9%nat; 10%nat] /\
  length (bwords ex_cfg ex0 ins) = 33%nat /\ length (bresults ex_cfg ex0 ins) = 1%nat /\
  bcost ex_cfg (bjobs ex_cfg ex0 ex_in) <= bgoods ex_cfg (brun_ ex_cfg ex0 ex_in) ex_more.
Proof. vm_compute. repeat split; congruence. Qed.
Example C71_case_legal : blegal_cfg ex_cfg /\ Forall bquiet_in ex_more /\ Forall (blegal_in ex_cfg) (ex_in ++ ex_more) /\ broomy ex_cfg ex0 (ex_in ++ ex_more).
Proof.
  split; [|split; [|split]].
  - unfold blegal_cfg, ex_cfg, nops. cbn [g_ops length g_aw g_sw g_fa g_dw]. split; [lia|]. split; [lia|]. split; [lia|]. split; [cbn; lia|]. split.
    + repeat constructor; cbn; lia.
    + intros [|[|[|j]]] [|[|[|k]]]; cbn; intros; try reflexivity; try discriminate; lia.
  - apply Forall_forall. intros x H. apply in_map_iff in H. destruct H as (n & <- & _). split; reflexivity.
  - apply Forall_app. split; [repeat constructor; cbn; lia|]. apply Forall_forall. intros x H. apply in_map_iff in H. destruct H as (n & <- & _).
    pose proof (Z.mod_pos_bound (Z.of_nat n) 10 ltac:(lia)). split; [|exact I]. unfold ex_step. cbn [c_data g_dw ex_cfg]. lia.
  - apply roomy_b_ok. vm_compute. reflexivity.
Qed.

(** ** What fails *)
(** two FIFOs of the stream's width: the size is counted down and the transfer ended by the machine of
    the other FIFO, too, while the own one is almost full [675-677,683-689] *)
Definition two : cfg := mkCfg 8 4 4 3 [mkOp Same 8 3; mkOp Same 8 3].
Definition one_job (k : nat) (n : Z) (deq : nat -> bool) (t : nat) : list binp :=
  mkBinp (Some (k, n)) false true 7 false (fun _ => false) :: map (fun x => mkBinp None false true (Z.of_nat x) false (fun _ => deq x)) (seq 0 t).
Theorem C71_two_same_refuted :
  ~ (forall ins, let s := brun_ two ex0 ins in bidle s = true ->
       forall k n, bjobs two ex0 ins = [BDma k n] -> length (bwords two ex0 ins) = Z.to_nat n).
Proof.
  intros H. specialize (H (one_job 0 9 (fun _ => false) 30) ltac:(vm_compute; reflexivity) 0%nat 9 ltac:(vm_compute; reflexivity)).
  vm_compute in H. discriminate.
Qed.
Print Assumptions C71_two_same_refuted.
Example C71_two_same_values : let ins := one_job 0 9 (fun _ => false) 30 in
  bidle (brun_ two ex0 ins) = true /\ length (bpushes two 0 ex0 ins) = 6%nat.
Proof. vm_compute. split; reflexivity. Qed.
(** narrower FIFO, size not a multiple of the ratio: the end is only looked for at the last part of a
    word, when the counter of 5 bits has passed zero [843-845,864-869] *)
Theorem C71_wide_size_refuted :
  ~ (forall ins, bjobs (mkCfg 8 4 4 3 [mkOp (Wide 2) 2 3]) ex0 ins = [BDma 0 1] ->
       (length (bpushes (mkCfg 8 4 4 3 [mkOp (Wide 2) 2 3]) 0 ex0 ins) <= 4)%nat).
Proof.
  intros H. specialize (H (one_job 0 1 (fun _ => true) 90) ltac:(vm_compute; reflexivity)).
  vm_compute in H. repeat (apply le_S_n in H). inversion H.
Qed.
Print Assumptions C71_wide_size_refuted.
(** narrower FIFO that gets almost full with the last but one word: the last one is lost, since the
    machine in state 0 clears [wvalid] unconditionally [821-824] *)
Definition wide1 : cfg := mkCfg 8 4 4 3 [mkOp (Wide 1) 4 3].
Theorem C71_wide_last_refuted :
  ~ (forall ins i, let s := brun_ wide1 ex0 ins in bidle s = true ->
       bjobs wide1 ex0 ins = [BDma 0 8] -> length (bpushes wide1 0 ex0 (ins ++ [i])) = 8%nat).
Proof.
  intros H. specialize (H (one_job 0 8 (fun x => Nat.eqb x 5) 60) (mkBinp None false false 0 false (fun _ => true)) ltac:(vm_compute; reflexivity) ltac:(vm_compute; reflexivity)).
  vm_compute in H. discriminate.
Qed.
Print Assumptions C71_wide_last_refuted.
Example C71_wide_last_values : let ins := one_job 0 8 (fun x => Nat.eqb x 5) 60 in
  bidle (brun_ wide1 ex0 ins) = true /\ length (bwords wide1 ex0 ins) = 4%nat /\ bpushes wide1 0 ex0 ins = [1; 0; 3; 0; 5; 0; 7].
Proof. vm_compute. repeat split; reflexivity. Qed.
