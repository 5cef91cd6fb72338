(** C63: the AXI stream input serves direct reads and DMA transfers into several RAMs in order, each
    from its own words of the stream, and always finishes. *)
From Verif Require Import Base Fifo_Model Ram_Model Ram_Spec AxiDma_Model AxiData_Model AxiData_Spec AxisIn_Model AxisIn_Spec AxisIn_Proofs.
Open Scope Z_scope.

(** At every moment the words taken so far are the words of the first jobs, in the order in which the
    jobs were issued, and at most those of the next job; the reads returned their own words. *)
Theorem C63_in_order : forall c m fm ins, legal_cfg c -> Forall (legal_in c) ins ->
  exists D rest wss cur, jobs c (init m fm) ins = D ++ rest /\ Forall2 (own_words c) D wss /\
    words c (init m fm) ins = concat wss ++ cur /\ results c (init m fm) ins = reads D wss /\
    match rest with [] => cur = [] | j :: _ => (length cur <= job_words c j)%nat end.
Proof. intros c m fm ins Hc H. exact (always c Hc m fm ins H). Qed.
Print Assumptions C63_in_order.

(** When [dma_wait_read] lets a thread pass, all jobs are served: from the next cycle on every RAM
    holds what the transfers into it ask for. *)
Theorem C63_wait : forall c m fm ins, legal_cfg c -> Forall (legal_in c) ins ->
  let s := run_ c (init m fm) ins in let js := jobs c (init m fm) ins in
  idle s = true ->
  exists wss, Forall2 (own_words c) js wss /\ words c (init m fm) ins = concat wss /\
    results c (init m fm) ins = reads js wss /\
    forall k i, (k < nops c)%nat -> wb_mem (u_wb (s_unit (step c s i) k)) = ram_after c k js wss (m k).
Proof. intros c m fm ins Hc H. exact (idle_done c Hc m fm ins H). Qed.
Print Assumptions C63_wait.

(** Without new jobs the engine is idle, and no thread is inside [read], after a number of valid words
    that depends only on the jobs. *)
Theorem C63_finishes : forall c m fm ins more, legal_cfg c -> Forall (legal_in c) (ins ++ more) -> Forall quiet_in more ->
  cost c (jobs c (init m fm) ins) <= valids more ->
  idle (run_ c (init m fm) (ins ++ more)) = true /\ s_thr (run_ c (init m fm) (ins ++ more)) = 0.
Proof. intros c m fm ins more Hc. exact (finishes c Hc m fm ins more). Qed.
Print Assumptions C63_finishes.

(** The statements that set and that clear [read_data_busy] never fire in the same cycle. *)
Theorem C63_busy : forall c m fm ins i, legal_cfg c -> Forall (legal_in c) ins -> let s := run_ c (init m fm) ins in
  (any c (fin c s i) || (s_thr s =? 2) && i_valid i) && (any c (dispatch c s) || (s_thr s =? 1) && idle s) = false.
Proof. intros c m fm ins i Hc H. exact (no_clash c Hc m fm ins i H). Qed.
Print Assumptions C63_busy.

(** Three RAMs (same width, twice as wide, half as wide) behind an 8-bit stream, and a read. *)
Definition ex_cfg : cfg := mkCfg 8 4 4 3 [mkOp Same 8 4; mkOp (Narrow 1) 8 4; mkOp (Wide 1) 4 4].
Definition ex_step (n : Z) (r : option (nat * Z * Z * Z)) (rd : bool) : inp := mkInp r rd true (16 * n + n + 1) (n =? 9).
Definition ex_in : list inp :=
  [ex_step 1 (Some (0%nat, 2, 1, 2)) true; ex_step 2 (Some (1%nat, 0, 2, 2)) false; ex_step 3 (Some (2%nat, 3, 1, 3)) false]
  ++ map (fun n => ex_step (Z.of_nat n) None false) (seq 4 11).
Definition ex_more : list inp := map (fun n => ex_step (Z.of_nat n mod 8) None false) (seq 0 60).
Example C63_case :
  let s0 := init (fun _ _ => 0) (fun _ => 0) in let s := run_ ex_cfg s0 (ex_in ++ ex_more) in
  jobs ex_cfg s0 (ex_in ++ ex_more) = [JDma 0 (2, 1, 2); JDma 1 (0, 2, 2); JDma 2 (3, 1, 3); JRead] /\
  idle s = true /\
  map (wb_mem (u_wb (s_unit s 0))) [1; 2; 3; 4] = [0; 69; 86; 0] /\
  map (wb_mem (u_wb (s_unit s 1))) [0; 1; 2] = [154 * 256 + 137; 0; 188 * 256 + 171] /\
  map (wb_mem (u_wb (s_unit s 2))) [2; 3; 4; 5; 6] = [0; 15; 14; 2; 0] /\
  length (words ex_cfg s0 (ex_in ++ ex_more)) = 9%nat /\ length (results ex_cfg s0 (ex_in ++ ex_more)) = 1%nat /\
  cost ex_cfg (jobs ex_cfg s0 ex_in) <= valids ex_more.
Proof. vm_compute. repeat split; congruence. Qed.
Example C63_case_legal : legal_cfg ex_cfg /\ Forall quiet_in ex_more /\ forallb (fun i => (0 <=? i_data i) && (i_data i <? 256)) (ex_in ++ ex_more) = true.
Proof.
  split; [|split].
  - unfold legal_cfg, ex_cfg, nops, legal_op. cbn. repeat split; try lia. repeat constructor; cbn; lia.
  - apply Forall_forall. intros x H. apply in_map_iff in H. destruct H as (n & <- & _). split; reflexivity.
  - vm_compute. reflexivity.
Qed.
