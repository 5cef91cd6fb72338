(** Theorems about one run of a thread stream. *)
From Verif Require Import Base Pat_Model Stream_Model Stream_Spec Stream_Proofs Stream_Props Srun_Model Srun_Spec Srun_Proofs.
Open Scope Z_scope.

(** ** C68: [run] and [join] *)
(** From a quiet stream, whatever the stalls: until the thread has passed [join] it is under way, and this
    lasts a bounded number of unstalled cycles; when it has passed [join] the stream has done exactly one
    run and is quiet again. *)
Theorem C68_run_partial c s rest ins : good c -> ready c s ->
  let start := mkSys (m_run ++ m_join ++ rest) s in
  let y := final (sys_step c) start ins in
  ((length rest < length (y_thr y))%nat /\ (ticks ins <= c_depth c + elements c + 7)%nat) \/
  exists ins1 ins2, ins = ins1 ++ ins2 /\ y_thr (final (sys_step c) start ins1) = rest /\
    ready c (y_str (final (sys_step c) start ins1)) /\ one_run c s (y_str (final (sys_step c) start ins1)) /\
    (ticks ins1 <= c_depth c + elements c + 8)%nat.
Proof.
  intros G R. destruct (run_join c G s rest ins R) as [H|(i1 & i2 & E & (F1 & F2 & F3) & B)]; [left; exact H|].
  right. exists i1, i2. auto.
Qed.
Print Assumptions C68_run_partial.

(** Any number of runs one after the other. *)
Theorem C68_runs_partial c n s ins : good c -> ready c s ->
  let start := mkSys (concat (repeat (m_run ++ m_join) n)) s in
  (y_thr (final (sys_step c) start ins) = [] \/ n * (c_depth c + elements c + 8) <= ticks ins)%nat ->
  exists ins1 ins2 s', ins = ins1 ++ ins2 /\ final (sys_step c) start ins1 = mkSys [] s' /\ runs c n s s'.
Proof. intros G R. exact (repeat_runs c G n s ins R). Qed.
Print Assumptions C68_runs_partial.

(** The stream is quiet after reset. *)
Theorem C68_reset c : ready c (strm_init c).
Proof.
  unfold ready, strm_init. cbn [s_st s_start s_busy s_ivalid s_rr s_d s_e s_ks s_kp s_kb s_kbp s_breg s_src s_snk]. rewrite !map_length.
  repeat split; try reflexivity; apply Forall_forall; intros x Hx; apply in_map_iff in Hx; destruct Hx as (y & <- & _); auto.
Qed.
Print Assumptions C68_reset.

(** The results of [one_run], when the pipeline is that of a data-flow graph: what the graph means for the
    elements of the run. *)
Theorem C68_results g outs : user_graph g -> Forall (fun n => (n < length g)%nat) outs ->
  exists h m rs, build g outs = Some (h, m, rs) /\
    forall c par, c_depth c = m -> pipeline_of h m rs par (c_pipe c) ->
    forall hist d t j n y, (t + m < length hist)%nat -> nth_error outs j = Some n ->
      den g par (fun t => nth t hist d) n t y -> result c hist j t = y.
Proof.
  intros UG F. destruct (C28_pipeline g outs true UG F (or_introl eq_refl)) as (h & m & rs & B & L & P). exists h, m, rs. split; [exact B|].
  intros c par Dm PO hist d t j n y LT Hn Hy. unfold result. rewrite Dm.
  destruct (PO (firstn (t + m) hist) (nth (t + m) hist (mkElem (fun _ => 0) false))) as (r & v & EX & W & O).
  assert (exists o, nth_error rs j = Some o) as (o & Ho).
  { destruct (nth_error rs j) eqn:E; [eauto|]. apply nth_error_None in E. assert (j < length outs)%nat by (apply nth_error_Some; congruence). lia. }
  rewrite (O j o Ho). assert (LF : length (firstn (t + m) hist) = (t + m)%nat) by (rewrite firstn_length; lia).
  apply (P par _ r _ v EX W j n o t y Hn Ho); [now rewrite LF|]. apply (den_causal g par (fun t => nth t hist d)); [exact Hy|]. intros q Hq.
  destruct (Nat.lt_ge_cases q (t + m)) as [LQ|GQ].
  - rewrite <- (firstn_skipn (t + m) hist) at 1. rewrite app_nth1 by lia. apply nth_indep. lia.
  - rewrite (nth_overflow (firstn _ _)) by lia. replace q with (t + m)%nat by lia. apply nth_indep. exact LT.
Qed.
Print Assumptions C68_results.

(** ** Examples *)
(** two sources of different sizes, a sink with a condition; three stages; stalls *)
Definition ex_pipe : pipe := fun xs x j => let e := nth (length xs - 3) xs x in match j with O => e_in e 0%nat + e_in e 1%nat | _ => e_in e 0%nat mod 2 end.
Definition ex_c : cfg := mkCfg 8 3 ex_pipe [mkSC 10 4 1 (fun a => a * a); mkSC 250 3 4 (fun a => a)] [mkKC 50 4 1 0 None; mkKC 60 2 3 0 (Some 1%nat)].
Definition ex_ins : list bool := concat (repeat [true; false; true; true] 5).
Example ex_good : good ex_c.
Proof. unfold good, ex_c, fits. cbn. repeat split; try lia; try discriminate; repeat constructor; cbn; lia. Qed.
Example ex_run : let y := final (sys_step ex_c) (mkSys (m_run ++ m_join) (strm_init ex_c)) ex_ins in
  y_thr y = [] /\ map w_log (s_snk (y_str y)) = [[(50, 350); (51, 375); (52, 146); (53, 171)]; [(60, 375); (63, 171)]] /\
  y_thr (final (sys_step ex_c) (mkSys (m_run ++ m_join) (strm_init ex_c)) (firstn 18 ex_ins)) = [TJoin].
Proof. vm_compute. repeat split. Qed.
(** the pipeline of the graph of [Stream_Props] *)
Lemma ex_wires x s : wires_ok ex_h (fun _ => 0) x s (sig ex_h (fun _ => 0) x s 10).
Proof.
  assert (F : Forall (fun n => (n < length ex_g)%nat) ex_outs) by (repeat constructor).
  destruct (build_ok ex_g ex_user ex_outs F) as (h & m & rs & B & I & _).
  assert (E : ex_h = h) by (unfold ex_h; now rewrite B). rewrite E. exact (wires_solve ex_g ex_user h (fun _ => 0) x s I).
Qed.
Example ex_pipeline : pipeline_of ex_h 5 [5%nat; 14%nat] (fun _ => 0)
  (fun xs x j => sig ex_h (fun _ => 0) x (run ex_h true 10 (map (pair true) xs) (init_regs ex_h 5)) 10 (nth j [5%nat; 14%nat] 0%nat)).
Proof.
  intros xs x. eexists. eexists. split; [exact (exec_run ex_h true 5 10 ex_wires xs [] _ (exec_reset _ _ _ _))|]. split; [apply ex_wires|].
  intros j o H. cbn beta. now rewrite (nth_error_nth _ _ _ H).
Qed.

(** ** Where it fails *)
Definition c_deep (n : Z) : cfg := mkCfg 8 10 (fun xs x j => e_in (nth (length xs - 10) xs x) 0%nat) [mkSC 10 3 1 (fun a => a)] [mkKC 50 n 1 0 None].
Lemma c_deep_good n : 1 <= n < 512 -> good (c_deep n).
Proof. intros H. unfold good, c_deep, fits. cbn. repeat split; try lia; try discriminate; repeat constructor; cbn; lia. Qed.
(** A second run is started while the first is still in the pipeline.  When the pipeline is deep and the second
    run short, [busy] falls between the two, and [join] ends before the second run has written anything. *)
Theorem C68_overlap_refuted :
  ~ (forall c s ins, good c -> ready c s ->
       y_thr (final (sys_step c) (mkSys (m_run ++ m_source_join ++ m_run ++ m_join) s) ins) = [] ->
       forall j x k k', nth_error (c_snk c) j = Some x -> kc_when x = None -> kc_size x = longest c -> nth_error (s_snk s) j = Some k ->
         nth_error (s_snk (y_str (final (sys_step c) (mkSys (m_run ++ m_source_join ++ m_run ++ m_join) s) ins))) j = Some k' ->
         length (w_log k') = (length (w_log k) + 2 * elements c)%nat).
Proof.
  intros H. pose (z := nth 0 (s_snk (y_str (final (sys_step (c_deep 3)) (mkSys (m_run ++ m_source_join ++ m_run ++ m_join) (strm_init (c_deep 3))) (repeat true 21)))) snk_init).
  specialize (H (c_deep 3) (strm_init (c_deep 3)) (repeat true 21) (c_deep_good 3 ltac:(lia)) (C68_reset _)).
  specialize (H ltac:(vm_compute; reflexivity) 0%nat (mkKC 50 3 1 0 None) snk_init z eq_refl eq_refl eq_refl eq_refl ltac:(vm_compute; reflexivity)).
  assert (Z1 : length (w_log z) = 3%nat) by (vm_compute; reflexivity). rewrite Z1 in H. clear Z1. vm_compute in H. clear z. discriminate H.
Qed.
Print Assumptions C68_overlap_refuted.
(** [source_join_and_run] leaves one cycle between the runs; a stall in this cycle has the same effect. *)
Theorem C68_restart_stall_refuted :
  ~ (forall c s ins, good c -> ready c s ->
       y_thr (final (sys_step c) (mkSys (m_run ++ m_source_join_and_run ++ m_join) s) ins) = [] ->
       forall j x k k', nth_error (c_snk c) j = Some x -> kc_when x = None -> kc_size x = longest c -> nth_error (s_snk s) j = Some k ->
         nth_error (s_snk (y_str (final (sys_step c) (mkSys (m_run ++ m_source_join_and_run ++ m_join) s) ins))) j = Some k' ->
         length (w_log k') = (length (w_log k) + 2 * elements c)%nat).
Proof.
  intros H. pose (z := nth 0 (s_snk (y_str (final (sys_step (c_deep 3)) (mkSys (m_run ++ m_source_join_and_run ++ m_join) (strm_init (c_deep 3))) (repeat true 19 ++ repeat false 3)))) snk_init).
  specialize (H (c_deep 3) (strm_init (c_deep 3)) (repeat true 19 ++ repeat false 3) (c_deep_good 3 ltac:(lia)) (C68_reset _)).
  specialize (H ltac:(vm_compute; reflexivity) 0%nat (mkKC 50 3 1 0 None) snk_init z eq_refl eq_refl eq_refl eq_refl ltac:(vm_compute; reflexivity)).
  assert (Z1 : length (w_log z) = 3%nat) by (vm_compute; reflexivity). rewrite Z1 in H. clear Z1. vm_compute in H. clear z. discriminate H.
Qed.
Print Assumptions C68_restart_stall_refuted.
(** A [run] while the stream is running is lost. *)
Theorem C68_second_run_refuted :
  ~ (forall c s ins, good c -> ready c s ->
       y_thr (final (sys_step c) (mkSys (m_run ++ m_run ++ m_join) s) ins) = [] ->
       forall j x k k', nth_error (c_snk c) j = Some x -> kc_when x = None -> kc_size x = longest c -> nth_error (s_snk s) j = Some k ->
         nth_error (s_snk (y_str (final (sys_step c) (mkSys (m_run ++ m_run ++ m_join) s) (ins ++ repeat true 100)))) j = Some k' ->
         length (w_log k') = (length (w_log k) + 2 * elements c)%nat).
Proof.
  intros H. pose (z := nth 0 (s_snk (y_str (final (sys_step (c_deep 3)) (mkSys (m_run ++ m_run ++ m_join) (strm_init (c_deep 3))) ((repeat true 40) ++ repeat true 100)))) snk_init).
  specialize (H (c_deep 3) (strm_init (c_deep 3)) (repeat true 40) (c_deep_good 3 ltac:(lia)) (C68_reset _)).
  specialize (H ltac:(vm_compute; reflexivity) 0%nat (mkKC 50 3 1 0 None) snk_init z eq_refl eq_refl eq_refl eq_refl ltac:(vm_compute; reflexivity)).
  assert (Z1 : length (w_log z) = 3%nat) by (vm_compute; reflexivity). rewrite Z1 in H. clear Z1. vm_compute in H. clear z. discriminate H.
Qed.
Print Assumptions C68_second_run_refuted.
(** A sink with a larger size than the run has elements writes one word more than the run has. *)
Theorem C68_oversize_refuted :
  ~ (forall c s ins, good c -> ready c s -> y_thr (final (sys_step c) (mkSys (m_run ++ m_join) s) ins) = [] ->
       forall j x k k', nth_error (c_snk c) j = Some x -> nth_error (s_snk s) j = Some k ->
         nth_error (s_snk (y_str (final (sys_step c) (mkSys (m_run ++ m_join) s) ins))) j = Some k' ->
         (length (w_log k') <= length (w_log k) + elements c)%nat).
Proof.
  intros H. pose (z := nth 0 (s_snk (y_str (final (sys_step (c_deep 7)) (mkSys (m_run ++ m_join) (strm_init (c_deep 7))) (repeat true 40)))) snk_init).
  specialize (H (c_deep 7) (strm_init (c_deep 7)) (repeat true 40) (c_deep_good 7 ltac:(lia)) (C68_reset _)).
  specialize (H ltac:(vm_compute; reflexivity) 0%nat (mkKC 50 7 1 0 None) snk_init z eq_refl eq_refl ltac:(vm_compute; reflexivity)).
  assert (Z1 : length (w_log z) = 4%nat) by (vm_compute; reflexivity). rewrite Z1 in H. clear Z1. vm_compute in H. clear z. lia.
Qed.
Print Assumptions C68_oversize_refuted.
