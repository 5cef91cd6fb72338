From Verif Require Import Base Pat_Model Pat_Spec Pat_Proofs Pat_Multi.
Open Scope Z_scope.

(** ** Sinks *)
Definition snk_ok (n : nat) (x : snk) : Prop :=
  length (k_cur x) = n /\ length (k_size x) = n /\ length (k_stride x) = n /\ length (k_cnt x) = n /\
  (k_st x <= 2)%nat.
Lemma snk_ok_reset n : snk_ok n (snk_reset n).
Proof. unfold snk_ok, snk_reset; cbn. rewrite !repeat_length. repeat split; auto. Qed.
Lemma snk_ok_step aw n x i : snk_ok n x -> sized n (k_set i) -> snk_ok n (snk_step aw x i).
Proof.
  intros (H1 & H2 & H3 & H4 & H6) [S1 S2]. unfold snk_step. destruct (k_ordy i); cbn [negb]; [|repeat split; assumption].
  assert (L3 : length (if k_start i then s_sizes (k_set i) else k_size x) = n) by (destruct (k_start i); assumption).
  assert (L4 : length (if k_start i then s_strides (k_set i) else k_stride x) = n) by (destruct (k_start i); assumption).
  destruct (k_st x) as [|[|q]].
  - unfold snk_ok; cbn. repeat split; auto. destruct (k_start i); lia.
  - unfold snk_ok; cbn. rewrite !map_length. repeat split; auto.
  - pose proof (odo_len aw (k_wc i) (k_cur x) (k_size x) (k_stride x) (k_cnt x) (k_cur x) (k_cnt x) n H1 H2 H3 H4 H1 H4) as [K1 K2].
    destruct (odo aw (k_wc i) (k_cur x) (k_size x) (k_stride x) (k_cnt x) (k_cur x) (k_cnt x)) as [[cs ks] f]. cbn in K1, K2.
    unfold snk_ok; cbn. repeat split; auto. destruct (f || k_stop i); lia.
Qed.
Lemma snk_ok_final aw n x ins : snk_ok n x -> Forall (fun i => sized n (k_set i)) ins -> snk_ok n (final (snk_step aw) x ins).
Proof. intros H F. revert x H. induction F; intros x0 H0; [exact H0|]. cbn. apply IHF. apply snk_ok_step; assumption. Qed.

Lemma accepted_filter ins : accepted (filter k_ordy ins) = accepted ins.
Proof.
  unfold accepted. induction ins as [|i ins IH]; [reflexivity|]. cbn. destruct (k_ordy i) eqn:E; cbn; [rewrite E; cbn|exact IH].
  destruct (k_wc i); cbn; [f_equal|]; exact IH.
Qed.
Lemma snk_filter aw x ins : trace (snk_step aw) snk_write x ins = trace (snk_step aw) snk_write x (filter k_ordy ins) /\
  final (snk_step aw) x ins = final (snk_step aw) x (filter k_ordy ins).
Proof.
  apply (trace_filter (snk_step aw) snk_write k_ordy (fun _ => True)).
  - intros y i _ E. unfold snk_step. rewrite E. reflexivity.
  - intros y i E. unfold snk_write. rewrite E. reflexivity.
  - apply Forall_forall. auto.
Qed.

Section Sink.
  Variable aw : Z.
  Hypothesis Haw : 0 <= aw.
  Definition k_todo (x : snk) : list Z := map (fun o => (k_off x + o) mod 2 ^ aw) (rem (k_cur x) (k_size x) (k_stride x) (k_cnt x)).
  Definition k_running (x : snk) : Prop := k_st x = 2%nat /\ wf aw (k_cur x) (k_size x) (k_stride x) (k_cnt x).

  Lemma snk_run_step x i : k_running x -> k_ordy i = true -> k_start i = false ->
    let y := snk_step aw x i in
    if k_wc i then exists a l, k_todo x = a :: l /\ k_pend y = [(a, k_rd i)] /\
      (if k_stop i then k_st y = 0%nat else (l = [] /\ k_st y = 0%nat) \/ (l <> [] /\ k_running y /\ k_todo y = l))
    else k_pend y = [] /\ (if k_stop i then k_st y = 0%nat else k_running y /\ k_todo y = k_todo x).
  Proof.
    intros [E1 W] Er Es. unfold snk_step. rewrite Er, Es, E1. cbn [negb].
    destruct (k_wc i) eqn:Ew.
    - destruct (all_offset_rem aw (k_off x) _ _ _ _ W) as (l & El & Erem).
      destruct (odo aw true (k_cur x) (k_size x) (k_stride x) (k_cnt x) (k_cur x) (k_cnt x)) as [[cs ks] f] eqn:Eo.
      destruct (odo_true aw Haw _ _ _ _ W _ _ _ Eo) as [W' H].
      exists (all_offset aw (k_off x) (k_cur x)), (map (fun o => (k_off x + o) mod 2 ^ aw) l).
      split; [exact El|]. split; [reflexivity|]. rewrite Erem in H. cbn [tl] in H.
      destruct (k_stop i); [cbn; rewrite orb_true_r; reflexivity|]. rewrite orb_false_r. destruct f.
      + left. destruct H as [-> _]. split; reflexivity.
      + right. destruct H as [Hn H]. split; [|split; [split; [reflexivity|exact W']|]].
        * destruct l; [|discriminate]. inversion H as [Hx|]; subst; congruence.
        * unfold k_todo. cbn. apply cong_map_mod. exact H.
    - destruct (wf_len _ Haw _ _ _ _ W) as (L1 & L2 & L3).
      rewrite odo_false by (auto; lia). cbn. split; [reflexivity|].
      destruct (k_stop i); [reflexivity|]. split; [split; [reflexivity|exact W]|reflexivity].
  Qed.
  Lemma snk_wait ins x : k_st x = 0%nat -> Forall (fun i => k_start i = false /\ k_ordy i = true) ins ->
    let y := final (snk_step aw) x ins in
    trace (snk_step aw) snk_write x ins ++ k_pend y = k_pend x /\ k_st y = 0%nat /\ ((1 <= length ins)%nat -> k_en y = false).
  Proof.
    intros H F. revert x H. induction F as [|i ins (Es & Er) F IH]; intros x H; [cbn; repeat split; auto; intros; lia|].
    cbn zeta. rewrite trace_cons. assert (Eo : snk_write x i = k_pend x) by (unfold snk_write, k_pend; rewrite Er; reflexivity).
    rewrite Eo. cbn [final fold_left]. change (fold_left (snk_step aw) ins) with (fun z => final (snk_step aw) z ins). cbv beta.
    assert (K : k_st (snk_step aw x i) = 0%nat /\ k_en (snk_step aw x i) = false)
      by (unfold snk_step; rewrite Er, Es, H; cbn; auto).
    destruct K as [K1 K2]. destruct (IH _ K1) as (T & U & V).
    rewrite <- app_assoc, T. unfold k_pend at 2. rewrite K2, app_nil_r. repeat split; auto.
    intros _. destruct ins; [exact K2|]. apply V. cbn; lia.
  Qed.
  Lemma snk_busy ins x l : k_running x -> k_todo x = l -> l <> [] -> Forall (fun i => k_quiet i /\ k_ordy i = true) ins ->
    let y := final (snk_step aw) x ins in
    trace (snk_step aw) snk_write x ins ++ k_pend y = k_pend x ++ combine l (accepted ins) /\
    ((length l <= length (accepted ins))%nat -> k_st y = 0%nat) /\
    ((length (accepted ins) < length l)%nat -> k_running y /\ k_todo y = skipn (length (accepted ins)) l).
  Proof.
    intros H Ht Hn F. revert x l H Ht Hn. induction F as [|i ins ((Es & Ep) & Er) F IH]; intros x l H Ht Hn.
    { cbn. split; [|split; intros; [destruct l; [congruence|cbn in *; lia]|auto]]. destruct l; rewrite app_nil_r; reflexivity. }
    cbn zeta. rewrite trace_cons. assert (Eo : snk_write x i = k_pend x) by (unfold snk_write, k_pend; rewrite Er; reflexivity).
    rewrite Eo. cbn [final fold_left]. change (fold_left (snk_step aw) ins) with (fun z => final (snk_step aw) z ins). cbv beta.
    pose proof (snk_run_step x i H Er Es) as K. cbn zeta in K.
    rewrite <- app_assoc. unfold accepted. cbn [filter]. rewrite Er. cbn [andb].
    destruct (k_wc i).
    - destruct K as (a & l' & E & P & K). rewrite Ht in E. clear Ht. subst l. cbn [map]. fold (accepted ins). cbn [combine length].
      rewrite Ep in K. destruct K as [[-> K]|(Hl & K & K')].
      + destruct (snk_wait ins (snk_step aw x i)) as (T & U & V); [exact K| |].
        { eapply Forall_impl; [|exact F]. intros ? [[? ?] ?]; auto. }
        rewrite T, P. split; [reflexivity|]. split; [auto|]. intros HL. cbn in HL. clear - HL. lia.
      + destruct (IH _ l' K K' Hl) as (T & U & V). rewrite T, P. split; [reflexivity|]. cbn [skipn].
        split; intros HL; [apply U|apply V]; clear - HL; lia.
    - destruct K as [P K]. rewrite Ep in K. destruct K as [K K']. fold (accepted ins).
      destruct (IH _ l K ltac:(congruence) Hn) as (T & U & V). rewrite T, P. split; [reflexivity|]. split; assumption.
  Qed.
  Lemma snk_start x i n : snk_ok n x -> k_st x = 0%nat -> k_ordy i = true -> k_start i = true -> sized n (k_set i) ->
    Forall (fun s => 1 <= s < 2 ^ (aw + 1)) (s_sizes (k_set i)) ->
    let y := snk_step aw x i in
    k_st y = 1%nat /\ k_en y = false /\
    forall j, k_ordy j = true -> k_start j = false ->
    let w := snk_step aw y j in
    k_running w /\ k_todo w = map (fun o => (s_off (k_set i) + o) mod 2 ^ aw) (vis (s_sizes (k_set i)) (s_strides (k_set i))) /\ k_en w = false.
  Proof.
    intros (H1 & H2 & H3 & H4 & H6) E0 Er Es [S1 S2] F. cbn zeta.
    assert (Ey : snk_step aw x i = mkK 1 (s_off (k_set i)) (k_cur x) (s_sizes (k_set i)) (s_strides (k_set i)) (k_cnt x) (k_addr x) (k_data x) false)
      by (unfold snk_step; rewrite Er, Es, E0; reflexivity).
    rewrite Ey. repeat split; try reflexivity; intros; unfold snk_step; cbn [k_st k_off k_cur k_size k_stride k_cnt k_addr k_data k_en]; rewrite H, H0; cbn.
    - reflexivity.
    - apply wf_start; auto; lia.
    - unfold k_todo; cbn. rewrite rem_start; auto; lia.
    - reflexivity.
  Qed.
End Sink.

Lemma rem_cons aw (Haw : 0 <= aw) cur size stride cnt : wf aw cur size stride cnt -> rem cur size stride cnt <> [].
Proof. intros W. destruct (rem_hd aw _ _ _ _ W) as [l E]. rewrite E. discriminate. Qed.

(** [i0]: the start; [st1]: stalled cycles; [i1]: the cycle that sets up the counters *)
Theorem sink_pattern aw n o p s pre i0 st1 i1 ins : 0 <= aw ->
  set_pattern aw n o p = Some s -> Forall (fun x => 1 <= fst x < 2 ^ (aw + 1)) p ->
  Forall (fun i => sized n (k_set i)) pre ->
  let x := final (snk_step aw) (snk_reset n) pre in
  k_st x = 0%nat -> k_ordy i0 = true -> k_start i0 = true -> k_set i0 = s ->
  Forall (fun i => k_ordy i = false) st1 -> k_ordy i1 = true -> k_quiet i1 -> Forall k_quiet ins ->
  let y := snk_step aw x i0 in
  let w := snk_step aw (final (snk_step aw) y st1) i1 in
  let z := final (snk_step aw) w ins in
  let A := addresses aw o p in
  trace (snk_step aw) snk_write y (st1 ++ [i1]) = [] /\
  trace (snk_step aw) snk_write w ins ++ k_pend z = combine A (accepted ins) /\
  ((length A <= length (accepted ins))%nat -> k_st z = 0%nat) /\
  ((length (accepted ins) < length A)%nat -> k_running aw z /\ k_todo aw z = skipn (length (accepted ins)) A).
Proof.
  intros Haw Hs F Fp x E0 Er Es Eset F1 Er1 Q1 Q y w z A.
  pose proof (snk_ok_final aw n _ pre (snk_ok_reset n) Fp) as K. fold x in K.
  destruct (set_pattern_addresses aw n o p s Haw Hs F) as [G EA].
  subst s. destruct (snk_start aw Haw x i0 n K E0 Er Es (set_pattern_sized _ _ _ _ _ Hs) G) as (Y1 & Y2 & Y3).
  fold y in Y1, Y2, Y3.
  destruct (snk_filter aw y st1) as [D1 D2].
  assert (Ef : filter k_ordy st1 = []) by (clear - F1; induction F1; cbn; [reflexivity|rewrite H; assumption]).
  rewrite Ef in D1, D2. change (trace (snk_step aw) snk_write y []) with (@nil (Z * Z)) in D1. change (final (snk_step aw) y []) with y in D2.
  destruct Q1 as [Q1 Q1']. destruct (Y3 i1 Er1 Q1) as (R & T & Ee).
  assert (Ew : snk_step aw y i1 = w) by (unfold w; rewrite D2; reflexivity). rewrite Ew in R, T, Ee.
  rewrite EA in T. fold A in T.
  assert (Hn : A <> []).
  { unfold A. rewrite <- EA. intros Hm. apply map_eq_nil in Hm.
    destruct R as [_ W]. apply (rem_cons aw Haw _ _ _ _ W). unfold k_todo in T.
    assert (Hl : length (rem (k_cur w) (k_size w) (k_stride w) (k_cnt w)) = 0%nat).
    { rewrite <- (map_length (fun o : Z => (k_off w + o) mod 2 ^ aw)), T. unfold A. rewrite <- EA, map_length, Hm. reflexivity. }
    apply length_zero_iff_nil in Hl. exact Hl. }
  split.
  { rewrite trace_app, D1. unfold trace. cbn. unfold snk_write. rewrite D2, Y2, andb_false_r. reflexivity. }
  destruct (snk_filter aw w ins) as [F2 F3]. unfold z. rewrite F2, F3. rewrite <- accepted_filter.
  assert (Q2 : Forall (fun i => k_quiet i /\ k_ordy i = true) (filter k_ordy ins)).
  { clear - Q. induction Q; cbn; [constructor|]. destruct (k_ordy x) eqn:E; auto. }
  destruct (snk_busy aw Haw (filter k_ordy ins) w A R T Hn Q2) as (T1 & T2 & T3).
  split; [|split; assumption]. rewrite T1. unfold k_pend at 1. rewrite Ee. reflexivity.
Qed.

(** Stop: the datum of that cycle is still written, no other *)
Theorem sink_stop aw n o p s pre i0 st1 i1 ins i2 ins2 : 0 <= aw ->
  set_pattern aw n o p = Some s -> Forall (fun x => 1 <= fst x < 2 ^ (aw + 1)) p ->
  Forall (fun i => sized n (k_set i)) pre ->
  let x := final (snk_step aw) (snk_reset n) pre in
  k_st x = 0%nat -> k_ordy i0 = true -> k_start i0 = true -> k_set i0 = s ->
  Forall (fun i => k_ordy i = false) st1 -> k_ordy i1 = true -> k_quiet i1 -> Forall k_quiet ins ->
  k_ordy i2 = true -> k_start i2 = false -> k_stop i2 = true -> Forall (fun i => k_start i = false) ins2 ->
  let w := snk_step aw (final (snk_step aw) (snk_step aw x i0) st1) i1 in
  let z := final (snk_step aw) w (ins ++ i2 :: ins2) in
  trace (snk_step aw) snk_write w (ins ++ i2 :: ins2) ++ k_pend z = combine (addresses aw o p) (accepted (ins ++ [i2])) /\
  k_st z = 0%nat.
Proof.
  intros Haw Hs F Fp x E0 Er Es Eset F1 Er1 Q1 Q Er2 Es2 Et2 Q2 w z.
  destruct (sink_pattern aw n o p s pre i0 st1 i1 ins Haw Hs F Fp E0 Er Es Eset F1 Er1 Q1 Q) as (_ & T & U & V).
  fold x in T, U, V. fold w in T, U, V. set (v := final (snk_step aw) w ins) in *.
  assert (Ez : z = final (snk_step aw) (snk_step aw v i2) ins2).
  { unfold z, v, final. rewrite fold_left_app. reflexivity. }
  rewrite Ez. rewrite trace_app, trace_cons. fold v.
  assert (Eo : snk_write v i2 = k_pend v) by (unfold snk_write, k_pend; rewrite Er2; reflexivity).
  destruct (snk_filter aw (snk_step aw v i2) ins2) as [D1 D2]. rewrite D1, D2.
  assert (Q3 : Forall (fun i => k_start i = false /\ k_ordy i = true) (filter k_ordy ins2)).
  { clear - Q2. induction Q2; cbn; [constructor|]. destruct (k_ordy x) eqn:E; auto. }
  assert (Ea : accepted (ins ++ [i2]) = accepted ins ++ if k_wc i2 then [k_rd i2] else []).
  { unfold accepted. rewrite filter_app, map_app. cbn. rewrite Er2. cbn. destruct (k_wc i2); reflexivity. }
  assert (Hst : k_st (snk_step aw v i2) = 0%nat).
  { destruct (Nat.le_gt_cases (length (addresses aw o p)) (length (accepted ins))) as [L|L].
    - specialize (U L). unfold snk_step. rewrite Er2, Es2, U. reflexivity.
    - destruct (V L) as [R _]. pose proof (snk_run_step aw Haw v i2 R Er2 Es2) as K. cbn zeta in K. rewrite Et2 in K.
      destruct (k_wc i2); [destruct K as (? & ? & _ & _ & K)|destruct K as [_ K]]; exact K. }
  destruct (snk_wait aw (filter k_ordy ins2) _ Hst Q3) as (W1 & W2 & W3). split; [|exact W2].
  rewrite <- !app_assoc, W1, Eo, app_assoc, T, Ea.
  destruct (Nat.le_gt_cases (length (addresses aw o p)) (length (accepted ins))) as [L|L].
  - (* already finished *)
    specialize (U L). assert (Ep : k_pend (snk_step aw v i2) = []) by (unfold k_pend, snk_step; rewrite Er2, Es2, U; reflexivity).
    rewrite Ep, app_nil_r. clear - L. revert L. generalize (addresses aw o p) (accepted ins). intros A B L.
    rewrite (combine_firstn_l A (B ++ _)), (combine_firstn_l A B). rewrite firstn_app.
    replace (length A - length B)%nat with 0%nat by lia. rewrite firstn_O, app_nil_r. reflexivity.
  - destruct (V L) as [R Hk]. pose proof (snk_run_step aw Haw v i2 R Er2 Es2) as K. cbn zeta in K.
    destruct (k_wc i2).
    + destruct K as (a & l & Ea' & P & _). rewrite P. rewrite Hk in Ea'.
      clear - Ea' L. revert Ea' L. generalize (addresses aw o p) (accepted ins). intros A B. revert A.
      induction B as [|b B IH]; intros [|a' A] E L; cbn in *; try lia; [injection E as -> ->; destruct l; reflexivity|].
      rewrite IH by (auto; lia). reflexivity.
    + destruct K as [P _]. rewrite P, !app_nil_r. reflexivity.
Qed.

(** ** Several patterns *)
Definition n_go (i : nin) : Prop := n_start i = false /\ n_stop i = false /\ n_set i = None /\ n_wc i = true /\ n_ordy i = true.
Lemma msnk_filter aw nw x ins : Forall (fun i => n_set i = None) ins -> trace (msnk_step aw nw) msnk_write x ins = trace (msnk_step aw nw) msnk_write x (filter n_ordy ins) /\
  final (msnk_step aw nw) x ins = final (msnk_step aw nw) x (filter n_ordy ins).
Proof.
  apply (trace_filter (msnk_step aw nw) msnk_write n_ordy (fun i => n_set i = None)).
  - intros y i Es E. unfold msnk_step. rewrite E, Es. destruct y; reflexivity.
  - intros y i E. unfold msnk_write. rewrite E. reflexivity.
Qed.

Section MSink.
  Variable aw nw : Z.
  Hypothesis Haw : 0 <= aw.

  Definition n_running (S : list Z) (n : nat) (x : msnk) : Prop :=
    n_st x = 2%nat /\ n_num x = Z.of_nat n /\ Z.of_nat n < 2 ^ nw /\ m_lines S n (n_offs x) (n_sizes x) (n_strides x) /\
    Forall (fun s => 1 <= s < 2 ^ (aw + 1)) S /\ wf aw (n_cur x) S (nth 0 (n_strides x) []) (n_cnt x).
  Definition ntodo (S : list Z) (n : nat) (x : msnk) : list Z := m_todo aw S n (n_offs x) (n_strides x) (n_cur x) (n_cnt x).

  Lemma n_run_step S n x i : n_running S n x -> n_go i ->
    let y := msnk_step aw nw x i in
    exists a l, ntodo S n x = a :: l /\ n_pend y = [(a, n_rd i)] /\
      ((l = [] /\ n_st y = 0%nat) \/ exists m, l <> [] /\ n_running S m y /\ ntodo S m y = l).
  Proof.
    intros (E1 & En & Hn & HL & HS & W) (Es & Et & Em & Ew & Er). unfold msnk_step. rewrite Er, Es, Et, E1, Em, Ew. cbn [negb].
    rewrite (m_lines_hd _ _ _ _ _ HL).
    destruct (all_offset_rem aw (nth 0 (n_offs x) 0) _ _ _ _ W) as (l & El & Erem).
    destruct (odo aw true (n_cur x) S (nth 0 (n_strides x) []) (n_cnt x) (n_cur x) (n_cnt x)) as [[cs ks] f] eqn:Eo.
    destruct (odo_true aw Haw _ _ _ _ W _ _ _ Eo) as [W' H].
    exists (all_offset aw (nth 0 (n_offs x) 0) (n_cur x)), (map (fun o => (nth 0 (n_offs x) 0 + o) mod 2 ^ aw) l ++ coming aw S n (tl (n_offs x)) (tl (n_strides x))).
    split; [unfold ntodo, m_todo; rewrite El; reflexivity|]. split; [reflexivity|].
    cbn [n_st n_addr n_en n_num n_offs n_cur n_sizes n_strides n_cnt]. rewrite orb_false_r.
    rewrite Erem in H. cbn [tl] in H. destruct f.
    - destruct H as [-> [-> ->]]. cbn [map app andb]. destruct (Z.eqb_spec (n_num x) 0) as [E0|E0].
      + left. assert (n = 0%nat) by lia. subst n. split; reflexivity.
      + right. destruct n as [|n]; [lia|]. exists n. destruct (m_lines_shift aw _ _ _ _ _ HL) as (HL' & Ec & Ld).
        destruct (wf_len _ Haw _ _ _ _ W) as (L1 & L2 & L3).
        assert (Ew' : (n_num x - 1) mod 2 ^ nw = Z.of_nat n) by (rewrite Z.mod_small by lia; lia).
        assert (W2 : wf aw (map (fun _ : Z => 0) (n_cur x)) S (nth 0 (shift (n_strides x) (n_strides x)) []) (map (fun s => (s - 1) mod 2 ^ (aw + 1)) S))
          by (apply wf_start; auto).
        unfold n_running, ntodo, m_todo; cbn [n_st n_addr n_en n_num n_offs n_cur n_sizes n_strides n_cnt]. rewrite Ew'. split; [|split].
        * rewrite Ec. destruct (rem_hd aw _ _ _ _ W2) as [l' El']. rewrite rem_start in El' by (auto; lia). rewrite El'. discriminate.
        * repeat (split; [auto; try lia|]). exact W2.
        * rewrite rem_start by (auto; lia). rewrite Ec. reflexivity.
    - right. exists n. cbn [andb]. destruct H as [Hne H]. split; [|split].
      + destruct l; [inversion H; congruence|discriminate].
      + unfold n_running; cbn. auto 8.
      + unfold ntodo, m_todo; cbn. f_equal. apply cong_map_mod. exact H.
  Qed.
  Lemma n_wait ins x : n_st x = 0%nat -> Forall n_go ins ->
    let y := final (msnk_step aw nw) x ins in
    trace (msnk_step aw nw) msnk_write x ins ++ n_pend y = n_pend x /\ n_st y = 0%nat.
  Proof.
    intros H F. revert x H. induction F as [|i ins (Es & Et & Em & Ew & Er) F IH]; intros x H; [cbn; auto|].
    cbn zeta. rewrite trace_cons. assert (Eo : msnk_write x i = n_pend x) by (unfold msnk_write, n_pend; rewrite Er; reflexivity).
    rewrite Eo. cbn [final fold_left]. change (fold_left (msnk_step aw nw) ins) with (fun z => final (msnk_step aw nw) z ins). cbv beta.
    assert (K : n_st (msnk_step aw nw x i) = 0%nat /\ n_en (msnk_step aw nw x i) = false)
      by (unfold msnk_step; rewrite Er, Es, H; cbn; auto).
    destruct K as [K1 K2]. destruct (IH _ K1) as (T & U).
    rewrite <- app_assoc, T. unfold n_pend at 2. rewrite K2, app_nil_r. split; [reflexivity|exact U].
  Qed.
  Lemma n_busy S n ins x l : n_running S n x -> ntodo S n x = l -> l <> [] -> Forall n_go ins ->
    let y := final (msnk_step aw nw) x ins in
    trace (msnk_step aw nw) msnk_write x ins ++ n_pend y = n_pend x ++ combine l (map n_rd ins) /\
    ((length l <= length ins)%nat -> n_st y = 0%nat) /\
    ((length ins < length l)%nat -> n_st y = 2%nat).
  Proof.
    intros H Ht Hn F. revert n x l H Ht Hn. induction F as [|i ins G F IH]; intros n x l H Ht Hn.
    { cbn. split; [|split; intros; [destruct l; [congruence|cbn in *; lia]|apply H]]. destruct l; rewrite app_nil_r; reflexivity. }
    cbn zeta. rewrite trace_cons. assert (Eo : msnk_write x i = n_pend x) by (unfold msnk_write, n_pend; destruct G as (_ & _ & _ & _ & ->); reflexivity).
    rewrite Eo. cbn [final fold_left]. change (fold_left (msnk_step aw nw) ins) with (fun z => final (msnk_step aw nw) z ins). cbv beta.
    destruct (n_run_step S n x i H G) as (a & l' & E & P & K).
    rewrite <- app_assoc. rewrite Ht in E. clear Ht. subst l. cbn [map combine length].
    destruct K as [[-> K]|(m & Hl & K & K')].
    - destruct (n_wait ins _ K F) as (T & U). rewrite T, P. split; [reflexivity|]. split; [auto|]. intros HL. cbn in HL. clear - HL. lia.
    - destruct (IH m _ l' K K' Hl) as (T & U & V). rewrite T, P. split; [reflexivity|].
      split; intros HL; [apply U|apply V]; clear - HL; lia.
  Qed.
End MSink.

Lemma n_wait_num aw nw ins x : n_st x = 0%nat -> Forall (fun i => n_start i = false /\ n_set i = None) ins ->
  let y := final (msnk_step aw nw) x ins in n_st y = 0%nat /\ n_num y = n_num x /\ length (n_cur y) = length (n_cur x).
Proof.
  intros H1 F. revert x H1. induction F as [|i ins (Es & Em) F IH]; intros x H1; [auto|].
  assert (K : let y := msnk_step aw nw x i in n_st y = 0%nat /\ n_num y = n_num x /\ length (n_cur y) = length (n_cur x)).
  { unfold msnk_step. rewrite Es, Em. destruct (n_ordy i); cbn [negb]; [rewrite H1|]; cbn; auto. }
  destruct K as (K1 & K3 & K4). specialize (IH _ K1). cbn. cbn in IH. rewrite <- K3, <- K4. exact IH.
Qed.

Theorem sink_multi aw maxlen junk offs pats lines S0 x is_ wait i0 st1 i1 ins : 0 < aw ->
  let nw := num_width (length junk) in
  set_multi aw maxlen junk offs pats = Some lines -> Forall (sized maxlen) junk ->
  Forall (fun p => map fst p = S0) pats -> Forall (fun s => 1 <= s < 2 ^ aw) S0 ->
  n_st x = 0%nat -> length (n_cur x) = maxlen ->
  n_start is_ = false -> n_set is_ = Some (Z.of_nat (length pats)) ->
  Forall (fun i => n_start i = false /\ n_set i = None) wait ->
  n_ordy i0 = true -> n_start i0 = true -> n_set i0 = None -> n_settings i0 = lines ->
  Forall (fun i => n_ordy i = false /\ n_set i = None) st1 -> n_ordy i1 = true -> n_quiet i1 ->
  Forall n_quiet ins ->
  let w := final (msnk_step aw nw) x (is_ :: wait ++ [i0] ++ st1 ++ [i1]) in
  let z := final (msnk_step aw nw) w ins in
  let A := addresses_of aw offs pats in
  trace (msnk_step aw nw) msnk_write w ins ++ n_pend z = combine A (n_accepted ins) /\
  ((length A <= length (n_accepted ins))%nat -> n_st z = 0%nat) /\
  ((length (n_accepted ins) < length A)%nat -> n_st z = 2%nat).
Proof.
  intros Haw nw Hs FJ FP HS0 E0 Lc Es1 Em1 FW Er Es Em Eset Fst Er1 Q1 Q w z A.
  unfold set_multi in Hs. destruct pats as [|p0 pats']; [discriminate|]. remember (p0 :: pats') as pats eqn:Epats.
  destruct (set_lines_spec aw Haw maxlen S0 HS0 _ _ _ _ Hs FJ FP) as (L1 & L2 & L3 & L4 & L5).
  set (Sp := padded maxlen S0) in *.
  assert (Np : (1 <= length pats)%nat) by (subst pats; cbn; lia).
  assert (Hnw : Z.of_nat (length pats) <= 2 ^ nw) by (apply num_width_ok; exact L2).
  set (x1 := msnk_step aw nw x is_).
  assert (K1 : n_st x1 = 0%nat /\ n_num x1 = Z.of_nat (length pats) mod 2 ^ nw /\ length (n_cur x1) = maxlen).
  { unfold x1, msnk_step. rewrite Es1, Em1. destruct (n_ordy is_); cbn [negb]; [rewrite E0|]; cbn; auto. }
  destruct K1 as (A1 & A3 & A4).
  destruct (n_wait_num aw nw wait x1 A1 FW) as (B1 & B3 & B4).
  set (x2 := final (msnk_step aw nw) x1 wait) in *.
  assert (Ew : w = msnk_step aw nw (msnk_step aw nw x2 i0) i1).
  { unfold w, final. cbn [fold_left]. rewrite !fold_left_app. cbn [fold_left].
    change (fold_left (msnk_step aw nw) wait (msnk_step aw nw x is_)) with x2.
    set (x3 := msnk_step aw nw x2 i0). change (fold_left (msnk_step aw nw) st1 x3) with (final (msnk_step aw nw) x3 st1).
    destruct (msnk_filter aw nw x3 st1) as [_ ->]; [eapply Forall_impl; [|exact Fst]; intros ? [_ H]; exact H|].
    assert (Ef : filter n_ordy st1 = []) by (clear - Fst; induction Fst as [|? ? [H _]]; cbn; [reflexivity|rewrite H; assumption]).
    rewrite Ef. reflexivity. }
  clearbody x2.
  destruct lines as [|l0 lines]; [exfalso; clear - L1 L2 Np; cbn in L1; lia|].
  assert (En : (n_num x2 - 1) mod 2 ^ nw = Z.of_nat (length pats - 1)).
  { rewrite B3, A3, Zminus_mod_idemp_l. rewrite Z.mod_small by lia. lia. }
  assert (Fd : Forall (fun d => length d = maxlen) (map s_strides (l0 :: lines))).
  { apply Forall_forall. intros d Hd. apply in_map_iff in Hd. destruct Hd as (s & <- & Hin). rewrite Forall_forall in L3. apply L3, Hin. }
  assert (LS : length Sp = maxlen).
  { assert (E : nth_error (map s_sizes (l0 :: lines)) 0 = Some Sp) by (apply L5; lia). cbn in E. injection E as <-.
    rewrite Forall_forall in L3. apply (L3 l0). left. reflexivity. }
  assert (E0s : s_sizes l0 = Sp) by (specialize (L5 0%nat ltac:(lia)); cbn in L5; congruence).
  assert (Emod : map (fun z => z mod 2 ^ aw) Sp = Sp) by (apply mod_small_map, Sp_range; assumption).
  assert (Wst : wf aw (map (fun _ : Z => 0) (n_cur x2)) Sp (s_strides l0) (map (fun s => (s - 1) mod 2 ^ (aw + 1)) Sp)).
  { apply wf_start; [clear - Haw; lia|apply Sp_range1; assumption|rewrite LS; inversion Fd; assumption|clear - LS A4 B4; lia]. }
  assert (R : n_running aw nw Sp (length pats - 1) w /\ ntodo aw Sp (length pats - 1) w = A /\ n_en w = false).
  { rewrite Ew. destruct Q1 as (Q11 & Q12 & Q13 & Q14).
    assert (Ey : msnk_step aw nw x2 i0 = mkN 1 ((n_num x2 - 1) mod 2 ^ nw) (map s_off (l0 :: lines)) (n_cur x2)
      (map (fun s => map (fun z => z mod 2 ^ aw) (s_sizes s)) (l0 :: lines)) (map s_strides (l0 :: lines)) (n_cnt x2) (n_addr x2) (n_data x2) false)
      by (unfold msnk_step; rewrite Er, Es, Em, B1, Eset; reflexivity).
    rewrite Ey. unfold msnk_step. rewrite Er1, Q11, Q13. cbn [negb n_st].
    unfold n_running, ntodo, m_todo. cbn [n_st n_num n_offs n_cur n_sizes n_strides n_cnt n_en map nth tl].
    rewrite E0s, En, Emod. split; [|split; [|reflexivity]].
    - split; [reflexivity|]. split; [reflexivity|]. split; [lia|]. split.
      + exists (s_off l0), (s_strides l0), (map (fun s => map (fun z => z mod 2 ^ aw) (s_sizes s)) lines), (map s_off lines), (map s_strides lines).
        rewrite !map_length. cbn [length] in L1.
        repeat (split; [reflexivity || lia|]). split.
        * intros j Hj. specialize (L5 (S j) ltac:(lia)). cbn [map nth_error] in L5.
          rewrite nth_error_map in L5 |- *. destruct (nth_error lines j); [|discriminate]. cbn in *. injection L5 as ->.
          f_equal. exact Emod.
        * rewrite LS. exact Fd.
      + split; [apply Sp_range1; assumption|exact Wst].
    - rewrite rem_start; [|lia|apply Sp_range1; assumption|rewrite LS; inversion Fd; assumption|lia].
      unfold A. rewrite <- L4. destruct (length pats) as [|k]; [lia|]. replace (S k - 1)%nat with k by lia. reflexivity. }
  destruct R as (R & T & Een).
  assert (Hne : A <> []).
  { rewrite <- T. unfold ntodo, m_todo. destruct R as (_ & _ & _ & _ & _ & W).
    destruct (rem_hd aw _ _ _ _ W) as [l El]. rewrite El. discriminate. }
  destruct (msnk_filter aw nw w ins) as [F1 F2]; [eapply Forall_impl; [|exact Q]; intros i (_ & _ & H & _); exact H|].
  assert (G : Forall n_go (filter n_ordy ins)).
  { clear - Q. induction Q as [|i ins (H1 & H2 & H3 & H4) F IH]; cbn; [constructor|]. destruct (n_ordy i) eqn:E; [|exact IH].
    constructor; [unfold n_go; auto|exact IH]. }
  destruct (n_busy aw nw ltac:(lia) _ _ (filter n_ordy ins) w _ R T Hne G) as (C1 & C2 & C3).
  unfold n_accepted. rewrite map_length. unfold z. rewrite F1, F2.
  split; [|split; assumption]. rewrite C1. unfold n_pend at 1. rewrite Een. reflexivity.
Qed.
