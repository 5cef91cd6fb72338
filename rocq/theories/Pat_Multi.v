From Verif Require Import Base Pat_Model Pat_Spec Pat_Proofs.
Open Scope Z_scope.

Definition padded (n : nat) (l : list Z) : list Z := l ++ repeat 1 (n - length l).

Lemma mod_small_map W l : Forall (fun s => 1 <= s < W) l -> map (fun z => z mod W) l = l.
Proof. induction 1; cbn; [reflexivity|]. rewrite IHForall, Z.mod_small by lia. reflexivity. Qed.

Section Lines.
  Variable aw : Z.
  Hypothesis Haw : 0 < aw.
  Variable maxlen : nat.
  Variable S0 : list Z.
  Hypothesis HS0 : Forall (fun s => 1 <= s < 2 ^ aw) S0.
  Let Sp := padded maxlen S0.

  Lemma Sp_range : Forall (fun s => 1 <= s < 2 ^ aw) Sp.
  Proof.
    unfold Sp, padded. apply Forall_app. split; [exact HS0|]. apply Forall_forall. intros s H. apply repeat_spec in H. subst.
    pose proof (Z.pow_gt_1 2 aw). lia.
  Qed.
  Lemma Sp_range1 : Forall (fun s => 1 <= s < 2 ^ (aw + 1)) Sp.
  Proof.
    eapply Forall_impl; [|exact Sp_range]. cbn. intros s H. rewrite Z.pow_add_r by lia. lia.
  Qed.

  Lemma set_lines_spec junk offs pats lines : set_lines aw maxlen junk offs pats = Some lines ->
    Forall (sized maxlen) junk -> Forall (fun p => map fst p = S0) pats ->
    let n := length pats in
    length lines = length junk /\ (n <= length junk)%nat /\ Forall (sized maxlen) lines /\
    coming aw Sp n (map s_off lines) (map s_strides lines) = addresses_of aw offs pats /\
    (forall j, (j < n)%nat -> nth_error (map s_sizes lines) j = Some Sp).
  Proof.
    revert offs pats lines. induction junk as [|jk junk IH]; intros offs pats lines E FJ FP; cbn zeta.
    - destruct pats as [|p pats], offs as [|o offs]; try discriminate E. cbn in E. injection E as <-.
      cbn. repeat split; auto; intros; lia.
    - destruct pats as [|p pats], offs as [|o offs]; try discriminate E.
      + cbn [set_lines] in E. injection E as <-. cbn [length]. rewrite map_length. cbn [length].
        repeat split; try lia.
        * assert (G : forall l, Forall (sized maxlen) l -> Forall (sized maxlen) (map (fun s => mkS 0 (s_sizes s) (s_strides s)) l))
            by (induction 1; cbn; constructor; auto).
          exact (G _ FJ).
      + cbn [set_lines] in E. destruct (maxlen <? length p)%nat eqn:El; [discriminate|].
        destruct (set_lines aw maxlen junk offs pats) as [l|] eqn:Es; [|discriminate]. injection E as <-.
        inversion FJ as [|? ? F1 FJ']; subst. inversion FP as [|? ? P1 FP']; subst.
        destruct (IH _ _ _ Es FJ' FP') as (L1 & L2 & L3 & L4 & L5). apply Nat.ltb_ge in El.
        cbn [length map s_off s_strides s_sizes coming addresses_of].
        assert (Hp : Forall (fun x => 1 <= fst x < 2 ^ (aw + 1)) p).
        { apply Forall_forall. intros x Hx. rewrite Forall_forall in HS0.
          specialize (HS0 (fst x) ltac:(apply in_map; exact Hx)). rewrite Z.pow_add_r by lia. lia. }
        assert (ES : map (fun x => fst x mod 2 ^ (aw + 1)) (p ++ repeat (1, 0) (maxlen - length p)) = Sp).
        { destruct (pad_sizes aw p (maxlen - length p) ltac:(lia) Hp) as [-> _]. unfold Sp, padded. rewrite map_length. reflexivity. }
        split; [lia|]. split; [lia|]. split.
        { constructor; [|exact L3]. unfold sized; cbn. rewrite !map_length, app_length, repeat_length. lia. }
        split.
        * f_equal; [|exact L4]. rewrite <- (pad_vis aw o p (maxlen - length p)) by (auto; lia). rewrite ES. reflexivity.
        * intros [|j] Hj; cbn [nth_error]; [rewrite ES; reflexivity|apply L5; lia].
  Qed.
End Lines.

Lemma num_width_ok maxm n : (n <= maxm)%nat -> Z.of_nat n <= 2 ^ num_width maxm.
Proof.
  intros H. unfold num_width. pose proof (Z.log2_log2_up_spec (Z.of_nat (Nat.max maxm 2)) ltac:(lia)). lia.
Qed.

Definition msrc_ok (n : nat) (x : msrc) : Prop :=
  length (m_cur x) = n /\ (m_st x = 0%nat -> m_en x = false).
Lemma m_quiet_go ins : Forall m_quiet ins -> Forall m_go (filter m_ordy ins).
Proof.
  induction 1 as [|i ins (H1 & H2 & H3) F IH]; [constructor|]. cbn. destruct (m_ordy i) eqn:E; [|exact IH].
  constructor; [unfold m_go; auto|exact IH].
Qed.
Lemma msrc_filter aw nw x ins : Forall (fun i => m_set i = None) ins -> trace (msrc_step aw nw) msrc_read x ins = trace (msrc_step aw nw) msrc_read x (filter m_ordy ins) /\
  final (msrc_step aw nw) x ins = final (msrc_step aw nw) x (filter m_ordy ins).
Proof.
  apply (trace_filter (msrc_step aw nw) msrc_read m_ordy (fun i => m_set i = None)).
  - intros y i Es E. unfold msrc_step. rewrite E, Es. destruct y; reflexivity.
  - intros y i E. unfold msrc_read. rewrite E. reflexivity.
Qed.

(** the register num is kept until the start *)
Lemma m_wait_num aw nw ins x : m_st x = 0%nat -> m_en x = false -> Forall (fun i => m_start i = false /\ m_set i = None) ins ->
  let y := final (msrc_step aw nw) x ins in m_st y = 0%nat /\ m_en y = false /\ num y = num x /\ length (m_cur y) = length (m_cur x).
Proof.
  intros H1 H2 F. revert x H1 H2. induction F as [|i ins (Es & Em) F IH]; intros x H1 H2; [auto|].
  assert (K : let y := msrc_step aw nw x i in m_st y = 0%nat /\ m_en y = false /\ num y = num x /\ length (m_cur y) = length (m_cur x)).
  { unfold msrc_step. rewrite Es, Em. destruct (m_ordy i); cbn [negb]; [rewrite H1|]; cbn; auto. }
  destruct K as (K1 & K2 & K3 & K4). specialize (IH _ K1 K2). cbn. cbn in IH. rewrite <- K3, <- K4. exact IH.
Qed.

Theorem source_multi aw maxlen junk offs pats lines S0 x is_ wait i0 ins : 0 < aw ->
  let nw := num_width (length junk) in
  set_multi aw maxlen junk offs pats = Some lines -> Forall (sized maxlen) junk ->
  Forall (fun p => map fst p = S0) pats -> Forall (fun s => 1 <= s < 2 ^ aw) S0 ->
  m_st x = 0%nat -> m_en x = false -> length (m_cur x) = maxlen ->
  m_start is_ = false -> m_set is_ = Some (Z.of_nat (length pats)) ->
  Forall (fun i => m_start i = false /\ m_set i = None) wait ->
  m_ordy i0 = true -> m_start i0 = true -> m_set i0 = None -> m_settings i0 = lines ->
  Forall m_quiet ins ->
  let y := final (msrc_step aw nw) x (is_ :: wait ++ [i0]) in
  let z := final (msrc_step aw nw) y ins in
  let A := addresses_of aw offs pats in
  trace (msrc_step aw nw) msrc_read y ins = firstn (n_mready ins - 1) A /\
  ((1 <= n_mready ins <= length A)%nat -> m_en z = true /\ m_idle z = false) /\
  ((length A < n_mready ins)%nat -> m_st z = 0%nat /\ m_en z = false /\ m_idle z = true).
Proof.
  intros Haw nw Hs FJ FP HS0 E0 Ee Lc Es1 Em1 FW Er Es Em Eset Q y z A.
  unfold set_multi in Hs. destruct pats as [|p0 pats']; [discriminate|]. remember (p0 :: pats') as pats eqn:Epats.
  destruct (set_lines_spec aw Haw maxlen S0 HS0 _ _ _ _ Hs FJ FP) as (L1 & L2 & L3 & L4 & L5).
  set (Sp := padded maxlen S0) in *.
  assert (Np : (1 <= length pats)%nat) by (subst pats; cbn; lia).
  assert (Hnw : Z.of_nat (length pats) <= 2 ^ nw) by (apply num_width_ok; exact L2).
  (* the state before the start *)
  set (x1 := msrc_step aw nw x is_).
  assert (K1 : m_st x1 = 0%nat /\ m_en x1 = false /\ num x1 = Z.of_nat (length pats) mod 2 ^ nw /\ length (m_cur x1) = maxlen).
  { unfold x1, msrc_step. rewrite Es1, Em1. destruct (m_ordy is_); cbn [negb]; [rewrite E0|]; cbn; auto. }
  destruct K1 as (A1 & A2 & A3 & A4).
  destruct (m_wait_num aw nw wait x1 A1 A2 FW) as (B1 & B2 & B3 & B4).
  set (x2 := final (msrc_step aw nw) x1 wait) in *.
  assert (Ey : y = msrc_step aw nw x2 i0).
  { unfold y, final. cbn [fold_left]. rewrite fold_left_app. reflexivity. }
  clearbody x2.
  (* the start *)
  destruct lines as [|l0 lines]; [exfalso; clear - L1 L2 Np; cbn in L1; lia|].
  assert (En : (num x2 - 1) mod 2 ^ nw = Z.of_nat (length pats - 1)).
  { rewrite B3, A3, Zminus_mod_idemp_l. rewrite Z.mod_small by lia. lia. }
  assert (Fd : Forall (fun d => length d = maxlen) (map s_strides (l0 :: lines))).
  { apply Forall_forall. intros d Hd. apply in_map_iff in Hd. destruct Hd as (s & <- & Hin). rewrite Forall_forall in L3. apply L3, Hin. }
  assert (LS : length Sp = maxlen).
  { assert (E : nth_error (map s_sizes (l0 :: lines)) 0 = Some Sp) by (apply L5; lia). cbn in E. injection E as <-.
    rewrite Forall_forall in L3. apply (L3 l0). left. reflexivity. }
  assert (R : m_running aw nw Sp (length pats - 1) y /\ mtodo aw Sp (length pats - 1) y = A /\ m_en y = false).
  { rewrite Ey. unfold msrc_step. rewrite Er, Es, Em, B1, Eset. cbn [negb].
    assert (E0s : s_sizes l0 = Sp) by (specialize (L5 0%nat ltac:(lia)); cbn in L5; congruence).
    assert (Wst : wf aw (map (fun _ : Z => 0) (m_cur x2)) Sp (s_strides l0) (map (fun s => (s - 1) mod 2 ^ (aw + 1)) Sp)).
    { apply wf_start; [clear - Haw; lia|apply Sp_range1; assumption|rewrite LS; inversion Fd; assumption|clear - LS A4 B4; lia]. }
    unfold m_running, mtodo, m_todo. cbn [m_st num m_offs m_cur m_sizes m_strides m_cnt m_en map nth tl].
    rewrite E0s, En. split; [|split; [|reflexivity]].
    - split; [reflexivity|]. split; [reflexivity|]. split; [lia|]. split.
      + exists (s_off l0), (s_strides l0), (map (fun s => map (fun z => z mod 2 ^ aw) (s_sizes s)) lines), (map s_off lines), (map s_strides lines).
        assert (Emod : map (fun z => z mod 2 ^ aw) Sp = Sp) by (apply mod_small_map, Sp_range; assumption).
        rewrite Emod, !map_length. cbn [length] in L1.
        repeat (split; [reflexivity || lia|]). split.
        * intros j Hj. specialize (L5 (S j) ltac:(lia)). cbn [map nth_error] in L5.
          rewrite nth_error_map in L5 |- *. destruct (nth_error lines j); [|discriminate]. cbn in *. injection L5 as ->.
          f_equal. exact Emod.
        * rewrite LS. exact Fd.
      + split; [apply Sp_range1; assumption|exact Wst].
    - rewrite rem_start; [|lia|apply Sp_range1; assumption|rewrite LS; inversion Fd; assumption|lia].
      unfold A. rewrite <- L4. destruct (length pats) as [|k]; [lia|]. replace (S k - 1)%nat with k by lia. reflexivity. }
  destruct R as (R & T & Een).
  destruct (msrc_filter aw nw y ins) as [F1 F2]; [eapply Forall_impl; [|exact Q]; intros i (_ & _ & H); exact H|].
  destruct (m_begin aw nw ltac:(lia) ltac:(apply Z.log2_up_nonneg) _ _ (filter m_ordy ins) y _ R T Een (m_quiet_go _ Q)) as (C1 & C2 & C3).
  split; [rewrite F1; exact C1|]. unfold z. rewrite F2. split; assumption.
Qed.
