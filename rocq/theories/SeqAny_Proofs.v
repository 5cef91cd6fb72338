(** Invariants of the Seq builder under arbitrary sequences of calls: which registers are
    driven, that each created register has one driver, and that [dst_var] is complete.
    Used for Prev (C09) and reset (C10). *)
From Verif Require Import Base Vlog Seq_Model Seq_Spec Seq_Proofs.
From Coq Require Import Permutation.
Open Scope Z_scope.

Lemma writes_dsts s : writes s = map lhs_var (dsts s).
Proof.
  assert (HL : forall ss, Forall (fun s => writes s = map lhs_var (dsts s)) ss ->
                flat_map writes ss = map lhs_var (flat_map dsts ss)).
  { induction ss as [|x ss IH]; intros HF; [reflexivity|]. cbn [flat_map].
    rewrite map_app, (Forall_inv HF), IH by exact (Forall_inv_tail HF). reflexivity. }
  induction s using stmt_ind'; cbn [writes dsts].
  - reflexivity.
  - rewrite map_app, !HL by assumption. reflexivity.
  - induction ws as [|[k b] ws IH]; [reflexivity|]. cbn [flat_map snd].
    rewrite map_app, (HL b (Forall_inv H)), IH by exact (Forall_inv_tail H). reflexivity.
Qed.
Lemma writes_dsts_all ss : flat_map writes ss = map lhs_var (flat_map dsts ss).
Proof.
  induction ss as [|s ss IH]; [reflexivity|]. cbn [flat_map]. rewrite map_app, IH, writes_dsts. reflexivity.
Qed.

Definition D (b : seqb) : list lhs := flat_map dsts (all_stmts b).
Definition gend (l : list lhs) : list var := filter (fun v => negb (is_userb v)) (map lhs_var l).
Lemma gens_D b : gens (all_stmts b) = gend (D b).
Proof. unfold gens, gend, D. rewrite writes_dsts_all. reflexivity. Qed.
Lemma gend_app a b : gend (a ++ b) = gend a ++ gend b.
Proof. unfold gend. rewrite map_app, filter_app. reflexivity. Qed.
Lemma filter_perm {A} (f : A -> bool) l l' : Permutation l l' -> Permutation (filter f l) (filter f l').
Proof.
  induction 1; cbn.
  - constructor.
  - destruct (f x); auto.
  - destruct (f y), (f x); auto. apply perm_swap.
  - eapply Permutation_trans; eauto.
Qed.
Lemma gend_perm a b : Permutation a b -> Permutation (gend a) (gend b).
Proof. intros H. unfold gend. apply filter_perm, Permutation_map, H. Qed.

Record W0 (b : seqb) : Prop := {
  w0_g : ginv b;
  w0_dst : forall l, In l (s_dst b) <-> In l (D b);
  w0_inits : forall v, In v (map fst (s_inits b)) <-> In v (gens (all_stmts b));
  w0_nodup : NoDup (map fst (s_inits b)) }.

Definition cond_in (b : seqb) (c : expr) (r : var) (p : expr) : Prop :=
  exists br els, In (IIf ((c, [SSub (LVar r) p]) :: br) els) (s_body b).

Record M (b b' : seqb) : Prop := {
  m_plain : forall s, plain_in b s -> plain_in b' s;
  m_cond : forall c r p, cond_in b c r p -> cond_in b' c r p;
  m_prev : exists l, s_prev b' = s_prev b ++ l;
  m_inits : exists l, s_inits b' = s_inits b ++ l;
  m_tmp : (s_tmp b <= s_tmp b')%nat;
  m_mod : (s_mod_tmp b <= s_mod_tmp b')%nat }.

Lemma M_refl b : M b b.
Proof. constructor; auto; exists []; rewrite app_nil_r; reflexivity. Qed.
Lemma M_trans a b c : M a b -> M b c -> M a c.
Proof.
  intros [A1 A2 [x A3] [y A4] A5 A6] [B1 B2 [x' B3] [y' B4] B5 B6]. constructor; auto.
  - exists (x ++ x'). rewrite B3, A3, app_assoc. reflexivity.
  - exists (y ++ y'). rewrite B4, A4, app_assoc. reflexivity.
  - lia.
  - lia.
Qed.

Lemma fresh_M b b' v : M b b' -> fresh_ok b v -> fresh_ok b' v.
Proof.
  intros [_ _ [l E] _ T1 T2]. destruct v; cbn; try tauto; try lia.
  rewrite E, map_app. intros H. apply in_or_app. auto.
Qed.

Lemma W0_add b b' nd ni : W0 b -> M b b' -> Permutation (D b') (D b ++ nd) ->
  (forall l, In l (s_dst b') <-> In l (s_dst b) \/ In l nd) ->
  s_inits b' = s_inits b ++ ni -> gend nd = map fst ni -> NoDup (map fst ni) ->
  (forall v, In v (map fst ni) -> ~ In v (gens (all_stmts b)) /\ fresh_ok b' v) ->
  Forall (fun p => (1 <= fst p)%nat) (s_delayed b') -> W0 b'.
Proof.
  intros [[G1 G2 G3] Hd Hi Hn] HM HP Hdst Hini Hg Hnd Hf Hdel.
  assert (Pg : Permutation (gens (all_stmts b')) (gens (all_stmts b) ++ map fst ni)).
  { rewrite !gens_D. eapply Permutation_trans; [apply gend_perm, HP|]. rewrite gend_app, Hg. reflexivity. }
  assert (Nd : forall l, NoDup l -> (forall v, In v l <-> In v (gens (all_stmts b))) -> NoDup (l ++ map fst ni)).
  { intros l Hl Hv. clear - Hl Hv Hnd Hf. induction l as [|x l IH] in Hl, Hv, Hf |- *.
    - exact Hnd.
    - assert (forall v, In v (map fst ni) -> ~ In v (x :: l)) as H.
      { intros v H1 H2. apply Hv in H2. apply (Hf v H1), H2. }
      clear Hv Hf. revert Hl H. generalize (x :: l). intros l' Hl H.
      induction l' as [|y l' IH']; [exact Hnd|]. inversion Hl; subst. cbn [app]. constructor.
      + intros Hy. apply in_app_iff in Hy. destruct Hy as [Hy|Hy]; [contradiction|].
        apply (H y Hy). left; reflexivity.
      + apply IH'; [assumption|]. intros v H1 H4. apply (H v H1). right; exact H4. }
  constructor; [constructor| | |].
  - eapply Permutation_NoDup; [apply Permutation_sym, Pg|]. apply Nd; [exact G1|tauto].
  - intros v Hv. apply (Permutation_in _ Pg), in_app_iff in Hv. destruct Hv as [Hv|Hv].
    + eapply fresh_M; [exact HM|]. apply G2, Hv.
    + apply Hf, Hv.
  - exact Hdel.
  - intros l. rewrite Hdst, Hd. split.
    + intros H. apply (Permutation_in _ (Permutation_sym HP)), in_or_app. exact H.
    + intros H. apply (Permutation_in _ HP), in_app_iff in H. exact H.
  - intros v. rewrite Hini, map_app. split; intros H.
    + apply (Permutation_in _ (Permutation_sym Pg)). apply in_app_iff in H. apply in_or_app.
      destruct H; [left; apply Hi; assumption|right; assumption].
    + apply (Permutation_in _ Pg) in H. apply in_app_iff in H. apply in_or_app.
      destruct H; [left; apply Hi; assumption|right; assumption].
  - rewrite Hini, map_app. apply Nd; [exact Hn|exact Hi].
Qed.

Lemma in_add_dst1 l ds x : In l (add_dst1 ds x) <-> In l ds \/ l = x.
Proof.
  unfold add_dst1. destruct (in_dec lhs_eq_dec x ds) as [H|H].
  - split; [auto|]. intros [H1| ->]; assumption.
  - rewrite in_app_iff. cbn. intuition.
Qed.
Lemma in_add_dst xs : forall ds l, In l (fold_left add_dst1 xs ds) <-> In l ds \/ In l xs.
Proof.
  induction xs as [|x xs IH]; intros ds l; cbn [fold_left]; [cbn; tauto|].
  rewrite IH, in_add_dst1. cbn. intuition.
Qed.

Lemma flat_perm {A B} (f : A -> list B) l l' : Permutation l l' -> Permutation (flat_map f l) (flat_map f l').
Proof. apply Permutation_flat_map. Qed.

Lemma D_push b d ss : Permutation (D (push_plain b d ss)) (D b ++ flat_map dsts ss).
Proof. unfold D. rewrite <- flat_map_app. apply flat_perm, push_all. Qed.

Lemma dst_push b d ss l : In l (s_dst (push_plain b d ss)) <-> In l (s_dst b) \/ In l (flat_map dsts ss).
Proof. unfold push_plain. destruct d; cbn; apply in_add_dst. Qed.

Lemma push_M b d ss : M b (push_plain b d ss).
Proof.
  constructor.
  - intros s H. apply push_plain_in; auto.
  - intros c r p (br & els & H). exists br, els. unfold push_plain. destruct d; cbn; [apply in_or_app; auto|exact H].
  - exists []. rewrite app_nil_r. destruct d; reflexivity.
  - exists []. rewrite app_nil_r. destruct d; reflexivity.
  - destruct d; apply le_n.
  - destruct d; apply le_n.
Qed.

Lemma gend_user ss : (forall v, In v (flat_map writes ss) -> is_user v) -> gend (flat_map dsts ss) = [].
Proof.
  intros H. pose proof (gens_user ss) as G. unfold gens in G. rewrite writes_dsts_all in G. apply G.
  intros s v H1 H2. apply H, in_flat_map. eauto.
Qed.

Lemma push_user_W b d ss : W0 b -> (forall v, In v (flat_map writes ss) -> is_user v) -> W0 (push_plain b d ss).
Proof.
  intros Hw Hu. apply (W0_add b _ (flat_map dsts ss) [] Hw (push_M b d ss)).
  - apply D_push.
  - apply dst_push.
  - rewrite app_nil_r. destruct d; reflexivity.
  - apply gend_user, Hu.
  - constructor.
  - intros v [].
  - apply push_delay, (gi_delay _ (w0_g _ Hw)).
Qed.

Lemma gend_one g src : ~ is_user g -> gend (flat_map dsts [SSub (LVar g) src]) = [g].
Proof.
  intros H. unfold gend; cbn. destruct (is_userb g) eqn:E; [|reflexivity]. exfalso. apply H, is_userb_spec, E.
Qed.

Lemma winits_M b x : M b (w_inits b (s_inits b ++ [x])).
Proof. constructor; auto; try (exists []; rewrite app_nil_r; reflexivity). exists [x]. reflexivity. Qed.

Lemma push_gen_W b d g src z : W0 b -> ~ is_user g -> ~ In g (gens (all_stmts b)) -> fresh_ok b g ->
  W0 (w_inits (push_plain b d [SSub (LVar g) src]) (s_inits (push_plain b d [SSub (LVar g) src]) ++ [(g, z)])).
Proof.
  intros Hw Hg Hn Hf. set (b1 := push_plain b d [SSub (LVar g) src]).
  assert (HM : M b (w_inits b1 (s_inits b1 ++ [(g, z)]))) by (eapply M_trans; [apply push_M|apply winits_M]).
  apply (W0_add b _ (flat_map dsts [SSub (LVar g) src]) [(g, z)] Hw HM).
  - exact (D_push b d [SSub (LVar g) src]).
  - exact (dst_push b d [SSub (LVar g) src]).
  - unfold b1. destruct d; reflexivity.
  - apply gend_one, Hg.
  - constructor; [intros []|constructor].
  - intros v [<-|[]]. split; [exact Hn|]. eapply fresh_M; [exact HM|exact Hf].
  - apply (push_delay b d [SSub (LVar g) src]), (gi_delay _ (w0_g _ Hw)).
Qed.

(** control fields do not matter *)
Definition core' (b : seqb) := (s_body b, s_delayed b, s_prev b, s_tmp b, s_mod_tmp b, s_dst b, s_inits b).
Lemma core'_M b b' : core' b' = core' b -> M b b'.
Proof.
  unfold core'. intros E. injection E as E1 E2 E3 E4 E5 E6 E7. constructor.
  - unfold plain_in. rewrite E1, E2. auto.
  - unfold cond_in. rewrite E1. auto.
  - exists []. rewrite app_nil_r. exact E3.
  - exists []. rewrite app_nil_r. exact E7.
  - rewrite E4. apply le_n.
  - rewrite E5. apply le_n.
Qed.
Lemma core'_W b b' : core' b' = core' b -> W0 b -> W0 b'.
Proof.
  unfold core'. intros E Hw. pose proof (core'_M _ _ E) as HM. injection E as E1 E2 E3 E4 E5 E6 E7.
  assert (Ea : all_stmts b' = all_stmts b) by (unfold all_stmts; rewrite E1, E2; reflexivity).
  destruct Hw as [[G1 G2 G3] H1 H2 H3]. constructor; [constructor| | |].
  - rewrite Ea; exact G1.
  - rewrite Ea. intros v Hv. eapply fresh_M; [exact HM|auto].
  - rewrite E2; exact G3.
  - unfold D. rewrite Ea, E6. exact H1.
  - rewrite Ea, E7. exact H2.
  - rewrite E7. exact H3.
Qed.

Lemma tmp_W b : W0 b -> W0 (w_tmp b (S (s_tmp b))) /\ M b (w_tmp b (S (s_tmp b))).
Proof.
  intros [[G1 G2 G3] H1 H2 H3].
  assert (HM : M b (w_tmp b (S (s_tmp b)))) by (constructor; auto; try (exists []; rewrite app_nil_r; reflexivity); cbn; lia).
  split; [|exact HM]. constructor; [constructor| | |]; auto.
  intros v Hv. eapply fresh_M; [exact HM|apply G2, Hv].
Qed.

Lemma reg_chain_W rg n : forall i prev b b' q,
  (forall j, ~ is_user (rg j)) -> (forall j j', rg j = rg j' -> j = j') ->
  (forall b1, M b b1 -> forall j, fresh_ok b1 (rg j)) -> (forall j, (i < j)%nat -> ~ In (rg j) (gens (all_stmts b))) ->
  W0 b -> reg_chain rg n i prev b = (b', q) -> W0 b' /\ M b b'.
Proof.
  induction n as [|n IH]; intros i prev b b' q Hu Hinj Hf Hni Hw E; cbn [reg_chain] in E.
  - inversion E; subst. split; [exact Hw|apply M_refl].
  - set (b2 := w_inits (push_plain b i [SSub (LVar (rg (S i))) prev]) (s_inits (push_plain b i [SSub (LVar (rg (S i))) prev]) ++ [(rg (S i), 0)])) in *.
    assert (W2 : W0 b2) by (apply push_gen_W; [exact Hw|apply Hu|apply Hni; lia|apply Hf, M_refl]).
    assert (M2 : M b b2) by (eapply M_trans; [apply push_M|apply winits_M]).
    destruct (IH (S i) (EVar (rg (S i))) b2 b' q Hu Hinj) as [W' M'].
    + intros b1 Hb. apply Hf. eapply M_trans; eauto.
    + intros j Hj Hi. change (all_stmts b2) with (all_stmts (push_plain b i [SSub (LVar (rg (S i))) prev])) in Hi.
      apply (Permutation_in _ (gens_perm _ _ (push_all b i [SSub (LVar (rg (S i))) prev]))) in Hi.
      rewrite gens_app in Hi. apply in_app_iff in Hi. destruct Hi as [Hi|Hi]; [revert Hi; apply Hni; lia|].
      apply in_gens in Hi. destruct Hi as [[Hi|[]] _]. cbn in Hi. apply Hinj in Hi. lia.
    + exact W2.
    + exact E.
    + split; [exact W'|eapply M_trans; eauto].
Qed.

Lemma chain_W b rg n e b' q :
  (forall j, match rg j with CondR k _ | SbstR _ k _ | SbstG _ k _ => k = s_tmp b | _ => False end) ->
  (forall j j', rg j = rg j' -> j = j') -> W0 b ->
  reg_chain rg n 0 e (w_tmp b (S (s_tmp b))) = (b', q) -> W0 b' /\ M b b'.
Proof.
  intros Hr Hinj Hw E. destruct (tmp_W b Hw) as [Wt Mt].
  destruct (fresh_tmp b rg (w0_g _ Hw) Hr) as [Hf Hni].
  assert (H0 : W0 b' /\ M (w_tmp b (S (s_tmp b))) b').
  { apply (reg_chain_W rg n 0 e _ b' q); [..|exact Wt|exact E].
  - intros j H. specialize (Hr j). destruct (rg j); contradiction.
  - exact Hinj.
  - intros b1 HM j. eapply fresh_M; [exact HM|apply Hf].
  - intros j _. apply Hni. }
  destruct H0 as [W' M']. split; [exact W'|eapply M_trans; eauto].
Qed.

Lemma cond_W b c d b' q : W0 b -> add_delayed_cond b c d = (b', q) -> W0 b' /\ M b b'.
Proof.
  intros Hw E. unfold add_delayed_cond in E. rewrite cond_chain_reg in E.
  eapply chain_W; eauto; [reflexivity|]. intros j j' H; inversion H; reflexivity.
Qed.

Lemma subst_W b s d b' s' : W0 b -> (forall v, In v (writes s) -> is_user v) -> add_delayed_subst b s d = (b', s') ->
  W0 b' /\ M b b' /\ dsts s' = dsts s.
Proof.
  intros Hw Hu E. unfold add_delayed_subst in E. destruct s as [l e|c t f|e ws].
  2,3: (inversion E; subst; split; [exact Hw|split; [apply M_refl|reflexivity]]).
  destruct (is_const e); [inversion E; subst; split; [exact Hw|split; [apply M_refl|reflexivity]]|].
  rewrite val_chain_reg in E. destruct (reg_chain _ _ _ _ _) as [b1 q] eqn:E1. inversion E; subst.
  specialize (Hu _ (or_introl eq_refl)).
  assert (H0 : W0 b' /\ M b b').
  { eapply chain_W; [..|exact E1].
  - intros j. destruct l as [v|v p|v m lo]; cbn in *; [destruct v; try contradiction|..]; reflexivity.
  - intros j j' H. destruct l as [v|v p|v m lo]; cbn in *; [destruct v; try contradiction|..]; inversion H; reflexivity.
  - exact Hw. }
  destruct H0; auto.
Qed.

Lemma substs_W ss : forall b d b' ss', W0 b -> (forall v, In v (flat_map writes ss) -> is_user v) ->
  add_delayed_substs b ss d = (b', ss') -> W0 b' /\ M b b' /\ flat_map dsts ss' = flat_map dsts ss.
Proof.
  induction ss as [|s ss IH]; intros b d b' ss' Hw Hu E; cbn [add_delayed_substs] in E.
  - inversion E; subst. split; [exact Hw|split; [apply M_refl|reflexivity]].
  - destruct (add_delayed_subst b s d) as [b1 s1] eqn:E1.
    destruct (add_delayed_substs b1 ss d) as [b2 ss2] eqn:E2. inversion E; subst.
    destruct (subst_W b s d b1 s1 Hw) as (W1 & M1 & D1); [intros v Hv; apply Hu; cbn; apply in_or_app; auto|exact E1|].
    destruct (IH b1 d b' ss2 W1) as (W2 & M2 & D2); [intros v Hv; apply Hu; cbn; apply in_or_app; auto|exact E2|].
    split; [exact W2|]. split; [eapply M_trans; eauto|]. cbn [flat_map]. congruence.
Qed.

(** A one-branch conditional item at the end of the body. *)
Definition push_if (b : seqb) (c : expr) (ss : list stmt) : seqb :=
  add_dst (w_body (w_last_if b (Some (length (s_body b)))) (s_body b ++ [IIf [(c, ss)] None])) ss.

Lemma D_push_if b c ss : Permutation (D (push_if b c ss)) (D b ++ flat_map dsts ss).
Proof.
  unfold D, all_stmts. change (s_body (push_if b c ss)) with (s_body b ++ [IIf [(c, ss)] None]).
  change (s_delayed (push_if b c ss)) with (s_delayed b).
  rewrite !flat_map_app. cbn [flat_map item_stmts chain_stmts opt_list dsts app].
  rewrite !app_nil_r, app_assoc. reflexivity.
Qed.
Lemma push_if_M b c ss : M b (push_if b c ss).
Proof.
  constructor; cbn; auto; try (exists []; rewrite app_nil_r; reflexivity).
  - intros s [H|H]; [left; cbn; apply in_or_app; auto|right; exact H].
  - intros c' r p (br & els & H). exists br, els. cbn. apply in_or_app; auto.
Qed.
Lemma push_if_user_W b c ss : W0 b -> (forall v, In v (flat_map writes ss) -> is_user v) -> W0 (push_if b c ss).
Proof.
  intros Hw Hu. apply (W0_add b _ (flat_map dsts ss) [] Hw (push_if_M b c ss)).
  - apply D_push_if.
  - intros l. cbn. apply in_add_dst.
  - rewrite app_nil_r. reflexivity.
  - apply gend_user, Hu.
  - constructor.
  - intros v [].
  - exact (gi_delay _ (w0_g _ Hw)).
Qed.
Lemma push_if_gen_W b c g src z : W0 b -> ~ is_user g -> ~ In g (gens (all_stmts b)) -> fresh_ok b g ->
  W0 (w_inits (push_if b c [SSub (LVar g) src]) (s_inits (push_if b c [SSub (LVar g) src]) ++ [(g, z)])).
Proof.
  intros Hw Hg Hn Hf. set (b1 := push_if b c [SSub (LVar g) src]).
  assert (HM : M b (w_inits b1 (s_inits b1 ++ [(g, z)]))) by (eapply M_trans; [apply push_if_M|apply winits_M]).
  apply (W0_add b _ (flat_map dsts [SSub (LVar g) src]) [(g, z)] Hw HM).
  - exact (D_push_if b c [SSub (LVar g) src]).
  - intros l. apply in_add_dst.
  - reflexivity.
  - apply gend_one, Hg.
  - constructor; [intros []|constructor].
  - intros v [<-|[]]. split; [exact Hn|]. eapply fresh_M; [exact HM|exact Hf].
  - exact (gi_delay _ (w0_g _ Hw)).
Qed.

Lemma add1_W b ss d cond lz eg : W0 b -> (forall v, In v (flat_map writes ss) -> is_user v) ->
  W0 (add_statement1 b ss d cond lz eg) /\ M b (add_statement1 b ss d cond lz eg).
Proof.
  intros Hw Hu. destruct d as [|d].
  - cbn [add_statement1]. destruct cond as [c|].
    + split; [exact (push_if_user_W b c ss Hw Hu)|exact (push_if_M b c ss)].
    + split; [apply push_user_W; assumption|apply push_M].
  - unfold add_statement1. 
    destruct (if eg then add_delayed_substs b ss (S d) else (b, ss)) as [b1 ss1] eqn:E1.
    assert (H1 : W0 b1 /\ M b b1 /\ flat_map dsts ss1 = flat_map dsts ss).
    { destruct eg; [eapply substs_W; eauto|]. inversion E1; subst. split; [exact Hw|split; [apply M_refl|reflexivity]]. }
    destruct H1 as (W1 & M1 & D1).
    match goal with |- context [let '(b2, c1) := ?x in _] => destruct x as [b2 c1] eqn:E2 end.
    assert (H2 : W0 b2 /\ M b1 b2).
    { destruct lz.
      - destruct (add_delayed_cond b1 (EInt 1) (S d)) as [b3 t] eqn:E3. inversion E2; subst. eapply cond_W; eauto.
      - eapply cond_W; eauto. }
    destruct H2 as (W2 & M2). split.
    + apply push_user_W; [exact W2|]. intros v Hv. cbn [flat_map writes] in Hv. rewrite !app_nil_r in Hv.
      rewrite writes_dsts_all, D1, <- writes_dsts_all in Hv. apply Hu, Hv.
    + eapply M_trans; [exact M1|]. eapply M_trans; [exact M2|]. apply push_M.
Qed.

Lemma add_W b ss k : W0 b -> (forall v, In v (flat_map writes ss) -> is_user v) ->
  W0 (add_statement b ss k) /\ M b (add_statement b ss k).
Proof.
  intros Hw Hu. unfold add_statement. destruct (kw_keep k) as [n|]; [|apply add1_W; assumption].
  revert b Hw. induction (seq 0 n) as [|i l IH]; intros b Hw; cbn [fold_left]; [split; [exact Hw|apply M_refl]|].
  match goal with |- context [fold_left ?f l ?b1] => destruct (add1_W b ss ((match kw_delay k with Some d => d | None => 0 end) + i) (kw_cond k)
     (match kw_lazy k with Some x => x | None => false end) (match kw_eager k with Some x => x | None => false end) Hw Hu) as [W1 M1] end.
  destruct (IH _ W1) as [W2 M2]. split; [exact W2|eapply M_trans; eauto].
Qed.

(** Elif/Else on the last conditional *)
Lemma update_nth_split {A} (f : A -> option A) l : forall n l', update_nth n f l = Some l' ->
  exists a x y c, l = a ++ x :: c /\ l' = a ++ y :: c /\ f x = Some y.
Proof.
  induction l as [|x l IH]; intros n l' E; [destruct n; discriminate|].
  destruct n as [|n]; cbn in E.
  - destruct (f x) as [y|] eqn:Ef; [|discriminate]. inversion E; subst. exists [], x, y, l. auto.
  - destruct (update_nth n f l) as [l1|] eqn:E1; [|discriminate]. inversion E; subst.
    destruct (IH n l1 E1) as (a & x0 & y & c & -> & -> & H). exists (x :: a), x0, y, c. auto.
Qed.

Lemma chain_dsts br els : flat_map dsts (chain_stmts br els) =
  flat_map (fun p => flat_map dsts (snd p)) br ++ flat_map dsts (opt_list els).
Proof.
  induction br as [|[c ss] br IH]; [reflexivity|]. cbn. rewrite app_nil_r, IH, app_assoc. reflexivity.
Qed.

Definition item_ext (ss : list stmt) (x y : item) : Prop :=
  exists br els br' els', x = IIf br els /\ y = IIf (br ++ br') els' /\
    flat_map dsts (item_stmts y) = flat_map dsts (item_stmts x) ++ flat_map dsts ss.

Lemma item_elif_ext c ss x y : item_elif c ss x = Some y -> item_ext ss x y.
Proof.
  unfold item_elif. destruct x as [s|br [e|]]; try discriminate. intros E; inversion E; subst.
  exists br, None, [(c, ss)], None. split; [reflexivity|]. split; [reflexivity|].
  cbn [item_stmts]. rewrite !chain_dsts, flat_map_app. cbn. rewrite !app_nil_r. reflexivity.
Qed.
Lemma item_else_ext ss x y : item_else ss x = Some y -> item_ext ss x y.
Proof.
  unfold item_else. destruct x as [s|br [e|]]; try discriminate. intros E; inversion E; subst.
  exists br, None, [], (Some ss). split; [reflexivity|]. split; [rewrite app_nil_r; reflexivity|].
  cbn [item_stmts]. rewrite !chain_dsts. cbn. rewrite !app_nil_r. reflexivity.
Qed.

Lemma update_W b idx f ss body : W0 b -> (forall x y, f x = Some y -> item_ext ss x y) ->
  (forall v, In v (flat_map writes ss) -> is_user v) -> update_nth idx f (s_body b) = Some body ->
  W0 (add_dst (w_body b body) ss) /\ M b (add_dst (w_body b body) ss).
Proof.
  intros Hw Hx Hu E. destruct (update_nth_split f _ _ _ E) as (a & x & y & c & E1 & E2 & Ef).
  destruct (Hx x y Ef) as (br & els & br' & els' & -> & -> & Hd).
  assert (HM : M b (add_dst (w_body b body) ss)).
  { constructor; cbn; auto; try (exists []; rewrite app_nil_r; reflexivity).
    - intros s [H|H]; [left|right; exact H]. cbn. rewrite E1 in H. rewrite E2.
      apply in_app_iff in H. apply in_or_app. destruct H as [H|[H|H]]; [auto|discriminate|right; right; exact H].
    - intros c' r p (br0 & els0 & H). rewrite E1 in H. unfold cond_in. cbn. rewrite E2.
      apply in_app_iff in H. destruct H as [H|[H|H]].
      + exists br0, els0. apply in_or_app; auto.
      + inversion H; subst. exists (br0 ++ br'), els'. apply in_or_app. right. left. reflexivity.
      + exists br0, els0. apply in_or_app. right. right. exact H. }
  split; [|exact HM]. apply (W0_add b _ (flat_map dsts ss) [] Hw HM).
  - unfold D, all_stmts. cbn. rewrite E1, E2. rewrite !flat_map_app. cbn [flat_map]. rewrite !flat_map_app, Hd.
    rewrite <- !app_assoc. do 3 apply Permutation_app_head. apply Permutation_app_comm.
  - intros l. apply in_add_dst.
  - rewrite app_nil_r. reflexivity.
  - apply gend_user, Hu.
  - constructor.
  - intros v [].
  - exact (gi_delay _ (w0_g _ Hw)).
Qed.

Lemma call_W b ss b' : W0 b -> (forall v, In v (flat_map writes ss) -> is_user v) -> op_call b ss = Some b' ->
  W0 b' /\ M b b'.
Proof.
  intros Hw Hu E. unfold op_call in E.
  set (b1 := w_next (w_last_kw b (s_next b)) kw_empty) in *.
  assert (W1 : W0 b1) by (eapply core'_W; [|exact Hw]; reflexivity).
  assert (M1 : M b b1) by (apply core'_M; reflexivity).
  assert (Add : forall bb, core' bb = core' b1 -> W0 (add_statement bb ss (s_next b)) /\ M b (add_statement bb ss (s_next b))).
  { intros bb Hb. destruct (add_W bb ss (s_next b)) as [W2 M2]; [eapply core'_W; eauto|exact Hu|].
    split; [exact W2|]. eapply M_trans; [exact M1|]. eapply M_trans; [apply core'_M, Hb|exact M2]. }
  assert (Els : forall idx body, update_nth idx (item_else ss) (s_body b1) = Some body ->
     W0 (w_elif (w_next_else (w_last_if (add_dst (w_body b1 body) ss) None) false) None) /\
     M b (w_elif (w_next_else (w_last_if (add_dst (w_body b1 body) ss) None) false) None)).
  { intros idx body Eu. destruct (update_W b1 idx (item_else ss) ss body W1 (item_else_ext ss) Hu Eu) as [W2 M2].
    split; [eapply core'_W; [|exact W2]; reflexivity|]. eapply M_trans; [exact M1|]. eapply M_trans; [exact M2|].
    apply core'_M; reflexivity. }
  assert (Second : (if s_next_else b1 && negb (has_args (s_next b)) then
        match s_last_if b1 with
        | None => None
        | Some idx =>
            match update_nth idx (item_else ss) (s_body b1) with
            | None => None
            | Some body =>
                Some (w_elif (w_next_else (w_last_if (add_dst (w_body b1 body) ss) None) false) None)
            end
        end
      else Some (add_statement (w_next_else (w_last_if b1 None) false) ss (s_next b))) = Some b' -> W0 b' /\ M b b').
  { clear E. intros E. destruct (_ && _).
    - destruct (s_last_if b1) as [idx|]; [|discriminate].
      destruct (update_nth idx (item_else ss) (s_body b1)) as [body|] eqn:Eu; [|discriminate].
      inversion E; subst. eapply Els; eauto.
    - inversion E; subst. apply Add. reflexivity. }
  destruct (s_elif b1) as [ec|]; [|apply Second; exact E].
  destruct (has_args (s_next b)) eqn:Eh; [apply Second; exact E|].
  destruct (s_last_if b1) as [idx|]; [|discriminate].
  destruct (update_nth idx (item_elif ec ss) (s_body b1)) as [body|] eqn:Eu; [|discriminate].
  inversion E; subst. destruct (update_W b1 idx (item_elif ec ss) ss body W1 (item_elif_ext ec ss) Hu Eu) as [W2 M2].
  split; [eapply core'_W; [|exact W2]; reflexivity|]. eapply M_trans; [exact M1|]. eapply M_trans; [exact M2|].
  apply core'_M; reflexivity.
Qed.

(** ** Prev *)
Definition prev_src (n i : nat) : expr := match i with S (S j) => EVar (PrevR n (S j)) | _ => EVar (User n) end.
Definition Wp (b : seqb) : Prop := forall n i e, In ((n, i), e) (s_prev b) ->
  (1 <= i)%nat /\ e = EVar (PrevR n i) /\ plain_in b (SSub (LVar (PrevR n i)) (prev_src n i)) /\
  ((2 <= i)%nat -> In (n, (i - 1)%nat) (map fst (s_prev b))).

Definition W (b : seqb) : Prop := W0 b /\ Wp b.

Lemma Wp_M b b' : Wp b -> M b b' -> s_prev b' = s_prev b -> Wp b'.
Proof.
  intros H HM E n i e Hin. rewrite E in *. destruct (H n i e Hin) as (A & B & C & F).
  split; [exact A|]. split; [exact B|]. split; [apply (m_plain _ _ HM), C|exact F].
Qed.

Lemma prev_lookup_in b n i q : prev_lookup b n i = Some q -> In ((n, i), q) (s_prev b).
Proof.
  unfold prev_lookup. destruct (find _ _) as [[[n' i'] e]|] eqn:E; [|discriminate].
  intros H; inversion H; subst. apply find_some in E. destruct E as [E1 E2]. cbn in E2.
  apply andb_true_iff in E2. destruct E2. assert (n' = n) by lia. assert (i' = i) by lia. subst. exact E1.
Qed.
Lemma prev_lookup_none b n i : prev_lookup b n i = None -> ~ In (n, i) (map fst (s_prev b)).
Proof.
  unfold prev_lookup. destruct (find _ _) eqn:E; [discriminate|]. intros _ Hin.
  apply in_map_iff in Hin. destruct Hin as [[[n' i'] e] [H1 H2]]. cbn in H1. inversion H1; subst.
  pose proof (find_none _ _ E _ H2) as H. cbn in H. rewrite !Nat.eqb_refl in H. discriminate.
Qed.

Lemma prev_chain_W n len : forall i iv p b b' q, W b ->
  p = (match i with O => EVar (User n) | S _ => EVar (PrevR n i) end) ->
  ((1 <= i)%nat -> In (n, i) (map fst (s_prev b))) ->
  prev_chain n len i iv p b = (b', q) ->
  W b' /\ M b b' /\ q = (match (i + len)%nat with O => EVar (User n) | S _ => EVar (PrevR n (i + len)) end) /\
  ((1 <= i + len)%nat -> In (n, (i + len)%nat) (map fst (s_prev b'))) /\
  (forall v z, In (v, z) (s_inits b') -> In (v, z) (s_inits b) \/ (z = iv /\ exists j, v = PrevR n j)).
Proof.
  induction len as [|len IH]; intros i iv p b b' q [Hw Hp] Ep Hi E; cbn [prev_chain] in E.
  - inversion E; subst b' q. replace (i + 0)%nat with i by lia. split; [split; assumption|]. split; [apply M_refl|]. auto.
  - destruct (prev_lookup b n (S i)) as [q0|] eqn:El.
    + apply prev_lookup_in in El. destruct (Hp _ _ _ El) as (_ & -> & _ & _).
      replace (i + S len)%nat with (S i + len)%nat by lia.
      eapply (IH (S i)); eauto; [split; assumption|]. intros _. apply in_map_iff. exists ((n, S i), EVar (PrevR n (S i))). auto.
    + apply prev_lookup_none in El.
      set (b1 := w_prev b (s_prev b ++ [((n, S i), EVar (PrevR n (S i)))])) in *.
      set (b3 := w_inits (push_plain b1 0 [SSub (LVar (PrevR n (S i))) p]) (s_inits (push_plain b1 0 [SSub (LVar (PrevR n (S i))) p]) ++ [(PrevR n (S i), iv)])) in *.
      assert (Mb1 : M b b1).
      { constructor; auto; [eexists; reflexivity|exists []; rewrite app_nil_r; reflexivity]. }
      assert (W1 : W0 b1).
      { destruct Hw as [[G1 G2 G3] H1 H2 H3]. constructor; [constructor| | |]; auto.
        intros v Hv. eapply fresh_M; [exact Mb1|apply G2, Hv]. }
      assert (W3 : W0 b3).
      { apply push_gen_W; [exact W1|auto| |].
        - intros Hin. apply El. exact (gi_fresh _ (w0_g _ Hw) _ Hin).
        - cbn. rewrite map_app. apply in_or_app. right. left. reflexivity. }
      assert (M3 : M b b3) by (eapply M_trans; [exact Mb1|]; eapply M_trans; [apply push_M|apply winits_M]).
      assert (P3 : s_prev b3 = s_prev b ++ [((n, S i), EVar (PrevR n (S i)))]) by reflexivity.
      assert (Wp3 : Wp b3).
      { intros n' i' e Hin. rewrite P3 in Hin. apply in_app_iff in Hin. destruct Hin as [Hin|[Hin|[]]].
        - destruct (Hp _ _ _ Hin) as (A & B & C & F). split; [exact A|]. split; [exact B|].
          split; [apply (m_plain _ _ M3), C|]. intros H2. rewrite P3, map_app. apply in_or_app. auto.
        - inversion Hin; subst n' i' e. split; [lia|]. split; [reflexivity|]. split.
          + unfold plain_in. cbn. left. apply in_or_app. right. left. subst p. destruct i; reflexivity.
          + intros H2. rewrite P3, map_app. apply in_or_app. left. replace (S i - 1)%nat with i by lia. apply Hi. lia. }
      destruct (IH (S i) iv (EVar (PrevR n (S i))) b3 b' q) as (W' & M' & Q' & I' & N').
      * split; assumption.
      * reflexivity.
      * intros _. rewrite P3, map_app. apply in_or_app. right. left. reflexivity.
      * exact E.
      * replace (i + S len)%nat with (S i + len)%nat by lia.
        split; [exact W'|]. split; [eapply M_trans; eauto|]. split; [exact Q'|]. split; [exact I'|].
        intros v z Hv. destruct (N' v z Hv) as [H|H]; [|auto].
        change (s_inits b3) with (s_inits b ++ [(PrevR n (S i), iv)]) in H.
        apply in_app_iff in H. destruct H as [H|[H|[]]]; [auto|]. inversion H; subst. right. eauto.
Qed.

(** the conditional chain: the temporaries k0, k0+1, ... *)
Lemma prev_cond_W c len : forall iv p b b' q, W b ->
  prev_cond_chain c len iv p b = (b', q) ->
  W b' /\ M b b' /\ s_mod_tmp b' = (s_mod_tmp b + len)%nat /\
  q = (match len with O => p | S _ => EVar (TmpR (s_mod_tmp b + len - 1)) end) /\
  (forall j, (j < len)%nat -> cond_in b' c (TmpR (s_mod_tmp b + j)) (match j with O => p | S j' => EVar (TmpR (s_mod_tmp b + j')) end) /\
     In (TmpR (s_mod_tmp b + j), iv) (s_inits b')) /\
  (forall v z, In (v, z) (s_inits b') -> In (v, z) (s_inits b) \/ (exists j, v = TmpR j)).
Proof.
  induction len as [|len IH]; intros iv p b b' q [Hw Hp] E; cbn [prev_cond_chain] in E.
  - inversion E; subst b' q. split; [split; assumption|]. split; [apply M_refl|]. split; [lia|]. split; [reflexivity|].
    split; [intros; lia|auto].
  - set (r := TmpR (s_mod_tmp b)) in *. set (b1 := w_mod_tmp b (S (s_mod_tmp b))) in *.
    change (add_statement1 b1 [SSub (LVar r) p] 0 (Some c) false false) with (push_if b1 c [SSub (LVar r) p]) in E.
    set (b3 := w_inits (push_if b1 c [SSub (LVar r) p]) (s_inits (push_if b1 c [SSub (LVar r) p]) ++ [(r, iv)])) in *.
    assert (Mb1 : M b b1).
    { constructor; auto; try (exists []; rewrite app_nil_r; reflexivity). cbn. lia. }
    assert (W1 : W0 b1).
    { destruct Hw as [[G1 G2 G3] H1 H2 H3]. constructor; [constructor| | |]; auto.
      intros v Hv. eapply fresh_M; [exact Mb1|apply G2, Hv]. }
    assert (W3 : W0 b3).
    { apply push_if_gen_W; [exact W1|auto| |].
      - intros Hin. pose proof (gi_fresh _ (w0_g _ Hw) _ Hin) as H. cbn in H. lia.
      - cbn. lia. }
    assert (M3 : M b b3) by (eapply M_trans; [exact Mb1|]; eapply M_trans; [apply push_if_M|apply winits_M]).
    destruct (IH iv (EVar r) b3 b' q) as (W' & M' & T' & Q' & C' & N').
    + split; [exact W3|]. eapply Wp_M; [exact Hp|exact M3|reflexivity].
    + exact E.
    + change (s_mod_tmp b3) with (S (s_mod_tmp b)) in *.
      split; [exact W'|]. split; [eapply M_trans; eauto|]. split; [lia|]. split.
      * rewrite Q'. destruct len; [unfold r; f_equal; f_equal; lia|f_equal; f_equal; lia].
      * split.
        -- intros [|j] Hj.
           ++ replace (s_mod_tmp b + 0)%nat with (s_mod_tmp b) by lia. split.
              ** apply (m_cond _ _ M'). exists [], None. cbn. apply in_or_app. right. left. reflexivity.
              ** destruct (m_inits _ _ M') as [l ->]. apply in_or_app. left.
                 change (s_inits b3) with (s_inits b ++ [(r, iv)]). apply in_or_app. right. left. reflexivity.
           ++ destruct (C' j ltac:(lia)) as [C1 C2].
              replace (s_mod_tmp b + S j)%nat with (S (s_mod_tmp b) + j)%nat by lia. split; [|exact C2].
              destruct j as [|j]; [replace (s_mod_tmp b + 0)%nat with (s_mod_tmp b) by lia; exact C1|].
              replace (s_mod_tmp b + S j)%nat with (S (s_mod_tmp b) + j)%nat by lia. exact C1.
        -- intros v z Hv. destruct (N' v z Hv) as [H|H]; [|auto].
           change (s_inits b3) with (s_inits b ++ [(r, iv)]) in H.
           apply in_app_iff in H. destruct H as [H|[H|[]]]; [auto|]. inversion H; subst. right. exists (s_mod_tmp b). reflexivity.
Qed.

(** ** All operations *)

Lemma op_if_core b cs : core' (op_if b cs) = core' b.
Proof. unfold op_if. destruct (make_condition cs); reflexivity. Qed.
Lemma op_then_core b : core' (op_then b) = core' b.
Proof. unfold op_then. destruct (make_cond _); rewrite op_if_core; reflexivity. Qed.

Lemma add_statement_prev b ss k : W0 b -> s_prev (add_statement b ss k) = s_prev b.
Proof.
  assert (Push : forall b d ss, s_prev (push_plain b d ss) = s_prev b) by (intros b0 [|d0] ss0; reflexivity).
  assert (RC : forall rg n i p b, s_prev (fst (reg_chain rg n i p b)) = s_prev b).
  { intros rg n; induction n as [|n IH]; intros i p b0; [reflexivity|]. cbn [reg_chain]. rewrite IH. apply (Push b0 i). }
  assert (DC : forall b c d, s_prev (fst (add_delayed_cond b c d)) = s_prev b).
  { intros. unfold add_delayed_cond. rewrite cond_chain_reg, RC. reflexivity. }
  assert (DS : forall ss b d, s_prev (fst (add_delayed_substs b ss d)) = s_prev b).
  { induction ss0 as [|s ss0 IH]; intros b0 d; [reflexivity|]. cbn [add_delayed_substs].
    destruct (add_delayed_subst b0 s d) as [b1 s1] eqn:E1. destruct (add_delayed_substs b1 ss0 d) as [b2 r] eqn:E2.
    cbn [fst]. specialize (IH b1 d). rewrite E2 in IH. cbn in IH. rewrite IH.
    unfold add_delayed_subst in E1. destruct s as [l e|? ? ?|? ?]; [|inversion E1; reflexivity|inversion E1; reflexivity].
    destruct (is_const e); [inversion E1; reflexivity|]. rewrite val_chain_reg in E1.
    pose proof (RC (sbst_reg l (s_tmp b0)) d 0%nat e (w_tmp b0 (S (s_tmp b0)))) as H.
    destruct (reg_chain _ _ _ _ _). inversion E1; subst. exact H. }
  assert (A1 : forall b d c lz eg, s_prev (add_statement1 b ss d c lz eg) = s_prev b).
  { intros b0 [|d] c lz eg; cbn [add_statement1]; [destruct c; [reflexivity|apply Push]|].
    destruct (if eg then add_delayed_substs b0 ss (S d) else (b0, ss)) as [b1 ss1] eqn:E1.
    assert (P1 : s_prev b1 = s_prev b0).
    { destruct eg; [pose proof (DS ss b0 (S d)) as H; rewrite E1 in H; exact H|inversion E1; reflexivity]. }
    match goal with |- context [let '(b2, c1) := ?x in _] => destruct x as [b2 c1] eqn:E2 end.
    rewrite Push, <- P1. destruct lz.
    - pose proof (DC b1 (EInt 1) (S d)) as H. destruct (add_delayed_cond b1 (EInt 1) (S d)). inversion E2; subst. exact H.
    - pose proof (DC b1 (match c with Some c0 => c0 | None => EInt 1 end) (S d)) as H. rewrite E2 in H. exact H. }
  intros _. unfold add_statement. destruct (kw_keep k) as [n|]; [|apply A1].
  revert b. induction (seq 0 n) as [|i l IH]; intros b; cbn [fold_left]; [reflexivity|]. rewrite IH. apply A1.
Qed.

Lemma call_prev b ss b' : W0 b -> op_call b ss = Some b' -> s_prev b' = s_prev b.
Proof.
  intros Hw E. unfold op_call in E.
  set (b1 := w_next (w_last_kw b (s_next b)) kw_empty) in *.
  assert (Add : s_prev (add_statement (w_next_else (w_last_if b1 None) false) ss (s_next b)) = s_prev b)
    by (rewrite add_statement_prev; [reflexivity|eapply core'_W; [|exact Hw]; reflexivity]).
  destruct (s_elif b1) as [ec|]; [destruct (has_args (s_next b))|];
  repeat match type of E with
  | (if ?x then _ else _) = _ => destruct x
  | match ?x with _ => _ end = _ => destruct x; try discriminate
  end; inversion E; subst; try exact Add; reflexivity.
Qed.

Lemma do_op_W b o b' : W b -> op_user o -> do_op b o = Some b' -> W b' /\ M b b'.
Proof.
  intros [Hw Hp] Hu E.
  assert (Same : core' b' = core' b -> W b' /\ M b b').
  { intros H. pose proof (core'_M _ _ H) as HM. split; [split|exact HM]; [eapply core'_W; eauto|].
    eapply Wp_M; eauto. unfold core' in H. congruence. }
  destruct o as [cs| |cs|d|k| | |ss|n d iv c]; cbn [do_op] in E.
  - inversion E; subst. apply Same, op_if_core.
  - unfold op_else in E. apply Same. destruct (negate_last _) as [lc|]; [|discriminate].
    destruct (delayed_last _); [inversion E; subst; transitivity (core' (op_then (w_last_cond (w_elif b None) lc))); [reflexivity|rewrite op_then_core; reflexivity]|].
    destruct (s_last_if _); [|discriminate]. destruct (make_cond _); [|discriminate]. inversion E; reflexivity.
  - unfold op_elif in E. apply Same. destruct (negate_last _) as [lc|]; [|discriminate].
    destruct (make_condition cs) as [c|]; [|discriminate].
    destruct (delayed_last _); [inversion E; subst; transitivity (core' (op_then (w_last_cond b (lc ++ [c])))); [reflexivity|rewrite op_then_core; reflexivity]|].
    destruct (s_last_if _); [|discriminate]. destruct (make_cond _); [|discriminate]. inversion E; reflexivity.
  - inversion E; subst. apply Same; reflexivity.
  - inversion E; subst. apply Same; reflexivity.
  - inversion E; subst. apply Same; reflexivity.
  - inversion E; subst. apply Same; reflexivity.
  - destruct (call_W b ss b' Hw Hu E) as [W' M']. split; [split; [exact W'|]|exact M'].
    eapply Wp_M; eauto. eapply call_prev; eauto.
  - inversion E as [E']. clear E. unfold op_prev. destruct d as [|d]; [split; [split; assumption|apply M_refl]|].
    destruct (prev_lookup b n (S d)); [split; [split; assumption|apply M_refl]|].
    destruct c as [c|].
    + destruct (prev_cond_chain c (S d) iv (EVar (User n)) b) as [b2 q] eqn:E2.
      destruct (prev_cond_W c (S d) iv (EVar (User n)) b b2 q (conj Hw Hp) E2) as (A & B & _). auto.
    + destruct (prev_chain n (S d) 0 iv (EVar (User n)) b) as [b2 q] eqn:E2.
      destruct (prev_chain_W n (S d) 0 iv (EVar (User n)) b b2 q (conj Hw Hp) eq_refl ltac:(intros; lia) E2) as (A & B & _). auto.
Qed.

Lemma do_ops_W os : forall b b', W b -> Forall op_user os -> do_ops b os = Some b' -> W b' /\ M b b'.
Proof.
  induction os as [|o os IH]; intros b b' Hw Hu E; cbn [do_ops] in E.
  - inversion E; subst. split; [exact Hw|apply M_refl].
  - destruct (do_op b o) as [b1|] eqn:E1; [|discriminate].
    destruct (do_op_W b o b1 Hw (Forall_inv Hu) E1) as [W1 M1].
    destruct (IH b1 b' W1 (Forall_inv_tail Hu) E) as [W2 M2]. split; [exact W2|eapply M_trans; eauto].
Qed.

Lemma W_new : W seq_new.
Proof.
  split; [constructor; [apply ginv_new|cbn; tauto|cbn; tauto|constructor]|]. intros n i e [].
Qed.
