(** Proofs for the mutex. *)
From Verif Require Import Base Mutex_Model Mutex_Spec.
Open Scope Z_scope.

(** ** Identifiers *)
Lemma index_of_range t names k : index_of t names = Some k -> 0 <= k < Z.of_nat (length names).
Proof.
  revert k. induction names as [|x r IH]; intros k H; cbn in H; [discriminate|].
  destruct (Nat.eqb x t); [inversion H; cbn; lia|].
  destruct (index_of t r) as [j|]; [|discriminate]. inversion H; subst. specialize (IH j eq_refl). cbn [length]. lia.
Qed.
Lemma index_of_in t names : In t names <-> exists k, index_of t names = Some k.
Proof.
  induction names as [|x r IH]; cbn; [split; [tauto|intros [k H]; discriminate]|].
  destruct (Nat.eqb_spec x t) as [E|E]; [split; eauto|]. rewrite IH.
  split.
  - intros [H|[k H]]; [contradiction|]. rewrite H. eauto.
  - intros [k H]. right. destruct (index_of t r) as [j|]; [eauto|discriminate].
Qed.
Lemma index_of_inj t1 t2 names k : index_of t1 names = Some k -> index_of t2 names = Some k -> t1 = t2.
Proof.
  revert k. induction names as [|x r IH]; intros k H1 H2; cbn in *; [discriminate|].
  destruct (Nat.eqb_spec x t1) as [E1|E1], (Nat.eqb_spec x t2) as [E2|E2]; [congruence| | |].
  - destruct (index_of t2 r) as [j|] eqn:E; [|discriminate]. apply index_of_range in E. inversion H1; inversion H2. lia.
  - destruct (index_of t1 r) as [j|] eqn:E; [|discriminate]. apply index_of_range in E. inversion H1; inversion H2. lia.
  - destruct (index_of t1 r) as [j|] eqn:Ea; [|discriminate]. destruct (index_of t2 r) as [j'|] eqn:Eb; [|discriminate].
    inversion H1; inversion H2. apply (IH j); [reflexivity|f_equal; lia].
Qed.
Lemma ident_inj names t1 t2 : In t1 names -> In t2 names -> ident names t1 = ident names t2 -> t1 = t2.
Proof.
  intros H1 H2. apply index_of_in in H1 as [k1 E1]. apply index_of_in in H2 as [k2 E2].
  unfold ident. rewrite E1, E2. intros ->. exact (index_of_inj _ _ _ _ E1 E2).
Qed.
Lemma index_of_app t names x : In t names -> index_of t (names ++ [x]) = index_of t names.
Proof.
  induction names as [|y r IH]; cbn; [tauto|]. destruct (Nat.eqb_spec y t) as [E|E]; [reflexivity|].
  intros [H|H]; [contradiction|]. rewrite IH by exact H. reflexivity.
Qed.

(** registering keeps the old names, contains every caller, and numbers below 2^w *)
Lemma register_spec w sites : 0 <= w -> forall names names', register w names sites = Some names' ->
  Z.of_nat (length names) <= 2 ^ w ->
  incl names names' /\ (forall t d, In (t, d) sites -> In t names') /\ Z.of_nat (length names') <= 2 ^ w.
Proof.
  intros Hw. induction sites as [|[t d] r IH]; intros names names' H Hl.
  - inversion H; subst. split; [intros x Hx; exact Hx|]. split; [intros ? ? []|exact Hl].
  - cbn in H. unfold get_id in H. destruct (index_of t names) as [k|] eqn:E.
    + destruct (2 ^ w - 1 <? k); [discriminate|]. destruct (IH _ _ H Hl) as (A & B & C).
      split; [exact A|]. split; [|exact C]. intros t' d' [X|X]; [|exact (B _ _ X)].
      inversion X; subst. apply A, index_of_in. eauto.
    + destruct (2 ^ w - 1 <? Z.of_nat (length names)) eqn:Ek; [discriminate|].
      assert (Hl' : Z.of_nat (length (names ++ [t])) <= 2 ^ w) by (rewrite app_length; cbn [length]; lia).
      destruct (IH _ _ H Hl') as (A & B & C). split; [intros x Hx; apply A, in_or_app; auto|].
      split; [|exact C]. intros t' d' [X|X]; [|exact (B _ _ X)]. inversion X; subst. apply A, in_or_app. right. left. reflexivity.
Qed.

(** ** Registers *)
Lemma apply_held w x os : m_reg x = true -> (forall k, In (OUnlock k) os -> k <> m_id x) -> mx_apply w x os = x.
Proof.
  intros Hr H. unfold mx_apply. induction os as [|o os IH]; [reflexivity|]. cbn [fold_left].
  replace (mx_op w x x o) with x; [apply IH; intros k Hk; apply H; right; exact Hk|].
  destruct o as [k|k]; cbn; [rewrite Hr; reflexivity|].
  destruct (Z.eqb_spec (m_id x) k) as [E|E]; [|reflexivity]. exfalso. apply (H k); [left; reflexivity|auto].
Qed.
(** no effective unlock: what a fold leaves *)
Lemma fold_free w x os : m_reg x = false -> forall y,
  (forall k, In (OUnlock k) os -> k <> m_id x) ->
  (exists k, In (OTry k) os) \/ m_reg y = true -> m_reg (fold_left (mx_op w x) os y) = true.
Proof.
  intros Hr. induction os as [|o os IH]; intros y Hu [[k H]|H]; [destruct H| cbn; exact H| |].
  - cbn [fold_left]. apply IH; [intros j Hj; apply Hu; right; exact Hj|].
    destruct H as [->|H]; [right; cbn; rewrite Hr; reflexivity|left; eauto].
  - cbn [fold_left]. apply IH; [intros j Hj; apply Hu; right; exact Hj|]. right.
    destruct o as [j|j]; cbn; [rewrite Hr; reflexivity|].
    destruct (Z.eqb_spec (m_id x) j) as [E|E]; [exfalso; apply (Hu j); [left; reflexivity|auto]|exact H].
Qed.
(** a lock that was free is taken only by one of the threads that try *)
Lemma fold_taken w x os : forall y, (m_reg y = true -> exists k, In (OTry k) os /\ m_id y = k mod 2 ^ w) ->
  forall l, incl l os -> m_reg (fold_left (mx_op w x) l y) = true ->
  m_reg x = false -> exists k, In (OTry k) os /\ m_id (fold_left (mx_op w x) l y) = k mod 2 ^ w.
Proof.
  intros y Hy l. revert y Hy. induction l as [|o l IH]; intros y Hy Hi Hr Hx; [exact (Hy Hr)|].
  cbn [fold_left] in *. apply IH; [|intros z Hz; apply Hi; right; exact Hz|exact Hr|exact Hx].
  destruct o as [k|k]; cbn.
  - rewrite Hx. cbn. intros _. exists k. split; [apply Hi; left; reflexivity|reflexivity].
  - destruct (m_id x =? k); [cbn; discriminate|exact Hy].
Qed.
Lemma apply_taken w x os : m_reg x = false -> m_reg (mx_apply w x os) = true ->
  exists k, In (OTry k) os /\ m_id (mx_apply w x os) = k mod 2 ^ w.
Proof.
  intros Hx Hr. apply (fold_taken w x os x); [congruence|intros z Hz; exact Hz|exact Hr|exact Hx].
Qed.
(** an owner that unlocks frees the lock *)
Lemma apply_unlocked w x os : m_reg x = true -> In (OUnlock (m_id x)) os -> m_reg (mx_apply w x os) = false.
Proof.
  intros Hx. unfold mx_apply. generalize x at 3 as y. intros y Hin.
  assert (K : forall l z, m_reg z = false -> m_reg (fold_left (mx_op w x) l z) = false).
  { intros l. induction l as [|o l IH]; intros z Hz; [exact Hz|]. cbn [fold_left]. apply IH.
    destruct o as [k|k]; cbn; [rewrite Hx; exact Hz|destruct (m_id x =? k); [reflexivity|exact Hz]]. }
  revert y. induction os as [|o os IH]; intros y; [destruct Hin|]. cbn [fold_left].
  destruct Hin as [->|Hin]; [|apply IH; exact Hin].
  apply K. cbn. rewrite Z.eqb_refl. reflexivity.
Qed.

(** ** Threads *)
Section Mutex.
  Variables (w : Z) (names : list nat) (sites : list site).
  Hypothesis Hw : 0 <= w.
  Hypothesis Hreg : register w [] sites = Some names.

  Notation id := (ident names).
  Notation step := (m_step w names sites).

  Lemma sites_in t d : In (t, d) sites -> In t names.
  Proof. destruct (register_spec w sites Hw [] names Hreg) as (_ & H & _); [cbn; apply Z.pow_nonneg; lia|apply H]. Qed.
  Lemma id_range t : In t names -> 0 <= id t < 2 ^ w.
  Proof.
    intros H. destruct (register_spec w sites Hw [] names Hreg) as (_ & _ & L); [cbn; apply Z.pow_nonneg; lia|].
    apply index_of_in in H as [k E]. unfold ident. rewrite E. apply index_of_range in E. lia.
  Qed.
  Lemma id_mod t : In t names -> id t mod 2 ^ w = id t.
  Proof. intros H. apply Z.mod_small, id_range, H. Qed.

  Definition okT (th : nat -> phase) : Prop := forall t,
    match th t with
    | Out => True
    | First k => exists d, nth_error sites k = Some (t, d)
    | Second k => exists d, nth_error sites k = Some (t, d) /\ d <> KUnlock
    end.
  Lemma okT_name th t : okT th -> th t <> Out -> In t names.
  Proof.
    intros H Hn. specialize (H t). destruct (th t) as [|k|k]; [congruence| |].
    - destruct H as (d & E). apply nth_error_In in E. exact (sites_in _ _ E).
    - destruct H as (d & E & _). apply nth_error_In in E. exact (sites_in _ _ E).
  Qed.
  Lemma okT_step s i : okT (s_th s) -> okT (s_th (step s i)).
  Proof.
    intros H t. specialize (H t). cbn. unfold th_next.
    assert (E : match enter sites t (i t) with Out => True | First k => exists d, nth_error sites k = Some (t, d)
                | Second k => exists d, nth_error sites k = Some (t, d) /\ d <> KUnlock end).
    { unfold enter. destruct (i t) as [k|]; [|exact I]. destruct (nth_error sites k) as [[t' d]|] eqn:E; [|exact I].
      destruct (Nat.eqb_spec t' t) as [->|]; [eauto|exact I]. }
    destruct (s_th s t) as [|k|k]; [exact E| |].
    - destruct H as (d & Ek). rewrite Ek. destruct d; [|exists KTryLock; split; [exact Ek|discriminate]|exact E].
      destruct (_ || _); [exists KLock; split; [exact Ek|discriminate]|exists KLock; exact Ek].
    - destruct H as (d & Ek & Hd). rewrite Ek. destruct d; [|exact E|exact E].
      destruct (mx_owner _ _); [exact E|exists KLock; exact Ek].
  Qed.

  (** which statements are enabled *)
  Lemma combine_seq_nth {A} (l : list A) k0 k x : In (k, x) (combine (seq k0 (length l)) l) <-> exists j, k = (k0 + j)%nat /\ nth_error l j = Some x.
  Proof.
    revert k0. induction l as [|a l IH]; intros k0; cbn.
    - split; [tauto|]. intros ([|j] & _ & H); discriminate.
    - rewrite IH. split.
      + intros [E|(j & E & H)]; [inversion E; subst; exists 0%nat; split; [lia|reflexivity]|exists (S j); split; [lia|exact H]].
      + intros ([|j] & E & H); [left; cbn in H; inversion H; f_equal; lia|right; exists j; split; [lia|exact H]].
  Qed.
  Lemma in_ops th o : okT th -> In o (ops names sites th) <->
    exists t k d, th t = First k /\ nth_error sites k = Some (t, d) /\
      o = match d with KUnlock => OUnlock (id t) | _ => OTry (id t) end.
  Proof.
    intros Hok. unfold ops. rewrite in_flat_map. split.
    - intros ((k, (t, d)) & Hin & Ho). apply combine_seq_nth in Hin as (j & -> & E). cbn [plus] in *. unfold site_ops in Ho.
      destruct (th t) as [|k|k] eqn:Et; cbn in Ho; try destruct Ho. destruct (Nat.eqb_spec k j) as [->|]; [|destruct Ho].
      destruct Ho as [<-|[]]. exists t, j, d. auto.
    - intros (t & k & d & Et & E & ->). exists (k, (t, d)). split; [apply combine_seq_nth; exists k; auto|].
      unfold site_ops. rewrite Et. cbn. rewrite Nat.eqb_refl. left. reflexivity.
  Qed.
  Lemma in_unlock s k : okT (s_th s) -> In (OUnlock k) (ops names sites (s_th s)) ->
    exists t, In t names /\ k = id t /\ releases sites s t = true.
  Proof.
    intros Hok H. apply (in_ops _ _ Hok) in H as (t & j & d & Et & E & Eo). exists t.
    destruct d; try discriminate. inversion Eo. split; [apply (okT_name (s_th s)); [exact Hok|congruence]|].
    split; [reflexivity|]. unfold releases. rewrite Et, E. reflexivity.
  Qed.
  Lemma in_try s k : okT (s_th s) -> In (OTry k) (ops names sites (s_th s)) ->
    exists t j d, In t names /\ k = id t /\ s_th s t = First j /\ nth_error sites j = Some (t, d) /\ d <> KUnlock.
  Proof.
    intros Hok H. apply (in_ops _ _ Hok) in H as (t & j & d & Et & E & Eo). exists t, j, d.
    split; [apply (okT_name (s_th s)); [exact Hok|congruence]|].
    destruct d; try discriminate; inversion Eo; repeat split; auto; discriminate.
  Qed.
  Lemma rel_in_ops s t : okT (s_th s) -> releases sites s t = true -> In (OUnlock (id t)) (ops names sites (s_th s)).
  Proof.
    intros Hok H. apply (in_ops _ _ Hok). unfold releases in H. specialize (Hok t).
    destruct (s_th s t) as [|k|k] eqn:Et; try discriminate. destruct Hok as (d & E). rewrite E in H.
    destruct d; try discriminate. exists t, k, KUnlock. auto.
  Qed.

  (** ** The invariant, with the set [h] of owners *)
  Definition inv (s : mst) (h : nat -> bool) : Prop :=
    okT (s_th s) /\
    (forall t, h t = true -> In t names /\ mx_owner (s_mx s) (id t) = true) /\
    (m_reg (s_mx s) = true -> exists t, In t names /\ m_id (s_mx s) = id t /\ (h t = true \/ acquires names s t = true)).
  Definition h_next (s : mst) (h : nat -> bool) (t : nat) : bool :=
    if acquires names s t then true else if releases sites s t then false else h t.

  Lemma acq_owner s t : acquires names s t = true -> mx_owner (s_mx s) (id t) = true /\ (exists k, s_th s t = Second k).
  Proof. unfold acquires. destruct (s_th s t); try discriminate. intros H. split; eauto. Qed.
  Lemma acq_not_rel s t : acquires names s t = true -> releases sites s t = false.
  Proof. unfold acquires, releases. destruct (s_th s t); try discriminate. reflexivity. Qed.
  (** while an owner does not release, the registers do not change *)
  Lemma owner_keeps s t : okT (s_th s) -> In t names -> mx_owner (s_mx s) (id t) = true -> releases sites s t = false ->
    mx_apply w (s_mx s) (ops names sites (s_th s)) = s_mx s.
  Proof.
    intros Hok Hin Ho Hr. unfold mx_owner in Ho. apply andb_prop in Ho as [A B]. apply Z.eqb_eq in B.
    apply apply_held; [exact A|]. intros k Hk. apply (in_unlock s k Hok) in Hk as (t' & Hin' & -> & Hr').
    intros E. rewrite B in E. apply ident_inj in E; auto. subst. congruence.
  Qed.
  Lemma inv_step s h i : inv s h -> inv (step s i) (h_next s h).
  Proof.
    intros (Hok & H1 & H2). split; [apply okT_step, Hok|]. split.
    - intros t Ht. unfold h_next in Ht. cbn [s_mx m_step].
      assert (K : In t names /\ mx_owner (s_mx s) (id t) = true /\ releases sites s t = false).
      { destruct (acquires names s t) eqn:Ea.
        - destruct (acq_owner _ _ Ea) as (A & k & B). split; [apply (okT_name (s_th s)); [exact Hok|congruence]|].
          split; [exact A|apply acq_not_rel; exact Ea].
        - destruct (releases sites s t); [discriminate|]. destruct (H1 t Ht). auto. }
      destruct K as (A & B & C). split; [exact A|]. rewrite (owner_keeps s t Hok A B C). exact B.
    - cbn [s_mx m_step]. intros Hr. destruct (m_reg (s_mx s)) eqn:Er.
      + destruct (H2 eq_refl) as (t & Hin & Eid & Hor).
        assert (Ho : mx_owner (s_mx s) (id t) = true) by (unfold mx_owner; rewrite Er, Eid, Z.eqb_refl; reflexivity).
        destruct (releases sites s t) eqn:Erel.
        * apply (rel_in_ops s t Hok) in Erel. rewrite <- Eid in Erel.
          rewrite (apply_unlocked w _ _ Er Erel) in Hr. discriminate.
        * exists t. split; [exact Hin|]. rewrite (owner_keeps s t Hok Hin Ho Erel). split; [exact Eid|].
          left. unfold h_next. rewrite Erel. destruct (acquires names s t); [reflexivity|].
          destruct Hor as [X|X]; [exact X|discriminate].
      + destruct (apply_taken w _ _ Er Hr) as (k & Hk & E). destruct (in_try s k Hok Hk) as (t & j & d & Hin & -> & Et & Ed & Hd).
        exists t. split; [exact Hin|]. rewrite E, (id_mod t Hin). split; [reflexivity|]. right.
        unfold acquires. cbn [s_th s_mx m_step]. unfold th_next. rewrite Et, Ed, Er. cbn [negb orb].
        destruct d; [| |congruence].
        * unfold mx_owner. rewrite Hr, E, (id_mod t Hin), Z.eqb_refl. reflexivity.
        * unfold mx_owner. rewrite Hr, E, (id_mod t Hin), Z.eqb_refl. reflexivity.
  Qed.
  Lemma inv_init : inv mst_init (fun _ => false).
  Proof. split; [intros t; exact I|]. split; [intros t H; discriminate|intros H; discriminate]. Qed.

  Lemma inv_run ins : inv (m_run w names sites ins) (owns (m_events w names sites ins)).
  Proof.
    unfold m_run, m_events, owns. pose proof inv_init as H.
    assert (K : forall s h, inv s h ->
      inv (final step s ins) (fun t => fold_left (fun h e => if e_acq e t then true else if e_rel e t then false else h) (outs step (mev_of names sites) s ins) (h t))).
    { clear H. induction ins as [|i ins IH]; intros s h H; [exact H|]. apply (inv_step s h i) in H. exact (IH _ _ H). }
    exact (K _ _ H).
  Qed.

  (** ** Progress *)
  Lemma grant_now s h : inv s h -> (forall t, h t = false) -> m_reg (s_mx s) = true -> exists t, acquires names s t = true.
  Proof.
    intros (_ & _ & H) Hn Hr. destruct (H Hr) as (t & _ & _ & [X|X]); [rewrite Hn in X; discriminate|eauto].
  Qed.
  Lemma lock_next s i t : okT (s_th s) -> in_lock sites s t = true -> m_reg (s_mx s) = false ->
    in_lock sites (step s i) t = true /\
    ((exists k, s_th s t = First k) \/ exists k, s_th (step s i) t = First k).
  Proof.
    unfold in_lock. intros Hok H Hr. cbn. unfold th_next. specialize (Hok t).
    destruct (s_th s t) as [|k|k]; [discriminate| |]; (destruct (nth_error sites k) as [[t' d]|] eqn:E; [|discriminate]); destruct d; try discriminate.
    - rewrite Hr. cbn. rewrite E. split; [reflexivity|left; eauto].
    - unfold mx_owner. rewrite Hr. cbn. rewrite E. split; [reflexivity|right; eauto].
  Qed.
  Lemma try_takes s t k : okT (s_th s) -> in_lock sites s t = true -> s_th s t = First k -> m_reg (s_mx s) = false ->
    (forall t, releases sites s t = false) -> m_reg (mx_apply w (s_mx s) (ops names sites (s_th s))) = true.
  Proof.
    intros Hok Hl Et Hr Hu. apply fold_free; [exact Hr| |left].
    - intros j Hj. apply (in_unlock s j Hok) in Hj as (t' & _ & _ & X). rewrite Hu in X. discriminate.
    - exists (id t). apply (in_ops _ _ Hok). pose proof (Hok t) as Ht. unfold in_lock in Hl. rewrite Et in *.
      destruct Ht as (d & E). rewrite E in Hl. destruct d; try discriminate. exists t, k, KLock. auto.
  Qed.
  (** a free lock that is wanted is granted in at most two cycles, if only owners unlock *)
  Lemma grant s h t i1 i2 : inv s h -> (forall t, h t = false) -> in_lock sites s t = true ->
    (forall t, releases sites s t = false) -> (forall t, releases sites (step s i1) t = false) ->
    exists t', acquires names s t' = true \/ acquires names (step s i1) t' = true \/ acquires names (step (step s i1) i2) t' = true.
  Proof.
    intros Hinv Hn Hl Hu1 Hu2. destruct (m_reg (s_mx s)) eqn:Er.
    { destruct (grant_now s h Hinv Hn Er) as (t' & H). eauto. }
    pose proof Hinv as (Hok & _).
    assert (Hno : (exists t', acquires names s t' = true) \/ forall t', acquires names s t' = false).
    { right. intros t'. unfold acquires, mx_owner. rewrite Er. destruct (s_th s t'); reflexivity. }
    destruct Hno as [[t' X]|Hna]; [eauto|].
    pose proof (inv_step s h i1 Hinv) as Hinv1.
    assert (Hn1 : forall t, h_next s h t = false) by (intros t'; unfold h_next; rewrite Hna, Hn; destruct (releases sites s t'); reflexivity).
    destruct (m_reg (s_mx (step s i1))) eqn:Er1.
    { destruct (grant_now _ _ Hinv1 Hn1 Er1) as (t' & H). eauto. }
    destruct (lock_next s i1 t Hok Hl Er) as (Hl1 & [[k Ek]|[k Ek]]).
    { pose proof (try_takes s t k Hok Hl Ek Er Hu1) as X. cbn in Er1. congruence. }
    pose proof Hinv1 as (Hok1 & _).
    pose proof (try_takes _ t k Hok1 Hl1 Ek Er1 Hu2) as X.
    assert (Hna1 : forall t', acquires names (step s i1) t' = false).
    { intros t'. unfold acquires, mx_owner. rewrite Er1. destruct (s_th _ t'); reflexivity. }
    pose proof (inv_step _ _ i2 Hinv1) as Hinv2.
    assert (Hn2 : forall t, h_next (step s i1) (h_next s h) t = false) by (intros t'; unfold h_next at 1; rewrite Hna1, Hn1; destruct (releases sites _ t'); reflexivity).
    destruct (grant_now _ _ Hinv2 Hn2 X) as (t' & H). eauto.
  Qed.
End Mutex.
