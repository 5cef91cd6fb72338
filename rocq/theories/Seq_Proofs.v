From Verif Require Import Base Vlog Seq_Model Seq_Spec.
From Coq Require Import Permutation.
Open Scope Z_scope.

(** ** Conditions *)
Lemma truth_b2z b : truth (b2z b) = b.
Proof. destruct b; reflexivity. Qed.

Lemma ands_true e cs c : truth (eval e (fold_left ands cs c)) = truth (eval e c) && all_true e cs.
Proof.
  revert c; induction cs as [|x cs IH]; intros c; cbn [fold_left all_true forallb].
  - rewrite andb_true_r. reflexivity.
  - rewrite IH. cbn [ands eval sem_bin]. rewrite truth_b2z, andb_assoc. reflexivity.
Qed.

Lemma make_condition_true e cs c : make_condition cs = Some c -> truth (eval e c) = all_true e cs.
Proof. destruct cs as [|x cs]; [discriminate|]. cbn. intros H; inversion H; subst. apply ands_true. Qed.

Lemma ands_one_bit cs c : cs <> [] -> one_bit (fold_left ands cs c).
Proof.
  revert c; induction cs as [|x cs IH]; intros c H; [congruence|]. cbn [fold_left].
  destruct cs as [|y cs]; [|apply IH; discriminate].
  intros e. cbn. destruct (_ && _); cbn; auto.
Qed.

Lemma ands_vars cs c v : In v (expr_vars (fold_left ands cs c)) -> In v (expr_vars c) \/ exists x, In x cs /\ In v (expr_vars x).
Proof.
  revert c; induction cs as [|x cs IH]; intros c H; cbn in *; [auto|].
  destruct (IH _ H) as [H1|[y [Hy H1]]].
  - cbn in H1. apply in_app_iff in H1. destruct H1; eauto.
  - eauto.
Qed.

(** ** All statements of a builder *)
Definition all_stmts (b : seqb) : list stmt := map snd (s_delayed b) ++ flat_map item_stmts (s_body b).
Definition code_at (b : seqb) (d : nat) : list stmt :=
  match d with O => flat_map item_stmts (s_body b) | S _ => delayed_at (s_delayed b) d end.

Lemma delayed_at_app a b d : delayed_at (a ++ b) d = delayed_at a d ++ delayed_at b d.
Proof. unfold delayed_at. rewrite filter_app, map_app. reflexivity. Qed.

Lemma delayed_at_above l d : (max_delay l < d)%nat -> delayed_at l d = [].
Proof.
  induction l as [|[d' s] l IH]; intros H; [reflexivity|].
  unfold max_delay in *; cbn [fold_right fst] in H. unfold delayed_at in *; cbn [filter fst].
  replace (Nat.eqb d' d) with false by lia. apply IH. lia.
Qed.

Lemma flat_map_rev_seq_ext {A} (f : nat -> list A) m m' : (forall d, (m < d)%nat -> f d = []) -> (m <= m')%nat ->
  flat_map f (rev (seq 0 (S m'))) = flat_map f (rev (seq 0 (S m))).
Proof.
  intros Hf Hm. induction m' as [|m' IH].
  - replace m with 0%nat by lia. reflexivity.
  - destruct (Nat.eq_dec m (S m')) as [->|Hne]; [reflexivity|].
    rewrite <- IH by lia. rewrite (seq_S (S m') 0), rev_app_distr. cbn [rev app flat_map plus].
    rewrite Hf by lia. reflexivity.
Qed.

Lemma make_code_eq b m : (max_delay (s_delayed b) <= m)%nat ->
  make_code b = flat_map (code_at b) (rev (seq 0 (S m))).
Proof.
  intros Hm. rewrite (flat_map_rev_seq_ext (code_at b) (max_delay (s_delayed b)) m).
  - unfold make_code. cbn [seq rev]. rewrite flat_map_app. cbn [flat_map code_at]. rewrite app_nil_r.
    f_equal.
    assert (H : forall l, Forall (fun d => (1 <= d)%nat) l ->
                flat_map (delayed_at (s_delayed b)) l = flat_map (code_at b) l).
    { induction l as [|d l IH]; intros Hl; [reflexivity|]. cbn [flat_map].
      rewrite IH by exact (Forall_inv_tail Hl). pose proof (Forall_inv Hl). destruct d; [cbn in *; lia|reflexivity]. }
    apply H. apply Forall_forall. intros d Hd. apply in_rev, in_seq in Hd. lia.
  - intros d Hd. destruct d; [lia|]. apply delayed_at_above. exact Hd.
  - exact Hm.
Qed.

Lemma perm_insert {A} (f g : nat -> list A) (x : A) d l : NoDup l -> In d l ->
  (forall d', f d' = if Nat.eqb d d' then x :: g d' else g d') ->
  Permutation (flat_map f l) (x :: flat_map g l).
Proof.
  intros Hn Hi Hf. induction l as [|a l IH]; [destruct Hi|].
  cbn [flat_map]. inversion Hn as [|? ? Hna Hn']; subst.
  destruct (Nat.eq_dec d a) as [->|Hne].
  - rewrite (Hf a), Nat.eqb_refl. cbn [app]. constructor. apply Permutation_app_head.
    clear IH Hn Hn' Hi. induction l as [|c l IHl]; [reflexivity|]. cbn [flat_map].
    rewrite (Hf c). destruct (Nat.eqb a c) eqn:E; [exfalso; apply Hna; left; lia|].
    apply Permutation_app_head, IHl. intros H; apply Hna; right; exact H.
  - rewrite (Hf a). replace (Nat.eqb d a) with false by lia.
    eapply Permutation_trans; [apply Permutation_app_head, IH; [exact Hn'|destruct Hi; [lia|assumption]]|].
    apply Permutation_sym, Permutation_middle.
Qed.

Lemma delayed_perm l m : Forall (fun p => (1 <= fst p)%nat) l -> (max_delay l <= m)%nat ->
  Permutation (flat_map (delayed_at l) (rev (seq 1 m))) (map snd l).
Proof.
  induction l as [|[d s] l IH]; intros Hd Hm.
  - cbn [map]. replace (flat_map (delayed_at []) (rev (seq 1 m))) with (@nil stmt); [constructor|].
    symmetry. induction (rev (seq 1 m)) as [|a r IHr]; [reflexivity|exact IHr].
  - cbn [map snd]. unfold max_delay in Hm; cbn [fold_right fst] in Hm.
    pose proof (Forall_inv Hd) as H1; cbn [fst] in H1.
    eapply Permutation_trans; [apply (perm_insert _ (delayed_at l) s d)|].
    + apply NoDup_rev, seq_NoDup.
    + apply in_rev. rewrite rev_involutive. apply in_seq. lia.
    + intros d'. unfold delayed_at; cbn [filter fst]. destruct (Nat.eqb d d'); reflexivity.
    + constructor. apply IH; [exact (Forall_inv_tail Hd)|]. unfold max_delay. lia.
Qed.

Lemma make_code_perm b : Forall (fun p => (1 <= fst p)%nat) (s_delayed b) ->
  Permutation (make_code b) (all_stmts b).
Proof. intros H. unfold make_code, all_stmts. apply Permutation_app_tail, delayed_perm; auto. Qed.

(** ** Registers created by the builder *)
Definition is_userb (v : var) : bool := match v with User _ => true | _ => false end.
Lemma is_userb_spec v : is_userb v = true <-> is_user v.
Proof. destruct v; cbn; intuition discriminate. Qed.
Definition gens (ss : list stmt) : list var := filter (fun v => negb (is_userb v)) (flat_map writes ss).

Lemma gens_app a b : gens (a ++ b) = gens a ++ gens b.
Proof. unfold gens. rewrite flat_map_app, filter_app. reflexivity. Qed.
Lemma gens_perm a b : Permutation a b -> Permutation (gens a) (gens b).
Proof.
  intros H. unfold gens.
  assert (P : Permutation (flat_map writes a) (flat_map writes b)) by (apply Permutation_flat_map; exact H).
  clear H. induction P; cbn.
  - constructor.
  - destruct (negb _); auto.
  - destruct (negb (is_userb y)), (negb (is_userb x)); auto. apply perm_swap.
  - eapply Permutation_trans; eauto.
Qed.
Lemma gens_user ss : (forall s v, In s ss -> In v (writes s) -> is_user v) -> gens ss = [].
Proof.
  intros H. unfold gens. 
  assert (Hu : forall v, In v (flat_map writes ss) -> is_user v).
  { intros v Hv. apply in_flat_map in Hv. destruct Hv as [s [Hs Hv]]. eauto. }
  induction (flat_map writes ss) as [|v l IH]; [reflexivity|]. cbn.
  destruct (is_userb v) eqn:E; [apply IH; intros; apply Hu; right; assumption|].
  exfalso. assert (is_user v) by (apply Hu; left; reflexivity). apply is_userb_spec in H0. congruence.
Qed.
Lemma in_gens v ss : In v (gens ss) <-> In v (flat_map writes ss) /\ ~ is_user v.
Proof.
  unfold gens. rewrite filter_In. split; intros [H1 H2]; split; auto.
  - intros Hu. apply is_userb_spec in Hu. rewrite Hu in H2. discriminate.
  - destruct (is_userb v) eqn:E; [|reflexivity]. exfalso. apply H2, is_userb_spec. exact E.
Qed.

(** A created register is assigned by its one top-level statement. *)
Lemma exec_gen fit code old nxt g src : NoDup (gens code) -> ~ is_user g ->
  In (SSub (LVar g) src) code -> execs fit old nxt code g = fit g (eval old src).
Proof.
  intros Hn Hg Hi. apply in_split in Hi. destruct Hi as [a [c ->]].
  rewrite execs_app, execs_cons. rewrite execs_frame.
  - cbn. apply vset_same.
  - intros Hc. change (SSub (LVar g) src :: c) with ([SSub (LVar g) src] ++ c) in Hn.
    rewrite gens_app in Hn. apply NoDup_remove_2 with (a := g) (l := gens a) (l' := gens c).
    + rewrite gens_app in Hn. replace (gens [SSub (LVar g) src]) with [g] in Hn; [exact Hn|].
      unfold gens; cbn. destruct (is_userb g) eqn:E; [|reflexivity]. exfalso. apply Hg, is_userb_spec. exact E.
    + apply in_or_app. right. apply in_gens. auto.
Qed.

(** ** Builder invariant *)
Definition plain_in (b : seqb) (s : stmt) : Prop :=
  In (IPlain s) (s_body b) \/ exists d, In (d, s) (s_delayed b).

Lemma plain_in_all b s : plain_in b s -> In s (all_stmts b).
Proof.
  intros [H|[d H]]; unfold all_stmts; apply in_or_app.
  - right. apply in_flat_map. exists (IPlain s). split; [exact H|left; reflexivity].
  - left. apply in_map_iff. exists (d, s). auto.
Qed.

Definition fresh_ok (b : seqb) (v : var) : Prop :=
  match v with
  | CondR k _ | SbstR _ k _ | SbstG _ k _ => (k < s_tmp b)%nat
  | PrevR n i => In (n, i) (map fst (s_prev b))
  | TmpR k => (k < s_mod_tmp b)%nat
  | _ => False
  end.

Record ginv (b : seqb) : Prop := {
  gi_nodup : NoDup (gens (all_stmts b));
  gi_fresh : forall v, In v (gens (all_stmts b)) -> fresh_ok b v;
  gi_delay : Forall (fun p => (1 <= fst p)%nat) (s_delayed b) }.

Lemma ginv_new : ginv seq_new.
Proof. constructor; cbn; [constructor|tauto|constructor]. Qed.

(** pushing plain statements *)
Lemma push_all b d ss : Permutation (all_stmts (push_plain b d ss)) (all_stmts b ++ ss).
Proof.
  unfold push_plain, all_stmts. destruct d; cbn.
  - rewrite flat_map_app, app_assoc. apply Permutation_app_head.
    replace (flat_map item_stmts (map IPlain ss)) with ss; [reflexivity|].
    induction ss as [|s ss IH]; cbn; congruence.
  - rewrite map_app, map_map, map_id. rewrite <- app_assoc, <- app_assoc.
    apply Permutation_app_head, Permutation_app_comm.
Qed.

Lemma push_code_at b d ss d' :
  code_at (push_plain b d ss) d' = if Nat.eqb d d' then code_at b d' ++ ss else code_at b d'.
Proof.
  unfold push_plain, code_at. destruct d as [|d], d' as [|d']; cbn [s_delayed s_body w_body w_delayed w_dst add_dst Nat.eqb]; try reflexivity.
  - rewrite flat_map_app. f_equal. induction ss as [|s ss IH]; cbn; congruence.
  - rewrite delayed_at_app. destruct (Nat.eqb d d') eqn:E.
    + assert (d = d') by lia; subst. f_equal. unfold delayed_at.
      induction ss as [|s ss IH]; cbn; [reflexivity|]. rewrite Nat.eqb_refl. cbn. f_equal. exact IH.
    + replace (delayed_at (map (fun s => (S d, s)) ss) (S d')) with (@nil stmt); [apply app_nil_r|].
      unfold delayed_at. induction ss as [|s ss IH]; cbn; [reflexivity|]. rewrite E. exact IH.
Qed.

Lemma push_plain_in b d ss s : plain_in b s \/ In s ss -> plain_in (push_plain b d ss) s.
Proof.
  unfold plain_in, push_plain. destruct d; cbn; intros [[H|[d' H]]|H].
  - left. apply in_or_app; auto.
  - right. eauto.
  - left. apply in_or_app; right. apply in_map. exact H.
  - left; exact H.
  - right. exists d'. apply in_or_app; auto.
  - right. exists (S d). apply in_or_app; right. apply in_map_iff. eauto.
Qed.

Lemma push_delay b d ss : Forall (fun p => (1 <= fst p)%nat) (s_delayed b) ->
  Forall (fun p => (1 <= fst p)%nat) (s_delayed (push_plain b d ss)).
Proof.
  intros H. unfold push_plain. destruct d; cbn; [exact H|].
  apply Forall_app. split; [exact H|]. apply Forall_forall. intros p Hp. apply in_map_iff in Hp.
  destruct Hp as [s [<- _]]. cbn. lia.
Qed.

Lemma push_gens_user b d ss : (forall s v, In s ss -> In v (writes s) -> is_user v) -> ginv b -> ginv (push_plain b d ss).
Proof.
  intros Hu [H1 H2 H3].
  assert (P : Permutation (gens (all_stmts (push_plain b d ss))) (gens (all_stmts b))).
  { eapply Permutation_trans; [apply gens_perm, push_all|]. rewrite gens_app, (gens_user ss Hu), app_nil_r. reflexivity. }
  constructor.
  - eapply Permutation_NoDup; [apply Permutation_sym, P|exact H1].
  - intros v Hv. apply (Permutation_in _ P) in Hv. specialize (H2 v Hv).
    destruct v; cbn in *; try exact H2; destruct d; exact H2.
  - apply push_delay, H3.
Qed.

Lemma push_gens_new b d g src : ~ is_user g -> ~ In g (gens (all_stmts b)) -> fresh_ok b g -> ginv b ->
  ginv (push_plain b d [SSub (LVar g) src]).
Proof.
  intros Hg Hn Hf [H1 H2 H3].
  assert (Eg : gens [SSub (LVar g) src] = [g]).
  { unfold gens; cbn. destruct (is_userb g) eqn:E; [|reflexivity]. exfalso. apply Hg, is_userb_spec. exact E. }
  assert (P : Permutation (gens (all_stmts (push_plain b d [SSub (LVar g) src]))) (gens (all_stmts b) ++ [g])).
  { eapply Permutation_trans; [apply gens_perm, push_all|]. rewrite gens_app, Eg. reflexivity. }
  constructor.
  - eapply Permutation_NoDup; [apply Permutation_sym, P|].
    eapply Permutation_NoDup; [apply Permutation_cons_append|]. constructor; assumption.
  - intros v Hv. apply (Permutation_in _ P) in Hv. apply in_app_iff in Hv.
    assert (Hv' : fresh_ok b v) by (destruct Hv as [Hv|[<-|[]]]; auto).
    destruct v; cbn in *; try exact Hv'; destruct d; exact Hv'.
  - apply push_delay, H3.
Qed.

(** ** Delay chains *)
Fixpoint reg_chain (rg : nat -> var) (n i : nat) (prev : expr) (b : seqb) : seqb * expr :=
  match n with
  | O => (b, prev)
  | S n' =>
      let b1 := push_plain b i [SSub (LVar (rg (S i))) prev] in
      reg_chain rg n' (S i) (EVar (rg (S i))) (w_inits b1 (s_inits b1 ++ [(rg (S i), 0)]))
  end.
Lemma cond_chain_reg k n : forall i prev b, cond_chain k n i prev b = reg_chain (CondR k) n i prev b.
Proof. induction n as [|n IH]; intros i prev b; cbn; [reflexivity|apply IH]. Qed.
Lemma val_chain_reg l k n : forall i prev b, val_chain l k n i prev b = reg_chain (sbst_reg l k) n i prev b.
Proof. induction n as [|n IH]; intros i prev b; cbn; [reflexivity|apply IH]. Qed.

Definition nonuser_stmt (s : stmt) : Prop := forall v, In v (writes s) -> ~ is_user v.
(** [b'] is [b] with extra assignments to created registers. *)
Definition extends (b b' : seqb) : Prop :=
  (forall d, exists extra, code_at b' d = code_at b d ++ extra /\ Forall nonuser_stmt extra) /\
  (forall s, plain_in b s -> plain_in b' s).
Definition same_ctl (b b' : seqb) : Prop :=
  s_prev b' = s_prev b /\ s_mod_tmp b' = s_mod_tmp b /\ s_last_cond b' = s_last_cond b /\
  s_last_kw b' = s_last_kw b /\ s_last_if b' = s_last_if b /\ s_next_else b' = s_next_else b /\
  s_elif b' = s_elif b /\ s_next b' = s_next b.

Lemma extends_refl b : extends b b.
Proof. split; [intros d; exists []; rewrite app_nil_r; auto|auto]. Qed.
Lemma extends_trans a b c : extends a b -> extends b c -> extends a c.
Proof.
  intros [H1 H2] [H3 H4]. split; [|auto].
  intros d. destruct (H1 d) as [x [E1 F1]], (H3 d) as [y [E2 F2]].
  exists (x ++ y). rewrite E2, E1, app_assoc. split; [reflexivity|apply Forall_app; auto].
Qed.
Lemma same_ctl_refl b : same_ctl b b.
Proof. repeat split. Qed.
Lemma same_ctl_trans a b c : same_ctl a b -> same_ctl b c -> same_ctl a c.
Proof. unfold same_ctl. intuition congruence. Qed.

Lemma push_extends b d s : nonuser_stmt s -> extends b (push_plain b d [s]).
Proof.
  intros H. split.
  - intros d'. rewrite push_code_at. destruct (Nat.eqb d d'); [exists [s]|exists []; rewrite app_nil_r]; auto.
  - intros s' Hs. apply push_plain_in; auto.
Qed.
Lemma push_same_ctl b d ss : same_ctl b (push_plain b d ss) /\ s_tmp (push_plain b d ss) = s_tmp b.
Proof. unfold push_plain. destruct d; repeat split. Qed.

Lemma reg_chain_spec rg n : forall i prev b b' q,
  (forall j, ~ is_user (rg j)) -> (forall j j', rg j = rg j' -> j = j') ->
  (forall j, fresh_ok b (rg j)) -> (forall j, (i < j)%nat -> ~ In (rg j) (gens (all_stmts b))) ->
  ginv b -> reg_chain rg n i prev b = (b', q) ->
  ginv b' /\ extends b b' /\ same_ctl b b' /\ s_tmp b' = s_tmp b /\
  (forall j, (i < j <= i + n)%nat ->
     plain_in b' (SSub (LVar (rg j)) (if Nat.eqb j (S i) then prev else EVar (rg (j - 1)%nat)))) /\
  q = (match n with O => prev | S _ => EVar (rg (i + n)%nat) end) /\
  (forall v, In v (gens (all_stmts b')) -> In v (gens (all_stmts b)) \/ exists j, v = rg j).
Proof.
  induction n as [|n IH]; intros i prev b b' q Hu Hinj Hf Hni Hg E; cbn [reg_chain] in E.
  - inversion E; subst. split; [exact Hg|]. split; [apply extends_refl|]. split; [apply same_ctl_refl|].
    split; [reflexivity|]. split; [intros; lia|]. split; [reflexivity|auto].
  - set (g := rg (S i)) in *. set (b1 := push_plain b i [SSub (LVar g) prev]) in *.
    assert (G1 : ginv b1) by (apply push_gens_new; [apply Hu|apply Hni; lia|apply Hf|exact Hg]).
    set (b2 := w_inits b1 (s_inits b1 ++ [(g, 0)])) in *.
    assert (G2 : ginv b2) by (destruct G1 as [A B C]; constructor; assumption).
    destruct (push_same_ctl b i [SSub (LVar g) prev]) as [C1 T1]. fold b1 in C1, T1.
    assert (P1 : forall v, In v (gens (all_stmts b2)) -> In v (gens (all_stmts b)) \/ v = g).
    { intros v Hv. change (all_stmts b2) with (all_stmts b1) in Hv.
      apply (Permutation_in _ (gens_perm _ _ (push_all b i [SSub (LVar g) prev]))) in Hv.
      rewrite gens_app in Hv. apply in_app_iff in Hv. destruct Hv as [Hv|Hv]; [auto|].
      apply in_gens in Hv. destruct Hv as [Hv _]. cbn in Hv. destruct Hv as [<-|[]]. auto. }
    destruct (IH (S i) (EVar g) b2 b' q Hu Hinj) as (G & X & S1 & T & Pl & Q & Gn).
    + intros j. specialize (Hf j). destruct (rg j); cbn in *; try exact Hf;
        unfold b2, b1, push_plain; destruct i; exact Hf.
    + intros j Hj Hi. destruct (P1 _ Hi) as [Hi'|Hi']; [revert Hi'; apply Hni; lia|].
      apply Hinj in Hi'. lia.
    + exact G2.
    + exact E.
    + assert (X1 : extends b b2).
      { eapply extends_trans; [apply (push_extends b i (SSub (LVar g) prev))|].
        - intros v [<-|[]]. cbn. apply Hu.
        - fold b1. split; [intros d; exists []; rewrite app_nil_r; auto|auto]. }
      split; [exact G|]. split; [eapply extends_trans; eauto|].
      split; [eapply same_ctl_trans; [exact C1|exact S1]|].
      split; [rewrite T; exact T1|].
      split.
      * intros j Hj. destruct (Nat.eqb j (S i)) eqn:Ej.
        -- assert (j = S i) by lia; subst j. apply X.
           unfold plain_in. change (s_body b2) with (s_body b1). change (s_delayed b2) with (s_delayed b1).
           apply (push_plain_in b i). right. left. reflexivity.
        -- specialize (Pl j ltac:(lia)). destruct (Nat.eqb j (S (S i))) eqn:Ej2; [|exact Pl].
           assert (j = S (S i)) by lia; subst j. replace (S (S i) - 1)%nat with (S i) by lia. exact Pl.
      * split.
        -- subst q. destruct n; [f_equal; unfold g; f_equal; lia|f_equal; f_equal; lia].
        -- intros v Hv. destruct (Gn v Hv) as [Hv'|[j Hv']]; [|eauto].
           destruct (P1 v Hv') as [?| ->]; [auto|right; exists (S i); reflexivity].
Qed.

(** ** Simulation between code and effects *)
Section Sim.
  Variable fit : var -> Z -> Z.
  Hypothesis Hfit : fit_ok fit.

  (** A registry entry (g, e, i): created register [g] holds [e] as it was [i] cycles ago. *)
  Definition registry := list (var * expr * nat).
  Definition hist_ok (R : registry) (old : env) (past : list env) : Prop :=
    forall g e i, In (g, e, i) R ->
      old g = match nth_error past (i - 1) with Some p => fit g (eval p e) | None => 0 end.

  Definition simd (R : registry) (code : list stmt) (fx : list effect) : Prop :=
    forall old past n1 n2, hist_ok R old past -> user_agree n1 n2 ->
      user_agree (execs fit old n1 code) (fold_left (fun n f => f (old :: past) n) fx n2).

  Definition sims (b : seqb) (R : registry) (fx : list (nat * effect)) : Prop :=
    forall d, simd R (code_at b d) (effects_at fx d).

  Definition reg_ok (b : seqb) (R : registry) (x : var * expr * nat) : Prop :=
    let '(g, e, i) := x in
    (1 <= i)%nat /\ ~ is_user g /\
    exists src, plain_in b (SSub (LVar g) src) /\
      ((i = 1%nat /\ src = e) \/
       (exists g', src = EVar g' /\ (2 <= i)%nat /\ In (g', e, (i - 1)%nat) R /\ (forall x, fit g (fit g' x) = fit g x) /\ fit g 0 = 0)).

  Definition inv (b : seqb) (R : registry) (fx : list (nat * effect)) : Prop :=
    ginv b /\ sims b R fx /\ Forall (reg_ok b R) R.

  Lemma hist_mono R R' old past : incl R R' -> hist_ok R' old past -> hist_ok R old past.
  Proof. intros Hi H g e i Hg. apply H, Hi, Hg. Qed.
  Lemma simd_mono R R' c fx : incl R R' -> simd R c fx -> simd R' c fx.
  Proof. intros Hi H old past n1 n2 Hh Ha. apply H; auto. eapply hist_mono; eauto. Qed.
  Lemma simd_app R c1 c2 f1 f2 : simd R c1 f1 -> simd R c2 f2 -> simd R (c1 ++ c2) (f1 ++ f2).
  Proof.
    intros H1 H2 old past n1 n2 Hh Ha. rewrite execs_app, fold_left_app. apply H2; [exact Hh|]. apply H1; assumption.
  Qed.
  Lemma simd_nonuser R c : Forall nonuser_stmt c -> simd R c [].
  Proof.
    intros Hc old past n1 n2 Hh Ha v Hv. cbn [fold_left]. rewrite execs_frame; [apply Ha, Hv|].
    intros Hi. apply in_flat_map in Hi. destruct Hi as [s [Hs Hi]].
    rewrite Forall_forall in Hc. exact (Hc s Hs v Hi Hv).
  Qed.
  Lemma sims_extends b b' R R' fx : extends b b' -> incl R R' -> sims b R fx -> sims b' R' fx.
  Proof.
    intros [Hx _] Hi H d. destruct (Hx d) as [extra [E F]]. rewrite E.
    rewrite <- (app_nil_r (effects_at fx d)). apply simd_app; [|apply simd_nonuser; exact F].
    eapply simd_mono; eauto.
  Qed.
  Lemma reg_ok_mono b b' R R' x : (forall s, plain_in b s -> plain_in b' s) -> incl R R' -> reg_ok b R x -> reg_ok b' R' x.
  Proof.
    intros Hp Hi. destruct x as [[g e] i]. intros (H1 & H2 & src & H3 & H4).
    split; [exact H1|]. split; [exact H2|]. exists src. split; [auto|].
    destruct H4 as [H4|[g' (A & B & C & D)]]; [left; exact H4|right; exists g'; auto].
  Qed.
  Lemma effects_at_app a c d : effects_at (a ++ c) d = effects_at a d ++ effects_at c d.
  Proof. unfold effects_at. rewrite filter_app, map_app. reflexivity. Qed.

  (** registering a chain *)
  Definition chain_entries (rg : nat -> var) (e : expr) (n : nat) : registry :=
    map (fun j => (rg j, e, j)) (seq 1 n).

  Lemma chain_inv rg n e b b' q R fx :
    (forall j, ~ is_user (rg j)) -> (forall j j', rg j = rg j' -> j = j') ->
    (forall j, fresh_ok b (rg j)) -> (forall j, ~ In (rg j) (gens (all_stmts b))) ->
    (forall j j' x, fit (rg j) (fit (rg j') x) = fit (rg j) x) -> (forall j, fit (rg j) 0 = 0) ->
    inv b R fx -> reg_chain rg n 0 e b = (b', q) -> (1 <= n)%nat ->
    inv b' (R ++ chain_entries rg e n) fx /\ same_ctl b b' /\ s_tmp b' = s_tmp b /\
    q = EVar (rg n) /\ In (rg n, e, n) (R ++ chain_entries rg e n) /\
    (forall v, In v (gens (all_stmts b')) -> In v (gens (all_stmts b)) \/ exists j, v = rg j).
  Proof.
    intros Hu Hinj Hf Hni Hid Hz (G & Sm & Rg) E Hn.
    destruct (reg_chain_spec rg n 0 e b b' q Hu Hinj Hf (fun j _ => Hni j) G E) as (G' & X & C & T & Pl & Q & Gn).
    split; [split; [exact G'|split]|].
    - eapply sims_extends; [exact X|apply incl_appl, incl_refl|exact Sm].
    - apply Forall_app. split.
      + eapply Forall_impl; [|exact Rg]. intros x. apply reg_ok_mono; [apply X|apply incl_appl, incl_refl].
      + apply Forall_forall. intros x Hx. apply in_map_iff in Hx. destruct Hx as [j [<- Hj]]. apply in_seq in Hj.
        split; [lia|]. split; [apply Hu|].
        exists (if Nat.eqb j 1 then e else EVar (rg (j - 1)%nat)). split; [apply (Pl j); lia|].
        destruct (Nat.eqb j 1) eqn:Ej; [left; split; [lia|reflexivity]|].
        right. exists (rg (j - 1)%nat). split; [reflexivity|]. split; [lia|]. split; [|split; [intros; apply Hid|apply Hz]].
        apply in_or_app; right. apply in_map_iff. exists (j - 1)%nat. split; [reflexivity|]. apply in_seq. lia.
    - split; [exact C|]. split; [exact T|]. split; [destruct n; [lia|exact Q]|].
      split; [|exact Gn]. apply in_or_app; right. apply in_map_iff. exists n. split; [reflexivity|]. apply in_seq. lia.
  Qed.

  Lemma inv_wtmp b R fx : inv b R fx -> inv (w_tmp b (S (s_tmp b))) R fx.
  Proof.
    intros ([A B C] & D & E). split; [constructor|split].
    - exact A.
    - intros v Hv. specialize (B v Hv). destruct v; cbn in *; try exact B; lia.
    - exact C.
    - exact D.
    - eapply Forall_impl; [|exact E]. intros x. apply reg_ok_mono; [auto|apply incl_refl].
  Qed.

  Lemma sbst_reg_facts l k : (match l with LVar (User _) | LBit _ _ | LSlice _ _ _ => True | _ => False end) ->
    (forall j, ~ is_user (sbst_reg l k j)) /\ (forall j j', sbst_reg l k j = sbst_reg l k j' -> j = j') /\
    (forall j j' x, fit (sbst_reg l k j) (fit (sbst_reg l k j') x) = fit (sbst_reg l k j) x) /\
    (forall j, fit (sbst_reg l k j) 0 = 0).
  Proof.
    destruct Hfit as (F1 & F2 & F3 & F4 & F5).
    assert (M : forall w x, (x mod 2 ^ Z.of_nat w) mod 2 ^ Z.of_nat w = x mod 2 ^ Z.of_nat w)
      by (intros; apply Z.mod_mod, Z.pow_nonzero; lia).
    destruct l as [v|v p|v m lo]; [destruct v; try contradiction| |]; intros _; cbn; repeat split; auto;
      try (intros j j' H; inversion H; reflexivity);
      try (intros; rewrite !F2; apply F4); try (intros; rewrite !F3; apply M);
      try (intros; rewrite !F2; apply F5); try (intros; rewrite !F3; apply Z.mod_0_l, Z.pow_nonzero; lia).
  Qed.

  Lemma fresh_tmp b (rg : nat -> var) : ginv b -> (forall j, match rg j with CondR k _ | SbstR _ k _ | SbstG _ k _ => k = s_tmp b | _ => False end) ->
    (forall j, fresh_ok (w_tmp b (S (s_tmp b))) (rg j)) /\
    (forall j, ~ In (rg j) (gens (all_stmts (w_tmp b (S (s_tmp b)))))).
  Proof.
    intros [A B C] H. split; intros j.
    - specialize (H j). destruct (rg j); cbn in *; try contradiction; lia.
    - intros Hi. change (all_stmts (w_tmp b (S (s_tmp b)))) with (all_stmts b) in Hi.
      specialize (B _ Hi). specialize (H j). destruct (rg j); cbn in *; try contradiction; lia.
  Qed.

  Lemma same_ctl_wtmp b : same_ctl b (w_tmp b (S (s_tmp b))).
  Proof. repeat split. Qed.

  Lemma delayed_cond_inv b R fx c d b' q : (1 <= d)%nat -> inv b R fx -> add_delayed_cond b c d = (b', q) ->
    exists R' k, incl R R' /\ inv b' R' fx /\ same_ctl b b' /\ q = EVar (CondR k d) /\ In (CondR k d, c, d) R'.
  Proof.
    intros Hd Hi E. unfold add_delayed_cond in E. rewrite cond_chain_reg in E.
    destruct Hfit as (F1 & _). pose proof Hi as [G _].
    destruct (fresh_tmp b (CondR (s_tmp b)) G ltac:(intros; reflexivity)) as [Hf Hni].
    destruct (chain_inv (CondR (s_tmp b)) d c (w_tmp b (S (s_tmp b))) b' q R fx) as (I & C & T & Q & In1 & _).
    - intros j H; exact H.
    - intros j j' H; inversion H; reflexivity.
    - exact Hf.
    - exact Hni.
    - intros. rewrite !F1. apply Z.mod_mod. lia.
    - intros. rewrite F1. reflexivity.
    - apply inv_wtmp, Hi.
    - exact E.
    - exact Hd.
    - exists (R ++ chain_entries (CondR (s_tmp b)) c d), (s_tmp b).
      split; [apply incl_appl, incl_refl|]. split; [exact I|].
      split; [eapply same_ctl_trans; [apply same_ctl_wtmp|exact C]|]. auto.
  Qed.

  Definition slice_ok (s : stmt) : Prop := match s with SSub (LSlice _ m l) _ => 0 <= m - l + 1 | _ => True end.

  Definition sub_rel (R : registry) (d : nat) (s s' : stmt) : Prop :=
    (s' = s /\ match s with SSub l e => is_const e = true | _ => True end) \/
    (exists l e k, s = SSub l e /\ s' = SSub l (EVar (sbst_reg l k d)) /\ In (sbst_reg l k d, e, d) R).
  Lemma sub_rel_mono R R' d s s' : incl R R' -> sub_rel R d s s' -> sub_rel R' d s s'.
  Proof. intros Hi [H|(l & e & k & A & B & C)]; [left; exact H|right; exists l, e, k; auto]. Qed.

  Lemma delayed_subst_inv b R fx s d b' s' : (1 <= d)%nat -> user_stmt s -> inv b R fx ->
    add_delayed_subst b s d = (b', s') ->
    exists R', incl R R' /\ inv b' R' fx /\ same_ctl b b' /\ sub_rel R' d s s'.
  Proof.
    intros Hd Hus Hi E. unfold add_delayed_subst in E.
    destruct s as [l e|c t f|e ws].
    2,3: (inversion E; subst; exists R; split; [apply incl_refl|]; split; [exact Hi|]; split; [apply same_ctl_refl|]; left; auto).
    destruct (is_const e) eqn:Ec.
    - inversion E; subst; exists R; split; [apply incl_refl|]; split; [exact Hi|]; split; [apply same_ctl_refl|]; left; auto.
    - rewrite val_chain_reg in E.
      destruct (reg_chain (sbst_reg l (s_tmp b)) d 0 e (w_tmp b (S (s_tmp b)))) as [b1 q] eqn:E1.
      inversion E; subst b' s'. clear E.
      assert (Hl : match l with LVar (User _) | LBit _ _ | LSlice _ _ _ => True | _ => False end).
      { destruct Hus as [Hw _]. destruct l; auto. specialize (Hw v (or_introl eq_refl)). destruct v; try exact I; contradiction. }
      destruct (sbst_reg_facts l (s_tmp b) Hl) as (A1 & A2 & A3 & A4).
      pose proof Hi as [G _].
      destruct (fresh_tmp b (sbst_reg l (s_tmp b)) G) as [Hf Hni].
      { intros j. destruct l as [v|v p|v m lo]; [destruct v; try contradiction| |]; reflexivity. }
      destruct (chain_inv (sbst_reg l (s_tmp b)) d e (w_tmp b (S (s_tmp b))) b1 q R fx A1 A2 Hf Hni A3 A4 (inv_wtmp _ _ _ Hi) E1 Hd)
        as (I & C & T & Q & In1 & _).
      exists (R ++ chain_entries (sbst_reg l (s_tmp b)) e d).
      split; [apply incl_appl, incl_refl|]. split; [exact I|].
      split; [eapply same_ctl_trans; [apply same_ctl_wtmp|exact C]|].
      right. exists l, e, (s_tmp b). rewrite Q. auto.
  Qed.

  Lemma delayed_substs_inv ss : forall b R fx d b' ss', (1 <= d)%nat -> Forall user_stmt ss -> inv b R fx ->
    add_delayed_substs b ss d = (b', ss') ->
    exists R', incl R R' /\ inv b' R' fx /\ same_ctl b b' /\ Forall2 (sub_rel R' d) ss ss'.
  Proof.
    induction ss as [|s ss IH]; intros b R fx d b' ss' Hd Hu Hi E; cbn [add_delayed_substs] in E.
    - inversion E; subst. exists R. split; [apply incl_refl|]. split; [exact Hi|]. split; [apply same_ctl_refl|constructor].
    - destruct (add_delayed_subst b s d) as [b1 s1] eqn:E1.
      destruct (add_delayed_substs b1 ss d) as [b2 ss2] eqn:E2. inversion E; subst. clear E.
      destruct (delayed_subst_inv b R fx s d b1 s1 Hd (Forall_inv Hu) Hi E1) as (R1 & I1 & V1 & C1 & S1).
      destruct (IH b1 R1 fx d b' ss2 Hd (Forall_inv_tail Hu) V1 E2) as (R2 & I2 & V2 & C2 & S2).
      exists R2. split; [eapply incl_tran; eauto|]. split; [exact V2|].
      split; [eapply same_ctl_trans; eauto|]. constructor; [|exact S2]. eapply sub_rel_mono; eauto.
  Qed.

  Lemma put_bits_mod x lsb w y : put_bits x lsb w (y mod 2 ^ w) = put_bits x lsb w y.
  Proof.
    unfold put_bits. destruct (Z.lt_ge_cases w 0).
    - rewrite Z.pow_neg_r by lia. rewrite !Zmod_0_r. reflexivity.
    - rewrite Z.mod_mod by (apply Z.pow_nonzero; lia). reflexivity.
  Qed.

  Lemma sub_rel_exec R d s s' old past p n1 n2 : (1 <= d)%nat -> user_stmt s -> slice_ok s -> sub_rel R d s s' ->
    hist_ok R old past -> nth_error past (d - 1) = Some p -> user_agree n1 n2 ->
    user_agree (exec fit old n1 s') (exec_at fit p old n2 s).
  Proof.
    intros Hd [Hw Hr] Hs Hsr Hh Hp Ha. destruct Hsr as [[-> Hc]|(l & e & k & -> & -> & Hin)].
    - destruct s as [l e|c t f|e ws]; cbn [exec_at].
      + destruct e; try discriminate. cbn [exec eval].
        apply (assign_agree fit is_user); auto; [intros v Hv; reflexivity|].
        intros v Hv. apply Hr. cbn. apply in_or_app; auto.
      + apply (exec_agree fit is_user); auto. intros v Hv; reflexivity.
      + apply (exec_agree fit is_user); auto. intros v Hv; reflexivity.
    - cbn [exec_at exec eval]. rewrite (Hh _ _ _ Hin), Hp.
      destruct Hfit as (F1 & F2 & F3 & F4 & F5).
      assert (E : forall nn, assign fit l (fit (sbst_reg l k d) (eval p e)) old nn = assign fit l (eval p e) old nn).
      { intros nn. destruct l as [v|v pp|v m lo]; cbn [assign].
        - specialize (Hw v (or_introl eq_refl)). destruct v; try contradiction. cbn [sbst_reg]. rewrite F2, F4. reflexivity.
        - cbn [sbst_reg]. rewrite F3. change (Z.of_nat 1) with 1. rewrite put_bits_mod. reflexivity.
        - cbn [sbst_reg]. rewrite F3. cbn in Hs. rewrite Z2Nat.id by exact Hs. rewrite put_bits_mod. reflexivity. }
      rewrite E. apply (assign_agree fit is_user); auto; [intros v Hv; reflexivity|].
      intros v Hv. apply Hr. cbn. apply in_or_app; auto.
  Qed.

  Lemma sub_rel_execs R d ss ss' old past p : (1 <= d)%nat -> Forall user_stmt ss -> Forall slice_ok ss ->
    Forall2 (sub_rel R d) ss ss' -> hist_ok R old past -> nth_error past (d - 1) = Some p ->
    forall n1 n2, user_agree n1 n2 -> user_agree (execs fit old n1 ss') (fold_left (exec_at fit p old) ss n2).
  Proof.
    intros Hd Hu Hs HF Hh Hp. induction HF as [|s s' ss ss' Hr HF IH]; intros n1 n2 Ha; [exact Ha|].
    rewrite execs_cons. cbn [fold_left]. apply IH; [exact (Forall_inv_tail Hu)|exact (Forall_inv_tail Hs)|].
    eapply sub_rel_exec; eauto; [exact (Forall_inv Hu)|exact (Forall_inv Hs)].
  Qed.

  Lemma user_execs ss old n1 n2 : Forall user_stmt ss -> user_agree n1 n2 ->
    user_agree (execs fit old n1 ss) (execs fit old n2 ss).
  Proof.
    intros Hu Ha. apply (execs_agree fit is_user); auto; [intros v Hv; reflexivity|].
    intros v Hv. apply in_flat_map in Hv. destruct Hv as [s [Hs Hv]].
    rewrite Forall_forall in Hu. apply (Hu s Hs); exact Hv.
  Qed.

  Lemma push_effect b R fx d ss f : inv b R fx -> Forall (fun s => forall v, In v (writes s) -> is_user v) ss ->
    simd R ss [f] -> inv (push_plain b d ss) R (fx ++ [(d, f)]).
  Proof.
    intros (G & Sm & Rg) Hw Hs. rewrite Forall_forall in Hw. split; [|split].
    - apply push_gens_user; [intros s v H1 H2; eapply Hw; eauto|exact G].
    - intros d'. rewrite push_code_at, effects_at_app. unfold effects_at at 2; cbn [filter fst].
      destruct (Nat.eqb d d'); cbn [map snd].
      + apply simd_app; [apply Sm|exact Hs].
      + rewrite app_nil_r. apply Sm.
    - eapply Forall_impl; [|exact Rg]. intros x. apply reg_ok_mono; [intros; apply push_plain_in; auto|apply incl_refl].
  Qed.

  Lemma forall2_writes R d ss ss' : Forall2 (sub_rel R d) ss ss' -> flat_map writes ss' = flat_map writes ss.
  Proof.
    induction 1 as [|s s' ss ss' Hr HF IH]; [reflexivity|]. cbn. rewrite IH. f_equal.
    destruct Hr as [[-> _]|(l & e & k & -> & -> & _)]; reflexivity.
  Qed.

  Lemma truth_mod2 x : x = 0 \/ x = 1 -> truth (x mod 2) = truth x.
  Proof. intros [->| ->]; reflexivity. Qed.

  Lemma delayed_step b R fx ss d cs lz eg : (1 <= d)%nat -> inv b R fx ->
    Forall user_expr cs -> Forall user_stmt ss ->
    (lz = false -> match cs with [c] => one_bit c | _ => True end) ->
    (eg = true -> Forall slice_ok ss) ->
    exists R', incl R R' /\
      inv (add_statement1 b ss d (make_condition cs) lz eg) R' (fx ++ [(d, assign_effect fit cs lz eg ss d)]) /\
      same_ctl b (add_statement1 b ss d (make_condition cs) lz eg).
  Proof.
    intros Hd Hi Hc Hu Hob Hsl. destruct d as [|d']; [lia|]. set (d := S d') in *.
    unfold add_statement1; fold d. cbn [d].
    destruct (if eg then add_delayed_substs b ss d else (b, ss)) as [b1 ss1] eqn:E1.
    assert (H1 : exists R1, incl R R1 /\ inv b1 R1 fx /\ same_ctl b b1 /\
              (if eg then Forall2 (sub_rel R1 d) ss ss1 else ss1 = ss)).
    { destruct eg.
      - eapply delayed_substs_inv; eauto.
      - inversion E1; subst. exists R. split; [apply incl_refl|]. split; [exact Hi|]. split; [apply same_ctl_refl|reflexivity]. }
    destruct H1 as (R1 & I1 & V1 & C1 & S1).
    set (c0 := match make_condition cs with None => EInt 1 | Some c => c end).
    destruct (if lz then let '(b2, t) := add_delayed_cond b1 (EInt 1) d in
                (b2, match c0 with EInt 1 => t | _ => ands t c0 end)
              else add_delayed_cond b1 c0 d) as [b2 c1] eqn:E2.
    assert (Hc0 : forall e, truth (eval e c0) = all_true e cs).
    { intros e. unfold c0. destruct (make_condition cs) as [c|] eqn:Ec; [apply make_condition_true; exact Ec|].
      destruct cs; [reflexivity|discriminate]. }
    assert (H2 : exists R2, incl R1 R2 /\ inv b2 R2 fx /\ same_ctl b1 b2 /\
        forall old past, hist_ok R2 old past ->
          truth (eval old c1) = match nth_error past (d - 1) with
                                | Some p => all_true (if lz then old else p) cs | None => false end).
    { destruct Hfit as (F1 & _). destruct lz.
      - destruct (add_delayed_cond b1 (EInt 1) d) as [b2' t] eqn:E3. inversion E2; subst b2' c1. clear E2.
        destruct (delayed_cond_inv b1 R1 fx (EInt 1) d b2 t Hd V1 E3) as (R2 & k & I2 & V2 & C2 & -> & In2).
        exists R2. split; [exact I2|]. split; [exact V2|]. split; [exact C2|].
        intros old past Hh. specialize (Hh _ _ _ In2).
        assert (Ht : truth (eval old (EVar (CondR k d))) = match nth_error past (d - 1) with Some _ => true | None => false end).
        { cbn [eval]. rewrite Hh. destruct (nth_error past (d - 1)); [rewrite F1; reflexivity|reflexivity]. }
        assert (Ht2 : truth (eval old (ands (EVar (CondR k d)) c0)) =
                     match nth_error past (d - 1) with Some _ => all_true old cs | None => false end).
        { unfold ands. cbn [eval sem_bin]. rewrite truth_b2z. cbn [eval] in Ht. rewrite Ht, Hc0.
          destruct (nth_error past (d - 1)); reflexivity. }
        assert (Hcase : c0 = EInt 1 \/ (match c0 with EInt 1 => EVar (CondR k d) | _ => ands (EVar (CondR k d)) c0 end) = ands (EVar (CondR k d)) c0).
        { destruct c0 as [z| | | | |]; auto. destruct z as [|[| |]|]; auto. }
        destruct Hcase as [Hcase|Hcase].
        + rewrite Hcase. rewrite Ht. destruct (nth_error past (d - 1)); [|reflexivity].
          rewrite <- (Hc0 old), Hcase. reflexivity.
        + rewrite Hcase. exact Ht2.
      - destruct (delayed_cond_inv b1 R1 fx c0 d b2 c1 Hd V1 E2) as (R2 & k & I2 & V2 & C2 & -> & In2).
        exists R2. split; [exact I2|]. split; [exact V2|]. split; [exact C2|].
        intros old past Hh. cbn [eval]. rewrite (Hh _ _ _ In2).
        destruct (nth_error past (d - 1)) as [p|]; [|reflexivity].
        rewrite F1, truth_mod2, Hc0; [reflexivity|].
        specialize (Hob eq_refl). unfold c0. destruct cs as [|x [|y cs]]; cbn [make_condition fold_left].
        + right; reflexivity.
        + apply Hob.
        + apply (ands_one_bit (y :: cs) x); discriminate. }
    destruct H2 as (R2 & I2 & V2 & C2 & Ht).
    exists R2. split; [eapply incl_tran; eauto|].
    assert (Wss1 : forall v, In v (flat_map writes ss1) -> is_user v).
    { intros v Hv. assert (Hv' : In v (flat_map writes ss)).
      { destruct eg; [rewrite <- (forall2_writes _ _ _ _ S1); exact Hv|subst ss1; exact Hv]. }
      apply in_flat_map in Hv'. destruct Hv' as [s [Hs Hv']]. rewrite Forall_forall in Hu. apply (proj1 (Hu s Hs)), Hv'. }
    split.
    - apply push_effect; [exact V2| |].
      + constructor; [|constructor]. intros v Hv. cbn [writes flat_map] in Hv. rewrite app_nil_r in Hv. apply Wss1, Hv.
      + intros old past n1 n2 Hh Ha. cbn [fold_left]. unfold assign_effect. rewrite execs_cons, exec_if, (Ht old past Hh).
        cbn [nth_error d]. replace (d - 1)%nat with d' by (unfold d; lia).
        destruct (nth_error past d') as [p|] eqn:Ep; [|exact Ha].
        destruct (all_true _ cs); [|exact Ha]. cbn [execs fold_left].
        destruct eg.
        * eapply sub_rel_execs; eauto; [eapply hist_mono; [exact I2|exact Hh]|].
          replace (d - 1)%nat with d' by (unfold d; lia). exact Ep.
        * subst ss1. apply user_execs; assumption.
    - eapply same_ctl_trans; [exact C1|]. eapply same_ctl_trans; [exact C2|]. apply push_same_ctl.
  Qed.

  (** Only these fields matter for the emitted code. *)
  Definition core (b : seqb) := (s_body b, s_delayed b, s_prev b, s_tmp b, s_mod_tmp b).
  Lemma inv_core b b' R fx : core b' = core b -> inv b R fx -> inv b' R fx.
  Proof.
    unfold core. intros E ([A B C] & D & F). injection E as E1 E2 E3 E4 E5.
    assert (Ea : all_stmts b' = all_stmts b) by (unfold all_stmts; rewrite E1, E2; reflexivity).
    split; [constructor|split].
    - rewrite Ea; exact A.
    - rewrite Ea. intros v Hv. specialize (B v Hv). destruct v; cbn in *; congruence.
    - rewrite E2; exact C.
    - intros d. unfold code_at. rewrite E1, E2. exact (D d).
    - eapply Forall_impl; [|exact F]. intros x. apply reg_ok_mono; [|apply incl_refl].
      intros s. unfold plain_in. rewrite E1, E2. auto.
  Qed.

  (** appending a conditional item to the body *)
  Lemma inv_item b0 b R fx it f : inv b0 R fx ->
    core b = (s_body b0 ++ [it], s_delayed b0, s_prev b0, s_tmp b0, s_mod_tmp b0) ->
    (forall v, In v (flat_map writes (item_stmts it)) -> is_user v) ->
    simd R (item_stmts it) [f] -> inv b R (fx ++ [(O, f)]).
  Proof.
    unfold core. intros ([A B C] & D & F) E Hw Hs. injection E as E1 E2 E3 E4 E5.
    assert (Ea : all_stmts b = all_stmts b0 ++ item_stmts it).
    { unfold all_stmts. rewrite E1, E2, flat_map_app. cbn [flat_map]. rewrite app_nil_r, app_assoc. reflexivity. }
    assert (Eg : gens (all_stmts b) = gens (all_stmts b0)).
    { rewrite Ea, gens_app, (gens_user (item_stmts it)), app_nil_r; [reflexivity|].
      intros s v H1 H2. apply Hw, in_flat_map. eauto. }
    split; [constructor|split].
    - rewrite Eg; exact A.
    - rewrite Eg. intros v Hv. specialize (B v Hv). destruct v; cbn in *; congruence.
    - rewrite E2; exact C.
    - intros d. rewrite effects_at_app. unfold effects_at at 2. cbn [filter fst]. destruct d; cbn [Nat.eqb map snd].
      + unfold code_at. rewrite E1, flat_map_app. cbn [flat_map]. rewrite app_nil_r. apply simd_app; [exact (D O)|exact Hs].
      + rewrite app_nil_r. unfold code_at. rewrite E2. exact (D (S d)).
    - eapply Forall_impl; [|exact F]. intros x. apply reg_ok_mono; [|apply incl_refl].
      intros s. unfold plain_in. rewrite E1, E2. intros [H|H]; [left; apply in_or_app; auto|right; exact H].
  Qed.

  Lemma fold_exec_at_now old ss : forall n, fold_left (exec_at fit old old) ss n = execs fit old n ss.
  Proof.
    induction ss as [|s ss IH]; intros n; [reflexivity|]. cbn [fold_left]. rewrite IH, execs_cons. f_equal.
    destruct s; reflexivity.
  Qed.

  Lemma user_writes ss v : Forall user_stmt ss -> In v (flat_map writes ss) -> is_user v.
  Proof.
    intros Hu Hv. apply in_flat_map in Hv. destruct Hv as [s [Hs Hv]].
    rewrite Forall_forall in Hu. apply (proj1 (Hu s Hs)), Hv.
  Qed.

  (** [_add_statement] for one delay keeps the control fields used by later calls. *)
  Definition ctl (b : seqb) := (s_last_cond b, s_last_kw b, s_next_else b, s_elif b, s_next b).
  Lemma same_ctl_ctl b b' : same_ctl b b' -> ctl b' = ctl b.
  Proof. unfold same_ctl, ctl. intuition congruence. Qed.

  Lemma add1_inv b R fx ss d cs lz eg : inv b R fx ->
    Forall user_expr cs -> Forall user_stmt ss ->
    (lz = false -> (1 <= d)%nat -> match cs with [c] => one_bit c | _ => True end) ->
    (eg = true -> Forall slice_ok ss) ->
    exists R', incl R R' /\
      inv (add_statement1 b ss d (make_condition cs) lz eg) R' (fx ++ [(d, assign_effect fit cs lz eg ss d)]) /\
      ctl (add_statement1 b ss d (make_condition cs) lz eg) = ctl b.
  Proof.
    intros Hi Hc Hu Hob Hsl. destruct d as [|d].
    - exists R. split; [apply incl_refl|]. cbn [add_statement1]. destruct (make_condition cs) as [c|] eqn:Ec.
      + split; [|reflexivity]. eapply inv_item; [exact Hi|reflexivity| |].
        * cbn. intros v Hv. rewrite !app_nil_r in Hv. eapply user_writes; eauto.
        * intros old past n1 n2 Hh Ha. cbn [item_stmts chain_stmts opt_list fold_left].
          rewrite execs_cons, exec_if, (make_condition_true _ _ _ Ec). unfold assign_effect. cbn [nth_error].
          replace (if lz then old else old) with old by (destruct lz; reflexivity).
          destruct (all_true old cs); [|exact Ha].
          rewrite fold_exec_at_now. cbn [execs fold_left].
          replace (if eg then execs fit old n2 ss else execs fit old n2 ss) with (execs fit old n2 ss) by (destruct eg; reflexivity).
          apply user_execs; assumption.
      + assert (cs = []) by (destruct cs; [reflexivity|discriminate]). subst cs.
        split; [|reflexivity]. apply push_effect; [exact Hi| |].
        * eapply Forall_impl; [|exact Hu]. intros s Hs. apply (proj1 Hs).
        * intros old past n1 n2 Hh Ha. cbn [fold_left]. unfold assign_effect. cbn [nth_error all_true forallb].
          rewrite fold_exec_at_now.
          replace (if eg then execs fit old n2 ss else execs fit old n2 ss) with (execs fit old n2 ss) by (destruct eg; reflexivity).
          apply user_execs; assumption.
    - destruct (delayed_step b R fx ss (S d) cs lz eg ltac:(lia) Hi Hc Hu) as (R' & A & B & C).
      + intros Hl. apply Hob; [exact Hl|lia].
      + exact Hsl.
      + exists R'. split; [exact A|]. split; [exact B|apply same_ctl_ctl, C].
  Qed.

  Lemma add_fold_inv ss cs lz eg d0 l : forall b R fx, inv b R fx ->
    Forall user_expr cs -> Forall user_stmt ss ->
    (lz = false -> forall i, In i l -> (1 <= d0 + i)%nat -> match cs with [c] => one_bit c | _ => True end) ->
    (eg = true -> Forall slice_ok ss) ->
    exists R', incl R R' /\
      inv (fold_left (fun b i => add_statement1 b ss (d0 + i) (make_condition cs) lz eg) l b) R'
          (fx ++ map (fun i => ((d0 + i)%nat, assign_effect fit cs lz eg ss (d0 + i)%nat)) l) /\
      ctl (fold_left (fun b i => add_statement1 b ss (d0 + i) (make_condition cs) lz eg) l b) = ctl b.
  Proof.
    induction l as [|i l IH]; intros b R fx Hi Hc Hu Hob Hsl.
    - exists R. cbn. rewrite app_nil_r. auto using incl_refl.
    - destruct (add1_inv b R fx ss (d0 + i) cs lz eg Hi Hc Hu) as (R1 & I1 & V1 & C1).
      + intros Hl Hd. apply (Hob Hl i); [left; reflexivity|exact Hd].
      + exact Hsl.
      + destruct (IH _ R1 _ V1 Hc Hu) as (R2 & I2 & V2 & C2).
        * intros Hl j Hj. apply (Hob Hl j). right; exact Hj.
        * exact Hsl.
        * exists R2. split; [eapply incl_tran; eauto|]. cbn [fold_left map]. split.
          -- rewrite <- app_assoc in V2. exact V2.
          -- rewrite C2. exact C1.
  Qed.

  Definition idle (b : seqb) : Prop := s_next b = kw_empty /\ s_elif b = None /\ s_next_else b = false.

  Lemma assign_inv b R fx cs d k lz eg ss : inv b R fx -> idle b -> request_ok (RAssign cs d k lz eg ss) ->
    exists b' R', do_ops b (ops_of (RAssign cs d k lz eg ss)) = Some b' /\ incl R R' /\
      inv b' R' (fx ++ effects_of fit (RAssign cs d k lz eg ss)) /\ idle b'.
  Proof.
    intros Hi (N1 & N2 & N3) (Hc & Hu & Hob & Hsl).
    set (kk := mkKw (make_condition cs) d k (if lz then Some true else None) (if eg then Some true else None)).
    set (b1 := w_next_else (w_last_if (w_next (w_last_kw (w_last_cond (w_elif b None)
                 (match make_condition cs with Some c => [c] | None => s_last_cond b end)) kk) kw_empty) None) false).
    assert (E : do_ops b (ops_of (RAssign cs d k lz eg ss)) = Some (add_statement b1 ss kk)).
    { unfold ops_of. destruct b as [y1 y2 y3 y4 y5 y6 y7 y8 y9 y10 y11 y12 y13]. cbn in N1, N2, N3. subst y13 y12 y11.
      unfold b1, kk. destruct cs as [|c cs]; destruct d as [d|], k as [k|], lz, eg; reflexivity. }
    assert (C1 : core b1 = core b) by reflexivity.
    assert (I1 : inv b1 R fx) by (eapply inv_core; eauto).
    rewrite E. unfold add_statement. cbn [kk kw_cond kw_delay kw_keep kw_lazy kw_eager].
    replace (match (if lz then Some true else None) with Some x => x | None => false end) with lz by (destruct lz; reflexivity).
    replace (match (if eg then Some true else None) with Some x => x | None => false end) with eg by (destruct eg; reflexivity).
    set (d0 := match d with Some d => d | None => O end).
    destruct k as [k|].
    - destruct (add_fold_inv ss cs lz eg d0 (seq 0 k) b1 R fx I1 Hc Hu) as (R' & I' & V' & C').
      + intros Hl i _ _. apply Hob; [exact Hl|]. destruct d as [[|]|]; exact I.
      + exact Hsl.
      + eexists. exists R'. split; [reflexivity|]. split; [exact I'|]. split; [exact V'|].
        unfold ctl in C'. injection C' as A1 A2 A3 A4 A5. split; [exact A5|]. split; [exact A4|exact A3].
    - destruct (add1_inv b1 R fx ss d0 cs lz eg I1 Hc Hu) as (R' & I' & V' & C').
      + intros Hl Hd. apply Hob; [exact Hl|]. unfold d0 in Hd. destruct d as [[|]|]; [lia|exact I|lia].
      + exact Hsl.
      + eexists. exists R'. split; [reflexivity|]. split; [exact I'|]. split.
        * cbn [effects_of seq map]. fold d0. replace (d0 + 0)%nat with d0 by lia. exact V'.
        * unfold ctl in C'. injection C' as A1 A2 A3 A4 A5. split; [exact A5|]. split; [exact A4|exact A3].
  Qed.

  (** If / Elif / Else chains *)
  Definition mk_branch (p : list expr * list stmt) : expr * list stmt :=
    (match make_condition (fst p) with Some c => c | None => EInt 1 end, snd p).

  Definition chaining (b0 b : seqb) (br : list (expr * list stmt)) : Prop :=
    core b = (s_body b0 ++ [IIf br None], s_delayed b0, s_prev b0, s_tmp b0, s_mod_tmp b0) /\
    s_last_if b = Some (length (s_body b0)) /\ s_next b = kw_empty /\ s_elif b = None /\
    s_next_else b = false /\ s_last_cond b <> [] /\ delayed_last b = false.

  Lemma update_nth_last {A} (l : list A) x f y : f x = Some y -> update_nth (length l) f (l ++ [x]) = Some (l ++ [y]).
  Proof. intros H. induction l as [|a l IH]; cbn; [rewrite H; reflexivity|rewrite IH; reflexivity]. Qed.

  Lemma negate_last_some l : l <> [] -> exists l', negate_last l = Some l' /\ l' <> [].
  Proof.
    intros H. unfold negate_last. destruct (rev l) as [|x r] eqn:E.
    - apply (f_equal (@rev expr)) in E. rewrite rev_involutive in E. cbn in E. congruence.
    - eexists. split; [reflexivity|]. destruct (rev r); discriminate.
  Qed.

  Lemma make_cond_some l : l <> [] -> exists c, make_cond l = Some c.
  Proof. destruct l; [congruence|]. intros _. eexists; reflexivity. Qed.

  Lemma chain_elif b0 b br p : chaining b0 b br -> fst p <> [] ->
    exists b', do_ops b [OElif (fst p); OCall (snd p)] = Some b' /\ chaining b0 b' (br ++ [mk_branch p]).
  Proof.
    intros (C & L & N & El & Ne & Lc & D) Hp. destruct p as [cs ss]. cbn [fst snd] in *.
    destruct (negate_last_some _ Lc) as (lc & En & Hlc).
    destruct (make_cond_some _ Hp) as (c & Ec). unfold make_cond in Ec.
    destruct (make_cond_some (lc ++ [c]) ltac:(destruct lc; discriminate)) as (cc & Ecc).
    unfold core in C. injection C as C1 C2 C3 C4 C5.
    cbn [do_ops do_op]. unfold op_elif. rewrite En, Ec.
    replace (delayed_last (w_last_cond b (lc ++ [c]))) with false by (symmetry; exact D).
    cbn [w_last_cond s_last_if]. rewrite L, Ecc.
    unfold op_call. cbn [w_next w_elif w_last_cond w_last_kw s_next s_elif s_last_if s_body set_cond].
    rewrite N. cbn [has_args kw_delay kw_keep kw_lazy kw_eager kw_empty].
    rewrite L. rewrite C1. rewrite (update_nth_last (s_body b0) (IIf br None) (item_elif c ss) (IIf (br ++ [(c, ss)]) None) eq_refl).
    eexists. split; [reflexivity|]. unfold chaining, core, mk_branch. cbn. rewrite Ec.
    repeat split; auto; try congruence. destruct lc; discriminate.
  Qed.

  Lemma chain_elifs b0 elifs : forall b br, chaining b0 b br -> Forall (fun p => fst p <> []) elifs ->
    exists b', do_ops b (flat_map (fun p => [OElif (fst p); OCall (snd p)]) elifs) = Some b' /\
               chaining b0 b' (br ++ map mk_branch elifs).
  Proof.
    induction elifs as [|p elifs IH]; intros b br Hc HF.
    - exists b. cbn. rewrite app_nil_r. auto.
    - destruct (chain_elif b0 b br p Hc (Forall_inv HF)) as (b1 & E1 & C1).
      destruct (IH b1 _ C1 (Forall_inv_tail HF)) as (b2 & E2 & C2).
      exists b2. split; [|cbn [map]; rewrite <- app_assoc in C2; exact C2].
      cbn [flat_map app do_ops] in *. destruct (do_op b (OElif (fst p))); [|discriminate].
      destruct (do_op s (OCall (snd p))); [|discriminate]. inversion E1; subst. exact E2.
  Qed.

  Lemma do_ops_app a c b : do_ops b (a ++ c) = match do_ops b a with Some b' => do_ops b' c | None => None end.
  Proof. revert b; induction a as [|o a IH]; intros b; cbn; [reflexivity|]. destruct (do_op b o); auto. Qed.

  Lemma chain_end b0 b br els : chaining b0 b br ->
    exists b', do_ops b (match els with Some e => [OElse; OCall e] | None => [] end) = Some b' /\
      core b' = (s_body b0 ++ [IIf br els], s_delayed b0, s_prev b0, s_tmp b0, s_mod_tmp b0) /\ idle b'.
  Proof.
    intros (C & L & N & El & Ne & Lc & D). destruct els as [e|].
    - destruct (negate_last_some _ Lc) as (lc & En & Hlc).
      destruct (make_cond_some lc Hlc) as (cc & Ecc).
      unfold core in C. injection C as C1 C2 C3 C4 C5.
      cbn [do_ops do_op]. unfold op_else. cbn [w_elif s_last_cond]. rewrite En.
      replace (delayed_last _) with false by (symmetry; exact D).
      cbn [w_last_cond w_elif s_last_if]. rewrite L, Ecc.
      unfold op_call. cbn [w_next w_next_else w_elif w_last_cond w_last_kw s_next s_elif s_last_if s_body s_next_else set_cond].
      rewrite N. cbn [has_args kw_delay kw_keep kw_lazy kw_eager kw_empty andb negb].
      rewrite L, C1, (update_nth_last (s_body b0) (IIf br None) (item_else e) (IIf br (Some e)) eq_refl).
      eexists. split; [reflexivity|]. unfold core, idle. cbn. rewrite C2, C3, C4, C5. auto.
    - exists b. split; [reflexivity|]. split; [exact C|]. unfold idle; auto.
  Qed.

  Lemma chain_exec old br els : Forall (fun p => fst p <> []) br -> forall nxt,
    execs fit old nxt (chain_stmts (map mk_branch br) els) = execs fit old nxt (first_branch old br els).
  Proof.
    induction br as [|[c ss] br IH]; intros HF nxt; [destruct els; reflexivity|].
    cbn [map mk_branch chain_stmts first_branch fst snd]. rewrite execs_cons, exec_if.
    destruct (make_condition c) as [c'|] eqn:Ec; [|destruct c; [destruct (Forall_inv HF); reflexivity|discriminate]].
    rewrite (make_condition_true _ _ _ Ec). destruct (all_true old c); [reflexivity|].
    change (execs fit old nxt (chain_stmts (map mk_branch br) els) = execs fit old nxt (first_branch old br els)).
    apply IH, (Forall_inv_tail HF).
  Qed.

  Lemma chain_request b R fx c ss elifs els : inv b R fx -> idle b -> request_ok (RChain c ss elifs els) ->
    exists b' R', do_ops b (ops_of (RChain c ss elifs els)) = Some b' /\ incl R R' /\
      inv b' R' (fx ++ effects_of fit (RChain c ss elifs els)) /\ idle b'.
  Proof.
    intros Hi (N1 & N2 & N3) (Hc0 & Hc & Hu & Hel & Hels).
    destruct (make_cond_some _ Hc0) as (c' & Ec). unfold make_cond in Ec.
    assert (H1 : exists b1, do_ops b [OIf c; OCall ss] = Some b1 /\ chaining b b1 [mk_branch (c, ss)]).
    { cbn [do_ops do_op]. unfold op_if. rewrite Ec. cbn [w_elif s_next]. rewrite N1. cbn [kw_cond kw_empty].
      unfold op_call. cbn [w_next w_elif w_last_cond w_last_kw s_next s_elif has_args set_cond kw_delay kw_keep kw_lazy kw_eager kw_empty s_next_else].
      rewrite N3. cbn [andb]. eexists. split; [reflexivity|]. unfold chaining, core, mk_branch. cbn. rewrite Ec.
      repeat split; auto. discriminate. }
    destruct H1 as (b1 & E1 & C1).
    assert (Hne : Forall (fun p : list expr * list stmt => fst p <> []) elifs)
      by (eapply Forall_impl; [|exact Hel]; intros p Hp; apply Hp).
    destruct (chain_elifs b elifs b1 _ C1 Hne) as (b2 & E2 & C2).
    destruct (chain_end b b2 _ els C2) as (b3 & E3 & C3 & I3).
    exists b3, R. split.
    { unfold ops_of. rewrite do_ops_app, E1, do_ops_app, E2. exact E3. }
    split; [apply incl_refl|]. split; [|exact I3].
    change ([mk_branch (c, ss)] ++ map mk_branch elifs) with (map mk_branch ((c, ss) :: elifs)) in C3.
    assert (Hne' : Forall (fun p : list expr * list stmt => fst p <> []) ((c, ss) :: elifs)) by (constructor; assumption).
    assert (Hus : Forall (fun p : list expr * list stmt => Forall user_stmt (snd p)) ((c, ss) :: elifs)).
    { constructor; [exact Hu|]. eapply Forall_impl; [|exact Hel]. intros p Hp; apply Hp. }
    eapply inv_item; [exact Hi|exact C3| |].
    - cbn [item_stmts]. clear -Hus Hels. induction ((c, ss) :: elifs) as [|[c1 s1] br IH]; intros v Hv.
      + destruct els; [eapply user_writes; eauto|destruct Hv].
      + cbn in Hv. rewrite app_nil_r in Hv. apply in_app_iff in Hv. destruct Hv as [Hv|Hv].
        * eapply user_writes; [exact (Forall_inv Hus)|exact Hv].
        * apply (IH (Forall_inv_tail Hus)). exact Hv.
    - intros old past n1 n2 Hh Ha. cbn [fold_left item_stmts]. unfold chain_effect.
      rewrite chain_exec by exact Hne'. apply user_execs; [|exact Ha].
      clear -Hus Hels. induction ((c, ss) :: elifs) as [|[c1 s1] br IH]; cbn [first_branch].
      + destruct els; [exact Hels|constructor].
      + destruct (all_true old c1); [exact (Forall_inv Hus)|apply IH, (Forall_inv_tail Hus)].
  Qed.

  Lemma requests_inv rs : forall b R fx, inv b R fx -> idle b -> Forall request_ok rs ->
    exists b' R', do_ops b (flat_map ops_of rs) = Some b' /\
      inv b' R' (fx ++ flat_map (effects_of fit) rs) /\ idle b'.
  Proof.
    induction rs as [|r rs IH]; intros b R fx Hi Hd Hr.
    - exists b, R. cbn. rewrite app_nil_r. auto.
    - assert (H1 : exists b' R', do_ops b (ops_of r) = Some b' /\ incl R R' /\
                     inv b' R' (fx ++ effects_of fit r) /\ idle b').
      { destruct r; [apply assign_inv|apply chain_request]; auto; exact (Forall_inv Hr). }
      destruct H1 as (b1 & R1 & E1 & _ & I1 & D1).
      destruct (IH b1 R1 _ I1 D1 (Forall_inv_tail Hr)) as (b2 & R2 & E2 & I2 & D2).
      exists b2, R2. cbn [flat_map]. rewrite do_ops_app, E1. rewrite <- app_assoc in I2. auto.
  Qed.

  (** ** Effects depend on user signals only *)
  Definition cong_fx (f : effect) : Prop := forall h1 h2 n1 n2,
    Forall2 user_agree h1 h2 -> user_agree n1 n2 -> user_agree (f h1 n1) (f h2 n2).

  Lemma all_true_agree e1 e2 cs : Forall user_expr cs -> user_agree e1 e2 -> all_true e1 cs = all_true e2 cs.
  Proof.
    intros Hc Ha. induction cs as [|c cs IH]; [reflexivity|]. cbn [all_true forallb].
    rewrite (eval_agree is_user e1 e2 c Ha (Forall_inv Hc)). f_equal. apply IH, (Forall_inv_tail Hc).
  Qed.
  Lemma user_execs2 ss o1 o2 n1 n2 : Forall user_stmt ss -> user_agree o1 o2 -> user_agree n1 n2 ->
    user_agree (execs fit o1 n1 ss) (execs fit o2 n2 ss).
  Proof.
    intros Hu Ho Ha. apply (execs_agree fit is_user); auto.
    intros v Hv. apply in_flat_map in Hv. destruct Hv as [s [Hs Hv]].
    rewrite Forall_forall in Hu. apply (proj2 (Hu s Hs)), Hv.
  Qed.
  Lemma user_exec_at2 ss p1 p2 o1 o2 : Forall user_stmt ss -> user_agree p1 p2 -> user_agree o1 o2 ->
    forall n1 n2, user_agree n1 n2 -> user_agree (fold_left (exec_at fit p1 o1) ss n1) (fold_left (exec_at fit p2 o2) ss n2).
  Proof.
    intros Hu Hp Ho. induction ss as [|s ss IH]; intros n1 n2 Ha; [exact Ha|]. cbn [fold_left].
    apply IH; [exact (Forall_inv_tail Hu)|]. destruct (Forall_inv Hu) as [_ Hr]. destruct s as [l e|c t f|e ws]; cbn [exec_at].
    - cbn [reads] in Hr. rewrite (eval_agree is_user p1 p2 e Hp) by (intros v Hv; apply Hr, in_or_app; auto).
      apply (assign_agree fit is_user); auto. intros v Hv; apply Hr, in_or_app; auto.
    - apply (exec_agree fit is_user); auto.
    - apply (exec_agree fit is_user); auto.
  Qed.
  Lemma forall2_nth {A B} (P : A -> B -> Prop) l1 l2 n : Forall2 P l1 l2 ->
    match nth_error l1 n, nth_error l2 n with Some a, Some b => P a b | None, None => True | _, _ => False end.
  Proof. intros H; revert n; induction H; intros [|n]; cbn; auto. apply IHForall2. Qed.

  Lemma assign_cong cs lz eg ss d : Forall user_expr cs -> Forall user_stmt ss -> cong_fx (assign_effect fit cs lz eg ss d).
  Proof.
    intros Hc Hu h1 h2 n1 n2 Hh Ha. unfold assign_effect.
    pose proof (forall2_nth _ _ _ d Hh) as Hd. destruct Hh as [|o1 o2 h1 h2 Ho Hh]; [exact Ha|].
    destruct (nth_error (o1 :: h1) d) as [p1|], (nth_error (o2 :: h2) d) as [p2|]; try contradiction; [|exact Ha].
    rewrite (all_true_agree (if lz then o1 else p1) (if lz then o2 else p2)) by (destruct lz; assumption).
    destruct (all_true _ cs); [|exact Ha]. destruct eg; [apply user_exec_at2|apply user_execs2]; assumption.
  Qed.

  Lemma request_cong r : request_ok r -> Forall (fun p => cong_fx (snd p)) (effects_of fit r).
  Proof.
    destruct r as [cs d k lz eg ss|c ss elifs els]; cbn [effects_of].
    - intros (Hc & Hu & _). apply Forall_forall. intros p Hp. apply in_map_iff in Hp.
      destruct Hp as [i [<- _]]. apply assign_cong; assumption.
    - intros (_ & Hc & Hu & Hel & Hels). constructor; [|constructor]. cbn [snd].
      intros h1 h2 n1 n2 Hh Ha. unfold chain_effect. destruct Hh as [|o1 o2 h1 h2 Ho Hh]; [exact Ha|].
      assert (Hb : Forall (fun p : list expr * list stmt => Forall user_expr (fst p) /\ Forall user_stmt (snd p)) ((c, ss) :: elifs)).
      { constructor; [auto|]. eapply Forall_impl; [|exact Hel]. intros p (A & B & C). auto. }
      assert (Hf : first_branch o1 ((c, ss) :: elifs) els = first_branch o2 ((c, ss) :: elifs) els /\
                   Forall user_stmt (first_branch o1 ((c, ss) :: elifs) els)).
      { clear -Hb Hels Ho. induction ((c, ss) :: elifs) as [|[c1 s1] br IH]; cbn [first_branch].
        - split; [reflexivity|]. destruct els; [exact Hels|constructor].
        - destruct (Forall_inv Hb) as [H1 H2]. cbn in H1, H2. rewrite (all_true_agree o1 o2 c1 H1 Ho).
          destruct (all_true o2 c1); [auto|apply IH, (Forall_inv_tail Hb)]. }
      destruct Hf as [Hf1 Hf2]. rewrite <- Hf1. apply user_execs2; assumption.
  Qed.

  Lemma fold_cong fs : Forall cong_fx fs -> forall h1 h2 n1 n2, Forall2 user_agree h1 h2 -> user_agree n1 n2 ->
    user_agree (fold_left (fun n f => f h1 n) fs n1) (fold_left (fun n f => f h2 n) fs n2).
  Proof.
    induction fs as [|f fs IH]; intros HF h1 h2 n1 n2 Hh Ha; [exact Ha|]. cbn [fold_left].
    apply IH; [exact (Forall_inv_tail HF)|exact Hh|]. apply (Forall_inv HF); assumption.
  Qed.

  Lemma spec_cong fx h1 h2 n1 n2 : Forall (fun p => cong_fx (snd p)) fx -> Forall2 user_agree h1 h2 -> user_agree n1 n2 ->
    user_agree (spec_step fx h1 n1) (spec_step fx h2 n2).
  Proof.
    intros HF Hh Ha. unfold spec_step. apply fold_cong; [|exact Hh|exact Ha].
    apply Forall_forall. intros f Hf. apply in_flat_map in Hf. destruct Hf as [d [_ Hf]].
    unfold effects_at in Hf. apply in_map_iff in Hf. destruct Hf as [p [<- Hp]]. apply filter_In in Hp.
    rewrite Forall_forall in HF. apply HF, Hp.
  Qed.

  (** ** One clock edge *)
  Lemma fx_above fx d : (max_fx fx < d)%nat -> effects_at fx d = [].
  Proof.
    induction fx as [|[d' f] fx IH]; intros H; [reflexivity|].
    unfold max_fx in *; cbn [fold_right fst] in H. unfold effects_at in *; cbn [filter fst].
    replace (Nat.eqb d' d) with false by lia. apply IH. lia.
  Qed.

  Lemma sims_all b R fx ds : sims b R fx -> simd R (flat_map (code_at b) ds) (flat_map (effects_at fx) ds).
  Proof.
    intros H. induction ds as [|d ds IH]; cbn [flat_map].
    - intros old past n1 n2 _ Ha. exact Ha.
    - apply simd_app; [apply H|exact IH].
  Qed.

  Lemma tick_user b R fx now past : inv b R fx -> hist_ok R now past ->
    user_agree (tick fit (make_code b) now) (spec_step fx (now :: past) now).
  Proof.
    intros (G & Sm & _) Hh. set (m := Nat.max (max_delay (s_delayed b)) (max_fx fx)).
    unfold tick. rewrite (make_code_eq b m) by (unfold m; lia).
    unfold spec_step. rewrite <- (flat_map_rev_seq_ext (effects_at fx) (max_fx fx) m);
      [|intros; apply fx_above; lia|unfold m; lia].
    apply (sims_all b R fx); [exact Sm|exact Hh|]. intros v Hv; reflexivity.
  Qed.

  Lemma code_nodup b : ginv b -> NoDup (gens (make_code b)).
  Proof.
    intros [A B C]. eapply Permutation_NoDup; [|exact A]. apply gens_perm, Permutation_sym, make_code_perm. exact C.
  Qed.
  Lemma plain_in_code b s : ginv b -> plain_in b s -> In s (make_code b).
  Proof.
    intros [A B C] H. eapply Permutation_in; [apply Permutation_sym, make_code_perm, C|]. apply plain_in_all, H.
  Qed.

  Lemma hist_step b R fx now past i : inv b R fx -> hist_ok R now past ->
    hist_ok R (merge i (tick fit (make_code b) now)) (now :: past).
  Proof.
    intros (G & _ & Rg) Hh g e j Hg. rewrite Forall_forall in Rg. destruct (Rg _ Hg) as (Hj & Hu & src & Hp & Hs).
    assert (E : merge i (tick fit (make_code b) now) g = fit g (eval now src)).
    { transitivity (tick fit (make_code b) now g); [destruct g; try reflexivity; contradiction Hu; exact I|].
      apply exec_gen; [apply code_nodup, G|exact Hu|apply plain_in_code; assumption]. }
    rewrite E. destruct Hs as [[-> ->]|(g' & -> & Hj2 & Hin & Hid & Hz)]; [reflexivity|].
    cbn [eval]. rewrite (Hh _ _ _ Hin). destruct j as [|[|j]]; [lia|lia|].
    replace (S (S j) - 1)%nat with (S j) by lia. replace (S j - 1)%nat with j by lia. cbn [nth_error].
    destruct (nth_error past j); [apply Hid|exact Hz].
  Qed.

  Lemma merge_agree i s1 s2 : user_agree s1 s2 -> user_agree (merge i s1) (merge i s2).
  Proof. intros H v Hv. destruct v; cbn; try contradiction. destruct (i n); [reflexivity|apply H, Hv]. Qed.

  Lemma trace_inv b R fx : inv b R fx -> Forall (fun p => cong_fx (snd p)) fx ->
    forall ins s1 s2 p1 p2, user_agree s1 s2 -> Forall2 user_agree p1 p2 ->
      (forall i, hist_ok R (merge i s1) p1) ->
      Forall2 user_agree (code_trace fit (make_code b) s1 ins) (spec_trace fx p2 s2 ins).
  Proof.
    intros Hi Hc. induction ins as [|i ins IH]; intros s1 s2 p1 p2 Ha Hp Hh; cbn [code_trace spec_trace]; constructor.
    - apply merge_agree, Ha.
    - apply IH with (p1 := merge i s1 :: p1).
      + intros v Hv. rewrite (tick_user b R fx (merge i s1) p1 Hi (Hh i) v Hv).
        apply spec_cong; auto using merge_agree.
      + constructor; auto using merge_agree.
      + intros i'. eapply hist_step; eauto.
  Qed.

  Lemma inv_new : inv seq_new [] [].
  Proof. split; [apply ginv_new|]. split; [|constructor]. intros d old past n1 n2 _ Ha. destruct d; exact Ha. Qed.

  Theorem seq_refines rs : Forall request_ok rs ->
    exists b, do_ops seq_new (flat_map ops_of rs) = Some b /\
      forall s ins, (forall v, ~ is_user v -> s v = 0) ->
        Forall2 user_agree (code_trace fit (make_code b) s ins)
                           (spec_trace (flat_map (effects_of fit) rs) [] s ins).
  Proof.
    intros Hr. destruct (requests_inv rs seq_new [] [] inv_new) as (b & R & E & I & D); [repeat split|exact Hr|].
    exists b. split; [exact E|]. intros s ins Hs. apply (trace_inv b R _ I) with (p1 := []).
    - apply Forall_forall. intros p Hp. apply in_flat_map in Hp. destruct Hp as [r [Hr' Hp]].
      rewrite Forall_forall in Hr. pose proof (request_cong r (Hr r Hr')) as H. rewrite Forall_forall in H. apply H, Hp.
    - intros v Hv; reflexivity.
    - constructor.
    - intros i g e j Hg. destruct I as (_ & _ & Rg). rewrite Forall_forall in Rg. destruct (Rg _ Hg) as (Hj & Hu & _).
      transitivity (s g); [destruct g; try reflexivity; contradiction Hu; exact I|]. rewrite (Hs g Hu).
      destruct (j - 1)%nat; reflexivity.
  Qed.
End Sim.
