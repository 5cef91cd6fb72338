(** Static facts about a compiled fragment: what compiling from state [c0] to [c1] adds. *)
From Verif Require Import Base Vlog Seq_Model Fsm_Model Py_Spec Comp_Model Comp_Base.
Open Scope nat_scope.

(** [k] is 1 while statements are being put in the current state, else 0. *)
Record invk (k : nat) (c : cst) : Prop := mkInv {
  i_plain : plain (c_fsm c);
  i_bd : forall i, cur c + k <= i -> bd c i = [];
  i_jp : forall i, cur c <= i -> jp c i = [];
  i_user : forall i, user_only (bd c i);
  i_vars : forall x r, lookup c x = Some r -> r < c_tmp c;
  i_inj : forall x y r, lookup c x = Some r -> lookup c y = Some r -> x = y;
  i_ret : forall r, c_ret c = Some r -> r < c_tmp c;
  i_ret' : forall r x, c_ret c = Some r -> lookup c x <> Some r }.
Notation inv := (invk 0).

(** registers a fragment may assign *)
Definition wr (A : list name) (rt : bool) (c0 c1 : cst) (r : nat) : Prop :=
  c_tmp c0 <= r < c_tmp c1 \/ (exists x, In x A /\ lookup c1 x = Some r) \/ (rt = true /\ c_ret c1 = Some r).

Record ext (k : nat) (A : list name) (rt : bool) (c0 c1 : cst) : Prop := mkExt {
  x_inv : invk k c1;
  x_cur : cur c0 <= cur c1;
  x_tmp : c_tmp c0 <= c_tmp c1;
  x_b : forall i, i < cur c0 -> bd c1 i = bd c0 i;
  x_j : forall i, i < cur c0 -> jp c1 i = jp c0 i;
  x_w : forall i st, cur c0 <= i -> In st (bd c1 i) -> exists r e, st = SSub (LVar (User r)) e /\ wr A rt c0 c1 r;
  x_l1 : forall x r, lookup c0 x = Some r -> lookup c1 x = Some r;
  x_l2 : forall x r, lookup c1 x = Some r -> lookup c0 x = Some r \/ (c_tmp c0 <= r /\ In x A);
  x_r1 : forall r, c_ret c0 = Some r -> c_ret c1 = Some r;
  x_r2 : forall r, c_ret c1 = Some r -> c_ret c0 = Some r \/ (c_tmp c0 <= r /\ rt = true) }.

Lemma invk_weak c : inv c -> invk 1 c.
Proof. intros [A B C D E F G H]. split; auto. intros i Hi. apply B. lia. Qed.

Lemma ext_refl c : inv c -> ext 0 [] false c c.
Proof.
  intros I. split; auto.
  intros i st Hi Hin. rewrite (i_bd _ _ I i) in Hin by lia. destruct Hin.
Qed.
Lemma ext_weak A rt c0 c1 : ext 0 A rt c0 c1 -> ext 1 A rt c0 c1.
Proof. intros [X1 X2 X3 X4 X5 X6 X7 X8 X9 X10]. split; auto. apply invk_weak; assumption. Qed.

Lemma wr_incl A A' (rt rt' : bool) c0 c1 r : incl A A' -> (rt = true -> rt' = true) -> wr A rt c0 c1 r -> wr A' rt' c0 c1 r.
Proof. intros HA Hr [H|[[x [H1 H2]]|[H1 H2]]]; [left; auto|right; left; eauto|right; right; auto]. Qed.
Lemma ext_incl k A A' (rt rt' : bool) c0 c1 : incl A A' -> (rt = true -> rt' = true) -> ext k A rt c0 c1 -> ext k A' rt' c0 c1.
Proof.
  intros HA Hr [X1 X2 X3 X4 X5 X6 X7 X8 X9 X10]. split; auto.
  - intros i st Hi Hin. destruct (X6 i st Hi Hin) as (r & e & E & H). exists r, e. split; [exact E|]. eapply wr_incl; eauto.
  - intros x r H. destruct (X8 x r H) as [?|[? ?]]; auto.
  - intros r H. destruct (X10 r H) as [?|[? ?]]; auto.
Qed.

Lemma ext_trans k A B rt c0 c1 c2 : ext 0 A rt c0 c1 -> ext k B rt c1 c2 -> ext k (A ++ B) rt c0 c2.
Proof.
  intros [X1 X2 X3 X4 X5 X6 X7 X8 X9 X10] [Y1 Y2 Y3 Y4 Y5 Y6 Y7 Y8 Y9 Y10]. split; auto; try lia.
  - intros i Hi. rewrite Y4 by lia. apply X4. exact Hi.
  - intros i Hi. rewrite Y5 by lia. apply X5. exact Hi.
  - intros i st Hi Hin. destruct (le_lt_dec (cur c1) i) as [Hge|Hlt].
    + destruct (Y6 i st Hge Hin) as (r & e & E & H). exists r, e. split; [exact E|].
      destruct H as [H|[[x [H1 H2]]|[H1 H2]]]; [left; lia|right; left|right; right; auto].
      exists x. split; [apply in_or_app; auto|exact H2].
    + rewrite Y4 in Hin by exact Hlt. destruct (X6 i st Hi Hin) as (r & e & E & H). exists r, e. split; [exact E|].
      destruct H as [H|[[x [H1 H2]]|[H1 H2]]]; [left; lia|right; left|right; right; auto].
      exists x. split; [apply in_or_app; auto|auto].
  - intros x r H. destruct (Y8 x r H) as [H1|[H1 H2]].
    + destruct (X8 x r H1) as [?|[? ?]]; [auto|right; split; [assumption|apply in_or_app; auto]].
    + right. split; [lia|apply in_or_app; auto].
  - intros r H. destruct (Y10 r H) as [H1|[H1 H2]]; [auto|right; split; [lia|assumption]].
Qed.

(** only these components matter *)
Definition same4 (c c' : cst) : Prop :=
  c_fsm c' = c_fsm c /\ c_tmp c' = c_tmp c /\ c_vars c' = c_vars c /\ c_ret c' = c_ret c.
Lemma same4_refl c : same4 c c. Proof. repeat split. Qed.
Lemma invk_proj k c c' : same4 c c' -> invk k c -> invk k c'.
Proof. destruct c, c'. intros (E1 & E2 & E3 & E4). cbn in *. subst. intros [A B C D E F G H]. split; assumption. Qed.
Lemma ext_proj k A rt c0 c0' c1 c1' : same4 c0 c0' -> same4 c1 c1' -> ext k A rt c0 c1 -> ext k A rt c0' c1'.
Proof.
  destruct c0, c0', c1, c1'. intros (E1 & E2 & E3 & E4) (F1 & F2 & F3 & F4). cbn in *. subst.
  intros [X1 X2 X3 X4 X5 X6 X7 X8 X9 X10]. split; try assumption. eapply invk_proj; [|exact X1]. repeat split.
Qed.

Lemma find_app {A} (f : A -> bool) l1 l2 : find f (l1 ++ l2) = match find f l1 with Some x => Some x | None => find f l2 end.
Proof. induction l1 as [|a l1 IH]; cbn; [reflexivity|]. destruct (f a); auto. Qed.

Lemma get_store_new c x c' r : get_store c x = (c', r) -> lookup c' x = Some r.
Proof.
  unfold get_store. destruct (lookup c x) as [r0|] eqn:E; intros H; inversion H; subst; [exact E|].
  unfold lookup in *. cbn. rewrite find_app.
  destruct (find (fun p => Nat.eqb (fst p) x) (c_vars c)); [discriminate|]. cbn. rewrite Nat.eqb_refl. reflexivity.
Qed.
Lemma get_store_lookup c x c' r : get_store c x = (c', r) -> forall y r', lookup c' y = Some r' ->
  lookup c y = Some r' \/ (lookup c x = None /\ y = x /\ r' = c_tmp c).
Proof.
  unfold get_store. destruct (lookup c x) as [r0|] eqn:E; intros H; inversion H; subst; intros y r' Hy; [auto|].
  unfold lookup in *. cbn in Hy. rewrite find_app in Hy. destruct (find (fun p => Nat.eqb (fst p) y) (c_vars c)); [auto|].
  cbn in Hy. destruct (Nat.eqb x y) eqn:E2; [|discriminate]. apply Nat.eqb_eq in E2. inversion Hy; subst. auto.
Qed.
Lemma get_store_fields c x c' r : get_store c x = (c', r) ->
  c_fsm c' = c_fsm c /\ c_ret c' = c_ret c /\ c_own c' = c_own c /\ c_sub c' = c_sub c /\ c_tmp c <= c_tmp c' /\
  (forall y r, lookup c y = Some r -> lookup c' y = Some r).
Proof.
  unfold get_store. destruct (lookup c x) as [r0|] eqn:E; intros H; inversion H; subst; repeat split; cbn; auto.
  intros y r' Hy. unfold lookup in *. cbn. rewrite find_app.
  destruct (find (fun p => Nat.eqb (fst p) y) (c_vars c)); [exact Hy|discriminate].
Qed.

Lemma ext_store k A rt c0 c x c' r : ext k A rt c0 c -> In x A -> get_store c x = (c', r) -> ext k A rt c0 c'.
Proof.
  intros [X1 X2 X3 X4 X5 X6 X7 X8 X9 X10] Hx E.
  pose proof (get_store_lookup c x c' r E) as GL. destruct (get_store_fields c x c' r E) as (F1 & F2 & F3 & F4 & F5 & F6).
  assert (Ecur : cur c' = cur c) by (unfold cur; rewrite F1; reflexivity).
  assert (Ebd : forall i, bd c' i = bd c i) by (intros; unfold bd; rewrite F1; reflexivity).
  assert (Ejp : forall i, jp c' i = jp c i) by (intros; unfold jp; rewrite F1; reflexivity).
  assert (Ht : forall y r', lookup c' y = Some r' -> r' < c_tmp c').
  { intros y r' H. destruct (GL y r' H) as [H1|(H1 & H2 & H3)].
    - pose proof (i_vars _ _ X1 y r' H1). lia.
    - unfold get_store in E. rewrite H1 in E. inversion E; subst. cbn. lia. }
  split; rewrite ?Ecur; auto; try lia.
  - destruct X1 as [P1 P2 P3 P4 P5 P6 P7 P8]. split; rewrite ?Ecur; auto.
    + rewrite F1. exact P1.
    + intros i Hi. rewrite Ebd. auto.
    + intros i Hi. rewrite Ejp. auto.
    + intros i. rewrite Ebd. auto.
    + intros y z r' Hy Hz. destruct (GL y r' Hy) as [H1|(H1 & H2 & H3)], (GL z r' Hz) as [H1'|(H1' & H2' & H3')]; subst; auto.
      * eapply P6; eauto.
      * specialize (P5 y _ H1). lia.
      * specialize (P5 z _ H1'). lia.
    + intros r' H. rewrite F2 in H. specialize (P7 r' H). lia.
    + intros r' y H Hy. rewrite F2 in H. destruct (GL y r' Hy) as [H1|(H1 & H2 & H3)]; [exact (P8 r' y H H1)|].
      specialize (P7 r' H). lia.
  - intros i Hi. rewrite Ebd. auto.
  - intros i Hi. rewrite Ejp. auto.
  - intros i st Hi Hin. rewrite Ebd in Hin. destruct (X6 i st Hi Hin) as (r' & e & E' & H). exists r', e. split; [exact E'|].
    destruct H as [H|[[y [H1 H2]]|[H1 H2]]]; [left; lia|right; left; eauto|right; right; rewrite F2; auto].
  - intros y r' H. destruct (GL y r' H) as [H1|(H1 & H2 & H3)]; [exact (X8 y r' H1)|]. subst. right. split; [lia|exact Hx].
  - intros r' H. rewrite F2. auto.
  - intros r' H. rewrite F2 in H. auto.
Qed.

Section WithOpt.
  Variable opt : expr -> expr.

  Lemma ext_bind k A rt c0 c r v : k <= 1 -> ext k A rt c0 c -> wr A rt c0 c r -> ext 1 A rt c0 (set_bind opt c r v).
  Proof.
    intros Hk [X1 X2 X3 X4 X5 X6 X7 X8 X9 X10] Hw.
    assert (El : forall x, lookup (set_bind opt c r v) x = lookup c x) by reflexivity.
    split; auto.
    - destruct X1 as [P1 P2 P3 P4 P5 P6 P7 P8]. split; auto.
      + apply set_bind_plain. exact P1.
      + intros i Hi. rewrite set_bind_bd.
        assert (Hc : cur (set_bind opt c r v) = cur c) by reflexivity.
        rewrite P2 by lia. destruct (Nat.eqb_spec (cur c) i); [lia|reflexivity].
      + intros i. rewrite set_bind_bd. apply Forall_app. split; [apply P4|]. destruct (Nat.eqb _ _); repeat constructor. eauto.
    - intros i Hi. rewrite set_bind_bd, X4 by exact Hi. destruct (Nat.eqb_spec (cur c) i); [lia|apply app_nil_r].
    - intros i st Hi Hin. rewrite set_bind_bd in Hin. apply in_app_or in Hin. destruct Hin as [Hin|Hin].
      + destruct (X6 i st Hi Hin) as (r' & e & E & H). exists r', e. split; [exact E|exact H].
      + destruct (Nat.eqb _ _); [|destruct Hin]. destruct Hin as [<-|[]]. exists r, (opt (cve v)). split; [reflexivity|exact Hw].
  Qed.

  Lemma ext_inc k A rt c0 c : k <= 1 -> ext k A rt c0 c -> ext 0 A rt c0 (inc c).
  Proof.
    intros Hk [X1 X2 X3 X4 X5 X6 X7 X8 X9 X10]. assert (Ec : cur (inc c) = S (cur c)) by reflexivity.
    split; auto; try lia.
    destruct X1 as [P1 P2 P3 P4 P5 P6 P7 P8]. split; auto.
    - apply inc_plain. exact P1.
    - intros i Hi. rewrite inc_bd. apply P2. lia.
    - intros i Hi. rewrite inc_jp. apply P3. lia.
  Qed.

  Lemma ext_goto k A rt c0 c src dst cd els : ext k A rt c0 c -> cur c0 <= src < cur c ->
    ext k A rt c0 (set_fsm c src dst cd els).
  Proof.
    intros [X1 X2 X3 X4 X5 X6 X7 X8 X9 X10] Hs. pose proof (i_plain _ _ X1) as Pl.
    split; auto.
    - destruct X1 as [P1 P2 P3 P4 P5 P6 P7 P8]. split; auto.
      + apply set_fsm_plain. exact P1.
      + intros i Hi. assert (Hc : cur (set_fsm c src dst cd els) = cur c) by reflexivity.
        rewrite set_fsm_jp, P3 by (try exact P1; lia). destruct (Nat.eqb_spec src i); [lia|reflexivity].
    - intros i Hi. rewrite set_fsm_jp, X5 by (try exact Pl; lia). destruct (Nat.eqb_spec src i); [lia|apply app_nil_r].
  Qed.

  (** a state with an unconditional jump to the next one *)
  Lemma next_eq c : plain (c_fsm c) -> next c = set_fsm (inc c) (cur c) (S (cur c)) None None.
  Proof. intros [H _ _ _]. unfold next, set_fsm, inc, cur. destruct c as [f ? ? ? ? ?]. destruct f. cbn in *. subst. reflexivity. Qed.

  Lemma ext_next k A rt c0 c : k <= 1 -> ext k A rt c0 c -> ext 0 A rt c0 (next c).
  Proof.
    intros Hk X. rewrite next_eq by apply (i_plain _ _ (x_inv _ _ _ _ _ X)). apply ext_goto.
    - eapply ext_inc; eauto.
    - pose proof (x_cur _ _ _ _ _ X). rewrite inc_cur. lia.
  Qed.

  Lemma ext_resolve k A rt c0 ls dst : forall c, ext k A rt c0 c -> (forall i, In i ls -> cur c0 <= i < cur c) ->
    ext k A rt c0 (resolve c ls dst).
  Proof.
    unfold resolve. induction ls as [|i ls IH]; intros c X H; [exact X|]. cbn [fold_left]. apply IH.
    - apply ext_goto; [exact X|]. apply H. left. reflexivity.
    - intros j Hj. assert (E : cur (set_fsm c i dst None None) = cur c) by reflexivity. rewrite E. apply H. right. exact Hj.
  Qed.
  Lemma resolve_fields ls dst : forall c, cur (resolve c ls dst) = cur c /\ c_tmp (resolve c ls dst) = c_tmp c /\
    c_vars (resolve c ls dst) = c_vars c /\ c_ret (resolve c ls dst) = c_ret c /\ c_own (resolve c ls dst) = c_own c /\
    c_sub (resolve c ls dst) = c_sub c /\ (forall i, bd (resolve c ls dst) i = bd c i).
  Proof.
    unfold resolve. induction ls as [|i ls IH]; intros c; [repeat split|]. cbn [fold_left].
    destruct (IH (set_fsm c i dst None None)) as (H1 & H2 & H3 & H4 & H5 & H6 & H7).
    rewrite H1, H2, H3, H4, H5, H6. repeat split. intros j. rewrite H7. reflexivity.
  Qed.
  Lemma resolve_plain ls dst : forall c, plain (c_fsm c) -> plain (c_fsm (resolve c ls dst)).
  Proof.
    unfold resolve. induction ls as [|i ls IH]; intros c H; [exact H|]. cbn [fold_left]. apply IH. apply set_fsm_plain. exact H.
  Qed.
  Lemma resolve_jp_other ls dst i : forall c, plain (c_fsm c) -> ~ In i ls -> jp (resolve c ls dst) i = jp c i.
  Proof.
    unfold resolve. induction ls as [|j ls IH]; intros c H Hi; [reflexivity|]. cbn [fold_left]. cbn in Hi.
    rewrite IH by (try tauto; apply set_fsm_plain; exact H). rewrite set_fsm_jp by exact H.
    destruct (Nat.eqb_spec j i); [tauto|apply app_nil_r].
  Qed.
  Lemma resolve_jp_in ls dst i : forall c, plain (c_fsm c) -> Forall (eq (dst, None, None)) (jp c i) ->
    (In i ls \/ jp c i <> []) -> jp (resolve c ls dst) i <> [] /\ Forall (eq (dst, None, None)) (jp (resolve c ls dst) i).
  Proof.
    unfold resolve. induction ls as [|j ls IH]; intros c H Hf Hi; [destruct Hi as [[]|Hi]; auto|]. cbn [fold_left].
    apply IH; [apply set_fsm_plain; exact H| |].
    - rewrite set_fsm_jp by exact H. apply Forall_app. split; [exact Hf|]. destruct (Nat.eqb j i); repeat constructor.
    - rewrite set_fsm_jp by exact H. destruct Hi as [[->|Hi]|Hi].
      + right. rewrite Nat.eqb_refl. destruct (jp c i); discriminate.
      + left. exact Hi.
      + right. destruct (jp c i); [congruence|discriminate].
  Qed.

  (** the return register *)
  Lemma ext_alloc_ret c : inv c -> c_ret c = None ->
    ext 0 [] true c (w_ret (w_tmp c (S (c_tmp c))) (Some (c_tmp c))).
  Proof.
    intros I E. split; auto.
    - destruct I as [P1 P2 P3 P4 P5 P6 P7 P8]. split; auto.
      + intros x r H. cbn. specialize (P5 x r H). lia.
      + intros r H. cbn in *. inversion H. lia.
      + intros r x H Hx. cbn in H. inversion H; subst. specialize (P5 x _ Hx). lia.
    - cbn. lia.
    - intros i st Hi Hin. change (In st (bd c i)) in Hin. rewrite (i_bd _ _ I i) in Hin by lia. destruct Hin.
    - intros r H. congruence.
    - intros r H. cbn in H. inversion H; subst. right. split; [lia|reflexivity].
  Qed.

  (** several bindings in the current state *)
  Definition bind_stmts (rs : list nat) (vs : list cv) : list stmt :=
    map (fun p => SSub (LVar (User (fst p))) (opt (cve (snd p)))) (combine rs vs).

  Lemma assigns_spec A rt c0 (l : list (name * cv)) : forall c k, k <= 1 -> ext k A rt c0 c -> incl (map fst l) A ->
    let c' := assigns opt c l in
    ext 1 A rt c0 c' /\ cur c' = cur c /\ c_ret c' = c_ret c /\ c_own c' = c_own c /\ c_sub c' = c_sub c /\
    (forall i, jp c' i = jp c i) /\ (forall y r, lookup c y = Some r -> lookup c' y = Some r) /\
    exists rs, Forall2 (fun p r => lookup c' (fst p) = Some r) l rs /\
      (forall i, bd c' i = bd c i ++ (if Nat.eqb (cur c) i then bind_stmts rs (map snd l) else [])).
  Proof.
    unfold assigns. induction l as [|[x v] l IH]; intros c k Hk X HA; cbn zeta.
    - cbn [fold_left]. split; [destruct k as [|[|]]; [apply ext_weak; exact X|exact X|lia]|].
      repeat split; auto. exists []. split; [constructor|]. intros i. cbn. destruct (Nat.eqb _ _); rewrite app_nil_r; reflexivity.
    - cbn [fold_left fst snd]. destruct (get_store c x) as [c1 r] eqn:E.
      assert (Ea : assign1 opt c x v = set_bind opt c1 r v) by (unfold assign1; rewrite E; reflexivity). rewrite Ea.
      assert (Hx : In x A) by (apply HA; left; reflexivity).
      pose proof (ext_store _ _ _ _ _ _ _ _ X Hx E) as X1.
      destruct (get_store_fields c x c1 r E) as (F1 & F2 & F3 & F4 & F5 & F6).
      pose proof (get_store_new c x c1 r E) as Hn.
      assert (X2 : ext 1 A rt c0 (set_bind opt c1 r v)).
      { eapply ext_bind; [exact Hk|exact X1|]. right. left. exists x. split; assumption. }
      destruct (IH (set_bind opt c1 r v) 1 (le_n _) X2) as (R1 & R2 & R3 & R4 & R5 & R6 & R7 & rs & R8 & R9).
      { intros y Hy. apply HA. right. exact Hy. }
      assert (Ec : cur (set_bind opt c1 r v) = cur c) by (unfold cur; cbn; rewrite F1; reflexivity).
      split; [exact R1|]. split; [rewrite R2; exact Ec|]. split; [rewrite R3; exact F2|]. split; [rewrite R4; exact F3|].
      split; [rewrite R5; exact F4|]. split.
      { intros i. rewrite R6, set_bind_jp. unfold jp. rewrite F1. reflexivity. }
      split; [intros y r' Hy; apply R7, F6, Hy|].
      exists (r :: rs). split.
      + constructor; [|exact R8]. cbn. apply R7. exact Hn.
      + intros i. rewrite R9, set_bind_bd, Ec, <- app_assoc. unfold bd at 1. rewrite F1.
        assert (Ec1 : cur c1 = cur c) by (unfold cur; rewrite F1; reflexivity). rewrite Ec1.
        fold (bd c i). f_equal. destruct (Nat.eqb (cur c) i); reflexivity.
  Qed.
End WithOpt.
