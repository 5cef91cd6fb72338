(** Proof infrastructure for the thread compiler: views of the builder, the machine's steps,
    static facts about a compiled fragment. *)
From Verif Require Import Base Vlog Seq_Model Fsm_Model Fsm_Proofs Py_Spec Comp_Model Bv_Sem.
Open Scope Z_scope.

(** ** Views *)
Definition body_at (b : fsmb) (i : nat) : list stmt :=
  flat_map (fun p => if Nat.eqb (fst p) i then item_stmts (snd p) else []) (f_body b).
Definition jumps_at (b : fsmb) (i : nat) : list (nat * option expr * option nat) :=
  map snd (filter (fun p => Nat.eqb (fst p) i) (f_jump b)).
Definition bd c := body_at (c_fsm c).
Definition jp c := jumps_at (c_fsm c).

Record plain (b : fsmb) : Prop := mkPlain {
  pl_next : f_next b = kw_empty; pl_del : f_delayed b = []; pl_amt : f_delay_amount b = O;
  pl_seq : f_seq b = seq_new }.

Lemma plain_new : plain fsm_new.
Proof. split; reflexivity. Qed.

Section Ops.
  Variable opt : expr -> expr.
  Notation set_bind := (set_bind opt).

  Lemma set_bind_fields c r v :
    cur (set_bind c r v) = cur c /\ c_tmp (set_bind c r v) = c_tmp c /\ c_vars (set_bind c r v) = c_vars c /\
    c_ret (set_bind c r v) = c_ret c /\ c_own (set_bind c r v) = c_own c /\ c_sub (set_bind c r v) = c_sub c.
  Proof. repeat split. Qed.
  Lemma set_bind_plain c r v : plain (c_fsm c) -> plain (c_fsm (set_bind c r v)).
  Proof. intros [A B C D]. split; assumption. Qed.
  Lemma set_bind_jp c r v i : jp (set_bind c r v) i = jp c i.
  Proof. reflexivity. Qed.
  Lemma set_bind_bd c r v i : bd (set_bind c r v) i =
    bd c i ++ (if Nat.eqb (cur c) i then [SSub (LVar (User r)) (opt (cve v))] else []).
  Proof.
    assert (E : f_body (c_fsm (set_bind c r v)) =
      f_body (c_fsm c) ++ [(f_count (c_fsm c), IPlain (SSub (LVar (User r)) (opt (cve v))))]) by reflexivity.
    unfold bd, body_at. rewrite E, flat_map_app. cbn [flat_map fst snd item_stmts].
    unfold cur. destruct (Nat.eqb _ _); rewrite ?app_nil_r; reflexivity.
  Qed.

  Lemma set_fsm_fields c a b x y :
    cur (set_fsm c a b x y) = cur c /\ c_tmp (set_fsm c a b x y) = c_tmp c /\ c_vars (set_fsm c a b x y) = c_vars c /\
    c_ret (set_fsm c a b x y) = c_ret c /\ c_own (set_fsm c a b x y) = c_own c /\ c_sub (set_fsm c a b x y) = c_sub c.
  Proof. repeat split. Qed.
  Lemma set_fsm_plain c a b x y : plain (c_fsm c) -> plain (c_fsm (set_fsm c a b x y)).
  Proof. intros [A B C D]. split; try assumption. reflexivity. Qed.
  Lemma set_fsm_bd c a b x y i : bd (set_fsm c a b x y) i = bd c i.
  Proof. reflexivity. Qed.
  Lemma set_fsm_jp c a b x y i : plain (c_fsm c) -> jp (set_fsm c a b x y) i =
    jp c i ++ (if Nat.eqb a i then [(b, x, y)] else []).
  Proof.
    intros [A _ _ _]. unfold jp, jumps_at, set_fsm, fop_goto_from, add_jump. cbn [c_fsm w_fsm f_jump g_jump clear_next g_next_index g_next].
    unfold pick_cond. rewrite A. cbn [kw_cond kw_empty]. rewrite filter_app, map_app. f_equal. cbn [filter fst].
    destruct (Nat.eqb a i); [|reflexivity]. destruct x; reflexivity.
  Qed.

  Lemma inc_cur c : cur (inc c) = S (cur c).
  Proof. reflexivity. Qed.
  Lemma inc_plain c : plain (c_fsm c) -> plain (c_fsm (inc c)).
  Proof. intros [A B C D]. split; try assumption. reflexivity. Qed.
  Lemma inc_bd c i : bd (inc c) i = bd c i.
  Proof. reflexivity. Qed.
  Lemma inc_jp c i : jp (inc c) i = jp c i.
  Proof. reflexivity. Qed.
End Ops.

(** ** Machine steps *)
Section Mach.
  Variable w : mode.
  Variable fit : var -> Z -> Z.
  Variable B : fsmb.
  Hypothesis Bp : plain B.
  Definition mstep (s : env) : env := tick fit (make_case B) s.
  Definition at_ (s : env) (i : nat) : Prop := s FState = Z.of_nat i.

  Lemma sorted_in l i : In i (sorted_indexes l) <-> In i l.
  Proof.
    unfold sorted_indexes. rewrite filter_In, in_seq, existsb_exists. split.
    - intros [_ [x [Hx E]]]. apply Nat.eqb_eq in E. subst. exact Hx.
    - intros H. split; [|exists i; split; [exact H|apply Nat.eqb_refl]].
      pose proof (list_max_le l (list_max l)) as [M _]. specialize (M (le_n _)). rewrite Forall_forall in M. specialize (M i H). lia.
  Qed.

  Lemma step_code s i : at_ s i ->
    mstep s = execs fit s (execs fit s s (body_at B i)) (map state_assign (jumps_at B i)).
  Proof.
    intros Hi. destruct Bp as [P1 P2 P3 P4]. unfold mstep, tick, make_case. rewrite P4.
    unfold delayed_substs, delays. rewrite P2, P3.
    assert (Ec : make_code seq_new = []) by reflexivity. rewrite Ec.
    change (map (fun d => SSub (LVar (DState (S d))) (EVar (delayed_var d))) (seq 0 0)) with (@nil stmt).
    change (sorted_indexes (map (fun p : nat * nat * stmt => fst (fst p)) [])) with (@nil nat).
    cbn [rev map app].
    assert (Es : state_code B i = body_at B i ++ map state_assign (jumps_at B i)).
    { unfold state_code, body_at, jumps_at. rewrite map_map. reflexivity. }
    rewrite <- execs_app, <- Es.
    destruct (in_dec Nat.eq_dec i (indexes B)) as [Hin|Hin].
    - destruct (indexes B) as [|a l] eqn:El; [destruct Hin|]. rewrite <- El in *.
      pose proof (case_pick fit s s FState (state_code B) (indexes B) i Hin Hi) as Hc. rewrite El in Hc. exact Hc.
    - assert (E0 : state_code B i = []).
      { unfold indexes in Hin. rewrite sorted_in, in_app_iff in Hin. unfold state_code.
        assert (E1 : flat_map (fun p : nat * item => if Nat.eqb (fst p) i then item_stmts (snd p) else []) (f_body B) = []).
        { assert (Hn : ~ In i (map fst (f_body B))) by tauto. revert Hn. generalize (f_body B).
          induction l as [|[k it] l IH]; intros Hn; [reflexivity|]. cbn [flat_map fst snd map In] in *.
          destruct (Nat.eqb k i) eqn:Ek; [exfalso; apply Hn; left; apply Nat.eqb_eq; exact Ek|]. apply IH. tauto. }
        assert (E2 : filter (fun p : nat * (nat * option expr * option nat) => Nat.eqb (fst p) i) (f_jump B) = []).
        { assert (Hn : ~ In i (map fst (f_jump B))) by tauto. revert Hn. generalize (f_jump B).
          induction l as [|[k it] l IH]; intros Hn; [reflexivity|]. cbn [filter fst snd map In] in *.
          destruct (Nat.eqb k i) eqn:Ek; [exfalso; apply Hn; left; apply Nat.eqb_eq; exact Ek|]. apply IH. tauto. }
        rewrite E1, E2. reflexivity. }
      rewrite E0. destruct (indexes B) as [|a l] eqn:El; [reflexivity|]. rewrite <- El in *.
      assert (Hc : exec fit s s (SCase (EVar FState) (map (fun i => (Z.of_nat i, state_code B i)) (indexes B))) = s);
        [|rewrite El in Hc; exact Hc].
      apply case_none. intros k body Hk Hz. apply in_map_iff in Hk. destruct Hk as (j & Ej & Hj'). inversion Ej as [[Ek Eb]].
      cbn [eval] in Hz. apply Hin. unfold at_ in Hi. assert (i = j) by lia. subst j. exact Hj'.
  Qed.

  (** Assignments of user registers, then jumps. *)
  Definition user_only (l : list stmt) : Prop := Forall (fun s => exists r e, s = SSub (LVar (User r)) e) l.

  Lemma user_only_state s nxt l : user_only l -> execs fit s nxt l FState = nxt FState.
  Proof.
    intros H. apply execs_frame. intros Hin. apply in_flat_map in Hin. destruct Hin as [st [Hs Hw]].
    unfold user_only in H. rewrite Forall_forall in H. destruct (H st Hs) as (r & e & ->). cbn in Hw. destruct Hw as [Hw|[]]. discriminate.
  Qed.
  Lemma jumps_user s nxt js r : execs fit s nxt (map state_assign js) (User r) = nxt (User r).
  Proof.
    apply execs_frame. intros Hin. apply in_flat_map in Hin. destruct Hin as [st [Hs Hw]].
    apply in_map_iff in Hs. destruct Hs as [[[d c] e] [<- _]].
    destruct c; cbn in Hw; [|destruct Hw as [Hw|[]]; discriminate].
    destruct e; cbn in Hw; intuition discriminate.
  Qed.
  Lemma step_user s i r : at_ s i -> mstep s (User r) = execs fit s s (body_at B i) (User r).
  Proof. intros H. rewrite (step_code s i H). apply jumps_user. Qed.

  Lemma step_state s i j : at_ s i -> user_only (body_at B i) -> jumps_at B i = [j] ->
    mstep s FState = execs fit s s [state_assign j] FState.
  Proof.
    intros H Hu Hj. rewrite (step_code s i H), Hj. cbn [map].
    assert (G : forall n1 n2 : env, n1 FState = n2 FState ->
      execs fit s n1 [state_assign j] FState = execs fit s n2 [state_assign j] FState).
    { intros n1 n2 En. destruct j as [[d c] e]. unfold execs. cbn [fold_left state_assign].
      destruct c as [c|]; cbn [exec].
      - destruct (truth (eval s c)); cbn [fold_left exec assign]; [rewrite !vset_same; reflexivity|].
        destruct e; cbn [fold_left exec assign]; [rewrite !vset_same; reflexivity|exact En].
      - cbn [assign]. rewrite !vset_same. reflexivity. }
    apply G. apply user_only_state. exact Hu.
  Qed.
  Lemma step_goto s i d : at_ s i -> user_only (body_at B i) ->
    jumps_at B i <> [] -> Forall (eq (d, None, None)) (jumps_at B i) -> fit FState (Z.of_nat d) = Z.of_nat d ->
    at_ (mstep s) d.
  Proof.
    intros H Hu Hne Hall Hf. unfold at_. rewrite (step_code s i H).
    destruct (jumps_at B i) as [|j js] using rev_ind; [congruence|]. apply Forall_app in Hall. destruct Hall as [_ Hl].
    pose proof (Forall_inv Hl) as Ej. subst. rewrite map_app, execs_app. unfold execs at 1. cbn [map fold_left state_assign exec assign].
    rewrite vset_same. cbn [eval]. exact Hf.
  Qed.
  Lemma step_branch s i c d e : at_ s i -> user_only (body_at B i) -> jumps_at B i = [(d, Some c, Some e)] ->
    fit FState (Z.of_nat d) = Z.of_nat d -> fit FState (Z.of_nat e) = Z.of_nat e ->
    at_ (mstep s) (if truth (eval s c) then d else e).
  Proof.
    intros H Hu Hj Hd He. unfold at_. rewrite (step_state s i _ H Hu Hj). unfold execs. cbn [fold_left state_assign]. rewrite exec_if.
    destruct (truth (eval s c)); unfold execs; cbn [fold_left exec assign eval]; rewrite vset_same; assumption.
  Qed.

  Fixpoint run (k : nat) (s : env) : env := match k with O => s | S k => run k (mstep s) end.
  Lemma run_add a b s : run (a + b) s = run b (run a s).
  Proof. revert s. induction a; intros s; cbn [Nat.add run]; auto. Qed.

  (** where widths matter: the assignments and tests of state [i] give in bits what they give over the
      integers *)
  Definition okst (s : env) (i : nat) : Prop := mtight w = true ->
    (forall r e, In (SSub (LVar (User r)) e) (body_at B i) -> forall j, bassigned w s j (User r) e = fit (User r) (eval s e)) /\
    (forall d c f, In (d, Some c, f) (jumps_at B i) -> forall j, btruth w s j c = truth (eval s c)).
  (** [reach p q k s s']: [k] steps from [s] to [s'], all taken in states of [p..q-1]. *)
  Inductive reach (p q : nat) : nat -> env -> env -> Prop :=
  | r_0 s : reach p q 0 s s
  | r_S k s s' i : (p <= i < q)%nat -> at_ s i -> okst s i -> reach p q k (mstep s) s' -> reach p q (S k) s s'.

  Lemma reach_app p q k1 k2 s1 s2 s3 : reach p q k1 s1 s2 -> reach p q k2 s2 s3 -> reach p q (k1 + k2) s1 s3.
  Proof. induction 1; intros G; [exact G|]. cbn. econstructor; eauto. Qed.
  Lemma reach_mono p q p' q' k s s' : (p' <= p)%nat -> (q <= q')%nat -> reach p q k s s' -> reach p' q' k s s'.
  Proof. intros H1 H2. induction 1; [constructor|]. econstructor; eauto. lia. Qed.
  Lemma reach_run p q k s s' : reach p q k s s' -> s' = run k s.
  Proof. induction 1; [reflexivity|]. exact IHreach. Qed.
  Lemma reach_one p q i s : (p <= i < q)%nat -> at_ s i -> okst s i -> reach p q 1 s (mstep s).
  Proof. intros H1 H2 H3. econstructor; eauto. constructor. Qed.

  (** within [K] steps the machine is outside [p..q-1] *)
  Definition outside (p q : nat) (s : env) : Prop := forall i, at_ s i -> ~ (p <= i < q)%nat.
  Definition leaves (p q K : nat) (s : env) : Prop := exists k, (k <= K)%nat /\ outside p q (run k s).
  Lemma leaves_mono p q p' q' K s : (p <= p')%nat -> (q' <= q)%nat -> leaves p q K s -> leaves p' q' K s.
  Proof. intros H1 H2 [k [Hk Ho]]. exists k. split; [exact Hk|]. intros i Hi Hr. apply (Ho i Hi). lia. Qed.
  Lemma reach_before p q k s s' : reach p q k s s' -> forall j, (j < k)%nat -> ~ outside p q (run j s).
  Proof.
    induction 1 as [|k s s' i Hi Ha Hk Hr IH]; intros j Hj; [lia|]. destruct j as [|j].
    - intros Ho. apply (Ho i Ha). exact Hi.
    - apply IH. lia.
  Qed.
  (** after a stretch inside the region there are fewer steps left *)
  Lemma leaves_after p q K k s s' : leaves p q K s -> reach p q k s s' -> (k <= K)%nat /\ leaves p q (K - k) s'.
  Proof.
    intros [j [Hj Ho]] Hr.
    assert (Hkj : (k <= j)%nat).
    { destruct (le_lt_dec k j) as [|Hlt]; [assumption|]. exfalso. exact (reach_before _ _ _ _ _ Hr j Hlt Ho). }
    split; [lia|]. exists (j - k)%nat. split; [lia|]. rewrite (reach_run _ _ _ _ _ Hr), <- run_add.
    replace (k + (j - k))%nat with j by lia. exact Ho.
  Qed.

  (** registers not assigned in the region keep their value *)
  Lemma reach_frame p q k s s' r : reach p q k s s' ->
    (forall i e, (p <= i < q)%nat -> ~ In (SSub (LVar (User r)) e) (body_at B i)) ->
    (forall i, (p <= i < q)%nat -> user_only (body_at B i)) ->
    s' (User r) = s (User r).
  Proof.
    intros H Hn Hu. induction H as [|k s s' i Hi Ha Hk Hr IH]; [reflexivity|].
    rewrite IH, (step_user s i r Ha). apply execs_frame. intros Hin. apply in_flat_map in Hin. destruct Hin as [st [Hs Hw]].
    specialize (Hu i Hi). unfold user_only in Hu. rewrite Forall_forall in Hu. destruct (Hu st Hs) as (r' & e & ->).
    cbn in Hw. destruct Hw as [Hw|[]]. inversion Hw; subst. exact (Hn i e Hi Hs).
  Qed.
End Mach.
