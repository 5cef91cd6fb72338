(** One clock of a thread's state machine in bits, where its state's assignments and tests agree with
    those over the integers. *)
From Verif Require Import Base Bits Vlog Seq_Model Fsm_Model Fsm_Proofs Py_Spec Comp_Model Bv_Sem Comp_Base.
From Verif Require Vx_Sem.
Open Scope Z_scope.

Section R.
  Variable w : mode.
  Variable fit : var -> Z -> Z.
  Hypothesis fit_state : forall z, fit FState z = z mod 2 ^ 32.

  Definition same (j : Z) (s : env) (st : stmt) : Prop := forall nxt, bexec w j s nxt st = exec fit s nxt st.
  Lemma same_list j s l : Forall (same j s) l -> forall nxt, bexecs w j s nxt l = execs fit s nxt l.
  Proof.
    unfold bexecs, execs. induction 1 as [|st l H _ IH]; intros nxt; [reflexivity|]. cbn [fold_left]. rewrite (H nxt). apply IH.
  Qed.
  Lemma same_if j s c t f : btruth w s j c = truth (eval s c) -> Forall (same j s) t -> Forall (same j s) f -> same j s (SIf c t f).
  Proof.
    intros Hc Ht Hf nxt. cbn [bexec exec]. rewrite Hc.
    destruct (truth (eval s c)); [exact (same_list j s t Ht nxt)|exact (same_list j s f Hf nxt)].
  Qed.
  Lemma same_user j s r e : bassigned w s j (User r) e = fit (User r) (eval s e) -> same j s (SSub (LVar (User r)) e).
  Proof. intros H nxt. cbn [bexec exec assign]. rewrite H. reflexivity. Qed.
  Lemma same_goto j s d : same j s (SSub (LVar FState) (EInt (Z.of_nat d))).
  Proof.
    intros nxt. cbn [bexec exec assign eval]. rewrite fit_state. f_equal. unfold bassigned.
    change (Vx_Sem.assigned (venv_of w s j) 32 (tx (EInt (Z.of_nat d)))) with (Vx_Sem.lit 32 32 true (Z.of_nat d) mod 2 ^ 32).
    unfold value. unfold Vx_Sem.lit. destruct (Z.ltb_spec (Z.of_nat d) 0); [lia|]. rewrite Z.mod_mod by lia.
    unfold value, uns. rewrite (sgn_mod 32) by lia. rewrite !Z.mod_mod by lia. reflexivity.
  Qed.
  Lemma number_state j s i : at_ s i -> Z.of_nat i < 2 ^ 32 -> Vx_Sem.number (venv_of w s j) (tx (EVar FState)) = Z.of_nat i.
  Proof.
    intros Hs Hi. change (Vx_Sem.number (venv_of w s j) (tx (EVar FState))) with (value 32 false (value 32 false (s FState) mod 2 ^ 32)).
    unfold value, uns. rewrite Hs, !Z.mod_mod by lia. apply Z.mod_small. lia.
  Qed.
  Lemma bcase_pick j s nxt (body : nat -> list stmt) l i : at_ s i -> Z.of_nat i < 2 ^ 32 -> In i l ->
    bexec w j s nxt (SCase (EVar FState) (map (fun i => (Z.of_nat i, body i)) l)) = bexecs w j s nxt (body i).
  Proof.
    intros Hs Hi Hin. pose proof (number_state j s i Hs Hi) as Hv. cbn [bexec]. induction l as [|k l IH]; [destruct Hin|]. cbn [map]. rewrite Hv.
    destruct (Z.eqb_spec (Z.of_nat i) (Z.of_nat k)) as [E|E].
    - assert (i = k) by lia. subst. reflexivity.
    - destruct Hin as [->|Hin]; [lia|]. specialize (IH Hin). rewrite Hv in IH. exact IH.
  Qed.
  Lemma bcase_none j s nxt ws i : at_ s i -> Z.of_nat i < 2 ^ 32 -> (forall k b, In (k, b) ws -> Z.of_nat i <> k) ->
    bexec w j s nxt (SCase (EVar FState) ws) = nxt.
  Proof.
    intros Hs Hi. pose proof (number_state j s i Hs Hi) as Hv. cbn [bexec]. induction ws as [|[k b] ws IH]; intros H; [reflexivity|]. rewrite Hv.
    destruct (Z.eqb_spec (Z.of_nat i) k) as [E|E]; [exfalso; exact (H k b (or_introl eq_refl) E)|].
    rewrite Hv in IH. apply IH. intros k' b' Hin. apply (H k' b'). right. exact Hin.
  Qed.

  Lemma bstep_code B j s i : plain B -> at_ s i -> Z.of_nat i < 2 ^ 32 ->
    bstep w j B s = bexecs w j s s (body_at B i ++ map state_assign (jumps_at B i)).
  Proof.
    intros Bp Hi Hlt. destruct Bp as [P1 P2 P3 P4]. unfold bstep, make_case. rewrite P4.
    unfold delayed_substs, delays. rewrite P2, P3.
    assert (Ec : make_code seq_new = []) by reflexivity. rewrite Ec.
    change (map (fun d => SSub (LVar (DState (S d))) (EVar (delayed_var d))) (seq 0 0)) with (@nil stmt).
    change (sorted_indexes (map (fun p : nat * nat * stmt => fst (fst p)) [])) with (@nil nat).
    cbn [rev map app].
    assert (Es : state_code B i = body_at B i ++ map state_assign (jumps_at B i)).
    { unfold state_code, body_at, jumps_at. rewrite map_map. reflexivity. }
    rewrite <- Es.
    destruct (in_dec Nat.eq_dec i (indexes B)) as [Hin|Hin].
    - destruct (indexes B) as [|a l] eqn:El; [destruct Hin|]. rewrite <- El in *.
      pose proof (bcase_pick j s s (state_code B) (indexes B) i Hi Hlt Hin) as Hc. rewrite El in Hc. exact Hc.
    - assert (E0 : state_code B i = []).
      { unfold indexes in Hin. rewrite sorted_in, in_app_iff in Hin. unfold state_code.
        assert (E1 : flat_map (fun p : nat * item => if Nat.eqb (fst p) i then item_stmts (snd p) else []) (f_body B) = []).
        { assert (Hn : ~ In i (map fst (f_body B))) by tauto. revert Hn. generalize (f_body B).
          induction l as [|[k it] l IH]; intros Hn; [reflexivity|]. cbn [flat_map fst snd map In] in *.
          destruct (Nat.eqb k i) eqn:Ek; [exfalso; apply Hn; left; apply Nat.eqb_eq; exact Ek|]. apply IH. tauto. }
        assert (E2 : filter (fun p : nat * (nat * option expr * option nat) => Nat.eqb (fst p) i) (f_jump B) = []).
        { assert (Hn : ~ In i (map fst (f_jump B))) by tauto. revert Hn. generalize (f_jump B).
          induction l as [|[k it] l IH]; intros Hn; [reflexivity|]. cbn [filter fst snd map In] in *.
          destruct (Nat.eqb k i) eqn:Ek; [exfalso; apply Hn; left; apply Nat.eqb_eq; exact Ek|]. apply IH. tauto. }
        rewrite E1, E2. reflexivity. }
      rewrite E0. destruct (indexes B) as [|a l] eqn:El; [reflexivity|]. rewrite <- El in *.
      assert (Hc : bexec w j s s (SCase (EVar FState) (map (fun i => (Z.of_nat i, state_code B i)) (indexes B))) = s);
        [|rewrite El in Hc; exact Hc].
      apply (bcase_none j s s _ i Hi Hlt). intros k body Hk Hz. apply in_map_iff in Hk. destruct Hk as (q & Ej & Hj'). inversion Ej as [[Ek Eb]].
      apply Hin. assert (i = q) by lia. subst q. exact Hj'.
  Qed.

  Lemma bstep_same B j s i : plain B -> at_ s i -> Z.of_nat i < 2 ^ 32 -> user_only (body_at B i) -> mtight w = true -> okst w fit B s i ->
    bstep w j B s = mstep fit B s.
  Proof.
    intros Bp Hs Hlt Hu Q Ok. destruct (Ok Q) as [O1 O2]. rewrite (bstep_code B j s i Bp Hs Hlt), (step_code fit B Bp s i Hs), <- execs_app.
    apply same_list. apply Forall_app. split; apply Forall_forall.
    - intros st Hin. unfold user_only in Hu. rewrite Forall_forall in Hu. destruct (Hu st Hin) as (r & e & ->).
      apply same_user. apply (O1 r e Hin).
    - intros st Hin. apply in_map_iff in Hin. destruct Hin as ([[d c] e] & <- & Hin). unfold state_assign. destruct c as [c|].
      + apply same_if; [exact (O2 d c e Hin j)|constructor; [apply same_goto|constructor]|].
        destruct e; [constructor; [apply same_goto|constructor]|constructor].
      + apply same_goto.
  Qed.

  Lemma reach_brun B p q k s s' : plain B -> Z.of_nat q <= 2 ^ 32 -> (forall i, user_only (body_at B i)) -> mtight w = true ->
    reach w fit B p q k s s' -> forall j, brun w j B k s = s'.
  Proof.
    intros Bp Hq Hu Q R. induction R as [|k s s' i Hi Ha Hk Hr IH]; intros j; [reflexivity|]. cbn [brun].
    rewrite (bstep_same B (j O) s i Bp Ha ltac:(lia) (Hu i) Q Hk). apply IH.
  Qed.
  Lemma brun_add B a b : forall j s, brun w j B (a + b) s = brun w (fun n => j (a + n)%nat) B b (brun w j B a s).
  Proof. induction a as [|a IH]; intros j s; [reflexivity|]. cbn [Nat.add brun]. rewrite IH. reflexivity. Qed.
  Lemma bstays B i s : plain B -> at_ s i -> Z.of_nat i < 2 ^ 32 -> jumps_at B i = [] -> body_at B i = [] -> forall k j, brun w j B k s = s.
  Proof.
    intros P Hs Hlt Hj Hb. assert (E : forall j, bstep w j B s = s).
    { intros j. rewrite (bstep_code B j s i P Hs Hlt), Hj, Hb. reflexivity. }
    induction k as [|k IH]; intros j; cbn [brun]; [reflexivity|]. rewrite E. apply IH.
  Qed.
End R.
