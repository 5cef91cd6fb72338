(** Prev (C09) and reset (C10). *)
From Verif Require Import Base Vlog Seq_Model Seq_Spec Seq_Proofs SeqAny_Proofs.
From Coq Require Import Permutation.
Open Scope Z_scope.

(** ** Traces *)
Section Trace.
  Variable fit : var -> Z -> Z.
  Variable code : list stmt.

  Lemma trace_first s ins e v : nth_error (code_trace fit code s ins) 0 = Some e -> ~ is_user v -> e v = s v.
  Proof.
    destruct ins as [|i ins]; cbn; [discriminate|]. intros H Hv. inversion H; subst.
    destruct v; try reflexivity; contradiction Hv; exact I.
  Qed.
  Lemma trace_next t : forall s ins e e' v, nth_error (code_trace fit code s ins) t = Some e ->
    nth_error (code_trace fit code s ins) (S t) = Some e' -> ~ is_user v -> e' v = tick fit code e v.
  Proof.
    induction t as [|t IH]; intros s ins e e' v H1 H2 Hv.
    - destruct ins as [|i ins]; [discriminate|]. cbn [code_trace nth_error] in *. inversion H1; subst.
      eapply trace_first; eauto.
    - destruct ins as [|i ins]; [discriminate|]. cbn [code_trace nth_error] in H1. eapply IH; eauto.
  Qed.
  Lemma trace_prefix s ins t e' : nth_error (code_trace fit code s ins) (S t) = Some e' ->
    exists e, nth_error (code_trace fit code s ins) t = Some e.
  Proof.
    intros H. destruct (nth_error (code_trace fit code s ins) t) eqn:E; [eauto|].
    apply nth_error_None in E. assert (S t < length (code_trace fit code s ins))%nat by (apply nth_error_Some; congruence). lia.
  Qed.
End Trace.

Lemma exec_gen_if fit code old g c src f : NoDup (gens code) -> ~ is_user g ->
  In (SIf c [SSub (LVar g) src] f) code ->
  tick fit code old g = if truth (eval old c) then fit g (eval old src) else old g.
Proof.
  intros Hn Hg Hi. apply in_split in Hi. destruct Hi as [a [d ->]].
  assert (Egs : gens [SIf c [SSub (LVar g) src] f] = g :: gens f).
  { unfold gens. cbn [flat_map writes app lhs_var]. rewrite app_nil_r. cbn [filter].
    destruct (is_userb g) eqn:E; [|reflexivity]. exfalso. apply Hg, is_userb_spec. exact E. }
  change (SIf c [SSub (LVar g) src] f :: d) with ([SIf c [SSub (LVar g) src] f] ++ d) in Hn.
  rewrite !gens_app, Egs in Hn. cbn [app] in Hn.
  apply NoDup_remove_2 in Hn. rewrite !in_app_iff in Hn.
  assert (F : forall ss, ~ In g (gens ss) -> ~ In g (flat_map writes ss)).
  { intros ss H1 H2. apply H1, in_gens. auto. }
  unfold tick. rewrite execs_app, execs_cons. rewrite execs_frame by (apply F; tauto).
  rewrite exec_if. destruct (truth (eval old c)).
  - cbn. apply vset_same.
  - rewrite execs_frame by (apply F; tauto). apply execs_frame, F. tauto.
Qed.

(** ** Unconditional Prev *)
Lemma prev_entry b n i : W b -> In (n, i) (map fst (s_prev b)) ->
  (1 <= i)%nat /\ plain_in b (SSub (LVar (PrevR n i)) (prev_src n i)) /\
  ((2 <= i)%nat -> In (n, (i - 1)%nat) (map fst (s_prev b))).
Proof.
  intros [_ Hp] Hi. apply in_map_iff in Hi. destruct Hi as [[[n' i'] e] [H1 H2]]. cbn in H1. inversion H1; subst.
  destruct (Hp _ _ _ H2) as (A & _ & B & C). auto.
Qed.

(** every register recorded so far for Prev(User n) has initial value [iv] *)
Definition prev_inits (b : seqb) (n : nat) (iv : Z) : Prop := forall i z, In (PrevR n i, z) (s_inits b) -> z = iv.

Lemma inits_reg_chain rg n : (forall j, match rg j with PrevR _ _ => False | _ => True end) ->
  forall i p b b' q, reg_chain rg n i p b = (b', q) ->
  forall m k z, In (PrevR m k, z) (s_inits b') -> In (PrevR m k, z) (s_inits b).
Proof.
  intros Hr. induction n as [|n IH]; intros i p b b' q E m k z H; cbn [reg_chain] in E.
  - inversion E; subst. exact H.
  - apply (IH _ _ _ _ _ E) in H. cbn [w_inits s_inits] in H. apply in_app_iff in H.
    destruct H as [H|[H|[]]]; [destruct i; exact H|]. exfalso. specialize (Hr (S i)). inversion H as [[H1 H2]]. rewrite H1 in Hr. exact Hr.
Qed.
Lemma inits_cond b c d b' q m k z : add_delayed_cond b c d = (b', q) -> In (PrevR m k, z) (s_inits b') -> In (PrevR m k, z) (s_inits b).
Proof.
  unfold add_delayed_cond. rewrite cond_chain_reg. intros E H.
  exact (inits_reg_chain (CondR (s_tmp b)) d (fun _ => I) _ _ _ _ _ E m k z H).
Qed.
Lemma inits_substs ss m k z : forall b d b' ss', add_delayed_substs b ss d = (b', ss') -> In (PrevR m k, z) (s_inits b') -> In (PrevR m k, z) (s_inits b).
Proof.
  induction ss as [|s ss IH]; intros b d b' ss' E H; cbn [add_delayed_substs] in E; [inversion E; subst; exact H|].
  destruct (add_delayed_subst b s d) as [b1 s1] eqn:E1. destruct (add_delayed_substs b1 ss d) as [b2 ss2] eqn:E2.
  inversion E; subst. apply (IH _ _ _ _ E2) in H. unfold add_delayed_subst in E1.
  destruct s as [l e|? ? ?|? ?]; [|inversion E1; subst; exact H|inversion E1; subst; exact H].
  destruct (is_const e); [inversion E1; subst; exact H|]. rewrite val_chain_reg in E1.
  destruct (reg_chain _ _ _ _ _) as [b3 q] eqn:E3. inversion E1; subst.
  refine (inits_reg_chain (sbst_reg l (s_tmp b)) d _ _ _ _ _ _ E3 m k z H).
  intros j. destruct l as [v|? ?|? ? ?]; cbn; auto. destruct v; exact I.
Qed.
Lemma inits_add1 b ss d c lz eg m k z : In (PrevR m k, z) (s_inits (add_statement1 b ss d c lz eg)) -> In (PrevR m k, z) (s_inits b).
Proof.
  destruct d as [|d]; cbn [add_statement1].
  - destruct c; intros H; exact H.
  - destruct (if eg then add_delayed_substs b ss (S d) else (b, ss)) as [b1 ss1] eqn:E1.
    match goal with |- context [let '(b2, c1) := ?x in _] => destruct x as [b2 c1] eqn:E2 end.
    intros H. change (s_inits (push_plain b2 (S d) [SIf c1 ss1 []])) with (s_inits b2) in H.
    assert (H1 : In (PrevR m k, z) (s_inits b1)).
    { destruct lz.
      - destruct (add_delayed_cond b1 (EInt 1) (S d)) eqn:E3. inversion E2; subst. eapply inits_cond; eauto.
      - eapply inits_cond; eauto. }
    destruct eg; [eapply inits_substs; eauto|inversion E1; subst; exact H1].
Qed.
Lemma inits_add b ss kk m k z : In (PrevR m k, z) (s_inits (add_statement b ss kk)) -> In (PrevR m k, z) (s_inits b).
Proof.
  unfold add_statement. destruct (kw_keep kk) as [n|]; [|apply inits_add1].
  revert b. induction (seq 0 n) as [|i l IH]; intros b H; [exact H|]. cbn [fold_left] in H.
  apply IH in H. eapply inits_add1; eauto.
Qed.
Lemma inits_call b ss b' m k z : op_call b ss = Some b' -> In (PrevR m k, z) (s_inits b') -> In (PrevR m k, z) (s_inits b).
Proof.
  intros E H. unfold op_call in E.
  set (b1 := w_next (w_last_kw b (s_next b)) kw_empty) in *.
  assert (Add : In (PrevR m k, z) (s_inits (add_statement (w_next_else (w_last_if b1 None) false) ss (s_next b))) -> In (PrevR m k, z) (s_inits b))
    by (intros H'; apply inits_add in H'; exact H').
  destruct (s_elif b1) as [ec|]; [destruct (has_args (s_next b))|];
  repeat match type of E with
  | (if ?x then _ else _) = _ => destruct x
  | match ?x with _ => _ end = _ => destruct x; try discriminate
  end; inversion E; subst; try (apply Add; exact H); exact H.
Qed.

Lemma prev_inits_op b n iv o b' : W b -> prev_inits b n iv -> op_iv n iv o -> do_op b o = Some b' -> prev_inits b' n iv.
Proof.
  intros Hw Hp Ho E.
  assert (Same : core' b' = core' b -> prev_inits b' n iv).
  { intros H i z Hin. apply (Hp i z). unfold core' in H. congruence. }
  destruct o as [cs| |cs|d|k| | |ss|n' d iv' c]; cbn [do_op] in E.
  - inversion E; subst. apply Same, op_if_core.
  - unfold op_else in E. apply Same. destruct (negate_last _) as [lc|]; [|discriminate].
    destruct (delayed_last _); [inversion E; subst; transitivity (core' (op_then (w_last_cond (w_elif b None) lc))); [reflexivity|rewrite op_then_core; reflexivity]|].
    destruct (s_last_if _); [|discriminate]. destruct (make_cond _); [|discriminate]. inversion E; reflexivity.
  - unfold op_elif in E. apply Same. destruct (negate_last _) as [lc|]; [|discriminate].
    destruct (make_condition cs) as [c|]; [|discriminate].
    destruct (delayed_last _); [inversion E; subst; transitivity (core' (op_then (w_last_cond b (lc ++ [c])))); [reflexivity|rewrite op_then_core; reflexivity]|].
    destruct (s_last_if _); [|discriminate]. destruct (make_cond _); [|discriminate]. inversion E; reflexivity.
  - inversion E; subst. apply Same; reflexivity.
  - inversion E; subst. apply Same; reflexivity.
  - inversion E; subst. apply Same; reflexivity.
  - inversion E; subst. apply Same; reflexivity.
  - intros i z Hin. apply (Hp i z). eapply inits_call; eauto.
  - inversion E as [E']. clear E. unfold op_prev. destruct d as [|d]; [exact Hp|].
    destruct (prev_lookup b n' (S d)); [exact Hp|]. destruct c as [c|].
    + destruct (prev_cond_chain c (S d) iv' (EVar (User n')) b) as [b2 q] eqn:E2.
      destruct (prev_cond_W c (S d) iv' (EVar (User n')) b b2 q Hw E2) as (_ & _ & _ & _ & _ & N).
      intros i z Hin. destruct (N _ _ Hin) as [H|[j H]]; [eauto|discriminate].
    + destruct (prev_chain n' (S d) 0 iv' (EVar (User n')) b) as [b2 q] eqn:E2.
      destruct (prev_chain_W n' (S d) 0 iv' (EVar (User n')) b b2 q Hw eq_refl ltac:(intros; lia) E2) as (_ & _ & _ & _ & N).
      intros i z Hin. destruct (N _ _ Hin) as [H|[-> [j H]]]; [eauto|]. inversion H; subst. apply Ho. reflexivity.
Qed.
Lemma prev_inits_ops os : forall b n iv b', W b -> Forall op_user os -> prev_inits b n iv -> Forall (op_iv n iv) os ->
  do_ops b os = Some b' -> prev_inits b' n iv.
Proof.
  induction os as [|o os IH]; intros b n iv b' Hw Hu Hp Ho E; cbn [do_ops] in E; [inversion E; subst; exact Hp|].
  destruct (do_op b o) as [b1|] eqn:E1; [|discriminate].
  eapply (IH b1).
  - apply (do_op_W b o b1 Hw (Forall_inv Hu) E1).
  - exact (Forall_inv_tail Hu).
  - eapply prev_inits_op; eauto. exact (Forall_inv Ho).
  - exact (Forall_inv_tail Ho).
  - exact E.
Qed.

(** the register chain as seen on a trace *)
Lemma prev_values fit b n iv s ins d :
  W b -> In (n, d) (map fst (s_prev b)) -> prev_inits b n iv ->
  (forall i x, fit (PrevR n i) x = fit (User n) x) ->
  fit (User n) iv = iv ->
  (forall v z, In (v, z) (s_inits b) -> s v = z) ->
  let tr := code_trace fit (make_code b) s ins in
  (forall e, In e tr -> fit (User n) (e (User n)) = e (User n)) ->
  forall t e, nth_error tr t = Some e ->
    e (PrevR n d) = if Nat.ltb t d then iv else match nth_error tr (t - d) with Some p => p (User n) | None => 0 end.
Proof.
  intros Hw Hd Hiv Hf Hfi Hs tr Hu.
  assert (All : forall t e, nth_error tr t = Some e -> forall i, In (n, i) (map fst (s_prev b)) ->
    e (PrevR n i) = if Nat.ltb t i then iv else match nth_error tr (t - i) with Some p => p (User n) | None => 0 end).
  { induction t as [|t IH]; intros e He i Hi; destruct (prev_entry b n i Hw Hi) as (H1 & H2 & H3).
    - replace (Nat.ltb 0 i) with true by (symmetry; apply Nat.ltb_lt; lia).
      rewrite (trace_first _ _ _ _ _ (PrevR n i) He) by auto.
      assert (Hg : In (PrevR n i) (gens (all_stmts b))).
      { apply in_gens. split; [|auto]. apply in_flat_map. exists (SSub (LVar (PrevR n i)) (prev_src n i)).
        split; [apply plain_in_all, H2|left; reflexivity]. }
      apply (w0_inits _ (proj1 Hw)) in Hg. apply in_map_iff in Hg. destruct Hg as [[v z] [Ev Hin]]. cbn in Ev; subst v.
      rewrite (Hs _ _ Hin). eapply Hiv; eauto.
    - destruct (trace_prefix _ _ _ _ _ _ He) as [e0 He0].
      rewrite (trace_next _ _ _ _ _ _ _ (PrevR n i) He0 He) by auto.
      unfold tick. rewrite (exec_gen fit (make_code b) e0 e0 (PrevR n i) (prev_src n i));
        [|apply code_nodup, (w0_g _ (proj1 Hw))|auto|apply plain_in_code; [apply (w0_g _ (proj1 Hw))|exact H2]].
      rewrite Hf. destruct i as [|[|i]]; [lia| |].
      + cbn [prev_src eval]. replace (Nat.ltb (S t) 1) with false by (symmetry; apply Nat.ltb_ge; lia).
        replace (S t - 1)%nat with t by lia. unfold tr in *. rewrite He0. apply Hu. eapply nth_error_In; eauto.
      + cbn [prev_src eval]. specialize (H3 ltac:(lia)). replace (S (S i) - 1)%nat with (S i) in H3 by lia.
        rewrite (IH e0 He0 (S i) H3). change (Nat.ltb (S t) (S (S i))) with (Nat.ltb t (S i)).
        destruct (Nat.ltb t (S i)) eqn:El; [exact Hfi|]. apply Nat.ltb_ge in El.
        replace (S t - S (S i))%nat with (t - S i)%nat by lia.
        destruct (nth_error tr (t - S i)) as [p|] eqn:Ep; [apply Hu; eapply nth_error_In; eauto|].
        apply nth_error_None in Ep. assert (t < length tr)%nat by (apply nth_error_Some; unfold tr in *; congruence). lia. }
  intros t e He. apply All; assumption.
Qed.

Theorem prev_ok fit os1 os2 n d iv b1 b2 q b3 s ins :
  Forall op_user os1 -> Forall op_user os2 -> Forall (op_iv n iv) os1 -> Forall (op_iv n iv) os2 ->
  do_ops seq_new os1 = Some b1 -> op_prev b1 n d iv None = (b2, q) -> do_ops b2 os2 = Some b3 ->
  (forall i x, fit (PrevR n i) x = fit (User n) x) -> fit (User n) iv = iv ->
  (forall v z, In (v, z) (s_inits b3) -> s v = z) ->
  (forall e, In e (code_trace fit (make_code b3) s ins) -> fit (User n) (e (User n)) = e (User n)) ->
  forall t, (t < length ins)%nat ->
    val_at (code_trace fit (make_code b3) s ins) t q =
      if Nat.ltb t d then Some iv else val_at (code_trace fit (make_code b3) s ins) (t - d) (EVar (User n)).
Proof.
  intros U1 U2 I1 I2 E1 Ep E2 Hf Hiv Hs Hu t Ht.
  destruct (do_ops_W os1 seq_new b1 W_new U1 E1) as [W1 _].
  assert (P1 : prev_inits b1 n iv) by (apply (prev_inits_ops os1 seq_new n iv b1 W_new U1); [intros i z []|exact I1|exact E1]).
  assert (Eo : do_op b1 (OPrev n d iv None) = Some b2) by (cbn; rewrite Ep; reflexivity).
  destruct (do_op_W b1 (OPrev n d iv None) b2 W1 Logic.I Eo) as [W2 _].
  assert (P2 : prev_inits b2 n iv) by (apply (prev_inits_op b1 n iv (OPrev n d iv None) b2 W1 P1); [cbn; auto|exact Eo]).
  destruct (do_ops_W os2 b2 b3 W2 U2 E2) as [W3 M3].
  assert (P3 : prev_inits b3 n iv) by (exact (prev_inits_ops os2 b2 n iv b3 W2 U2 P2 I2 E2)).
  assert (L : length (code_trace fit (make_code b3) s ins) = length ins)
    by (clear; revert s; induction ins as [|i ins IH]; intros s; cbn; [reflexivity|]; rewrite IH; reflexivity).
  destruct (nth_error (code_trace fit (make_code b3) s ins) t) as [e|] eqn:Ee; [|apply nth_error_None in Ee; lia].
  destruct d as [|d].
  - cbn in Ep. inversion Ep; subst. cbn [Nat.ltb Nat.leb]. replace (t - 0)%nat with t by lia. reflexivity.
  - assert (Hq : q = EVar (PrevR n (S d)) /\ In (n, S d) (map fst (s_prev b2))).
    { cbn [op_prev] in Ep. destruct (prev_lookup b1 n (S d)) as [q0|] eqn:El.
      - inversion Ep; subst. apply prev_lookup_in in El. destruct W1 as [_ Wp1]. destruct (Wp1 _ _ _ El) as (_ & -> & _).
        split; [reflexivity|]. apply in_map_iff. exists ((n, S d), EVar (PrevR n (S d))). auto.
      - destruct (prev_chain_W n (S d) 0 iv (EVar (User n)) b1 b2 q W1 eq_refl ltac:(intros; lia) Ep) as (_ & _ & Q & In2 & _).
        split; [exact Q|]. apply In2. lia. }
    destruct Hq as [-> Hin].
    assert (Hin3 : In (n, S d) (map fst (s_prev b3))).
    { destruct (m_prev _ _ M3) as [l ->]. rewrite map_app. apply in_or_app. auto. }
    unfold val_at. rewrite Ee. cbn [eval].
    rewrite (prev_values fit b3 n iv s ins (S d) W3 Hin3 P3 Hf Hiv Hs Hu t e Ee).
    destruct (Nat.ltb t (S d)) eqn:El; [reflexivity|]. apply Nat.ltb_ge in El.
    destruct (nth_error _ (t - S d)) eqn:En; [reflexivity|]. apply nth_error_None in En. lia.
Qed.

(** ** Conditional Prev *)
Theorem prev_cond_ok fit os1 os2 n d iv c b1 b2 q b3 s ins :
  Forall op_user os1 -> Forall op_user os2 ->
  do_ops seq_new os1 = Some b1 -> prev_lookup b1 n (S d) = None ->
  op_prev b1 n (S d) iv (Some c) = (b2, q) -> do_ops b2 os2 = Some b3 ->
  (forall k x, (s_mod_tmp b1 <= k <= s_mod_tmp b1 + d)%nat -> fit (TmpR k) x = fit (User n) x) -> fit (User n) iv = iv ->
  (forall v z, In (v, z) (s_inits b3) -> s v = z) ->
  (forall e, In e (code_trace fit (make_code b3) s ins) -> fit (User n) (e (User n)) = e (User n)) ->
  forall t, (t < length ins)%nat ->
    val_at (code_trace fit (make_code b3) s ins) t q =
      Some (match nth_error (enabled_past (code_trace fit (make_code b3) s ins) c t) d with
            | Some p => p (User n) | None => iv end).
Proof.
  intros U1 U2 E1 El Ep E2 Hf Hiv Hs Hu t Ht.
  destruct (do_ops_W os1 seq_new b1 W_new U1 E1) as [W1 _].
  cbn [op_prev] in Ep. rewrite El in Ep.
  destruct (prev_cond_W c (S d) iv (EVar (User n)) b1 b2 q W1 Ep) as (W2 & _ & _ & Q & C & _).
  destruct (do_ops_W os2 b2 b3 W2 U2 E2) as [W3 M3].
  set (k0 := s_mod_tmp b1) in *. set (tr := code_trace fit (make_code b3) s ins) in *.
  assert (L : length tr = length ins)
    by (unfold tr; clear; revert s; induction ins as [|i ins IH]; intros s; cbn; [reflexivity|]; rewrite IH; reflexivity).
  assert (All : forall t e, nth_error tr t = Some e -> forall j, (j <= d)%nat ->
    e (TmpR (k0 + j)) = match nth_error (enabled_past tr c t) j with Some p => p (User n) | None => iv end /\
    forall p, In p (enabled_past tr c t) -> In p tr).
  { clear t Ht. induction t as [|t IH]; intros e He j Hj; destruct (C j ltac:(lia)) as [C1 C2].
    - split; [|intros p []]. rewrite (trace_first _ _ _ _ _ (TmpR (k0 + j)) He) by auto.
      replace (nth_error (enabled_past tr c 0) j) with (@None env) by (destruct j; reflexivity).
      apply Hs. destruct (m_inits _ _ M3) as [l ->]. apply in_or_app. auto.
    - destruct (trace_prefix _ _ _ _ _ _ He) as [e0 He0].
      rewrite (trace_next _ _ _ _ _ _ _ (TmpR (k0 + j)) He0 He) by auto.
      cbn [enabled_past]. change (nth_error tr t = Some e0) in He0. rewrite He0.
      destruct (IH e0 He0 j Hj) as [V0 V1].
      destruct (m_cond _ _ M3 _ _ _ C1) as (br & els & Hin).
      rewrite (exec_gen_if fit (make_code b3) e0 (TmpR (k0 + j)) c (match j with O => EVar (User n) | S j' => EVar (TmpR (k0 + j')) end) (chain_stmts br els)).
      + destruct (truth (eval e0 c)).
        * split.
          -- rewrite Hf by (unfold k0; lia). destruct j as [|j]; cbn [nth_error eval].
             ++ apply Hu. eapply nth_error_In; exact He0.
             ++ destruct (IH e0 He0 j ltac:(lia)) as [V2 _]. rewrite V2.
                destruct (nth_error (enabled_past tr c t) j) eqn:En; [|exact Hiv].
                apply Hu, V1. eapply nth_error_In; eauto.
          -- intros p [<-|Hp]; [eapply nth_error_In; exact He0|auto].
        * auto.
      + apply code_nodup, (w0_g _ (proj1 W3)).
      + auto.
      + unfold make_code. apply in_or_app. right. apply in_flat_map. eexists. split; [exact Hin|]. left. reflexivity. }
  destruct (nth_error tr t) as [e|] eqn:Ee; [|apply nth_error_None in Ee; lia].
  unfold val_at. rewrite Ee, Q. cbn [eval]. replace (k0 + S d - 1)%nat with (k0 + d)%nat by lia.
  f_equal. apply (All t e Ee d). lia.
Qed.

(** ** Reset *)
Lemma testbit_high x n j : 0 <= n -> 0 <= j -> Z.testbit (Z.shiftl x n) j = if j <? n then false else Z.testbit x (j - n).
Proof.
  intros Hn Hj. rewrite Z.shiftl_spec by lia. destruct (Z.ltb_spec j n); [apply Z.testbit_neg_r; lia|reflexivity].
Qed.

Lemma put_bits_spec x lsb w y j : 0 <= lsb -> 0 <= w -> 0 <= j ->
  Z.testbit (put_bits x lsb w y) j = if (lsb <=? j) && (j <? lsb + w) then Z.testbit y (j - lsb) else Z.testbit x j.
Proof.
  intros Hl Hw Hj.
  assert (E : put_bits x lsb w y = Z.lor (Z.ldiff x (Z.shiftl (Z.ones w) lsb)) (Z.shiftl (Z.land y (Z.ones w)) lsb)).
  { unfold put_bits. rewrite <- !Z.land_ones by lia.
    assert (A : Z.ldiff x (Z.shiftl (Z.ones w) lsb) = x - Z.shiftl (Z.land (Z.shiftr x lsb) (Z.ones w)) lsb).
    { assert (B : Z.land x (Z.shiftl (Z.ones w) lsb) = Z.shiftl (Z.land (Z.shiftr x lsb) (Z.ones w)) lsb).
      { apply Z.bits_inj'. intros k Hk. rewrite Z.land_spec, !testbit_high by lia.
        destruct (Z.ltb_spec k lsb); [apply andb_false_r|]. rewrite Z.land_spec, Z.shiftr_spec by lia.
        f_equal. f_equal. lia. }
      rewrite <- B. rewrite <- Z.lor_ldiff_and with (a := x) (b := Z.shiftl (Z.ones w) lsb) at 2.
      assert (Cm : Z.lor (Z.ldiff x (Z.shiftl (Z.ones w) lsb)) (Z.land x (Z.shiftl (Z.ones w) lsb)) =
                  Z.ldiff x (Z.shiftl (Z.ones w) lsb) + Z.land x (Z.shiftl (Z.ones w) lsb)).
      { rewrite <- Z.lxor_lor, <- Z.add_nocarry_lxor; [reflexivity| |];
        apply Z.bits_inj'; intros k Hk; rewrite Z.land_spec, Z.ldiff_spec, Z.land_spec, Z.bits_0;
        destruct (Z.testbit x k), (Z.testbit (Z.shiftl (Z.ones w) lsb) k); reflexivity. }
      rewrite Cm. lia. }
    rewrite <- A.
    rewrite <- Z.lxor_lor, <- Z.add_nocarry_lxor; [reflexivity| |];
    apply Z.bits_inj'; intros k Hk; rewrite Z.land_spec, Z.ldiff_spec, !testbit_high, Z.bits_0 by lia;
    (destruct (Z.ltb_spec k lsb); [apply andb_false_r|]); rewrite Z.land_spec;
    destruct (Z.testbit x k), (Z.testbit (Z.ones w) (k - lsb)), (Z.testbit y (k - lsb)); reflexivity. }
  rewrite E, Z.lor_spec, Z.ldiff_spec, !testbit_high by lia.
  destruct (Z.ltb_spec j lsb) as [H|H].
  - replace (lsb <=? j) with false by lia. cbn [andb negb]. rewrite andb_true_r, orb_false_r. reflexivity.
  - replace (lsb <=? j) with true by lia. rewrite Z.land_spec, Z.testbit_ones by lia. cbn [andb].
    replace (0 <=? j - lsb) with true by lia. cbn [andb].
    replace (j - lsb <? w) with (j <? lsb + w) by lia. destruct (j <? lsb + w); cbn [negb].
    + rewrite !andb_true_r, andb_false_r. reflexivity.
    + rewrite !andb_true_r, andb_false_r, orb_false_r. reflexivity.
Qed.

Lemma srl_pattern_bit iv j : 0 <= j -> 0 <= iv \/ j < 32 ->
  Z.testbit (if iv <? 0 then iv mod 2 ^ 32 else iv) j = Z.testbit iv j.
Proof.
  intros Hj Hs. destruct (iv <? 0) eqn:E; [|reflexivity]. apply Z.mod_pow2_bits_low. lia.
Qed.

Section Reset.
  Variable width : var -> Z.
  Variable fit : var -> Z -> Z.
  Hypothesis Hfit : keeps_bits width fit.

  Lemma reset_one inits l rs s nxt v j : lhs_wf s l -> reset_of inits l = Some rs -> 0 <= j < width v ->
    exists iv, inits (lhs_var l) = Some iv /\
    (lhs_var l = v -> covers s l j -> 0 <= iv \/ j < 32 -> Z.testbit (exec fit s nxt rs v) j = Z.testbit iv j) /\
    (lhs_var l = v -> ~ covers s l j -> Z.testbit (exec fit s nxt rs v) j = Z.testbit (nxt v) j) /\
    (lhs_var l <> v -> exec fit s nxt rs v = nxt v).
  Proof.
    intros Hwf E Hj. unfold reset_of in E. destruct (inits (lhs_var l)) as [iv|]; [|discriminate].
    exists iv. split; [reflexivity|]. inversion E; subst rs. clear E.
    destruct l as [u|u p|u m lo]; cbn [lhs_var covers lhs_wf] in *; cbn [exec assign eval].
    - repeat split.
      + intros -> _ _. rewrite vset_same. apply Hfit. exact Hj.
      + tauto.
      + intros Hne. apply vset_other. congruence.
    - repeat split.
      + intros -> Hc Hs. rewrite vset_same, Hfit by exact Hj. rewrite put_bits_spec by lia. rewrite Hc.
        replace ((j <=? j) && (j <? j + 1)) with true by lia. cbn [sem_bin].
        replace (j - j) with 0 by lia. rewrite Z.land_spec, Z.shiftr_spec by lia.
        cbn [Z.add]. replace (Z.testbit 1 0) with true by reflexivity. rewrite andb_true_r. apply srl_pattern_bit; [lia|exact Hs].
      + intros -> Hc. rewrite vset_same, Hfit by exact Hj. rewrite put_bits_spec by lia.
        replace ((eval s p <=? j) && (j <? eval s p + 1)) with false by lia. reflexivity.
      + intros Hne. apply vset_other. congruence.
    - repeat split.
      + intros -> Hc Hs. rewrite vset_same, Hfit by exact Hj. rewrite put_bits_spec by lia.
        replace ((lo <=? j) && (j <? lo + (m - lo + 1))) with true by lia. cbn [sem_bin].
        replace (2 ^ (m - lo + 1) - 1) with (Z.ones (m - lo + 1)) by (rewrite Z.ones_equiv; lia).
        rewrite Z.land_spec, Z.shiftr_spec, Z.testbit_ones_nonneg by lia.
        replace (j - lo <? m - lo + 1) with true by lia. rewrite andb_true_r.
        replace (j - lo + lo) with j by lia. apply srl_pattern_bit; [lia|exact Hs].
      + intros -> Hc. rewrite vset_same, Hfit by exact Hj. rewrite put_bits_spec by lia.
        replace ((lo <=? j) && (j <? lo + (m - lo + 1))) with false by lia. reflexivity.
      + intros Hne. apply vset_other. congruence.
  Qed.

  Lemma covers_dec s l j : covers s l j \/ ~ covers s l j.
  Proof. destruct l; cbn; [auto|lia|lia]. Qed.

  Lemma reset_many inits s v j ds : 0 <= j < width v -> Forall (lhs_wf s) ds -> forall nxt,
    let res := execs fit s nxt (fold_right (fun l acc => opt_cons (reset_of inits l) acc) [] ds) in
    (forall iv, inits v = Some iv -> 0 <= iv \/ j < 32 -> (exists l, In l ds /\ lhs_var l = v /\ covers s l j) -> Z.testbit (res v) j = Z.testbit iv j) /\
    ((inits v = None \/ forall l, In l ds -> lhs_var l = v -> ~ covers s l j) -> Z.testbit (res v) j = Z.testbit (nxt v) j).
  Proof.
    intros Hj Hwf. induction ds as [|l ds IH]; intros nxt res.
    - split; [intros iv _ _ (l & [] & _)|reflexivity].
    - specialize (IH (Forall_inv_tail Hwf)). unfold res. cbn [fold_right]. destruct (reset_of inits l) as [rs|] eqn:Er.
      + cbn [opt_cons]. rewrite execs_cons.
        destruct (reset_one inits l rs s nxt v j (Forall_inv Hwf) Er Hj) as (iv0 & Hi0 & A & B & C).
        destruct (IH (exec fit s nxt rs)) as [I1 I2]. split.
        * intros iv Hiv Hs (l' & Hl & Hv & Hc).
          assert (Hex : (exists l, In l ds /\ lhs_var l = v /\ covers s l j) \/ (forall l, In l ds -> lhs_var l = v -> ~ covers s l j)).
          { clear. induction ds as [|a ds IHd]; [right; intros l []|].
            destruct IHd as [(l & H1 & H2 & H3)|H]; [left; exists l; repeat split; auto; right; auto|].
            destruct (var_eq_dec (lhs_var a) v) as [Ha|Ha]; [destruct (covers_dec s a j) as [Hc|Hc]|].
            - left. exists a. repeat split; auto. left; reflexivity.
            - right. intros l [<-|Hl] Hv; auto.
            - right. intros l [<-|Hl] Hv; [contradiction|auto]. }
          destruct Hex as [Hex|Hno]; [apply I1; assumption|].
          rewrite I2 by (right; exact Hno). destruct Hl as [->|Hl].
          -- assert (iv0 = iv) by congruence. subst. apply A; auto.
          -- exfalso. exact (Hno l' Hl Hv Hc).
        * intros Hno. rewrite I2.
          -- destruct (var_eq_dec (lhs_var l) v) as [Hv|Hv].
             ++ apply B; [exact Hv|]. destruct Hno as [Hno|Hno]; [congruence|]. apply Hno; [left; reflexivity|exact Hv].
             ++ rewrite C by exact Hv. reflexivity.
          -- destruct Hno as [Hno|Hno]; [left; exact Hno|right]. intros l' Hl. apply Hno. right; exact Hl.
      + cbn [opt_cons]. destruct (IH nxt) as [I1 I2]. split.
        * intros iv Hiv Hs (l' & [->|Hl] & Hv & Hc).
          -- exfalso. unfold reset_of in Er. rewrite Hv, Hiv in Er. discriminate.
          -- apply I1; eauto.
        * intros Hno. apply I2. destruct Hno as [Hno|Hno]; [left; exact Hno|right]. intros l' Hl. apply Hno. right; exact Hl.
  Qed.
End Reset.

Lemma dsts_assigns s l : In l (dsts s) <-> assigns s l.
Proof.
  revert l. induction s as [l0 e|c t f Ht Hf|e ws Hw] using stmt_ind'; intros l; cbn [dsts].
  - split; [intros [<-|[]]; constructor|]. intros H; inversion H; left; reflexivity.
  - rewrite Forall_forall in Ht, Hf. rewrite in_app_iff, !in_flat_map. split.
    + intros [(s & H1 & H2)|(s & H1 & H2)]; [apply Ht in H2; [eapply AsThen; eauto|exact H1]|apply Hf in H2; [eapply AsElse; eauto|exact H1]].
    + intros H; inversion H; subst; [left|right]; exists s; (split; [assumption|]); [apply Ht|apply Hf]; assumption.
  - rewrite in_flat_map. rewrite Forall_forall in Hw. split.
    + intros ([k b] & H1 & H2). cbn in H2. apply in_flat_map in H2. destruct H2 as (s & H2 & H3).
      pose proof (Hw _ H1) as H4. cbn in H4. rewrite Forall_forall in H4. apply H4 in H3; [|exact H2]. eapply AsCase; eauto.
    + intros H; inversion H as [| | |e' ws' k b s l' A1 A2 A3]; subst. exists (k, b). split; [exact A1|]. cbn. apply in_flat_map. exists s.
      split; [exact A2|]. pose proof (Hw _ A1) as H4. cbn in H4. rewrite Forall_forall in H4. apply H4; assumption.
Qed.

(** [dst_var] lists exactly the destinations occurring in the emitted code. *)
Lemma dst_complete b l : W b -> (In l (s_dst b) <-> exists s, In s (make_code b) /\ assigns s l).
Proof.
  intros [Hw _]. rewrite (w0_dst _ Hw). unfold D. rewrite in_flat_map.
  pose proof (make_code_perm b (gi_delay _ (w0_g _ Hw))) as P.
  split; intros (s & H1 & H2); exists s.
  - split; [apply (Permutation_in _ (Permutation_sym P)), H1|apply dsts_assigns, H2].
  - split; [apply (Permutation_in _ P), H1|apply dsts_assigns, H2].
Qed.


Theorem reset_ok width fit os b ui rst s :
  keeps_bits width fit -> Forall op_user os -> do_ops seq_new os = Some b ->
  truth (eval s rst) = true ->
  (forall l, drives (make_code b) l -> lhs_wf s l) ->
  forall v,
    ((forall l, drives (make_code b) l -> lhs_var l <> v) -> tick fit (make_always b ui rst) s v = s v) /\
    (forall l iv j, drives (make_code b) l -> lhs_var l = v -> all_inits b ui v = Some iv -> 0 <= j < width v ->
       covers s l j -> 0 <= iv \/ j < 32 -> Z.testbit (tick fit (make_always b ui rst) s v) j = Z.testbit iv j) /\
    (forall iv j, all_inits b ui v = Some iv -> 0 <= j < width v -> (exists l, drives (make_code b) l /\ lhs_var l = v) ->
       (forall l, drives (make_code b) l -> lhs_var l = v -> ~ covers s l j) ->
       Z.testbit (tick fit (make_always b ui rst) s v) j = Z.testbit (s v) j).
Proof.
  intros Hfit Hu E Hr Hwf v. destruct (do_ops_W os seq_new b W_new Hu E) as [HW _].
  assert (Hd : forall l, In l (s_dst b) <-> drives (make_code b) l) by (intros; apply dst_complete, HW).
  assert (Hwf' : Forall (lhs_wf s) (s_dst b)) by (apply Forall_forall; intros l Hl; apply Hwf, Hd, Hl).
  assert (Frame : forall code, (forall l, drives code l -> drives (make_code b) l) ->
     (forall l, drives (make_code b) l -> lhs_var l <> v) -> execs fit s s code v = s v).
  { intros code Hsub Hno. apply execs_frame. rewrite writes_dsts_all. intros Hin. apply in_map_iff in Hin.
    destruct Hin as (l & Hl & Hin). apply in_flat_map in Hin. destruct Hin as (st & H1 & H2).
    apply (Hno l); [|exact Hl]. apply Hsub. exists st. split; [exact H1|apply dsts_assigns, H2]. }
  assert (Hsub : forall l, drives (make_reset b ui) l -> drives (make_code b) l).
  { intros l (st & H1 & H2). apply Hd. unfold make_reset in H1. clear -H1 H2.
    induction (s_dst b) as [|d ds IH]; cbn [fold_right] in H1; [destruct H1|].
    unfold reset_of at 1 in H1. destruct (all_inits b ui (lhs_var d)) as [iv|].
    - cbn [opt_cons] in H1. destruct H1 as [<-|H1]; [|right; auto]. left. destruct d; inversion H2; reflexivity.
    - right. apply IH; assumption. }
  assert (Hne : forall l iv, drives (make_code b) l -> lhs_var l = v -> all_inits b ui v = Some iv -> make_reset b ui <> []).
  { intros l iv Hl Hv Hiv. apply Hd in Hl. unfold make_reset. clear -Hl Hv Hiv.
    induction (s_dst b) as [|d ds IH]; [destruct Hl|]. cbn [fold_right]. destruct Hl as [->|Hl].
    - unfold reset_of at 1. rewrite Hv, Hiv. discriminate.
    - unfold opt_cons. destruct (reset_of _ d); [discriminate|apply IH, Hl]. }
  assert (Run : make_reset b ui <> [] -> tick fit (make_always b ui rst) s = execs fit s s (make_reset b ui)).
  { intros H. unfold make_always. destruct (make_reset b ui) as [|x xs]; [congruence|].
    unfold tick. rewrite execs_cons, exec_if, Hr. reflexivity. }
  split; [|split].
  - intros Hno. unfold make_always. destruct (make_reset b ui) as [|x xs] eqn:Em.
    + apply Frame; auto.
    + unfold tick. rewrite execs_cons, exec_if, Hr. apply (Frame (x :: xs)); auto.
  - intros l iv j Hl Hv Hiv Hj Hc Hs. rewrite Run by (eapply Hne; eauto).
    apply (reset_many width fit Hfit (all_inits b ui) s v j (s_dst b) Hj Hwf' s); [exact Hiv|exact Hs|].
    exists l. split; [apply Hd, Hl|auto].
  - intros iv j Hiv Hj (l & Hl & Hv) Hno. rewrite Run by (eapply Hne; eauto).
    apply (reset_many width fit Hfit (all_inits b ui) s v j (s_dst b) Hj Hwf' s). right.
    intros l' Hl'. apply Hno, Hd, Hl'.
Qed.

(** ** Corollaries used in the property file *)
Lemma chain_start b c ss : c <> [] -> idle b ->
  exists b1, do_ops b [OIf c; OCall ss] = Some b1 /\ chaining b b1 [mk_branch (c, ss)].
Proof.
  intros Hc0 (N1 & N2 & N3). destruct (make_cond_some _ Hc0) as (c' & Ec). unfold make_cond in Ec.
  cbn [do_ops do_op]. unfold op_if. rewrite Ec. cbn [w_elif s_next]. rewrite N1. cbn [kw_cond kw_empty].
  unfold op_call. cbn [w_next w_elif w_last_cond w_last_kw s_next s_elif has_args set_cond kw_delay kw_keep kw_lazy kw_eager kw_empty s_next_else].
  rewrite N3. cbn [andb]. eexists. split; [reflexivity|]. unfold chaining, core, mk_branch. cbn. rewrite Ec.
  repeat split; auto. discriminate.
Qed.
Lemma single_chain fit c ss elifs els : c <> [] -> Forall (fun p => fst p <> []) elifs ->
  exists b, do_ops seq_new (ops_of (RChain c ss elifs els)) = Some b /\
    forall s, tick fit (make_code b) s = execs fit s s (first_branch s ((c, ss) :: elifs) els).
Proof.
  intros Hc Hel. destruct (chain_start seq_new c ss Hc) as (b1 & E1 & C1); [repeat split|].
  destruct (chain_elifs seq_new elifs b1 _ C1 Hel) as (b2 & E2 & C2).
  destruct (chain_end seq_new b2 _ els C2) as (b3 & E3 & C3 & I3).
  exists b3. split; [unfold ops_of; rewrite do_ops_app, E1, do_ops_app, E2; exact E3|].
  intros s. unfold core in C3. cbn [s_body s_delayed seq_new app] in C3. injection C3 as B1 B2 _ _ _.
  unfold tick, make_code. rewrite B1, B2. cbn [max_delay fold_right seq rev flat_map app item_stmts]. rewrite app_nil_r.
  apply (chain_exec fit s ((c, ss) :: elifs) els). constructor; [exact Hc|exact Hel].
Qed.

Lemma spec_step_single d (f : effect) h n : spec_step [(d, f)] h n = f h n.
Proof.
  assert (F : flat_map (effects_at [(d, f)]) (rev (seq 0 (S d))) = [f]).
  { assert (G : forall l, Forall (fun d' => (d' < d)%nat) l -> flat_map (effects_at [(d, f)]) l = []).
    { induction l as [|a l IH]; intros Hl; [reflexivity|]. cbn [flat_map]. rewrite IH by exact (Forall_inv_tail Hl).
      unfold effects_at; cbn [filter fst]. pose proof (Forall_inv Hl) as Ha; cbn beta in Ha. replace (Nat.eqb d a) with false by lia. reflexivity. }
    rewrite seq_S, rev_app_distr. cbn [rev app flat_map plus]. rewrite G.
    - unfold effects_at; cbn [filter fst]. rewrite Nat.eqb_refl. reflexivity.
    - apply Forall_forall. intros x Hx. apply in_rev, in_seq in Hx. lia. }
  unfold spec_step. change (max_fx [(d, f)]) with (Nat.max d 0). rewrite Nat.max_0_r, F. reflexivity.
Qed.

Lemma spec_trace_step fx : forall ins p s t now nx, let tr := spec_trace fx p s ins in
  nth_error tr t = Some now -> nth_error tr (S t) = Some nx ->
  exists i h, nth_error ins (S t) = Some i /\ h = rev (firstn t tr) ++ p /\
    nx = merge i (spec_step fx (now :: h) now).
Proof.
  induction ins as [|i ins IH]; intros p s t now nx tr H1 H2; [destruct t; discriminate|].
  unfold tr in *. cbn [spec_trace] in H1, H2. destruct t as [|t].
  - cbn [nth_error] in H1. inversion H1; subst. destruct ins as [|i2 ins]; [discriminate|].
    cbn [spec_trace nth_error] in H2. inversion H2. exists i2, p. cbn. auto.
  - cbn [nth_error] in H1. destruct (IH _ _ _ _ _ H1 H2) as (i' & h & A & B & C).
    exists i', h. split; [exact A|]. split; [|exact C]. cbn [spec_trace firstn rev]. rewrite <- app_assoc. exact B.
Qed.

Lemma nth_hist {A} (tr : list A) t d now : nth_error tr t = Some now ->
  nth_error (now :: rev (firstn t tr)) d = if Nat.leb d t then nth_error tr (t - d) else None.
Proof.
  intros H. assert (L : (t < length tr)%nat) by (apply nth_error_Some; congruence).
  destruct d as [|d]; cbn [nth_error].
  - replace (t - 0)%nat with t by lia. auto.
  - assert (Lf : length (firstn t tr) = t) by (rewrite firstn_length; lia).
    destruct (Nat.leb (S d) t) eqn:E.
    + apply Nat.leb_le in E.
      rewrite nth_error_nth' with (d := now) by (rewrite rev_length; lia).
      rewrite rev_nth by lia. rewrite Lf. rewrite (nth_error_nth' tr now) by lia. f_equal.
      rewrite <- (firstn_skipn t tr) at 2. rewrite app_nth1 by lia. f_equal.
    + apply Nat.leb_gt in E. apply nth_error_None. rewrite rev_length. lia.
Qed.

Lemma delay_single fit n e cs d lz eg : fit_ok fit -> user_expr e -> Forall user_expr cs ->
  (lz = false -> match cs with [c] => one_bit c | _ => True end) ->
  exists b, do_ops seq_new (ops_of (RAssign cs (Some d) None lz eg [SSub (LVar (User n)) e])) = Some b /\
    forall s ins, (forall v, ~ is_user v -> s v = 0) ->
    let tr := code_trace fit (make_code b) s ins in
    forall t now nx i, nth_error tr t = Some now -> nth_error tr (S t) = Some nx ->
      nth_error ins (S t) = Some i -> i n = None ->
      nx (User n) =
        match (if Nat.leb d t then nth_error tr (t - d) else None) with
        | Some p => if all_true (if lz then now else p) cs
                    then fit (User n) (eval (if eg then p else now) e) else now (User n)
        | None => now (User n)
        end.
Proof.
  intros Hfit He Hc Hob.
  set (r := RAssign cs (Some d) None lz eg [SSub (LVar (User n)) e]).
  assert (Hr : request_ok r).
  { split; [exact Hc|]. split; [|split].
    - constructor; [|constructor]. split; cbn; [intros v [<-|[]]; exact I|exact He].
    - intros Hl _. apply Hob, Hl.
    - intros _. constructor; [exact I|constructor]. }
  destruct (seq_refines fit Hfit [r]) as (b & E & H); [constructor; [exact Hr|constructor]|].
  cbn [flat_map] in E, H. rewrite app_nil_r in E. rewrite app_nil_r in H. exists b. split; [exact E|].
  intros s ins Hs tr t now nx i Hnow Hnx Hi Hin.
  specialize (H s ins Hs). fold tr in H. set (sp := spec_trace (effects_of fit r) [] s ins) in *.
  pose proof (forall2_nth _ _ _ t H) as A. rewrite Hnow in A.
  pose proof (forall2_nth _ _ _ (S t) H) as B. rewrite Hnx in B.
  destruct (nth_error sp t) as [now'|] eqn:En; [|contradiction].
  destruct (nth_error sp (S t)) as [nx'|] eqn:En2; [|contradiction].
  destruct (spec_trace_step _ ins [] s t now' nx' En En2) as (i' & h & Hi' & Hh & Hn).
  fold sp in Hh. rewrite app_nil_r in Hh. assert (i' = i) by congruence. subst i'.
  rewrite (B (User n) I), Hn. cbn [merge]. rewrite Hin.
  assert (Es : spec_step (effects_of fit r) (now' :: h) now' = assign_effect fit cs lz eg [SSub (LVar (User n)) e] d (now' :: h) now').
  { unfold r. cbn [effects_of seq map]. replace (d + 0)%nat with d by lia. apply spec_step_single. }
  rewrite Es. unfold assign_effect. rewrite Hh, (nth_hist sp t d now' En).
  assert (An : user_agree now now') by exact A.
  destruct (Nat.leb d t) eqn:Ed; [|symmetry; apply An; exact I].
  pose proof (forall2_nth _ _ _ (t - d)%nat H) as P.
  destruct (nth_error tr (t - d)) as [p|], (nth_error sp (t - d)) as [p'|]; try contradiction; [|symmetry; apply An; exact I].
  assert (Eq : all_true (if lz then now' else p') cs = all_true (if lz then now else p) cs).
  { symmetry. apply all_true_agree; [exact Hc|]. destruct lz; assumption. }
  rewrite Eq. clear Eq. destruct (all_true (if lz then now else p) cs); [|symmetry; apply An; exact I].
  destruct eg; cbn [fold_left exec_at exec execs assign]; rewrite vset_same; f_equal; symmetry;
    apply (eval_agree is_user); assumption.
Qed.

(** ** Several If calls before one statement *)
Definition cond_truth (s : env) (o : option expr) : bool :=
  match o with Some c => truth (eval s c) | None => true end.
Lemma stacked_ifs gs : forall b, s_elif b = None -> kw_delay (s_next b) = None -> kw_keep (s_next b) = None ->
  kw_lazy (s_next b) = None -> kw_eager (s_next b) = None ->
  exists b', do_ops b (map OIf gs) = Some b' /\ s_elif b' = None /\ s_next_else b' = s_next_else b /\
    s_body b' = s_body b /\ s_delayed b' = s_delayed b /\
    (exists o, s_next b' = mkKw o None None None None /\
       forall s, cond_truth s o = cond_truth s (kw_cond (s_next b)) && all_true s (concat gs)).
Proof.
  induction gs as [|g gs IH]; intros b He Hd Hk Hl Hg.
  - exists b. cbn [map do_ops]. do 5 (split; [auto|]). exists (kw_cond (s_next b)). split.
    + destruct (s_next b); cbn in *; subst; reflexivity.
    + intros s. cbn. rewrite andb_true_r. reflexivity.
  - cbn [map do_ops do_op]. destruct (make_condition g) as [c|] eqn:Ec.
    + set (b1 := op_if b g).
      assert (E1 : s_elif b1 = None /\ s_next_else b1 = s_next_else b /\ s_body b1 = s_body b /\ s_delayed b1 = s_delayed b /\
                   s_next b1 = set_cond (s_next b) (match kw_cond (s_next b) with None => c | Some c0 => ands c0 c end)).
      { unfold b1, op_if. rewrite Ec. cbn. auto. }
      destruct E1 as (A1 & A2 & A3 & A4 & A5).
      destruct (IH b1) as (b' & B1 & B2 & B3 & B4 & B5 & o & B6 & B7); [exact A1|rewrite A5; assumption..|].
      exists b'. split; [exact B1|]. split; [exact B2|]. split; [congruence|]. split; [congruence|]. split; [congruence|].
      exists o. split; [exact B6|]. intros s. rewrite B7, A5. cbn [set_cond kw_cond concat].
      unfold all_true at 2. rewrite forallb_app. fold (all_true s g). fold (all_true s (concat gs)).
      rewrite andb_assoc. f_equal. pose proof (make_condition_true s g c Ec) as Ht.
      destruct (kw_cond (s_next b)) as [c0|]; cbn [cond_truth].
      * unfold ands. cbn [eval sem_bin]. rewrite truth_b2z, Ht. reflexivity.
      * exact Ht.
    + assert (g = []) by (destruct g; [reflexivity|discriminate]). subst g.
      destruct (IH (w_elif b None)) as (b' & B1 & B2 & B3 & B4 & B5 & o & B6 & B7); try assumption; try reflexivity.
      exists b'. split; [exact B1|]. split; [exact B2|]. split; [exact B3|]. split; [exact B4|]. split; [exact B5|].
      exists o. split; [exact B6|exact B7].
Qed.
Lemma stacked_if_call fit gs ss : exists b, do_ops seq_new (map OIf gs ++ [OCall ss]) = Some b /\
  forall s, tick fit (make_code b) s = if all_true s (concat gs) then execs fit s s ss else s.
Proof.
  destruct (stacked_ifs gs seq_new) as (b & B1 & B2 & B3 & B4 & B5 & o & B6 & B7); try reflexivity.
  cbn [s_body s_delayed seq_new s_next_else] in *.
  assert (E : op_call b ss = Some (add_statement (w_next_else (w_last_if (w_next (w_last_kw b (mkKw o None None None None)) kw_empty) None) false) ss (mkKw o None None None None))).
  { unfold op_call. rewrite B6. cbn [w_last_kw w_next s_elif has_args kw_delay kw_keep kw_lazy kw_eager s_next_else].
    rewrite B2. rewrite B3. reflexivity. }
  eexists. split.
  - rewrite do_ops_app, B1. cbn [do_ops do_op]. rewrite E. reflexivity.
  - intros s. specialize (B7 s). cbn [cond_truth seq_new s_next kw_empty kw_cond andb] in B7. rewrite <- B7.
    unfold add_statement. cbn [kw_delay kw_lazy kw_eager kw_keep kw_cond]. unfold add_statement1.
    destruct o as [c|]; unfold make_code, tick; cbn [s_delayed s_body w_next_else w_last_if w_next w_last_kw add_dst w_dst w_body push_plain].
    + rewrite B4, B5. cbn [max_delay fold_right seq rev flat_map app item_stmts chain_stmts opt_list]. rewrite execs_cons, exec_if. reflexivity.
    + rewrite B4, B5. cbn [max_delay fold_right seq rev flat_map app].
      replace (flat_map item_stmts (map IPlain ss)) with ss; [reflexivity|]. clear. induction ss as [|x ss IH]; cbn; congruence.
Qed.
