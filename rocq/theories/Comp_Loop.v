(** Correctness of compiled loops. *)
From Verif Require Import Base Vlog Seq_Model Fsm_Model Py_Spec Py_Proofs Comp_Model Comp_Base Comp_Frag Bv_Sem Comp_Bits Comp_Expr Comp_Stmt.
Open Scope nat_scope.

Section L.
  Variable opt : expr -> expr.
  Hypothesis opt_ok : forall s e, eval s (opt e) = eval s e.
  Variable w : mode.
  Hypothesis opt_bits : mtight w = true -> (1 <= w)%Z /\ folds_bits w opt.
  Variable fns : name -> option func.
  Variable fit : var -> Z -> Z.
  Variable N : nat.
  Hypothesis fit_user : forall r z, fits w z = true -> fit (User r) z = z.
  Hypothesis fit_state : forall i, i <= N -> fit FState (Z.of_nat i) = Z.of_nat i.
  Variable callf : cst -> name -> list cv -> option (cst * cv).
  Notation ev := (ev w fns). Notation tv := (tv w fns). Notation evs := (evs w fns). Notation call := (call w fns).
  Notation ex := (ex w fns). Notation exb := (exb w fns). Notation forl := (forl w fns).
  Notation cexpr := (cexpr opt callf). Notation cexprs := (cexprs opt callf).
  Notation cstmt := (cstmt opt callf). Notation cblock := (cblock opt callf).
  Notation dep := (dep w). Notation vok := (vok w). Notation tok := (tok w). Notation okty := (okty w). Notation fin := (fin w).
  Notation reach := (reach w fit). Notation leaves := (leaves fit). Notation mstep := (mstep fit).
  Notation edyn := (edyn w fns fit N). Notation sdyn := (sdyn w fit N).
  Notation Pstmt := (Pstmt opt w fns fit N callf). Notation Pblock := (Pblock opt w fns fit N callf).
  Hypothesis HC : CallOk w fns fit N callf.
  Ltac ob H E := match type of H with obind ?m _ = Some _ => destruct m as [?|] eqn:E; [|discriminate H]; cbn [obind] in H end.
  Notation expr_ok := (proj1 (exprs_ok opt opt_ok w opt_bits fns fit N callf HC)).
  Notation scoped_block := (scoped_block opt w fns fit N callf).
  Notation branch_step := (branch_step fit N fit_state). Notation goto_step := (goto_step fit N fit_state).

  (** ** Loops *)
  Definition kr (p : kind * nat) : bool := match fst p with KR => true | _ => false end.
  Lemma in_kr k i D : In (k, i) (filter kr D) <-> In (k, i) D /\ k = KR.
  Proof. rewrite filter_In. unfold kr. cbn [fst]. destruct k; split; intros [H1 H2]; split; auto; discriminate. Qed.

  Lemma end_loop_spec A c0 c D e t : ext 0 A true c0 c -> pd c0 c D -> pl KB c0 = [] -> pl KC c0 = [] ->
    let c' := end_loop c e t in
    ext 0 A true c0 c' /\ pd c0 c' (filter kr D) /\ cur c' = cur c /\ (forall i, bd c' i = bd c i) /\
    c_ret c' = c_ret c /\ c_tmp c' = c_tmp c /\ (forall x, lookup c' x = lookup c x) /\
    (c_own c = c_own c0 -> c_own c' = c_own c0) /\
    (forall i, (forall k, k <> KR -> ~ In (k, i) D) -> jp c' i = jp c i) /\
    (forall i, In (KB, i) D -> jp c' i <> [] /\ Forall (eq (e, None, None)) (jp c' i)) /\
    (forall i, In (KC, i) D -> jp c' i <> [] /\ Forall (eq (t, None, None)) (jp c' i)).
  Proof.
    intros X P HB HC0. cbn zeta. unfold end_loop.
    change (p_brk (c_own c) ++ p_brk (c_sub c)) with (pl KB c). change (p_cont (c_own c) ++ p_cont (c_sub c)) with (pl KC c).
    assert (InB : forall i, In i (pl KB c) <-> In (KB, i) D) by (intros i; rewrite (d_in _ _ _ P), HB; cbn; tauto).
    assert (InC : forall i, In i (pl KC c) <-> In (KC, i) D) by (intros i; rewrite (d_in _ _ _ P), HC0; cbn; tauto).
    set (c1 := resolve c (pl KB c) e). set (c2 := resolve c1 (pl KC c) t).
    pose proof (i_plain _ _ (x_inv _ _ _ _ _ X)) as Pl.
    assert (Pl1 : plain (c_fsm c1)) by (apply resolve_plain; exact Pl).
    destruct (resolve_fields (pl KB c) e c) as (A1 & A2 & A3 & A4 & A5 & A6 & A7). fold c1 in A1, A2, A3, A4, A5, A6, A7.
    destruct (resolve_fields (pl KC c) t c1) as (B1 & B2 & B3 & B4 & B5 & B6 & B7). fold c2 in B1, B2, B3, B4, B5, B6, B7.
    assert (X1 : ext 0 A true c0 c1).
    { apply ext_resolve; [exact X|]. intros i Hi. apply InB in Hi. exact (d_rng _ _ _ P _ _ Hi). }
    assert (X2 : ext 0 A true c0 c2).
    { apply ext_resolve; [exact X1|]. intros i Hi. apply InC in Hi. rewrite A1. exact (d_rng _ _ _ P _ _ Hi). }
    assert (Jo : forall i, (forall k, k <> KR -> ~ In (k, i) D) -> jp c2 i = jp c i).
    { intros i Hi. unfold c2. rewrite resolve_jp_other; [|exact Pl1|rewrite InC; apply Hi; discriminate].
      unfold c1. apply resolve_jp_other; [exact Pl|rewrite InB; apply Hi; discriminate]. }
    assert (Cur : cur (clear_bc c2) = cur c) by (change (cur c2 = cur c); congruence).
    split; [eapply ext_proj; [apply same4_refl| |exact X2]; repeat split|].
    split.
    { split.
      - intros k i. unfold pl, clear_bc. cbn [c_own c_sub w_own w_sub]. rewrite in_kr.
        rewrite B5, B6, A5, A6. pose proof (d_in _ _ _ P k i) as Q. unfold pl in Q.
        destruct k; cbn [pk p_brk p_cont p_ret app] in *.
        + unfold pl in HB. cbn [pk] in HB. rewrite HB. cbn. split; [tauto|intros [[]|[_ H]]; discriminate].
        + unfold pl in HC0. cbn [pk] in HC0. rewrite HC0. cbn. split; [tauto|intros [[]|[_ H]]; discriminate].
        + rewrite Q. tauto.
      - intros k i H. apply in_kr in H. destruct H as [H _]. rewrite Cur. exact (d_rng _ _ _ P k i H).
      - intros k i H. apply in_kr in H. destruct H as [H ->]. change (jp c2 i = []). rewrite Jo; [exact (d_jp _ _ _ P _ _ H)|].
        intros q Hq Hi. apply Hq. exact (d_fun _ _ _ P _ _ _ Hi H).
      - intros k k' i H H'. apply in_kr in H. apply in_kr in H'. destruct H, H'. congruence. }
    split; [exact Cur|]. split; [intros i; change (bd c2 i = bd c i); rewrite B7, A7; reflexivity|].
    split; [change (c_ret c2 = c_ret c); congruence|]. split; [change (c_tmp c2 = c_tmp c); congruence|].
    split; [intros x; unfold lookup; change (c_vars (clear_bc c2)) with (c_vars c2); rewrite B3, A3; reflexivity|]. split.
    { intros Ho. unfold clear_bc. cbn [c_own w_own w_sub]. rewrite B5, A5, Ho.
      unfold pl in HB, HC0. cbn [pk] in HB, HC0. apply app_eq_nil in HB. apply app_eq_nil in HC0.
      destruct HB as [HB _], HC0 as [HC0 _]. destruct (c_own c0) as [p q u]. cbn in *. subst. reflexivity. }
    split; [exact Jo|]. split.
    - intros i Hi. change (jp (clear_bc c2) i) with (jp c2 i).
      assert (Hn : ~ In i (pl KC c)). { rewrite InC. intros H. pose proof (d_fun _ _ _ P _ _ _ Hi H). discriminate. }
      unfold c2. rewrite resolve_jp_other by assumption. unfold c1.
      apply resolve_jp_in; [exact Pl|rewrite (d_jp _ _ _ P _ _ Hi); constructor|left; apply InB; exact Hi].
    - intros i Hi. change (jp (clear_bc c2) i) with (jp c2 i).
      assert (Hn : ~ In i (pl KB c)). { rewrite InB. intros H. pose proof (d_fun _ _ _ P _ _ _ Hi H). discriminate. }
      assert (E1 : jp c1 i = []) by (unfold c1; rewrite resolve_jp_other by assumption; exact (d_jp _ _ _ P _ _ Hi)).
      unfold c2. apply resolve_jp_in; [exact Pl1|rewrite E1; constructor|left; apply InC; exact Hi].
  Qed.

  Lemma while_case t b : Pblock b -> Pstmt (PWhile t b).
  Proof.
    intros Hb c0 c E I Wf O Hl. cbn [Comp_Model.cstmt] in E. destruct (skip c0) eqn:Sk.
    { inversion E; subst. exists []. split; [apply skipped; exact I|]. split; [auto|discriminate]. }
    destruct (Hl eq_refl) as [PB PC]. clear Hl.
    ob E E1. destruct p as [c1 v]. ob E E2. rename c2 into c3. cbn [wf_stmt] in Wf. rewrite !andb_true_iff in Wf. destruct Wf as [Ct Wb].
    assert (Ok : mtight w = true -> typed t = true /\ ty_block b = true).
    { intros Q. specialize (O Q). cbn [ty_stmt] in O. apply andb_true_iff in O. exact O. }
    assert (Ot : okty t) by (intros Q; apply (Ok Q)).
    destruct (expr_ok t _ _ _ E1 I (callfree_wf t Ct) Ot) as [[P _ Cf _] Y]. specialize (Cf Ct). subst c1.
    set (p := cur c0) in *. set (c2 := inc c0) in *.
    assert (P02 : ext 0 [] true c0 c2).
    { apply (ext_inc 0); [nl|]. eapply ext_incl; [apply incl_refl| |exact (pu_ext _ _ P)]; discriminate. }
    destruct (scoped_block c2 c3 b Hb E2 (x_inv _ _ _ _ _ P02) Wb (fun Q => proj2 (Ok Q))) as (D & [Xb Pb Qb] & Ob & Yb).
    pose proof (ext_trans 0 [] (assigneds b) true c0 c2 c3 P02 Xb) as X03. cbn [app] in X03.
    pose proof (x_cur _ _ _ _ _ Xb) as C23. assert (Cp : cur c2 = S p) by reflexivity.
    injection E as E4. set (m := cur c3) in *. set (c4 := inc c3) in *.
    assert (C4 : cur c4 = S m) by reflexivity. rewrite C4, Cp in E4.
    set (c5 := set_fsm c4 p (S p) (Some (cve v)) (Some (S m))) in *. set (c6 := set_fsm c5 m p None None) in *.
    pose proof (i_plain _ _ (x_inv _ _ _ _ _ Xb)) as Pl3.
    assert (Pl4 : plain (c_fsm c4)) by (apply inc_plain; exact Pl3).
    assert (Pl5 : plain (c_fsm c5)) by (apply set_fsm_plain; exact Pl4).
    assert (X06 : ext 0 (assigneds b) true c0 c6).
    { apply ext_goto; [apply ext_goto; [apply (ext_inc 0); [nl|exact X03]|]|].
      - change (cur (inc c3)) with (S m). fold p. nl.
      - change (cur c5) with (S m). fold p. nl. }
    assert (Hpm : p < m) by nl.
    assert (J4p : jp c4 p = []).
    { change (jp c3 p = []). rewrite (x_j _ _ _ _ _ Xb) by nl. apply (i_jp _ _ I). fold p. nl. }
    assert (J4m : jp c4 m = []) by (change (jp c3 m = []); apply (i_jp _ _ (x_inv _ _ _ _ _ Xb)); fold m; nl).
    assert (J6o : forall i, i <> p -> i <> m -> jp c6 i = jp c3 i).
    { intros i H1 H2. unfold c6. rewrite set_fsm_jp_other by assumption. unfold c5. rewrite set_fsm_jp_other by assumption. reflexivity. }
    assert (J6p : jp c6 p = [(S p, Some (cve v), Some (S m))]).
    { unfold c6. rewrite set_fsm_jp_other by (assumption || nl). apply set_fsm_jp_same; assumption. }
    assert (J6m : jp c6 m = [(p, None, None)]).
    { unfold c6. apply set_fsm_jp_same; [exact Pl5|]. unfold c5. rewrite set_fsm_jp_other by (assumption || nl). exact J4m. }
    assert (P06 : pd c0 c6 D).
    { destruct Pb as [A1 A2 A3 A4]. split; [exact A1| | |exact A4].
      - intros k i H. specialize (A2 k i H). change (cur c6) with (S m). fold m in A2. fold p. nl.
      - intros k i H. rewrite J6o; [exact (A3 k i H)| |]; specialize (A2 k i H); fold m in A2; nl. }
    destruct (end_loop_spec (assigneds b) c0 c6 D (S m) p X06 P06 PB PC) as (Xc & Pc & Cc & Bc & Rc & Tc & Lc & Oc & Jc & JBc & JCc).
    rewrite E4 in Xc, Pc, Cc, Bc, Rc, Tc, Lc, Oc, Jc, JBc, JCc. change (cur c6) with (S m) in Cc.
    exists (filter kr D). split; [|split].
    { split; [exact Xc|exact Pc|]. intros _ k i H. apply in_kr in H. apply H. }
    { left. apply Oc. change (c_own c3 = c_own c0). rewrite Ob. reflexivity. }
    intros _ B X Bp F Hn HX L r s HL Hs Hag.
    assert (Em : cur c3 = m) by reflexivity. assert (Ep : cur c0 = p) by reflexivity. clearbody m p. rewrite Ep in Hs |- *.
    set (X' := fun k => match k with KB => S m | KC => p | KR => X KR end).
    assert (HX' : forall k, X' k <= N) by (intros []; cbn; [nl|nl|apply HX]).
    destruct F as (G1 & G2 & G3). rewrite Cc, ?Ep in G1, G2, Hn |- *.
    assert (DR : forall k i, In (k, i) D -> S p <= i < m) by (intros k i H; pose proof (d_rng _ _ _ Pb k i H); nl).
    assert (F2 : Final B c2 c3 D X').
    { split; [|split].
      - intros i Hi. rewrite G1, Bc by (nl). reflexivity.
      - intros i Hi Hk. rewrite G2; [|nl|intros k H; apply in_kr in H; exact (Hk k (proj1 H))].
        rewrite Jc by (intros k _; apply Hk). apply J6o; nl.
      - intros k i H. pose proof (DR k i H) as Hr. destruct k; unfold goes, X'.
        + rewrite G2; [exact (JBc i H)|nl|]. intros k H'. apply in_kr in H'. destruct H' as [H' ->].
          pose proof (d_fun _ _ _ Pb _ _ _ H H'). discriminate.
        + rewrite G2; [exact (JCc i H)|nl|]. intros k H'. apply in_kr in H'. destruct H' as [H' ->].
          pose proof (d_fun _ _ _ Pb _ _ _ H H'). discriminate.
        + apply G3. apply in_kr. auto. }
    assert (nD : forall i, i = p \/ i = m -> forall k, ~ In (k, i) D) by (intros i Hi k H; pose proof (DR k i H); nl).
    assert (Hbp : body_at B p = []).
    { rewrite G1, Bc by (nl). change (bd c3 p = []). rewrite (x_b _ _ _ _ _ Xb) by nl. apply (i_bd _ _ I). nl. }
    assert (Hbm : body_at B m = []).
    { rewrite G1, Bc by (nl). change (bd c3 m = []). apply (i_bd _ _ (x_inv _ _ _ _ _ Xb)). nl. }
    assert (Hjp : jumps_at B p = [(S p, Some (cve v), Some (S m))]).
    { rewrite G2; [|nl|intros k H; apply in_kr in H; exact (nD p (or_introl eq_refl) k (proj1 H))].
      rewrite Jc by (intros k _; apply nD; auto). exact J6p. }
    assert (Hgm : goes B m p).
    { unfold goes. rewrite G2; [|nl|intros k H; apply in_kr in H; exact (nD m (or_intror eq_refl) k (proj1 H))].
      rewrite Jc by (intros k _; apply nD; auto). rewrite J6m. split; [discriminate|repeat constructor]. }
    assert (HL3 : okL L c3).
    { intros x g Hg. rewrite (HL x g) by (rewrite Tc; exact Hg). rewrite Lc. reflexivity. }
    assert (HL0 : okL L c0) by exact (okL_back _ _ _ L c0 c3 I X03 HL3).
    assert (F0 : Final B c0 c0 [] X) by (split; [|split]; [intros; nl|intros; nl|intros ? ? []]).
    assert (Rt : c_ret c = c_ret c3) by (rewrite Rc; reflexivity).
    (* one test *)
    assert (Test : forall r s q, at_ s p -> agr L r s -> (exists n, tv n r t = Val q) ->
       reach B p (S m) 1 s (mstep B s) /\ at_ (mstep B s) (if q then S p else S m) /\ agr L r (mstep B s)).
    { intros r1 s1 q A1 Hag1 [n Et]. destruct (Y B X Bp F0 ltac:(nl) L r1 s1 HL0 ltac:(rewrite Ep; exact A1) Hag1) as (_ & V & _).
      destruct (V n q Et) as (k & s' & R & _ & W). apply reach_empty in R. subst s'.
      destruct (branch_step B s1 p _ _ _ Bp A1 Hbp Hjp) as [U1 U2]; [nl|nl|]. rewrite (proj1 W) in U1.
      split; [apply reach_one with (i := p); [nl|exact A1|]|].
      { eapply okst_branch; [exact Hbp|exact Hjp|exact (proj1 W)|exact (tok_tst w t s1 v q Ot W)]. } split; [exact U1|]. eapply agr_user; eauto. }
    (* back to the test *)
    assert (Back : forall o1 s2 r1, fin L c3 X' o1 s2 -> o1 = ONorm r1 \/ o1 = OCont r1 ->
       exists k s3, reach B p (S m) k s2 s3 /\ at_ s3 p /\ agr L r1 s3).
    { intros o1 s2 r1 Fi [->| ->]; destruct Fi as [A3 G].
      - rewrite Em in A3. destruct (goto_step B s2 m p Bp A3 Hbm Hgm ltac:(nl)) as [U1 U2]. exists 1, (mstep B s2).
        split; [apply reach_one with (i := m); [nl|exact A3|eapply okst_goto; eassumption]|]. split; [exact U1|eapply agr_user; eauto].
      - exists 0, s2. split; [constructor|]. split; assumption. }
    assert (Cs : forall n r1 s1 o1, at_ s1 (S p) -> agr L r1 s1 -> exb n r1 b = Val o1 ->
       exists k s2, reach B p (S m) k s1 s2 /\ fin L c3 X' o1 s2).
    { intros n r1 s1 o1 A1 Hag1 Eb. destruct (Yb B X' Bp F2 ltac:(nl) HX' L r1 s1 HL3 ltac:(rewrite Cp; exact A1) Hag1) as [V2 _].
      destruct (V2 n o1 Eb) as (k2 & s2 & R2 & Fi). exists k2, s2. split; [|exact Fi]. eapply reach_mono; [| |exact R2]; nl. }
    assert (Brk : forall r1 s2, fin L c3 X' (OBrk r1) s2 -> fin L c X (ONorm r1) s2).
    { intros r1 s2 [A3 G]. split; [rewrite Cc; exact A3|exact G]. }
    assert (Ret : forall r1 u s2, fin L c3 X' (ORet r1 u) s2 -> fin L c X (ORet r1 u) s2).
    { intros r1 u s2 (A3 & G & H). split; [exact A3|]. split; [exact G|]. rewrite Rt. exact H. }
    split.
    - intros n. revert r s Hs Hag. induction n as [|n IH]; intros r s Hs Hag o Ex; [discriminate|].
      rewrite ex_S in Ex. destruct (tv n r t) as [q| |] eqn:Et; try discriminate. cbn [rbind] in Ex.
      destruct (Test r s q Hs Hag (ex_intro _ n Et)) as (R1 & A1 & Hag1). destruct q.
      2: { inversion Ex; subst o. exists 1, (mstep B s). split; [exact R1|]. split; [rewrite Cc; exact A1|exact Hag1]. }
      destruct (exb n r b) as [o1| |] eqn:Eb; try discriminate. cbn [rbind] in Ex.
      destruct (Cs n r _ o1 A1 Hag1 Eb) as (k2 & s2 & R2 & Fi).
      pose proof (reach_app w fit B _ _ _ _ _ _ _ R1 R2) as R12.
      assert (Go : forall r1, o1 = ONorm r1 \/ o1 = OCont r1 -> ex n r1 (PWhile t b) = Val o ->
                exists k s', reach B p (S m) k s s' /\ fin L c X o s').
      { intros r1 Ho Ex1. destruct (Back o1 s2 r1 Fi Ho) as (k3 & s3 & R3 & A3 & Hag3).
        destruct (IH r1 s3 A3 Hag3 o Ex1) as (k4 & s4 & R4 & Fi4). exists (1 + k2 + k3 + k4), s4. split; [|exact Fi4].
        eapply reach_app; [eapply reach_app; [exact R12|exact R3]|exact R4]. }
      destruct o1 as [r1|r1|r1|r1 u].
      + apply (Go r1); auto.
      + inversion Ex; subst o. exists (1 + k2), s2. split; [exact R12|]. exact (Brk r1 s2 Fi).
      + apply (Go r1); auto.
      + inversion Ex; subst o. exists (1 + k2), s2. split; [exact R12|]. exact (Ret r1 u s2 Fi).
    - intros K. revert r s Hs Hag. induction K as [K IH] using lt_wf_ind. intros r s Hs Hag HK.
      apply (term_S _ (fun n => q <- tv n r t ;; if q : bool then o <- exb n r b ;;
              match o with ONorm r' | OCont r' => ex n r' (PWhile t b) | OBrk r' => Val (ONorm r') | ORet _ _ => Val o end
              else Val (ONorm r))); [intros; apply ex_S|].
      apply (term_bind (fun n => tv n r t) (fun n (q : bool) => if q then o <- exb n r b ;;
              match o with ONorm r' | OCont r' => ex n r' (PWhile t b) | OBrk r' => Val (ONorm r') | ORet _ _ => Val o end
              else Val (ONorm r))).
      + intros n. apply (mono1 w fns n).
      + intros n q. destruct q; [|apply le_refl]. apply le_bind; [apply (mono1 w fns n)|].
        intros o1. destruct o1; try apply le_refl; apply (mono1 w fns n).
      + apply (callfree_term w fns t Ct r).
      + intros n q Et. destruct q; [|exists 0; discriminate].
        destruct (Test r s true Hs Hag (ex_intro _ n Et)) as (R1 & A1 & Hag1).
        destruct (leaves_after w fit B _ _ _ _ _ _ HK R1) as [Hk1 HK1].
        apply (term_bind (fun n => exb n r b) (fun n o =>
              match o with ONorm r' | OCont r' => ex n r' (PWhile t b) | OBrk r' => Val (ONorm r') | ORet _ _ => Val o end)).
        * intros j. apply (mono1 w fns j).
        * intros j o1. destruct o1; try apply le_refl; apply (mono1 w fns j).
        * destruct (Yb B X' Bp F2 ltac:(nl) HX' L r _ HL3 ltac:(rewrite Cp; exact A1) Hag1) as [_ T2].
          apply (T2 (K - 1)). eapply leaves_mono; [| |exact HK1]; nl.
        * intros j o1 Eb. destruct (Cs j r _ o1 A1 Hag1 Eb) as (k2 & s2 & R2 & Fi).
          destruct (leaves_after w fit B _ _ _ _ _ _ HK1 R2) as [Hk2 HK2].
          assert (Go : forall r1, o1 = ONorm r1 \/ o1 = OCont r1 -> term (fun n => ex n r1 (PWhile t b))).
          { intros r1 Ho. destruct (Back o1 s2 r1 Fi Ho) as (k3 & s3 & R3 & A3 & Hag3).
            destruct (leaves_after w fit B _ _ _ _ _ _ HK2 R3) as [Hk3 HK3].
            exact (IH (K - 1 - k2 - k3) ltac:(nl) r1 s3 A3 Hag3 HK3). }
          destruct o1 as [r1|r1|r1|r1 u]; try (exists 0; discriminate); apply (Go r1); auto.
  Qed.

  (** ** for over a range *)
  Lemma fits_between a b c : fits w a = true -> fits w b = true -> (a <= c <= b)%Z -> fits w c = true.
  Proof using. clear. unfold fits. rewrite !andb_true_iff. destruct (mtight w); rewrite ?Z.leb_le, ?Z.ltb_lt; lia. Qed.
  (** [v] holds the number [z], in bits at width [p] *)
  Definition isn (p : Z) (s : env) (v : cv) (z : Z) : Prop :=
    eval s (cve v) = z /\ (mtight w = true -> dnum w s (cve v) p z).
  Lemma isn_ext P p s1 s2 v z : dep P v -> (forall r, P r -> s1 (User r) = s2 (User r)) -> isn p s1 v z -> isn p s2 v z.
  Proof using.
    clear. intros Dv H [E D]. split; [rewrite <- E; symmetry; exact (proj1 Dv s1 s2 H)|]. intros Q. eapply dnum_ext; [|exact (D Q)].
    exact (dep_vars w P v s1 s2 Q Dv H).
  Qed.

  Lemma for_core B cb c5 c D X X' b x g ve vs q m L pe ps ze zs :
    plain B -> body_at B q = [] -> jumps_at B q = [(S q, Some (EBin LessThan (EVar (User g)) (cve ve)), Some (S m))] ->
    body_at B m = [SSub (LVar (User g)) (opt (EBin Plus (EVar (User g)) (cve vs)))] -> goes B m q ->
    Final B cb c5 D X' -> sdyn cb c5 D (fun n r => exb n r b) -> cur cb = S q -> cur c5 = m -> S q <= m ->
    S m <= N -> (forall k, X' k <= N) -> X' KB = S m -> X' KC = m -> X' KR = X KR -> cur c = S m -> c_ret c = c_ret c5 ->
    okL L c5 -> L x = Some g -> (forall y, L y = Some g -> y = x) ->
    (forall k s s', reach B (S q) m k s s' -> (forall z, isn pe s ve z -> isn pe s' ve z) /\ (forall z, isn ps s vs z -> isn ps s' vs z)) ->
    dep (fun r => r <> g) ve -> dep (fun r => r <> g) vs -> ~ In x (assigneds b) -> (0 < zs)%Z ->
    let head a r s := at_ s q /\ s (User g) = a /\ agr L (pset r x None) s /\ isn pe s ve ze /\ isn ps s vs zs /\
        fits w a = true /\ fits w (a + Z.of_nat (range_count a ze zs) * zs) = true in
    forall a r s, head a r s ->
    (forall n o, forl n r x (py_range a ze zs) b = Val o -> exists k s', reach B q (S m) k s s' /\ fin L c X o s') /\
    (forall K, leaves B q (S m) K s -> term (fun n => forl n r x (py_range a ze zs) b)).
  Proof.
    intros Bp Hbq Hjq Hbm Hgm F Yb Ccb Cc5 Hqm Hn HX XB XC XR Cc Rt HL HLx Hinj Keep De Ds Hx Hzs head.
    (* the check *)
    assert (Check : forall a r s, head a r s -> reach B q (S m) 1 s (mstep B s) /\
       at_ (mstep B s) (if (a <? ze)%Z then S q else S m) /\ agr L (pset r x None) (mstep B s) /\
       ((a < ze)%Z -> agr L (pset r x (Some a)) (mstep B s)) /\
       isn pe (mstep B s) ve ze /\ isn ps (mstep B s) vs zs).
    { intros a r s (H1 & H2 & H3 & H4 & H5 & H6 & _). destruct (branch_step B s q _ _ _ Bp H1 Hbq Hjq) as [U1 U2]; [nl|nl|].
      assert (Et : truth (eval s (EBin LessThan (EVar (User g)) (cve ve))) = (a <? ze)%Z).
      { cbn [eval sem_bin]. rewrite H2, (proj1 H4). destruct (a <? ze)%Z; reflexivity. }
      rewrite Et in U1.
      split; [apply reach_one with (i := q); [nl|exact H1|]|].
      { eapply okst_branch; [exact Hbq|exact Hjq|exact Et|]. intros Q. right.
        apply (dboo_cmp w s PLt (EVar (User g)) (cve ve) w pe a ze); [|exact (proj2 H4 Q)].
        rewrite <- H2. apply dnum_var; [apply (opt_bits Q)|rewrite H2; exact (fits_tight w a Q H6)]. }
      split; [exact U1|]. split; [eapply agr_user; eauto|]. split; [|split].
      - intros _ y v Hy. unfold pset in Hy. destruct (Nat.eqb_spec y x) as [->|Hne].
        + inversion Hy; subst v. exists g. split; [exact HLx|]. rewrite U2. exact H2.
        + destruct (H3 y v) as [g' [G1 G2]]; [unfold pset; destruct (Nat.eqb_spec y x); congruence|].
          exists g'. rewrite U2. auto.
      - eapply isn_ext; [exact De| |exact H4]. intros r0 _. symmetry. apply U2.
      - eapply isn_ext; [exact Ds| |exact H5]. intros r0 _. symmetry. apply U2. }
    (* the body *)
    assert (Body : forall n r s o, at_ s (S q) -> agr L r s -> exb n r b = Val o ->
       exists k s', reach B q (S m) k s s' /\ fin L c5 X' o s' /\
                    (forall z, isn pe s ve z -> isn pe s' ve z) /\ (forall z, isn ps s vs z -> isn ps s' vs z)).
    { intros n r s o A1 Hag Eb. destruct (Yb B X' Bp F ltac:(nl) HX L r s HL ltac:(rewrite Ccb; exact A1) Hag) as [V _].
      destruct (V n o Eb) as (k & s' & R & Fi). exists k, s'. rewrite Ccb, Cc5 in R.
      split; [eapply reach_mono; [| |exact R]; nl|]. split; [exact Fi|]. exact (Keep k s s' R). }
    (* the increment *)
    assert (Next : forall a n r r1 s s2 o1, (a < ze)%Z -> head a r s -> exb n (pset r x (Some a)) b = Val o1 ->
       o1 = ONorm r1 \/ o1 = OCont r1 -> fin L c5 X' o1 s2 -> isn pe s2 ve ze -> isn ps s2 vs zs ->
       reach B q (S m) 1 s2 (mstep B s2) /\ head (a + zs)%Z r1 (mstep B s2)).
    { intros a n r r1 s s2 o1 Hlt (_ & _ & _ & _ & _ & Ha & Hcnt) Eb Ho Fi He Hs.
      assert (E1 : r1 x = Some a).
      { pose proof (proj1 (proj2 (modset w fns n)) _ _ _ x Eb Hx) as M. rewrite pset_same in M. destruct Ho as [->| ->]; exact M. }
      assert (A2 : at_ s2 m /\ agr L r1 s2).
      { destruct Ho as [->| ->]; destruct Fi as [A3 G]; [rewrite Cc5 in A3|rewrite XC in A3]; auto. }
      destruct A2 as [A2 Hag2]. destruct (Hag2 x a E1) as [g' [G1 G2]]. rewrite HLx in G1. inversion G1; subst g'. clear G1.
      rewrite (range_count_S a ze zs Hzs Hlt) in Hcnt.
      assert (Hf : fits w (a + zs) = true) by (eapply fits_between; [exact Ha|exact Hcnt|lia]).
      assert (U : forall r0, mstep B s2 (User r0) = if Nat.eqb r0 g then (a + zs)%Z else s2 (User r0)).
      { intros r0. rewrite (step_user fit B Bp s2 m r0 A2), Hbm. unfold execs. cbn [fold_left exec assign].
        rewrite opt_ok. cbn [eval sem_bin]. rewrite G2, (proj1 Hs), fit_user by exact Hf. destruct (Nat.eqb_spec r0 g) as [->|Hne];
          [apply vset_same|apply vset_other; congruence]. }
      split; [apply reach_one with (i := m); [nl|exact A2|]|].
      { assert (Ev : eval s2 (EBin Plus (EVar (User g)) (cve vs)) = (a + zs)%Z) by (cbn [eval sem_bin]; rewrite G2, (proj1 Hs); reflexivity).
        apply (okst_bind opt opt_ok w opt_bits fit fit_user B s2 m [g] [CE (EBin Plus (EVar (User g)) (cve vs))] q); [exact Hbm|exact Hgm| |].
        - unfold vals. cbn [map cve]. rewrite Ev. constructor; [exact Hf|constructor].
        - intros Q. constructor; [|constructor]. left. exists (Z.max w ps). cbn [cve]. rewrite Ev.
          pose proof (proj1 (opt_bits Q)) as Hw. pose proof (proj2 Hs Q) as Dz.
          assert (Dg : dnum w s2 (EVar (User g)) w a) by (rewrite <- G2; apply dnum_var; [exact Hw|rewrite G2; exact (fits_tight w a Q Ha)]).
          apply (dnum_bin w s2 PAdd (EVar (User g)) (cve vs) w ps a zs Dg Dz eq_refl). cbn [keeps_left py_bin].
          apply (range_le w); [clear - Hw; lia|exact (fits_tight w _ Q Hf)]. }
      split; [|split; [|split; [|split; [|split; [|split]]]]].
      - destruct Hgm as [Hg1 Hg2]. apply (step_goto fit B Bp s2 m); [exact A2|rewrite Hbm; repeat constructor; eauto|exact Hg1|exact Hg2|].
        apply fit_state. nl.
      - rewrite U, Nat.eqb_refl. reflexivity.
      - intros y v Hy. unfold pset in Hy. destruct (Nat.eqb_spec y x) as [|Hne]; [discriminate|].
        destruct (Hag2 y v Hy) as [g' [K1 K2]]. exists g'. split; [exact K1|]. rewrite U.
        destruct (Nat.eqb_spec g' g) as [->|]; [|exact K2]. exfalso. apply Hne. apply Hinj. exact K1.
      - eapply isn_ext; [exact De| |exact He]. intros r0 Hr0. rewrite U. destruct (Nat.eqb_spec r0 g); congruence.
      - eapply isn_ext; [exact Ds| |exact Hs]. intros r0 Hr0. rewrite U. destruct (Nat.eqb_spec r0 g); congruence.
      - exact Hf.
      - rewrite <- Hcnt. f_equal. lia. }
    assert (Brk : forall r1 s2, fin L c5 X' (OBrk r1) s2 -> fin L c X (ONorm r1) s2).
    { intros r1 s2 [A3 G]. split; [rewrite Cc, <- XB; exact A3|exact G]. }
    assert (Ret : forall r1 u s2, fin L c5 X' (ORet r1 u) s2 -> fin L c X (ORet r1 u) s2).
    { intros r1 u s2 (A3 & G & H). split; [rewrite <- XR; exact A3|]. split; [exact G|]. rewrite Rt. exact H. }
    intros a r s Hd. split.
    - intros n. revert a r s Hd. induction n as [|n IH]; intros a r s Hd o Ex; [discriminate|].
      rewrite forl_S in Ex. destruct (Check a r s Hd) as (R1 & A1 & Hag0 & Hag1 & He1 & Hs1). destruct (Z.ltb_spec a ze) as [Hlt|Hge].
      + rewrite (range_cons a ze zs Hzs Hlt) in Ex. specialize (Hag1 Hlt).
        destruct (exb n (pset r x (Some a)) b) as [o1| |] eqn:Eb; try discriminate. cbn [rbind] in Ex.
        destruct (Body n _ _ o1 A1 Hag1 Eb) as (k2 & s2 & R2 & Fi & He2 & Hs2). apply He2 in He1. apply Hs2 in Hs1. clear He2 Hs2. rename He1 into He2, Hs1 into Hs2.
        pose proof (reach_app w fit B _ _ _ _ _ _ _ R1 R2) as R12.
        assert (Go : forall r1, o1 = ONorm r1 \/ o1 = OCont r1 -> forl n r1 x (py_range (a + zs) ze zs) b = Val o ->
                  exists k s', reach B q (S m) k s s' /\ fin L c X o s').
        { intros r1 Ho Ex1. destruct (Next a n r r1 s s2 o1 Hlt Hd Eb Ho Fi He2 Hs2) as [R3 Hd3].
          destruct (IH _ r1 _ Hd3 o Ex1) as (k4 & s4 & R4 & Fi4). exists (1 + k2 + 1 + k4), s4. split; [|exact Fi4].
          eapply reach_app; [eapply reach_app; [exact R12|exact R3]|exact R4]. }
        destruct o1 as [r1|r1|r1|r1 u].
        * apply (Go r1); auto.
        * inversion Ex; subst o. exists (1 + k2), s2. split; [exact R12|]. exact (Brk r1 s2 Fi).
        * apply (Go r1); auto.
        * inversion Ex; subst o. exists (1 + k2), s2. split; [exact R12|]. exact (Ret r1 u s2 Fi).
      + rewrite (range_nil a ze zs Hzs Hge) in Ex. inversion Ex; subst o. exists 1, (mstep B s). split; [exact R1|].
        split; [rewrite Cc; exact A1|exact Hag0].
    - intros K. revert a r s Hd. induction K as [K IH] using lt_wf_ind. intros a r s Hd HK.
      destruct (Check a r s Hd) as (R1 & A1 & Hag0 & Hag1 & He1 & Hs1).
      destruct (leaves_after w fit B _ _ _ _ _ _ HK R1) as [Hk1 HK1]. destruct (Z.ltb_spec a ze) as [Hlt|Hge].
      + rewrite (range_cons a ze zs Hzs Hlt). specialize (Hag1 Hlt).
        apply (term_S _ (fun n => o <- exb n (pset r x (Some a)) b ;;
              match o with ONorm r' | OCont r' => forl n r' x (py_range (a + zs) ze zs) b
                         | OBrk r' => Val (ONorm r') | ORet _ _ => Val o end)); [intros; apply forl_S|].
        apply (term_bind (fun n => exb n (pset r x (Some a)) b) (fun n o =>
              match o with ONorm r' | OCont r' => forl n r' x (py_range (a + zs) ze zs) b
                         | OBrk r' => Val (ONorm r') | ORet _ _ => Val o end)).
        * intros j. apply (mono1 w fns j).
        * intros j o1. destruct o1; try apply le_refl; apply (mono1 w fns j).
        * destruct (Yb B X' Bp F ltac:(nl) HX L (pset r x (Some a)) _ HL ltac:(rewrite Ccb; exact A1) Hag1) as [_ T2].
          apply (T2 (K - 1)). rewrite Ccb, Cc5. eapply leaves_mono; [| |exact HK1]; nl.
        * intros j o1 Eb. destruct (Body j _ _ o1 A1 Hag1 Eb) as (k2 & s2 & R2 & Fi & He2 & Hs2). apply He2 in He1. apply Hs2 in Hs1. clear He2 Hs2. rename He1 into He2, Hs1 into Hs2.
          destruct (leaves_after w fit B _ _ _ _ _ _ HK1 R2) as [Hk2 HK2].
          assert (Go : forall r1, o1 = ONorm r1 \/ o1 = OCont r1 -> term (fun n => forl n r1 x (py_range (a + zs) ze zs) b)).
          { intros r1 Ho. destruct (Next a j r r1 s s2 o1 Hlt Hd Eb Ho Fi He2 Hs2) as [R3 Hd3].
            destruct (leaves_after w fit B _ _ _ _ _ _ HK2 R3) as [Hk3 HK3].
            exact (IH (K - 1 - k2 - 1) ltac:(nl) _ r1 _ Hd3 HK3). }
          destruct o1 as [r1|r1|r1|r1 u]; try (exists 0; discriminate); apply (Go r1); auto.
      + rewrite (range_nil a ze zs Hzs Hge). exists 1. discriminate.
  Qed.

  Definition gdv (s1 : env) (v1 : cv) (s2 : env) (v2 : cv) : Prop :=
    eval s2 (cve v2) = eval s1 (cve v1) /\ (mtight w = true -> gd w s1 v1 -> gd w s2 v2).
  Lemma gdv_ext P s1 s2 v : dep P v -> (forall r, P r -> s2 (User r) = s1 (User r)) -> gdv s1 v s2 v.
  Proof using.
    clear. intros Dv H. split; [exact (proj1 Dv s2 s1 H)|]. intros Q. apply gd_ext. intros u Hu. symmetry.
    exact (dep_vars w P v s2 s1 Q Dv H u Hu).
  Qed.
  Lemma disjoint_in a b x : disjoint a b = true -> In x a -> ~ In x b.
  Proof using.
    clear. unfold disjoint. rewrite forallb_forall. intros H Ha Hb. specialize (H x Ha). apply negb_true_iff in H.
    rewrite <- not_true_iff_false in H. apply H. apply existsb_exists. exists x. split; [exact Hb|apply Nat.eqb_refl].
  Qed.

  Definition optv (o : option pexpr) (d : Z) (n : nat) (r : penv) : res Z := match o with None => Val d | Some e => ev n r e end.
  Definition optw (o : option pexpr) : Z := match o with None => 32 | Some e => pw w e end.
  Definition vdyn (nm : bool) (p : Z) (c0 c1 : cst) (v : cv) (f : nat -> penv -> res Z) : Prop :=
    forall B X, plain B -> Final B c0 c1 [] X -> cur c1 <= N ->
    forall L r s, okL L c1 -> at_ s (cur c0) -> agr L r s ->
      (forall n z, f n r = Val z -> exists k s', reach B (cur c0) (cur c1) k s s' /\ at_ s' (cur c1) /\
         eval s' (cve v) = z /\ (mtight w = true -> gd w s' v) /\ (nm = true -> mtight w = true -> dnum w s' (cve v) p z)) /\
      (forall K, leaves B (cur c0) (cur c1) K s -> term (fun n => f n r)).
  Lemma copt_ok c0 o d c1 v : copt opt callf c0 o d = Some (c1, v) -> inv c0 -> opt_all wf_expr o = true ->
    (mtight w = true -> opt_all typed o = true) -> (- 2 ^ 31 < d < 2 ^ 31)%Z ->
    pure c0 c1 /\ dep (regs (opt_names o) c0 c1) v /\ vdyn (opt_all numeric o) (optw o) c0 c1 v (optv o d).
  Proof.
    intros E I Wf O Hd. unfold copt in E. destruct o as [e|].
    - destruct (expr_ok e _ _ _ E I Wf O) as [[P Dv _ _] Y]. split; [exact P|]. split; [exact Dv|].
      intros B X Bp F Hn L r s HL Hs Ha. destruct (Y B X Bp F Hn L r s HL Hs Ha) as (V & _ & T). split.
      + intros n z Ez. destruct (V n z Ez) as (k & s' & R & A & Vk). exists k, s'. split; [exact R|]. split; [exact A|].
        split; [exact (proj1 Vk)|]. split; [exact (vok_gd w e s' v z O Vk)|]. intros Nm Q. pose proof (proj2 Vk Q) as D.
        cbn [opt_all] in Nm. unfold numeric in Nm. unfold den in D. destruct (ty e) as [[|]|]; try discriminate. exact D.
      + intros K HK. apply (T K HK).
    - inversion E; subst. split; [apply pure_refl; exact I|]. split; [apply dep_zero|].
      intros B X Bp F Hn L r s HL Hs Ha. split.
      + intros n z Ez. inversion Ez; subst. exists 0, s. split; [constructor|]. split; [exact Hs|]. split; [reflexivity|].
        split; [intros _; left; exists 32%Z; apply dnum_int; exact Hd|]. intros _ _. apply dnum_int. exact Hd.
      + intros K _. exists 0. discriminate.
  Qed.

  Lemma scoped_gen c c3 b h : Pblock b -> scoped c (fun c => cblock (h c) b) = Some c3 -> inv (h c) -> wf_block false b = true ->
    (mtight w = true -> ty_block b = true) ->
    let ce := w_sub (w_own c pend0) pend0 in
    same4 (h c) (h ce) -> c_own (h ce) = pend0 -> c_sub (h ce) = pend0 -> c_own (h c) = c_own c -> c_sub (h c) = c_sub c ->
    exists D, sstat (assigneds b) (escapess b) (h c) c3 D /\ c_own c3 = c_own c /\ sdyn (h c) c3 D (fun n r => exb n r b).
  Proof.
    intros Hb E I Wf O ce S4 Oe Se Oc Sc. unfold scoped in E. fold ce in E.
    destruct (cblock (h ce) b) as [c'|] eqn:Eb; [|discriminate]. injection E as E3. subst c3.
    destruct (Hb false (h ce) c' Eb (invk_proj _ _ _ S4 I) Wf O) as (D & [X1 P1 Q1] & _ & Y1).
    { intros _. unfold pl. rewrite Oe, Se. split; reflexivity. }
    assert (S4' : same4 (h ce) (h c)). { destruct S4 as (A1 & A2 & A3 & A4). repeat split; congruence. }
    assert (Cu : cur (h c) = cur (h ce)) by (unfold cur; destruct S4 as (A1 & _); rewrite A1; reflexivity).
    exists D. split; [|split].
    - split.
      + eapply ext_proj; [exact S4'| |exact X1]; repeat split.
      + destruct P1 as [A1 A2 A3 A4]. split; [|rewrite Cu; exact A2|exact A3|exact A4].
        intros k i. unfold pl. cbn [c_own c_sub w_sub w_own]. rewrite Oc, Sc, !pk_app, !in_app_iff.
        specialize (A1 k i). unfold pl in A1. rewrite in_app_iff, Oe, Se in A1. rewrite pk_0 in A1. cbn [app In] in A1. tauto.
      + exact Q1.
    - reflexivity.
    - intros B X Bp F Hn HX L r s HL Hs Ha. assert (Sk : skip (h ce) = false) by (unfold skip; rewrite Oe; reflexivity).
      rewrite Cu in *. refine (Y1 Sk B X Bp _ Hn HX L r s HL Hs Ha). destruct F as (F1 & F2 & F3). rewrite Cu in F1, F2.
      split; [exact F1|]. split; assumption.
  Qed.

  Lemma inc_own c : c_own (inc c) = c_own c. Proof using. reflexivity. Qed.
  Lemma inc_sub c : c_sub (inc c) = c_sub c. Proof using. reflexivity. Qed.
  Lemma inc_lookup c x : lookup (inc c) x = lookup c x. Proof using. reflexivity. Qed.
  Definition enter (g : nat) (v : cv) (c : cst) : cst := inc (next (set_bind opt c g v)).
  Lemma enter_own g v c : c_own (enter g v c) = c_own c. Proof using. reflexivity. Qed.
  Lemma enter_sub g v c : c_sub (enter g v c) = c_sub c. Proof using. reflexivity. Qed.
  Lemma enter_lookup g v c x : lookup (enter g v c) x = lookup c x. Proof using. reflexivity. Qed.
  Lemma enter_same g v c o s : same4 (enter g v c) (enter g v (w_sub (w_own c o) s)).
  Proof using. destruct c. repeat split. Qed.

  Lemma for_case x beg en st b : Pblock b -> Pstmt (PFor x beg en st b).
  Proof.
    intros Hb c0 c E I Wf O Hl. cbn [Comp_Model.cstmt] in E. destruct (skip c0) eqn:Sk.
    { inversion E; subst. exists []. split; [apply skipped; exact I|]. split; [auto|discriminate]. }
    destruct (Hl eq_refl) as [PB PC]. clear Hl.
    ob E E1. destruct p as [c1 vb]. ob E E2. destruct p as [c2 ve]. ob E E3. destruct p as [c3 vs].
    destruct (get_store c3 x) as [c4 g] eqn:Eg.
    ob E E5. cbn [wf_stmt] in Wf. rewrite !andb_true_iff in Wf. destruct Wf as (((((W1 & W2) & W3) & W4) & W5) & Wb).
    assert (Ok : mtight w = true -> ((opt_all typed beg = true /\ numeric en = true) /\ opt_all numeric st = true) /\ ty_block b = true).
    { intros Q. specialize (O Q). cbn [ty_stmt] in O. rewrite !andb_true_iff in O. exact O. }
    assert (Nt : forall e, numeric e = true -> typed e = true) by (intros e; unfold numeric, typed; destruct (ty e) as [[|]|]; congruence).
    assert (Oen : okty en) by (intros Q; apply Nt, (Ok Q)).
    assert (Ost : mtight w = true -> opt_all typed st = true).
    { intros Q. destruct st as [e|]; [|reflexivity]. apply Nt. exact (proj2 (proj1 (Ok Q))). }
    destruct (copt_ok _ _ _ _ _ E1 I W1 (fun Q => proj1 (proj1 (proj1 (Ok Q)))) (conj eq_refl eq_refl)) as (P1 & D1 & Y1). pose proof (pure_inv _ _ P1) as I1.
    destruct (expr_ok en _ _ _ E2 I1 W2 Oen) as [[P2 D2 _ _] Y2]. pose proof (pure_inv _ _ P2) as I2.
    destruct (copt_ok _ _ _ _ _ E3 I2 W3 Ost (conj eq_refl eq_refl)) as (P3 & D3 & Y3). pose proof (pure_inv _ _ P3) as I3.
    pose proof (pure_trans _ _ _ P1 P2) as P02. pose proof (pure_trans _ _ _ P02 P3) as P03.
    destruct (get_store_fields c3 x c4 g Eg) as (Gf & Gr & Go & Gs & Gt & Gl).
    pose proof (get_store_new c3 x c4 g Eg) as Gn. pose proof (get_store_lookup c3 x c4 g Eg) as GL.
    set (ci := next (set_bind opt c4 g vb)) in *.
    assert (Ei : next (assigns opt c3 [(x, vb)]) = ci).
    { unfold assigns. cbn [fold_left]. unfold assign1. cbn [fst snd]. rewrite Eg. reflexivity. }
    destruct (assign_ok opt opt_ok w opt_bits fit N fit_user fit_state c3 [(x, vb)] I3) as (Xi & Oi & Si & Ci & Yi). rewrite Ei in *.
    cbn [map fst snd] in Xi, Yi.
    assert (X0i : ext 0 [x] true c0 ci).
    { apply (ext_trans 0 [] [x] true c0 c3 ci); (eapply ext_incl; [apply incl_refl| |]; [|apply P03||exact Xi]; discriminate). }
    assert (X3i : ext 0 [x] true c3 ci) by (eapply ext_incl; [apply incl_refl| |exact Xi]; discriminate).
    set (h := enter g vb).
    assert (E5' : scoped c4 (fun c => cblock (h c) b) = Some c5) by exact E5. clear E5.
    set (cb := inc ci) in *. assert (Hcb : h c4 = cb) by reflexivity.
    assert (X0b : ext 0 [x] true c0 cb) by (apply (ext_inc 0); [nl|exact X0i]).
    assert (X3b : ext 0 [x] true c3 cb) by (apply (ext_inc 0); [nl|exact X3i]).
    destruct (scoped_gen c4 c5 b h Hb E5' (x_inv _ _ _ _ _ X0b) Wb (fun Q => proj2 (Ok Q))) as (D & [Xb Pb Qb] & Ob & Yb); [apply enter_same|apply enter_own|apply enter_sub|apply enter_own|apply enter_sub|].
    assert (Lbx : lookup cb x = Some g) by (rewrite <- Hcb; unfold h; rewrite enter_lookup; exact Gn). rewrite Hcb in *. clear h Hcb E5'.  clear Ei. clearbody ci.
    pose proof (ext_trans 0 [x] (assigneds b) true c0 cb c5 X0b Xb) as X05. cbn [app] in X05.
    pose proof (ext_trans 0 [x] (assigneds b) true c3 cb c5 X3b Xb) as X35. cbn [app] in X35.
    pose proof (x_cur _ _ _ _ _ Xb) as Cb5. assert (Cb : cur cb = S (cur ci)) by reflexivity.
    assert (C4 : cur c4 = cur c3) by (unfold cur; rewrite Gf; reflexivity).
    pose proof (x_cur _ _ _ _ _ (pu_ext _ _ P1)) as C01. pose proof (x_cur _ _ _ _ _ (pu_ext _ _ P2)) as C12.
    pose proof (x_cur _ _ _ _ _ (pu_ext _ _ P3)) as C23.
    pose proof (x_tmp _ _ _ _ _ (pu_ext _ _ P1)) as T01. pose proof (x_tmp _ _ _ _ _ (pu_ext _ _ P2)) as T12.
    pose proof (x_tmp _ _ _ _ _ (pu_ext _ _ P3)) as T23. pose proof (x_tmp _ _ _ _ _ X3b) as T3b.
    assert (L5x : lookup c5 x = Some g). { apply (x_l1 _ _ _ _ _ Xb). exact Lbx. }
    injection E as E4.
    set (q := cur ci) in *. set (m := cur c5) in *. set (upd := CE (EBin Plus (EVar (User g)) (cve vs))) in *.
    set (cnd := EBin LessThan (EVar (User g)) (cve ve)) in *.
    set (c6 := inc (set_bind opt c5 g upd)) in *.
    assert (C6 : cur c6 = S m) by reflexivity. rewrite C6, C4 in E4. rewrite <- Ci in E4. fold q in E4.
    set (c7 := set_fsm c6 m q None None) in *. set (c8 := set_fsm c7 q (S q) (Some cnd) (Some (S m))) in *.
    pose proof (i_plain _ _ (x_inv _ _ _ _ _ Xb)) as Pl5.
    assert (Pl6 : plain (c_fsm c6)) by (apply inc_plain, set_bind_plain; exact Pl5).
    assert (Pl7 : plain (c_fsm c7)) by (apply set_fsm_plain; exact Pl6).
    assert (Hq : cur c3 < q) by (rewrite Ci; nl). assert (Hqm : q < m) by (unfold m; nl).
    assert (X08 : ext 0 (x :: assigneds b) true c0 c8).
    { apply ext_goto; [apply ext_goto; [apply (ext_inc 1); [nl|]|]|].
      - apply (ext_bind opt 0); [nl|exact X05|]. right. left. exists x. split; [left; reflexivity|exact L5x].
      - rewrite C6. nl.
      - change (cur c7) with (S m). nl. }
    assert (J6 : forall i, jp c6 i = jp c5 i) by (intros i; unfold c6; rewrite inc_jp; apply set_bind_jp).
    assert (B8 : forall i, bd c8 i = bd (set_bind opt c5 g upd) i) by (intros i; unfold c8, c7, c6; rewrite !set_fsm_bd; apply inc_bd).
    assert (Own8 : c_own c8 = c_own c5) by reflexivity. assert (Sub8 : c_sub c8 = c_sub c5) by reflexivity.
    assert (C8 : cur c8 = S m) by reflexivity. assert (C7 : cur c7 = S m) by reflexivity.
    assert (Ret8 : c_ret c8 = c_ret c5) by reflexivity. assert (Tmp8 : c_tmp c8 = c_tmp c5) by reflexivity.
    assert (Lk8 : forall y, lookup c8 y = lookup c5 y) by reflexivity.
    assert (J8o : forall i, i <> q -> i <> m -> jp c8 i = jp c5 i).
    { intros i H1 H2. unfold c8. rewrite set_fsm_jp_other by assumption. unfold c7. rewrite set_fsm_jp_other by assumption. apply J6. }
    
    assert (J6q : jp c6 q = []).
    { rewrite J6. rewrite (x_j _ _ _ _ _ Xb) by nl. unfold cb. rewrite inc_jp. apply (i_jp _ _ (x_inv _ _ _ _ _ Xi)). fold q. nl. }
    assert (J6m : jp c6 m = []) by (rewrite J6; apply (i_jp _ _ (x_inv _ _ _ _ _ Xb)); fold m; nl).
    assert (J8q : jp c8 q = [(S q, Some cnd, Some (S m))]).
    { unfold c8. apply set_fsm_jp_same; [exact Pl7|]. unfold c7. rewrite set_fsm_jp_other by (assumption || nl). exact J6q. }
    assert (J8m : jp c8 m = [(q, None, None)]).
    { unfold c8. rewrite set_fsm_jp_other by (assumption || nl). unfold c7. apply set_fsm_jp_same; assumption. }
    assert (B8o : forall i, i <> m -> bd c8 i = bd c5 i).
    { intros i Hi. rewrite B8, set_bind_bd. fold m.
      destruct (Nat.eqb_spec m i); [congruence|apply app_nil_r]. }
    assert (B8m : bd c8 m = [SSub (LVar (User g)) (opt (EBin Plus (EVar (User g)) (cve vs)))]).
    { rewrite B8, set_bind_bd. fold m. rewrite Nat.eqb_refl.
      rewrite (i_bd _ _ (x_inv _ _ _ _ _ Xb)) by (fold m; nl). reflexivity. }
    assert (B5q : bd c5 q = []).
    { rewrite (x_b _ _ _ _ _ Xb) by nl. unfold cb. rewrite inc_bd. apply (i_bd _ _ (x_inv _ _ _ _ _ Xi)). fold q. nl. }
    assert (DR : forall k i, In (k, i) D -> S q <= i < m) by (intros k i H; pose proof (d_rng _ _ _ Pb k i H) as Q; fold m in Q; nl).
    assert (Ocb : c_own cb = c_own c0) by exact (eq_trans (inc_own ci) (eq_trans Oi (pu_own _ _ P03))).
    assert (Scb : c_sub cb = c_sub c0) by exact (eq_trans (inc_sub ci) (eq_trans Si (pu_sub _ _ P03))).
    assert (P08 : pd c0 c8 D).
    { split; [| | |exact (d_fun _ _ _ Pb)].
      - intros k i. pose proof (d_in _ _ _ Pb k i) as Q. unfold pl in *. rewrite Own8, Sub8, Q, Ocb, Scb. reflexivity.
      - intros k i H. specialize (DR k i H). rewrite C8. nl.
      - intros k i H. rewrite J8o; [exact (d_jp _ _ _ Pb k i H)| |]; specialize (DR k i H); nl. }
    destruct (end_loop_spec (x :: assigneds b) c0 c8 D (S m) m X08 P08 PB PC) as (Xc & Pc & Cc & Bc & Rc & Tc & Lc & Oc & Jc & JBc & JCc).
    rewrite E4 in Xc, Pc, Cc, Bc, Rc, Tc, Lc, Oc, Jc, JBc, JCc. rewrite C8 in Cc.
    rewrite Ret8 in Rc. rewrite Tmp8 in Tc.
    assert (Lc5 : forall y, lookup c y = lookup c5 y) by (intros y; rewrite Lc; apply Lk8). clear Lc.
    exists (filter kr D). split; [|split].
    { split; [exact Xc|exact Pc|]. intros _ k i H. apply in_kr in H. apply H. }
    { left. apply Oc. rewrite Own8, Ob, Go. exact (pu_own _ _ P03). }
    (* what the bound and the step depend on *)
    set (Kp := fun r => r < c_tmp c3 /\ (c_tmp c0 <= r \/ exists z, In z (names en ++ opt_names st) /\ lookup c0 z = Some r)).
    assert (Kve : dep Kp ve).
    { eapply dep_incl; [|exact D2]. intros r [H1 [H2|[z [H2 H3]]]].
      - split; [nl|left; nl].
      - split; [nl|]. right. exists z. split; [apply in_or_app; auto|]. rewrite <- (pure_lookup _ _ z P1). exact H3. }
    assert (Kvs : dep Kp vs).
    { eapply dep_incl; [|exact D3]. intros r [H1 [H2|[z [H2 H3]]]].
      - split; [nl|left; nl].
      - split; [nl|]. right. exists z. split; [apply in_or_app; auto|]. rewrite <- (pure_lookup _ _ z P02). exact H3. }
    assert (Kg : forall r, Kp r -> r <> g).
    { intros r [H1 H2] ->. destruct (GL x g Gn) as [Hx|(_ & _ & Hx)]; [|nl]. rewrite (pure_lookup _ _ x P03) in Hx.
      pose proof (i_vars _ _ I x g Hx). destruct H2 as [H2|[z [H2 H3]]]; [nl|].
      assert (z = x) by (eapply (i_inj _ _ I); eauto). subst z.
      exact (disjoint_in _ _ x W5 (or_introl eq_refl) H2). }
    assert (Kb : forall r, Kp r -> ~ wr (assigneds b) true cb c5 r).
    { intros r [H1 H2] [Hw|[[y [Hy1 Hy2]]|[_ Hr]]].
      - nl.
      - destruct (x_l2 _ _ _ _ _ X35 y r Hy2) as [Hy3|[Hy3 _]]; [|nl]. rewrite (pure_lookup _ _ y P03) in Hy3.
        pose proof (i_vars _ _ I y r Hy3). destruct H2 as [H2|[z [H2 H3]]]; [nl|].
        assert (z = y) by (eapply (i_inj _ _ I); eauto). subst z.
        exact (disjoint_in _ _ y W4 (or_intror H2) Hy1).
      - destruct (x_r2 _ _ _ _ _ X35 r Hr) as [Hr3|[Hr3 _]]; [|nl]. rewrite (pure_ret _ _ P03) in Hr3.
        pose proof (i_ret _ _ I r Hr3). destruct H2 as [H2|[z [H2 H3]]]; [nl|]. exact (i_ret' _ _ I r z Hr3 H3). }
    intros _ B X Bp F Hn HX L r s HL Hs Hag.
    set (X' := fun k => match k with KB => S m | KC => m | KR => X KR end).
    assert (HX' : forall k, X' k <= N) by (intros []; cbn; [nl|nl|apply HX]).
    assert (Bo : forall i, i < q -> bd c i = bd ci i).
    { intros i Hi. rewrite Bc, B8o by nl. rewrite (x_b _ _ _ _ _ Xb) by nl. apply inc_bd. }
    assert (Jo : forall i, i < q -> jp c i = jp ci i).
    { intros i Hi. rewrite Jc by (intros k _ H; specialize (DR k i H); nl). rewrite J8o by nl. rewrite (x_j _ _ _ _ _ Xb) by nl. apply inc_jp. }
    assert (nD : forall i, ~ S q <= i < m -> forall k, ~ In (k, i) (filter kr D)).
    { intros i Hi k H. apply in_kr in H. apply Hi. exact (DR k i (proj1 H)). }
    assert (F03 : Final B c0 c3 [] X).
    { apply (final_sub B c0 c (filter kr D) X); [exact F|nl|rewrite Cc; nl| | |intros ? ? []].
      - intros i Hi. rewrite Bo by nl. apply (x_b _ _ _ _ _ Xi). nl.
      - intros i Hi _. split; [apply nD; nl|]. rewrite Jo by nl. apply (x_j _ _ _ _ _ Xi). nl. }
    assert (F3i : Final B c3 ci [] X).
    { apply (final_sub B c0 c (filter kr D) X); [exact F|nl|rewrite Cc; nl| | |intros ? ? []].
      - intros i Hi. apply Bo. nl.
      - intros i Hi _. split; [apply nD; nl|]. apply Jo. nl. }
    destruct F as (G1 & G2 & G3). rewrite Cc in G1, G2, Hn |- *.
    assert (F5 : Final B cb c5 D X').
    { split; [|split].
      - intros i Hi. fold m in Hi. rewrite G1, Bc, B8o by nl. reflexivity.
      - intros i Hi Hk. fold m in Hi. rewrite G2; [|nl|intros k H; apply in_kr in H; exact (Hk k (proj1 H))].
        rewrite Jc by (intros k _; apply Hk). apply J8o; nl.
      - intros k i H. pose proof (DR k i H) as Hr. destruct k; unfold goes, X'.
        + rewrite G2; [exact (JBc i H)|nl|]. intros k H'. apply in_kr in H'. destruct H' as [H' ->].
          pose proof (d_fun _ _ _ Pb _ _ _ H H'). discriminate.
        + rewrite G2; [exact (JCc i H)|nl|]. intros k H'. apply in_kr in H'. destruct H' as [H' ->].
          pose proof (d_fun _ _ _ Pb _ _ _ H H'). discriminate.
        + apply G3. apply in_kr. auto. }
    assert (Hbq : body_at B q = []) by (rewrite G1, Bc, B8o by nl; exact B5q).
    assert (Hbm : body_at B m = [SSub (LVar (User g)) (opt (EBin Plus (EVar (User g)) (cve vs)))]) by (rewrite G1, Bc by nl; exact B8m).
    assert (Hjq : jumps_at B q = [(S q, Some cnd, Some (S m))]).
    { rewrite G2; [|nl|apply nD; nl]. rewrite Jc by (intros k _ H; specialize (DR k q H); nl). exact J8q. }
    assert (Hgm : goes B m q).
    { unfold goes. rewrite G2; [|nl|apply nD; nl]. rewrite Jc by (intros k _ H; specialize (DR k m H); nl).
      rewrite J8m. split; [discriminate|repeat constructor]. }
    assert (HL5 : okL L c5).
    { intros y g' Hg. rewrite (HL y g') by (rewrite Tc; exact Hg). rewrite Lc5. reflexivity. }
    assert (HLi : okL L ci) by exact (okL_back _ _ _ L cb c5 (x_inv _ _ _ _ _ X0b) Xb HL5).
    assert (HL3 : okL L c3) by exact (okL_back _ _ _ L c3 ci I3 Xi HLi).
    assert (HL2 : okL L c2) by exact (okL_back _ _ _ L c2 c3 I2 (pu_ext _ _ P3) HL3).
    assert (HL1 : okL L c1) by exact (okL_back _ _ _ L c1 c2 I1 (pu_ext _ _ P2) HL2).
    assert (HLx : L x = Some g) by (apply HL5; [exact (i_vars _ _ (x_inv _ _ _ _ _ Xb) x g L5x)|exact L5x]).
    assert (Hinj : forall y, L y = Some g -> y = x).
    { intros y Hy. apply (i_inj _ _ (x_inv _ _ _ _ _ Xb) y x g); [|exact L5x].
      apply HL5; [exact (i_vars _ _ (x_inv _ _ _ _ _ Xb) x g L5x)|exact Hy]. }
    set (pe := pw w en) in *. set (ps := optw st) in *.
    assert (Keep : forall k s s', reach B (S q) m k s s' -> (forall z, isn pe s ve z -> isn pe s' ve z) /\ (forall z, isn ps s vs z -> isn ps s' vs z)).
    { intros k s1 s2 R. assert (Fr : forall r0, Kp r0 -> s2 (User r0) = s1 (User r0)).
      { intros r0 Hr0. exact (ext_frame w fit B 0 (assigneds b) true cb c5 D X' k s1 s2 r0 Bp Xb F5 R (Kb r0 Hr0)). }
      split; intros z; apply (isn_ext Kp); try assumption; intros r0 Hr0; symmetry; exact (Fr r0 Hr0). }
    destruct (final_split0 B c0 c2 c3 X P02 P3 F03) as [F02 F23]. destruct (final_split0 B c0 c1 c2 X P1 P2 F02) as [F01 F12].
    (* evaluation of the bounds *)
    destruct (Y1 B X Bp F01 ltac:(nl) L r s HL1 Hs Hag) as [V1 TT1].
    assert (Ag1 : forall k s1, reach B (cur c0) (cur c1) k s s1 -> agr L r s1).
    { intros k s1 R. exact (pure_agr w fit B c0 c1 X k s s1 L r Bp I P1 F01 R HL1 Hag). }
    assert (Ag2 : forall k s1 s2, agr L r s1 -> reach B (cur c1) (cur c2) k s1 s2 -> agr L r s2).
    { intros k s1 s2 Ha R. exact (pure_agr w fit B c1 c2 X k s1 s2 L r Bp I1 P2 F12 R HL2 Ha). }
    assert (Ag3 : forall k s2 s3, agr L r s2 -> reach B (cur c2) (cur c3) k s2 s3 -> agr L r s3).
    { intros k s2 s3 Ha R. exact (pure_agr w fit B c2 c3 X k s2 s3 L r Bp I2 P3 F23 R HL3 Ha). }
    assert (K12 : forall k s1 s2, reach B (cur c1) (cur c2) k s1 s2 -> gdv s1 vb s2 vb).
    { intros k s1 s2 R. apply (gdv_ext _ _ _ _ D1). intros r0 [Hr0 _]. exact (pure_frame w fit B c1 c2 X k s1 s2 r0 Bp P2 F12 R Hr0). }
    assert (K23 : forall k s2 s3, reach B (cur c2) (cur c3) k s2 s3 -> gdv s2 vb s3 vb /\ (forall z, isn pe s2 ve z -> isn pe s3 ve z)).
    { intros k s2 s3 R. split.
      - apply (gdv_ext _ _ _ _ D1). intros r0 [Hr0 _]. exact (pure_frame w fit B c2 c3 X k s2 s3 r0 Bp P3 F23 R ltac:(nl)).
      - intros z. apply (isn_ext _ _ _ _ _ _ D2). intros r0 [Hr0 _]. symmetry. exact (pure_frame w fit B c2 c3 X k s2 s3 r0 Bp P3 F23 R Hr0). }
    assert (Hen : forall s2 ze, vok en s2 ve ze -> isn pe s2 ve ze).
    { intros s2 ze [Z1 Z2]. split; [exact Z1|]. intros Q. specialize (Z2 Q). unfold den in Z2. pose proof (proj2 (proj1 (proj1 (Ok Q)))) as Nm.
      unfold numeric in Nm. destruct (ty en) as [[|]|]; try discriminate. exact Z2. }
    (* entering the loop *)
    assert (Enter : forall s3 zb, at_ s3 (cur c3) -> agr L r s3 -> eval s3 (cve vb) = zb -> (mtight w = true -> gd w s3 vb) -> fits w zb = true ->
      reach B (cur c0) (S m) 1 s3 (mstep B s3) /\ at_ (mstep B s3) q /\ mstep B s3 (User g) = zb /\
      agr L (pset r x None) (mstep B s3) /\ 
      (forall z, isn pe s3 ve z -> isn pe (mstep B s3) ve z) /\ (forall z, isn ps s3 vs z -> isn ps (mstep B s3) vs z)).
    { intros s3 zb A3 Ha Ez Hgd Hf.
      destruct (Yi B X Bp F3i ltac:(nl) L r s3 HLi A3 Ha) as (R4 & A4 & Ha4); [repeat constructor; rewrite Ez; exact Hf|intros Q; constructor; [exact (Hgd Q)|constructor]|].
      unfold vals in Ha4. cbn [map] in Ha4. rewrite Ez in Ha4. change (psets r [x] [zb]) with (pset r x (Some zb)) in Ha4.
      assert (Fr : forall r0, Kp r0 -> mstep B s3 (User r0) = s3 (User r0)).
      { intros r0 Hr0. refine (ext_frame w fit B 0 [x] false c3 ci [] X 1 s3 _ r0 Bp Xi F3i R4 _).
        intros [Hw|[[y [[->|[]] Hy]]|[Hw _]]]; [destruct Hr0; nl| |discriminate]. apply (Kg r0 Hr0).
        assert (Hy5 : lookup c5 y = Some r0) by (apply (x_l1 _ _ _ _ _ Xb); unfold cb; rewrite inc_lookup; exact Hy). congruence. }
      split; [eapply reach_mono; [| |exact R4]; nl|]. split; [exact A4|]. split; [|split; [|split]].
      - destruct (Ha4 x zb (pset_same _ _ _)) as [g' [K1 K2]]. rewrite HLx in K1. inversion K1; subst. exact K2.
      - intros y v Hy. unfold pset in Hy. destruct (Nat.eqb_spec y x) as [|Hne]; [discriminate|]. apply Ha4. unfold pset.
        destruct (Nat.eqb_spec y x); [congruence|exact Hy].
      - intros z. apply (isn_ext _ _ _ _ _ _ Kve). intros r0 Hr0. symmetry. exact (Fr r0 Hr0).
      - intros z. apply (isn_ext _ _ _ _ _ _ Kvs). intros r0 Hr0. symmetry. exact (Fr r0 Hr0). }
    pose proof (dep_incl _ _ _ _ Kg Kve) as Gve. pose proof (dep_incl _ _ _ _ Kg Kvs) as Gvs.
    assert (Hxb : ~ In x (assigneds b)) by exact (disjoint_in _ _ x W4 (or_introl eq_refl)).
    assert (Core : forall zb ze zs s4, (0 < zs)%Z -> fits w zb = true -> fits w (zb + Z.of_nat (range_count zb ze zs) * zs) = true ->
       at_ s4 q -> s4 (User g) = zb -> agr L (pset r x None) s4 -> isn pe s4 ve ze -> isn ps s4 vs zs ->
       (forall n o, forl n r x (py_range zb ze zs) b = Val o -> exists k s', reach B q (S m) k s4 s' /\ fin L c X o s') /\
       (forall K, leaves B q (S m) K s4 -> term (fun n => forl n r x (py_range zb ze zs) b))).
    { intros zb ze zs s4 Hzs Hf1 Hf2 A4 Q1 Q2 Q3 Q4.
      refine (for_core B cb c5 c D X X' b x g ve vs q m L pe ps ze zs Bp Hbq Hjq Hbm Hgm F5 Yb Cb eq_refl ltac:(nl) Hn HX'
        eq_refl eq_refl eq_refl Cc Rc HL5 HLx Hinj Keep Gve Gvs Hxb Hzs zb r s4 _).
      split; [exact A4|]. split; [exact Q1|]. split; [exact Q2|]. split; [exact Q3|]. split; [exact Q4|]. split; assumption. }
    assert (Widen : forall p p' k s1 s2, cur c0 <= p -> p' <= S m -> reach B p p' k s1 s2 -> reach B (cur c0) (S m) k s1 s2).
    { intros p p' k s1 s2 H1 H2 R. eapply reach_mono; [exact H1|exact H2|exact R]. }
    split.
    - intros n o Ex. destruct n as [|n]; [discriminate|]. rewrite ex_S in Ex. fold (optv beg 0 n r) in Ex. fold (optv st 1 n r) in Ex.
      destruct (optv beg 0 n r) as [zb| |] eqn:Z1; try discriminate. cbn [rbind] in Ex.
      destruct (ev n r en) as [ze| |] eqn:Z2; try discriminate. cbn [rbind] in Ex.
      destruct (optv st 1 n r) as [zs| |] eqn:Z3; try discriminate. cbn [rbind] in Ex.
      unfold guard in Ex. destruct ((0 <? zs)%Z && fits w zb && fits w (zb + Z.of_nat (range_count zb ze zs) * zs)) eqn:Gd; [|discriminate].
      rewrite !andb_true_iff, Z.ltb_lt in Gd. destruct Gd as [[Hzs Hf1] Hf2].
      destruct (V1 n zb Z1) as (k1 & s1 & R1 & A1 & Q1 & Q1g & _). pose proof (Ag1 k1 s1 R1) as H1.
      destruct (Y2 B X Bp F12 ltac:(nl) L r s1 HL2 A1 H1) as (V2 & _ & _).
      destruct (V2 n ze Z2) as (k2 & s2 & R2 & A2 & Q2). pose proof (Ag2 k2 s1 s2 H1 R2) as H2.
      destruct (Y3 B X Bp F23 ltac:(nl) L r s2 HL3 A2 H2) as (V3 & _).
      destruct (V3 n zs Z3) as (k3 & s3 & R3 & A3 & Q3 & _ & Q3n). pose proof (Ag3 k3 s2 s3 H2 R3) as H3.
      destruct (K23 k3 s2 s3 R3) as [Q4 Q5].
      destruct (Enter s3 zb A3 H3) as (R4 & A4 & U1 & U2 & U3 & U4); [rewrite (proj1 Q4), (proj1 (K12 k2 s1 s2 R2)); exact Q1|intros Q; apply (proj2 Q4 Q), (proj2 (K12 k2 s1 s2 R2) Q), Q1g, Q|exact Hf1|].
      destruct (Core zb ze zs _ Hzs Hf1 Hf2 A4 U1 U2) as [VC _]; [apply U3, Q5, (Hen s2 ze Q2)|apply U4; split; [exact Q3|intros Q; exact (Q3n (proj2 (proj1 (Ok Q))) Q)]|].
      destruct (VC n o Ex) as (k5 & s5 & R5 & Fi). exists (k1 + (k2 + (k3 + (1 + k5)))), s5. split; [|exact Fi].
      eapply reach_app; [eapply Widen; [| |exact R1]; nl|]. eapply reach_app; [eapply Widen; [| |exact R2]; nl|].
      eapply reach_app; [eapply Widen; [| |exact R3]; nl|]. eapply reach_app; [exact R4|]. eapply Widen; [| |exact R5]; nl.
    - intros K HK.
      set (f4 := fun zb ze zs n => guard ((0 <? zs)%Z && fits w zb && fits w (zb + Z.of_nat (range_count zb ze zs) * zs)) (forl n r x (py_range zb ze zs) b)).
      apply (term_S _ (fun n => zb <- optv beg 0 n r ;; ze <- ev n r en ;; zs <- optv st 1 n r ;; f4 zb ze zs n)); [intros; apply ex_S|].
      assert (Mo : forall o d n, le_res (optv o d n r) (optv o d (S n) r)).
      { intros o d n. destruct o; [apply (mono1 w fns n)|apply le_refl]. }
      assert (M4 : forall zb ze zs n, le_res (f4 zb ze zs n) (f4 zb ze zs (S n))).
      { intros. unfold f4, guard. destruct (_ && _); [apply (mono1 w fns n)|apply le_refl]. }
      apply (term_bind (fun n => optv beg 0 n r) (fun n zb => ze <- ev n r en ;; zs <- optv st 1 n r ;; f4 zb ze zs n)).
      { intros n. apply Mo. }
      { intros n zb. apply le_bind; [apply (mono1 w fns n)|]. intros ze. apply le_bind; [apply Mo|]. intros zs. apply M4. }
      { apply (TT1 K). eapply leaves_mono; [| |exact HK]; nl. }
      intros n1 zb Z1. destruct (V1 n1 zb Z1) as (k1 & s1 & R1 & A1 & Q1 & Q1g & _). pose proof (Ag1 k1 s1 R1) as H1.
      destruct (Y2 B X Bp F12 ltac:(nl) L r s1 HL2 A1 H1) as (V2 & _ & TT2).
      destruct (leaves_after w fit B _ _ _ _ _ _ HK (Widen (cur c0) (cur c1) _ _ _ ltac:(nl) ltac:(nl) R1)) as [_ HK1].
      apply (term_bind (fun n => ev n r en) (fun n ze => zs <- optv st 1 n r ;; f4 zb ze zs n)).
      { intros n. apply (mono1 w fns n). }
      { intros n ze. apply le_bind; [apply Mo|]. intros zs. apply M4. }
      { apply (TT2 (K - k1)). eapply leaves_mono; [| |exact HK1]; nl. }
      intros n2 ze Z2. destruct (V2 n2 ze Z2) as (k2 & s2 & R2 & A2 & Q2). pose proof (Ag2 k2 s1 s2 H1 R2) as H2.
      destruct (Y3 B X Bp F23 ltac:(nl) L r s2 HL3 A2 H2) as (V3 & TT3).
      destruct (leaves_after w fit B _ _ _ _ _ _ HK1 (Widen (cur c1) (cur c2) _ _ _ ltac:(nl) ltac:(nl) R2)) as [_ HK2].
      apply (term_bind (fun n => optv st 1 n r) (fun n zs => f4 zb ze zs n)).
      { intros n. apply Mo. }
      { intros n zs. apply M4. }
      { apply (TT3 (K - k1 - k2)). eapply leaves_mono; [| |exact HK2]; nl. }
      intros n3 zs Z3. destruct (V3 n3 zs Z3) as (k3 & s3 & R3 & A3 & Q3 & _ & Q3n). pose proof (Ag3 k3 s2 s3 H2 R3) as H3.
      destruct (leaves_after w fit B _ _ _ _ _ _ HK2 (Widen (cur c2) (cur c3) _ _ _ ltac:(nl) ltac:(nl) R3)) as [_ HK3].
      unfold f4, guard. destruct ((0 <? zs)%Z && fits w zb && fits w (zb + Z.of_nat (range_count zb ze zs) * zs)) eqn:Gd; [|exists 0; discriminate].
      rewrite !andb_true_iff, Z.ltb_lt in Gd. destruct Gd as [[Hzs Hf1] Hf2].
      destruct (K23 k3 s2 s3 R3) as [Q4 Q5].
      destruct (Enter s3 zb A3 H3) as (R4 & A4 & U1 & U2 & U3 & U4); [rewrite (proj1 Q4), (proj1 (K12 k2 s1 s2 R2)); exact Q1|intros Q; apply (proj2 Q4 Q), (proj2 (K12 k2 s1 s2 R2) Q), Q1g, Q|exact Hf1|].
      destruct (leaves_after w fit B _ _ _ _ _ _ HK3 R4) as [_ HK4].
      destruct (Core zb ze zs _ Hzs Hf1 Hf2 A4 U1 U2) as [_ TC]; [apply U3, Q5, (Hen s2 ze Q2)|apply U4; split; [exact Q3|intros Q; exact (Q3n (proj2 (proj1 (Ok Q))) Q)]|].
      apply (TC (K - k1 - k2 - k3 - 1)). eapply leaves_mono; [| |exact HK4]; nl.
  Qed.
End L.
