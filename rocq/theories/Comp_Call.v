(** Correctness of compiled function bodies, calls and whole threads. *)
From Verif Require Import Base Vlog Seq_Model Fsm_Model Py_Spec Py_Proofs Comp_Model Comp_Base Comp_Frag Bv_Sem Comp_Bits Comp_Expr Comp_Stmt Comp_Loop.
Open Scope nat_scope.

Lemma inv_frame c : inv c -> inv (mkC (c_fsm c) (c_tmp c) [] None pend0 pend0).
Proof. intros [A B C D E F G H]. split; try assumption; intros; discriminate. Qed.

Section K.
  Variable opt : expr -> expr.
  Hypothesis opt_ok : forall s e, eval s (opt e) = eval s e.
  Variable w : mode.
  Hypothesis opt_bits : mtight w = true -> (1 <= w)%Z /\ folds_bits w opt.
  Variable fns : name -> option func.
  Variable fit : var -> Z -> Z.
  Variable N : nat.
  Hypothesis fit_user : forall r z, fits w z = true -> fit (User r) z = z.
  Hypothesis fit_state : forall i, i <= N -> fit FState (Z.of_nat i) = Z.of_nat i.
  Hypothesis fns_wf : forall f fn, fns f = Some fn -> wf_block false (snd fn) = true /\ escapess (snd fn) = false.
  Hypothesis fns_ty : mtight w = true -> forall f fn, fns f = Some fn -> ty_block (snd fn) = true.
  Notation ev := (ev w fns). Notation tv := (tv w fns). Notation evs := (evs w fns). Notation call := (call w fns).
  Notation ex := (ex w fns). Notation exb := (exb w fns). Notation forl := (forl w fns).
  Notation dep := (dep w). Notation reach := (reach w fit). Notation leaves := (leaves fit). Notation mstep := (mstep fit).
  Notation sdyn := (sdyn w fit N).

  Lemma stmts_ok callf : CallOk w fns fit N callf ->
    (forall s, Pstmt opt w fns fit N callf s) /\ (forall b, Pblock opt w fns fit N callf b).
  Proof.
    intros HC. apply pstmt_ind2.
    - intros. apply assign_case; assumption.
    - intros. apply tuple_case; assumption.
    - intros. apply aug_case; assumption.
    - intros. apply if_case; assumption.
    - intros. apply while_case; assumption.
    - intros. apply for_case; assumption.
    - intros. apply expr_case; assumption.
    - apply pass_case.
    - apply break_case; assumption.
    - apply continue_case; assumption.
    - intros [e|]; [apply return_case|apply return_none_case]; assumption.
    - apply nil_case.
    - intros. apply cons_case; assumption.
  Qed.

  (** only a break or continue of its own leaves a block that way *)
  Definition no_esc (o : outcome) : Prop := match o with OBrk _ | OCont _ => False | _ => True end.
  Lemma escape_out n :
    (forall r s o, ex n r s = Val o -> escapes s = false -> no_esc o) /\
    (forall r b o, exb n r b = Val o -> escapess b = false -> no_esc o) /\
    (forall r x l b o, forl n r x l b = Val o -> no_esc o).
  Proof using.
    induction n as [|n (I1 & I2 & I3)]; [repeat split; intros; discriminate|]. split; [|split].
    - intros r s o E Es. destruct s; rewrite ex_S in E; cbn [escapes] in Es; try discriminate.
      + destruct (ev n r e); try discriminate. cbn in E. unfold guard in E. destruct (fits w a); inversion E; exact I.
      + destruct (evs n r es); try discriminate. cbn in E. unfold guard in E. destruct (_ && _); inversion E; exact I.
      + destruct (r x); try discriminate. destruct (ev n r e); try discriminate. cbn in E. unfold guard in E.
        destruct (_ && _); inversion E; exact I.
      + apply orb_false_iff in Es. destruct Es as [Es1 Es2]. destruct (tv n r t) as [q| |]; try discriminate. cbn in E.
        destruct q; eapply I2; eauto.
      + destruct (tv n r t) as [q| |]; try discriminate. cbn [rbind] in E. destruct q; [|inversion E; exact I].
        destruct (exb n r b) as [o1| |]; try discriminate. cbn [rbind] in E.
        destruct o1; try (inversion E; exact I); eapply I1; eauto.
      + destruct (match beg with None => Val 0%Z | Some e => ev n r e end); try discriminate. cbn [rbind] in E.
        destruct (ev n r en); try discriminate. cbn [rbind] in E.
        destruct (match st with None => Val 1%Z | Some e => ev n r e end); try discriminate. cbn [rbind] in E.
        unfold guard in E. destruct (_ && _); [|discriminate]. eapply I3; eauto.
      + destruct (evs n r args); try discriminate. cbn [rbind] in E. destruct (call n f a); try discriminate. inversion E. exact I.
      + inversion E. exact I.
      + destruct e as [e|]; [|inversion E; exact I]. destruct (ev n r e); try discriminate. cbn in E. unfold guard in E.
        destruct (fits w a); inversion E; exact I.
    - intros r b o E Es. destruct b as [|s b]; rewrite exb_S in E; [inversion E; exact I|]. cbn [escapess] in Es.
      apply orb_false_iff in Es. destruct Es as [Es1 Es2]. destruct (ex n r s) as [o1| |] eqn:Eo; try discriminate. cbn [rbind] in E.
      pose proof (I1 _ _ _ Eo Es1) as H1. destruct o1; try contradiction; [eapply I2; eauto|inversion E; exact I].
    - intros r x l b o E. destruct l as [|v l]; rewrite forl_S in E; [inversion E; exact I|].
      destruct (exb n (pset r x (Some v)) b) as [o1| |]; try discriminate. cbn [rbind] in E.
      destruct o1; try (inversion E; exact I); eapply I3; eauto.
  Qed.

  Lemma inline_ok callf c0 params body vs c1 v c2 : CallOk w fns fit N callf ->
    inline opt callf c0 (params, body) vs = Some (c1, v, c2) -> inv c0 ->
    Forall (dep (fun r => r < c_tmp c0)) vs -> wf_block false body = true -> escapess body = false ->
    (mtight w = true -> ty_block body = true) ->
    length params = length vs /\ pure c0 c1 /\ dep (fun r => c_tmp c0 <= r < c_tmp c1) v /\
    (forall x g, lookup c2 x = Some g -> g < c_tmp c1) /\
    forall B X, plain B -> Final B c0 c1 [] X -> cur c1 <= N ->
    forall s, at_ s (cur c0) -> forallb (fits w) (vals s vs) = true -> (mtight w = true -> Forall (gd w s) vs) ->
      (forall n o, exb n (psets pempty params (vals s vs)) body = Val o ->
         exists k s', reach B (cur c0) (cur c1) k s s' /\ at_ s' (cur c1) /\ agr (lookup c2) (oenv o) s' /\
           (forall r z, o = ORet r (Some z) -> eval s' (cve v) = z /\ (mtight w = true -> dnum w s' (cve v) w z)) /\
           (match o with OBrk _ | OCont _ => False | _ => True end)) /\
      (forall K, leaves B (cur c0) (cur c1) K s -> term (fun n => exb n (psets pempty params (vals s vs)) body)).
  Proof.
    intros HC E I Hd Wf Es Ty. unfold inline in E. destruct (Nat.eqb_spec (length params) (length vs)) as [Hlen|]; [|discriminate]. cbn [negb] in E.
    split; [exact Hlen|].
    set (cf := mkC (c_fsm c0) (c_tmp c0) [] None pend0 pend0) in *. set (l := combine params (map (fun v => CE (opt (cve v))) vs)) in *.
    pose proof (inv_frame c0 I) as If. fold cf in If.
    assert (L1 : map fst l = params) by (apply map_fst_combine; rewrite map_length; exact Hlen).
    assert (L2 : forall s, vals s (map snd l) = vals s vs).
    { intros s. unfold l. rewrite map_snd_combine by (rewrite map_length; exact Hlen). unfold vals. rewrite map_map. apply map_ext.
      intros a. cbn [cve]. apply opt_ok. }
    assert (L3 : forall s, mtight w = true -> Forall (gd w s) vs -> Forall (gd w s) (map snd l)).
    { intros s Q G. unfold l. rewrite map_snd_combine by (rewrite map_length; exact Hlen). rewrite Forall_forall in G. apply Forall_forall.
      intros a Ha. apply in_map_iff in Ha. destruct Ha as (b & <- & Hb). exact (gd_opt w opt s b (proj2 (opt_bits Q)) opt_ok (G b Hb)). }
    destruct (assign_ok opt opt_ok w opt_bits fit N fit_user fit_state cf l If) as (Xi & Oi & Si & Ci & Yi).
    set (ci := next (assigns opt cf l)) in *. clearbody ci.
    destruct (Comp_Model.cblock opt callf ci body) as [c2'|] eqn:Eb; [|discriminate]. cbn [obind] in E. injection E as E1 Ev E2. subst c2'.
    assert (Pi : forall k, pl k ci = []) by (intros k; unfold pl; rewrite Oi, Si; destruct k; reflexivity).
    assert (Ski : skip ci = false) by (unfold skip; rewrite Oi; reflexivity).
    destruct (proj2 (stmts_ok callf HC) body false ci c2 Eb (x_inv _ _ _ _ _ Xi) Wf Ty) as (D & [Xb Pb Qb] & _ & Yb).
    { intros _. split; apply Pi. }
    specialize (Qb Es). specialize (Yb Ski).
    assert (Xf : ext 0 (params ++ assigneds body) true cf c2).
    { apply (ext_trans 0 _ _ true cf ci c2); [|exact Xb]. eapply ext_incl; [rewrite <- L1; apply incl_refl| |exact Xi]. discriminate. }
    set (c3 := resolve c2 (p_ret (c_own c2) ++ p_ret (c_sub c2)) (cur c2)) in *.
    assert (InR : forall i, In i (pl KR c2) <-> In (KR, i) D) by (intros i; rewrite (d_in _ _ _ Pb), Pi; cbn; tauto).
    assert (DR : forall k i, In (k, i) D -> cur ci <= i < cur c2) by (intros k i H; exact (d_rng _ _ _ Pb k i H)).
    assert (Cfi : cur cf = cur c0) by reflexivity.
    assert (X3 : ext 0 (params ++ assigneds body) true cf c3).
    { apply ext_resolve; [exact Xf|]. intros i Hi. change (In i (pl KR c2)) in Hi. apply InR in Hi. specialize (DR _ _ Hi). lia. }
    destruct (resolve_fields (pl KR c2) (cur c2) c2) as (A1 & A2 & A3 & A4 & A5 & A6 & A7).
    change (resolve c2 (pl KR c2) (cur c2)) with c3 in A1, A2, A3, A4, A5, A6, A7.
    assert (Jo : forall i, (forall k, ~ In (k, i) D) -> jp c3 i = jp c2 i).
    { intros i Hi. apply resolve_jp_other; [exact (i_plain _ _ (x_inv _ _ _ _ _ Xb))|]. change (~ In i (pl KR c2)). rewrite InR. apply Hi. }
    assert (JR : forall i, In (KR, i) D -> jp c3 i <> [] /\ Forall (eq (cur c2, None, None)) (jp c3 i)).
    { intros i Hi. apply resolve_jp_in; [exact (i_plain _ _ (x_inv _ _ _ _ _ Xb))|rewrite (d_jp _ _ _ Pb _ _ Hi); constructor|].
      left. change (In i (pl KR c2)). apply InR. exact Hi. }
    assert (Lk : forall x g, lookup c2 x = Some g -> c_tmp c0 <= g < c_tmp c2).
    { intros x g Hx. pose proof (i_vars _ _ (x_inv _ _ _ _ _ Xb) x g Hx).
      destruct (x_l2 _ _ _ _ _ Xf x g Hx) as [H0|[H0 _]]; [discriminate H0|]. change (c_tmp cf) with (c_tmp c0) in H0. lia. }
    assert (Rt : forall g, c_ret c2 = Some g -> c_tmp c0 <= g < c_tmp c2).
    { intros g Hg. pose proof (i_ret _ _ (x_inv _ _ _ _ _ Xb) g Hg).
      destruct (x_r2 _ _ _ _ _ Xf g Hg) as [H0|[H0 _]]; [discriminate H0|]. change (c_tmp cf) with (c_tmp c0) in H0. lia. }
    clearbody c3.
    assert (T1 : c_tmp c1 = c_tmp c2) by (rewrite <- E1; exact A2).
    assert (C1 : cur c1 = cur c2) by (rewrite <- E1; exact A1).
    assert (B1 : forall i, bd c1 i = bd c2 i) by (intros i; rewrite <- E1; exact (A7 i)).
    assert (J1 : forall i, jp c1 i = jp c3 i) by (intros i; rewrite <- E1; reflexivity).
    assert (Wr : forall r, wr (params ++ assigneds body) true cf c3 r -> c_tmp c0 <= r < c_tmp c2).
    { intros r [H|[[x [_ H]]|[_ H]]].
      - change (c_tmp cf) with (c_tmp c0) in H. rewrite A2 in H. exact H.
      - apply (Lk x). unfold lookup in *. rewrite A3 in H. exact H.
      - rewrite A4 in H. apply Rt. exact H. }
    assert (P : pure c0 c1).
    { split; [|rewrite <- E1; reflexivity|rewrite <- E1; reflexivity].
      destruct X3 as [Z1 Z2 Z3 Z4 Z5 Z6 Z7 Z8 Z9 Z10]. rewrite <- E1. split.
      - destruct Z1 as [U1 U2 U3 U4 U5 U6 U7 U8]. destruct I as [V1 V2 V3 V4 V5 V6 V7 V8]. split; try assumption.
        + intros x r H. specialize (V5 x r H). change (c_tmp c0 <= c_tmp c3) in Z3. change (r < c_tmp c3). lia.
        + intros r H. specialize (V7 r H). change (c_tmp c0 <= c_tmp c3) in Z3. change (r < c_tmp c3). lia.
      - exact Z2.
      - exact Z3.
      - exact Z4.
      - exact Z5.
      - intros i st Hi Hin. destruct (Z6 i st Hi Hin) as (r & e & -> & H). exists r, e. split; [reflexivity|]. left.
        apply Wr in H. change (c_tmp c0 <= r < c_tmp c3). rewrite A2. exact H.
      - intros x r H. exact H.
      - intros x r H. left. exact H.
      - intros r H. exact H.
      - intros r H. left. exact H. }
    split; [exact P|]. split; [|split].
    { rewrite <- Ev, T1. destruct (c_ret c2) as [g|] eqn:Er; [|apply dep_zero]. apply dep_reg. auto. }
    { intros x g Hx. rewrite T1. apply (Lk x g Hx). }
    intros B X Bp F Hn s Hs Hfit Hgd.
    pose proof (x_cur _ _ _ _ _ Xi) as Cfi'. pose proof (x_cur _ _ _ _ _ Xb) as Ci2.
    set (X' := fun _ : kind => cur c2).
    assert (Fi : Final B cf ci [] X').
    { apply (final_sub B c0 c1 [] X); [exact F|lia|lia| | |intros ? ? []].
      - intros i Hi. rewrite B1. apply (x_b _ _ _ _ _ Xb). lia.
      - intros i Hi _. split; [intros ? []|]. rewrite J1, Jo by (intros k H; specialize (DR k i H); lia). apply (x_j _ _ _ _ _ Xb). lia. }
    assert (Fb : Final B ci c2 D X').
    { apply (final_sub B c0 c1 [] X); [exact F|lia|lia| | |].
      - intros i Hi. apply B1.
      - intros i Hi Hk. split; [intros ? []|]. rewrite J1. apply Jo. exact Hk.
      - intros k i H. pose proof (Qb k i H) as ->. specialize (DR _ _ H). destruct F as (_ & F2 & _). unfold goes, X'.
        rewrite F2; [rewrite J1; exact (JR i H)|lia|intros ? []]. }
    assert (HL2 : okL (lookup c2) c2) by (intros x g _; reflexivity).
    assert (HLi : okL (lookup c2) ci) by exact (okL_back _ _ _ _ ci c2 (x_inv _ _ _ _ _ Xi) Xb HL2).
    destruct (Yi B X' Bp Fi ltac:(lia) (lookup c2) pempty s HLi Hs) as (R1 & A8 & G1).
    { intros x u H. discriminate H. }
    { rewrite L2. apply Forall_forall. apply forallb_forall. exact Hfit. }
    { intros Q. exact (L3 s Q (Hgd Q)). }
    rewrite L1, L2 in G1.
    destruct (Yb B X' Bp Fb ltac:(lia) ltac:(intros; unfold X'; lia) (lookup c2) _ _ HL2 A8 G1) as [V2 T2].
    rewrite C1. change (cur cf) with (cur c0) in R1. split.
    - intros n o Eo. destruct (V2 n o Eo) as (k & s' & R2 & Fi').
      assert (R12 : reach B (cur c0) (cur c2) (1 + k) s s').
      { eapply reach_app; [eapply reach_mono; [| |exact R1]; lia|]. eapply reach_mono; [| |exact R2]; lia. }
      assert (Nb : match o with OBrk _ | OCont _ => False | _ => True end).
      { destruct o as [r1|r1|r1|r1 u]; try exact Logic.I.
        - exact (proj1 (proj2 (escape_out n)) _ _ _ Eo Es).
        - exact (proj1 (proj2 (escape_out n)) _ _ _ Eo Es). }
      exists (1 + k), s'. split; [exact R12|]. destruct o as [r1|r1|r1|r1 u]; try contradiction.
      + destruct Fi' as [H1 H2]. split; [exact H1|]. split; [exact H2|]. split; [intros; discriminate|exact Nb].
      + destruct Fi' as (H1 & H2 & H3). split; [exact H1|]. split; [exact H2|]. split; [|exact Nb].
        intros r z Ez. injection Ez as _ Eu. destruct (H3 z Eu) as [g [K1 [K2 K3]]]. rewrite <- Ev, K1. split; [exact K2|].
        intros Q. cbn [cve]. rewrite <- K2. apply dnum_var; [exact (proj1 (opt_bits Q))|rewrite K2; exact (fits_tight w z Q K3)].
    - intros K HK.
      assert (R1' : reach B (cur c0) (cur c2) 1 s (mstep B s)) by (eapply reach_mono; [| |exact R1]; lia).
      destruct (leaves_after w fit B _ _ _ _ _ _ HK R1') as [_ HK1].
      apply (T2 (K - 1)). eapply leaves_mono; [| |exact HK1]; lia.
  Qed.

  Lemma ccall_ok d : CallOk w fns fit N (ccall opt fns d).
  Proof.
    induction d as [|d HC]; intros c0 f vs c1 v E I Hd; [discriminate|]. cbn [ccall] in E.
    destruct (fns f) as [[params body]|] eqn:Ef; [|discriminate].
    destruct (inline opt (ccall opt fns d) c0 (params, body) vs) as [[[c1' v'] c2]|] eqn:Ei; [|discriminate].
    cbn [obind] in E. inversion E; subst c1' v'. destruct (fns_wf f _ Ef) as [W1 W2]. cbn [snd] in W1, W2.
    destruct (inline_ok _ c0 params body vs c1 v c2 HC Ei I Hd W1 W2 (fun Q => fns_ty Q f _ Ef)) as (Hlen & P & Dv & _ & Y).
    split; [exact P|]. split; [exact Dv|]. intros B X Bp F Hn s Hs Hg. split.
    - intros n o Ec. destruct n as [|n]; [discriminate|]. rewrite call_S, Ef in Ec. unfold guard in Ec.
      destruct (Nat.eqb (length params) (length (vals s vs)) && forallb (fits w) (vals s vs)) eqn:G; [|discriminate].
      apply andb_true_iff in G. destruct G as [_ G]. destruct (exb n (psets pempty params (vals s vs)) body) as [o1| |] eqn:Eo; try discriminate.
      cbn [rbind] in Ec. destruct (Y B X Bp F Hn s Hs G Hg) as [V _]. destruct (V n o1 Eo) as (k & s' & R & A & _ & Q & Nb).
      exists k, s'. split; [exact R|]. split; [exact A|]. intros z Ez. subst o.
      destruct o1 as [r1|r1|r1|r1 u]; try contradiction; inversion Ec; subst u. eapply Q. reflexivity.
    - intros K HK.
      apply (term_S _ (fun n => guard (Nat.eqb (length params) (length (vals s vs)) && forallb (fits w) (vals s vs))
              (o <- exb n (psets pempty params (vals s vs)) body ;;
               match o with ONorm _ => Val None | ORet _ v => Val v | OBrk _ | OCont _ => Stuck end))).
      { intros n. rewrite call_S, Ef. reflexivity. }
      unfold guard. destruct (Nat.eqb (length params) (length (vals s vs)) && forallb (fits w) (vals s vs)) eqn:G; [|exists 0; discriminate].
      apply andb_true_iff in G. destruct G as [_ G]. destruct (Y B X Bp F Hn s Hs G Hg) as [_ T].
      apply (term_bind (fun n => exb n (psets pempty params (vals s vs)) body)
               (fun _ o => match o with ONorm _ => Val None | ORet _ v => Val v | OBrk _ | OCont _ => Stuck end)).
      + intros n. apply (mono1 w fns n).
      + intros n o. apply le_refl.
      + apply (T K HK).
      + intros n o _. exists 0. destruct o; discriminate.
  Qed.

  Lemma inv_cst0 : inv cst0.
  Proof using.
    split; try (intros; discriminate); try (intros; reflexivity).
    - apply plain_new.
    - intros i. constructor.
  Qed.

  (** ** The whole thread *)
  Lemma compile_ok d main args m params body : compile opt fns d main args = Some m -> fns main = Some (params, body) ->
    m_end m <= N -> forallb (fits w) args = true -> (mtight w = true -> Forall (fun z => (- 2 ^ 31 < z < 2 ^ 31)%Z) args) ->
    length params = length args /\ plain (m_fsm m) /\ jumps_at (m_fsm m) (m_end m) = [] /\ body_at (m_fsm m) (m_end m) = [] /\ 0 < m_end m /\
    (forall i, user_only (body_at (m_fsm m) i)) /\
    forall s, at_ s 0 ->
      (forall n o, exb n (psets pempty params args) body = Val o ->
         exists k s', reach (m_fsm m) 0 (m_end m) k s s' /\ at_ s' (m_end m) /\ agr (m_reg m) (oenv o) s' /\
           (forall r z, o = ORet r (Some z) -> eval s' (cve (m_val m)) = z) /\ no_esc o) /\
      (forall K, leaves (m_fsm m) 0 (m_end m) K s -> term (fun n => exb n (psets pempty params args) body)).
  Proof.
    intros E Ef Hn Hf Hlit. unfold compile in E. destruct d as [|d]; [discriminate|]. rewrite Ef in E.
    destruct (inline opt (ccall opt fns d) cst0 (params, body) (map CInt args)) as [[[c1 v] c2]|] eqn:Ei; [|discriminate].
    cbn [obind] in E. inversion E; subst m. cbn [m_fsm m_end m_reg m_val] in *. destruct (fns_wf main _ Ef) as [W1 W2]. cbn [snd] in W1, W2.
    assert (Va : forall s, vals s (map CInt args) = args).
    { intros s. unfold vals. rewrite map_map. cbn [cve eval]. apply map_id. }
    destruct (inline_ok _ cst0 params body _ c1 v c2 (ccall_ok d) Ei inv_cst0) as (Hlen & P & Dv & Lk & Y).
    { apply Forall_forall. intros a Ha. apply in_map_iff in Ha. destruct Ha as (z & <- & _). apply dep_int. }
    { exact W1. } { exact W2. } { intros Q. exact (fns_ty Q main _ Ef). }
    rewrite map_length in Hlen. split; [exact Hlen|].
    pose proof (pure_inv _ _ P) as I1. split; [exact (i_plain _ _ I1)|].
    split; [exact (i_jp _ _ I1 (cur c1) (le_n _))|]. split; [apply (i_bd _ _ I1 (cur c1)); lia|].
    split.
    { unfold inline in Ei. rewrite map_length in Ei. destruct (Nat.eqb_spec (length params) (length args)); [|discriminate]. cbn [negb] in Ei.
      match type of Ei with context [cblock _ _ ?c _] => set (ci := c) in * end.
      destruct (cblock opt (ccall opt fns d) ci body) as [c2'|] eqn:Eb; [|discriminate]. cbn [obind] in Ei. injection Ei as E1 _ _.
      set (l := combine params (map (fun v => CE (opt (cve v))) (map CInt args))) in *.
      destruct (assign_ok opt opt_ok w opt_bits fit N fit_user fit_state _ l (inv_frame cst0 inv_cst0)) as (Xi & Oi & Si & Ci & _).
      change (next (assigns opt _ l)) with ci in Xi, Oi, Si, Ci.
      destruct (proj2 (stmts_ok _ (ccall_ok d)) body false ci c2' Eb (x_inv _ _ _ _ _ Xi) W1 (fun Q => fns_ty Q main _ Ef)) as (D & [Xb _ _] & _).
      { intros _. unfold pl. rewrite Oi, Si. split; reflexivity. }
      pose proof (x_cur _ _ _ _ _ Xb) as Hc.
      match type of E1 with mkC (c_fsm ?c3) _ _ _ _ _ = _ => assert (H3 : cur c1 = cur c3) by (rewrite <- E1; reflexivity) end.
      rewrite H3. destruct (resolve_fields (p_ret (c_own c2') ++ p_ret (c_sub c2')) (cur c2') c2') as [H4 _]. rewrite H4. lia. }
    split; [exact (i_user _ _ I1)|]. intros s Hs.
    assert (F : Final (c_fsm c1) cst0 c1 [] (fun _ => 0)) by (split; [|split]; [reflexivity|reflexivity|intros ? ? []]).
    specialize (Y (c_fsm c1) (fun _ => 0) (i_plain _ _ I1) F Hn s Hs). rewrite Va in Y. destruct (Y Hf) as [Y1 Y2].
    { intros Q. apply Forall_forall. intros a Ha. apply in_map_iff in Ha. destruct Ha as (z & <- & Hz). apply gd_int.
      specialize (Hlit Q). rewrite Forall_forall in Hlit. exact (Hlit z Hz). }
    split; [|exact Y2]. intros n o Eo. destruct (Y1 n o Eo) as (k & s' & R & A & Ag & Q1 & Q2). exists k, s'.
    split; [exact R|]. split; [exact A|]. split; [exact Ag|]. split; [intros r z Ez; exact (proj1 (Q1 r z Ez))|exact Q2].
  Qed.
End K.
