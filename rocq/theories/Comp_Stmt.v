(** Correctness of compiled statements, given correct calls. *)
From Verif Require Import Base Vlog Seq_Model Fsm_Model Py_Spec Py_Proofs Comp_Model Comp_Base Comp_Frag Bv_Sem Comp_Bits Comp_Expr.
Open Scope nat_scope.

(** [lia] after dropping every hypothesis that is not plain arithmetic *)
Ltac nl := repeat match goal with H : ?T |- _ =>
    lazymatch T with
    | _ <= _ => fail | _ < _ => fail | _ <= _ < _ => fail | @eq nat _ _ => fail | _ <> _ => fail | _ \/ _ => fail
    | _ => clear H
    end end; lia.

(** ** Pending jumps *)
Definition pk (k : kind) (p : pend) : list nat := match k with KB => p_brk p | KC => p_cont p | KR => p_ret p end.
Definition pl (k : kind) (c : cst) : list nat := pk k (c_own c) ++ pk k (c_sub c).
Lemma pk_app k a b : pk k (papp a b) = pk k a ++ pk k b. Proof. destruct k; reflexivity. Qed.
Lemma pk_0 k : pk k pend0 = []. Proof. destruct k; reflexivity. Qed.

Record pd (c0 c1 : cst) (D : list (kind * nat)) : Prop := mkPd {
  d_in : forall k i, In i (pl k c1) <-> In i (pl k c0) \/ In (k, i) D;
  d_rng : forall k i, In (k, i) D -> cur c0 <= i < cur c1;
  d_jp : forall k i, In (k, i) D -> jp c1 i = [];
  d_fun : forall k k' i, In (k, i) D -> In (k', i) D -> k = k' }.

Lemma pd_nil c0 c1 : c_own c1 = c_own c0 -> c_sub c1 = c_sub c0 -> pd c0 c1 [].
Proof. intros E1 E2. split; try (intros; contradiction). intros k i. unfold pl. rewrite E1, E2. cbn. tauto. Qed.

Lemma pd_trans k A rt c0 c1 c2 D1 D2 : pd c0 c1 D1 -> pd c1 c2 D2 -> ext k A rt c1 c2 -> cur c0 <= cur c1 -> pd c0 c2 (D1 ++ D2).
Proof.
  intros [A1 A2 A3 A4] [B1 B2 B3 B4] E Hc. pose proof (x_cur _ _ _ _ _ E). split.
  - intros q i. rewrite B1, A1, in_app_iff. tauto.
  - intros q i H1. apply in_app_or in H1. destruct H1 as [H1|H1]; [specialize (A2 q i H1)|specialize (B2 q i H1)]; lia.
  - intros q i H1. apply in_app_or in H1. destruct H1 as [H1|H1]; [|exact (B3 q i H1)].
    rewrite (x_j _ _ _ _ _ E) by (specialize (A2 q i H1); lia). exact (A3 q i H1).
  - intros q q' i H1 H2. apply in_app_or in H1. apply in_app_or in H2.
    destruct H1 as [H1|H1], H2 as [H2|H2]; try (eapply A4; eassumption); try (eapply B4; eassumption);
      [specialize (A2 q i H1); specialize (B2 q' i H2)|specialize (A2 q' i H2); specialize (B2 q i H1)]; lia.
Qed.

Lemma skip_own c c' : c_own c = c_own c' -> skip c = skip c'.
Proof. intros E. unfold skip. rewrite E. reflexivity. Qed.

(** ** Sub-fragments of a final machine *)
Lemma final_sub B c0 c D X ca cb D' X' : Final B c0 c D X -> cur c0 <= cur ca -> cur cb <= cur c ->
  (forall i, cur ca <= i < cur cb -> bd c i = bd cb i) ->
  (forall i, cur ca <= i < cur cb -> (forall k, ~ In (k, i) D') -> (forall k, ~ In (k, i) D) /\ jp c i = jp cb i) ->
  (forall k i, In (k, i) D' -> goes B i (X' k)) -> Final B ca cb D' X'.
Proof.
  intros (F1 & F2 & F3) H1 H2 Hb Hj Hd. split; [|split].
  - intros i Hi. rewrite F1 by lia. apply Hb. exact Hi.
  - intros i Hi Hn. destruct (Hj i Hi Hn) as [Hj1 Hj2]. rewrite F2; [exact Hj2|lia|exact Hj1].
  - exact Hd.
Qed.

Lemma set_fsm_jp_other c a b x y i : plain (c_fsm c) -> i <> a -> jp (set_fsm c a b x y) i = jp c i.
Proof. intros P H. rewrite set_fsm_jp by exact P. destruct (Nat.eqb_spec a i); [congruence|apply app_nil_r]. Qed.
Lemma set_fsm_jp_same c a b x y : plain (c_fsm c) -> jp c a = [] -> jp (set_fsm c a b x y) a = [(b, x, y)].
Proof. intros P H. rewrite set_fsm_jp, H, Nat.eqb_refl by exact P. reflexivity. Qed.

Lemma fold_psets v xs : forall r, fold_left (fun r x => pset r x (Some v)) xs r = psets r xs (map (fun _ => v) xs).
Proof. unfold psets. induction xs as [|x xs IH]; intros r; [reflexivity|]. cbn [map combine fold_left fst snd]. apply IH. Qed.

Lemma map_fst_combine {A B} (xs : list A) : forall ys : list B, length xs = length ys -> map fst (combine xs ys) = xs.
Proof. induction xs as [|x xs IH]; intros [|y ys] H; cbn in *; try discriminate; [reflexivity|]. f_equal. apply IH. lia. Qed.
Lemma map_snd_combine {A B} (xs : list A) : forall ys : list B, length xs = length ys -> map snd (combine xs ys) = ys.
Proof. induction xs as [|x xs IH]; intros [|y ys] H; cbn in *; try discriminate; [reflexivity|]. f_equal. apply IH. lia. Qed.

Section S.
  Variable opt : expr -> expr.
  Hypothesis opt_ok : forall s e, eval s (opt e) = eval s e.
  Variable w : mode.
  Hypothesis opt_bits : mtight w = true -> (1 <= w)%Z /\ folds_bits w opt.
  Variable fns : name -> option func.
  Variable fit : var -> Z -> Z.
  Variable N : nat.
  Hypothesis fit_user : forall r z, fits w z = true -> fit (User r) z = z.
  Hypothesis fit_state : forall i, i <= N -> fit FState (Z.of_nat i) = Z.of_nat i.
  Variable callf : cst -> name -> list cv -> option (cst * cv).
  Notation ev := (ev w fns). Notation tv := (tv w fns). Notation evs := (evs w fns). Notation call := (call w fns).
  Notation ex := (ex w fns). Notation exb := (exb w fns). Notation forl := (forl w fns).
  Notation cexpr := (cexpr opt callf). Notation cexprs := (cexprs opt callf).
  Notation cstmt := (cstmt opt callf). Notation cblock := (cblock opt callf).
  Notation dep := (dep w). Notation vok := (vok w). Notation tok := (tok w). Notation okty := (okty w).
  Notation reach := (reach w fit). Notation leaves := (leaves fit). Notation mstep := (mstep fit).
  Notation edyn := (edyn w fns fit N).
  Hypothesis HC : CallOk w fns fit N callf.

  (** ** What the states of the machine do in bits *)
  Lemma fits_range z : fits w z = true -> (- 2 ^ (w - 1) <= z < 2 ^ (w - 1))%Z.
  Proof using.
    clear. unfold fits. rewrite andb_true_iff, Z.ltb_lt. destruct (mtight w); rewrite ?Z.ltb_lt, ?Z.leb_le; lia.
  Qed.
  Lemma fits_tight z : mtight w = true -> fits w z = true -> (- 2 ^ (w - 1) < z < 2 ^ (w - 1))%Z.
  Proof using. clear. unfold fits. intros ->. rewrite andb_true_iff, !Z.ltb_lt. lia. Qed.
  Lemma okst_goto B s i d : body_at B i = [] -> goes B i d -> okst w fit B s i.
  Proof.
    intros Hb [_ Hg] T. rewrite Hb. split; [intros r e []|]. intros d' c f Hin. rewrite Forall_forall in Hg.
    specialize (Hg _ Hin). discriminate.
  Qed.
  Lemma okst_branch B s i c d e b : body_at B i = [] -> jumps_at B i = [(d, Some c, e)] ->
    truth (eval s c) = b -> (mtight w = true -> dtst w s c b) -> okst w fit B s i.
  Proof.
    intros Hb Hj Ht Hd T. rewrite Hb, Hj. split; [intros r x []|]. intros d' c' f [Hin|[]] j. inversion Hin; subst.
    apply dtst_truth. exact (Hd T).
  Qed.
  Lemma okst_bind B s i rs vs d : body_at B i = bind_stmts opt rs vs -> goes B i d ->
    Forall (fun z => fits w z = true) (vals s vs) -> (mtight w = true -> Forall (gd w s) vs) -> okst w fit B s i.
  Proof.
    intros Hb [_ Hg] Hf Hd T. rewrite Hb. split.
    - intros r e Hin j. unfold bind_stmts in Hin. apply in_map_iff in Hin. destruct Hin as ([q v] & Eq & Hin). cbn [fst snd] in Eq.
      injection Eq as -> <-. apply in_combine_r in Hin. destruct (opt_bits T) as [Hw Fb].
      specialize (Hd T). rewrite Forall_forall in Hd. rewrite Forall_forall in Hf.
      assert (Hfit : fits w (eval s (cve v)) = true) by (apply Hf; unfold vals; exact (in_map (fun v => eval s (cve v)) vs v Hin)).
      rewrite opt_ok, fit_user by exact Hfit. pose proof (gd_opt w opt s v Fb opt_ok (Hd v Hin)) as G.
      pose proof (gd_assigned w s (CE (opt (cve v))) j r Hw G) as A. cbn [cve] in A. rewrite opt_ok in A. apply A. apply fits_range. exact Hfit.
    - intros d' c f Hin. rewrite Forall_forall in Hg. specialize (Hg _ Hin). discriminate.
  Qed.

  (** ** Bindings *)
  Lemma binds_agr k c' L s : invk k c' -> okL L c' -> forall l rs,
    Forall2 (fun p g => lookup c' (fst p) = Some g) l rs -> forall r nxt,
    Forall (fun z => fits w z = true) (vals s (map snd l)) -> agr L r nxt ->
    agr L (psets r (map fst l) (vals s (map snd l))) (execs fit s nxt (bind_stmts opt rs (map snd l))).
  Proof.
    intros I HL. induction 1 as [|[x v] g l rs Hx Hf IH]; intros r nxt Hfit Ha; [exact Ha|].
    cbn [map fst snd] in *. unfold bind_stmts. cbn [combine map fst snd]. rewrite execs_cons.
    change (psets r (x :: map fst l) (vals s (v :: map snd l))) with
      (psets (pset r x (Some (eval s (cve v)))) (map fst l) (vals s (map snd l))).
    apply IH; [exact (Forall_inv_tail Hfit)|]. pose proof (Forall_inv Hfit) as Hv. cbn beta in Hv.
    cbn [exec assign]. rewrite opt_ok, fit_user by exact Hv.
    intros y z Hy. unfold pset in Hy. destruct (Nat.eqb_spec y x) as [->|Hne].
    - inversion Hy; subst. exists g. split; [apply HL; [exact (i_vars _ _ I x g Hx)|exact Hx]|apply vset_same].
    - destruct (Ha y z Hy) as [g' [G1 G2]]. exists g'. split; [exact G1|]. rewrite vset_other; [exact G2|].
      intros E. inversion E; subst. apply Hne. apply (i_inj _ _ I y x g); [|exact Hx].
      apply HL; [exact (i_vars _ _ I x g Hx)|exact G1].
  Qed.

  Lemma agr_user L r s s' : (forall g, s' (User g) = s (User g)) -> agr L r s -> agr L r s'.
  Proof. intros E H x v Hx. destruct (H x v Hx) as [g [G1 G2]]. exists g. rewrite E. auto. Qed.
  (** a state without assignments *)
  Lemma step_nop B s i g : plain B -> at_ s i -> body_at B i = [] -> mstep B s (User g) = s (User g).
  Proof. intros Bp Hs E. rewrite (step_user fit B Bp s i g Hs), E. reflexivity. Qed.

  Lemma assign_ok c1 l : inv c1 ->
    let c2 := next (assigns opt c1 l) in
    ext 0 (map fst l) false c1 c2 /\ c_own c2 = c_own c1 /\ c_sub c2 = c_sub c1 /\ cur c2 = S (cur c1) /\
    forall B X, plain B -> Final B c1 c2 [] X -> cur c2 <= N ->
    forall L r s, okL L c2 -> at_ s (cur c1) -> agr L r s -> Forall (fun z => fits w z = true) (vals s (map snd l)) ->
      (mtight w = true -> Forall (gd w s) (map snd l)) ->
      reach B (cur c1) (cur c2) 1 s (mstep B s) /\ at_ (mstep B s) (cur c2) /\
      agr L (psets r (map fst l) (vals s (map snd l))) (mstep B s).
  Proof.
    intros I. cbn zeta.
    assert (E0 : ext 0 (map fst l) false c1 c1) by (eapply ext_incl; [| |apply ext_refl; exact I]; [intros ? []|auto]).
    destruct (assigns_spec opt (map fst l) false c1 l c1 0 (le_S _ _ (le_n _)) E0 (incl_refl _))
      as (X1 & X2 & X3 & X4 & X5 & X6 & X7 & rs & X8 & X9).
    set (c' := assigns opt c1 l) in *. pose proof (ext_next 1 _ _ _ _ (le_n _) X1) as X0.
    pose proof (i_plain _ _ (x_inv _ _ _ _ _ X1)) as Pl.
    assert (Ec : cur (next c') = S (cur c1)) by (rewrite <- X2; reflexivity).
    assert (Ej : jp (next c') (cur c1) = [(S (cur c1), None, None)]).
    { rewrite next_eq by exact Pl. rewrite X2. rewrite set_fsm_jp_same; [reflexivity|apply inc_plain; exact Pl|].
      rewrite inc_jp, X6. apply (i_jp _ _ I). lia. }
    assert (Eb : bd (next c') (cur c1) = bind_stmts opt rs (map snd l)).
    { unfold next. rewrite inc_bd, set_fsm_bd, X9, (i_bd _ _ I) by lia. rewrite Nat.eqb_refl. reflexivity. }
    split; [exact X0|]. split; [exact X4|]. split; [exact X5|]. split; [exact Ec|].
    intros B X Bp (F1 & F2 & _) Hn L r s HL Hs Ha Hf Hg.
    assert (Hb : body_at B (cur c1) = bind_stmts opt rs (map snd l)) by (rewrite F1 by lia; exact Eb).
    assert (Hj : jumps_at B (cur c1) = [(S (cur c1), None, None)]) by (rewrite F2; [exact Ej|lia|intros ? []]).
    assert (Hu : user_only (body_at B (cur c1))) by (rewrite F1 by lia; apply (i_user _ _ (x_inv _ _ _ _ _ X0))).
    split; [apply reach_one with (i := cur c1); [lia|exact Hs|]|split].
    - eapply okst_bind; [exact Hb|unfold goes; rewrite Hj; split; [discriminate|repeat constructor]|exact Hf|exact Hg].
    - rewrite Ec. apply (step_goto fit B Bp s (cur c1)); auto; rewrite ?Hj; [discriminate|repeat constructor|].
      apply fit_state. lia.
    - pose proof (binds_agr 1 c' L s (x_inv _ _ _ _ _ X1)) as Hb'.
      assert (HL' : okL L c') by exact HL.
      specialize (Hb' HL' l rs X8 r s Hf Ha). eapply agr_user; [|exact Hb'].
      intros g. rewrite (step_user fit B Bp s (cur c1) g Hs), Hb. reflexivity.
  Qed.

  (** ** Statement semantics of a fragment *)
  Definition fin (L : name -> option nat) (c1 : cst) (X : kind -> nat) (o : outcome) (s' : env) : Prop :=
    match o with
    | ONorm r => at_ s' (cur c1) /\ agr L r s'
    | OBrk r => at_ s' (X KB) /\ agr L r s'
    | OCont r => at_ s' (X KC) /\ agr L r s'
    | ORet r v => at_ s' (X KR) /\ agr L r s' /\ forall z, v = Some z -> exists g, c_ret c1 = Some g /\ s' (User g) = z /\ fits w z = true
    end.
  Definition sdyn (c0 c1 : cst) (D : list (kind * nat)) (f : nat -> penv -> res outcome) : Prop :=
    forall B X, plain B -> Final B c0 c1 D X -> cur c1 <= N -> (forall k, X k <= N) ->
    forall L r s, okL L c1 -> at_ s (cur c0) -> agr L r s ->
      (forall n o, f n r = Val o -> exists k s', reach B (cur c0) (cur c1) k s s' /\ fin L c1 X o s') /\
      (forall K, leaves B (cur c0) (cur c1) K s -> term (fun n => f n r)).
  Definition jumpy (s : pstmt) : bool := match s with PBreak | PContinue | PReturn _ => true | _ => false end.
  Record sstat (A : list name) (esc : bool) (c0 c1 : cst) (D : list (kind * nat)) : Prop := mkSS {
    ss_ext : ext 0 A true c0 c1; ss_pd : pd c0 c1 D; ss_esc : esc = false -> forall k i, In (k, i) D -> k = KR }.

  Definition Pstmt (s : pstmt) : Prop := forall c0 c1, cstmt c0 s = Some c1 -> inv c0 -> wf_stmt s = true ->
    (mtight w = true -> ty_stmt s = true) ->
    (is_loop s = true -> pl KB c0 = [] /\ pl KC c0 = []) ->
    exists D, sstat (assigned s) (escapes s) c0 c1 D /\
      (c_own c1 = c_own c0 \/ (jumpy s = true /\ skip c1 = true)) /\
      (skip c0 = false -> sdyn c0 c1 D (fun n r => ex n r s)).
  Definition Pblock (b : pblock) : Prop := forall pend c0 c1, cblock c0 b = Some c1 -> inv c0 -> wf_block pend b = true ->
    (mtight w = true -> ty_block b = true) ->
    (pend = false -> pl KB c0 = [] /\ pl KC c0 = []) ->
    exists D, sstat (assigneds b) (escapess b) c0 c1 D /\
      (skip c1 = false -> skip c0 = false) /\
      (skip c0 = false -> sdyn c0 c1 D (fun n r => exb n r b)).

  (** a statement skipped as dead code *)
  Lemma skipped A e c0 : inv c0 -> sstat A e c0 c0 [].
  Proof.
    intros I. split; [|apply pd_nil; reflexivity|intros _ k i []].
    eapply ext_incl; [| |apply ext_refl; exact I]; [intros ? []|discriminate].
  Qed.

  (** value fragment followed by one binding state *)
  Lemma seq_pure_assign c0 c1 l esc : inv c0 -> pure c0 c1 ->
    let c2 := next (assigns opt c1 l) in
    sstat (map fst l) esc c0 c2 [] /\ c_own c2 = c_own c0 /\ ext 0 (map fst l) false c0 c2.
  Proof.
    intros I P. cbn zeta. destruct (assign_ok c1 l (pure_inv _ _ P)) as (X1 & X2 & X3 & X4 & _).
    assert (E : ext 0 (map fst l) false c0 (next (assigns opt c1 l))).
    { exact (ext_trans 0 [] (map fst l) false c0 c1 _ (pu_ext _ _ P) X1). }
    split; [|split; [rewrite X2; apply (pu_own _ _ P)|exact E]].
    split; [eapply ext_incl; [apply incl_refl|auto|exact E]| |intros _ k i []].
    apply pd_nil; [rewrite X2; apply (pu_own _ _ P)|rewrite X3; apply (pu_sub _ _ P)].
  Qed.
  Lemma final_pure_assign B c0 c1 l X : inv c0 -> pure c0 c1 -> Final B c0 (next (assigns opt c1 l)) [] X ->
    Final B c0 c1 [] X /\ Final B c1 (next (assigns opt c1 l)) [] X.
  Proof.
    intros I P F. destruct (assign_ok c1 l (pure_inv _ _ P)) as (X1 & _).
    apply (final_split B 0 [] (map fst l) false c0 c1 _ [] [] X (pu_ext _ _ P) X1); [intros ? ? []|intros ? ? []|exact F].
  Qed.

  Lemma pure_assign_dyn c0 c1 l f : inv c0 -> pure c0 c1 ->
    (forall B X, plain B -> Final B c0 c1 [] X -> cur c1 <= N ->
     forall L r s, okL L c1 -> okL L (next (assigns opt c1 l)) -> at_ s (cur c0) -> agr L r s ->
       (forall n o, f n r = Val o -> exists k s1, reach B (cur c0) (cur c1) k s s1 /\ at_ s1 (cur c1) /\
          Forall (fun z => fits w z = true) (vals s1 (map snd l)) /\ (mtight w = true -> Forall (gd w s1) (map snd l)) /\
          o = ONorm (psets r (map fst l) (vals s1 (map snd l)))) /\
       (forall K, leaves B (cur c0) (cur c1) K s -> term (fun n => f n r))) ->
    sdyn c0 (next (assigns opt c1 l)) [] f.
  Proof.
    intros I P H B X Bp F Hn HX L r s HL Hs Ha.
    destruct (assign_ok c1 l (pure_inv _ _ P)) as (X1 & X2 & X3 & X4 & X5).
    destruct (final_pure_assign B c0 c1 l X I P F) as [F1 F2].
    pose proof (okL_back _ _ _ L c1 _ (pure_inv _ _ P) X1 HL) as HL1.
    pose proof (x_cur _ _ _ _ _ (pu_ext _ _ P)) as C1.
    destruct (H B X Bp F1 ltac:(lia) L r s HL1 HL Hs Ha) as [V T]. split.
    - intros n o E. destruct (V n o E) as (k & s1 & R1 & A1 & W1 & Wg & ->).
      assert (Ha1 : agr L r s1) by (eapply pure_agr; eauto).
      destruct (X5 B X Bp F2 Hn L r s1 HL A1 Ha1 W1 Wg) as (R2 & A2 & G2).
      exists (k + 1), (mstep B s1). split; [|split; [exact A2|exact G2]].
      eapply reach_app; [eapply reach_mono; [| |exact R1]; lia|eapply reach_mono; [| |exact R2]; lia].
    - intros K HK. apply (T K). eapply leaves_mono; [| |exact HK]; lia.
  Qed.

  Ltac ob H E := match type of H with obind ?m _ = Some _ => destruct m as [?|] eqn:E; [|discriminate H]; cbn [obind] in H end.
  Notation expr_ok := (proj1 (exprs_ok opt opt_ok w opt_bits fns fit N callf HC)).
  Notation exprs_ok' := (proj2 (exprs_ok opt opt_ok w opt_bits fns fit N callf HC)).

  Lemma assign_case xs e : Pstmt (PAssign xs e).
  Proof.
    intros c0 c1 E I Wf O _. cbn [Comp_Model.cstmt] in E. destruct (skip c0) eqn:Sk.
    { inversion E; subst. exists []. split; [apply skipped; exact I|]. split; [auto|discriminate]. }
    ob E E1. destruct p as [c v]. inversion E; subst. clear E.
    destruct (expr_ok e _ _ _ E1 I Wf O) as [[P Dv _ _] Y]. set (l := map (fun x => (x, v)) xs).
    assert (El : map fst l = xs) by (unfold l; rewrite map_map; apply map_id).
    assert (Ev : forall s, vals s (map snd l) = map (fun _ => eval s (cve v)) xs) by (intros; unfold l, vals; rewrite !map_map; reflexivity).
    destruct (seq_pure_assign c0 c l false I P) as (S1 & S2 & _). rewrite El in S1.
    exists []. split; [exact S1|]. split; [left; exact S2|]. intros _.
    apply pure_assign_dyn; [exact I|exact P|]. intros B X Bp F Hn L r s HL HL2 Hs Ha.
    destruct (Y B X Bp F Hn L r s HL Hs Ha) as (V & _ & T). split.
    - intros n o Ex. destruct n as [|n]; [discriminate|]. rewrite ex_S in Ex. destruct (ev n r e) as [z| |] eqn:Ez; try discriminate.
      cbn [rbind] in Ex. unfold guard in Ex. destruct (fits w z) eqn:Ef; [|discriminate]. inversion Ex; subst o.
      destruct (V n z Ez) as (k & s1 & R1 & A1 & W1). exists k, s1. split; [exact R1|]. split; [exact A1|].
      rewrite Ev, (proj1 W1), El, fold_psets. split; [|split; [|reflexivity]].
      + apply Forall_forall. intros y Hy. apply in_map_iff in Hy. destruct Hy as [? [<- _]]. exact Ef.
      + intros Q. apply Forall_forall. intros y Hy. unfold l in Hy. rewrite map_map in Hy. apply in_map_iff in Hy.
        destruct Hy as [? [<- _]]. exact (vok_gd w e s1 v z O W1 Q).
    - intros K HK. destruct (T K HK) as [[n Hn'] _]. exists (S n). rewrite ex_S.
      destruct (ev n r e) as [z| |]; cbn [rbind]; [unfold guard; destruct (fits w z); discriminate|discriminate|congruence].
  Qed.

  Lemma tuple_case xs es : Pstmt (PTuple xs es).
  Proof.
    intros c0 c1 E I Wf O _. cbn [Comp_Model.cstmt] in E. destruct (skip c0) eqn:Sk.
    { inversion E; subst. exists []. split; [apply skipped; exact I|]. split; [auto|discriminate]. }
    ob E E1. destruct p as [c vs]. destruct (Nat.eqb (length xs) (length vs) && Nat.ltb 1 (length xs)) eqn:Hlen; [|discriminate].
    apply andb_true_iff in Hlen. destruct Hlen as [Hlen _]. apply Nat.eqb_eq in Hlen.
    inversion E; subst. clear E.
    destruct (exprs_ok' es _ _ _ E1 I Wf O) as (P & Dv & Y). set (l := combine xs vs).
    assert (El : map fst l = xs).
    { unfold l. apply map_fst_combine. exact Hlen. }
    assert (Ev : map snd l = vs) by (unfold l; apply map_snd_combine; exact Hlen).
    destruct (seq_pure_assign c0 c l false I P) as (S1 & S2 & _). rewrite El in S1.
    exists []. split; [exact S1|]. split; [left; exact S2|]. intros _.
    apply pure_assign_dyn; [exact I|exact P|]. intros B X Bp F Hn L r s HL HL2 Hs Ha.
    destruct (Y B X Bp F Hn L r s HL Hs Ha) as (V & T). split.
    - intros n o Ex. destruct n as [|n]; [discriminate|]. rewrite ex_S in Ex. destruct (evs n r es) as [zs| |] eqn:Ez; try discriminate.
      cbn [rbind] in Ex. unfold guard in Ex. destruct (_ && _) eqn:Ef; [|discriminate]. inversion Ex; subst o.
      destruct (V n zs Ez) as (k & s1 & R1 & A1 & W1 & Wg). exists k, s1. split; [exact R1|]. split; [exact A1|].
      rewrite Ev, W1, El. split; [|split; [exact Wg|reflexivity]]. apply andb_true_iff in Ef. destruct Ef as [_ Ef].
      apply Forall_forall. rewrite forallb_forall in Ef. exact Ef.
    - intros K HK. destruct (T K HK) as [n Hn']. exists (S n). rewrite ex_S.
      destruct (evs n r es) as [z| |]; cbn [rbind]; [unfold guard; destruct (_ && _); discriminate|discriminate|congruence].
  Qed.

  Lemma aug_case x o e : Pstmt (PAug x o e).
  Proof.
    intros c0 c1 E I Wf O _. cbn [Comp_Model.cstmt] in E. destruct (skip c0) eqn:Sk.
    { inversion E; subst. exists []. split; [apply skipped; exact I|]. split; [auto|discriminate]. }
    ob E E1. destruct p as [c v]. destruct (get_store c x) as [c' g] eqn:Eg. ob E E2. inversion E; subst. clear E.
    assert (Oe : mtight w = true -> ty e = Some KNum).
    { intros Q. specialize (O Q). cbn [ty_stmt] in O. unfold numeric in O. destruct (ty e) as [[|]|]; congruence. }
    assert (Ot : okty e) by (intros Q; unfold typed; rewrite (Oe Q); reflexivity).
    destruct (expr_ok e _ _ _ E1 I Wf Ot) as [[P Dv _ _] Y]. set (l := [(x, CE (opt e0))]).
    assert (Ea : next (set_bind opt c' g (CE (opt e0))) = next (assigns opt c l)).
    { unfold l, assigns. cbn [fold_left fst snd]. unfold assign1. rewrite Eg. reflexivity. }
    rewrite Ea.
    destruct (seq_pure_assign c0 c l false I P) as (S1 & S2 & _).
    exists []. split; [exact S1|]. split; [left; exact S2|]. intros _.
    apply pure_assign_dyn; [exact I|exact P|]. intros B X Bp F Hn L r s HL HL2 Hs Ha.
    destruct (Y B X Bp F Hn L r s HL Hs Ha) as (V & _ & T). split.
    - intros n o' Ex. destruct n as [|n]; [discriminate|]. rewrite ex_S in Ex. destruct (r x) as [vx|] eqn:Er; [|discriminate].
      destruct (ev n r e) as [z| |] eqn:Ez; try discriminate.
      cbn [rbind] in Ex. unfold guard in Ex. destruct (_ && _) eqn:Ef; [|discriminate]. inversion Ex; subst o'.
      destruct (V n z Ez) as (k & s1 & R1 & A1 & W1). exists k, s1. split; [exact R1|]. split; [exact A1|].
      assert (Ha1 : agr L r s1) by (eapply pure_agr; eauto).
      assert (HLx : L x = Some g).
      { assert (H : lookup (next (assigns opt c l)) x = Some g) by (rewrite <- Ea; exact (get_store_new c x c' g Eg)).
        apply HL2; [|exact H]. destruct S1 as [S1 _ _]. exact (i_vars _ _ (x_inv _ _ _ _ _ S1) x g H). }
      assert (Hg : s1 (User g) = vx).
      { destruct (Ha1 x vx Er) as [g' [G1 G2]]. rewrite HLx in G1. inversion G1; subst. reflexivity. }
      apply andb_true_iff in Ef. destruct Ef as [Ef Ef3]. apply andb_true_iff in Ef. destruct Ef as [Ef1 Ef2].
      assert (Hv : eval s1 (cve (CE (opt e0))) = py_bin o vx z).
      { cbn [cve]. rewrite opt_ok, (cbin_ok opt opt_ok w opt_bits o _ _ e0 s1 E2); cbn [cve eval]; rewrite Hg, (proj1 W1); [reflexivity|exact Ef1]. }
      cbn [map fst snd l vals]. rewrite Hv. split; [constructor; [exact Ef2|constructor]|split; [|reflexivity]].
      intros Q. constructor; [|constructor]. left. destruct (opt_bits Q) as [Hw Fb]. destruct W1 as [W1 W2].
      specialize (W2 Q). unfold den in W2. rewrite (Oe Q) in W2. eexists. rewrite Hv. cbn [cve]. apply (fb_num _ _ Fb).
      pose proof (room_range w (XName x) vx Q Ef3) as Hvx. cbn [pw] in Hvx.
      assert (Dg : dnum w s1 (EVar (User g)) w vx) by (rewrite <- Hg; apply dnum_var; [exact Hw|rewrite Hg; exact Hvx]).
      apply (cbin_den w o (CE (EVar (User g))) v e0 s1 w (pw w e) vx z E2 Dg W2 Hg W1 Ef1).
      pose proof (fits_tight _ Q Ef2) as Hf2. destruct (keeps_left o); [exact Hf2|].
      apply (range_le w); [lia|exact Hf2].
    - intros K HK. destruct (T K HK) as [[n Hn'] _]. exists (S n). rewrite ex_S. destruct (r x); [|discriminate].
      destruct (ev n r e) as [z'| |]; cbn [rbind]; [unfold guard; destruct (_ && _); discriminate|discriminate|congruence].
  Qed.

  Lemma expr_case f es : Pstmt (PExpr f es).
  Proof.
    intros c0 c2 E I Wf O _. cbn [Comp_Model.cstmt] in E. destruct (skip c0) eqn:Sk.
    { inversion E; subst. exists []. split; [apply skipped; exact I|]. split; [auto|discriminate]. }
    ob E E1. destruct p as [c1 vs]. ob E E2. destruct p as [c2' v]. inversion E; subst. clear E.
    destruct (exprs_ok' es _ _ _ E1 I Wf O) as (P & Dv & Y).
    assert (D' : Forall (dep (fun r => r < c_tmp c1)) vs).
    { eapply Forall_impl; [|exact Dv]. intros q. apply dep_incl. intros g [H _]. exact H. }
    destruct (HC c1 f vs c2 v E2 (pure_inv _ _ P) D') as (P2 & _ & Y2).
    pose proof (pure_trans _ _ _ P P2) as P3. exists []. split; [|split].
    - split; [eapply ext_incl; [| |exact (pu_ext _ _ P3)]; [intros ? []|discriminate]| |intros _ k i []].
      apply pd_nil; apply P3.
    - left. apply P3.
    - intros _ B X Bp F Hn HX L r s HL Hs Ha. destruct (final_split0 B c0 c1 c2 X P P2 F) as [F1 F2].
      pose proof (okL_back _ _ _ L c1 _ (pure_inv _ _ P) (pu_ext _ _ P2) HL) as HL1.
      pose proof (x_cur _ _ _ _ _ (pu_ext _ _ P)) as L1. pose proof (x_cur _ _ _ _ _ (pu_ext _ _ P2)) as L2.
      destruct (Y B X Bp F1 ltac:(lia) L r s HL1 Hs Ha) as [V T]. split.
      + intros n o Ev. destruct n as [|n]; [discriminate|]. rewrite ex_S in Ev. destruct (evs n r es) as [zs| |] eqn:Q1; try discriminate.
        cbn [rbind] in Ev. destruct (call n f zs) as [q| |] eqn:Q2; try discriminate. cbn [rbind] in Ev. inversion Ev; subst.
        destruct (V n zs Q1) as (k1 & s1 & R1 & A1 & W1 & Wg). subst zs.
        destruct (Y2 B X Bp F2 Hn s1 A1 Wg) as [V2 _]. destruct (V2 n _ Q2) as (k2 & s2 & R2 & A2 & W2).
        assert (R : reach B (cur c0) (cur c2) (k1 + k2) s s2).
        { eapply reach_app; [eapply reach_mono; [| |exact R1]; lia|eapply reach_mono; [| |exact R2]; lia]. }
        exists (k1 + k2), s2. split; [exact R|]. split; [exact A2|]. eapply pure_agr; eauto.
      + intros K HK.
        apply (term_S _ (fun n => vs <- evs n r es ;; v <- call n f vs ;; Val (ONorm r))); [intros; apply ex_S|].
        apply (term_bind (fun n => evs n r es) (fun n vs => v <- call n f vs ;; Val (ONorm r))).
        * intros n. apply (mono1 w fns n).
        * intros n q. apply le_bind; [apply (mono1 w fns n)|intros; apply le_refl].
        * apply (T K). eapply leaves_mono; [| |exact HK]; lia.
        * intros n zs Q1. destruct (V n zs Q1) as (k1 & s1 & R1 & A1 & W1 & Wg). subst zs.
          destruct (Y2 B X Bp F2 Hn s1 A1 Wg) as [_ T2].
          assert (R1' : reach B (cur c0) (cur c2) k1 s s1) by (eapply reach_mono; [| |exact R1]; lia).
          destruct (leaves_after w fit B _ _ _ _ _ _ HK R1') as [_ HK2].
          destruct (T2 (K - k1)) as [m Hm]; [eapply leaves_mono; [| |exact HK2]; lia|].
          exists m. destruct (call m f (vals s1 vs)) as [q| |]; cbn; try discriminate; congruence.
  Qed.

  Lemma pass_case : Pstmt PPass.
  Proof.
    intros c0 c1 E I Wf O _. cbn in E. inversion E; subst. exists []. split; [apply skipped; exact I|]. split; [auto|].
    intros _ B X Bp F Hn HX L r s HL Hs Ha. split.
    - intros n o Ex. destruct n; [discriminate|]. rewrite ex_S in Ex. inversion Ex; subst. exists 0, s. split; [constructor|split; assumption].
    - intros K _. exists 1. discriminate.
  Qed.

  (** ** Jump statements *)
  Definition single (k : kind) (i : nat) : pend :=
    match k with KB => mkPend [i] [] [] | KC => mkPend [] [i] [] | KR => mkPend [] [] [i] end.
  Definition jump (k : kind) (c : cst) : cst := inc (w_own c (papp (c_own c) (single k (cur c)))).
  Lemma jump_skip k c : skip (jump k c) = true.
  Proof.
    unfold skip, jump. cbn [c_own inc w_fsm w_own]. unfold papp. destruct (c_own c) as [p q t].
    destruct k; cbn [p_brk p_cont p_ret single]; destruct p, q, t; reflexivity.
  Qed.
  Lemma jump_pd k c : jp c (cur c) = [] -> pd c (jump k c) [(k, cur c)].
  Proof.
    intros Hj. assert (Ec : cur (jump k c) = S (cur c)) by reflexivity. split.
    - intros q i. unfold pl, jump. cbn [c_own c_sub inc w_fsm w_own]. rewrite pk_app, !in_app_iff. cbn [In].
      assert (H : In i (pk q (single k (cur c))) <-> (k, cur c) = (q, i)).
      { destruct k, q; cbn; split; intros H; try (destruct H as [H|[]]; subst; reflexivity); try contradiction; inversion H; auto. }
      tauto.
    - intros q i [H|[]]. inversion H; subst. lia.
    - intros q i [H|[]]. inversion H; subst. exact Hj.
    - intros q q' i [H|[]] [H'|[]]. inversion H. inversion H'. congruence.
  Qed.
  Lemma jump_ext n A rt c0 c k : n <= 1 -> ext n A rt c0 c -> ext 0 A rt c0 (jump k c).
  Proof.
    intros Hn E. apply (ext_inc n); [exact Hn|]. eapply ext_proj; [apply same4_refl| |exact E]. repeat split.
  Qed.

  Lemma simple_jump k s (g : penv -> outcome) : (forall c, cstmt c s = Some (jump k c)) -> assigned s = [] -> jumpy s = true ->
    (escapes s = false -> k = KR) ->
    (forall n r, ex (S n) r s = Val (g r)) -> (forall L c1 X r s', at_ s' (X k) -> agr L r s' -> fin L c1 X (g r) s') -> Pstmt s.
  Proof.
    intros Hc HA Hj Hesc He Hfin c0 c1 E I Wf O _. rewrite Hc in E. inversion E; subst. clear E.
    assert (E0 : ext 0 [] true c0 (jump k c0)).
    { apply (jump_ext 0); [lia|]. eapply ext_incl; [apply incl_refl| |apply ext_refl; exact I]. discriminate. }
    exists [(k, cur c0)]. split; [|split].
    - rewrite HA. split; [exact E0|apply jump_pd; apply (i_jp _ _ I); lia|]. intros H q i [Hq|[]]. inversion Hq; subst. apply Hesc. exact H.
    - right. split; [exact Hj|apply jump_skip].
    - intros _ B X Bp (F1 & F2 & F3) Hn HX L r st HL Hs Ha.
      assert (Ec : cur (jump k c0) = S (cur c0)) by reflexivity.
      assert (Hb : body_at B (cur c0) = []).
      { rewrite F1 by lia. change (bd c0 (cur c0) = []). apply (i_bd _ _ I). lia. }
      destruct (F3 k (cur c0)) as [G1 G2]; [left; reflexivity|]. split.
      + intros n o Ex. destruct n as [|n]; [discriminate|]. cbv beta in Ex. rewrite He in Ex. inversion Ex; subst.
        exists 1, (mstep B st). split; [apply reach_one with (i := cur c0); [lia|exact Hs|eapply okst_goto; [exact Hb|split; [exact G1|exact G2]]]|]. apply Hfin.
        * apply (step_goto fit B Bp st (cur c0)); [exact Hs|rewrite Hb; constructor|exact G1|exact G2|]. apply fit_state, HX.
        * eapply agr_user; [|exact Ha]. intros q. eapply step_nop; eauto.
      + intros K _. exists 1. cbv beta. rewrite He. discriminate.
  Qed.
  Lemma break_case : Pstmt PBreak.
  Proof. apply (simple_jump KB PBreak OBrk); try reflexivity; try discriminate. intros; split; assumption. Qed.
  Lemma continue_case : Pstmt PContinue.
  Proof. apply (simple_jump KC PContinue OCont); try reflexivity; try discriminate. intros; split; assumption. Qed.
  Lemma return_none_case : Pstmt (PReturn None).
  Proof.
    apply (simple_jump KR (PReturn None) (fun r => ORet r None)); try reflexivity.
    intros L c1 X r s' H1 H2. split; [exact H1|]. split; [exact H2|]. discriminate.
  Qed.

  Lemma return_case e : Pstmt (PReturn (Some e)).
  Proof.
    intros c0 c3 E I Wf O _. cbn [Comp_Model.cstmt] in E.
    assert (H0 : exists c0' g, (match c_ret c0 with Some r => (c0, r)
                        | None => (w_ret (w_tmp c0 (S (c_tmp c0))) (Some (c_tmp c0)), c_tmp c0) end) = (c0', g) /\
               ext 0 [] true c0 c0' /\ c_ret c0' = Some g /\ c_own c0' = c_own c0 /\ c_sub c0' = c_sub c0 /\ c_fsm c0' = c_fsm c0).
    { destruct (c_ret c0) as [g|] eqn:Er.
      - exists c0, g. split; [reflexivity|]. split; [|repeat split; assumption].
        apply (ext_incl 0 [] [] false true); [apply incl_refl|discriminate|apply ext_refl; exact I].
      - eexists _, _. split; [reflexivity|]. split; [apply ext_alloc_ret; assumption|]. repeat split. }
    destruct H0 as (c0' & g & E0 & X0 & Rg & O1 & O2 & O3). rewrite E0 in E. ob E E1. destruct p as [c1 v].
    assert (I0 : inv c0') by apply X0.
    destruct (expr_ok e _ _ _ E1 I0 Wf O) as [[P Dv _ _] Y].
    assert (Ec3 : c3 = jump KR (set_bind opt c1 g v)) by (inversion E; reflexivity). clear E.
    assert (Rg1 : c_ret c1 = Some g) by (rewrite (pure_ret _ _ P); exact Rg).
    assert (Xa : ext 0 [] true c0 c1).
    { apply (ext_trans 0 [] [] true c0 c0' c1 X0). eapply ext_incl; [apply incl_refl| |exact (pu_ext _ _ P)]. discriminate. }
    assert (Xb : ext 1 [] true c0 (set_bind opt c1 g v)).
    { apply (ext_bind opt 0); [lia|exact Xa|]. right. right. split; [reflexivity|exact Rg1]. }
    assert (Xc : ext 0 [] true c0 c3) by (subst c3; apply (jump_ext 1); [lia|exact Xb]).
    assert (Hc0 : cur c0' = cur c0) by (unfold cur; rewrite O3; reflexivity).
    pose proof (x_cur _ _ _ _ _ (pu_ext _ _ P)) as C1.
    assert (Ec : cur c3 = S (cur c1)) by (subst c3; reflexivity).
    exists [(KR, cur c1)]. split; [|split].
    - split; [exact Xc| |].
      + assert (Hp : pd c0 (set_bind opt c1 g v) []).
        { apply pd_nil; cbn; [rewrite (pu_own _ _ P)|rewrite (pu_sub _ _ P)]; assumption. }
        subst c3. destruct (jump_pd KR (set_bind opt c1 g v)) as [J1 J2 J3 J4].
        { rewrite set_bind_jp. apply (i_jp _ _ (pure_inv _ _ P)). change (cur c1 <= cur c1). lia. }
        split.
        * intros q i. rewrite J1. rewrite (d_in _ _ _ Hp). cbn [In]. tauto.
        * intros q i H. specialize (J2 q i H). change (cur (set_bind opt c1 g v)) with (cur c1) in J2. lia.
        * exact J3.
        * exact J4.
      + intros _ q i [H|[]]. inversion H. reflexivity.
    - right. split; [reflexivity|]. subst c3. apply jump_skip.
    - intros _ B X Bp F Hn HX L r s HL Hs Ha.
      assert (F1 : Final B c0' c1 [] X).
      { apply (final_sub B c0 c3 [(KR, cur c1)] X); auto; try lia.
        - intros i Hi. subst c3. change (bd (set_bind opt c1 g v) i = bd c1 i). rewrite set_bind_bd.
          destruct (Nat.eqb_spec (cur c1) i); [lia|apply app_nil_r].
        - intros i Hi _. split; [intros k [H|[]]; inversion H; lia|]. subst c3. reflexivity.
        - intros k i []. }
      destruct F as (G1 & G2 & G3).
      assert (HL1 : okL L c1) by (subst c3; exact HL).
      assert (Hs' : at_ s (cur c0')) by (rewrite Hc0; exact Hs).
      destruct (Y B X Bp F1 ltac:(lia) L r s HL1 Hs' Ha) as (V & _ & T).
      assert (Hb : body_at B (cur c1) = [SSub (LVar (User g)) (opt (cve v))]).
      { rewrite G1 by lia. subst c3. change (bd (set_bind opt c1 g v) (cur c1) = [SSub (LVar (User g)) (opt (cve v))]).
        rewrite set_bind_bd, (i_bd _ _ (pure_inv _ _ P)), Nat.eqb_refl by lia. reflexivity. }
      destruct (G3 KR (cur c1)) as [J1 J2]; [left; reflexivity|]. split.
      + intros n o Ex. destruct n as [|n]; [discriminate|]. rewrite ex_S in Ex. destruct (ev n r e) as [z| |] eqn:Ez; try discriminate.
        cbn [rbind] in Ex. unfold guard in Ex. destruct (fits w z) eqn:Ef; [|discriminate]. inversion Ex; subst o.
        destruct (V n z Ez) as (k & s1 & R1 & A1 & W1).
        assert (Ha1 : agr L r s1) by (eapply pure_agr; eauto).
        assert (Hval : forall q, mstep B s1 (User q) = if Nat.eqb q g then z else s1 (User q)).
        { intros q. rewrite (step_user fit B Bp s1 (cur c1) q A1), Hb. unfold execs. cbn [fold_left exec assign].
          rewrite opt_ok, (proj1 W1), fit_user by exact Ef. destruct (Nat.eqb_spec q g) as [->|Hne]; [apply vset_same|].
          apply vset_other. congruence. }
        exists (k + 1), (mstep B s1). split; [|split; [|split]].
        * rewrite Hc0 in R1. eapply reach_app; [eapply reach_mono; [| |exact R1]; lia|].
          apply reach_one with (i := cur c1); [lia|exact A1|]. apply (okst_bind B s1 (cur c1) [g] [v] (X KR)); [exact Hb|split; assumption| |].
          -- constructor; [rewrite (proj1 W1); exact Ef|constructor].
          -- intros Q. constructor; [exact (vok_gd w e s1 v z O W1 Q)|constructor].
        * apply (step_goto fit B Bp s1 (cur c1)); [exact A1|rewrite Hb; constructor; [exists g, (opt (cve v)); reflexivity|constructor]|exact J1|exact J2|]. apply fit_state, HX.
        * intros x y Hx. destruct (Ha1 x y Hx) as [q [Q1 Q2]]. exists q. split; [exact Q1|]. rewrite Hval.
          destruct (Nat.eqb_spec q g) as [->|]; [|exact Q2]. exfalso.
          assert (Hq : lookup c1 x = Some g) by (apply HL1; [exact (i_ret _ _ (pure_inv _ _ P) g Rg1)|exact Q1]).
          exact (i_ret' _ _ (pure_inv _ _ P) g x Rg1 Hq).
        * intros z' Ez'. inversion Ez'; subst z'. exists g. split; [subst c3; exact Rg1|]. rewrite Hval, Nat.eqb_refl. split; [reflexivity|exact Ef].
      + intros K HK. destruct (T K) as [[n Hn'] _]; [rewrite Hc0; eapply leaves_mono; [| |exact HK]; lia|].
        exists (S n). rewrite ex_S.
        destruct (ev n r e) as [z| |]; cbn [rbind]; [unfold guard; destruct (fits w z); discriminate|discriminate|congruence].
  Qed.

  (** ** Control states *)
  Lemma goto_step B s i d : plain B -> at_ s i -> body_at B i = [] -> goes B i d -> d <= N ->
    at_ (mstep B s) d /\ forall g, mstep B s (User g) = s (User g).
  Proof.
    intros Bp Hs Hb [G1 G2] Hd. split; [|intros g; eapply step_nop; eauto].
    apply (step_goto fit B Bp s i); [exact Hs|rewrite Hb; constructor|exact G1|exact G2|apply fit_state; exact Hd].
  Qed.
  Lemma branch_step B s i c d e : plain B -> at_ s i -> body_at B i = [] -> jumps_at B i = [(d, Some c, Some e)] -> d <= N -> e <= N ->
    at_ (mstep B s) (if truth (eval s c) then d else e) /\ forall g, mstep B s (User g) = s (User g).
  Proof.
    intros Bp Hs Hb Hj Hd He. split; [|intros g; eapply step_nop; eauto].
    apply (step_branch fit B Bp s i); [exact Hs|rewrite Hb; constructor|exact Hj|apply fit_state; exact Hd|apply fit_state; exact He].
  Qed.

  Definition norm (o : outcome) : bool := match o with ONorm _ => true | _ => false end.
  Lemma fin_up L c1 c2 X o s : norm o = false -> (forall g, c_ret c1 = Some g -> c_ret c2 = Some g) -> fin L c1 X o s -> fin L c2 X o s.
  Proof.
    intros Hn Hr H. destruct o; try discriminate; try exact H. destruct H as (H1 & H2 & H3).
    split; [exact H1|]. split; [exact H2|]. intros z Ez. destruct (H3 z Ez) as [g [G1 G2]]. exists g. auto.
  Qed.
  Lemma jumpy_not_norm s n r o : jumpy s = true -> ex n r s = Val o -> norm o = false.
  Proof.
    intros H E. destruct n as [|n]; [discriminate|]. destruct s; try discriminate; rewrite ex_S in E; try (inversion E; reflexivity).
    destruct e as [e|]; [|inversion E; reflexivity]. destruct (ev n r e); try discriminate. cbn [rbind] in E. unfold guard in E.
    destruct (fits w a); inversion E; reflexivity.
  Qed.

  (** ** Blocks *)
  Lemma nil_case : Pblock PNil.
  Proof.
    intros pend c0 c1 E I Wf O _. cbn in E. inversion E; subst. exists []. split; [apply skipped; exact I|]. split; [auto|].
    intros _ B X Bp F Hn HX L r s HL Hs Ha. split.
    - intros n o Ex. destruct n; [discriminate|]. rewrite exb_S in Ex. inversion Ex; subst. exists 0, s. split; [constructor|split; assumption].
    - intros K _. exists 1. discriminate.
  Qed.

  Lemma pl_nil k c0 c1 D : pd c0 c1 D -> pl k c0 = [] -> (forall i, ~ In (k, i) D) -> pl k c1 = [].
  Proof.
    intros P H0 HD. destruct (pl k c1) as [|i l] eqn:E; [reflexivity|]. exfalso.
    assert (Hi : In i (pl k c1)) by (rewrite E; left; reflexivity). apply (d_in _ _ _ P) in Hi. rewrite H0 in Hi.
    destruct Hi as [[]|Hi]. exact (HD i Hi).
  Qed.

  Lemma cons_case s b : Pstmt s -> Pblock b -> Pblock (PCons s b).
  Proof.
    intros Hs Hb pend c0 c2 E I Wf O Hp. cbn [Comp_Model.cblock] in E. ob E E1. cbn [wf_block] in Wf.
    rewrite !andb_true_iff in Wf. destruct Wf as [[Wl Ws] Wb]. rename c into c1.
    assert (Ok : mtight w = true -> ty_stmt s = true /\ ty_block b = true).
    { intros Q. specialize (O Q). cbn [ty_block] in O. apply andb_true_iff in O. exact O. }
    destruct (Hs c0 c1 E1 I Ws (fun Q => proj1 (Ok Q))) as (D1 & [X1 P1 Q1] & O1 & Y1).
    { intros Hl. apply Hp. destruct pend; [|reflexivity]. rewrite Hl in Wl. discriminate. }
    destruct (Hb (pend || escapes s) c1 c2 E (x_inv _ _ _ _ _ X1) Wb (fun Q => proj2 (Ok Q))) as (D2 & [X2 P2 Q2] & O2 & Y2).
    { intros H. apply orb_false_iff in H. destruct H as [H1 H2]. destruct (Hp H1) as [Hb1 Hb2].
      split; (eapply pl_nil; [exact P1|assumption|]; intros i Hi; specialize (Q1 H2 _ _ Hi); discriminate). }
    assert (Sk : skip c1 = false -> skip c0 = false).
    { intros H. destruct O1 as [O1|[_ O1]]; [rewrite <- (skip_own _ _ O1); exact H|congruence]. }
    exists (D1 ++ D2). split; [|split].
    - split.
      + apply (ext_trans 0 (assigned s) (assigneds b) true c0 c1 c2 X1 X2).
      + eapply pd_trans; eauto. apply (x_cur _ _ _ _ _ X1).
      + cbn [escapess]. intros H k i Hi. apply orb_false_iff in H. destruct H as [H1 H2]. apply in_app_or in Hi.
        destruct Hi as [Hi|Hi]; [exact (Q1 H1 k i Hi)|exact (Q2 H2 k i Hi)].
    - auto.
    - intros S0 B X Bp F Hn HX L r st HL Hst Ha.
      pose proof (x_cur _ _ _ _ _ X1) as C1. pose proof (x_cur _ _ _ _ _ X2) as C2.
      destruct (final_split B 0 _ _ true c0 c1 c2 D1 D2 X X1 X2 (d_rng _ _ _ P1) (d_rng _ _ _ P2) F) as [F1 F2].
      pose proof (okL_back _ _ _ L c1 c2 (x_inv _ _ _ _ _ X1) X2 HL) as HL1.
      destruct (Y1 S0 B X Bp F1 ltac:(nl) HX L r st HL1 Hst Ha) as [V1 T1].
      assert (S1 : forall n r', ex n r s = Val (ONorm r') -> skip c1 = false).
      { intros n r' Ex. destruct O1 as [O1|[J1 _]]; [rewrite (skip_own _ _ O1); exact S0|].
        pose proof (jumpy_not_norm s n r _ J1 Ex). discriminate. }
      split.
      + intros n o Ex. destruct n as [|n]; [discriminate|]. rewrite exb_S in Ex. destruct (ex n r s) as [o1| |] eqn:Eo; try discriminate.
        cbn [rbind] in Ex. destruct (V1 n o1 Eo) as (k1 & s1 & R1 & G1).
        assert (R1' : reach B (cur c0) (cur c2) k1 st s1) by (eapply reach_mono; [| |exact R1]; nl).
        destruct (norm o1) eqn:No.
        * destruct o1 as [r1| | |]; try discriminate. destruct G1 as [A1 G1].
          destruct (Y2 (S1 n r1 Eo) B X Bp F2 Hn HX L r1 s1 HL A1 G1) as [V2 _].
          destruct (V2 n o Ex) as (k2 & s2 & R2 & G2). exists (k1 + k2), s2. split; [|exact G2].
          eapply reach_app; [exact R1'|]. eapply reach_mono; [| |exact R2]; nl.
        * exists k1, s1. split; [exact R1'|]. assert (o = o1) by (destruct o1; try discriminate; inversion Ex; reflexivity). subst o.
          eapply fin_up; [exact No| |exact G1]. apply (x_r1 _ _ _ _ _ X2).
      + intros K HK.
        apply (term_S _ (fun n => o <- ex n r s ;; match o with ONorm r' => exb n r' b | _ => Val o end)); [intros; apply exb_S|].
        apply (term_bind (fun n => ex n r s) (fun n o => match o with ONorm r' => exb n r' b | _ => Val o end)).
        * intros n. apply (mono1 w fns n).
        * intros n q. destruct q; try apply le_refl. apply (mono1 w fns n).
        * apply (T1 K). eapply leaves_mono; [| |exact HK]; nl.
        * intros n o1 Eo. destruct (V1 n o1 Eo) as (k1 & s1 & R1 & G1).
          assert (R1' : reach B (cur c0) (cur c2) k1 st s1) by (eapply reach_mono; [| |exact R1]; nl).
          destruct (leaves_after w fit B _ _ _ _ _ _ HK R1') as [_ HK2].
          destruct o1 as [r1| | |]; try (exists 0; discriminate). destruct G1 as [A1 G1].
          destruct (Y2 (S1 n r1 Eo) B X Bp F2 Hn HX L r1 s1 HL A1 G1) as [_ T2].
          apply (T2 (K - k1)). eapply leaves_mono; [| |exact HK2]; nl.
  Qed.

  Lemma scoped_block c c3 b : Pblock b -> scoped c (fun c => cblock c b) = Some c3 -> inv c -> wf_block false b = true ->
    (mtight w = true -> ty_block b = true) ->
    exists D, sstat (assigneds b) (escapess b) c c3 D /\ c_own c3 = c_own c /\ sdyn c c3 D (fun n r => exb n r b).
  Proof.
    intros Hb E I Wf O. unfold scoped in E. set (ce := w_sub (w_own c pend0) pend0) in *.
    destruct (cblock ce b) as [c'|] eqn:Eb; [|discriminate]. injection E as E3. subst c3.
    assert (S4 : same4 c ce) by (repeat split).
    destruct (Hb false ce c' Eb (invk_proj _ _ _ S4 I) Wf O) as (D & [X1 P1 Q1] & _ & Y1).
    { intros _. split; reflexivity. }
    exists D. split; [|split].
    - split.
      + eapply ext_proj; [| |exact X1]; repeat split.
      + destruct P1 as [A1 A2 A3 A4]. split; try assumption.
        intros k i. unfold pl. cbn [c_own c_sub w_sub w_own]. rewrite !pk_app, !in_app_iff.
        specialize (A1 k i). unfold pl in A1. rewrite in_app_iff in A1. cbn [c_own c_sub ce w_sub w_own] in A1.
        rewrite pk_0 in A1. cbn [app In] in A1. tauto.
      + exact Q1.
    - reflexivity.
    - exact (Y1 eq_refl).
  Qed.

  (** ** if *)
  Lemma if_case t a b : Pblock a -> Pblock b -> Pstmt (PIf t a b).
  Proof.
    intros Ha Hb c0 c E I Wf O _. cbn [Comp_Model.cstmt] in E. destruct (skip c0) eqn:Sk.
    { inversion E; subst. exists []. split; [apply skipped; exact I|]. split; [auto|discriminate]. }
    ob E E1. destruct p as [c1 v]. ob E E2. rename c2 into c3. cbn [wf_stmt] in Wf. rewrite !andb_true_iff in Wf. destruct Wf as [[Wt Wa] Wb].
    assert (Ok : mtight w = true -> typed t = true /\ ty_block a = true /\ ty_block b = true).
    { intros Q. specialize (O Q). cbn [ty_stmt] in O. rewrite !andb_true_iff in O. tauto. }
    assert (Ot : okty t) by (intros Q; apply (Ok Q)).
    destruct (expr_ok t _ _ _ E1 I Wt Ot) as [[P _ _ _] Y].
    set (p := cur c1) in *. set (c2 := inc c1) in *.
    assert (P01 : ext 0 [] true c0 c1) by (eapply ext_incl; [apply incl_refl| |exact (pu_ext _ _ P)]; discriminate).
    assert (P02 : ext 0 [] true c0 c2) by (apply (ext_inc 0); [nl|exact P01]).
    destruct (scoped_block c2 c3 a Ha E2 (x_inv _ _ _ _ _ P02) Wa (fun Q => proj1 (proj2 (Ok Q)))) as (Da & [Xa Pa Qa] & Oa & Ya).
    pose proof (ext_trans 0 [] (assigneds a) true c0 c2 c3 P02 Xa) as X03. cbn [app] in X03.
    pose proof (x_cur _ _ _ _ _ P01) as C01. pose proof (x_cur _ _ _ _ _ Xa) as C23.
    assert (Cp : cur c2 = S p) by reflexivity.
    pose proof (i_plain _ _ (x_inv _ _ _ _ _ Xa)) as Pl3. pose proof (i_plain _ _ (pure_inv _ _ P)) as Pl1.
    assert (J3p : jp c3 p = []) by (rewrite (x_j _ _ _ _ _ Xa) by nl; apply (i_jp _ _ (pure_inv _ _ P)); unfold p; nl).
    assert (B3p : bd c3 p = []) by (rewrite (x_b _ _ _ _ _ Xa) by nl; apply (i_bd _ _ (pure_inv _ _ P)); unfold p; nl).
    assert (O2 : c_own c2 = c_own c0) by apply (pu_own _ _ P). assert (S2 : c_sub c2 = c_sub c0) by apply (pu_sub _ _ P).
    destruct (no_block b) eqn:Nb.
    - (* no else *)
      destruct b; [|discriminate]. injection E as E4. set (m := cur c3) in *.
      assert (Cc : cur c = m) by (rewrite <- E4; reflexivity).
      assert (X0 : ext 0 (assigneds a) true c0 c) by (rewrite <- E4; apply ext_goto; [exact X03|unfold m; nl]).
      assert (Jo : forall i, i <> p -> jp c i = jp c3 i) by (intros i Hi; rewrite <- E4; apply set_fsm_jp_other; auto).
      assert (Jp : jp c p = [(S p, Some (cve v), Some m)]) by (rewrite <- E4; apply set_fsm_jp_same; auto).
      assert (Bd : forall i, bd c i = bd c3 i) by (intros; rewrite <- E4; reflexivity).
      assert (Rt : c_ret c = c_ret c3) by (rewrite <- E4; reflexivity).
      exists Da. split; [|split].
      + split.
        * cbn [assigned assigneds]. rewrite app_nil_r. exact X0.
        * destruct Pa as [A1 A2 A3 A4]. split; try assumption.
          -- intros k i. rewrite <- E4. change (In i (pl k c3) <-> In i (pl k c0) \/ In (k, i) Da). rewrite A1.
             unfold pl. rewrite O2, S2. tauto.
          -- intros k i H. specialize (A2 k i H). unfold m in *. nl.
          -- intros k i H. rewrite Jo; [exact (A3 k i H)|]. specialize (A2 k i H). nl.
        * cbn [escapes escapess]. rewrite orb_false_r. exact Qa.
      + left. rewrite <- E4. change (c_own c3 = c_own c0). congruence.
      + intros _ B X Bp F Hn HX L r s HL Hs Hag.
        assert (F1 : Final B c0 c1 [] X).
        { apply (final_sub B c0 c Da X); [exact F|nl|nl| | |intros ? ? []].
          - intros i Hi. rewrite Bd. rewrite (x_b _ _ _ _ _ Xa) by (unfold p in *; nl). reflexivity.
          - intros i Hi _. split; [intros k Hk; pose proof (d_rng _ _ _ Pa k i Hk); unfold p in *; nl|].
            rewrite Jo by (unfold p; nl). rewrite (x_j _ _ _ _ _ Xa) by (unfold p in *; nl). reflexivity. }
        assert (F2 : Final B c2 c3 Da X).
        { apply (final_sub B c0 c Da X); [exact F|nl|unfold m in *; nl| | |apply F].
          - intros i Hi. apply Bd.
          - intros i Hi Hk. split; [exact Hk|]. apply Jo. nl. }
        destruct F as (G1 & G2 & G3).
        assert (Hbp : body_at B p = []) by (rewrite G1, Bd by (unfold m, p in *; nl); exact B3p).
        assert (Hjp : jumps_at B p = [(S p, Some (cve v), Some m)]).
        { rewrite G2; [exact Jp|unfold m, p in *; nl|]. intros k Hk. pose proof (d_rng _ _ _ Pa k p Hk). nl. }
        assert (HL3 : okL L c3) by (rewrite <- E4 in HL; exact HL).
        assert (HL1 : okL L c1) by exact (okL_back _ _ _ L c2 c3 (x_inv _ _ _ _ _ P02) Xa HL3).
        destruct (Y B X Bp F1 ltac:(unfold p, m in *; nl) L r s HL1 Hs Hag) as (_ & V & T).
        assert (Hbr : forall k s1 n q, reach B (cur c0) (cur c1) k s s1 -> at_ s1 (cur c1) -> tok t s1 v q ->
                   tv n r t = Val q -> reach B (cur c0) (cur c) (k + 1) s (mstep B s1) /\ at_ (mstep B s1) (if q then S p else m) /\ agr L r (mstep B s1)).
        { intros k s1 n q R1 A1 W1 _. destruct (branch_step B s1 p _ _ _ Bp A1 Hbp Hjp) as [U1 U2]; [unfold m in *; nl|nl|].
          rewrite (proj1 W1) in U1. split; [|split; [exact U1|]].
          - eapply reach_app; [eapply reach_mono; [| |exact R1]; unfold p, m in *; nl|].
            apply reach_one with (i := p); [unfold p, m in *; nl|exact A1|].
            eapply okst_branch; [exact Hbp|exact Hjp|exact (proj1 W1)|exact (tok_tst w t s1 v q Ot W1)].
          - eapply agr_user; [exact U2|]. eapply pure_agr; eauto. }
        split.
        * intros n o Ex. destruct n as [|n]; [discriminate|]. rewrite ex_S in Ex. destruct (tv n r t) as [q| |] eqn:Et; try discriminate.
          cbn [rbind] in Ex. destruct (V n q Et) as (k & s1 & R1 & A1 & W1).
          destruct (Hbr k s1 n q R1 A1 W1 Et) as (R2 & A2 & G). destruct q.
          -- destruct (Ya B X Bp F2 ltac:(unfold m in *; nl) HX L r _ HL3 A2 G) as [V2 _].
             destruct (V2 n o Ex) as (k2 & s2 & R3 & Fi). exists (k + 1 + k2), s2. split.
             ++ eapply reach_app; [exact R2|]. eapply reach_mono; [| |exact R3]; unfold p, m in *; nl.
             ++ destruct o; cbn [fin] in *; rewrite ?Cc, ?Rt; exact Fi.
          -- destruct n as [|n]; [discriminate|]. rewrite exb_S in Ex. inversion Ex; subst o.
             exists (k + 1), (mstep B s1). split; [exact R2|]. split; [rewrite Cc; exact A2|exact G].
        * intros K HK.
          apply (term_S _ (fun n => q <- tv n r t ;; if q : bool then exb n r a else exb n r PNil)); [intros; apply ex_S|].
          apply (term_bind (fun n => tv n r t) (fun n (q : bool) => if q then exb n r a else exb n r PNil)).
          -- intros n. apply (mono1 w fns n).
          -- intros n q. destruct q; apply (mono1 w fns n).
          -- apply (T K). eapply leaves_mono; [| |exact HK]; unfold p, m in *; nl.
          -- intros n q Et. destruct (V n q Et) as (k & s1 & R1 & A1 & W1).
             destruct (Hbr k s1 n q R1 A1 W1 Et) as (R2 & A2 & G). destruct q; [|exists 1; discriminate].
             destruct (leaves_after w fit B _ _ _ _ _ _ HK R2) as [_ HK2].
             destruct (Ya B X Bp F2 ltac:(unfold m in *; nl) HX L r _ HL3 A2 G) as [_ T2].
             apply (T2 (K - (k + 1))). eapply leaves_mono; [| |exact HK2]; unfold p, m in *; nl.
    - (* else *)
      ob E E3. rename c4 into c5. set (m := cur c3) in *. set (c4 := inc c3) in *.
      assert (X04 : ext 0 (assigneds a) true c0 c4) by (apply (ext_inc 0); [nl|exact X03]).
      destruct (scoped_block c4 c5 b Hb E3 (x_inv _ _ _ _ _ X04) Wb (fun Q => proj2 (proj2 (Ok Q)))) as (Db & [Xb Pb Qb] & Ob & Yb).
      pose proof (ext_trans 0 _ _ true c0 c4 c5 X04 Xb) as X05. pose proof (x_cur _ _ _ _ _ Xb) as C45.
      assert (C4 : cur c4 = S m) by reflexivity. pose proof (i_plain _ _ (x_inv _ _ _ _ _ Xb)) as Pl5.
      injection E as E4. set (e := cur c5) in *.
      set (c6 := set_fsm c5 p (cur c2) (Some (cve v)) (Some (cur c4))) in *.
      assert (Pl6 : plain (c_fsm c6)) by (apply set_fsm_plain; exact Pl5).
      assert (Cc : cur c = e) by (rewrite <- E4; reflexivity).
      assert (Hpm : p < m) by (unfold m; nl). assert (Hme : m < e) by (unfold e; nl).
      assert (X0 : ext 0 (assigneds a ++ assigneds b) true c0 c).
      { rewrite <- E4. apply ext_goto; [apply ext_goto; [exact X05|]|]; [unfold e, p in *; nl|].
        change (cur c6) with e. unfold p in *. nl. }
      assert (J5p : jp c5 p = []) by (rewrite (x_j _ _ _ _ _ Xb) by nl; exact J3p).
      assert (J5m : jp c5 m = []).
      { rewrite (x_j _ _ _ _ _ Xb) by nl. change (jp c3 m = []). apply (i_jp _ _ (x_inv _ _ _ _ _ Xa)). unfold m. nl. }
      assert (Jo : forall i, i <> p -> i <> m -> jp c i = jp c5 i).
      { intros i Hi Hm. rewrite <- E4. rewrite set_fsm_jp_other by auto. apply set_fsm_jp_other; auto. }
      assert (Jp : jp c p = [(S p, Some (cve v), Some (S m))]).
      { rewrite <- E4. rewrite set_fsm_jp_other by (auto; nl). apply set_fsm_jp_same; auto. }
      assert (Jm : jp c m = [(e, None, None)]).
      { rewrite <- E4. apply set_fsm_jp_same; auto. unfold c6. rewrite set_fsm_jp_other by (auto; nl). exact J5m. }
      assert (Bd : forall i, bd c i = bd c5 i) by (intros; rewrite <- E4; reflexivity).
      assert (Rt : c_ret c = c_ret c5) by (rewrite <- E4; reflexivity).
      exists (Da ++ Db). split; [|split].
      + split.
        * exact X0.
        * assert (P24 : pd c2 c4 Da).
          { destruct Pa as [A1 A2 A3 A4]. split; try assumption. intros k i H. specialize (A2 k i H). nl. }
          destruct (pd_trans _ _ _ c2 c4 c5 Da Db P24 Pb Xb) as [A1 A2 A3 A4]; [nl|]. split; try assumption.
          -- intros k i. rewrite <- E4. change (In i (pl k c5) <-> In i (pl k c0) \/ In (k, i) (Da ++ Db)). rewrite A1.
             unfold pl. rewrite O2, S2. tauto.
          -- intros k i H. specialize (A2 k i H). rewrite Cc. unfold e, p in *. nl.
          -- intros k i H. rewrite Jo; [exact (A3 k i H)|specialize (A2 k i H); nl|].
             apply in_app_or in H. destruct H as [H|H]; [pose proof (d_rng _ _ _ Pa k i H); unfold m; nl|].
             pose proof (d_rng _ _ _ Pb k i H). nl.
        * cbn [escapes]. intros H k i Hi. apply orb_false_iff in H. destruct H as [H1 H2]. apply in_app_or in Hi.
          destruct Hi as [Hi|Hi]; [exact (Qa H1 k i Hi)|exact (Qb H2 k i Hi)].
      + left. rewrite <- E4. change (c_own c5 = c_own c0). rewrite Ob. change (c_own c3 = c_own c0). congruence.
      + intros _ B X Bp F Hn HX L r s HL Hs Hag.
        assert (B5 : forall i, i < S m -> bd c5 i = bd c3 i) by (intros i Hi; rewrite (x_b _ _ _ _ _ Xb) by nl; reflexivity).
        assert (J5 : forall i, i < S m -> jp c5 i = jp c3 i) by (intros i Hi; rewrite (x_j _ _ _ _ _ Xb) by nl; reflexivity).
        assert (F1 : Final B c0 c1 [] X).
        { apply (final_sub B c0 c (Da ++ Db) X); [exact F|nl|unfold p in *; nl| | |intros ? ? []].
          - intros i Hi. rewrite Bd, B5, (x_b _ _ _ _ _ Xa) by (unfold p in *; nl). reflexivity.
          - intros i Hi _. split.
            + intros k Hk. apply in_app_or in Hk. destruct Hk as [Hk|Hk];
                [pose proof (d_rng _ _ _ Pa k i Hk)|pose proof (d_rng _ _ _ Pb k i Hk)]; unfold p in *; nl.
            + rewrite Jo, J5, (x_j _ _ _ _ _ Xa) by (unfold p in *; nl). reflexivity. }
        assert (F2 : Final B c2 c3 Da X).
        { apply (final_sub B c0 c (Da ++ Db) X); [exact F|unfold p in *; nl|unfold m in *; nl| | |].
          - intros i Hi. rewrite Bd, B5 by (unfold m; nl). reflexivity.
          - intros i Hi Hk. split.
            + intros k H. apply in_app_or in H. destruct H as [H|H]; [exact (Hk k H)|].
              pose proof (d_rng _ _ _ Pb k i H). unfold m in *; nl.
            + rewrite Jo, J5 by (unfold m in *; nl). reflexivity.
          - intros k i H. apply F. apply in_or_app. auto. }
        assert (F3 : Final B c4 c5 Db X).
        { apply (final_sub B c0 c (Da ++ Db) X); [exact F|unfold p in *; nl|unfold e in *; nl| | |].
          - intros i Hi. apply Bd.
          - intros i Hi Hk. split.
            + intros k H. apply in_app_or in H. destruct H as [H|H]; [|exact (Hk k H)].
              pose proof (d_rng _ _ _ Pa k i H). unfold m in *; nl.
            + rewrite Jo by nl. reflexivity.
          - intros k i H. apply F. apply in_or_app. auto. }
        destruct F as (G1 & G2 & G3).
        assert (Hbp : body_at B p = []) by (rewrite G1, Bd, B5 by (unfold m, p in *; nl); exact B3p).
        assert (Hbm : body_at B m = []).
        { rewrite G1, Bd, B5 by (unfold p in *; nl). apply (i_bd _ _ (x_inv _ _ _ _ _ Xa)). unfold m. nl. }
        assert (HnD : forall i, i < S p \/ i = m -> forall k, ~ In (k, i) (Da ++ Db)).
        { intros i Hi k Hk. apply in_app_or in Hk. destruct Hk as [Hk|Hk];
            [pose proof (d_rng _ _ _ Pa k i Hk)|pose proof (d_rng _ _ _ Pb k i Hk)]; unfold m in *; nl. }
        assert (Hjp : jumps_at B p = [(S p, Some (cve v), Some (S m))]).
        { rewrite G2; [exact Jp|unfold p in *; nl|]. apply HnD. nl. }
        assert (Hgm : goes B m e).
        { unfold goes. rewrite G2; [rewrite Jm; split; [discriminate|repeat constructor]|unfold p in *; nl|]. apply HnD. auto. }
        assert (HL5 : okL L c5) by (rewrite <- E4 in HL; exact HL).
        assert (HL3 : okL L c3) by exact (okL_back _ _ _ L c4 c5 (x_inv _ _ _ _ _ X04) Xb HL5).
        assert (HL1 : okL L c1) by exact (okL_back _ _ _ L c2 c3 (x_inv _ _ _ _ _ P02) Xa HL3).
        destruct (Y B X Bp F1 ltac:(unfold p in *; nl) L r s HL1 Hs Hag) as (_ & V & T).
        assert (Hbr : forall k s1 n q, reach B (cur c0) (cur c1) k s s1 -> at_ s1 (cur c1) -> tok t s1 v q ->
                   tv n r t = Val q -> reach B (cur c0) (cur c) (k + 1) s (mstep B s1) /\ at_ (mstep B s1) (if q then S p else S m) /\ agr L r (mstep B s1)).
        { intros k s1 n q R1 A1 W1 _. destruct (branch_step B s1 p _ _ _ Bp A1 Hbp Hjp) as [U1 U2]; [nl|nl|].
          rewrite (proj1 W1) in U1. split; [|split; [exact U1|]].
          - eapply reach_app; [eapply reach_mono; [| |exact R1]; unfold p in *; nl|].
            apply reach_one with (i := p); [unfold p in *; nl|exact A1|].
            eapply okst_branch; [exact Hbp|exact Hjp|exact (proj1 W1)|exact (tok_tst w t s1 v q Ot W1)].
          - eapply agr_user; [exact U2|]. eapply pure_agr; eauto. }
        split.
        * intros n o Ex. destruct n as [|n]; [discriminate|]. rewrite ex_S in Ex. destruct (tv n r t) as [q| |] eqn:Et; try discriminate.
          cbn [rbind] in Ex. destruct (V n q Et) as (k & s1 & R1 & A1 & W1).
          destruct (Hbr k s1 n q R1 A1 W1 Et) as (R2 & A2 & G). destruct q.
          -- destruct (Ya B X Bp F2 ltac:(unfold m in *; nl) HX L r _ HL3 A2 G) as [V2 _].
             destruct (V2 n o Ex) as (k2 & s2 & R3 & Fi).
             assert (R4 : reach B (cur c0) (cur c) (k + 1 + k2) s s2).
             { eapply reach_app; [exact R2|]. eapply reach_mono; [| |exact R3]; unfold p, m in *; nl. }
             destruct (norm o) eqn:No.
             ++ destruct o as [r'| | |]; try discriminate. destruct Fi as [A3 G3'].
                destruct (goto_step B s2 m e Bp A3 Hbm Hgm ltac:(nl)) as [U1 U2].
                exists (k + 1 + k2 + 1), (mstep B s2). split; [|split; [rewrite Cc; exact U1|eapply agr_user; eauto]].
                eapply reach_app; [exact R4|]. apply reach_one with (i := m); [unfold p in *; nl|exact A3|eapply okst_goto; eassumption].
             ++ exists (k + 1 + k2), s2. split; [exact R4|]. eapply fin_up; [exact No| |exact Fi].
                intros g Hg. rewrite Rt. exact (x_r1 _ _ _ _ _ Xb g Hg).
          -- destruct (Yb B X Bp F3 ltac:(unfold e in *; nl) HX L r _ HL5 A2 G) as [V2 _].
             destruct (V2 n o Ex) as (k2 & s2 & R3 & Fi). exists (k + 1 + k2), s2. split.
             ++ eapply reach_app; [exact R2|]. eapply reach_mono; [| |exact R3]; unfold p, e in *; nl.
             ++ destruct o; cbn [fin] in *; rewrite ?Cc, ?Rt; exact Fi.
        * intros K HK.
          apply (term_S _ (fun n => q <- tv n r t ;; if q : bool then exb n r a else exb n r b)); [intros; apply ex_S|].
          apply (term_bind (fun n => tv n r t) (fun n (q : bool) => if q then exb n r a else exb n r b)).
          -- intros n. apply (mono1 w fns n).
          -- intros n q. destruct q; apply (mono1 w fns n).
          -- apply (T K). eapply leaves_mono; [| |exact HK]; unfold p in *; nl.
          -- intros n q Et. destruct (V n q Et) as (k & s1 & R1 & A1 & W1).
             destruct (Hbr k s1 n q R1 A1 W1 Et) as (R2 & A2 & G).
             destruct (leaves_after w fit B _ _ _ _ _ _ HK R2) as [_ HK2]. destruct q.
             ++ destruct (Ya B X Bp F2 ltac:(unfold m in *; nl) HX L r _ HL3 A2 G) as [_ T2].
                apply (T2 (K - (k + 1))). eapply leaves_mono; [| |exact HK2]; unfold p, m in *; nl.
             ++ destruct (Yb B X Bp F3 ltac:(unfold e in *; nl) HX L r _ HL5 A2 G) as [_ T2].
                apply (T2 (K - (k + 1))). eapply leaves_mono; [| |exact HK2]; unfold p, e in *; nl.
  Qed.
End S.
