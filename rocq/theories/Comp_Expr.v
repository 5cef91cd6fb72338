(** Correctness of compiled expressions, given correct calls. *)
From Verif Require Import Base Vlog Seq_Model Fsm_Model Py_Spec Py_Proofs Comp_Model Comp_Base Comp_Frag Bv_Sem Comp_Bits.
Open Scope nat_scope.

Inductive kind := KB | KC | KR.
Definition goes (B : fsmb) (i d : nat) : Prop := jumps_at B i <> [] /\ Forall (eq (d, None, None)) (jumps_at B i).
(** [B] contains the fragment [c0..c1] unchanged, its pending jumps [D] going to [X]. *)
Definition Final (B : fsmb) (c0 c1 : cst) (D : list (kind * nat)) (X : kind -> nat) : Prop :=
  (forall i, cur c0 <= i < cur c1 -> body_at B i = bd c1 i) /\
  (forall i, cur c0 <= i < cur c1 -> (forall k, ~ In (k, i) D) -> jumps_at B i = jp c1 i) /\
  (forall k i, In (k, i) D -> goes B i (X k)).

(** [v]'s value depends on the registers of [P] only *)
Definition dep (w : mode) (P : nat -> Prop) (v : cv) : Prop :=
  (forall s1 s2 : env, (forall r, P r -> s1 (User r) = s2 (User r)) -> eval s1 (cve v) = eval s2 (cve v)) /\
  (mtight w = true -> forall u, In u (expr_vars (cve v)) -> exists r, u = User r /\ P r).
Lemma dep_incl w (P Q : nat -> Prop) v : (forall r, P r -> Q r) -> dep w P v -> dep w Q v.
Proof.
  intros H [D1 D2]. split.
  - intros s1 s2 E. apply D1. auto.
  - intros T u Hu. destruct (D2 T u Hu) as (r & E & Hr). eauto.
Qed.
Lemma dep_int w P z : dep w P (CInt z). Proof. split; [intros s1 s2 _; reflexivity|intros _ u []]. Qed.
Lemma dep_zero w P z : dep w P (CE (EInt z)). Proof. exact (dep_int w P z). Qed.
Lemma dep_reg w (P : nat -> Prop) g : P g -> dep w P (CE (EVar (User g))).
Proof. intros H. split; [intros s1 s2 E; exact (E g H)|intros _ u [<-|[]]; eauto]. Qed.
Lemma dep_mk w P v (l : list cv) : Forall (dep w P) l ->
  (forall s1 s2, Forall (fun x => eval s1 (cve x) = eval s2 (cve x)) l -> eval s1 (cve v) = eval s2 (cve v)) ->
  (mtight w = true -> incl (expr_vars (cve v)) (flat_map (fun x => expr_vars (cve x)) l)) -> dep w P v.
Proof.
  intros Hl H1 H2. rewrite Forall_forall in Hl. split.
  - intros s1 s2 E. apply H1. apply Forall_forall. intros x Hx. exact (proj1 (Hl x Hx) s1 s2 E).
  - intros T u Hu. apply (H2 T) in Hu. apply in_flat_map in Hu. destruct Hu as (x & Hx & Hu). exact (proj2 (Hl x Hx) T u Hu).
Qed.
Lemma dep_vars w (P : nat -> Prop) v (s1 s2 : env) : mtight w = true -> dep w P v -> (forall r, P r -> s1 (User r) = s2 (User r)) ->
  forall u, In u (expr_vars (cve v)) -> s1 u = s2 u.
Proof. intros T [_ D] E u Hu. destruct (D T u Hu) as (r & -> & Hr). exact (E r Hr). Qed.

Lemma reach_empty w fit B p k s s' : reach w fit B p p k s s' -> s' = s.
Proof. intros H. inversion H; [reflexivity|lia]. Qed.

Lemma callfree_wf e : callfree e = true -> wf_expr e = true.
Proof. induction e; cbn; intros H; rewrite ?andb_true_iff in *; try discriminate; intuition. Qed.

(** [L]: the registers of the variables once the whole function is compiled. *)
Definition okL (L : name -> option nat) (c : cst) : Prop :=
  forall x g, g < c_tmp c -> (L x = Some g <-> lookup c x = Some g).
Definition agr (L : name -> option nat) (r : penv) (s : env) : Prop :=
  forall x v, r x = Some v -> exists g, L x = Some g /\ s (User g) = v.
Lemma okL_back k A rt L c0 c1 : inv c0 -> ext k A rt c0 c1 -> okL L c1 -> okL L c0.
Proof.
  intros I E H x g Hg. pose proof (x_tmp _ _ _ _ _ E). rewrite (H x g) by lia. split.
  - intros Hx. destruct (x_l2 _ _ _ _ _ E x g Hx) as [?|[? _]]; [assumption|lia].
  - apply (x_l1 _ _ _ _ _ E).
Qed.
Definition vals (s : env) (vs : list cv) : list Z := map (fun v => eval s (cve v)) vs.

(** a fragment that computes a value *)
Record pure (c0 c1 : cst) : Prop := mkPure {
  pu_ext : ext 0 [] false c0 c1; pu_own : c_own c1 = c_own c0; pu_sub : c_sub c1 = c_sub c0 }.

Lemma pure_refl c : inv c -> pure c c.
Proof. intros I. split; auto. apply ext_refl. exact I. Qed.
Lemma pure_trans c0 c1 c2 : pure c0 c1 -> pure c1 c2 -> pure c0 c2.
Proof.
  intros [A1 A2 A3] [B1 B2 B3]. split; [|congruence|congruence]. exact (ext_trans 0 [] [] false c0 c1 c2 A1 B1).
Qed.
Lemma pure_inv c0 c1 : pure c0 c1 -> inv c1.
Proof. intros [A _ _]. exact (x_inv _ _ _ _ _ A). Qed.
Lemma pure_lookup c0 c1 x : pure c0 c1 -> lookup c1 x = lookup c0 x.
Proof.
  intros [A _ _]. destruct (lookup c1 x) as [r|] eqn:E.
  - destruct (x_l2 _ _ _ _ _ A x r E) as [H|[_ []]]. auto.
  - destruct (lookup c0 x) as [r|] eqn:E0; [|reflexivity]. rewrite (x_l1 _ _ _ _ _ A x r E0) in E. discriminate.
Qed.
Lemma pure_ret c0 c1 : pure c0 c1 -> c_ret c1 = c_ret c0.
Proof.
  intros [A _ _]. destruct (c_ret c1) as [r|] eqn:E.
  - destruct (x_r2 _ _ _ _ _ A r E) as [H|[_ H]]; [auto|discriminate].
  - destruct (c_ret c0) as [r|] eqn:E0; [|reflexivity]. rewrite (x_r1 _ _ _ _ _ A r E0) in E. discriminate.
Qed.

Lemma final_user B k A rt c0 c1 D X : ext k A rt c0 c1 -> Final B c0 c1 D X ->
  forall i, cur c0 <= i < cur c1 -> user_only (body_at B i).
Proof. intros E [F _] i Hi. rewrite (F i Hi). apply (i_user _ _ (x_inv _ _ _ _ _ E)). Qed.

(** registers outside the fragment's reach keep their value *)
Lemma ext_frame w fit B k A rt c0 c1 D X n s s' r : plain B -> ext k A rt c0 c1 -> Final B c0 c1 D X ->
  reach w fit B (cur c0) (cur c1) n s s' -> ~ wr A rt c0 c1 r -> s' (User r) = s (User r).
Proof.
  intros Bp E F R Hw. refine (reach_frame w fit B Bp _ _ _ _ _ r R _ (final_user B k A rt c0 c1 D X E F)).
  intros i e Hi Hin. destruct F as [F _]. rewrite (F i Hi) in Hin.
  destruct (x_w _ _ _ _ _ E i _ (proj1 Hi) Hin) as (r' & e' & Eq & H). inversion Eq; subst. contradiction.
Qed.
Lemma pure_frame w fit B c0 c1 X n s s' r : plain B -> pure c0 c1 -> Final B c0 c1 [] X ->
  reach w fit B (cur c0) (cur c1) n s s' -> r < c_tmp c0 -> s' (User r) = s (User r).
Proof.
  intros Bp P F R Hr. refine (ext_frame w fit B 0 [] false c0 c1 [] X n s s' r Bp (pu_ext _ _ P) F R _).
  intros [H|[[x [[] _]]|[H _]]]; [lia|discriminate].
Qed.
Lemma pure_frame_var w fit B c0 c1 X n s s' L x g : plain B -> inv c0 -> pure c0 c1 -> Final B c0 c1 [] X ->
  reach w fit B (cur c0) (cur c1) n s s' -> okL L c1 -> L x = Some g -> s' (User g) = s (User g).
Proof.
  intros Bp I P F R HL HLx. refine (ext_frame w fit B 0 [] false c0 c1 [] X n s s' g Bp (pu_ext _ _ P) F R _).
  intros [H|[[y [[] _]]|[H _]]]; [|discriminate].
  assert (Hl : lookup c1 x = Some g) by (apply HL; [lia|exact HLx]). rewrite (pure_lookup _ _ x P) in Hl.
  pose proof (i_vars _ _ I x g Hl). lia.
Qed.
Lemma pure_agr w fit B c0 c1 X n s s' L r : plain B -> inv c0 -> pure c0 c1 -> Final B c0 c1 [] X ->
  reach w fit B (cur c0) (cur c1) n s s' -> okL L c1 -> agr L r s -> agr L r s'.
Proof.
  intros Bp I P F R HL Ha x v Hx. destruct (Ha x v Hx) as [g [G1 G2]]. exists g. split; [exact G1|].
  rewrite (pure_frame_var w fit B c0 c1 X n s s' L x g Bp I P F R HL G1). exact G2.
Qed.

Lemma final_split B k A1 A2 rt c0 c1 c2 D1 D2 X : ext 0 A1 rt c0 c1 -> ext k A2 rt c1 c2 ->
  (forall k i, In (k, i) D1 -> cur c0 <= i < cur c1) -> (forall k i, In (k, i) D2 -> cur c1 <= i < cur c2) ->
  Final B c0 c2 (D1 ++ D2) X -> Final B c0 c1 D1 X /\ Final B c1 c2 D2 X.
Proof.
  intros E1 E2 H1 H2 (F1 & F2 & F3). pose proof (x_cur _ _ _ _ _ E1). pose proof (x_cur _ _ _ _ _ E2).
  split; (split; [|split]).
  - intros i Hi. rewrite F1 by lia. apply (x_b _ _ _ _ _ E2). lia.
  - intros i Hi Hn. rewrite F2; [apply (x_j _ _ _ _ _ E2); lia|lia|]. intros q Hq. apply in_app_or in Hq.
    destruct Hq as [Hq|Hq]; [exact (Hn q Hq)|]. specialize (H2 q i Hq). lia.
  - intros q i Hq. apply F3, in_or_app. auto.
  - intros i Hi. apply F1. lia.
  - intros i Hi Hn. apply F2; [lia|]. intros q Hq. apply in_app_or in Hq.
    destruct Hq as [Hq|Hq]; [|exact (Hn q Hq)]. specialize (H1 q i Hq). lia.
  - intros q i Hq. apply F3, in_or_app. auto.
Qed.
Lemma final_split0 B c0 c1 c2 X : pure c0 c1 -> pure c1 c2 -> Final B c0 c2 [] X -> Final B c0 c1 [] X /\ Final B c1 c2 [] X.
Proof. intros [P1 _ _] [P2 _ _] F. apply (final_split B 0 [] [] false c0 c1 c2 [] [] X P1 P2); [intros k i []|intros k i []|exact F]. Qed.

(** ** Denotations in bits *)
Definition gd (w : Z) (s : env) (v : cv) : Prop :=
  (exists p, dnum w s (cve v) p (eval s (cve v))) \/ (exists b, dboo w s (cve v) b /\ eval s (cve v) = b2z b).
Definition den (w : Z) (e : pexpr) (s : env) (v : cv) (z : Z) : Prop :=
  match ty e with
  | Some KNum => dnum w s (cve v) (pw w e) z
  | Some KBoo => exists b, z = b2z b /\ dboo w s (cve v) b
  | None => True
  end.
Definition vok (w : mode) (e : pexpr) (s : env) (v : cv) (z : Z) : Prop :=
  eval s (cve v) = z /\ (mtight w = true -> den w e s v z).
Definition tden (w : Z) (e : pexpr) (s : env) (v : cv) (b : bool) : Prop :=
  match ty e with
  | Some KNum => exists z, dnum w s (cve v) (pw w e) z /\ truth z = b
  | Some KBoo => dboo w s (cve v) b
  | None => True
  end.
Definition tok (w : mode) (e : pexpr) (s : env) (v : cv) (b : bool) : Prop :=
  truth (eval s (cve v)) = b /\ (mtight w = true -> tden w e s v b).
Definition okty (w : mode) (e : pexpr) : Prop := mtight w = true -> typed e = true.

Lemma gd_ext w s1 s2 v : (forall u, In u (expr_vars (cve v)) -> s1 u = s2 u) -> gd w s1 v -> gd w s2 v.
Proof.
  intros H. assert (E : eval s1 (cve v) = eval s2 (cve v)) by (apply eval_ext; exact H).
  unfold gd. rewrite E. intros [[p D]|(b & D & Hb)].
  - left. exists p. eapply dnum_ext; eassumption.
  - right. exists b. split; [eapply dboo_ext; eassumption|exact Hb].
Qed.
Lemma gd_opt w opt s v : folds_bits w opt -> (forall s e, eval s (opt e) = eval s e) -> gd w s v -> gd w s (CE (opt (cve v))).
Proof.
  intros F O. unfold gd. cbn [cve]. rewrite O. intros [[p D]|(b & D & Hb)].
  - left. exists p. apply (fb_num _ _ F). exact D.
  - right. exists b. split; [apply (fb_boo _ _ F); exact D|exact Hb].
Qed.
Lemma gd_assigned w s v j g : (1 <= w)%Z -> gd w s v -> (- 2 ^ (w - 1) <= eval s (cve v) < 2 ^ (w - 1))%Z ->
  bassigned w s j (User g) (cve v) = eval s (cve v).
Proof.
  intros Hw [[p D]|(b & D & Hb)] Hz.
  - eapply dnum_assigned; eassumption.
  - rewrite Hb in *. apply dboo_assigned; assumption.
Qed.
Lemma gd_int w s z : (- 2 ^ 31 < z < 2 ^ 31)%Z -> gd w s (CInt z).
Proof. intros H. left. exists 32%Z. apply dnum_int. exact H. Qed.
Lemma den_gd w e s v z : typed e = true -> eval s (cve v) = z -> den w e s v z -> gd w s v.
Proof.
  unfold typed, den, gd. intros T <- D. destruct (ty e) as [[|]|]; [|destruct D as (b & E & D)|discriminate]; eauto.
Qed.
Lemma vok_gd w e s v z : okty w e -> vok w e s v z -> mtight w = true -> gd w s v.
Proof. intros O [E D] T. exact (den_gd w e s v z (O T) E (D T)). Qed.
Lemma vok_tok w e s v z : vok w e s v z -> tok w e s v (negb (Z.eqb z 0)).
Proof.
  intros [E D]. split; [rewrite E; reflexivity|]. intros T. specialize (D T). unfold den, tden in *.
  destruct (ty e) as [[|]|]; [exists z; split; [exact D|reflexivity]| |exact D].
  destruct D as (b & -> & D). destruct b; exact D.
Qed.
Lemma tok_tst w e s v b : okty w e -> tok w e s v b -> mtight w = true -> dtst w s (cve v) b.
Proof.
  intros O [E D] T. specialize (D T). specialize (O T). unfold typed, tden in *.
  destruct (ty e) as [[|]|]; [left; destruct D as (z & D & Z0); eauto|right; exact D|discriminate].
Qed.
Lemma pw_pos w e : (1 <= w)%Z -> (1 <= pw w e)%Z.
Proof. intros H. induction e; cbn [pw]; try lia. destruct o; lia. Qed.
Lemma den_ext w e s1 s2 v z : (forall u, In u (expr_vars (cve v)) -> s1 u = s2 u) -> den w e s1 v z -> den w e s2 v z.
Proof.
  intros H. unfold den. destruct (ty e) as [[|]|]; [|intros (b & E & D); exists b; split; [exact E|]|trivial].
  - eapply dnum_ext; eassumption.
  - eapply dboo_ext; eassumption.
Qed.
Lemma vok_ext w P e s1 s2 v z : dep w P v -> (forall r, P r -> s1 (User r) = s2 (User r)) -> vok w e s1 v z -> vok w e s2 v z.
Proof.
  intros Dv H [E D]. split; [rewrite <- E; symmetry; exact (proj1 Dv s1 s2 H)|]. intros T. eapply den_ext; [|exact (D T)].
  exact (dep_vars w P v s1 s2 T Dv H).
Qed.
Lemma tok_ext w P e s1 s2 v b : dep w P v -> (forall r, P r -> s1 (User r) = s2 (User r)) -> tok w e s1 v b -> tok w e s2 v b.
Proof.
  intros Dv H [E D]. split; [rewrite <- E; f_equal; symmetry; exact (proj1 Dv s1 s2 H)|]. intros T. specialize (D T).
  pose proof (dep_vars w P v s1 s2 T Dv H) as G. unfold tden in *.
  destruct (ty e) as [[|]|]; [destruct D as (z & D & Z0); exists z; split; [eapply dnum_ext; eassumption|exact Z0]|eapply dboo_ext; eassumption|trivial].
Qed.
Lemma gds_ext w P s1 s2 vs : mtight w = true -> Forall (dep w P) vs -> (forall r, P r -> s1 (User r) = s2 (User r)) ->
  Forall (gd w s1) vs -> Forall (gd w s2) vs.
Proof.
  intros T Dv H G. rewrite Forall_forall in *. intros v Hv. eapply gd_ext; [|exact (G v Hv)].
  exact (dep_vars w P v s1 s2 T (Dv v Hv) H).
Qed.


Section E.
  Variable opt : expr -> expr.
  Hypothesis opt_ok : forall s e, eval s (opt e) = eval s e.
  Variable w : mode.
  Hypothesis opt_bits : mtight w = true -> (1 <= w)%Z /\ folds_bits w opt.
  Variable fns : name -> option func.
  Variable fit : var -> Z -> Z.
  Variable N : nat.
  Variable callf : cst -> name -> list cv -> option (cst * cv).
  Notation ev := (ev w fns). Notation tv := (tv w fns). Notation evs := (evs w fns). Notation call := (call w fns).
  Notation cexpr := (cexpr opt callf). Notation cexprs := (cexprs opt callf).
  Notation dep := (dep w). Notation vok := (vok w). Notation tok := (tok w). Notation okty := (okty w).
  Notation reach := (reach w fit). Notation leaves := (leaves fit).

  Definition regs (e : list name) (c0 c1 : cst) (r : nat) : Prop :=
    r < c_tmp c1 /\ (c_tmp c0 <= r \/ exists x, In x e /\ lookup c0 x = Some r).

  (** width and sign of the compiled expression *)
  Definition sta (e : pexpr) (v : cv) : Prop := mtight w = true -> callfree e = true ->
    match ty e with
    | Some KNum => bs w (cve v) = true /\ bw w (cve v) = pw w e
    | Some KBoo => (1 <= bw w (cve v))%Z
    | None => True
    end.
  Record estat (e : pexpr) (c0 c1 : cst) (v : cv) : Prop := mkES {
    es_pure : pure c0 c1;
    es_dep : dep (regs (names e) c0 c1) v;
    es_cf : callfree e = true -> c1 = c0;
    es_st : sta e v }.
  Definition edyn (e : pexpr) (c0 c1 : cst) (v : cv) : Prop :=
    forall B X, plain B -> Final B c0 c1 [] X -> cur c1 <= N ->
    forall L r s, okL L c1 -> at_ s (cur c0) -> agr L r s ->
      (forall n z, ev n r e = Val z -> exists k s', reach B (cur c0) (cur c1) k s s' /\ at_ s' (cur c1) /\ vok e s' v z) /\
      (forall n b, tv n r e = Val b -> exists k s', reach B (cur c0) (cur c1) k s s' /\ at_ s' (cur c1) /\ tok e s' v b) /\
      (forall K, leaves B (cur c0) (cur c1) K s -> term (fun n => ev n r e) /\ term (fun n => tv n r e)).
  Definition Pexpr (e : pexpr) : Prop := forall c0 c1 v, cexpr c0 e = Some (c1, v) -> inv c0 -> wf_expr e = true -> okty e ->
    estat e c0 c1 v /\ edyn e c0 c1 v.
  Definition Pexprs (es : pexprs) : Prop := forall c0 c1 vs, cexprs c0 es = Some (c1, vs) -> inv c0 -> wf_exprs es = true -> (mtight w = true -> tys es = true) ->
    pure c0 c1 /\ Forall (dep (regs (namess es) c0 c1)) vs /\
    forall B X, plain B -> Final B c0 c1 [] X -> cur c1 <= N ->
    forall L r s, okL L c1 -> at_ s (cur c0) -> agr L r s ->
      (forall n zs, evs n r es = Val zs -> exists k s', reach B (cur c0) (cur c1) k s s' /\ at_ s' (cur c1) /\ vals s' vs = zs /\
         (mtight w = true -> Forall (gd w s') vs)) /\
      (forall K, leaves B (cur c0) (cur c1) K s -> term (fun n => evs n r es)).

  Definition CallOk : Prop := forall c0 f vs c1 v, callf c0 f vs = Some (c1, v) -> inv c0 ->
    Forall (dep (fun r => r < c_tmp c0)) vs ->
    pure c0 c1 /\ dep (fun r => c_tmp c0 <= r < c_tmp c1) v /\
    forall B X, plain B -> Final B c0 c1 [] X -> cur c1 <= N ->
    forall s, at_ s (cur c0) -> (mtight w = true -> Forall (gd w s) vs) ->
      (forall n o, call n f (vals s vs) = Val o ->
         exists k s', reach B (cur c0) (cur c1) k s s' /\ at_ s' (cur c1) /\ 
           (forall z, o = Some z -> eval s' (cve v) = z /\ (mtight w = true -> dnum w s' (cve v) w z))) /\
      (forall K, leaves B (cur c0) (cur c1) K s -> term (fun n => call n f (vals s vs))).
  Hypothesis HC : CallOk.

  (** ** operators *)
  Lemma cbin_ok o x y e s : cbin o x y = Some e -> bin_ok o (eval s (cve x)) (eval s (cve y)) = true ->
    eval s e = py_bin o (eval s (cve x)) (eval s (cve y)).
  Proof.
    assert (G : forall a b, bin_ok o a b = true -> sem_bin (vop o) a b = py_bin o a b).
    { intros a b H. destruct o; cbn in *; try reflexivity.
      - apply Z.quot_div_nonneg; lia.
      - apply Z.rem_mod_nonneg; lia.
      - apply Z.shiftl_mul_pow2. lia.
      - apply Z.shiftr_div_pow2. lia. }
    intros E H. unfold cbin in E.
    destruct x as [a|a], y as [b|b]; try (inversion E; subst; cbn [eval cve] in *; apply G; exact H).
    cbn [eval cve] in *. destruct o; try (inversion E; subst; cbn [eval]; try (apply G; exact H); reflexivity).
    - destruct (Z.eqb b 0); inversion E; reflexivity.
    - destruct (Z.ltb b 0); inversion E; reflexivity.
    - destruct (Z.ltb b 0); inversion E; reflexivity.
  Qed.
  Lemma opt_vars e : mtight w = true -> incl (expr_vars (opt e)) (expr_vars e).
  Proof. intros T. apply (fb_vars _ _ (proj2 (opt_bits T))). Qed.
  Lemma cbin_dep P o x y e : cbin o x y = Some e -> dep P x -> dep P y -> dep P (CE (opt e)).
  Proof.
    intros E Dx Dy. apply (dep_mk w P _ [x; y]); [repeat (apply Forall_nil || (apply Forall_cons; [assumption|]))| |].
    - intros s1 s2 H. inversion H as [|? ? H1 H2]; subst. inversion H2 as [|? ? H3 H4]; subst. cbn [cve]. rewrite !opt_ok.
      assert (G : eval s1 (EBin (vop o) (cve x) (cve y)) = eval s2 (EBin (vop o) (cve x) (cve y))) by (cbn [eval]; congruence).
      unfold cbin in E. destruct x as [a|a], y as [b|b]; try (inversion E; subst; exact G).
      destruct o; try (inversion E; subst; reflexivity).
      + destruct (Z.eqb b 0); inversion E; reflexivity.
      + destruct (Z.ltb b 0); inversion E; reflexivity.
      + destruct (Z.ltb b 0); inversion E; reflexivity.
    - intros T u Hu. apply (opt_vars e T) in Hu. cbn [flat_map]. rewrite app_nil_r.
      assert (G : expr_vars e = expr_vars (cve x) ++ expr_vars (cve y) \/ expr_vars e = []).
      { unfold cbin in E. destruct x as [a|a], y as [b|b]; try (inversion E; subst; left; reflexivity).
        destruct o; try (inversion E; subst; right; reflexivity).
        + destruct (Z.eqb b 0); inversion E; right; reflexivity.
        + destruct (Z.ltb b 0); inversion E; right; reflexivity.
        + destruct (Z.ltb b 0); inversion E; right; reflexivity. }
      destruct G as [G|G]; rewrite G in Hu; [exact Hu|destruct Hu].
  Qed.
  Lemma ccmp_dep P o x y : dep P x -> dep P y -> dep P (ccmp o x y).
  Proof.
    intros Dx Dy. apply (dep_mk w P _ [x; y]); [repeat (apply Forall_nil || (apply Forall_cons; [assumption|]))| |].
    - intros s1 s2 H. inversion H as [|? ? H1 H2]; subst. inversion H2 as [|? ? H3 H4]; subst.
      unfold ccmp. destruct x as [a|a], y as [b|b]; destruct o; cbn [cve eval] in *; congruence.
    - intros _. cbn [flat_map]. rewrite app_nil_r. intros u Hu.
      assert (G : forall b a c, In u (expr_vars (EBin Lor (EBin b a c) (EBin Eq a c))) -> In u (expr_vars a ++ expr_vars c)).
      { intros b a c. cbn [expr_vars]. rewrite !in_app_iff. tauto. }
      unfold ccmp in Hu. destruct x as [a|a], y as [b|b]; destruct o; try destruct Hu; try exact Hu; try (apply G in Hu; exact Hu);
        try (cbn [expr_vars cve app] in *; rewrite ?app_nil_r in *; assumption); cbn [expr_vars cve app In] in *; try contradiction.
  Qed.
  Lemma lor_b (p q : bool) : b2z (truth (b2z p) || truth (b2z q)) = b2z (p || q).
  Proof. destruct p, q; reflexivity. Qed.
  Lemma le_lt_eq x y : ((x <? y) || (x =? y))%Z = (x <=? y)%Z.
  Proof. destruct (Z.ltb_spec x y), (Z.eqb_spec x y), (Z.leb_spec x y); cbn; try reflexivity; lia. Qed.
  Lemma ge_gt_eq x y : ((y <? x) || (x =? y))%Z = (y <=? x)%Z.
  Proof. rewrite Z.eqb_sym. apply le_lt_eq. Qed.
  Lemma ccmp_ok o x y s : eval s (cve (ccmp o x y)) = b2z (py_cmp o (eval s (cve x)) (eval s (cve y))).
  Proof.
    unfold ccmp. destruct x as [a|a], y as [b|b]; destruct o; cbn [eval cve sem_bin py_cmp vcmp]; try reflexivity;
      rewrite lor_b; f_equal; (apply le_lt_eq || apply ge_gt_eq).
  Qed.
  Lemma cun_ok u x s : u <> PNot -> eval s (cun u x) = py_un u (eval s (cve x)).
  Proof.
    intros H. destruct u; [| | |congruence]; destruct x as [a|a]; cbn; try reflexivity.
    all: unfold Z.lnot; lia.
  Qed.
  Lemma cun_dep P u x : dep P x -> dep P (CE (opt (cun u x))).
  Proof.
    intros D. apply (dep_mk w P _ [x]); [repeat (apply Forall_nil || (apply Forall_cons; [assumption|]))| |].
    - intros s1 s2 H. inversion H as [|? ? H1 H2]; subst. cbn [cve]. rewrite !opt_ok.
      destruct u, x; cbn in *; try reflexivity; rewrite H1; reflexivity.
    - intros T v Hv. apply (opt_vars _ T) in Hv. cbn [flat_map]. rewrite app_nil_r. destruct u, x; cbn in *; auto.
  Qed.

  (** ** operators in bits *)
  Lemma bw_int z : bw w (EInt z) = 32%Z. Proof. reflexivity. Qed.
  Lemma pw_bin o a b : pw w (XBin o a b) = if keeps_left o then pw w a else Z.max (pw w a) (pw w b).
  Proof. destruct o; reflexivity. Qed.
  Lemma sym_range p z : sym p z = true -> (- 2 ^ (p - 1) < z < 2 ^ (p - 1))%Z.
  Proof. unfold sym. rewrite andb_true_iff, Z.ltb_lt, Z.ltb_lt. tauto. Qed.
  Lemma room_range e z : mtight w = true -> room w e z = true -> (- 2 ^ (pw w e - 1) < z < 2 ^ (pw w e - 1))%Z.
  Proof. unfold room. intros -> H. exact (sym_range _ _ H). Qed.

  Lemma cbin_den o x y e s p q zx zy : cbin o x y = Some e -> dnum w s (cve x) p zx -> dnum w s (cve y) q zy ->
    eval s (cve x) = zx -> eval s (cve y) = zy -> bin_ok o zx zy = true ->
    let r := if keeps_left o then p else Z.max p q in
    (- 2 ^ (r - 1) < py_bin o zx zy < 2 ^ (r - 1))%Z -> dnum w s e r (py_bin o zx zy).
  Proof.
    intros E Dx Dy Ex Ey Hok r Hr. pose proof (dnum_bin w s o _ _ p q zx zy Dx Dy Hok Hr) as D. fold r in D.
    assert (G : forall a b, x = CInt a -> y = CInt b -> dnum w s (EInt (py_bin o a b)) r (py_bin o zx zy)).
    { intros a b -> ->. cbn [cve eval] in *. subst a b. destruct Dx as (_ & Ep & _). destruct Dy as (_ & Eq & _).
      rewrite bw_int in Ep, Eq. assert (Er : r = 32%Z) by (unfold r; rewrite <- Ep, <- Eq; destruct (keeps_left o); reflexivity).
      rewrite Er in *. apply dnum_int. exact Hr. }
    unfold cbin in E. destruct x as [a|a], y as [b|b]; try (inversion E; subst; exact D).
    specialize (G a b eq_refl eq_refl).
    destruct o; try (inversion E; subst e; (exact G || exact D)).
    - destruct (Z.eqb b 0); inversion E; exact G.
    - destruct (Z.ltb b 0); inversion E; exact G.
    - destruct (Z.ltb b 0); inversion E; exact G.
  Qed.
  Lemma ccmp_den o x y s p q zx zy : dnum w s (cve x) p zx -> dnum w s (cve y) q zy ->
    eval s (cve x) = zx -> eval s (cve y) = zy -> dboo w s (cve (ccmp o x y)) (py_cmp o zx zy).
  Proof.
    intros Dx Dy Ex Ey. pose proof (fun o => dboo_cmp w s o _ _ p q zx zy Dx Dy) as D.
    assert (G : forall a b c d, dboo w s a c -> dboo w s b d -> dboo w s (EBin Lor a b) (c || d)).
    { intros a b c d H1 H2. apply dboo_or; [right; exact H1|intros _; right; exact H2]. }
    unfold ccmp. destruct x as [a|a], y as [b|b]; cbn [cve eval] in *; try subst a; try subst b;
      destruct o; cbn [py_cmp vcmp cve] in *; try apply dboo_int; try (exact (D PEq)); try (exact (D PNe)); try (exact (D PLt)); try (exact (D PGt));
      try (exact (D PLe)); try (exact (D PGe));
      first [rewrite <- (le_lt_eq zx zy); apply G; solve [apply dboo_int|exact (D PLt)|exact (D PEq)]
            |rewrite <- (ge_gt_eq zx zy); apply G; solve [apply dboo_int|exact (D PGt)|exact (D PEq)]].
  Qed.
  Lemma cun_den u x s p z : dnum w s (cve x) p z -> eval s (cve x) = z -> u <> PNot ->
    (- 2 ^ (p - 1) < py_un u z < 2 ^ (p - 1))%Z -> dnum w s (cun u x) p (py_un u z).
  Proof.
    intros D E Hu Hr. pose proof (dnum_un w s u _ p z D Hu Hr) as G.
    destruct x as [a|a]; [|destruct u; cbn in *; congruence || exact G].
    cbn [cve eval] in *. subst a. destruct D as (_ & Ep & _). rewrite bw_int in Ep. subst p.
    destruct u; try congruence; apply dnum_int; exact Hr.
  Qed.

  Lemma regs_l e1 e2 c0 c1 c2 r : c_tmp c1 <= c_tmp c2 -> regs e1 c0 c1 r -> regs (e1 ++ e2) c0 c2 r.
  Proof. intros H [H1 H2]. split; [lia|]. destruct H2 as [H2|[x [H2 H3]]]; [auto|right; exists x; rewrite in_app_iff; auto]. Qed.
  Lemma regs_r e1 e2 c0 c1 c2 r : pure c0 c1 -> regs e2 c1 c2 r -> regs (e1 ++ e2) c0 c2 r.
  Proof.
    intros P [H1 H2]. split; [lia|]. pose proof (x_tmp _ _ _ _ _ (pu_ext _ _ P)).
    destruct H2 as [H2|[x [H2 H3]]]; [left; lia|right; exists x; rewrite in_app_iff, <- (pure_lookup _ _ x P); auto].
  Qed.

  (** "a then b", both values at the end *)
  Lemma two_stat a b c0 c1 c2 x y : Pexpr a -> Pexpr b -> cexpr c0 a = Some (c1, x) -> cexpr c1 b = Some (c2, y) -> inv c0 ->
    wf_expr a = true -> wf_expr b = true -> okty a -> okty b ->
    pure c0 c1 /\ pure c1 c2 /\ dep (regs (names a ++ names b) c0 c2) x /\ dep (regs (names a ++ names b) c0 c2) y /\
    dep (fun r => r < c_tmp c1) x /\ (callfree a = true -> c1 = c0) /\ (callfree b = true -> c2 = c1) /\
    edyn a c0 c1 x /\ edyn b c1 c2 y /\ sta a x /\ sta b y.
  Proof.
    intros Ha Hb Ea Eb I Wa Wb Ta Tb. destruct (Ha _ _ _ Ea I Wa Ta) as [[P1 D1 C1 S1] Y1].
    destruct (Hb _ _ _ Eb (pure_inv _ _ P1) Wb Tb) as [[P2 D2 C2 S2] Y2].
    pose proof (x_tmp _ _ _ _ _ (pu_ext _ _ P2)) as T.
    split; [exact P1|]. split; [exact P2|]. split.
    { eapply dep_incl; [|exact D1]. intros r. apply regs_l. exact T. }
    split.
    { eapply dep_incl; [|exact D2]. intros r. apply regs_r. exact P1. }
    split.
    { eapply dep_incl; [|exact D1]. intros r [H _]. exact H. }
    split; [exact C1|]. split; [exact C2|]. split; [exact Y1|]. split; [exact Y2|]. split; assumption.
  Qed.
  Lemma two_run a b c0 c1 c2 x y B X Lm r s : pure c0 c1 -> pure c1 c2 -> dep (fun r => r < c_tmp c1) x ->
    edyn a c0 c1 x -> edyn b c1 c2 y -> inv c0 -> plain B -> Final B c0 c2 [] X -> cur c2 <= N -> okL Lm c2 -> at_ s (cur c0) -> agr Lm r s ->
    (forall n m z1 z2, ev n r a = Val z1 -> ev m r b = Val z2 ->
       exists k s', reach B (cur c0) (cur c2) k s s' /\ at_ s' (cur c2) /\ vok a s' x z1 /\ vok b s' y z2) /\
    (forall K, leaves B (cur c0) (cur c2) K s -> term (fun n => ev n r a) /\ (forall n z, ev n r a = Val z -> term (fun m => ev m r b))).
  Proof.
    intros P1 P2 Dx Y1 Y2 I Bp F Hn Ho Hs Ha. pose proof (okL_back _ _ _ Lm c1 c2 (pure_inv _ _ P1) (pu_ext _ _ P2) Ho) as Ho1.
    destruct (final_split0 B c0 c1 c2 X P1 P2 F) as [F1 F2].
    pose proof (x_cur _ _ _ _ _ (pu_ext _ _ P1)) as L1. pose proof (x_cur _ _ _ _ _ (pu_ext _ _ P2)) as L2.
    destruct (Y1 B X Bp F1 ltac:(lia) Lm r s Ho1 Hs Ha) as (V1 & _ & T1). split.
    - intros n m z1 z2 E1 E2. destruct (V1 n z1 E1) as (k1 & s1 & R1 & A1 & W1).
      assert (Ha1 : agr Lm r s1) by (eapply pure_agr; eauto).
      destruct (Y2 B X Bp F2 Hn Lm r s1 Ho A1 Ha1) as (V2 & _ & _). destruct (V2 m z2 E2) as (k2 & s2 & R2 & A2 & W2).
      exists (k1 + k2), s2. split; [|split; [exact A2|split; [|exact W2]]].
      + eapply reach_app; [eapply reach_mono; [| |exact R1]; lia|eapply reach_mono; [| |exact R2]; lia].
      + eapply vok_ext; [exact Dx| |exact W1]. intros g Hg. symmetry. eapply pure_frame; eauto.
    - intros K HL. split; [apply (T1 K); eapply leaves_mono; [| |exact HL]; lia|].
      intros n z E1. destruct (V1 n z E1) as (k1 & s1 & R1 & A1 & W1).
      assert (Ha1 : agr Lm r s1) by (eapply pure_agr; eauto).
      destruct (Y2 B X Bp F2 Hn Lm r s1 Ho A1 Ha1) as (_ & _ & T2).
      assert (R1' : reach B (cur c0) (cur c2) k1 s s1) by (eapply reach_mono; [| |exact R1]; lia).
      destruct (leaves_after w fit B _ _ _ _ _ _ HL R1') as [_ HL2].
      apply (T2 (K - k1)). eapply leaves_mono; [| |exact HL2]; lia.
  Qed.

  (** tv of an expression that is not a connective *)
  Lemma edyn_from_ev e c0 c1 v : okty e -> (forall n r, tv (S n) r e = rbind (ev n r e) (fun x => Val (negb (Z.eqb x 0)))) ->
    (forall B X, plain B -> Final B c0 c1 [] X -> cur c1 <= N ->
    forall L r s, okL L c1 -> at_ s (cur c0) -> agr L r s ->
      (forall n z, ev n r e = Val z -> exists k s', reach B (cur c0) (cur c1) k s s' /\ at_ s' (cur c1) /\ vok e s' v z) /\
      (forall K, leaves B (cur c0) (cur c1) K s -> term (fun n => ev n r e))) -> edyn e c0 c1 v.
  Proof.
    intros O Ht H B X Bp F Hn Lm r s Ho Hs Ha. destruct (H B X Bp F Hn Lm r s Ho Hs Ha) as [V T]. split; [exact V|]. split; [|intros K HK; split].
    - intros n b E. destruct n as [|n]; [discriminate|]. rewrite Ht in E. destruct (ev n r e) as [z| |] eqn:E1; try discriminate.
      cbn in E. inversion E; subst. destruct (V n z E1) as (k & s' & R & A & W). exists k, s'. split; [exact R|]. split; [exact A|].
      exact (vok_tok w e s' v z W).
    - apply (T K). assumption.
    - destruct (T K HK) as [n Hn']. exists (S n). rewrite Ht. destruct (ev n r e); try discriminate. congruence.
  Qed.

  Lemma term_S {A} (f g : nat -> res A) : (forall n, f (S n) = g n) -> term g -> term f.
  Proof. intros H [n Hn]. exists (S n). rewrite H. exact Hn. Qed.

  Ltac ob H E := match type of H with obind ?m _ = Some _ => destruct m as [?|] eqn:E; [|discriminate H]; cbn [obind] in H end.

  Lemma exprs_ok : (forall e, Pexpr e) /\ (forall es, Pexprs es).
  Proof.
    apply pexpr_ind2.
    - (* XInt *) intros z c0 c1 v E I Wf O. cbn in E. inversion E; subst. split.
      + split; [apply pure_refl; exact I|apply dep_int|reflexivity|]. intros T _. split; reflexivity.
      + apply edyn_from_ev; [exact O|reflexivity|]. intros B X Bp F Hn Lm r s Ho Hs Ha. split.
        * intros n z' Ev. destruct n; [discriminate|]. rewrite ev_S in Ev. destruct (room w (XInt z) z) eqn:Rm; [|discriminate]. cbn in Ev.
          inversion Ev; subst. exists 0, s. split; [constructor|]. split; [exact Hs|]. split; [reflexivity|].
          intros T. apply dnum_int. exact (room_range (XInt z') z' T Rm).
        * intros K _. exists 1. rewrite ev_S. unfold guard. destruct (room _ _ _); discriminate.
    - (* XName *) intros x c0 c1 v E I Wf O. cbn in E. destruct (lookup c0 x) as [g|] eqn:El; [|discriminate]. inversion E; subst. split.
      + split; [apply pure_refl; exact I| |reflexivity|intros T _; split; reflexivity].
        apply dep_reg. split; [exact (i_vars _ _ I x g El)|]. right. exists x. split; [left; reflexivity|exact El].
      + apply edyn_from_ev; [exact O|reflexivity|]. intros B X Bp F Hn Lm r s Ho Hs Ha. split.
        * intros n z' Ev. destruct n; [discriminate|]. rewrite ev_S in Ev. destruct (r x) as [z|] eqn:Er; [|discriminate].
          destruct (room w (XName x) z) eqn:Rm; [|discriminate]. cbn in Ev. inversion Ev; subst.
          destruct (Ha x z' Er) as [g' [G1 G2]].
          assert (G0 : Lm x = Some g) by (apply Ho; [exact (i_vars _ _ I x g El)|exact El]). rewrite G0 in G1. inversion G1; subst.
          exists 0, s. split; [constructor|]. split; [exact Hs|]. split; [reflexivity|].
          intros T. apply dnum_var; [exact (proj1 (opt_bits T))|]. exact (room_range _ _ T Rm).
        * intros K _. exists 1. rewrite ev_S. unfold guard. destruct (r x); [destruct (room _ _ _)|]; discriminate.
    - (* XUn *) intros u e IH c0 c1 v E I Wf O. cbn [Comp_Model.cexpr] in E. ob E E1. destruct p as [c' v']. inversion E; subst.
      assert (Oe : okty e).
      { intros T. specialize (O T). unfold typed in *. cbn [ty] in O. destruct u, (ty e) as [[|]|]; congruence. }
      destruct (IH _ _ _ E1 I Wf Oe) as [[P D C Sx] Y]. split.
      + split; [exact P|apply cun_dep; exact D|exact C|]. intros T Hc. specialize (Sx T Hc). cbn [cve].
        destruct (opt_bits T) as [_ F]. cbn [ty].
        assert (Gn : u <> PNot -> bs w (cve v') = true /\ bw w (cve v') = pw w e -> bs w (opt (cun u v')) = true /\ bw w (opt (cun u v')) = pw w (XUn u e)).
        { intros Hu [S1 S2]. assert (G : bs w (cun u v') = true /\ bw w (cun u v') = pw w e).
          { destruct u, v'; try congruence; split; assumption. }
          destruct (fb_static _ _ F _ (proj1 G)) as [G1 G2]. split; [exact G1|]. rewrite G2. exact (proj2 G). }
        destruct u; try (destruct (ty e) as [[|]|]; [apply Gn; [discriminate|exact Sx]|exact Coq.Init.Logic.I|exact Coq.Init.Logic.I]).
        destruct (ty e); [|exact Coq.Init.Logic.I]. apply (fb_wide _ _ F). change (bw w (cun PNot v')) with 1%Z. lia.
      + destruct (match u with PNot => true | _ => false end) eqn:Eu.
        * destruct u; try discriminate. intros B X Bp F Hn Lm r s Ho Hs Ha. destruct (Y B X Bp F Hn Lm r s Ho Hs Ha) as (V & T & L).
          assert (G : forall s', eval s' (cve (CE (opt (cun PNot v')))) = b2z (negb (truth (eval s' (cve v'))))).
          { intros s'. cbn [cve cun]. rewrite opt_ok. reflexivity. }
          assert (Gb : forall s' b, tok e s' v' b -> mtight w = true -> dboo w s' (opt (cun PNot v')) (negb b)).
          { intros s' b W Q. apply (fb_boo _ _ (proj2 (opt_bits Q))). apply dboo_not. exact (tok_tst w e s' v' b Oe W Q). }
          split; [|split; [|intros K H; split]].
          -- intros n z Ev. destruct n as [|n]; [discriminate|]. rewrite ev_S in Ev. destruct (tv n r e) as [b| |] eqn:Et; try discriminate.
             cbn in Ev. inversion Ev; subst. destruct (T n b Et) as (k & s' & R & A & W). exists k, s'. split; [exact R|]. split; [exact A|].
             split; [rewrite G, (proj1 W); reflexivity|]. intros Q. specialize (O Q). unfold typed in O. unfold den. cbn [ty] in *.
             destruct (ty e); [|discriminate]. exists (negb b). split; [reflexivity|]. exact (Gb s' b W Q).
          -- intros n z Ev. destruct n as [|n]; [discriminate|]. rewrite tv_S in Ev. destruct (tv n r e) as [b| |] eqn:Et; try discriminate.
             cbn in Ev. inversion Ev; subst. destruct (T n b Et) as (k & s' & R & A & W). exists k, s'. split; [exact R|]. split; [exact A|].
             split; [rewrite G, (proj1 W); destruct b; reflexivity|]. intros Q. specialize (O Q). unfold typed in O. unfold tden. cbn [ty] in *.
             destruct (ty e); [|discriminate]. exact (Gb s' b W Q).
          -- destruct (L K H) as [_ [n Hn']]. exists (S n). rewrite ev_S. destruct (tv n r e); try discriminate; congruence.
          -- destruct (L K H) as [_ [n Hn']]. exists (S n). rewrite tv_S. destruct (tv n r e); try discriminate; congruence.
        * assert (Hu : u <> PNot) by (intros ->; discriminate).
          apply edyn_from_ev; [exact O|intros; destruct u; try reflexivity; congruence|]. intros B X Bp F Hn Lm r s Ho Hs Ha.
          destruct (Y B X Bp F Hn Lm r s Ho Hs Ha) as (V & T & L).
          assert (Ge : forall n, ev (S n) r (XUn u e) = rbind (ev n r e) (fun x => guard (room w (XUn u e) (py_un u x)) (Val (py_un u x)))) by (intros n; destruct u; try reflexivity; congruence).
          split.
          -- intros n z Ev. destruct n as [|n]; [discriminate|]. rewrite Ge in Ev. destruct (ev n r e) as [x| |] eqn:Et; try discriminate.
             cbn in Ev. destruct (room w (XUn u e) (py_un u x)) eqn:Rm; [|discriminate]. cbn in Ev.
             inversion Ev; subst. destruct (V n x Et) as (k & s' & R & A & W). exists k, s'. split; [exact R|]. split; [exact A|].
             split; [cbn [cve]; rewrite opt_ok, cun_ok, (proj1 W) by exact Hu; reflexivity|].
             intros Q. specialize (O Q). destruct W as [W1 W2]. specialize (W2 Q). unfold typed in O. unfold den in *. cbn [ty] in *.
             assert (Tk : ty e = Some KNum /\ ty (XUn u e) = Some KNum) by (clear - O Hu; cbn [ty]; destruct u; try (exfalso; exact (Hu eq_refl)); destruct (ty e) as [[|]|]; try discriminate O; split; reflexivity).
             destruct Tk as [Tk1 Tk2]. cbn [ty] in Tk2. rewrite Tk2. rewrite Tk1 in W2. cbn [cve].
             apply (fb_num _ _ (proj2 (opt_bits Q))). apply cun_den; [exact W2|exact W1|exact Hu|exact (room_range _ _ Q Rm)].
          -- intros K HL. destruct (L K HL) as [[n Hn'] _]. exists (S n). rewrite Ge. destruct (ev n r e); try discriminate; try congruence.
             cbn. unfold guard. destruct (room _ _ _); discriminate.
    - (* XBin *) intros o a IHa b IHb c0 c2 v E I Wf O. cbn [Comp_Model.cexpr] in E. ob E E1. destruct p as [c1 x]. ob E E2. destruct p as [c2' y].
      ob E E3. inversion E; subst. cbn in Wf. apply andb_true_iff in Wf. destruct Wf as [Wa Wb].
      assert (Ok : mtight w = true -> ty a = Some KNum /\ ty b = Some KNum).
      { intros T. specialize (O T). unfold typed in O. cbn [ty] in O. destruct (ty a) as [[|]|], (ty b) as [[|]|]; try congruence; auto. }
      assert (Oa : okty a) by (intros T; unfold typed; rewrite (proj1 (Ok T)); reflexivity).
      assert (Ob : okty b) by (intros T; unfold typed; rewrite (proj2 (Ok T)); reflexivity).
      destruct (two_stat a b c0 c1 c2 x y IHa IHb E1 E2 I Wa Wb Oa Ob) as (P1 & P2 & D1 & D2 & D3 & C1 & C2 & Y1 & Y2 & S1 & S2).
      split.
      + split; [eapply pure_trans; eauto|eapply cbin_dep; eauto| |].
        * cbn. intros Hc. apply andb_true_iff in Hc. rewrite (C2 (proj2 Hc)). apply C1, Hc.
        * intros T Hc. cbn [callfree] in Hc. apply andb_true_iff in Hc. specialize (S1 T (proj1 Hc)). specialize (S2 T (proj2 Hc)).
          cbn [ty cve]. destruct (Ok T) as [K1 K2]. rewrite K1 in *. rewrite K2 in *.
          assert (G : bs w e = true /\ bw w e = pw w (XBin o a b)).
          { rewrite pw_bin. destruct S1 as [S1 S1'], S2 as [S2 S2']. rewrite <- S1', <- S2'.
            assert (G : bs w (EBin (vop o) (cve x) (cve y)) = true).
            { destruct o; cbn [vop]; change (bs w (EBin _ (cve x) (cve y))) with (bs w (cve x) && bs w (cve y)) || change (bs w (EBin _ (cve x) (cve y))) with (bs w (cve x)); rewrite ?S1, ?S2; reflexivity. }
            assert (G' : bw w (EBin (vop o) (cve x) (cve y)) = if keeps_left o then bw w (cve x) else Z.max (bw w (cve x)) (bw w (cve y))) by (destruct o; reflexivity).
            unfold cbin in E3. destruct x as [za|ea], y as [zb|eb]; try (inversion E3; subst; split; assumption).
            destruct o; try (inversion E3; subst; split; reflexivity || assumption).
            - destruct (Z.eqb zb 0); inversion E3; split; reflexivity.
            - destruct (Z.ltb zb 0); inversion E3; split; reflexivity.
            - destruct (Z.ltb zb 0); inversion E3; split; reflexivity. }
          destruct (fb_static _ _ (proj2 (opt_bits T)) _ (proj1 G)) as [G1 G2]. split; [exact G1|]. rewrite G2. exact (proj2 G).
      + apply edyn_from_ev; [exact O|reflexivity|]. intros B X Bp F Hn Lm r s Ho Hs Ha.
        destruct (two_run a b c0 c1 c2 x y B X Lm r s P1 P2 D3 Y1 Y2 I Bp F Hn Ho Hs Ha) as [V T]. split.
        * intros n z Ev. destruct n as [|n]; [discriminate|]. rewrite ev_S in Ev. destruct (ev n r a) as [z1| |] eqn:G1; try discriminate.
          cbn [rbind] in Ev. destruct (ev n r b) as [z2| |] eqn:G2; try discriminate. cbn [rbind] in Ev. unfold guard in Ev.
          destruct (bin_ok o z1 z2) eqn:G3; [|discriminate]. destruct (room w (XBin o a b) (py_bin o z1 z2)) eqn:G4; [|discriminate].
          cbn [andb] in Ev. inversion Ev; subst.
          destruct (V n n z1 z2 G1 G2) as (k & s' & R & A & [W1 W1'] & [W2 W2']). exists k, s'. split; [exact R|]. split; [exact A|]. split.
          -- cbn [cve]. rewrite opt_ok. rewrite <- W1, <- W2 in *. eapply cbin_ok; eauto.
          -- intros Q. destruct (Ok Q) as [K1 K2]. specialize (W1' Q). specialize (W2' Q). unfold den in *. cbn [ty cve].
             rewrite K1 in *. rewrite K2 in *. apply (fb_num _ _ (proj2 (opt_bits Q))). pose proof (room_range _ _ Q G4) as Rr. rewrite pw_bin in *.
             eapply cbin_den; eassumption.
        * intros K HL. destruct (T K HL) as [T1 T2].
          apply (term_S _ (fun n => x <- ev n r a ;; y <- ev n r b ;; guard (bin_ok o x y && room w (XBin o a b) (py_bin o x y)) (Val (py_bin o x y)))); [reflexivity|].
          apply (term_bind (fun n => ev n r a) (fun n x => y <- ev n r b ;; guard (bin_ok o x y && room w (XBin o a b) (py_bin o x y)) (Val (py_bin o x y)))); auto.
          -- intros n. apply (mono1 w fns n).
          -- intros n q. apply le_bind; [apply (mono1 w fns n)|intros; apply le_refl].
          -- intros n q Eq. destruct (T2 n q Eq) as [m Hm]. exists m. destruct (ev m r b); cbn; try discriminate; try congruence.
             unfold guard. destruct (_ && _); discriminate.
    - (* XCmp *) intros o a IHa b IHb c0 c2 v E I Wf O. cbn [Comp_Model.cexpr] in E. ob E E1. destruct p as [c1 x]. ob E E2. destruct p as [c2' y].
      inversion E; subst. cbn in Wf. apply andb_true_iff in Wf. destruct Wf as [Wa Wb].
      assert (Ok : mtight w = true -> ty a = Some KNum /\ ty b = Some KNum).
      { intros T. specialize (O T). unfold typed in O. cbn [ty] in O. destruct (ty a) as [[|]|], (ty b) as [[|]|]; try congruence; auto. }
      assert (Oa : okty a) by (intros T; unfold typed; rewrite (proj1 (Ok T)); reflexivity).
      assert (Ob : okty b) by (intros T; unfold typed; rewrite (proj2 (Ok T)); reflexivity).
      destruct (two_stat a b c0 c1 c2 x y IHa IHb E1 E2 I Wa Wb Oa Ob) as (P1 & P2 & D1 & D2 & D3 & C1 & C2 & Y1 & Y2 & S1 & S2).
      split.
      + split; [eapply pure_trans; eauto| | |].
        * apply ccmp_dep; assumption.
        * cbn. intros Hc. apply andb_true_iff in Hc. rewrite (C2 (proj2 Hc)). apply C1, Hc.
        * intros T _. cbn [ty]. destruct (Ok T) as [K1 K2]. rewrite K1, K2. unfold ccmp. destruct x, y, o; cbn [cve];
            first [exact (Z.le_refl 1)|discriminate].
      + apply edyn_from_ev; [exact O|reflexivity|]. intros B X Bp F Hn Lm r s Ho Hs Ha.
        destruct (two_run a b c0 c1 c2 x y B X Lm r s P1 P2 D3 Y1 Y2 I Bp F Hn Ho Hs Ha) as [V T]. split.
        * intros n z Ev. destruct n as [|n]; [discriminate|]. rewrite ev_S in Ev. destruct (ev n r a) as [z1| |] eqn:G1; try discriminate.
          cbn [rbind] in Ev. destruct (ev n r b) as [z2| |] eqn:G2; try discriminate. cbn [rbind] in Ev. inversion Ev; subst.
          destruct (V n n z1 z2 G1 G2) as (k & s' & R & A & [W1 W1'] & [W2 W2']). exists k, s'. split; [exact R|]. split; [exact A|]. split.
          -- rewrite ccmp_ok, W1, W2. reflexivity.
          -- intros Q. destruct (Ok Q) as [K1 K2]. specialize (W1' Q). specialize (W2' Q). unfold den in *. cbn [ty].
             rewrite K1 in *. rewrite K2 in *. exists (py_cmp o z1 z2). split; [reflexivity|]. eapply ccmp_den; eassumption.
        * intros K HL. destruct (T K HL) as [T1 T2].
          apply (term_S _ (fun n => x <- ev n r a ;; y <- ev n r b ;; Val (b2z (py_cmp o x y)))); [reflexivity|].
          apply (term_bind (fun n => ev n r a) (fun n x => y <- ev n r b ;; Val (b2z (py_cmp o x y)))); auto.
          -- intros n. apply (mono1 w fns n).
          -- intros n q. apply le_bind; [apply (mono1 w fns n)|intros; apply le_refl].
          -- intros n q Eq. destruct (T2 n q Eq) as [m Hm]. exists m. destruct (ev m r b); cbn; try discriminate; try congruence.
    - (* XAnd *) intros a IHa b IHb c0 c2 v E I Wf O. cbn [Comp_Model.cexpr] in E. ob E E1. destruct p as [c1 x]. ob E E2. destruct p as [c2' y].
      inversion E; subst. cbn in Wf. apply andb_true_iff in Wf. destruct Wf as [Wa Cb].
      assert (Wb : wf_expr b = true).
      { exact (callfree_wf b Cb). }
      assert (Ok : mtight w = true -> typed a = true /\ typed b = true).
      { intros T. specialize (O T). unfold typed in *. cbn [ty] in O. destruct (ty a), (ty b); try congruence; auto. }
      assert (Oa : okty a) by (intros T; exact (proj1 (Ok T))).
      assert (Ob : okty b) by (intros T; exact (proj2 (Ok T))).
      assert (Tk : mtight w = true -> ty (XAnd a b) = Some KBoo).
      { intros T. destruct (Ok T) as [K1 K2]. unfold typed in *. cbn [ty]. destruct (ty a), (ty b); congruence. }
      destruct (two_stat a b c0 c1 c2 x y IHa IHb E1 E2 I Wa Wb Oa Ob) as (P1 & P2 & D1 & D2 & D3 & C1 & C2 & Y1 & Y2 & S1 & S2).
      specialize (C2 Cb). subst c2. split.
      + split; [exact P1| | |].
        * apply (dep_mk w _ _ [x; y]); [repeat (apply Forall_nil || (apply Forall_cons; [assumption|]))| |].
          -- intros s1 s2 H. inversion H as [|? ? H1 H2]; subst. inversion H2 as [|? ? H3 H4]; subst. cbn [cve]. rewrite !opt_ok.
             cbn [eval]. congruence.
          -- intros T u Hu. apply (opt_vars _ T) in Hu. cbn [flat_map]. rewrite app_nil_r. exact Hu.
        * cbn. intros Hc. apply andb_true_iff in Hc. apply C1, Hc.
        * intros T _. rewrite (Tk T). apply (fb_wide _ _ (proj2 (opt_bits T))). change (bw w (EBin Land (cve x) (cve y))) with 1%Z. lia.
      + intros B X Bp F Hn Lm r s Ho Hs Ha. destruct (Y1 B X Bp F Hn Lm r s Ho Hs Ha) as (V1 & T1 & L1).
        assert (F2 : Final B c1 c1 [] X) by (repeat split; intros; try lia; destruct H).
        assert (G2 : forall s1, at_ s1 (cur c1) -> agr Lm r s1 ->
                   (forall n z, ev n r b = Val z -> vok b s1 y z) /\ (forall n q, tv n r b = Val q -> tok b s1 y q)).
        { intros s1 As Aa. destruct (Y2 B X Bp F2 Hn Lm r s1 Ho As Aa) as (V2 & T2 & _). split.
          - intros n z Ez. destruct (V2 n z Ez) as (k & s' & R & _ & W). apply reach_empty in R. subst s'. exact W.
          - intros n z Ez. destruct (T2 n z Ez) as (k & s' & R & _ & W). apply reach_empty in R. subst s'. exact W. }
        assert (GE : forall s', eval s' (cve (CE (opt (EBin Land (cve x) (cve y))))) = b2z (truth (eval s' (cve x)) && truth (eval s' (cve y)))).
        { intros s'. cbn [cve]. rewrite opt_ok. reflexivity. }
        assert (GA : forall k s1, reach B (cur c0) (cur c1) k s s1 -> agr Lm r s1) by (intros; eapply pure_agr; eauto).
        destruct (callfree_term w fns b Cb r) as [Tb1 Tb2].
        assert (GB : forall s1 p q, tok a s1 x p -> (p = true -> tok b s1 y q) -> mtight w = true -> dboo w s1 (opt (EBin Land (cve x) (cve y))) (p && q)).
        { intros s1 p q H1 H2 T. apply (fb_boo _ _ (proj2 (opt_bits T))).
          apply dboo_and; [exact (tok_tst w a s1 x p Oa H1 T)|intros Hp; exact (tok_tst w b s1 y q Ob (H2 Hp) T)]. }
        split; [|split; [|intros K H; split]].
        * intros n z Ev. destruct n as [|n]; [discriminate|]. rewrite ev_S in Ev. destruct (ev n r a) as [z1| |] eqn:Q1; try discriminate.
          cbn [rbind] in Ev. destruct (V1 n z1 Q1) as (k & s1 & R & A & W). exists k, s1. split; [exact R|]. split; [exact A|].
          pose proof (vok_tok w a s1 x z1 W) as Tx. destruct W as [W W'].
          destruct (Z.eqb z1 0) eqn:Z0.
          { inversion Ev; subst. apply Z.eqb_eq in Z0. split; [rewrite GE, Z0; reflexivity|]. intros T. unfold den. rewrite (Tk T).
            exists false. split; [rewrite Z0; reflexivity|]. exact (GB s1 false false Tx ltac:(discriminate) T). }
          destruct (ev n r b) as [z2| |] eqn:Q2; try discriminate. cbn [rbind] in Ev. unfold guard in Ev.
          destruct (is01 z2) eqn:Q3; [|discriminate]. injection Ev as ->.
          pose proof (proj1 (G2 s1 A (GA k s1 R)) n z Q2) as Wy. pose proof (vok_tok w b s1 y z Wy) as Ty.
          assert (Ez : z = b2z (true && negb (Z.eqb z 0))) by (unfold is01 in Q3; destruct (Z.eqb_spec z 0); cbn; lia).
          split; [rewrite GE, W, (proj1 Wy); unfold truth; rewrite Z0; symmetry; exact Ez|].
          intros T. unfold den. rewrite (Tk T). eexists. split; [exact Ez|]. exact (GB s1 true _ Tx (fun _ => Ty) T).
        * intros n q Ev. destruct n as [|n]; [discriminate|]. rewrite tv_S in Ev. destruct (tv n r a) as [z1| |] eqn:Q1; try discriminate.
          cbn [rbind] in Ev. destruct (T1 n z1 Q1) as (k & s1 & R & A & W). exists k, s1. split; [exact R|]. split; [exact A|].
          destruct z1.
          -- pose proof (proj2 (G2 s1 A (GA k s1 R)) n q Ev) as Wy. split; [rewrite GE, (proj1 W), (proj1 Wy); destruct q; reflexivity|].
             intros T. unfold tden. rewrite (Tk T). exact (GB s1 true q W (fun _ => Wy) T).
          -- inversion Ev; subst. split; [rewrite GE, (proj1 W); reflexivity|]. intros T. unfold tden. rewrite (Tk T). exact (GB s1 false false W ltac:(discriminate) T).
        * destruct (L1 K H) as [La _].
          apply (term_S _ (fun n => x <- ev n r a ;; if Z.eqb x 0 then Val x else y <- ev n r b ;; guard (is01 y) (Val y))); [reflexivity|].
          apply (term_bind (fun n => ev n r a) (fun n x => if Z.eqb x 0 then Val x else y <- ev n r b ;; guard (is01 y) (Val y))); auto.
          -- intros n. apply (mono1 w fns n).
          -- intros n q. destruct (Z.eqb q 0); [apply le_refl|]. apply le_bind; [apply (mono1 w fns n)|intros; apply le_refl].
          -- intros n q Eq. destruct (Z.eqb q 0); [exists 0; discriminate|]. destruct Tb1 as [m Hm]. exists m.
             destruct (ev m r b); cbn; try discriminate; try congruence. unfold guard. destruct (is01 _); discriminate.
        * destruct (L1 K H) as [_ La].
          apply (term_S _ (fun n => x <- tv n r a ;; if x : bool then tv n r b else Val false)); [reflexivity|].
          apply (term_bind (fun n => tv n r a) (fun n (x : bool) => if x then tv n r b else Val false)); auto.
          -- intros n. apply (mono1 w fns n).
          -- intros n q. destruct q; [|apply le_refl]. apply (mono1 w fns n).
          -- intros n q Eq. destruct q; [exact Tb2|exists 0; discriminate].
    - (* XOr *) intros a IHa b IHb c0 c2 v E I Wf O. cbn [Comp_Model.cexpr] in E. ob E E1. destruct p as [c1 x]. ob E E2. destruct p as [c2' y].
      inversion E; subst. cbn in Wf. apply andb_true_iff in Wf. destruct Wf as [Wa Cb].
      assert (Wb : wf_expr b = true).
      { exact (callfree_wf b Cb). }
      assert (Ok : mtight w = true -> typed a = true /\ typed b = true).
      { intros T. specialize (O T). unfold typed in *. cbn [ty] in O. destruct (ty a), (ty b); try congruence; auto. }
      assert (Oa : okty a) by (intros T; exact (proj1 (Ok T))).
      assert (Ob : okty b) by (intros T; exact (proj2 (Ok T))).
      assert (Tk : mtight w = true -> ty (XOr a b) = Some KBoo).
      { intros T. destruct (Ok T) as [K1 K2]. unfold typed in *. cbn [ty]. destruct (ty a), (ty b); congruence. }
      destruct (two_stat a b c0 c1 c2 x y IHa IHb E1 E2 I Wa Wb Oa Ob) as (P1 & P2 & D1 & D2 & D3 & C1 & C2 & Y1 & Y2 & S1 & S2).
      specialize (C2 Cb). subst c2. split.
      + split; [exact P1| | |].
        * apply (dep_mk w _ _ [x; y]); [repeat (apply Forall_nil || (apply Forall_cons; [assumption|]))| |].
          -- intros s1 s2 H. inversion H as [|? ? H1 H2]; subst. inversion H2 as [|? ? H3 H4]; subst. cbn [cve]. rewrite !opt_ok.
             cbn [eval]. congruence.
          -- intros T u Hu. apply (opt_vars _ T) in Hu. cbn [flat_map]. rewrite app_nil_r. exact Hu.
        * cbn. intros Hc. apply andb_true_iff in Hc. apply C1, Hc.
        * intros T _. rewrite (Tk T). apply (fb_wide _ _ (proj2 (opt_bits T))). change (bw w (EBin Lor (cve x) (cve y))) with 1%Z. lia.
      + intros B X Bp F Hn Lm r s Ho Hs Ha. destruct (Y1 B X Bp F Hn Lm r s Ho Hs Ha) as (V1 & T1 & L1).
        assert (F2 : Final B c1 c1 [] X) by (repeat split; intros; try lia; destruct H).
        assert (G2 : forall s1, at_ s1 (cur c1) -> agr Lm r s1 ->
                   (forall n z, ev n r b = Val z -> vok b s1 y z) /\ (forall n q, tv n r b = Val q -> tok b s1 y q)).
        { intros s1 As Aa. destruct (Y2 B X Bp F2 Hn Lm r s1 Ho As Aa) as (V2 & T2 & _). split.
          - intros n z Ez. destruct (V2 n z Ez) as (k & s' & R & _ & W). apply reach_empty in R. subst s'. exact W.
          - intros n z Ez. destruct (T2 n z Ez) as (k & s' & R & _ & W). apply reach_empty in R. subst s'. exact W. }
        assert (GE : forall s', eval s' (cve (CE (opt (EBin Lor (cve x) (cve y))))) = b2z (truth (eval s' (cve x)) || truth (eval s' (cve y)))).
        { intros s'. cbn [cve]. rewrite opt_ok. reflexivity. }
        assert (GA : forall k s1, reach B (cur c0) (cur c1) k s s1 -> agr Lm r s1) by (intros; eapply pure_agr; eauto).
        destruct (callfree_term w fns b Cb r) as [Tb1 Tb2].
        assert (GB : forall s1 p q, tok a s1 x p -> (p = false -> tok b s1 y q) -> mtight w = true -> dboo w s1 (opt (EBin Lor (cve x) (cve y))) (p || q)).
        { intros s1 p q H1 H2 T. apply (fb_boo _ _ (proj2 (opt_bits T))).
          apply dboo_or; [exact (tok_tst w a s1 x p Oa H1 T)|intros Hp; exact (tok_tst w b s1 y q Ob (H2 Hp) T)]. }
        split; [|split; [|intros K H; split]].
        * intros n z Ev. destruct n as [|n]; [discriminate|]. rewrite ev_S in Ev. destruct (ev n r a) as [z1| |] eqn:Q1; try discriminate.
          cbn [rbind] in Ev. destruct (V1 n z1 Q1) as (k & s1 & R & A & W). exists k, s1. split; [exact R|]. split; [exact A|].
          pose proof (vok_tok w a s1 x z1 W) as Tx. destruct W as [W W'].
          destruct (Z.eqb z1 0) eqn:Z0.
          -- destruct (ev n r b) as [z2| |] eqn:Q2; try discriminate. cbn [rbind] in Ev. unfold guard in Ev.
             destruct (is01 z2) eqn:Q3; [|discriminate]. injection Ev as ->.
             pose proof (proj1 (G2 s1 A (GA k s1 R)) n z Q2) as Wy. pose proof (vok_tok w b s1 y z Wy) as Ty.
             assert (Ez : z = b2z (false || negb (Z.eqb z 0))) by (unfold is01 in Q3; destruct (Z.eqb_spec z 0); cbn; lia).
             split; [rewrite GE, W, (proj1 Wy); unfold truth; rewrite Z0; symmetry; exact Ez|].
             intros T. unfold den. rewrite (Tk T). eexists. split; [exact Ez|]. exact (GB s1 false _ Tx (fun _ => Ty) T).
          -- unfold guard in Ev. destruct (is01 z1) eqn:Q3; [|discriminate]. inversion Ev; subst.
             assert (Ez : eval s1 (cve x) = 1%Z) by (unfold is01 in Q3; lia). split; [rewrite GE, Ez; reflexivity|].
             intros T. unfold den. rewrite (Tk T). exists true. split; [exact Ez|]. exact (GB s1 true true Tx ltac:(discriminate) T).
        * intros n q Ev. destruct n as [|n]; [discriminate|]. rewrite tv_S in Ev. destruct (tv n r a) as [z1| |] eqn:Q1; try discriminate.
          cbn [rbind] in Ev. destruct (T1 n z1 Q1) as (k & s1 & R & A & W). exists k, s1. split; [exact R|]. split; [exact A|].
          destruct z1.
          -- inversion Ev; subst. split; [rewrite GE, (proj1 W); reflexivity|]. intros T. unfold tden. rewrite (Tk T). exact (GB s1 true true W ltac:(discriminate) T).
          -- pose proof (proj2 (G2 s1 A (GA k s1 R)) n q Ev) as Wy. split; [rewrite GE, (proj1 W), (proj1 Wy); destruct q; reflexivity|].
             intros T. unfold tden. rewrite (Tk T). exact (GB s1 false q W (fun _ => Wy) T).
        * destruct (L1 K H) as [La _].
          apply (term_S _ (fun n => x <- ev n r a ;; if Z.eqb x 0 then y <- ev n r b ;; guard (is01 y) (Val y) else guard (is01 x) (Val x))); [reflexivity|].
          apply (term_bind (fun n => ev n r a) (fun n x => if Z.eqb x 0 then y <- ev n r b ;; guard (is01 y) (Val y) else guard (is01 x) (Val x))); auto.
          -- intros n. apply (mono1 w fns n).
          -- intros n q. destruct (Z.eqb q 0); [|apply le_refl]. apply le_bind; [apply (mono1 w fns n)|intros; apply le_refl].
          -- intros n q Eq. destruct (Z.eqb q 0); [|exists 0; unfold guard; destruct (is01 q); discriminate]. destruct Tb1 as [m Hm]. exists m.
             destruct (ev m r b); cbn; try discriminate; try congruence. unfold guard. destruct (is01 _); discriminate.
        * destruct (L1 K H) as [_ La].
          apply (term_S _ (fun n => x <- tv n r a ;; if x : bool then Val true else tv n r b)); [reflexivity|].
          apply (term_bind (fun n => tv n r a) (fun n (x : bool) => if x then Val true else tv n r b)); auto.
          -- intros n. apply (mono1 w fns n).
          -- intros n q. destruct q; [apply le_refl|]. apply (mono1 w fns n).
          -- intros n q Eq. destruct q; [exists 0; discriminate|exact Tb2].
    - (* XIf *) intros t IHt a IHa b IHb c0 c3 v E I Wf O. cbn [Comp_Model.cexpr] in E. ob E E0. destruct p as [c1 q]. ob E E1. destruct p as [c2 x].
      ob E E2. destruct p as [c3' y]. inversion E; subst. cbn in Wf. rewrite !andb_true_iff in Wf. destruct Wf as [[Wt Ca] Cb].
      assert (G : forall e, callfree e = true -> wf_expr e = true).
      { exact callfree_wf. }
      assert (Ok : mtight w = true -> typed t = true /\ ((ty a = Some KNum /\ ty b = Some KNum) \/ (ty a = Some KBoo /\ ty b = Some KBoo))).
      { intros T. specialize (O T). unfold typed in *. cbn [ty] in O. destruct (ty t); [|discriminate].
        destruct (ty a) as [[|]|], (ty b) as [[|]|]; cbn in O; try congruence; auto. }
      assert (Ot : okty t) by (intros T; exact (proj1 (Ok T))).
      assert (Oa : okty a) by (intros T; unfold typed; destruct (proj2 (Ok T)) as [[K1 K2]|[K1 K2]]; rewrite K1; reflexivity).
      assert (Ob : okty b) by (intros T; unfold typed; destruct (proj2 (Ok T)) as [[K1 K2]|[K1 K2]]; rewrite K2; reflexivity).
      destruct (IHt _ _ _ E0 I Wt Ot) as [[P D C S0] Y].
      destruct (IHa _ _ _ E1 (pure_inv _ _ P) (G a Ca) Oa) as [[P1 D1 C1 S1] Y1]. specialize (C1 Ca). subst c2.
      destruct (IHb _ _ _ E2 (pure_inv _ _ P) (G b Cb) Ob) as [[P2 D2 C2 S2] Y2]. specialize (C2 Cb). subst c3.
      split.
      + split; [exact P| | |].
        * assert (D' : dep (regs (names (XIf t a b)) c0 c1) q).
          { eapply dep_incl; [|exact D]. intros g Hg. exact (regs_l (names t) (names a ++ names b) c0 c1 c1 g (le_n _) Hg). }
          assert (D1' : dep (regs (names (XIf t a b)) c0 c1) x).
          { eapply dep_incl; [|exact D1]. intros g Hg. apply (regs_r (names t) (names a ++ names b) c0 c1 c1 g P). destruct Hg as [H1 H2]. split; [exact H1|].
            destruct H2 as [H2|[z [H2 H3]]]; [auto|right; exists z; rewrite in_app_iff; auto]. }
          assert (D2' : dep (regs (names (XIf t a b)) c0 c1) y).
          { eapply dep_incl; [|exact D2]. intros g Hg. apply (regs_r (names t) (names a ++ names b) c0 c1 c1 g P). destruct Hg as [H1 H2]. split; [exact H1|].
            destruct H2 as [H2|[z [H2 H3]]]; [auto|right; exists z; rewrite in_app_iff; auto]. }
          apply (dep_mk w _ _ [q; x; y]); [repeat (apply Forall_nil || (apply Forall_cons; [assumption|]))| |].
          -- intros s1 s2 H. inversion H as [|? ? H1 H2]; subst. inversion H2 as [|? ? H3 H4]; subst. inversion H4 as [|? ? H5 H6]; subst.
             cbn [cve eval]. rewrite H1, H3, H5. reflexivity.
          -- intros _. cbn [flat_map cve expr_vars]. rewrite app_nil_r. apply incl_refl.
        * cbn. intros Hc. rewrite !andb_true_iff in Hc. apply C, Hc.
        * intros T Hc. specialize (S1 T Ca). specialize (S2 T Cb). destruct (Ok T) as [Kt Kk]. unfold typed in Kt. cbn [ty cve].
          destruct (ty t); [|discriminate]. destruct Kk as [[K1 K2]|[K1 K2]]; rewrite K1 in *; rewrite K2 in *; cbn [same_kind].
          -- destruct S1 as [S1 S1'], S2 as [S2 S2']. split; [change (bs w (cve x) && bs w (cve y) = true); rewrite S1, S2; reflexivity|].
             change (Z.max (bw w (cve x)) (bw w (cve y)) = Z.max (pw w a) (pw w b)). congruence.
          -- change (1 <= Z.max (bw w (cve x)) (bw w (cve y)))%Z. lia.
      + intros B X Bp F Hn Lm r s Ho Hs Ha. destruct (Y B X Bp F Hn Lm r s Ho Hs Ha) as (V0 & T0 & L0).
        assert (F2 : Final B c1 c1 [] X) by (repeat split; intros; try lia; destruct H).
        assert (G2 : forall e z, edyn e c1 c1 z -> forall s1, at_ s1 (cur c1) -> agr Lm r s1 ->
                   (forall n u, ev n r e = Val u -> vok e s1 z u) /\ (forall n u, tv n r e = Val u -> tok e s1 z u)).
        { intros e z Ye s1 As Aa. destruct (Ye B X Bp F2 Hn Lm r s1 Ho As Aa) as (V2 & T2 & _). split.
          - intros n u Ez. destruct (V2 n u Ez) as (k & s' & R & _ & W). apply reach_empty in R. subst s'. exact W.
          - intros n u Ez. destruct (T2 n u Ez) as (k & s' & R & _ & W). apply reach_empty in R. subst s'. exact W. }
        assert (St : mtight w = true -> match ty a with Some KNum => bs w (cve x) = true /\ bw w (cve x) = pw w a | Some KBoo => (1 <= bw w (cve x))%Z | None => True end /\
                     match ty b with Some KNum => bs w (cve y) = true /\ bw w (cve y) = pw w b | Some KBoo => (1 <= bw w (cve y))%Z | None => True end) by (intros T; split; [exact (S1 T Ca)|exact (S2 T Cb)]).
        assert (GV : forall s1 (c : bool) z, tok t s1 q c -> (if c then vok a s1 x z else vok b s1 y z) -> vok (XIf t a b) s1 (CE (ECond (cve q) (cve x) (cve y))) z).
        { intros s1 c z Wq Wz. split; [cbn [cve eval]; rewrite (proj1 Wq); destruct c; apply Wz|]. intros T. destruct (Ok T) as [Kt Kk].
          specialize (St T). pose proof (tok_tst w t s1 q c Ot Wq T) as Wq'. unfold typed in Kt. unfold den. cbn [ty cve]. destruct (ty t); [|discriminate].
          destruct Kk as [[K1 K2]|[K1 K2]]; rewrite K1, K2 in *; cbn [same_kind].
          - destruct St as [[S3 S3'] [S4 S4']]. apply (dnum_cond w s1 _ _ _ c); [exact Wq'|exact S3|exact S4|cbn [pw]; congruence|].
            destruct c; destruct Wz as [_ Wz]; specialize (Wz T); unfold den in Wz; [rewrite K1 in Wz|rewrite K2 in Wz]; eauto.
          - destruct St as [S3 S4]. destruct c; destruct Wz as [_ Wz]; specialize (Wz T); unfold den in Wz; [rewrite K1 in Wz|rewrite K2 in Wz];
              destruct Wz as (d & -> & Dd); exists d; (split; [reflexivity|]); [apply (dboo_cond w s1 _ _ _ true)|apply (dboo_cond w s1 _ _ _ false)]; assumption. }
        assert (GT : forall s1 (c : bool) z, tok t s1 q c -> (if c then tok a s1 x z else tok b s1 y z) -> tok (XIf t a b) s1 (CE (ECond (cve q) (cve x) (cve y))) z).
        { intros s1 c z Wq Wz. split; [cbn [cve eval]; rewrite (proj1 Wq); destruct c; apply Wz|]. intros T. destruct (Ok T) as [Kt Kk].
          specialize (St T). pose proof (tok_tst w t s1 q c Ot Wq T) as Wq'. unfold typed in Kt. unfold tden. cbn [ty cve]. destruct (ty t); [|discriminate].
          destruct Kk as [[K1 K2]|[K1 K2]]; rewrite K1, K2 in *; cbn [same_kind].
          - destruct St as [[S3 S3'] [S4 S4']]. assert (Wz' : exists u, (if c then exists p, dnum w s1 (cve x) p u else exists p, dnum w s1 (cve y) p u) /\ truth u = z).
            { destruct c; destruct Wz as [_ Wz]; specialize (Wz T); unfold tden in Wz; [rewrite K1 in Wz|rewrite K2 in Wz]; destruct Wz as (u & Wz & Wu); exists u; eauto. }
            destruct Wz' as (u & Wu & Wt'). exists u. split; [|exact Wt'].
            apply (dnum_cond w s1 _ _ _ c); [exact Wq'|exact S3|exact S4|cbn [pw]; congruence|exact Wu].
          - destruct St as [S3 S4]. destruct c; destruct Wz as [_ Wz]; specialize (Wz T); unfold tden in Wz; [rewrite K1 in Wz|rewrite K2 in Wz];
              [apply (dboo_cond w s1 _ _ _ true)|apply (dboo_cond w s1 _ _ _ false)]; assumption. }
        assert (GA : forall k s1, reach B (cur c0) (cur c1) k s s1 -> agr Lm r s1) by (intros; eapply pure_agr; eauto).
        destruct (callfree_term w fns a Ca r) as [Ta1 Ta2]. destruct (callfree_term w fns b Cb r) as [Tb1 Tb2].
        split; [|split; [|intros K H; split]].
        * intros n z Ev. destruct n as [|n]; [discriminate|]. rewrite ev_S in Ev. destruct (tv n r t) as [z1| |] eqn:Q1; try discriminate.
          cbn [rbind] in Ev. destruct (T0 n z1 Q1) as (k & s1 & R & A & W). exists k, s1. split; [exact R|]. split; [exact A|]. apply (GV s1 z1 z W).
          destruct z1; [exact (proj1 (G2 a x Y1 s1 A (GA k s1 R)) n z Ev)|exact (proj1 (G2 b y Y2 s1 A (GA k s1 R)) n z Ev)].
        * intros n z Ev. destruct n as [|n]; [discriminate|]. rewrite tv_S in Ev. destruct (tv n r t) as [z1| |] eqn:Q1; try discriminate.
          cbn [rbind] in Ev. destruct (T0 n z1 Q1) as (k & s1 & R & A & W). exists k, s1. split; [exact R|]. split; [exact A|]. apply (GT s1 z1 z W).
          destruct z1; [exact (proj2 (G2 a x Y1 s1 A (GA k s1 R)) n z Ev)|exact (proj2 (G2 b y Y2 s1 A (GA k s1 R)) n z Ev)].
        * destruct (L0 K H) as [_ La].
          apply (term_S _ (fun n => c <- tv n r t ;; if c : bool then ev n r a else ev n r b)); [reflexivity|].
          apply (term_bind (fun n => tv n r t) (fun n (c : bool) => if c then ev n r a else ev n r b)); auto.
          -- intros n. apply (mono1 w fns n).
          -- intros n u. destruct u; apply (mono1 w fns n).
          -- intros n u Eq. destruct u; assumption.
        * destruct (L0 K H) as [_ La].
          apply (term_S _ (fun n => c <- tv n r t ;; if c : bool then tv n r a else tv n r b)); [reflexivity|].
          apply (term_bind (fun n => tv n r t) (fun n (c : bool) => if c then tv n r a else tv n r b)); auto.
          -- intros n. apply (mono1 w fns n).
          -- intros n u. destruct u; apply (mono1 w fns n).
          -- intros n u Eq. destruct u; assumption.
    - (* XCall *) intros f es IH c0 c2 v E I Wf O. cbn [Comp_Model.cexpr] in E. destruct (skip c0); [discriminate|].
      ob E E1. destruct p as [c1 vs].
      assert (Ok : mtight w = true -> tys es = true).
      { intros T. specialize (O T). unfold typed in O. cbn [ty] in O. destruct (tys es); [reflexivity|discriminate]. }
      destruct (IH _ _ _ E1 I Wf Ok) as (P & D & Y).
      assert (D' : Forall (dep (fun r => r < c_tmp c1)) vs).
      { eapply Forall_impl; [|exact D]. intros q. apply dep_incl. intros g [H _]. exact H. }
      destruct (HC c1 f vs c2 v E (pure_inv _ _ P) D') as (P2 & D2 & Y2).
      split.
      + split; [eapply pure_trans; eauto| |discriminate|discriminate].
        eapply dep_incl; [|exact D2]. intros g Hg. cbv beta in Hg. pose proof (x_tmp _ _ _ _ _ (pu_ext _ _ P)). split; [lia|left; lia].
      + apply edyn_from_ev; [exact O|reflexivity|]. intros B X Bp F Hn Lm r s Ho Hs Ha.
        destruct (final_split0 B c0 c1 c2 X P P2 F) as [F1 F2].
        pose proof (okL_back _ _ _ Lm c1 c2 (pure_inv _ _ P) (pu_ext _ _ P2) Ho) as Ho1.
        pose proof (x_cur _ _ _ _ _ (pu_ext _ _ P)) as L1. pose proof (x_cur _ _ _ _ _ (pu_ext _ _ P2)) as L2.
        destruct (Y B X Bp F1 ltac:(lia) Lm r s Ho1 Hs Ha) as [V T]. split.
        * intros n z Ev. destruct n as [|n]; [discriminate|]. rewrite ev_S in Ev. destruct (evs n r es) as [zs| |] eqn:Q1; try discriminate.
          cbn [rbind] in Ev. destruct (call n f zs) as [o| |] eqn:Q2; try discriminate. cbn [rbind] in Ev. destruct o as [z'|]; [|discriminate].
          inversion Ev; subst. destruct (V n zs Q1) as (k1 & s1 & R1 & A1 & W1 & Wg). subst zs.
          destruct (Y2 B X Bp F2 Hn s1 A1 Wg) as [V2 _]. destruct (V2 n _ Q2) as (k2 & s2 & R2 & A2 & W2).
          exists (k1 + k2), s2. split; [|split; [exact A2|]].
          -- eapply reach_app; [eapply reach_mono; [| |exact R1]; lia|eapply reach_mono; [| |exact R2]; lia].
          -- destruct (W2 z eq_refl) as [W3 W4]. split; [exact W3|]. intros Q. unfold den. cbn [ty]. rewrite (Ok Q). exact (W4 Q).
        * intros K HL.
          apply (term_S _ (fun n => vs <- evs n r es ;; v <- call n f vs ;; match v with Some v => Val v | None => Stuck end)); [reflexivity|].
          apply (term_bind (fun n => evs n r es) (fun n vs => v <- call n f vs ;; match v with Some v => Val v | None => Stuck end)).
          -- intros n. apply (mono1 w fns n).
          -- intros n q. apply le_bind; [apply (mono1 w fns n)|intros; apply le_refl].
          -- apply (T K). eapply leaves_mono; [| |exact HL]; lia.
          -- intros n zs Q1. destruct (V n zs Q1) as (k1 & s1 & R1 & A1 & W1 & Wg). subst zs.
             destruct (Y2 B X Bp F2 Hn s1 A1 Wg) as [_ T2].
             assert (R1' : reach B (cur c0) (cur c2) k1 s s1) by (eapply reach_mono; [| |exact R1]; lia).
             destruct (leaves_after w fit B _ _ _ _ _ _ HL R1') as [_ HL2].
             destruct (T2 (K - k1)) as [m Hm]; [eapply leaves_mono; [| |exact HL2]; lia|].
             exists m. destruct (call m f (vals s1 vs)) as [[z|]| |]; cbn; try discriminate; congruence.
    - (* XNil *) intros c0 c1 vs E I Wf O. cbn in E. inversion E; subst. split; [apply pure_refl; exact I|]. split; [constructor|].
      intros B X Bp F Hn Lm r s Ho Hs Ha. split.
      + intros n zs Ev. destruct n; [discriminate|]. cbn in Ev. inversion Ev; subst. exists 0, s. split; [constructor|]. repeat split; auto.
      + intros K _. exists 1. discriminate.
    - (* XCons *) intros e IHe es IHes c0 c2 vs E I Wf O. cbn [Comp_Model.cexprs] in E. ob E E1. destruct p as [c1 v]. ob E E2. destruct p as [c2' vs'].
      inversion E; subst. cbn in Wf. apply andb_true_iff in Wf. destruct Wf as [We Wes].
      assert (Ok : mtight w = true -> typed e = true /\ tys es = true).
      { intros T. specialize (O T). unfold typed. cbn [tys] in O. destruct (ty e); [auto|discriminate]. }
      assert (Oe : okty e) by (intros T; exact (proj1 (Ok T))).
      destruct (IHe _ _ _ E1 I We Oe) as [[P1 D1 C1 S1] Y1]. destruct (IHes _ _ _ E2 (pure_inv _ _ P1) Wes (fun T => proj2 (Ok T))) as (P2 & D2 & Y2).
      pose proof (x_tmp _ _ _ _ _ (pu_ext _ _ P2)) as Tm.
      split; [eapply pure_trans; eauto|]. split.
      { constructor.
        - eapply dep_incl; [|exact D1]. intros g. apply regs_l. exact Tm.
        - eapply Forall_impl; [|exact D2]. intros q. apply dep_incl. intros g. apply regs_r. exact P1. }
      intros B X Bp F Hn Lm r s Ho Hs Ha. pose proof (okL_back _ _ _ Lm c1 c2 (pure_inv _ _ P1) (pu_ext _ _ P2) Ho) as Ho1.
      destruct (final_split0 B c0 c1 c2 X P1 P2 F) as [F1 F2].
      pose proof (x_cur _ _ _ _ _ (pu_ext _ _ P1)) as L1. pose proof (x_cur _ _ _ _ _ (pu_ext _ _ P2)) as L2.
      destruct (Y1 B X Bp F1 ltac:(lia) Lm r s Ho1 Hs Ha) as (V1 & _ & T1). split.
      + intros n zs Ev. destruct n as [|n]; [discriminate|]. rewrite evs_S in Ev. destruct (ev n r e) as [z| |] eqn:Q1; try discriminate.
        cbn [rbind] in Ev. destruct (evs n r es) as [zs'| |] eqn:Q2; try discriminate. cbn [rbind] in Ev. inversion Ev; subst.
        destruct (V1 n z Q1) as (k1 & s1 & R1 & A1 & W1).
        assert (Ha1 : agr Lm r s1) by (eapply pure_agr; eauto).
        destruct (Y2 B X Bp F2 Hn Lm r s1 Ho A1 Ha1) as [V2 _]. destruct (V2 n zs' Q2) as (k2 & s2 & R2 & A2 & W2 & Wg).
        assert (W1' : vok e s2 v z).
        { eapply vok_ext; [exact D1| |exact W1]. intros g [Hg _]. symmetry. eapply pure_frame; eauto. }
        exists (k1 + k2), s2. split; [|split; [exact A2|split]].
        * eapply reach_app; [eapply reach_mono; [| |exact R1]; lia|eapply reach_mono; [| |exact R2]; lia].
        * cbn [vals map]. f_equal; [exact (proj1 W1')|exact W2].
        * intros T. apply Forall_cons; [exact (vok_gd w e s2 v z Oe W1' T)|exact (Wg T)].
      + intros K HL.
        apply (term_S _ (fun n => v <- ev n r e ;; vs <- evs n r es ;; Val (v :: vs))); [reflexivity|].
        apply (term_bind (fun n => ev n r e) (fun n v => vs <- evs n r es ;; Val (v :: vs))).
        * intros n. apply (mono1 w fns n).
        * intros n q. apply le_bind; [apply (mono1 w fns n)|intros; apply le_refl].
        * apply (T1 K). eapply leaves_mono; [| |exact HL]; lia.
        * intros n z Q1. destruct (V1 n z Q1) as (k1 & s1 & R1 & A1 & W1).
          assert (Ha1 : agr Lm r s1) by (eapply pure_agr; eauto).
          destruct (Y2 B X Bp F2 Hn Lm r s1 Ho A1 Ha1) as [_ T2].
          assert (R1' : reach B (cur c0) (cur c2) k1 s s1) by (eapply reach_mono; [| |exact R1]; lia).
          destruct (leaves_after w fit B _ _ _ _ _ _ HL R1') as [_ HL2].
          destruct (T2 (K - k1)) as [m Hm]; [eapply leaves_mono; [| |exact HL2]; lia|].
          exists m. destruct (evs m r es); cbn; try discriminate; congruence.
  Qed.
End E.
