(** Denotations of compiled expressions in Verilog's bit-level semantics (Bv_Sem.v). *)
From Verif Require Import Base Bits Vlog Seq_Model Fsm_Model Py_Spec Comp_Model Bv_Sem.
From Verif Require Vx_Model Vx_Sem Vx_Proofs.
Open Scope Z_scope.

Section D.
  Variable w : Z.
  Hypothesis w_pos : 1 <= w.
  Notation bw := (bw w). Notation bs := (bs w). Notation bev := (bev w). Notation dnum := (dnum w). Notation dboo := (dboo w).

  Lemma bw_env s j e : Vx_Sem.swid (venv_of w s j) (tx e) = bw e.
  Proof. reflexivity. Qed.
  Lemma bs_env s j e : Vx_Sem.ssig (venv_of w s j) (tx e) = bs e.
  Proof. reflexivity. Qed.

  (** the pattern depends on the expression's variables only *)
  Lemma bev_ext s1 s2 j e : (forall v, In v (expr_vars e) -> s1 v = s2 v) -> forall W S, bev s1 j W S e = bev s2 j W S e.
  Proof.
    unfold Bv_Sem.bev. induction e; intros H W S; cbn [expr_vars] in H.
    - reflexivity.
    - destruct v; try reflexivity; cbn [tx Vx_Sem.ev venv_of Vx_Sem.dw Vx_Sem.val]; rewrite H by (left; reflexivity); reflexivity.
    - specialize (IHe H). destruct u; cbn [tx tu Vx_Sem.ev]; rewrite ?IHe; rewrite ?bw_env, ?bs_env, ?IHe; reflexivity.
    - assert (H1 : forall W S, Vx_Sem.ev (venv_of w s1 j) W S (tx e1) = Vx_Sem.ev (venv_of w s2 j) W S (tx e1)).
      { apply IHe1. intros v Hv. apply H, in_or_app. auto. }
      assert (H2 : forall W S, Vx_Sem.ev (venv_of w s1 j) W S (tx e2) = Vx_Sem.ev (venv_of w s2 j) W S (tx e2)).
      { apply IHe2. intros v Hv. apply H, in_or_app. auto. }
      destruct b; cbn [tx tb Vx_Sem.ev]; rewrite ?bw_env, ?bs_env, ?H1, ?H2; reflexivity.
    - assert (H1 : forall W S, Vx_Sem.ev (venv_of w s1 j) W S (tx e1) = Vx_Sem.ev (venv_of w s2 j) W S (tx e1)).
      { apply IHe1. intros v Hv. apply H, in_or_app. auto. }
      assert (H2 : forall W S, Vx_Sem.ev (venv_of w s1 j) W S (tx e2) = Vx_Sem.ev (venv_of w s2 j) W S (tx e2)).
      { apply IHe2. intros v Hv. apply H, in_or_app. right. apply in_or_app. auto. }
      assert (H3 : forall W S, Vx_Sem.ev (venv_of w s1 j) W S (tx e3) = Vx_Sem.ev (venv_of w s2 j) W S (tx e3)).
      { apply IHe3. intros v Hv. apply H, in_or_app. right. apply in_or_app. auto. }
      cbn [tx Vx_Sem.ev]. rewrite ?bw_env, ?bs_env, H1, H2, H3. reflexivity.
    - reflexivity.
  Qed.
  Lemma dnum_ext s1 s2 e p z : (forall v, In v (expr_vars e) -> s1 v = s2 v) -> dnum s1 e p z -> dnum s2 e p z.
  Proof.
    intros H (A & B & C & D & E). split; [exact A|]. split; [exact B|]. split; [exact C|]. split; [exact D|].
    intros j W HW. rewrite <- (E j W HW). symmetry. apply bev_ext. exact H.
  Qed.
  Lemma dboo_ext s1 s2 e b : (forall v, In v (expr_vars e) -> s1 v = s2 v) -> dboo s1 e b -> dboo s2 e b.
  Proof.
    intros H (A & E). split; [exact A|]. intros j W S HW. rewrite <- (E j W S HW). symmetry. apply bev_ext. exact H.
  Qed.

  Lemma range_le p q z : 1 <= p <= q -> - 2 ^ (p - 1) < z < 2 ^ (p - 1) -> - 2 ^ (q - 1) < z < 2 ^ (q - 1).
  Proof. intros H Hz. assert (2 ^ (p - 1) <= 2 ^ (q - 1)) by (apply Z.pow_le_mono_r; lia). lia. Qed.
  Lemma value_at p W z : 1 <= p <= W -> - 2 ^ (p - 1) < z < 2 ^ (p - 1) -> value W true (z mod 2 ^ W) = z.
  Proof.
    intros H Hz. unfold value. rewrite sgn_of_mod by lia. apply sgn_small; [lia|]. pose proof (range_le p W z H Hz). lia.
  Qed.
  Lemma mod_nonneg p W z : 1 <= p <= W -> 0 <= z < 2 ^ (p - 1) -> z mod 2 ^ W = z.
  Proof.
    intros H Hz. apply Z.mod_small. split; [lia|]. assert (2 ^ (p - 1) <= 2 ^ W) by (apply Z.pow_le_mono_r; lia). lia.
  Qed.
  Lemma mod_zero p W z : 1 <= p <= W -> - 2 ^ (p - 1) < z < 2 ^ (p - 1) -> (z mod 2 ^ W =? 0) = (z =? 0).
  Proof.
    intros H Hz. destruct (Z.eqb_spec z 0) as [->|Hn]; [rewrite Zmod_0_l; reflexivity|].
    apply Z.eqb_neq. intros E. apply Hn. rewrite <- (value_at p W z H Hz), E. unfold value, sgn. rewrite Zmod_0_l.
    assert (0 < 2 ^ (W - 1)) by (apply Z.pow_pos_nonneg; lia). destruct (Z.ltb_spec 0 (2 ^ (W - 1))); lia.
  Qed.

  (** self-determined truth and assignment *)
  Lemma dnum_self s j e p z : dnum s e p z -> Vx_Sem.ev (venv_of w s j) (bw e) (bs e) (tx e) = z mod 2 ^ p.
  Proof. intros (A & B & C & D & E). rewrite A, B. apply E. lia. Qed.
  Lemma dnum_truth s j e p z : dnum s e p z -> btruth w s j e = truth z.
  Proof.
    intros H. unfold btruth, Vx_Sem.truth, Vx_Sem.self. rewrite bw_env, bs_env, (dnum_self s j e p z H).
    destruct H as (A & B & C & D & E). unfold truth. rewrite (mod_zero p p) by (auto; lia). reflexivity.
  Qed.
  Lemma dboo_self s j e b : dboo s e b -> Vx_Sem.ev (venv_of w s j) (bw e) (bs e) (tx e) = b2z b.
  Proof. intros [A E]. apply E. exact A. Qed.
  Lemma dboo_truth s j e b : dboo s e b -> btruth w s j e = b.
  Proof.
    intros H. unfold btruth, Vx_Sem.truth, Vx_Sem.self. rewrite bw_env, bs_env, (dboo_self s j e b H). destruct b; reflexivity.
  Qed.
  Lemma dnum_assigned s j e p z g : dnum s e p z -> - 2 ^ (w - 1) <= z < 2 ^ (w - 1) -> bassigned w s j (User g) e = z.
  Proof.
    intros (A & B & C & D & E) Hz. unfold bassigned, Vx_Sem.assigned. rewrite bw_env, bs_env, A, B.
    change (value w true (bev s j (Z.max w p) true e mod 2 ^ w) = z). rewrite E by lia.
    rewrite mod_mod_le by lia. unfold value. rewrite sgn_of_mod by lia. apply sgn_small; lia.
  Qed.
  Lemma dboo_assigned s j e b g : dboo s e b -> - 2 ^ (w - 1) <= b2z b < 2 ^ (w - 1) -> bassigned w s j (User g) e = b2z b.
  Proof.
    intros [A E] Hz. unfold bassigned, Vx_Sem.assigned. rewrite bw_env, bs_env.
    change (value w true (bev s j (Z.max w (bw e)) (bs e) e mod 2 ^ w) = b2z b). rewrite E by lia.
    unfold value. rewrite sgn_of_mod by lia. apply sgn_small; lia.
  Qed.

  (** ** leaves *)
  Lemma dnum_int s z : - 2 ^ 31 < z < 2 ^ 31 -> dnum s (EInt z) 32 z.
  Proof.
    intros Hz. split; [reflexivity|]. split; [reflexivity|]. split; [lia|]. split; [exact Hz|]. intros j W HW.
    change (bev s j W true (EInt z)) with (Vx_Sem.lit 32 W true z). unfold Vx_Sem.lit, value.
    f_equal. destruct (Z.ltb_spec z 0).
    - rewrite sgn_small; change (32 - 1) with 31; lia.
    - rewrite sgn_small; change (32 - 1) with 31; lia.
  Qed.
  Lemma dboo_int s b : dboo s (EInt (b2z b)) b.
  Proof.
    split; [change (bw (EInt (b2z b))) with 32; lia|]. intros j W S HW.
    change (bev s j W S (EInt (b2z b))) with (Vx_Sem.lit 32 W S (b2z b)). unfold Vx_Sem.lit.
    assert (E : value 32 S (b2z b) = b2z b) by (destruct b, S; reflexivity).
    destruct (Z.ltb_spec (b2z b) 0); [destruct b; cbn in *; lia|]. rewrite E. apply Vx_Proofs.b2z_small. exact HW.
  Qed.
  Lemma dnum_var s g : - 2 ^ (w - 1) < s (User g) < 2 ^ (w - 1) -> dnum s (EVar (User g)) w (s (User g)).
  Proof.
    intros Hz. split; [reflexivity|]. split; [reflexivity|]. split; [exact w_pos|]. split; [exact Hz|]. intros j W HW.
    change (bev s j W true (EVar (User g))) with (value w true (s (User g)) mod 2 ^ W). f_equal. unfold value. apply sgn_small; lia.
  Qed.

  (** ** operators *)
  Lemma dnum_un s u a p z : dnum s a p z -> u <> PNot -> - 2 ^ (p - 1) < py_un u z < 2 ^ (p - 1) ->
    dnum s (EUn (match u with PNeg => Uminus | PPos => Uplus | _ => Unot end) a) p (py_un u z).
  Proof.
    intros (A & B & C & D & E) Hu Hz. destruct u; [| | |congruence]; cbn [py_un] in *.
    - split; [exact A|]. split; [exact B|]. split; [exact C|]. split; [exact Hz|]. intros j W HW.
      change (bev s j W true (EUn Uminus a)) with ((- bev s j W true a) mod 2 ^ W). rewrite E by exact HW.
      assert (0 < 2 ^ W) by (apply Z.pow_pos_nonneg; lia). rewrite <- (Z.sub_0_l (z mod 2 ^ W)), Zminus_mod_idemp_r. f_equal.
    - split; [exact A|]. split; [exact B|]. split; [exact C|]. split; [exact Hz|]. intros j W HW.
      change (bev s j W true (EUn Uplus a)) with (bev s j W true a). apply E. exact HW.
    - split; [exact A|]. split; [exact B|]. split; [exact C|]. split; [exact Hz|]. intros j W HW.
      change (bev s j W true (EUn Unot a)) with (Z.lnot (bev s j W true a) mod 2 ^ W). rewrite E by exact HW.
      rewrite Vx_Proofs.lnot_mod by lia. reflexivity.
  Qed.

  Definition keeps_left (o : pbin) : bool := match o with PPow | PLsh | PRsh => true | _ => false end.
  Lemma dnum_bin s o a b p q x y : dnum s a p x -> dnum s b q y -> bin_ok o x y = true ->
    let r := if keeps_left o then p else Z.max p q in
    - 2 ^ (r - 1) < py_bin o x y < 2 ^ (r - 1) -> dnum s (EBin (vop o) a b) r (py_bin o x y).
  Proof.
    intros (A & B & C & D & E) (A' & B' & C' & D' & E') Hok r Hz.
    assert (Hself : forall j, Vx_Sem.ev (venv_of w s j) (bw b) (bs b) (tx b) = y mod 2 ^ q).
    { intros j. rewrite A', B'. apply E'. lia. }
    assert (Hs : bs (EBin (vop o) a b) = true).
    { destruct o; cbn [vop]; change (bs (EBin _ a b)) with (bs a && bs b) || change (bs (EBin _ a b)) with (bs a); rewrite ?A, ?A'; reflexivity. }
    assert (Hw : bw (EBin (vop o) a b) = r).
    { unfold r. destruct o; cbn [vop keeps_left]; change (bw (EBin _ a b)) with (Z.max (bw a) (bw b)) || change (bw (EBin _ a b)) with (bw a); rewrite ?B, ?B'; reflexivity. }
    split; [exact Hs|]. split; [exact Hw|]. split; [unfold r; destruct (keeps_left o); lia|]. split; [exact Hz|].
    intros j W HW. clear Hs Hw. assert (P : 0 < 2 ^ W) by (apply Z.pow_pos_nonneg; unfold r in HW; destruct (keeps_left o); lia).
    destruct o; cbn [vop keeps_left] in *; cbn [py_bin bin_ok] in *; unfold r in *; clear r.
    - change ((bev s j W true a + bev s j W true b) mod 2 ^ W = (x + y) mod 2 ^ W). rewrite E, E' by lia. symmetry. apply Zplus_mod.
    - change ((bev s j W true a - bev s j W true b) mod 2 ^ W = (x - y) mod 2 ^ W). rewrite E, E' by lia. symmetry. apply Zminus_mod.
    - change ((bev s j W true a * bev s j W true b) mod 2 ^ W = (x * y) mod 2 ^ W). rewrite E, E' by lia. symmetry. apply Zmult_mod.
    - change ((if bev s j W true b =? 0 then j else Z.quot (value W true (bev s j W true a)) (value W true (bev s j W true b))) mod 2 ^ W = x / y mod 2 ^ W).
      apply andb_true_iff in Hok. destruct Hok as [H1 H2]. apply Z.leb_le in H1. apply Z.ltb_lt in H2.
      rewrite E, E' by lia. rewrite (mod_zero q W y) by (auto; lia). destruct (Z.eqb_spec y 0); [lia|].
      rewrite (value_at p W x), (value_at q W y) by (auto; lia). rewrite Z.quot_div_nonneg by lia. reflexivity.
    - change ((if bev s j W true b =? 0 then j else Z.rem (value W true (bev s j W true a)) (value W true (bev s j W true b))) mod 2 ^ W = (x mod y) mod 2 ^ W).
      apply andb_true_iff in Hok. destruct Hok as [H1 H2]. apply Z.leb_le in H1. apply Z.ltb_lt in H2.
      rewrite E, E' by lia. rewrite (mod_zero q W y) by (auto; lia). destruct (Z.eqb_spec y 0); [lia|].
      rewrite (value_at p W x), (value_at q W y) by (auto; lia). rewrite Z.rem_mod_nonneg by lia. reflexivity.
    - change (Vx_Sem.power (venv_of w s j) (value W true (bev s j W true a)) (value (bw b) (bs b) (Vx_Sem.ev (venv_of w s j) (bw b) (bs b) (tx b))) mod 2 ^ W = (x ^ y) mod 2 ^ W).
      apply Z.leb_le in Hok. rewrite Hself, A', B', E by lia. rewrite (value_at p W x), (value_at q q y) by (auto; lia).
      unfold Vx_Sem.power. destruct (Z.leb_spec 0 y); [reflexivity|lia].
    - change ((bev s j W true a * 2 ^ Vx_Sem.ev (venv_of w s j) (bw b) (bs b) (tx b)) mod 2 ^ W = (x * 2 ^ y) mod 2 ^ W).
      apply Z.leb_le in Hok. rewrite Hself, E by lia. rewrite (mod_nonneg q q y) by lia. apply Zmult_mod_idemp_l.
    - change ((value W true (bev s j W true a) / 2 ^ Vx_Sem.ev (venv_of w s j) (bw b) (bs b) (tx b)) mod 2 ^ W = (x / 2 ^ y) mod 2 ^ W).
      apply Z.leb_le in Hok. rewrite Hself, E by lia. rewrite (mod_nonneg q q y), (value_at p W x) by (auto; lia). reflexivity.
    - change (Z.lor (bev s j W true a) (bev s j W true b) mod 2 ^ W = Z.lor x y mod 2 ^ W). rewrite E, E' by lia. apply Vx_Proofs.lor_mod. lia.
    - change (Z.lxor (bev s j W true a) (bev s j W true b) mod 2 ^ W = Z.lxor x y mod 2 ^ W). rewrite E, E' by lia. apply Vx_Proofs.lxor_mod. lia.
    - change (Z.land (bev s j W true a) (bev s j W true b) mod 2 ^ W = Z.land x y mod 2 ^ W). rewrite E, E' by lia. apply Vx_Proofs.land_mod. lia.
  Qed.

  Lemma dboo_cmp s o a b p q x y : dnum s a p x -> dnum s b q y -> dboo s (EBin (vcmp o) a b) (py_cmp o x y).
  Proof.
    intros (A & B & C & D & E) (A' & B' & C' & D' & E').
    split; [destruct o; change (bw _) with 1; lia|]. intros j W S HW.
    assert (G : bev s j W S (EBin (vcmp o) a b) =
      b2z (Vx_Sem.compare (tb (vcmp o)) (value (Z.max (bw a) (bw b)) (bs a && bs b) (bev s j (Z.max (bw a) (bw b)) (bs a && bs b) a))
         (value (Z.max (bw a) (bw b)) (bs a && bs b) (bev s j (Z.max (bw a) (bw b)) (bs a && bs b) b)))) by (destruct o; reflexivity).
    rewrite G, A, A', B, B'. cbn [andb]. rewrite E, E' by lia. rewrite (value_at p _ x), (value_at q _ y) by (auto; lia).
    destruct o; reflexivity.
  Qed.

  (** a truth value, or a number used as one *)
  Definition dtst (s : env) (e : expr) (b : bool) : Prop := (exists p z, dnum s e p z /\ truth z = b) \/ dboo s e b.
  Lemma dtst_self s j e b : dtst s e b -> (Vx_Sem.ev (venv_of w s j) (bw e) (bs e) (tx e) =? 0) = negb b.
  Proof.
    intros [(p & z & H & <-)|H].
    - pose proof (dnum_truth s j e p z H) as T. unfold btruth, Vx_Sem.truth, Vx_Sem.self in T. rewrite bw_env, bs_env in T.
      rewrite <- T, negb_involutive. reflexivity.
    - rewrite (dboo_self s j e b H). destruct b; reflexivity.
  Qed.
  Lemma dtst_truth s j e b : dtst s e b -> btruth w s j e = b.
  Proof. intros H. unfold btruth, Vx_Sem.truth, Vx_Sem.self. rewrite bw_env, bs_env, (dtst_self s j e b H). apply negb_involutive. Qed.
  Lemma dtst_ext s1 s2 e b : (forall v, In v (expr_vars e) -> s1 v = s2 v) -> dtst s1 e b -> dtst s2 e b.
  Proof.
    intros H [(p & z & H1 & H2)|H1]; [left; exists p, z; split; [eapply dnum_ext; eassumption|exact H2]|right; eapply dboo_ext; eassumption].
  Qed.
  Lemma dboo_not s a b : dtst s a b -> dboo s (EUn Ulnot a) (negb b).
  Proof.
    intros H. split; [change (bw _) with 1; lia|]. intros j W S HW.
    change (b2z (Vx_Sem.ev (venv_of w s j) (bw a) (bs a) (tx a) =? 0) = b2z (negb b)). rewrite (dtst_self s j a b H). reflexivity.
  Qed.
  Lemma dboo_and s a b x y : dtst s a x -> (x = true -> dtst s b y) -> dboo s (EBin Land a b) (x && y).
  Proof.
    intros H1 H2. split; [change (bw _) with 1; lia|]. intros j W S HW.
    change (b2z (negb (Vx_Sem.ev (venv_of w s j) (bw a) (bs a) (tx a) =? 0) && negb (Vx_Sem.ev (venv_of w s j) (bw b) (bs b) (tx b) =? 0)) = b2z (x && y)).
    rewrite (dtst_self s j a x H1). destruct x; [|reflexivity]. rewrite (dtst_self s j b y (H2 eq_refl)). destruct y; reflexivity.
  Qed.
  Lemma dboo_or s a b x y : dtst s a x -> (x = false -> dtst s b y) -> dboo s (EBin Lor a b) (x || y).
  Proof.
    intros H1 H2. split; [change (bw _) with 1; lia|]. intros j W S HW.
    change (b2z (negb (Vx_Sem.ev (venv_of w s j) (bw a) (bs a) (tx a) =? 0) || negb (Vx_Sem.ev (venv_of w s j) (bw b) (bs b) (tx b) =? 0)) = b2z (x || y)).
    rewrite (dtst_self s j a x H1). destruct x; [reflexivity|]. rewrite (dtst_self s j b y (H2 eq_refl)). destruct y; reflexivity.
  Qed.

  (** conditional expressions: the arm not taken contributes its width and sign *)
  Lemma dnum_cond s c t f b p z : dtst s c b -> bs t = true -> bs f = true -> Z.max (bw t) (bw f) = p ->
    (if b then exists q, dnum s t q z else exists q, dnum s f q z) -> dnum s (ECond c t f) p z.
  Proof.
    intros Hc St Sf Hp H.
    assert (H' : exists e q, e = (if b then t else f) /\ dnum s e q z) by (destruct b; destruct H as [q H]; [exists t, q|exists f, q]; auto).
    destruct H' as (e & q & -> & A & B & C & D & E). clear H.
    assert (Hq : q <= p) by (rewrite <- B; destruct b; lia).
    split; [change (bs t && bs f = true); rewrite St, Sf; reflexivity|]. split; [exact Hp|]. split; [lia|].
    split; [apply (range_le q p); [lia|exact D]|]. intros j W HW.
    change ((if Vx_Sem.ev (venv_of w s j) (bw c) (bs c) (tx c) =? 0 then bev s j W true f else bev s j W true t) = z mod 2 ^ W).
    rewrite (dtst_self s j c b Hc). destruct b; cbn [negb]; apply E; lia.
  Qed.
  Lemma dboo_cond s c t f b y : dtst s c b -> 1 <= bw t -> 1 <= bw f ->
    (if b then dboo s t y else dboo s f y) -> dboo s (ECond c t f) y.
  Proof.
    intros Hc Wt Wf H. split; [change (1 <= Z.max (bw t) (bw f)); lia|]. intros j W S HW.
    change ((if Vx_Sem.ev (venv_of w s j) (bw c) (bs c) (tx c) =? 0 then bev s j W S f else bev s j W S t) = b2z y).
    rewrite (dtst_self s j c b Hc). destruct b; cbn [negb]; apply H; exact HW.
  Qed.
End D.
