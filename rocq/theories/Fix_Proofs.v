(** Proofs for Fix_Props.v. *)
From Coq Require Import QArith Qabs Qpower.
From Verif Require Import Base Bits Vx_Model Vx_Sem Vx_Spec Vx_Proofs Sat_Proofs Fix_Model Fix_Spec.
Open Scope Z_scope.

(** ** Values *)
Definition unit (p : Z) : Q := Qpower 2 (- p).
Lemma unit_pos p : (0 < unit p)%Q.
Proof. apply Qpower_0_lt. reflexivity. Qed.
Lemma unit_add p q : (unit (p + q) == unit p * unit q)%Q.
Proof. unfold unit. replace (- (p + q)) with (- p + - q) by lia. apply Qpower_plus. discriminate. Qed.
Lemma unit_pow d : 0 <= d -> (inject_Z (2 ^ d) * unit d == 1)%Q.
Proof.
  intros H. unfold unit. rewrite <- (Z2Nat.id d) by assumption. set (n := Z.to_nat d).
  assert (X : forall n, (inject_Z (2 ^ Z.of_nat n) == Qpower 2 (Z.of_nat n))%Q).
  { clear. induction n as [|n IH]; [reflexivity|]. rewrite Nat2Z.inj_succ, Z.pow_succ_r by lia.
    replace (Z.succ (Z.of_nat n)) with (1 + Z.of_nat n) by lia. rewrite Qpower_plus by discriminate. rewrite inject_Z_mult, IH. reflexivity. }
  rewrite X. rewrite <- Qpower_plus by discriminate. replace (Z.of_nat n + - Z.of_nat n) with 0 by lia. reflexivity.
Qed.
Lemma fval_unit z p : (fval z p == inject_Z z * unit p)%Q.
Proof. reflexivity. Qed.
Lemma fval_shift z p d : 0 <= d -> (fval (z * 2 ^ d) (p + d) == fval z p)%Q.
Proof.
  intros H. rewrite !fval_unit, unit_add, inject_Z_mult. pose proof (unit_pow d H) as U.
  transitivity (inject_Z z * unit p * (inject_Z (2 ^ d) * unit d))%Q; [ring|]. rewrite U. ring.
Qed.
Lemma fval_plus x y p : (fval (x + y) p == fval x p + fval y p)%Q.
Proof. rewrite !fval_unit, inject_Z_plus. ring. Qed.
Lemma fval_opp x p : (fval (- x) p == - fval x p)%Q.
Proof. rewrite !fval_unit, inject_Z_opp. ring. Qed.
Lemma fval_minus x y p : (fval (x - y) p == fval x p - fval y p)%Q.
Proof. unfold Z.sub. rewrite fval_plus, fval_opp. reflexivity. Qed.
Lemma fval_mult x y p q : (fval (x * y) (p + q) == fval x p * fval y q)%Q.
Proof. rewrite !fval_unit, unit_add, inject_Z_mult. ring. Qed.
Lemma fval_lt x y p : (fval x p < fval y p)%Q <-> x < y.
Proof.
  rewrite !fval_unit. pose proof (unit_pos p) as U. split; intros H.
  - rewrite Zlt_Qlt. apply (Qmult_lt_r _ _ (unit p) U). exact H.
  - apply (Qmult_lt_r _ _ (unit p) U). rewrite <- Zlt_Qlt. exact H.
Qed.
Lemma fval_le x y p : (fval x p <= fval y p)%Q <-> x <= y.
Proof.
  rewrite !fval_unit. pose proof (unit_pos p) as U. split; intros H.
  - rewrite Zle_Qle. apply (Qmult_le_r _ _ (unit p) U). exact H.
  - apply (Qmult_le_r _ _ (unit p) U). rewrite <- Zle_Qle. exact H.
Qed.
Lemma fval_eq x y p : (fval x p == fval y p)%Q <-> x = y.
Proof.
  split; [|intros ->; reflexivity]. intros H. apply Z.le_antisymm; apply (fval_le _ _ p); rewrite H; apply Qle_refl.
Qed.
Lemma fval_zero z : (fval z 0 == inject_Z z)%Q.
Proof. rewrite fval_unit. unfold unit. cbn. ring. Qed.
Lemma fval_abs z p : (Qabs (fval z p) == fval (Z.abs z) p)%Q.
Proof.
  rewrite !fval_unit, Qabs_Qmult. rewrite (Qabs_pos (unit p)) by (apply Qlt_le_weak, unit_pos).
  assert (X : (Qabs (inject_Z z) == inject_Z (Z.abs z))%Q) by (destruct z; reflexivity). rewrite X. reflexivity.
Qed.
(** the coarser of two points *)
Lemma fval_drop z p d : 0 <= d -> (fval (z / 2 ^ d) p <= fval z (p + d))%Q /\ (fval z (p + d) < fval (z / 2 ^ d + 1) p)%Q.
Proof.
  intros H. pose proof (pow_pos d H). pose proof (Z.div_mod z (2 ^ d) ltac:(lia)). pose proof (Z.mod_pos_bound z (2 ^ d) ltac:(lia)).
  rewrite <- (fval_shift (z / 2 ^ d) p d H), <- (fval_shift (z / 2 ^ d + 1) p d H). rewrite fval_le, fval_lt. nia.
Qed.

(** ** Conversion of Python numbers *)
Lemma trunc_spec n k p v : 0 <= k -> (v == fval n (p + k))%Q -> let r := trunc n k in
  (Qabs (fval r p - v) < fval 1 p)%Q /\ (Qabs (fval r p) <= Qabs v)%Q /\ (forall z, (v == fval z p)%Q -> r = z).
Proof.
  intros H V r. pose proof (pow_pos k H) as K. unfold r, trunc.
  pose proof (Z.quot_rem' n (2 ^ k)) as E. pose proof (Z.rem_bound_abs n (2 ^ k) ltac:(lia)) as B.
  pose proof (Z.quot_abs n (2 ^ k) ltac:(lia)) as QA. set (t := Z.quot n (2 ^ k)) in *. set (m := Z.rem n (2 ^ k)) in *.
  rewrite !(Z.abs_eq (2 ^ k)) in * by lia. split; [|split].
  - rewrite V. rewrite <- (fval_shift t p k H), <- (fval_shift 1 p k H), <- fval_minus, fval_abs. rewrite fval_lt. lia.
  - rewrite V. rewrite <- (fval_shift t p k H), !fval_abs. rewrite fval_le. rewrite Z.abs_mul, (Z.abs_eq (2 ^ k)) by lia. rewrite <- QA.
    pose proof (Z.mul_quot_le (Z.abs n) (2 ^ k) ltac:(lia) ltac:(lia)). lia.
  - intros z Hz. rewrite V in Hz. rewrite <- (fval_shift z p k H) in Hz. apply fval_eq in Hz. unfold t. rewrite Hz. apply Z.quot_mul. lia.
Qed.
Lemma exact_spec r p v : (v == fval r p)%Q ->
  (Qabs (fval r p - v) < fval 1 p)%Q /\ (Qabs (fval r p) <= Qabs v)%Q /\ (forall z, (v == fval z p)%Q -> r = z).
Proof.
  intros V. split; [|split].
  - rewrite V. rewrite <- fval_minus, Z.sub_diag, fval_abs. rewrite fval_lt. cbn. lia.
  - rewrite V. apply Qle_refl.
  - intros z. rewrite V. apply fval_eq.
Qed.
Lemma to_fixed_ok v p r : to_fixed v p = NInt r ->
  (Qabs (fval r p - qnum v) < fval 1 p)%Q /\ (Qabs (fval r p) <= Qabs (qnum v))%Q /\ (forall z, (qnum v == fval z p)%Q -> r = z).
Proof.
  unfold to_fixed. intros H. destruct (Z.ltb_spec p 0) as [N|N].
  - destruct v as [z|n k]; injection H as <-; apply trunc_spec; try lia; cbn [qnum].
    + replace (p + - p) with 0 by lia. rewrite fval_zero. reflexivity.
    + replace (p + (Z.of_nat k + - p)) with (Z.of_nat k) by lia. reflexivity.
  - destruct (Z.eqb_spec p 0) as [->|P].
    + subst v. apply exact_spec. cbn [qnum]. rewrite fval_zero. reflexivity.
    + destruct v as [z|n k]; injection H as <-.
      * apply exact_spec. cbn [qnum]. rewrite <- (fval_zero z), <- (fval_shift z 0 p) by lia. reflexivity.
      * apply trunc_spec; [lia|]. cbn [qnum]. rewrite <- (fval_shift n (Z.of_nat k) p) by lia. rewrite (Z.add_comm (Z.of_nat k) p). reflexivity.
Qed.

(** ** Expressions *)
Section At.
  Variables (E : venv) (W : Z) (s : bool).
  Hypothesis HW : 0 <= W.
  Lemma at_lit w z : w = 32 -> room s z -> lit w W s z = z mod 2 ^ W.
  Proof.
    intros -> R. unfold lit, room in *. f_equal. destruct s; cbn [value].
    - destruct (Z.ltb_spec z 0); [rewrite sgn_small; lia|apply sgn_small; lia].
    - destruct (Z.ltb_spec z 0); [lia|]. unfold uns. apply Z.mod_small. lia.
  Qed.
  Lemma raw_at d f z : raw E W s d f z -> is_at E W s (fe f) z.
  Proof. intros [b H R _|H R _|_ _ H]; [| |exact H]; rewrite H; unfold is_at; cbn [ev wd]; apply at_lit; auto. Qed.
  Lemma shift_amount d : 0 <= d < 2 ^ 31 -> self E (XPy d) = d.
  Proof.
    intros D. unfold self. cbn [ev swid ssig]. unfold lit. destruct (Z.ltb_spec d 0); [lia|]. cbn [value]. rewrite sgn_small by lia. apply Z.mod_small. lia.
  Qed.
  Lemma ev_shift o a b : o = BSll \/ o = BSrl \/ o = BSra -> ev E W s (XBin o a b) = shift o W s (ev E W s a) (self E b).
  Proof. intros [->|[->| ->]]; reflexivity. Qed.
  Lemma at_sll e b z d : 0 <= d -> self E b = d -> is_at E W s e z -> is_at E W s (XBin BSll e b) (z * 2 ^ d).
  Proof.
    intros D N H. unfold is_at in *. rewrite ev_shift by auto. cbn [shift]. rewrite H, N.
    rewrite Z.mul_mod_idemp_l; [reflexivity|]. pose proof (pow_pos W HW). lia.
  Qed.
  Lemma at_sra e b z d : 1 <= W -> 0 <= d -> self E b = d -> Vx_Spec.fits W s z -> is_at E W s e z -> is_at E W s (XBin BSra e b) (z / 2 ^ d).
  Proof.
    intros W1 D N F H. unfold is_at in *. rewrite ev_shift by auto. cbn [shift]. rewrite H, N. rewrite value_fits; auto.
  Qed.
  Lemma at_srl e b z d : 0 <= d -> self E b = d -> 0 <= z < 2 ^ W -> is_at E W s e z -> is_at E W s (XBin BSrl e b) (z / 2 ^ d).
  Proof.
    intros D N F H. unfold is_at in *. rewrite ev_shift by auto. cbn [shift]. rewrite H, N. rewrite (Z.mod_small z) by assumption.
    symmetry. apply Z.mod_small. pose proof (pow_pos d ltac:(lia)). split; [apply Z.div_pos; lia|]. apply Z.div_lt_upper_bound; [lia|]. nia.
  Qed.
  Lemma at_plus a b x y : is_at E W s a x -> is_at E W s b y -> is_at E W s (XBin BPlus a b) (x + y).
  Proof. unfold is_at. intros A B. cbn [ev Vx_Sem.arith]. rewrite A, B. symmetry. apply Z.add_mod. pose proof (pow_pos W HW). lia. Qed.
  Lemma at_minus a b x y : is_at E W s a x -> is_at E W s b y -> is_at E W s (XBin BMinus a b) (x - y).
  Proof. unfold is_at. intros A B. cbn [ev Vx_Sem.arith]. rewrite A, B. symmetry. apply Zminus_mod. Qed.
  Lemma at_times a b x y : is_at E W s a x -> is_at E W s b y -> is_at E W s (XBin BTimes a b) (x * y).
  Proof. unfold is_at. intros A B. cbn [ev Vx_Sem.arith]. rewrite A, B. symmetry. apply Z.mul_mod. pose proof (pow_pos W HW). lia. Qed.
  Lemma at_neg a x : is_at E W s a x -> is_at E W s (XUn UMinus a) (- x).
  Proof.
    unfold is_at. intros A. cbn [ev]. rewrite A. pose proof (pow_pos W HW).
    rewrite <- (Z.sub_0_l x), <- (Z.sub_0_l (x mod _)), Zminus_mod_idemp_r. reflexivity.
  Qed.
  Lemma at_py z : room s z -> is_at E W s (XPy z) z.
  Proof. intros R. unfold is_at. cbn [ev]. apply at_lit; auto. Qed.
  Lemma at_int z b : room s z -> is_at E W s (XInt z None None b) z.
  Proof. intros R. unfold is_at. cbn [ev wd]. apply at_lit; auto. Qed.

  Lemma shift_left_at f z d : 0 <= d < 2 ^ 31 -> raw E W s d f z -> is_at E W s (fe (shift_left f d)) (z * 2 ^ d).
  Proof.
    intros D [b H R1 R2|H R1 R2|N1 N2 H]; unfold shift_left.
    - rewrite H. cbn [fe]. apply at_py, R2.
    - rewrite H. cbn [fe]. apply at_py, R2.
    - destruct (fe f) eqn:Ef; cbn [fe]; try (apply at_sll; [lia|apply shift_amount; assumption|assumption]).
      + exfalso. eapply N2; reflexivity.
      + exfalso. eapply N1; reflexivity.
  Qed.
  Lemma to_signed_at f z : fs f = true -> is_at E W s (fe f) z -> (forall v w b t, fe f = XInt v w b t -> w = None) -> is_at E W s (fe (to_signed f)) z.
  Proof.
    intros S H U. unfold to_signed. destruct (fe f) eqn:Ef; cbn [fe]; rewrite ?S; cbn [fe]; rewrite ?Ef; try exact H.
    rewrite (U _ _ _ _ eq_refl) in H. unfold is_at in *. unfold int_node. cbn [ev wd] in *. exact H.
  Qed.
End At.

(** ** Alignment *)
Definition data_of (signed : bool) (f : fobj) (d : Z) : fobj :=
  let g := if d =? 0 then f else shift_left f d in if signed && negb (d =? 0) then to_signed g else g.
Lemma adjust_eq l r signed : adjust l r (fp l) (fp r) signed = (data_of signed l (gap (fp l) (fp r)), data_of signed r (gap (fp r) (fp l))).
Proof.
  unfold adjust, data_of, gap.
  replace (if fp r <? fp l then 0 else fp r - fp l) with (Z.max 0 (fp r - fp l)) by (destruct (Z.ltb_spec (fp r) (fp l)); lia).
  replace (if fp l <? fp r then 0 else fp l - fp r) with (Z.max 0 (fp l - fp r)) by (destruct (Z.ltb_spec (fp l) (fp r)); lia).
  reflexivity.
Qed.
Lemma shift_left_sign f d : fs f = true -> fs (shift_left f d) = true.
Proof. intros S. unfold shift_left. destruct (fe f); cbn [fs]; auto. Qed.
Lemma shift_left_int f d v w b t : fe (shift_left f d) <> XInt v w b t.
Proof. unfold shift_left. destruct (fe f); cbn [fe]; discriminate. Qed.
Lemma data_at E W s signed f z d : 0 <= W -> 0 <= d < 2 ^ 31 -> (signed = true -> fs f = true) -> raw E W s d f z ->
  is_at E W s (fe (data_of signed f d)) (z * 2 ^ d).
Proof.
  intros HW D S R. unfold data_of. destruct (Z.eqb_spec d 0) as [->|N]; cbn [negb].
  - rewrite andb_false_r. rewrite Z.mul_1_r. eapply raw_at, R.
  - pose proof (shift_left_at E W s HW f z d D R) as A. destruct signed; cbn [andb]; [|exact A].
    apply to_signed_at; auto using shift_left_sign. intros v w b t X. exfalso. eapply shift_left_int, X.
Qed.
(** shifting and making constants signed changes neither width nor sign *)
Definition unsized (e : vx) : Prop := forall v w b t, e = XInt v w b t -> w = None /\ b = None.
Lemma shift_left_type E f d : unsized (fe f) -> swid E (fe (shift_left f d)) = swid E (fe f) /\ ssig E (fe (shift_left f d)) = ssig E (fe f).
Proof.
  intros U. unfold shift_left. destruct (fe f) eqn:Ef; cbn [fe swid ssig]; auto. destruct (U _ _ _ _ eq_refl) as [-> ->]. auto.
Qed.
Lemma to_signed_type E f : fs f = true -> unsized (fe f) -> swid E (fe (to_signed f)) = swid E (fe f) /\ ssig E (fe (to_signed f)) = ssig E (fe f).
Proof.
  intros S U. unfold to_signed. destruct (fe f) eqn:Ef; rewrite ?S; rewrite ?Ef; auto. destruct (U _ _ _ _ eq_refl) as [-> ->]. auto.
Qed.
Lemma data_type E signed f d : (signed = true -> fs f = true) -> unsized (fe f) ->
  swid E (fe (data_of signed f d)) = swid E (fe f) /\ ssig E (fe (data_of signed f d)) = ssig E (fe f).
Proof.
  intros S U. unfold data_of. destruct (d =? 0); cbn [negb]; [rewrite andb_false_r; auto|]. rewrite andb_true_r.
  destruct (shift_left_type E f d U) as [A B]. destruct signed; [|auto].
  destruct (to_signed_type E (shift_left f d)) as [C D]; [auto using shift_left_sign| |rewrite C, D; auto].
  intros v w b t X. exfalso. eapply shift_left_int, X.
Qed.
Lemma raw_unsized E W s d f z : raw E W s d f z -> unsized (fe f).
Proof. intros [b H _ _|H _ _|N _ _] v w b' t X; [rewrite H in X; injection X as <- <- <- <-; auto|rewrite H in X; discriminate|exfalso; eapply N, X]. Qed.

Lemma fmax_gap p q : fmax p q = p + gap p q /\ fmax p q = q + gap q p.
Proof. unfold fmax, gap. destruct (Z.ltb_spec q p); lia. Qed.
Lemma fmax_comm p q : fmax p q = fmax q p.
Proof. unfold fmax. destruct (Z.ltb_spec q p), (Z.ltb_spec p q); lia. Qed.
Lemma gap_value z p q : (fval (z * 2 ^ gap p q) (fmax p q) == fval z p)%Q.
Proof. destruct (fmax_gap p q) as [-> _]. apply fval_shift. unfold gap. lia. Qed.

Lemma arith_at E W s o l r x y : o = BPlus \/ o = BMinus -> 0 <= W -> Z.abs (fp l - fp r) < 2 ^ 31 ->
  raw E W s (gap (fp l) (fp r)) l x -> raw E W s (gap (fp r) (fp l)) r y ->
  let z := match o with BPlus => x * 2 ^ gap (fp l) (fp r) + y * 2 ^ gap (fp r) (fp l) | _ => x * 2 ^ gap (fp l) (fp r) - y * 2 ^ gap (fp r) (fp l) end in
  is_at E W s (fe (arith o l r)) z.
Proof.
  intros O HW D L R z. unfold arith, aligned. rewrite adjust_eq. cbn [fe].
  set (sg := if match o with BLt => true | _ => false end then false else fs l && fs r).
  assert (SL : sg = true -> fs l = true) by (unfold sg; destruct o, (fs l); auto; discriminate).
  assert (SR : sg = true -> fs r = true) by (unfold sg; destruct o, (fs l), (fs r); auto; discriminate).
  pose proof (data_at E W s sg l x (gap (fp l) (fp r)) HW ltac:(unfold gap; lia) SL L) as A.
  pose proof (data_at E W s sg r y (gap (fp r) (fp l)) HW ltac:(unfold gap; lia) SR R) as B.
  unfold z. destruct O as [-> | ->]; [apply at_plus|apply at_minus]; auto.
Qed.
Lemma arith_value o l r x y : o = BPlus \/ o = BMinus ->
  let z := match o with BPlus => x * 2 ^ gap (fp l) (fp r) + y * 2 ^ gap (fp r) (fp l) | _ => x * 2 ^ gap (fp l) (fp r) - y * 2 ^ gap (fp r) (fp l) end in
  (fval z (fp (arith o l r)) == match o with BPlus => fval x (fp l) + fval y (fp r) | _ => fval x (fp l) - fval y (fp r) end)%Q.
Proof.
  intros O z. unfold arith. destruct (aligned o l r) as [a b]. cbn [fp]. unfold z.
  pose proof (fmax_comm (fp l) (fp r)) as C.
  destruct O as [-> | ->]; [rewrite fval_plus|rewrite fval_minus]; rewrite gap_value, C, gap_value; reflexivity.
Qed.

(** ** Comparisons *)
Lemma truth_cmp E o a b : comparison o -> truth E (XBin o a b) =
  compare o (value (Z.max (swid E a) (swid E b)) (ssig E a && ssig E b) (ev E (Z.max (swid E a) (swid E b)) (ssig E a && ssig E b) a))
            (value (Z.max (swid E a) (swid E b)) (ssig E a && ssig E b) (ev E (Z.max (swid E a) (swid E b)) (ssig E a && ssig E b) b)).
Proof.
  intros O. assert (V : forall v, self E (XBin o a b) = b2z v -> truth E (XBin o a b) = v) by (unfold truth; intros [] ->; reflexivity).
  apply V. unfold self. destruct O as [->|[->|[->|[->|[->| ->]]]]]; reflexivity.
Qed.
Lemma compare_q o x y p : comparison o -> compare o x y = qcompare o (fval x p) (fval y p).
Proof.
  assert (L : forall x y, Qle_bool (fval x p) (fval y p) = (x <=? y)).
  { intros a b. destruct (Qle_bool (fval a p) (fval b p)) eqn:B.
    - apply Qle_bool_iff, fval_le in B. symmetry. apply Z.leb_le, B.
    - symmetry. apply Z.leb_gt. destruct (Z.leb_spec a b) as [C|C]; [|exact C]. apply (fval_le _ _ p) in C. apply Qle_bool_iff in C. congruence. }
  assert (G : Qeq_bool (fval x p) (fval y p) = (x =? y)).
  { destruct (Qeq_bool (fval x p) (fval y p)) eqn:B.
    - apply Qeq_bool_iff, fval_eq in B. symmetry. apply Z.eqb_eq, B.
    - symmetry. apply Z.eqb_neq. intros ->. rewrite (proj2 (Qeq_bool_iff _ _)) in B by reflexivity. discriminate. }
  intros [->|[->|[->|[->|[->| ->]]]]]; cbn [compare qcompare]; rewrite ?L, ?G, <- ?Z.ltb_antisym; reflexivity.
Qed.
Lemma qcompare_proper o a a' b b' : (a == a')%Q -> (b == b')%Q -> qcompare o a b = qcompare o a' b'.
Proof. intros A B. unfold qcompare. destruct o; rewrite ?A, ?B; reflexivity. Qed.
Lemma compare_ok E o l r x y : comparison o -> Z.abs (fp l - fp r) < 2 ^ 31 ->
  let W := Z.max (swid E (fe l)) (swid E (fe r)) in let s := ssig E (fe l) && ssig E (fe r) in 1 <= W ->
  raw E W s (gap (fp l) (fp r)) l x -> raw E W s (gap (fp r) (fp l)) r y ->
  Vx_Spec.fits W s (x * 2 ^ gap (fp l) (fp r)) -> Vx_Spec.fits W s (y * 2 ^ gap (fp r) (fp l)) ->
  truth E (fe (arith o l r)) = qcompare o (fval x (fp l)) (fval y (fp r)).
Proof.
  intros O D W s HW L R FL FR. unfold arith, aligned. rewrite adjust_eq. cbn [fe].
  set (sg := if match o with BLt => true | _ => false end then false else fs l && fs r).
  assert (SL : sg = true -> fs l = true) by (unfold sg; destruct o, (fs l); auto; discriminate).
  assert (SR : sg = true -> fs r = true) by (unfold sg; destruct o, (fs l), (fs r); auto; discriminate).
  pose proof (data_at E W s sg l x (gap (fp l) (fp r)) ltac:(lia) ltac:(unfold gap; lia) SL L) as A.
  pose proof (data_at E W s sg r y (gap (fp r) (fp l)) ltac:(lia) ltac:(unfold gap; lia) SR R) as B.
  destruct (data_type E sg l (gap (fp l) (fp r)) SL (raw_unsized _ _ _ _ _ _ L)) as [TL1 TL2].
  destruct (data_type E sg r (gap (fp r) (fp l)) SR (raw_unsized _ _ _ _ _ _ R)) as [TR1 TR2].
  rewrite truth_cmp by assumption. rewrite TL1, TL2, TR1, TR2. fold W s. rewrite A, B, !value_fits by assumption.
  rewrite (compare_q o _ _ (fmax (fp l) (fp r))) by assumption.
  pose proof (fmax_comm (fp l) (fp r)) as C.
  apply qcompare_proper; [apply gap_value|rewrite C; apply gap_value].
Qed.

(** ** Products *)
Lemma raw_signed_at E W s f x : raw E W s 0 f x -> forall b, (b = true -> fs f = true) -> is_at E W s (fe (if b then to_signed f else f)) x.
Proof.
  intros R [|] S; [|eapply raw_at, R]. apply to_signed_at; [auto|eapply raw_at, R|].
  intros v w b t X. apply (raw_unsized _ _ _ _ _ _ R _ _ _ _ X).
Qed.
Lemma times_ok E W s l r x y : 1 <= W -> let p := fp (times l r) in fp l + fp r - p < 2 ^ 31 ->
  raw E W s 0 l x -> raw E W s 0 r y -> Vx_Spec.fits W s (x * y) -> (fs l && fs r = false -> 0 <= x * y) ->
  exists z, is_at E W s (fe (times l r)) z /\
    (fval z p <= fval x (fp l) * fval y (fp r))%Q /\ (fval x (fp l) * fval y (fp r) < fval (z + 1) p)%Q.
Proof.
  intros HW p D L R F N. exists (x * y / 2 ^ (fp l + fp r - p)).
  assert (P : 0 <= fp l + fp r - p) by (unfold p, times, fmin; cbn [fp]; destruct (Z.ltb_spec (fmax (fp l) (fp r)) (fp l + fp r)); lia).
  split.
  - unfold times in *. cbn [fe fp] in *. fold p in P.
    set (k := fp l + fp r - fmin (fmax (fp l) (fp r)) (fp l + fp r)) in *.
    assert (K : p = fmin (fmax (fp l) (fp r)) (fp l + fp r)) by reflexivity.
    replace (fp l + fp r - p) with k by (unfold k; lia).
    assert (K0 : 0 <= k < 2 ^ 31) by (unfold k; lia). clearbody k.
    pose proof (at_times E W s ltac:(lia) _ _ _ _ (raw_signed_at _ _ _ _ _ L (fs l && fs r) ltac:(destruct (fs l); auto)) (raw_signed_at _ _ _ _ _ R (fs l && fs r) ltac:(destruct (fs l), (fs r); auto))) as T.
    destruct (fs l && fs r).
    + apply at_sra; first [assumption|lia|apply shift_amount; lia].
    + specialize (N eq_refl). apply at_srl; first [assumption|lia|apply shift_amount; lia|idtac].
      split; [exact N|]. unfold Vx_Spec.fits in F. pose proof (pow_split W HW). pose proof (pow_pos (W - 1) ltac:(lia)). destruct s; lia.
  - rewrite <- fval_mult. pose proof (fval_drop (x * y) p (fp l + fp r - p) P) as [A B].
    replace (p + (fp l + fp r - p)) with (fp l + fp r) in A, B by lia. auto.
Qed.

(** ** Assignment *)
Lemma room_div s z d : 0 <= d -> room s z -> room s (z / 2 ^ d).
Proof.
  intros H R. pose proof (pow_pos d H) as K. unfold room in *. pose proof (Z.div_mod z (2 ^ d) ltac:(lia)). pose proof (Z.mod_pos_bound z (2 ^ d) K).
  destruct s.
  - split; [|apply Z.div_lt_upper_bound; nia]. destruct (Z.ltb_spec z 0); [|nia]. nia.
  - split; [apply Z.div_pos; lia|]. apply Z.div_lt_upper_bound; nia.
Qed.
Lemma shift_right_at E W s f z d signed : 1 <= W -> 0 <= d < 2 ^ 31 -> raw E W s 0 f z -> Vx_Spec.fits W s z -> (signed = false -> 0 <= z) ->
  is_at E W s (fe (shift_right f d signed)) (z / 2 ^ d).
Proof.
  intros HW D R F N. unfold shift_right.
  assert (X : is_at E W s (fe (if signed then mkF (XBin BSra (fe f) (XPy d)) 0 (fs f) else mkF (XBin BSrl (fe f) (XPy d)) 0 false)) (z / 2 ^ d)).
  { pose proof (raw_at E W s _ _ _ R) as A. destruct signed; cbn [fe].
    - apply at_sra; first [assumption|lia|apply shift_amount; lia].
    - specialize (N eq_refl). apply at_srl; first [assumption|lia|apply shift_amount; lia|idtac].
      split; [exact N|]. unfold Vx_Spec.fits in F. pose proof (pow_split W HW). pose proof (pow_pos (W - 1) ltac:(lia)). destruct s; lia. }
  destruct R as [b H R1 R2|H R1 R2|N1 N2 H].
  - rewrite H. cbn [fe]. apply at_py, room_div; [lia|exact R1].
  - rewrite H. cbn [fe]. apply at_py, room_div; [lia|exact R1].
  - destruct (fe f) eqn:Ef; try exact X; exfalso; [eapply N2|eapply N1]; reflexivity.
Qed.
Lemma shift_right_type E f d signed : unsized (fe f) -> swid E (fe (shift_right f d signed)) = swid E (fe f) /\ ssig E (fe (shift_right f d signed)) = ssig E (fe f).
Proof.
  intros U. unfold shift_right. destruct (fe f) eqn:Ef; destruct signed; cbn [fe swid ssig]; auto; destruct (U _ _ _ _ eq_refl) as [-> ->]; auto.
Qed.
Lemma write_ok E w v point x : 1 <= w -> let W := Z.max w (swid E (fe v)) in let s := ssig E (fe v) in
  Z.abs (fp v - point) < 2 ^ 31 -> raw E W s (gap (fp v) point) v x -> Vx_Spec.fits W s x -> (fs v = false -> 0 <= x) ->
  exists r, assigned E w (fe (write_adjust v point)) = r mod 2 ^ w /\
    (fval r point <= fval x (fp v))%Q /\ (fval x (fp v) < fval (r + 1) point)%Q /\ (fp v <= point -> (fval r point == fval x (fp v))%Q).
Proof.
  intros Hw W s D R F N. pose proof (raw_unsized _ _ _ _ _ _ R) as U.
  assert (Store : forall e z, swid E e = swid E (fe v) -> ssig E e = ssig E (fe v) -> is_at E W s e z -> assigned E w e = z mod 2 ^ w).
  { intros e z A B C. unfold assigned. rewrite A, B. fold W s. rewrite C. apply mod_mod_le. unfold W. lia. }
  unfold write_adjust. unfold gap in R. destruct (Z.ltb_spec (fp v) point) as [L|L]; [|destruct (Z.ltb_spec point (fp v)) as [L'|L']].
  - replace (Z.max 0 (point - fp v)) with (point - fp v) in R by lia. exists (x * 2 ^ (point - fp v)).
    destruct (shift_left_type E v (point - fp v) U) as [A B].
    assert (V : (fval (x * 2 ^ (point - fp v)) point == fval x (fp v))%Q).
    { rewrite <- (fval_shift x (fp v) (point - fp v)) by lia. replace (fp v + (point - fp v)) with point by lia. reflexivity. }
    split; [|split; [|split]].
    + apply Store; auto. apply shift_left_at; auto; unfold W; lia.
    + rewrite V. apply Qle_refl.
    + rewrite <- V. apply fval_lt. lia.
    + intros _. exact V.
  - replace (Z.max 0 (point - fp v)) with 0 in R by lia. exists (x / 2 ^ (fp v - point)).
    destruct (shift_right_type E v (fp v - point) (fs v) U) as [A B].
    pose proof (fval_drop x point (fp v - point) ltac:(lia)) as [P Q]. replace (point + (fp v - point)) with (fp v) in P, Q by lia.
    split; [|split; [exact P|split; [exact Q|lia]]].
    apply Store; auto. apply shift_right_at; auto; unfold W; lia.
  - assert (point = fp v) by lia. subst point. exists x. split; [|split; [apply Qle_refl|split; [apply fval_lt; lia|reflexivity]]].
    apply Store; auto. eapply raw_at, R.
Qed.

(** ** Parts *)
Lemma int_part_ok E W s v x : 1 <= W -> 0 <= fp v < 2 ^ 31 -> is_at E W s (fe v) x -> Vx_Spec.fits W s x ->
  is_at E W s (int_part v) (x / 2 ^ fp v).
Proof. intros HW P A F. unfold int_part. apply at_sra; first [assumption|lia|apply shift_amount; lia]. Qed.
Lemma repeated_ones n : repeated n 1 1 = 2 ^ Z.of_nat n - 1.
Proof. induction n as [|n IH]; [reflexivity|]. cbn [repeated]. rewrite IH, Nat2Z.inj_succ, Z.pow_succ_r by lia. change (2 ^ 1) with 2. lia. Qed.
Lemma dec_part_ok E W s v x : 1 <= W -> 0 <= fp v <= W -> is_at E W s (fe v) x -> is_at E W s (dec_part v) (x mod 2 ^ fp v).
Proof.
  intros HW P A. unfold dec_part, is_at in *.
  assert (M : ev E W s (if fp v =? 0 then XPy 0 else XRep (int_node 1 (Some 1) None false) (fp v)) = 2 ^ fp v - 1).
  { destruct (Z.eqb_spec (fp v) 0) as [-> |N].
    - cbn [ev]. unfold lit. destruct s; reflexivity.
    - cbn [ev]. rewrite <- (Z2Nat.id (fp v)) at 2 by lia. rewrite <- repeated_ones. reflexivity. }
  set (m := if fp v =? 0 then _ else _) in *. clearbody m.
  change (bitwise BAnd (ev E W s (fe v)) (ev E W s m) mod 2 ^ W = x mod 2 ^ fp v mod 2 ^ W). rewrite M, A. cbn [bitwise].
  rewrite Z.sub_1_r, <- Z.ones_equiv, Z.land_ones by lia. rewrite (mod_mod_le x W (fp v)) by lia. reflexivity.
Qed.
Lemma parts_value x p : 0 <= p -> (fval x p == inject_Z (x / 2 ^ p) + fval (x mod 2 ^ p) p)%Q.
Proof.
  intros P. pose proof (pow_pos p P). rewrite <- fval_zero, <- (fval_shift (x / 2 ^ p) 0 p P), <- fval_plus.
  apply fval_eq. pose proof (Z.div_mod x (2 ^ p) ltac:(lia)). lia.
Qed.

(** ** Division *)
Lemma top_bit w x : 1 <= w -> Z.testbit x (w - 1) = (sgn w x <? 0).
Proof.
  intros H. pose proof (pow_split w H) as P. pose proof (pow_pos (w - 1) ltac:(lia)) as Q.
  rewrite Z.testbit_odd, Z.shiftr_div_pow2 by lia.
  assert (D : x / 2 ^ (w - 1) = 2 * (x / 2 ^ w) + (x mod 2 ^ w) / 2 ^ (w - 1)).
  { pose proof (Z.div_mod x (2 ^ w) ltac:(lia)) as M. rewrite M at 1. rewrite P at 1.
    replace (2 * 2 ^ (w - 1) * (x / 2 ^ w) + x mod 2 ^ w) with (x mod 2 ^ w + (2 * (x / 2 ^ w)) * 2 ^ (w - 1)) by ring.
    rewrite Z.div_add by lia. ring. }
  rewrite D, Z.odd_add, Z.odd_mul. change (Z.odd 2) with false. cbn [andb]. rewrite xorb_false_l.
  pose proof (Z.mod_pos_bound x (2 ^ w) ltac:(lia)) as B. pose proof (sgn_mod w x ltac:(lia)) as G. pose proof (sgn_range w x H) as R.
  destruct (Z.ltb_spec (sgn w x) 0) as [C|C].
  - assert (M : x mod 2 ^ w = sgn w x + 2 ^ w).
    { rewrite <- G. rewrite <- (Z.mod_add (sgn w x) 1) by lia. rewrite Z.mul_1_l. apply Z.mod_small. lia. }
    rewrite M.
    replace ((sgn w x + 2 ^ w) / 2 ^ (w - 1)) with 1; [reflexivity|]. apply Z.div_unique_pos with (sgn w x + 2 ^ (w - 1)); lia.
  - rewrite <- G, (Z.mod_small (sgn w x)) by lia. rewrite Z.div_small by lia. reflexivity.
Qed.
Lemma var_at E W s z : is_at E W s (XVar z) (value (dw E z) s (val E z)).
Proof. unfold is_at. cbn [ev]. reflexivity. Qed.
Lemma comp_at E W s e z : 1 <= W -> is_at E W s e z -> is_at E W s (XBin BPlus (XUn UNot e) (XPy 1)) (- z).
Proof.
  intros HW A. replace (- z) with (Z.lnot z + 1) by (unfold Z.lnot; lia). apply at_plus; [lia| |apply at_py; unfold room; destruct s; lia].
  unfold is_at in *. cbn [ev]. rewrite A. unfold Z.lnot. pose proof (pow_pos W ltac:(lia)).
  replace (Z.pred (- (z mod 2 ^ W))) with (-1 - z mod 2 ^ W) by lia. replace (Z.pred (- z)) with (-1 - z) by lia. apply Zminus_mod_idemp_r.
Qed.
Lemma msb_holds E z : 1 <= dw E z <= 2 ^ 31 -> holds E (XUn ULnot (XPtr z (XPy (dw E z - 1)))) = negb (value (dw E z) true (val E z) <? 0).
Proof.
  intros H. unfold holds, truth.
  change (self E (XUn ULnot (XPtr z (XPy (dw E z - 1))))) with (b2z (self E (XPtr z (XPy (dw E z - 1))) =? 0)).
  rewrite ptr_ok by lia. unfold bit. rewrite top_bit by lia. cbn [value]. destruct (sgn _ _ <? 0); reflexivity.
Qed.
Lemma abs_at E W s z : 1 <= W -> 1 <= dw E z <= 2 ^ 31 ->
  is_at E W s (if s then mk_mux (XUn ULnot (XPtr z (XPy (dw E z - 1)))) (XVar z) (XBin BPlus (XUn UNot (XVar z)) (XPy 1)) else XVar z) (Z.abs (value (dw E z) s (val E z))).
Proof.
  intros HW H. destruct s.
  - unfold is_at. rewrite mk_mux_ev. rewrite msb_holds by assumption. destruct (Z.ltb_spec (value (dw E z) true (val E z)) 0) as [L|L]; cbn [negb].
    + rewrite Z.abs_neq by lia. exact (comp_at E W true (XVar z) _ HW (var_at E W true z)).
    + rewrite Z.abs_eq by lia. exact (var_at E W true z).
  - cbn [value]. pose proof (uns_range (dw E z) (val E z) ltac:(lia)). rewrite Z.abs_eq by lia. exact (var_at E W false z).
Qed.
Lemma sign_eq E x y : 1 <= dw E x <= 2 ^ 31 -> 1 <= dw E y <= 2 ^ 31 ->
  holds E (XBin BEq (XPtr x (XPy (dw E x - 1))) (XPtr y (XPy (dw E y - 1)))) = Bool.eqb (value (dw E x) true (val E x) <? 0) (value (dw E y) true (val E y) <? 0).
Proof.
  intros HX HY. unfold holds. rewrite truth_cmp by (unfold comparison; tauto). cbn [swid ssig andb]. change (Z.max 1 1) with 1.
  change (ev E 1 false (XPtr x (XPy (dw E x - 1)))) with (self E (XPtr x (XPy (dw E x - 1)))).
  change (ev E 1 false (XPtr y (XPy (dw E y - 1)))) with (self E (XPtr y (XPy (dw E y - 1)))).
  rewrite !ptr_ok by lia. unfold bit. rewrite !top_bit by lia. cbn [value].
  destruct (sgn (dw E x) _ <? 0), (sgn (dw E y) _ <? 0); reflexivity.
Qed.
Lemma quot_signs x y : y <> 0 -> Z.quot x y = if Bool.eqb (x <? 0) (y <? 0) then Z.quot (Z.abs x) (Z.abs y) else - Z.quot (Z.abs x) (Z.abs y).
Proof.
  intros NZ. destruct (Z.ltb_spec x 0), (Z.ltb_spec y 0); cbn [Bool.eqb].
  - rewrite !Z.abs_neq by lia. rewrite Z.quot_opp_opp by lia. reflexivity.
  - rewrite (Z.abs_neq x), (Z.abs_eq y) by lia. rewrite Z.quot_opp_l by lia. lia.
  - rewrite (Z.abs_eq x), (Z.abs_neq y) by lia. rewrite Z.quot_opp_r by lia. lia.
  - rewrite !Z.abs_eq by lia. reflexivity.
Qed.
Lemma quotient_at E W s a b x y : 1 <= W -> 0 <= x -> 0 < y -> Vx_Spec.fits W s x -> Vx_Spec.fits W s y ->
  is_at E W s a x -> is_at E W s b y -> is_at E W s (XBin BDivide a b) (Z.quot x y).
Proof.
  intros HW X Y FX FY A B. unfold is_at in *. cbn [ev Vx_Sem.arith]. rewrite A, B. rewrite !value_fits by assumption.
  destruct (Z.eqb_spec (y mod 2 ^ W) 0) as [Z0|]; [|reflexivity]. exfalso.
  assert (y < 2 ^ W). { unfold Vx_Spec.fits in FY. pose proof (pow_split W HW). pose proof (pow_pos (W - 1) ltac:(lia)). destruct s; lia. }
  rewrite Z.mod_small in Z0; lia.
Qed.
Lemma divide_at E W s x y lp rp : 1 <= W -> 1 <= dw E x <= 2 ^ 31 -> 1 <= dw E y <= 2 ^ 31 ->
  let xv := value (dw E x) s (val E x) in let yv := value (dw E y) s (val E y) in
  Vx_Spec.fits W s (Z.abs xv) -> Vx_Spec.fits W s (Z.abs yv) -> yv <> 0 -> rp <= lp -> 0 <= rp < 2 ^ 31 ->
  is_at E W s (fe (divide x y (dw E x) (dw E y) lp rp s s)) (Z.quot xv yv * 2 ^ rp) /\ fp (divide x y (dw E x) (dw E y) lp rp s s) = lp.
Proof.
  intros HW HX HY xv yv FX FY NZ P R. unfold divide. cbn [fe fp].
  assert (PT : fmax lp rp = lp) by (unfold fmax; destruct (Z.ltb_spec rp lp); lia). rewrite PT. split; [|reflexivity].
  assert (SZ : (if lp <=? rp then lp else lp - (lp - rp)) = rp) by (destruct (Z.leb_spec lp rp); lia). rewrite SZ.
  rewrite andb_diag.
  pose proof (quotient_at E W s _ _ (Z.abs xv) (Z.abs yv) HW ltac:(lia) ltac:(lia) FX FY (abs_at E W s x HW HX) (abs_at E W s y HW HY)) as Q.
  match goal with |- context[XBin BDivide ?a ?b] => set (q := XBin BDivide a b) in * end.
  assert (D : is_at E W s (if s then mk_mux (XBin BEq (XPtr x (XPy (dw E x - 1))) (XPtr y (XPy (dw E y - 1)))) q (XBin BPlus (XUn UNot q) (XPy 1)) else q) (Z.quot xv yv)).
  { clearbody q. rewrite (quot_signs xv yv NZ). destruct s.
    - unfold is_at. rewrite mk_mux_ev. rewrite sign_eq by assumption. fold xv yv. destruct (Bool.eqb _ _); [exact Q|]. apply comp_at; assumption.
    - assert (0 <= xv /\ 0 <= yv) as [? ?] by (unfold xv, yv; cbn [value]; split; apply uns_range; lia).
      replace (xv <? 0) with false by (symmetry; apply Z.ltb_ge; assumption). replace (yv <? 0) with false by (symmetry; apply Z.ltb_ge; assumption). exact Q. }
  destruct (Z.ltb_spec 0 rp) as [G|G].
  - apply at_sll; first [exact D|lia|apply shift_amount; lia].
  - replace rp with 0 by lia. rewrite Z.mul_1_r. exact D.
Qed.
Lemma divide_value q x y lp rp : y <> 0 -> rp <= lp -> 0 <= rp -> q = Z.quot x y ->
  (Qabs (fval (q * 2 ^ rp) lp - fval x lp / fval y rp) < fval 1 (lp - rp))%Q.
Proof.
  intros NZ P R ->.
  assert (V : (fval (Z.quot x y * 2 ^ rp) lp == fval (Z.quot x y) (lp - rp))%Q).
  { rewrite <- (fval_shift (Z.quot x y) (lp - rp) rp R). replace (lp - rp + rp) with lp by lia. reflexivity. }
  rewrite V.
  assert (Y : ~ (fval y rp == 0)%Q). { intros H. apply NZ. apply (fval_eq y 0 rp). rewrite H, fval_unit. cbn. ring. }
  assert (Y' : (0 < Qabs (fval y rp))%Q).
  { rewrite fval_abs. assert (X : (0 == fval 0 rp)%Q) by (rewrite fval_unit; cbn; ring). rewrite X. apply fval_lt. lia. }
  apply (Qmult_lt_r _ _ _ Y'). rewrite <- Qabs_Qmult.
  assert (D : ((fval (Z.quot x y) (lp - rp) - fval x lp / fval y rp) * fval y rp == fval (Z.quot x y * y - x) lp)%Q).
  { rewrite fval_minus. replace lp with (lp - rp + rp) at 3 by lia. rewrite fval_mult. field. exact Y. }
  assert (T : (fval 1 (lp - rp) * Qabs (fval y rp) == fval (Z.abs y) lp)%Q).
  { rewrite fval_abs, <- fval_mult, Z.mul_1_l. replace (lp - rp + rp) with lp by lia. reflexivity. }
  rewrite D, T, fval_abs, fval_lt. pose proof (Z.quot_rem' x y). pose proof (Z.rem_bound_abs x y NZ). lia.
Qed.
Lemma arith_raw E W s o l r x y d : o = BPlus \/ o = BMinus -> 0 <= W -> Z.abs (fp l - fp r) < 2 ^ 31 ->
  raw E W s (gap (fp l) (fp r)) l x -> raw E W s (gap (fp r) (fp l)) r y ->
  exists z, raw E W s d (arith o l r) z /\ fp (arith o l r) = Z.max (fp l) (fp r) /\
    (fval z (fp (arith o l r)) == match o with BPlus => fval x (fp l) + fval y (fp r) | _ => fval x (fp l) - fval y (fp r) end)%Q.
Proof.
  intros O HW D L R. eexists. split; [|split; [|apply (arith_value o l r x y O)]].
  - apply raw_ex; [intros ? ? ? ?|intros ?|apply arith_at; assumption]; unfold arith; destruct (aligned o l r); discriminate.
  - unfold arith. destruct (aligned o l r). cbn [fp]. unfold fmax. destruct (Z.ltb_spec (fp r) (fp l)); lia.
Qed.
