(** Proofs for the divider. *)
From Verif Require Import Base Bits Div_Model Div_Spec.
Open Scope Z_scope.

Lemma top_bit w x : 1 <= w -> - 2 ^ (w - 1) <= x < 2 ^ (w - 1) -> Z.testbit (x mod 2 ^ w) (w - 1) = (x <? 0).
Proof.
  intros H R. pose proof (pow_split w H) as E. pose proof (pow_pos (w - 1) ltac:(lia)) as P.
  rewrite Z.testbit_odd, Z.shiftr_div_pow2 by lia.
  destruct (Z.ltb_spec x 0) as [N|N].
  - replace (x mod 2 ^ w) with (x + 2 ^ w).
    + replace ((x + 2 ^ w) / 2 ^ (w - 1)) with 1; [reflexivity|]. apply (Z.div_unique _ _ 1 (x + 2 ^ (w - 1))); lia.
    + rewrite <- (Z.mod_small (x + 2 ^ w) (2 ^ w)) by lia. replace (x + 2 ^ w) with (x + 1 * 2 ^ w) by lia. rewrite Z.mod_add by lia. reflexivity.
  - rewrite Z.mod_small by lia. rewrite Z.div_small by lia. reflexivity.
Qed.
Lemma lnot_neg x : Z.lnot x + 1 = - x. Proof. unfold Z.lnot. lia. Qed.
(** restoring division, one bit *)
Lemma div_bit A V : 0 <= A -> 0 < V ->
  (if V <=? A mod (2 * V) then A mod (2 * V) - V else A mod (2 * V)) = A mod V /\
  A / (2 * V) * 2 + b2z (V <=? A mod (2 * V)) = A / V.
Proof.
  intros HA HV. pose proof (Z.div_mod A (2 * V) ltac:(lia)) as E. pose proof (Z.mod_pos_bound A (2 * V) ltac:(lia)) as R.
  set (q := A / (2 * V)) in *. set (r := A mod (2 * V)) in *.
  destruct (Z.leb_spec V r) as [L|L]; cbn [b2z].
  - split; [apply (Z.mod_unique A V (2 * q + 1))|apply (Z.div_unique A V (q * 2 + 1) (r - V))]; lia.
  - split; [apply (Z.mod_unique A V (2 * q))|apply (Z.div_unique A V (q * 2 + 0) r)]; lia.
Qed.

Section Div.
  Variables (W : Z) (sa sb so : bool).
  Hypothesis HW : 1 <= W.
  Lemma Pw : 0 < 2 ^ W. Proof. apply pow_pos; lia. Qed.
  Lemma Pw1 : 0 < 2 ^ (W - 1). Proof. apply pow_pos; lia. Qed.
  Lemma Ew1 : 2 ^ W = 2 * 2 ^ (W - 1). Proof. exact (pow_split W HW). Qed.

  Lemma P2 : 2 ^ (W * 2) = 2 ^ W * 2 ^ W. Proof. replace (W * 2) with (W + W) by lia. apply Z.pow_add_r; lia. Qed.
  Lemma P21 : 2 ^ (W * 2 - 1) = 2 ^ W * 2 ^ (W - 1). Proof. replace (W * 2 - 1) with (W + (W - 1)) by lia. apply Z.pow_add_r; lia. Qed.

  (** signs and magnitudes *)
  Lemma getsign_neg x : getsign W (x mod 2 ^ W) = (sgn W x <? 0).
  Proof.
    unfold getsign. rewrite <- sgn_mod by lia. apply top_bit; [exact HW|]. apply sgn_range, HW.
  Qed.
  Definition mag (s : bool) (x : Z) : Z := if s then Z.abs (sgn W x) else uns W x.
  Lemma absolute_mag x : absolute W (x mod 2 ^ W) = Z.abs (sgn W x).
  Proof.
    pose proof Pw as P; pose proof Pw1 as P1; pose proof Ew1 as E1.
    unfold absolute. rewrite getsign_neg. unfold complement2. rewrite lnot_neg.
    pose proof (sgn_range W x HW) as R. pose proof (sgn_mod W x ltac:(lia)) as M.
    destruct (Z.ltb_spec (sgn W x) 0) as [N|N].
    - rewrite <- M. rewrite <- Z.mod_opp_l_nz || idtac.
      replace (- (sgn W x mod 2 ^ W)) with (- sgn W x + -1 * 2 ^ W).
      + rewrite Z.mod_add by lia. rewrite Z.mod_small by lia. lia.
      + replace (sgn W x mod 2 ^ W) with (sgn W x + 2 ^ W); [lia|].
        rewrite <- (Z.mod_small (sgn W x + 2 ^ W) (2 ^ W)) by lia.
        replace (sgn W x + 2 ^ W) with (sgn W x + 1 * 2 ^ W) by lia. rewrite Z.mod_add by lia. reflexivity.
    - rewrite <- M, Z.mod_small by lia. lia.
  Qed.
  Lemma abs_a_mag x : abs_a W sa (x mod 2 ^ W) = mag sa x.
  Proof. unfold abs_a, mag, uns. destruct sa; [apply absolute_mag|reflexivity]. Qed.
  Lemma abs_b_mag x : abs_b W sb (x mod 2 ^ W) = mag sb x.
  Proof. unfold abs_b, mag, uns. destruct sb; [apply absolute_mag|reflexivity]. Qed.
  Lemma mag_range s x : 0 <= mag s x < 2 ^ W.
  Proof. pose proof Pw as P; pose proof Pw1 as P1; pose proof Ew1 as E1. unfold mag. destruct s; [pose proof (sgn_range W x HW); lia|apply uns_range; lia]. Qed.

  (** ** One operation through the stages *)
  Fixpoint after (k : nat) (g : stage) : stage := match k with O => g | S k => advance W (after k g) end.
  Lemma after_flags k g : g_valid (after k g) = g_valid g /\ g_pa (after k g) = g_pa g /\ g_pb (after k g) = g_pb g.
  Proof. induction k as [|k (A & B & C)]; [auto|]. cbn. auto. Qed.

  Lemma after_load i : let A := mag sa (di_a i) in let B := mag sb (di_b i) in 0 < B ->
    forall k, Z.of_nat k <= W ->
      g_dividend (after k (load W sa sb i)) = A mod (B * 2 ^ (W - Z.of_nat k)) /\
      g_rslt (after k (load W sa sb i)) = A / (B * 2 ^ (W - Z.of_nat k)) /\
      (Z.of_nat k < W -> g_divisor (after k (load W sa sb i)) = B * 2 ^ (W - 1 - Z.of_nat k)).
  Proof.
    pose proof Pw as P; pose proof Pw1 as P1; pose proof Ew1 as E1.
    intros A B HB. pose proof (mag_range sa (di_a i)) as RA. pose proof (mag_range sb (di_b i)) as RB. fold A in RA. fold B in RB.
    induction k as [|k IH]; intros Hk.
    - cbn [after]. unfold load. cbn [g_dividend g_rslt g_divisor]. rewrite abs_a_mag, abs_b_mag. fold A B.
      replace (W - Z.of_nat 0) with W by lia. replace (W - 1 - Z.of_nat 0) with (W - 1) by lia.
      assert (A < B * 2 ^ W) by nia. split; [rewrite Z.mod_small by lia; reflexivity|]. split; [rewrite Z.div_small by lia; reflexivity|].
      intros _. apply Z.mod_small. rewrite P2. clear - RB P P1 E1 HB. nia.
    - destruct (IH ltac:(lia)) as (D & R & V). specialize (V ltac:(lia)). cbn [after]. set (g := after k (load W sa sb i)) in *.
      set (v := B * 2 ^ (W - 1 - Z.of_nat k)) in *.
      assert (E2 : B * 2 ^ (W - Z.of_nat k) = 2 * v).
      { unfold v. replace (W - Z.of_nat k) with (Z.succ (W - 1 - Z.of_nat k)) by lia. rewrite Z.pow_succ_r by lia. lia. }
      assert (Hp : 1 <= 2 ^ (W - 1 - Z.of_nat k) <= 2 ^ (W - 1)).
      { split; [pose proof (pow_pos (W - 1 - Z.of_nat k) ltac:(lia)); lia|apply Z.pow_le_mono_r; lia]. }
      assert (Hv : 0 < v < 2 ^ (W * 2 - 1)) by (rewrite P21; unfold v; clear - HB RB Hp P P1; nia).
      rewrite E2 in D, R. destruct (div_bit A v ltac:(lia) ltac:(lia)) as (B1 & B2).
      assert (RD : 0 <= g_dividend g < 2 ^ (W * 2 - 1)).
      { rewrite D. assert (v2 : 0 < 2 * v) by (clear - Hv; lia). pose proof (Z.mod_pos_bound A (2 * v) v2). pose proof (Z.mod_le A (2 * v) (proj1 RA) v2).
        rewrite P21. clear - H H0 RA P P1. nia. }
      assert (EL : is_large W g = (v <=? A mod (2 * v))).
      { unfold is_large, sub_value. rewrite V. rewrite top_bit by (clear - HW RD Hv; lia). rewrite D. clear. destruct (Z.leb_spec v (A mod (2 * v))), (Z.ltb_spec (A mod (2 * v) - v) 0); cbn; try reflexivity; lia. }
      assert (E3 : B * 2 ^ (W - Z.of_nat (S k)) = v) by (unfold v; do 2 f_equal; lia).
      rewrite E3. unfold advance. cbn [g_dividend g_rslt g_divisor]. rewrite EL. split; [|split].
      + rewrite <- B1. unfold sub_value. rewrite V, D. destruct (Z.leb_spec v (A mod (2 * v))); [|reflexivity].
        apply Z.mod_small. rewrite D in RD. assert (W2 : 1 <= W * 2) by (clear - HW; lia). pose proof (pow_split (W * 2) W2). clear - H H0 RD Hv. lia.
      + rewrite R, B2. apply Z.mod_small. destruct Hv as (Hv & _). split; [apply Z.div_pos; [apply RA|exact Hv]|]. apply Z.le_lt_trans with A.
        * apply Z.div_le_upper_bound; [exact Hv|]. clear - Hv RA. nia.
        * rewrite P2. clear - RA P. nia.
      + intros Hk'. rewrite V. unfold v. replace (W - 1 - Z.of_nat k) with (Z.succ (W - 1 - Z.of_nat (S k))) by lia.
        rewrite Z.pow_succ_r by lia. rewrite Z.shiftr_div_pow2 by lia. change (2 ^ 1) with 2.
        replace (B * (2 * 2 ^ (W - 1 - Z.of_nat (S k)))) with (B * 2 ^ (W - 1 - Z.of_nat (S k)) * 2) by lia. apply Z.div_mul. lia.
  Qed.

  (** the flags of the loaded stage *)
  Lemma load_pa i : g_pa (load W sa sb i) = negb (sgn W (di_a i) <? 0).
  Proof. unfold load. cbn. unfold is_positive. rewrite getsign_neg. reflexivity. Qed.
  Lemma load_pb i : g_pb (load W sa sb i) = negb (sgn W (di_b i) <? 0).
  Proof. unfold load. cbn. unfold is_positive. rewrite getsign_neg. reflexivity. Qed.
  Lemma neg2x x : complement2_2x W x mod 2 ^ W = (- x) mod 2 ^ W.
  Proof. unfold complement2_2x. rewrite lnot_neg. apply mod_mod_le. lia. Qed.
  Definition flip (n : bool) (x : Z) : Z := if n then - x else x.
  Lemma outs_of i : let A := mag sa (di_a i) in let B := mag sb (di_b i) in 0 < B ->
    let na := sgn W (di_a i) <? 0 in let nb := sgn W (di_b i) <? 0 in
    out_rslt W so (after (Z.to_nat W) (load W sa sb i)) = flip (so && xorb na nb) (A / B) mod 2 ^ W /\
    out_mod W so (after (Z.to_nat W) (load W sa sb i)) = flip (so && na) (A mod B) mod 2 ^ W.
  Proof.
    intros A B HB na nb. destruct (after_load i HB (Z.to_nat W) ltac:(lia)) as (D & R & _).
    replace (W - Z.of_nat (Z.to_nat W)) with 0 in D, R by lia. change (2 ^ 0) with 1 in D, R. rewrite Z.mul_1_r in D, R. fold A B in D, R.
    destruct (after_flags (Z.to_nat W) (load W sa sb i)) as (_ & Fa & Fb).
    unfold out_rslt, out_mod. rewrite D, R, Fa, Fb, load_pa, load_pb. fold na nb.
    pose proof (mag_range sb (di_b i)) as RB. fold B in RB. pose proof (Z.mod_pos_bound A B HB) as RM.
    rewrite (Z.mod_small (A mod B) (2 ^ W)) by lia.
    destruct so; [|split; reflexivity]. destruct na, nb; cbn [negb xorb andb Bool.eqb flip]; rewrite ?neg2x; split; reflexivity.
  Qed.

  (** ** The pipeline *)
  Definition sok (gs : list stage) (t : list (Z * Z * bool)) : Prop :=
    forall k a b e, (k < length gs)%nat -> nth_error t k = Some (a, b, e) ->
      nth_error gs k = Some (after k (load W sa sb (mkDivIn false true e a b))).
  Definition qok (gs : list stage) (t : list (Z * Z * bool)) : Prop :=
    forall k g, nth_error t k = None -> nth_error gs k = Some g -> g_valid g = false.
  Lemma shift_length i new gs : length (shift_in W i new gs) = length gs.
  Proof. revert new. induction gs as [|g r IH]; intros new; [reflexivity|]. cbn. rewrite IH. reflexivity. Qed.
  Lemma combine_update i old new : di_rst i = false -> di_update i = true -> combine_stage i old new = new.
  Proof. intros Hr Hu. unfold combine_stage, flags. rewrite Hr, Hu. destruct new; reflexivity. Qed.
  Lemma combine_hold i old new : di_rst i = false -> di_update i = false -> combine_stage i old new = old.
  Proof. intros Hr Hu. unfold combine_stage, flags. rewrite Hr, Hu. destruct old; reflexivity. Qed.
  Lemma shift_update i new gs : di_rst i = false -> di_update i = true ->
    forall k, (k < length gs)%nat -> nth_error (shift_in W i new gs) k =
      match k with O => Some new | S j => option_map (advance W) (nth_error gs j) end.
  Proof.
    intros Hr Hu. revert new. induction gs as [|g r IH]; intros new k Hk; [cbn in Hk; lia|]. cbn [shift_in].
    rewrite combine_update by assumption. destruct k as [|k]; [reflexivity|]. cbn [nth_error]. rewrite IH by (cbn in Hk; lia). destruct k; reflexivity.
  Qed.
  Lemma shift_hold i new gs : di_rst i = false -> di_update i = false -> shift_in W i new gs = gs.
  Proof.
    intros Hr Hu. revert new. induction gs as [|g r IH]; intros new; [reflexivity|]. cbn. rewrite IH, combine_hold by assumption. reflexivity.
  Qed.
  Lemma shift_reset i new gs : di_rst i = true -> forall k g, nth_error (shift_in W i new gs) k = Some g -> g_valid g = false.
  Proof.
    intros Hr. revert new. induction gs as [|g r IH]; intros new k x Hk; [destruct k; discriminate|]. cbn [shift_in] in Hk.
    destruct k as [|k]; [|exact (IH _ _ _ Hk)]. cbn in Hk. inversion Hk. unfold combine_stage, flags. rewrite Hr. reflexivity.
  Qed.
  Lemma load_eq i : load W sa sb i = load W sa sb (mkDivIn false true (di_enable i) (di_a i) (di_b i)). Proof. reflexivity. Qed.

  Lemma pipe_step gs t i : sok gs t -> qok gs t -> sok (shift_in W i (load W sa sb i) gs) (dtape_step t i) /\ qok (shift_in W i (load W sa sb i) gs) (dtape_step t i).
  Proof.
    intros HS HQ. unfold dtape_step. destruct (di_rst i) eqn:Hr.
    - split; [intros k a b e _ H; destruct k; discriminate|]. intros k g _ H. exact (shift_reset i _ gs Hr k g H).
    - destruct (di_update i) eqn:Hu; [|rewrite (shift_hold i _ gs Hr Hu); auto].
      split.
      + intros k a b e Hk H. rewrite shift_length in Hk. rewrite (shift_update i _ gs Hr Hu k Hk). destruct k as [|k].
        * cbn in H. inversion H; subst. reflexivity.
        * cbn in H. rewrite (HS k a b e ltac:(lia) H). reflexivity.
      + intros k g Hn H. assert (Hk : (k < length gs)%nat) by (rewrite <- (shift_length i (load W sa sb i) gs); apply nth_error_Some; congruence).
        rewrite (shift_update i _ gs Hr Hu k Hk) in H. destruct k as [|k]; [discriminate|]. cbn in Hn.
        destruct (nth_error gs k) as [h|] eqn:Eh; [|discriminate]. cbn in H. inversion H; subst. cbn. exact (HQ k h Hn Eh).
  Qed.

  Notation step := (div_step W sa sb so).
  Definition n := Z.to_nat (W + 1).
  Definition dok (s : div) (t : list (Z * Z * bool)) : Prop :=
    length (d_stages s) = n /\ sok (d_stages s) t /\ qok (d_stages s) t /\
    match nth_error t n with
    | Some (a, b, e) => d_valid s = e /\
        let g := after (Z.to_nat W) (load W sa sb (mkDivIn false true e a b)) in
        d_rslt s = out_rslt W so g /\ d_mod s = out_mod W so g
    | None => d_valid s = false
    end.
  Lemma last_stage (gs : list stage) d : length gs = n -> nth_error gs (Z.to_nat W) = Some (last gs d).
  Proof.
    intros L. assert (E : (Z.to_nat W = length gs - 1)%nat) by (unfold n in L; lia). rewrite E.
    assert (H : gs <> []) by (destruct gs; [cbn in L; unfold n in L; lia|discriminate]).
    clear - H. induction gs as [|g r IH]; [congruence|]. destruct r as [|h r]; [reflexivity|].
    replace (length (g :: h :: r) - 1)%nat with (S (length (h :: r) - 1)) by (cbn; lia). cbn [nth_error].
    change (last (g :: h :: r) d) with (last (h :: r) d). apply IH. discriminate.
  Qed.
  Lemma dok_step s t i : dok s t -> dok (step s i) (dtape_step t i).
  Proof.
    intros (L & HS & HQ & HO). destruct (pipe_step (d_stages s) t i HS HQ) as (HS' & HQ').
    split; [cbn; rewrite shift_length; exact L|]. split; [exact HS'|]. split; [exact HQ'|].
    pose proof (last_stage (d_stages s) stage0 L) as EL.
    unfold dtape_step, div_step in *. cbn [d_valid d_rslt d_mod]. destruct (di_rst i).
    - destruct n; reflexivity.
    - destruct (di_update i); [|exact HO].
      assert (En : n = S (Z.to_nat W)) by (unfold n; lia). rewrite En. cbn [nth_error].
      destruct (nth_error t (Z.to_nat W)) as [[[a b] e]|] eqn:Et.
      + rewrite (HS (Z.to_nat W) a b e ltac:(rewrite L, En; lia) Et) in EL. assert (EL' : after (Z.to_nat W) (load W sa sb (mkDivIn false true e a b)) = last (d_stages s) stage0) by congruence. rewrite <- EL'.
        split; [|split; reflexivity]. destruct (after_flags (Z.to_nat W) (load W sa sb (mkDivIn false true e a b))) as (F & _). rewrite F. reflexivity.
      + exact (HQ _ _ Et EL).
  Qed.
  Lemma dok_run ins s t : dok s t -> dok (fold_left step ins s) (fold_left dtape_step ins t).
  Proof. revert s t. induction ins as [|i r IH]; intros s t H; [exact H|]. cbn. apply IH, dok_step, H. Qed.
  Lemma dok_init s : length (d_stages s) = n -> (forall g, In g (d_stages s) -> g_valid g = false) -> d_valid s = false -> dok s [].
  Proof.
    intros L H V. split; [exact L|]. split; [intros k a b e _ X; destruct k; discriminate|].
    split; [intros k g _ X; exact (H g (nth_error_In _ _ X))|]. destruct n; exact V.
  Qed.
End Div.
