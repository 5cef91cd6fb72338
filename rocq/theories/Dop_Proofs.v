(** Proofs about the pipelined operators of the dataflow library. *)
From Coq Require Import QArith Qabs.
From Verif Require Import Base Bits Vx_Model Vx_Sem Vx_Spec Vx_Proofs Fix_Model Fix_Spec Fix_Proofs Tree_Model Mult_Model Mult_Spec Mult_Proofs Div_Model Div_Spec Div_Proofs Sop_Model Sop_Spec Sop_Proofs Dop_Model Dop_Spec.
Open Scope Z_scope.

(** ** Operands: a fixed-point constant is printed like an integer *)
Definition plain (o : operand) : operand := match o with Fxd z _ s => Cst z s | _ => o end.
Lemma plain_wf E o : wf E o -> wf E (plain o). Proof. destruct o; exact (fun H => H). Qed.
Lemma plain_raw E o : oraw E (plain o) = oraw E o. Proof. destruct o; reflexivity. Qed.
Lemma plain_width o : owidth (plain o) = owidth o. Proof. destruct o; reflexivity. Qed.
Lemma plain_signed o : osigned (plain o) = osigned o. Proof. destruct o; reflexivity. Qed.
Lemma plain_data o : ddata o = odata (plain o). Proof. destruct o; reflexivity. Qed.
Lemma plain_obj o : dobj o = obj (plain o). Proof. destruct o; reflexivity. Qed.
Lemma plain_room o d : literal_room (plain o) d <-> literal_room o d. Proof. destruct o; reflexivity. Qed.
Lemma dport_ok E o : wf E o -> dport E o = oraw E o mod 2 ^ owidth o.
Proof. intros H. unfold dport. rewrite plain_data, <- plain_width, <- plain_raw. apply (port_ok E (plain o)), plain_wf, H. Qed.
Lemma dport_value E o : wf E o -> value (owidth o) (osigned o) (dport E o) = oraw E o.
Proof. intros H. rewrite dport_ok by exact H. apply value_fits; [exact (owidth_pos E o H)|exact (oraw_fits E o H)]. Qed.

(** ** Slots *)
Definition flag (t : slots) (k : nat) : bool := match nth_error t k with Some (_, e) => e | None => false end.
Definition slot {A} (d : A) (f : venv -> A) (t : slots) (k : nat) : A := match nth_error t k with Some (E, _) => f E | None => d end.
Lemma shown_flag lat t : shown lat t = flag t (lat - 1). Proof. reflexivity. Qed.
(** a shift register *)
Lemma shift_list {A} (v : list A) n x f : length v = n -> (1 <= n)%nat -> (forall k, (k < n)%nat -> nth_error v k = Some (f k)) ->
  length (x :: removelast v) = n /\ forall k, (k < n)%nat -> nth_error (x :: removelast v) k = Some (match k with O => x | S j => f j end).
Proof.
  intros L N H. split; [cbn [length]; rewrite removelast_length; lia|]. intros [|k] K; [reflexivity|]. cbn [nth_error].
  rewrite removelast_nth by lia. apply H. lia.
Qed.
Lemma last_list {A} (v : list A) n d f : length v = n -> (1 <= n)%nat -> (forall k, (k < n)%nat -> nth_error v k = Some (f k)) -> last v d = f (n - 1)%nat.
Proof. intros L N H. apply last_nth. rewrite L. apply H. lia. Qed.
Lemma repeat_list {A} (x : A) n k : (k < n)%nat -> nth_error (repeat x n) k = Some x.
Proof. apply nth_repeat'. Qed.

(** ** Times *)
Section TimesP.
  Variables (lat : nat) (l r : operand).
  Hypothesis Hlat : (3 <= lat)%nat.
  Hypothesis Hl : 1 <= owidth l.
  Hypothesis Hr : 1 <= owidth r.
  Notation step := (times_step l r).
  Definition tpairs (t : slots) : list (Z * Z) := map (fun x => (dport (fst x) l, dport (fst x) r)) t.
  Definition tprod (E : venv) : Z := prod (owidth l) (owidth r) (osigned l) (osigned r) (dport E l, dport E r).
  Definition tshift (x : Z) : Z :=
    assigned (wire (prod_width l r) (prod_signed l r) x) (prod_width l r)
      (if 0 <? prod_shift l r then fe (shift_right (mkF (XVar 0) 0 (prod_signed l r)) (prod_shift l r) (prod_signed l r)) else XVar 0).
  Definition tinv (s : tst) (t : slots) : Prop :=
    mok (owidth l) (owidth r) (osigned l) (osigned r) (lat - 1) (t_core s) (tpairs t) /\
    (length (t_vals s) = (lat - 1)%nat /\ forall k, (k < lat - 1)%nat -> nth_error (t_vals s) k = Some (flag t k)) /\
    t_valid s = flag t (lat - 1) /\
    (forall E e, nth_error t (lat - 1) = Some (E, e) -> t_odata s = tshift (tprod E)).
  Lemma mok_nil d s : length (p_pipe s) = (d - 1)%nat -> mok (owidth l) (owidth r) (osigned l) (osigned r) d s [].
  Proof. intros L. split; [exact L|]. split; [discriminate|]. intros k x _ H. discriminate. Qed.
  Lemma mok_length d s i : (2 <= d)%nat -> length (p_pipe s) = (d - 1)%nat -> length (p_pipe (mul_step (owidth l) (owidth r) (osigned l) (osigned r) s i)) = (d - 1)%nat.
  Proof. intros D L. unfold mul_step. destruct (mi_update i); [|exact L]. cbn [p_pipe length]. rewrite removelast_length. lia. Qed.
  Lemma tinit c : length (p_pipe c) = (lat - 2)%nat -> tinv (times_init lat c) [].
  Proof.
    intros L. unfold times_init. split; [apply mok_nil; cbn [t_core]; lia|]. cbn [t_vals t_valid t_odata]. split.
    - split; [apply repeat_length|]. intros k K. rewrite repeat_list by exact K. unfold flag. destruct k; reflexivity.
    - split; [unfold flag; destruct (lat - 1)%nat; reflexivity|]. intros E e X. destruct (lat - 1)%nat; discriminate.
  Qed.
  Lemma tinv_step s t i : tinv s t -> tinv (step s i) (slot_step lat t i).
  Proof.
    intros (M & (VL & V) & O & D). unfold slot_step. rewrite shown_flag, <- O. fold (accepts (t_valid s) i). unfold times_step.
    set (a := accepts (t_valid s) i). set (mi := mkMulIn a _ _ _ _).
    destruct (i_rst i) eqn:R.
    - split; [apply mok_nil, mok_length; [lia|apply M]|]. cbn [t_vals t_valid t_odata]. split.
      + unfold valid_step, mi. cbn [mi_rst]. rewrite map_length. split; [exact VL|]. intros k K. rewrite nth_error_map, (V k K). cbn [option_map]. unfold flag. destruct k; reflexivity.
      + split; [unfold flag; destruct (lat - 1)%nat; reflexivity|]. intros E e X. destruct (lat - 1)%nat; discriminate.
    - pose proof (mok_step _ _ (osigned l) (osigned r) Hl Hr (lat - 1) (t_core s) (tpairs t) mi ltac:(lia) M) as M'.
      assert (Eu : mi_update mi = a) by reflexivity. rewrite Eu in M'.
      assert (Ev : valid_step (t_vals s) mi = if a then (a && i_ops i) :: removelast (t_vals s) else t_vals s) by reflexivity. rewrite Ev.
      destruct a eqn:A.
      + split; [exact M'|]. cbn [t_vals t_valid t_odata andb]. destruct (shift_list _ (lat - 1) (i_ops i) _ VL ltac:(lia) V) as [L2 V2]. split; [split; [exact L2|]|split].
        * intros k K. rewrite (V2 k K). destruct k; reflexivity.
        * unfold valid_out. rewrite (last_list _ (lat - 1) false _ VL ltac:(lia) V). replace (lat - 1)%nat with (S (lat - 1 - 1)) at 2 by lia. reflexivity.
        * intros E e X. fold (tshift (mul_out (t_core s))). f_equal. destruct M as (ML & _ & MP). unfold mul_out. apply last_nth. rewrite ML.
          replace (lat - 1)%nat with (S (lat - 1 - 1)) in X by lia. cbn [nth_error] in X. apply MP; [lia|]. unfold tpairs. rewrite nth_error_map.
          replace (S (lat - 1 - 1 - 1)) with (lat - 1 - 1)%nat by lia. rewrite X. reflexivity.
      + split; [exact M'|]. cbn [t_vals t_valid t_odata]. auto.
  Qed.
  Lemma tinv_run ins s t : tinv s t -> tinv (fold_left step ins s) (fold_left (slot_step lat) ins t).
  Proof. revert s t. induction ins as [|i ins IH]; intros s t H; [exact H|]. cbn [fold_left]. apply IH, tinv_step, H. Qed.
End TimesP.
(** the data of a slot are what the stream operator computes *)
Lemma times_data_eq l r s E : wf E l -> wf E r -> 0 <= opoint l -> 0 <= opoint r -> t_odata s = tshift l r (tprod l r E) -> times_data l r s = times E 2 l r.
Proof.
  intros Hl Hr Pl Pr H. unfold times_data. rewrite H. unfold times, tshift.
  assert (P : product E 2 l r = tprod l r E).
  { rewrite product_ok by auto. unfold tprod, prod. cbn [fst snd]. rewrite !dport_value by assumption. reflexivity. }
  rewrite P. unfold prod_width, prod_signed, prod_shift. replace (opoint l + opoint r - times_point l r) with (Z.min (opoint l) (opoint r)) by (unfold times_point; lia). reflexivity.
Qed.

(** ** Divide and Mod *)
Section QuoP.
  Variables (l r : operand) (md : bool).
  Let w := quo_width l r.
  Hypothesis Hw : 1 <= w.
  Definition qlat : nat := Z.to_nat (quo_latency l r).
  Lemma qlat_eq : qlat = (Z.to_nat w + 5)%nat. Proof. unfold qlat, quo_latency. fold w. lia. Qed.
  Definition lreg (E : venv) : Z := assigned E w (fe (fst (quo_vals l r))).
  Definition rreg (E : venv) : Z := assigned E w (fe (snd (quo_vals l r))).
  Definition labs (E : venv) : Z := abs_of l r (osigned l) (lreg E).
  Definition rabs (E : venv) : Z := abs_of l r (osigned r) (rreg E).
  Definition qsign (E : venv) : bool := sign_of l r (lreg E) (rreg E).
  Fixpoint dslots (t : slots) : list (Z * Z * bool) :=
    match t with [] => [] | x :: q => (slot 0 labs q 1, slot 0 rabs q 1, snd x) :: dslots q end.
  Lemma dslots_nth t k : nth_error (dslots t) k = match nth_error t k with Some (_, e) => Some (slot 0 labs t (k + 2), slot 0 rabs t (k + 2), e) | None => None end.
  Proof.
    revert k. induction t as [|[E e] t IH]; intros k; [destruct k; reflexivity|]. destruct k as [|k]; [reflexivity|]. cbn [dslots nth_error]. rewrite IH.
    destruct (nth_error t k) as [[E' e']|]; reflexivity.
  Qed.
  Definition divided (q : Z) (E : venv) : Z := out_of l r (qsign E) q.
  Definition qinv (s : qst) (t : slots) : Prop :=
    (v_l s = slot 0 lreg t 0 /\ v_r s = slot 0 rreg t 0 /\ v_al s = slot 0 labs t 1 /\ v_ar s = slot 0 rabs t 1) /\
    dok w true true true (v_div s) (dslots t) /\
    (length (v_sign s) = (Z.to_nat w + 3)%nat /\ forall k, (k < Z.to_nat w + 3)%nat -> nth_error (v_sign s) k = Some (slot false qsign t (k + 1))) /\
    (length (v_valid s) = 3%nat /\ forall k, (k < 3)%nat -> nth_error (v_valid s) k = Some (flag t (k + (Z.to_nat w + 2)))) /\
    (forall E e, nth_error t (qlat - 1) = Some (E, e) -> 0 < mag w true (rabs E) ->
       let a := mag w true (labs E) in let b := mag w true (rabs E) in
       let na := sgn w (labs E) <? 0 in let nb := sgn w (rabs E) <? 0 in
       v_odata s = divided (if md then flip na (a mod b) mod 2 ^ w else flip (xorb na nb) (a / b) mod 2 ^ w) E).
  Lemma top_zero : top l r 0 = false. Proof. unfold top. apply Z.bits_0. Qed.
  Lemma abs_zero b : abs_of l r b 0 = 0. Proof. unfold abs_of. rewrite top_zero. destruct b; reflexivity. Qed.
  Lemma sign_zero : sign_of l r 0 0 = false. Proof. unfold sign_of. rewrite top_zero. reflexivity. Qed.
  Lemma qinit d : dok w true true true d [] -> qinv (quo_init l r d) [].
  Proof.
    intros D. unfold quo_init. split; [repeat split|]. split; [exact D|]. cbn [v_sign v_valid v_odata]. split; [|split].
    - replace (Z.to_nat (quo_latency l r - 2)) with (Z.to_nat w + 3)%nat by (unfold quo_latency; fold w; lia). split; [apply repeat_length|].
      intros k K. rewrite repeat_list by exact K. unfold slot. rewrite Nat.add_1_r. reflexivity.
    - split; [reflexivity|]. intros k K. rewrite repeat_list by exact K. unfold flag. destruct (k + _)%nat; reflexivity.
    - intros E e X. destruct (qlat - 1)%nat; discriminate.
  Qed.
  Lemma qvalid s t : qinv s t -> quo_valid s = flag t (qlat - 1).
  Proof.
    intros (_ & _ & _ & (VL & V) & _). unfold quo_valid. rewrite (last_list _ 3 false _ VL ltac:(lia) V). f_equal. rewrite qlat_eq. lia.
  Qed.
  Lemma slot_abs b f t : slot 0 (fun E => abs_of l r b (f E)) t 0 = abs_of l r b (slot 0 f t 0).
  Proof. unfold slot. cbn [nth_error]. destruct t as [|[E e] t]; [symmetry; apply abs_zero|reflexivity]. Qed.
  Lemma slot_sign t : slot false qsign t 0 = sign_of l r (slot 0 lreg t 0) (slot 0 rreg t 0).
  Proof. unfold slot. cbn [nth_error]. destruct t as [|[E e] t]; [symmetry; apply sign_zero|reflexivity]. Qed.
  Lemma qinv_step s t i : qinv s t -> qinv (quo_step l r md s i) (slot_step qlat t i).
  Proof.
    intros I. pose proof (qvalid s t I) as QV. destruct I as ((L & R & AL & AR) & D & (SL & SS) & (VL & V) & O). unfold slot_step. rewrite shown_flag, <- QV. fold (accepts (quo_valid s) i).
    unfold quo_step. fold w. set (a := accepts (quo_valid s) i). set (di := mkDivIn _ _ _ _ _).
    pose proof (dok_step w true true true Hw (v_div s) (dslots t) di D) as D'. unfold dtape_step in D'. cbn [di_rst di_update di_a di_b di_enable di] in D'.
    destruct (i_rst i); [apply qinit, D'|]. destruct a eqn:A; cycle 1.
    - split; [auto|]. cbn [v_div v_sign v_valid v_odata]. auto.
    - cbn [andb] in D'. rewrite AL, AR in D'.
      split; [|split; [exact D'|]]; cbn [v_l v_r v_al v_ar v_div v_sign v_valid v_odata].
      { split; [reflexivity|]. split; [reflexivity|]. rewrite L, R. split; symmetry; apply slot_abs. }
      split; [|split].
      + destruct (shift_list _ _ (sign_of l r (v_l s) (v_r s)) _ SL ltac:(lia) SS) as [L2 S2]. split; [exact L2|]. intros k K. rewrite (S2 k K). destruct k as [|k].
        * rewrite L, R, <- slot_sign. reflexivity.
        * reflexivity.
      + destruct (shift_list _ _ (d_valid (v_div s)) _ VL ltac:(lia) V) as [L2 V2]. split; [exact L2|]. intros k K. rewrite (V2 k K). destruct k as [|k]; [|reflexivity].
        destruct D as (_ & _ & _ & D). rewrite dslots_nth in D. unfold n in D. replace (0 + (Z.to_nat w + 2))%nat with (S (Z.to_nat (w + 1))) by lia. unfold flag. cbn [nth_error].
        destruct (nth_error t (Z.to_nat (w + 1))) as [[E e]|]; [destruct D as [-> _]|rewrite D]; reflexivity.
      + intros E e X B. replace (qlat - 1)%nat with (S (Z.to_nat w + 3)) in X by (rewrite qlat_eq; lia). cbn [nth_error] in X.
        destruct D as (_ & _ & _ & D). rewrite dslots_nth in D. unfold n in D.
        assert (Y : slot 0 labs t (Z.to_nat (w + 1) + 2) = labs E /\ slot 0 rabs t (Z.to_nat (w + 1) + 2) = rabs E).
        { unfold slot. replace (Z.to_nat (w + 1) + 2)%nat with (Z.to_nat w + 3)%nat by lia. rewrite X. auto. }
        destruct Y as [Y1 Y2]. rewrite Y1, Y2 in D.
        destruct (nth_error t (Z.to_nat (w + 1))) as [[E' e']|] eqn:T.
        * destruct D as (_ & D1 & D2). destruct (outs_of w true true true Hw (mkDivIn false true e' (labs E) (rabs E)) B) as [O1 O2]. cbn [di_a di_b andb] in O1, O2.
          rewrite (last_list _ _ false _ SL ltac:(lia) SS). replace (Z.to_nat w + 3 - 1 + 1)%nat with (Z.to_nat w + 3)%nat by lia. unfold slot. rewrite X. unfold divided. cbv zeta. f_equal.
          destruct md; [rewrite D2; exact O2|rewrite D1; exact O1].
        * apply nth_error_None in T. assert (nth_error t (Z.to_nat w + 3) <> None) by congruence. apply nth_error_Some in H. lia.
  Qed.
  Lemma qinv_run ins s t : qinv s t -> qinv (fold_left (quo_step l r md) ins s) (fold_left (slot_step qlat) ins t).
  Proof. revert s t. induction ins as [|i ins IH]; intros s t H; [exact H|]. cbn [fold_left]. apply IH, qinv_step, H. Qed.
End QuoP.

(** ** The values in the divider *)
Lemma reg_ok E w o d sg : wf E o -> 0 <= d < 2 ^ 31 -> literal_room o d -> 1 <= w ->
  assigned E w (aligned_data o d sg) = (oraw E o * 2 ^ d) mod 2 ^ w.
Proof.
  intros H D L W. unfold assigned. apply aligned_ev; auto; [lia|rewrite aligned_sign by assumption; auto|]. rewrite aligned_sign by assumption.
  destruct (entered_signed o d) eqn:S; [auto|]. right. left. unfold entered_signed in S. destruct o; [apply (unprinted_nonneg E _ H), S| |];
    destruct (d =? 0); try discriminate; apply (unprinted_nonneg E _ H), S.
Qed.
Section Values.
  Variables (l r : operand) (E : venv).
  Let w := quo_width l r.
  Let gl := gap (opoint l) (opoint r).
  Let A := oraw E l * 2 ^ gl.
  Let B := oraw E r.
  Hypothesis Hl : wf E l.
  Hypothesis Hr : wf E r.
  Hypothesis Hg : Z.abs (opoint l - opoint r) < 2 ^ 31.
  Hypothesis Lr : literal_room l gl.
  Lemma w_pos : 1 <= w. Proof. exact (proj2 (common_width_l E l r Hl)). Qed.
  Lemma A_fits : Vx_Spec.fits w (osigned l) A.
  Proof.
    pose proof (fits_scale _ _ _ gl gl (owidth_pos E l Hl) ltac:(unfold gl, gap; lia) (oraw_fits E l Hl)) as Q. fold A in Q. pose proof (owidth_pos E l Hl).
    destruct (common_width_l E l r Hl) as [W _]. fold gl in W. change (common_width l r) with w in W. assert (0 <= gl) by (unfold gl, gap; lia).
    apply (fits_widen (owidth l + gl) (osigned l)); auto; [lia|]. intros S. rewrite S in Q. apply Q.
  Qed.
  Lemma B_fits : Vx_Spec.fits w (osigned r) B.
  Proof.
    pose proof (owidth_pos E r Hr). destruct (common_width_l E r l Hr) as [W _]. rewrite common_width_comm in W. change (common_width l r) with w in W. unfold gap in W.
    apply (fits_widen (owidth r) (osigned r)); auto; [lia|exact (oraw_fits E r Hr)|]. intros S. exact (unsigned_nonneg E r Hr S).
  Qed.
  Lemma lreg_ok : lreg l r E = A mod 2 ^ w.
  Proof.
    pose proof w_pos as W. unfold lreg, quo_vals. fold w. destruct (gap_range _ _ Hg) as [Gl _]. fold gl in Gl.
    destruct (Z.leb_spec (opoint l) (opoint r)) as [P|P].
    - rewrite adjust_gap. fold gl. cbn [fst]. rewrite plain_obj. rewrite (aligned_eq E (plain l) gl).
      + rewrite reg_ok; auto; [unfold A; rewrite plain_raw; reflexivity|apply plain_wf, Hl|apply plain_room, Lr].
      + apply plain_wf, Hl.
      + rewrite plain_signed. intros X. apply andb_prop in X. apply X.
    - cbn [fst]. assert (G0 : gl = 0) by (unfold gl, gap; lia). unfold A. rewrite G0. unfold dobj. cbn [fe]. rewrite plain_data.
      change (odata (plain l)) with (aligned_data (plain l) 0 false). rewrite reg_ok; auto; [rewrite plain_raw; reflexivity|apply plain_wf, Hl|lia|destruct l; cbn; auto].
  Qed.
  Lemma rreg_ok : rreg l r E = B mod 2 ^ w.
  Proof.
    pose proof w_pos as W. assert (Z : forall sg, assigned E w (aligned_data (plain r) 0 sg) = B mod 2 ^ w).
    { intros sg. rewrite reg_ok; auto; [rewrite plain_raw, Z.mul_1_r; reflexivity|apply plain_wf, Hr|lia|destruct r; cbn; auto]. }
    unfold rreg, quo_vals. fold w. destruct (Z.leb_spec (opoint l) (opoint r)) as [P|P].
    - rewrite adjust_gap. replace (gap (opoint r) (opoint l)) with 0 by (unfold gap; lia). cbn [snd]. rewrite plain_obj. rewrite (aligned_eq E (plain r) 0); [apply Z|apply plain_wf, Hr|].
      rewrite plain_signed. intros X. apply andb_prop in X. apply X.
    - cbn [snd]. unfold dobj. cbn [fe]. rewrite plain_data. exact (Z false).
  Qed.
  Lemma quo_shift_eq : quo_shift l r = opoint r.
  Proof. unfold quo_shift. destruct (Z.leb_spec (opoint l) (opoint r)); lia. Qed.

  (** magnitudes below half the range *)
  Hypothesis RA : Z.abs A < 2 ^ (w - 1).
  Hypothesis RB : Z.abs B < 2 ^ (w - 1).
  Lemma top_of x : Z.abs x < 2 ^ (w - 1) -> top l r (x mod 2 ^ w) = (x <? 0).
  Proof. intros H. unfold top. fold w. apply top_bit; [exact w_pos|lia]. Qed.
  Lemma abs_ok' x sg : Z.abs x < 2 ^ (w - 1) -> sg = true \/ 0 <= x -> abs_of l r sg (x mod 2 ^ w) = Z.abs x.
  Proof.
    intros H C. pose proof w_pos as W. pose proof (pow_split w W) as P. pose proof (pow_pos (w - 1) ltac:(lia)) as P1. unfold abs_of. rewrite top_of by exact H. fold w.
    destruct sg; [|destruct C as [C|C]; [discriminate|rewrite Z.mod_small; lia]]. destruct (Z.ltb_spec x 0) as [N|N]; cbn [negb].
    - rewrite lnot_neg. rewrite <- (Z.mod_small (Z.abs x) (2 ^ w)) by lia. rewrite Z.abs_neq by lia. rewrite <- Z.sub_0_l, Zminus_mod_idemp_r; f_equal; lia.
    - rewrite Z.mod_small; lia.
  Qed.
  Lemma labs_ok : labs l r E = Z.abs A.
  Proof. unfold labs. rewrite lreg_ok. apply abs_ok'; [exact RA|]. pose proof A_fits as F. destruct (osigned l); [auto|right; apply F]. Qed.
  Lemma rabs_ok : rabs l r E = Z.abs B.
  Proof. unfold rabs. rewrite rreg_ok. apply abs_ok'; [exact RB|]. pose proof B_fits as F. destruct (osigned r); [auto|right; apply F]. Qed.
  Lemma sign_ok : qsign l r E = xorb (A <? 0) (B <? 0).
  Proof. unfold qsign, sign_of. rewrite lreg_ok, rreg_ok, !top_of by assumption. destruct (A <? 0), (B <? 0); reflexivity. Qed.
  Lemma half_sgn x : Z.abs x < 2 ^ (w - 1) -> sgn w (Z.abs x) = Z.abs x.
  Proof. intros H. apply sgn_small; [exact w_pos|lia]. Qed.
  Lemma divided_ok q : 0 <= opoint r -> quo_signed l r = true \/ (0 <= A /\ 0 <= B) ->
    divided l r (q mod 2 ^ w) E = ((if xorb (A <? 0) (B <? 0) then - q else q) * 2 ^ opoint r) mod 2 ^ w.
  Proof.
    intros P C. pose proof w_pos as W. unfold divided, out_of. rewrite sign_ok, quo_shift_eq. fold w.
    assert (Sh : (if 0 <? opoint r then q mod 2 ^ w * 2 ^ opoint r else q mod 2 ^ w) = q mod 2 ^ w * 2 ^ opoint r).
    { destruct (Z.ltb_spec 0 (opoint r)); [reflexivity|]. replace (opoint r) with 0 by lia. rewrite Z.mul_1_r. reflexivity. }
    rewrite Sh. pose proof (pow_nz w ltac:(lia)) as N. destruct (quo_signed l r).
    - destruct (xorb (A <? 0) (B <? 0)); cbn [negb]; [|apply Z.mul_mod_idemp_l, N]. rewrite lnot_neg, Z.mul_opp_l.
      rewrite <- (Z.sub_0_l (_ * _)), Zminus_mod, Z.mul_mod_idemp_l, <- Zminus_mod, Z.sub_0_l by exact N. reflexivity.
    - destruct C as [C|[C1 C2]]; [discriminate|]. replace (A <? 0) with false by (symmetry; apply Z.ltb_ge, C1). replace (B <? 0) with false by (symmetry; apply Z.ltb_ge, C2). apply Z.mul_mod_idemp_l, N.
  Qed.
  Lemma signed_quot : B <> 0 -> (if xorb (A <? 0) (B <? 0) then - (Z.abs A / Z.abs B) else Z.abs A / Z.abs B) = Z.quot A B.
  Proof.
    intros N. rewrite Z.quot_div by exact N. assert (Q0 : A = 0 -> Z.abs A / Z.abs B = 0) by (intros ->; apply Z.div_0_l; lia).
    generalize dependent (Z.abs A / Z.abs B). intros q Q0. clear - N Q0. destruct A, B; cbn [Z.ltb Z.compare xorb Z.sgn]; try (rewrite Q0 by reflexivity); lia.
  Qed.
  Lemma signed_rem : 0 < B -> (if xorb (A <? 0) (B <? 0) then - (Z.abs A mod Z.abs B) else Z.abs A mod Z.abs B) = Z.rem A B.
  Proof.
    intros N. rewrite Z.rem_mod by lia. assert (Q0 : A = 0 -> Z.abs A mod Z.abs B = 0) by (intros ->; apply Z.mod_0_l; lia).
    generalize dependent (Z.abs A mod Z.abs B). intros q Q0. clear - N Q0. destruct A, B; cbn [Z.ltb Z.compare xorb Z.sgn]; try (rewrite Q0 by reflexivity); lia.
  Qed.
  (** the numbers *)
  Lemma quot_number : B <> 0 -> let p := common_point l r in
    truncated (p - opoint r) (number E l) (number E r) (fval (Z.quot A B) (p - opoint r)) (fval (Z.rem A B) p).
  Proof.
    intros N p. assert (X : (number E l == fval A p)%Q) by (unfold number, A; symmetry; apply common_point_gap).
    assert (Y : forall z, (fval z (p - opoint r) * fval B (opoint r) == fval (z * B) p)%Q).
    { intros z. rewrite <- fval_mult. replace (p - opoint r + opoint r) with p by lia. reflexivity. }
    unfold truncated. split; [exists (Z.quot A B); reflexivity|]. unfold number at 2 3. fold B. rewrite X. split; [|split].
    - rewrite Y, <- fval_plus. apply fval_eq. pose proof (Z.quot_rem' A B). lia.
    - rewrite !fval_abs, Qmult_comm. rewrite <- fval_mult. replace (p - opoint r + opoint r) with p by lia. rewrite Z.mul_1_l. apply fval_lt. pose proof (Z.rem_bound_abs A B N). lia.
    - rewrite <- fval_mult. setoid_replace 0%Q with (fval 0 (p + p)) by (symmetry; unfold fval; ring). apply fval_le. exact (Z.rem_sign_mul A B N).
  Qed.
End Values.

(** ** Abs and Sign *)
Lemma compare_zero E o x w p : Fix_Spec.comparison o -> wf E (Sig x w p true) -> 0 <= p < 2 ^ 31 ->
  stored E (compare_op o (Sig x w p true) (Cst 0 true)) = b2z (qcompare o (number E (Sig x w p true)) 0).
Proof.
  intros O H P. assert (G : gap p 0 = 0) by (unfold gap; lia). destruct H as (H1 & H2 & H3).
  rewrite (compare_op_ok E o (Sig x w p true) (Cst 0 true) O); cbn [opoint oraw wf literal_room]; auto; try lia.
  - rewrite G. rewrite Z.mul_1_r. cbn [printed_width entered_signed andb]. set (W := Z.max _ _). 
    assert (Es : (if gap 0 p =? 0 then printed_signed (Cst 0 true) else true) = true) by (destruct (gap 0 p =? 0); reflexivity). rewrite Es. apply (fits_widen w true W true); [unfold W; lia|exact (sgn_range w _ H1)|auto|discriminate].
  - rewrite Z.mul_0_l. set (s := _ && _). set (W := Z.max _ _). assert (1 <= W) by (unfold W; cbn [printed_width]; lia).
    unfold Vx_Spec.fits. pose proof (pow_pos (W - 1) ltac:(lia)). pose proof (pow_pos W ltac:(lia)). destruct s; lia.
Qed.
Lemma dabs_ok E x w p s : wf E (Sig x w p s) -> 0 <= p < 2 ^ 31 -> dabs E (Sig x w p s) = Z.abs (oraw E (Sig x w p s)) mod 2 ^ w.
Proof.
  intros H P. unfold dabs. cbn [osigned]. destruct s; cbn [negb].
  - rewrite compare_zero by (auto; left; reflexivity). rewrite unary_ok by (auto; right; left; reflexivity). cbn [owidth odata opoint].
    set (v := oraw E (Sig x w p true)). set (E' := mkEnv _ _ _ _). pose proof H as (H1 & H2 & H3). pose proof (oraw_fits E _ H) as F. fold v in F. cbn [owidth osigned] in F.
    assert (W0 : wf E' (Sig 0 1 0 false)) by (repeat split; lia). assert (W1 : wf E' (Sig 1 w p true)) by (repeat split; auto). assert (W2 : wf E' (Sig 2 w p true)) by (repeat split; auto).
    rewrite (cond_ok E' (Sig 0 1 0 false) (Sig 1 w p true) (Sig 2 w p true) W0 W1 W2) by (left; reflexivity).
    assert (CW : common_width (Sig 1 w p true) (Sig 2 w p true) = w) by (unfold common_width, common_point; cbn [owidth opoint]; lia). rewrite CW.
    assert (C : oraw E' (Sig 0 1 0 false) = b2z (v <? 0)).
    { cbn [oraw E' Vx_Sem.val]. unfold value, uns, qcompare. unfold number. cbn [opoint]. fold v.
      assert (Q : Qle_bool 0 (fval v p) = negb (v <? 0)).
      { destruct (Qle_bool 0 (fval v p)) eqn:Q; symmetry.
        - apply Qle_bool_iff in Q. setoid_replace 0%Q with (fval 0 p) in Q by (unfold fval; ring). apply fval_le in Q. destruct (Z.ltb_spec v 0); [lia|reflexivity].
        - apply negb_false_iff, Z.ltb_lt. apply Znot_ge_lt. intros G. assert (Qle_bool 0 (fval v p) = true); [|congruence]. apply Qle_bool_iff. setoid_replace 0%Q with (fval 0 p) by (unfold fval; ring). apply fval_le. lia. }
      rewrite Q, negb_involutive. destruct (v <? 0); reflexivity. }
    rewrite C. destruct (Z.ltb_spec v 0) as [N|N]; cbn [b2z Z.eqb oraw E' Vx_Sem.val].
    + rewrite value_mod by lia. rewrite Z.mod_mod by (apply pow_nz; lia). f_equal. lia.
    + rewrite value_mod by lia. change (assigned E w (XVar x)) with (port E (owidth (Sig x w p true)) (Sig x w p true)). rewrite port_ok by exact H. fold v. cbn [owidth].
      rewrite Z.mod_mod by (apply pow_nz; lia). f_equal. lia.
  - rewrite unary_ok by auto. cbn [owidth]. rewrite Z.abs_eq; [reflexivity|]. exact (unsigned_nonneg E _ H eq_refl).
Qed.
