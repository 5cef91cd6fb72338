(** Theorems about the pipelined operators of the dataflow library. *)
From Coq Require Import QArith Qabs.
From Verif Require Import Base Bits Vx_Model Vx_Sem Vx_Spec Vx_Proofs Fix_Model Fix_Spec Fix_Proofs Tree_Model Mult_Model Div_Model Div_Proofs Div_Props Sop_Model Sop_Spec Sop_Proofs Dop_Model Dop_Spec Dop_Proofs.
Open Scope Z_scope.

(** ** C70: each pipelined operator is a pipeline of as many slots as its latency, and shows the result
    of the operands of its last slot *)

(** Times: rounded down to the point of the result, modulo its range; any latency, any stalls *)
Theorem C70_times_partial lat l r c ins : (3 <= lat)%nat -> 1 <= owidth l -> 1 <= owidth r -> length (p_pipe c) = (lat - 2)%nat ->
  let s := fold_left (times_step l r) ins (times_init lat c) in
  t_valid s = shown lat (slots_of lat ins) /\
  forall E e, nth_error (slots_of lat ins) (lat - 1) = Some (E, e) -> wf E l -> wf E r -> 0 <= opoint l < 2 ^ 31 -> 0 <= opoint r < 2 ^ 31 ->
    let p := Z.max (opoint l) (opoint r) in let w := Z.max (owidth l) (owidth r) in let sg := both_signed l r in
    sg = true \/ 0 <= oraw E l * oraw E r \/ Z.min (opoint l) (opoint r) <= Z.min (owidth l) (owidth r) ->
    exists z, times_data l r s = z mod 2 ^ w /\ (fval z p <= number E l * number E r < fval (z + 1) p)%Q /\
      (Vx_Spec.fits w sg z -> value w sg (times_data l r s) = z).
Proof.
  intros Hlat Hl Hr L s. destruct (tinv_run lat l r Hlat Hl Hr ins _ _ (tinit lat l r Hlat c L)) as (_ & _ & V & D). fold s in V, D. split; [exact V|].
  intros E e T Wl Wr Pl Pr p w sg C. rewrite (times_data_eq l r s E Wl Wr ltac:(lia) ltac:(lia) (D E e T)).
  assert (Sz : opoint l + opoint r - times_point l r = Z.min (opoint l) (opoint r)) by (unfold times_point; lia).
  assert (Pt : times_point l r = p) by (unfold p; lia).
  pose proof (times_ok' E 2 l r (le_n 2) Wl Wr) as H. cbv zeta in H. rewrite Sz in H. specialize (H ltac:(clear - Pl; lia) C). change (times_width l r) with w in H.
  exists ((oraw E l * oraw E r) / 2 ^ Z.min (opoint l) (opoint r)). split; [exact H|]. split.
  - unfold number. rewrite <- fval_mult. pose proof (fval_drop (oraw E l * oraw E r) p (Z.min (opoint l) (opoint r)) ltac:(clear - Pl Pr; lia)) as F.
    replace (p + Z.min (opoint l) (opoint r)) with (opoint l + opoint r) in F by (unfold p; clear; lia). exact F.
  - intros F. rewrite H. apply value_fits; [unfold w; clear - Hl; lia|exact F].
Qed.
Print Assumptions C70_times_partial.
(** signals of the same sign: no further condition *)
Theorem C70_times_signals lat x lw lp y rw rp sg c ins : (3 <= lat)%nat -> 0 <= lp < 2 ^ 31 -> 0 <= rp < 2 ^ 31 -> 1 <= lw -> 1 <= rw -> length (p_pipe c) = (lat - 2)%nat ->
  let l := Sig x lw lp sg in let r := Sig y rw rp sg in let s := fold_left (times_step l r) ins (times_init lat c) in
  forall E e, nth_error (slots_of lat ins) (lat - 1) = Some (E, e) -> wf E l -> wf E r ->
    let p := Z.max lp rp in let w := Z.max lw rw in
    exists z, times_data l r s = z mod 2 ^ w /\ (fval z p <= number E l * number E r < fval (z + 1) p)%Q /\ (Vx_Spec.fits w sg z -> value w sg (times_data l r s) = z).
Proof.
  intros Hlat Pl Pr Hl Hr L l r s E e T Wl Wr p w. destruct (C70_times_partial lat l r c ins Hlat Hl Hr L) as [_ H]. specialize (H E e T Wl Wr Pl Pr). cbv zeta in H.
  replace (both_signed l r) with sg in H by (unfold both_signed, l, r; cbn [osigned]; now rewrite andb_diag). apply H.
  destruct sg; [left; reflexivity|]. right. left. apply Z.mul_nonneg_nonneg; [exact (unsigned_nonneg E l Wl eq_refl)|exact (unsigned_nonneg E r Wr eq_refl)].
Qed.
Print Assumptions C70_times_signals.

(** Divide and Mod: the valid bit, whatever the operands *)
Theorem C70_divider_valid l r md d ins : let w := common_width l r in 1 <= w -> idle w d ->
  quo_valid (fold_left (quo_step l r md) ins (quo_init l r d)) = shown (Z.to_nat (w + 5)) (slots_of (Z.to_nat (w + 5)) ins).
Proof.
  intros w W (L & V & D). pose proof (dok_init w true true true d L V D) as K.
  pose proof (qinv_run l r md W ins _ _ (qinit l r md W d K)) as Q. exact (qvalid l r md W _ _ Q).
Qed.
Print Assumptions C70_divider_valid.
(** Divide: the quotient, truncated toward zero to as many fraction bits as the left operand has more
    than the right one.  Partial: magnitudes below half the range, no operand negative unless both
    are signed; see the refutations below. *)
Theorem C70_divide_partial l r d ins : let w := common_width l r in let lat := Z.to_nat (w + 5) in 1 <= w -> idle w d ->
  let s := fold_left (quo_step l r false) ins (quo_init l r d) in
  forall E e, nth_error (slots_of lat ins) (lat - 1) = Some (E, e) -> wf E l -> wf E r -> Z.abs (opoint l - opoint r) < 2 ^ 31 -> 0 <= opoint r ->
    let g := gap (opoint l) (opoint r) in literal_room l g ->
    Z.abs (oraw E l * 2 ^ g) < 2 ^ (w - 1) -> Z.abs (oraw E r) < 2 ^ (w - 1) -> oraw E r <> 0 ->
    both_signed l r = true \/ (0 <= oraw E l /\ 0 <= oraw E r) ->
    let p := common_point l r in let k := p - opoint r in let sg := both_signed l r in
    exists z m, v_odata s = (z * 2 ^ opoint r) mod 2 ^ w /\ truncated k (number E l) (number E r) (fval z k) m /\
      (Vx_Spec.fits w sg (z * 2 ^ opoint r) -> (number_of w p sg (v_odata s) == fval z k)%Q).
Proof.
  intros w lat W (L & V & D) s E e T Wl Wr G P g R RA RB N C p k sg. pose proof (dok_init w true true true d L V D) as K.
  destruct (qinv_run l r false W ins _ _ (qinit l r false W d K)) as (_ & _ & _ & _ & O). fold s in O. specialize (O E e T). cbv zeta in O.
  rewrite (labs_ok l r E), (rabs_ok l r E) in O by assumption. change (quo_width l r) with w in O. unfold mag in O.
  rewrite !(half_sgn l r E Wl) in O by assumption. fold g in O. rewrite !Z.abs_involutive in O. specialize (O ltac:(clear - N; lia)).
  assert (Na : (Z.abs (oraw E l * 2 ^ g) <? 0) = false) by (apply Z.ltb_ge, Z.abs_nonneg). assert (Nb : (Z.abs (oraw E r) <? 0) = false) by (apply Z.ltb_ge, Z.abs_nonneg). rewrite Na, Nb in O. cbn [xorb flip] in O.
  assert (C' : quo_signed l r = true \/ (0 <= oraw E l * 2 ^ g /\ 0 <= oraw E r)).
  { destruct C as [C|[C1 C2]]; [left; exact C|right]. split; [apply Z.mul_nonneg_nonneg; [exact C1|apply Z.pow_nonneg; lia]|exact C2]. }
  rewrite (divided_ok l r E) in O by assumption. unfold g in O. rewrite (signed_quot l r E) in O by assumption. fold g in O. change (quo_width l r) with w in O.
  exists (Z.quot (oraw E l * 2 ^ g) (oraw E r)), (fval (Z.rem (oraw E l * 2 ^ g) (oraw E r)) p). split; [exact O|]. split; [exact (quot_number l r E N)|].
  intros F. unfold number_of. rewrite O, value_fits by assumption. replace p with (k + opoint r) by (unfold k; lia). apply fval_shift, P.
Qed.
Print Assumptions C70_divide_partial.
(** Mod: what is left of the left number.  Partial: besides the conditions of Divide, the right operand
    must be a positive whole number. *)
Theorem C70_mod_partial l r d ins : let w := common_width l r in let lat := Z.to_nat (w + 5) in 1 <= w -> idle w d ->
  let s := fold_left (quo_step l r true) ins (quo_init l r d) in
  forall E e, nth_error (slots_of lat ins) (lat - 1) = Some (E, e) -> wf E l -> wf E r -> Z.abs (opoint l - opoint r) < 2 ^ 31 -> opoint r = 0 ->
    let g := gap (opoint l) (opoint r) in literal_room l g ->
    Z.abs (oraw E l * 2 ^ g) < 2 ^ (w - 1) -> 0 < oraw E r < 2 ^ (w - 1) ->
    both_signed l r = true \/ 0 <= oraw E l ->
    let p := common_point l r in
    exists q, truncated p (number E l) (number E r) q (number_of w p (both_signed l r) (v_odata s)).
Proof.
  intros w lat W (L & V & D) s E e T Wl Wr G P g R RA RB C p. pose proof (dok_init w true true true d L V D) as K.
  destruct (qinv_run l r true W ins _ _ (qinit l r true W d K)) as (_ & _ & _ & _ & O). fold s in O. specialize (O E e T). cbv zeta in O.
  assert (RB' : Z.abs (oraw E r) < 2 ^ (quo_width l r - 1)) by (change (quo_width l r) with w; clear - RB; lia).
  rewrite (labs_ok l r E), (rabs_ok l r E) in O by assumption. unfold mag in O.
  rewrite !(half_sgn l r E Wl) in O by assumption. fold g in O. change (quo_width l r) with w in O. rewrite !Z.abs_involutive in O. specialize (O ltac:(clear - RB; lia)).
  assert (Na : (Z.abs (oraw E l * 2 ^ g) <? 0) = false) by (apply Z.ltb_ge, Z.abs_nonneg). rewrite Na in O. cbn [flip] in O.
  assert (C' : quo_signed l r = true \/ (0 <= oraw E l * 2 ^ g /\ 0 <= oraw E r)).
  { destruct C as [C|C1]; [left; exact C|right]. split; [apply Z.mul_nonneg_nonneg; [exact C1|apply Z.pow_nonneg; lia]|lia]. }
  assert (P' : 0 <= opoint r) by (clear - P; lia). rewrite (divided_ok l r E) in O by assumption. unfold g in O. rewrite (signed_rem l r E) in O by (assumption || apply RB). fold g in O. change (quo_width l r) with w in O.
  rewrite P, Z.mul_1_r in O. exists (fval (Z.quot (oraw E l * 2 ^ g) (oraw E r)) p).
  assert (F : number_of w p (both_signed l r) (v_odata s) = fval (Z.rem (oraw E l * 2 ^ g) (oraw E r)) p).
  { unfold number_of. rewrite O. f_equal. apply value_fits; [exact W|]. pose proof (Z.rem_bound_abs (oraw E l * 2 ^ g) (oraw E r) ltac:(lia)) as Bd.
    unfold Vx_Spec.fits. destruct (both_signed l r) eqn:S; [clear - Bd RB; lia|]. destruct C as [C|C]; [discriminate|]. pose proof (Z.rem_nonneg (oraw E l * 2 ^ g) (oraw E r) ltac:(lia)) as N.
    destruct C' as [C'|C']; [unfold quo_signed in C'; congruence|]. specialize (N (proj1 C')). pose proof (pow_split w W) as Pw. clear - N Bd RB Pw. lia. }
  rewrite F. pose proof (quot_number l r E ltac:(lia)) as H. cbv zeta in H. fold g p in H. replace (p - opoint r) with p in H by lia. exact H.
Qed.
Print Assumptions C70_mod_partial.

(** ** What fails: one pair of operands held through a divider of 8 bits *)
Definition sig2 (w p : Z) (sg : bool) (a b : Z) : venv := mkEnv (fun _ => w) (fun _ => sg) (fun k => match k with O => a | _ => b end) 0.
Definition held (w p : Z) (sg md : bool) (a b : Z) : Z :=
  let l := Sig 0 w p sg in let r := Sig 1 w p sg in
  v_odata (fold_left (quo_step l r md) (repeat (mkCyc false true true (sig2 w p sg a b)) (Z.to_nat (w + 5)))
             (quo_init l r (mkDiv (repeat stage0 (Z.to_nat (w + 1))) 0 0 false))).
(** unsigned operands: 200 / 10 comes out as 251, since the divider takes its inputs as signed *)
Theorem C70_divide_unsigned_refuted :
  ~ (forall w p a b, 1 <= w -> 0 <= a < 2 ^ w -> 0 < b < 2 ^ w -> p = 0 -> held w p false false a b = a / b).
Proof.
  intros H. specialize (H 8 0 200 10 ltac:(lia) ltac:(vm_compute; split; congruence) ltac:(vm_compute; split; congruence) eq_refl).
  vm_compute in H. discriminate.
Qed.
Print Assumptions C70_divide_unsigned_refuted.
Example C70_divide_unsigned_values :
  map (fun x => held 8 0 false false (fst x) (snd x)) [(200, 10); (200, 200); (10, 200); (255, 3)] = [251; 1; 0; 0].
Proof. vm_compute. reflexivity. Qed.
(** the most negative number: -128 / 2 comes out as +64 *)
Theorem C70_divide_minimum_refuted :
  ~ (forall w p a b, 1 <= w -> - 2 ^ (w - 1) <= a < 2 ^ (w - 1) -> 0 < b < 2 ^ (w - 1) -> p = 0 -> sgn w (held w p true false (a mod 2 ^ w) b) = Z.quot a b).
Proof.
  intros H. specialize (H 8 0 (-128) 2 ltac:(lia) ltac:(vm_compute; split; congruence) ltac:(vm_compute; split; congruence) eq_refl).
  vm_compute in H. discriminate.
Qed.
Print Assumptions C70_divide_minimum_refuted.
(** the remainder gets the sign of the quotient: -7 mod -2 comes out as +1; truncated division leaves
    -1, as does Python's *)
Theorem C70_mod_sign_refuted :
  ~ (forall w p a b, 1 <= w -> - 2 ^ (w - 1) < a < 2 ^ (w - 1) -> - 2 ^ (w - 1) < b < 2 ^ (w - 1) -> b <> 0 -> p = 0 ->
       sgn w (held w p true true (a mod 2 ^ w) (b mod 2 ^ w)) = Z.rem a b \/ sgn w (held w p true true (a mod 2 ^ w) (b mod 2 ^ w)) = Z.modulo a b).
Proof.
  intros H. specialize (H 8 0 (-7) (-2) ltac:(lia) ltac:(vm_compute; split; congruence) ltac:(vm_compute; split; congruence) ltac:(lia) eq_refl).
  vm_compute in H. destruct H; discriminate.
Qed.
Print Assumptions C70_mod_sign_refuted.
(** the remainder is shifted like a quotient: 1.5 mod 1.0 with one fraction bit comes out as 1.0 *)
Theorem C70_mod_point_refuted :
  ~ (forall w p a b, 1 <= w -> 0 < a < 2 ^ (w - 1) -> 0 < b < 2 ^ (w - 1) -> 0 <= p -> held w p true true a b = a mod b).
Proof.
  intros H. specialize (H 8 1 3 2 ltac:(lia) ltac:(vm_compute; split; congruence) ltac:(vm_compute; split; congruence) ltac:(lia)).
  vm_compute in H. discriminate.
Qed.
Print Assumptions C70_mod_point_refuted.

(** ** Abs and Sign of a signal *)
Theorem C70_abs_partial E x w p s : wf E (Sig x w p s) -> 0 <= p < 2 ^ 31 -> oraw E (Sig x w p s) <> - 2 ^ (w - 1) ->
  (number_of w p s (dabs E (Sig x w p s)) == Qabs (number E (Sig x w p s)))%Q.
Proof.
  intros H P N. unfold number_of, number. rewrite dabs_ok by assumption. rewrite fval_abs. cbn [opoint]. pose proof (oraw_fits E _ H) as F. cbn [owidth osigned] in F.
  rewrite value_fits; [reflexivity|apply H|]. unfold Vx_Spec.fits in *. destruct s; lia.
Qed.
Print Assumptions C70_abs_partial.
Theorem C70_sign E x w p s : wf E (Sig x w p s) -> 0 <= p < 2 ^ 31 -> dsgn E (Sig x w p s) = b2z (Qle_bool 0 (number E (Sig x w p s))).
Proof.
  intros H P. unfold dsgn. cbn [osigned]. destruct s; cbn [negb].
  - rewrite compare_zero; [reflexivity|right; right; right; left; reflexivity|exact H|exact P].
  - pose proof (unsigned_nonneg E _ H eq_refl) as N. replace (Qle_bool 0 (number E (Sig x w p false))) with true; [reflexivity|]. symmetry. apply Qle_bool_iff.
    unfold number. setoid_replace 0%Q with (fval 0 p) by (unfold fval; ring). apply fval_le, N.
Qed.
Print Assumptions C70_sign.

(** ** Cases *)
(** three different operand pairs in a row with a stall at the end of the pipeline: -7.0 / 2.5 and 6.5 / 3.25,
    left with 3 fraction bits, right with 2 *)
Definition ex_env (a b : Z) : venv := mkEnv (fun k => match k with O => 9 | _ => 6 end) (fun _ => true) (fun k => match k with O => a mod 2 ^ 9 | _ => b mod 2 ^ 6 end) 0.
Definition ex_l := Sig 0 9 3 true.
Definition ex_r := Sig 1 6 2 true.
Definition ex_ins := mkCyc false true true (ex_env 3 3) :: mkCyc true true true (ex_env 9 9) ::
  mkCyc false true true (ex_env (-56) 10) :: mkCyc false false false (ex_env 1 1) :: mkCyc false true true (ex_env 52 13) ::
  repeat (mkCyc false true false (ex_env 0 1)) 11 ++ [mkCyc false false true (ex_env 2 2)].
Example C70_divide_ex :
  common_width ex_l ex_r = 9 /\ slots_of 14 (ex_ins ++ []) <> [] /\
  match nth_error (slots_of 14 ex_ins) 13 with Some (E, e) => e = true /\ oraw E ex_l = -56 /\ oraw E ex_r = 10 | None => False end /\
  (let s := fold_left (quo_step ex_l ex_r false) ex_ins (quo_init ex_l ex_r (mkDiv (repeat stage0 10) 0 0 false)) in
   quo_valid s = true /\ value 9 true (v_odata s) = -20) /\                                     (* -20/8 = -2.5: -7/2.5 = -2.8 *)
  (let s := fold_left (quo_step ex_l ex_r false) (ex_ins ++ repeat (mkCyc false true false (ex_env 0 1)) 2) (quo_init ex_l ex_r (mkDiv (repeat stage0 10) 0 0 false)) in
   quo_valid s = true /\ value 9 true (v_odata s) = 16).                                         (* 2.0 *)
Proof. vm_compute. repeat split; try discriminate. Qed.
Example C70_mod_ex :
  held 8 0 true true (-17 mod 2 ^ 8) 5 = (-2) mod 2 ^ 8 /\ held 8 0 false true 100 7 = 2 /\ held 8 0 false false 100 7 = 14.
Proof. vm_compute. repeat split. Qed.
Example C70_times_ex :
  let ins := [mkCyc false true true (ex_env (-56) 10); mkCyc false true false (ex_env 5 5); mkCyc false true true (ex_env 52 13); mkCyc false false true (ex_env 1 1)] in
  let s := fold_left (times_step ex_l ex_r) ins (times_init 3 (mkMul 7 7 [9])) in
  t_valid s = true /\ nth_error (slots_of 3 ins) 2 = Some (ex_env (-56) 10, true) /\ value 9 true (times_data ex_l ex_r s) = -140.   (* -140/8 = -17.5 *)
Proof. vm_compute. repeat split. Qed.
Example C70_abs_ex : dabs (ex_env (-56) 10) ex_l = 56 /\ dsgn (ex_env (-56) 10) ex_l = 0 /\ dsgn (ex_env (-56) 10) ex_r = 1.
Proof. vm_compute. repeat split. Qed.
