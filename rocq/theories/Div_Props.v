(** C18: pipelined divider. *)
From Verif Require Import Base Bits Div_Model Div_Spec Div_Proofs.
Open Scope Z_scope.

(** registers of a divider of width [W] with no operation marked valid *)
Definition idle (W : Z) (s : div) : Prop :=
  length (d_stages s) = Z.to_nat (W + 1) /\ (forall g, In g (d_stages s) -> g_valid g = false) /\ d_valid s = false.

(** Both operands and the result signed (also the divider of the dataflow library): quotient and
    remainder of division truncated toward zero. *)
Theorem C18_signed_partial :
  forall W s ins, 1 <= W -> idle W s ->
    let s' := fold_left (div_step W true true true) ins s in
    match nth_error (dtape ins) (Z.to_nat (W + 1)) with
    | Some (a, b, e) => d_valid s' = e /\ (sgn W b <> 0 ->
        d_rslt s' = (Z.quot (sgn W a) (sgn W b)) mod 2 ^ W /\ d_mod s' = (Z.rem (sgn W a) (sgn W b)) mod 2 ^ W)
    | None => d_valid s' = false
    end.
Proof.
  intros W s ins HW (L & V & D) s'.
  destruct (dok_run W true true true HW ins s [] (dok_init W true true true s L V D)) as (_ & _ & _ & H).
  fold s' in H. fold (dtape ins) in H. unfold n in H. destruct (nth_error (dtape ins) (Z.to_nat (W + 1))) as [[[a b] e]|]; [|exact H].
  destruct H as (Hv & Hr & Hm). split; [exact Hv|]. intros Hb.
  destruct (outs_of W true true true HW (mkDivIn false true e a b)) as (Or & Om); [unfold mag; cbn; lia|].
  rewrite Hr, Hm. cbn [di_a di_b] in Or, Om. unfold mag in Or, Om. rewrite Or, Om.
  rewrite Z.quot_div, Z.rem_mod by exact Hb. clear - Hb.
  assert (Q0 : sgn W a = 0 -> Z.abs (sgn W a) / Z.abs (sgn W b) = 0) by (intros ->; apply Z.div_0_l; lia).
  assert (M0 : sgn W a = 0 -> Z.abs (sgn W a) mod Z.abs (sgn W b) = 0) by (intros ->; apply Z.mod_0_l; lia).
  revert Q0 M0. generalize (Z.abs (sgn W a) / Z.abs (sgn W b)), (Z.abs (sgn W a) mod Z.abs (sgn W b)).
  revert Hb. generalize (sgn W a), (sgn W b). intros x y Hb q m Q0 M0.
  destruct x as [|x|x], y as [|y|y]; try (exfalso; apply Hb; reflexivity); cbn [Z.ltb Z.compare Z.sgn andb xorb flip];
    rewrite ?Q0, ?M0 by reflexivity; split; f_equal; ring.
Qed.
Print Assumptions C18_signed_partial.

Theorem C18_unsigned_partial :
  forall W s ins, 1 <= W -> idle W s ->
    let s' := fold_left (div_step W false false false) ins s in
    match nth_error (dtape ins) (Z.to_nat (W + 1)) with
    | Some (a, b, e) => d_valid s' = e /\ (uns W b <> 0 -> d_rslt s' = uns W a / uns W b /\ d_mod s' = uns W a mod uns W b)
    | None => d_valid s' = false
    end.
Proof.
  intros W s ins HW (L & V & D) s'.
  destruct (dok_run W false false false HW ins s [] (dok_init W false false false s L V D)) as (_ & _ & _ & H).
  fold s' in H. fold (dtape ins) in H. unfold n in H. destruct (nth_error (dtape ins) (Z.to_nat (W + 1))) as [[[a b] e]|]; [|exact H].
  destruct H as (Hv & Hr & Hm). split; [exact Hv|]. intros Hb.
  pose proof (uns_range W a ltac:(lia)) as Ra. pose proof (uns_range W b ltac:(lia)) as Rb.
  destruct (outs_of W false false false HW (mkDivIn false true e a b)) as (Or & Om); [unfold mag; cbn; lia|].
  rewrite Hr, Hm. cbn [di_a di_b andb flip] in Or, Om. unfold mag in Or, Om. rewrite Or, Om.
  pose proof (Z.mod_pos_bound (uns W a) (uns W b) ltac:(lia)).
  assert (0 <= uns W a / uns W b <= uns W a).
  { split; [apply Z.div_pos; lia|]. apply Z.div_le_upper_bound; [lia|]. nia. }
  split; apply Z.mod_small; lia.
Qed.
Print Assumptions C18_unsigned_partial.

(** Mixed operands are divided as magnitudes and the result is not given a sign: with a signed left
    operand, an unsigned right one and (as the stream operator then requests) an unsigned result,
    -6 / 3 comes out as 2.  It is neither the quotient of the values (-2, i.e. 254) nor the
    Verilog unsigned quotient 250 / 3 = 83. *)
Theorem C18_mixed_refuted :
  ~ (forall W s ins a b e, 1 <= W -> idle W s ->
       nth_error (dtape ins) (Z.to_nat (W + 1)) = Some (a, b, e) -> uns W b <> 0 ->
       d_rslt (fold_left (div_step W true false false) ins s) = Z.quot (sgn W a) (uns W b) mod 2 ^ W \/
       d_rslt (fold_left (div_step W true false false) ins s) = uns W a / uns W b).
Proof.
  intros H.
  specialize (H 8 (mkDiv (repeat stage0 9) 0 0 false) (mkDivIn false true true 250 3 :: repeat (mkDivIn false true false 0 0) 9) 250 3 true ltac:(lia)).
  destruct H as [H|H].
  - split; [reflexivity|]. split; [|reflexivity]. intros g Hg. apply repeat_spec in Hg. subst g. reflexivity.
  - vm_compute. reflexivity.
  - vm_compute. discriminate.
  - vm_compute in H. discriminate.
  - vm_compute in H. discriminate.
Qed.
Print Assumptions C18_mixed_refuted.

(** Example: -7 / 2 at width 4 with a stalled cycle and an earlier reset. *)
Definition dv u e a b := mkDivIn false u e a b.
Definition ex_ins := [mkDivIn true true true 1 1; dv true true 9 2; dv false true 5 5; dv true false 8 15; dv true true 3 0; dv true true 7 13; dv true true 0 1; dv true true 0 1].
Example ex_div :
  nth_error (dtape ex_ins) 5 = Some (9, 2, true) /\ sgn 4 9 = -7 /\
  (let s' := fold_left (div_step 4 true true true) ex_ins (mkDiv (repeat stage0 5) 0 0 false) in
   sgn 4 (d_rslt s') = -3 /\ sgn 4 (d_mod s') = -1 /\ d_valid s' = true) /\
  (let s' := fold_left (div_step 4 true true true) (ex_ins ++ [dv true true 0 1]) (mkDiv (repeat stage0 5) 0 0 false) in
   d_valid s' = false /\ d_rslt s' = 8).
Proof. vm_compute. repeat split. Qed.
