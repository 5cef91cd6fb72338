(** C80: reduction by division. *)
From Verif Require Import Base Bits Stream_Model Stream_Spec Mult_Model Reduce_Model Reduce_Spec Reduce_Proofs Reduce_Props Div_Model Div_Spec Div_Proofs Rdiv_Model Rdiv_Spec Rdiv_Proofs.
Open Scope Z_scope.

(** whenever it is not busy, ReduceDiv holds what a one-cycle reduction by the quotient would hold after
    the elements taken, whatever valid and ready do *)
Theorem C80_reduction_partial :
  forall c l, 1 <= a_width c -> a_ops c = [op_div (a_width c) (a_signed c)] ->
    let s := fold_left (div_cycle c (a_signed c)) l (div_init c) in
    Forall (fun i => value (a_width c) (a_signed c) (i_right i) <> 0) (div_taken c (a_signed c) (div_init c) l) ->
    v_ii s = 0 -> v_acc s = acc_run c (div_taken c (a_signed c) (div_init c) l).
Proof.
  intros c l W O s NZ I0. destruct (dinv_run c W O l [] (div_init c) (dinv_init c W) NZ) as (t & _ & [(_ & A)|(R & _)]); [exact A|]. fold s in R. lia.
Qed.
Print Assumptions C80_reduction_partial.

(** it is busy for width + 2 cycles at most, whatever happens meanwhile, and takes nothing then *)
Theorem C80_busy :
  forall c l r, 1 <= a_width c -> a_ops c = [op_div (a_width c) (a_signed c)] ->
    let s := fold_left (div_cycle c (a_signed c)) l (div_init c) in
    Forall (fun i => value (a_width c) (a_signed c) (i_right i) <> 0) (div_taken c (a_signed c) (div_init c) l) ->
    v_ii s <> 0 ->
    0 < a_width c + 3 - v_ii s <= a_width c + 2 /\ (forall y, v_senable s y = false) /\
    (Z.of_nat (length r) = a_width c + 3 - v_ii s -> v_ii (fold_left (div_cycle c (a_signed c)) r s) = 0).
Proof.
  intros c l r W O s NZ B. destruct (dinv_run c W O l [] (div_init c) (dinv_init c W) NZ) as (t & _ & [(Z0 & _)|(R & _)]); [contradiction|]. fold s in R.
  split; [lia|]. split; [intros y; unfold v_senable, v_stall; replace (0 <? v_ii s) with true by (symmetry; apply Z.ltb_lt; lia); apply andb_false_r|].
  intros L. apply (div_ends c W r s R L).
Qed.
Print Assumptions C80_busy.

(** groups: the initial value divided by the elements one after the other *)
Theorem C80_group_partial :
  forall w sg sz en rst n iv l, let c := mkACfg w sg [op_div w sg] sz false en rst iv in
    let s := fold_left (div_cycle c sg) l (div_init c) in let tk := div_taken c sg (div_init c) l in
    1 <= w -> Forall (fun i => value w sg (i_right i) <> 0) tk ->
    size_ok n c tk -> Forall (fun i => i_initval i = iv) tk -> reset_ok en rst tk -> v_ii s = 0 ->
    s_data (v_acc s) = fold_left (fun v x => value w sg (Z.quot (value w sg v) (value w sg x))) (group n en rst tk) (value w sg iv).
Proof.
  intros w sg sz en rst n iv l c s tk W NZ SO I R Z0. pose proof (C80_reduction_partial c l W eq_refl NZ Z0) as E. change (v_acc s = acc_run c tk) in E. rewrite E.
  rewrite (C30_fold c n iv tk eq_refl eq_refl eq_refl SO I R). reflexivity.
Qed.
Print Assumptions C80_group_partial.

(** unsigned: the initial value divided by the product of the group *)
Theorem C80_product_partial :
  forall w sz en rst n iv l, let c := mkACfg w false [op_div w false] sz false en rst iv in
    let s := fold_left (div_cycle c false) l (div_init c) in let tk := div_taken c false (div_init c) l in
    1 <= w -> Forall (fun i => 0 < i_right i < 2 ^ w) tk -> 0 <= iv < 2 ^ w ->
    size_ok n c tk -> Forall (fun i => i_initval i = iv) tk -> reset_ok en rst tk -> v_ii s = 0 ->
    s_data (v_acc s) = iv / product (group n en rst tk).
Proof.
  intros w sz en rst n iv l c s tk W F RI SO I R Z0.
  assert (V : forall x, 0 <= x < 2 ^ w -> value w false x = x) by (intros x Hx; apply (value_small w false x W); exact Hx).
  assert (NZ : Forall (fun i => value w false (i_right i) <> 0) tk) by (eapply Forall_impl; [|exact F]; cbn beta; intros i Hi; rewrite V by lia; lia).
  pose proof (C80_reduction_partial c l W eq_refl NZ Z0) as E. change (v_acc s = acc_run c tk) in E. rewrite E.
  rewrite (C30_fold c n iv tk eq_refl eq_refl eq_refl SO I R). cbn [a_width a_signed a_ops a_enable a_reset c fold_left].
  rewrite (V iv RI). apply (div_group w _ W iv (V iv RI)). apply Forall_forall. intros x Hx.
  assert (IN : exists i, In i tk /\ i_right i = x) by exact (group_in n en rst tk x Hx). destruct IN as (i & Hi & <-). rewrite Forall_forall in F. specialize (F i Hi). split; [apply V; lia|lia].
Qed.
Print Assumptions C80_product_partial.

(** ** Where it goes wrong *)
Definition elem (x : Z) : min := mkMIn true true (mkAIn x 0 0 0 0 false false).
Definition one_div (w : Z) (sg rs : bool) (iv x : Z) : Z :=
  s_data (v_acc (fold_left (div_cycle (mkACfg w sg [op_div w sg] None false false false iv) rs) (repeat (elem x) (Z.to_nat (w + 3)))
    (div_init (mkACfg w sg [op_div w sg] None false false false iv)))).
(** signed elements of an unsigned reduction: 200 by -3 gives 66: neither the quotient of the numbers
    nor the Verilog quotient of the bits *)
Theorem C80_mixed_refuted :
  ~ (forall w iv x, 1 <= w -> value w false iv = iv -> value w true x = x -> x <> 0 ->
       one_div w false true iv x = value w false (Z.quot iv x) \/ one_div w false true iv x = iv / uns w x).
Proof. intros H. destruct (H 8 200 (-3) ltac:(lia) eq_refl eq_refl ltac:(lia)) as [E|E]; vm_compute in E; discriminate. Qed.
Print Assumptions C80_mixed_refuted.
(** fixed point ([point] is that of the elements, [3004]): 3.0 by 2.0 with 4 fraction bits gives 1/16, not 1.5 *)
Theorem C80_point_refuted :
  ~ (forall w p iv x, 1 <= w -> 0 <= p -> value w true iv = iv -> value w true x = x -> x <> 0 ->
       one_div w true true iv x = value w true (Z.quot (iv * 2 ^ p) x)).
Proof. intros H. specialize (H 8 4 48 32 ltac:(lia) ltac:(lia) eq_refl eq_refl ltac:(lia)). vm_compute in H. discriminate. Qed.
Print Assumptions C80_point_refuted.
(** the default initial value is 0 [3351]: all results are 0 *)
Theorem C80_default :
  forall w sg sz en rst n l, let c := mkACfg w sg [op_div w sg] sz false en rst 0 in
    let s := fold_left (div_cycle c sg) l (div_init c) in let tk := div_taken c sg (div_init c) l in
    1 <= w -> Forall (fun i => value w sg (i_right i) <> 0) tk ->
    size_ok n c tk -> Forall (fun i => i_initval i = 0) tk -> reset_ok en rst tk -> v_ii s = 0 -> s_data (v_acc s) = 0.
Proof.
  intros w sg sz en rst n l c s tk W NZ SO I R Z0. pose proof (C80_group_partial w sg sz en rst n 0 l W NZ SO I R Z0) as G. fold c in G. fold s in G. fold tk in G. rewrite G. clear G.
  assert (V0 : value w sg 0 = 0) by (apply (value_small w sg 0 W); pose proof (pow_pos w ltac:(lia)); pose proof (pow_pos (w - 1) ltac:(lia)); destruct sg; lia).
  rewrite V0. induction (group n en rst tk) as [|x r IH]; [reflexivity|].
  cbn [fold_left]. rewrite V0. destruct (Z.eq_dec (value w sg x) 0) as [E|E]; [rewrite E; change (Z.quot 0 0) with 0|rewrite Z.quot_0_l by exact E]; rewrite V0; exact IH.
Qed.
Print Assumptions C80_default.

(** -100 by 3, then by -5, groups of two; then the next group begins; with a bubble and a stall *)
Definition exc := mkACfg 8 true [op_div 8 true] (Some 4) false false false (-100).
Definition exi (v r : bool) (x : Z) := mkMIn v r (mkAIn x 2 0 (-100) 0 false false).
Definition exl := exi false true 1 :: exi true false 1 :: repeat (exi true true 3) 11 ++ repeat (exi true true (-5)) 11.
Example ex_rdiv :
  (let s := fold_left (div_cycle exc true) exl (div_init exc) in v_ii s = 0 /\ s_data (v_acc s) = 6) /\
  map i_right (div_taken exc true (div_init exc) exl) = [3; -5] /\
  Forall (fun i => value 8 true (i_right i) <> 0) (div_taken exc true (div_init exc) exl) /\ size_ok (Some 2%nat) exc (div_taken exc true (div_init exc) exl) /\
  (let s := fold_left (div_cycle exc true) (exl ++ [exi true true 7]) (div_init exc) in v_ii s = 1) /\
  (let s := fold_left (div_cycle exc true) (exl ++ repeat (exi true true 7) 11) (div_init exc) in v_ii s = 0 /\ s_data (v_acc s) = -14).
Proof. vm_compute. repeat split; repeat constructor; try discriminate. Qed.
