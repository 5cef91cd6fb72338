(** C45: saturating arithmetic. *)
From Verif Require Import Base Bits Vx_Model Vx_Sem Vx_Spec Vx_Proofs Sat_Model Sat_Spec Sat_Proofs.
Open Scope Z_scope.

Definition vars (f : nat -> Z * bool * Z) : venv := mkEnv (fun x => fst (fst (f x))) (fun x => snd (fst (f x))) (fun x => snd (f x)) 0.
(** [saturate.add] and [saturate.sub] with the default bounds, up to 31 bits, operands of one sign or
    Python ints: the number is the exact result, or the nearest bound, in any wider context, and
    this is what a target of the same width and sign receives. *)
Theorem C45_add_partial : forall E w s l r x y, 1 <= w <= 31 -> operand E s l x -> operand E s r y -> ssig E l && ssig E r = s ->
  signs E l -> signs E r -> let e := add (ds E) l r w None None in
  denotes E s e (saturated w s (x + y)) /\ value w s (assigned E w e) = saturated w s (x + y).
Proof.
  intros E w s l r x y H L R G SL SR. pose proof (hi_small w s H) as (HH & HL & LE).
  destruct (add_whole E s l r x y w None None L R (signs_eq _ _ SL) (signs_eq _ _ SR) G) as (N & S & W); rewrite ?default_lo, ?default_hi; auto.
  { intros ->. reflexivity. }
  rewrite default_lo, default_hi in N. fold (saturated w s (x + y)) in N. cbn zeta.
  split; [apply num_denotes, N|]. rewrite (assigned_num E s w _ (saturated w s (x + y))); auto; [apply sat_value|]; lia.
Qed.
(** The unsigned difference is bounded only from below; so the left operand must fit. *)
Theorem C45_sub_partial : forall E w s l r x y, 1 <= w <= 31 -> operand E s l x -> operand E s r y -> ssig E l && ssig E r = s ->
  signs E l -> signs E r -> (s = false -> x <= highest w s) -> let e := sub (ds E) l r w None None in
  denotes E s e (saturated w s (x - y)) /\ value w s (assigned E w e) = saturated w s (x - y).
Proof.
  intros E w s l r x y H L R G SL SR U. pose proof (hi_small w s H) as (HH & HL & LE).
  destruct (sub_whole E s l r x y w None None L R (signs_eq _ _ SL) (signs_eq _ _ SR) G) as (N & S & W); rewrite ?default_lo, ?default_hi; auto.
  { intros Es. specialize (U Es). destruct (operand_num _ _ _ _ R) as [_ P]. unfold opnd in P. rewrite Es in P. lia. }
  rewrite default_lo, default_hi in N. fold (saturated w s (x - y)) in N. cbn zeta.
  split; [apply num_denotes, N|]. rewrite (assigned_num E s w _ (saturated w s (x - y))); auto; [apply sat_value|]; lia.
Qed.
(** Bounds given by the caller, signed operands. *)
Theorem C45_bounds_partial : forall E w l r x y lo hi, operand E true l x -> operand E true r y -> ssig E l = true -> ssig E r = true ->
  signs E l -> signs E r -> - 2 ^ 30 <= lo <= hi -> hi < 2 ^ 30 ->
  denotes E true (add (ds E) l r w (Some hi) (Some lo)) (clamp lo hi (x + y)) /\
  denotes E true (sub (ds E) l r w (Some hi) (Some lo)) (clamp lo hi (x - y)).
Proof.
  intros E w l r x y lo hi L R GL GR SL SR LO HI.
  assert (O : opnd true false lo /\ opnd true false hi) by (unfold opnd; repeat split; try lia; discriminate). destruct O.
  assert (G : ssig E l && ssig E r = true) by (rewrite GL, GR; reflexivity).
  split; apply num_denotes.
  - apply (add_whole E true l r x y w (Some hi) (Some lo)); auto using signs_eq; cbn [lo_of hi_of]; auto; [lia|discriminate].
  - apply (sub_whole E true l r x y w (Some hi) (Some lo)); auto using signs_eq; cbn [lo_of hi_of]; auto; [lia|discriminate].
Qed.
(** Two Python ints, at any width. *)
Theorem C45_constants : forall sg w a b, 1 <= w -> add sg (XPy a) (XPy b) w None None = XPy (saturated w true (a + b)) /\
  sub sg (XPy a) (XPy b) w None None = XPy (saturated w true (a - b)).
Proof.
  intros sg w a b H. pose proof (pow_pos (w - 1) ltac:(lia)). unfold add, sub, add_, sub_, both, the_max, saturated, clamp, lowest, highest.
  cbn [plus minus neg psig less greater is_py negb andb mk_mux min_of max_of]. split.
  - destruct (Z.ltb_spec a (- b + 2 ^ (w - 1) * -1)); cbn [b2z Z.eqb]; [f_equal; lia|].
    destruct (Z.ltb_spec (2 ^ (w - 1) - 1) (a + b)); cbn [b2z Z.eqb]; f_equal; lia.
  - destruct (Z.ltb_spec a (b + 2 ^ (w - 1) * -1)); cbn [b2z Z.eqb]; [f_equal; lia|].
    destruct (Z.ltb_spec (2 ^ (w - 1) - 1) (a - b)); cbn [b2z Z.eqb]; f_equal; lia.
Qed.
(** [saturate.write] of sums and differences: every operator saturates at the target's width. *)
Theorem C45_write_sum_partial : forall E w s e z, 1 <= w <= 31 -> is_sum e -> sum E w s e z -> signs E e -> built e ->
  exists r, write (ds E) w s e = Some r /\ value w s (assigned E w r) = z /\ lowest w s <= z <= highest w s.
Proof.
  intros E w s e z H S T SG B.
  assert (X : exists r, write (ds E) w s e = Some r).
  { rewrite write_eq. set (mx := Some _). set (mn := Some _). destruct (sat_op_some (ds E) w e B mx mn) as (r & R & _). exists r.
    destruct S as (o & a & b & -> & [-> | ->]); exact R. }
  destruct X as [r R]. exists r. split; [exact R|]. destruct (write_sum E w s e z r H S T SG R) as [_ V]. split; [exact V|].
  pose proof (hi_small w s H) as (_ & _ & LE). inversion T; subst; [contradiction|apply sat_range, LE|apply sat_range, LE].
Qed.
(** [saturate.write] of anything else, of the target's sign or a Python int. *)
Theorem C45_write_value_partial : forall E w s e z, 1 <= w <= 31 -> ~ is_sum e -> operand E s e z -> signs E e ->
  exists r, write (ds E) w s e = Some r /\ value w s (assigned E w r) = saturated w s z.
Proof.
  intros E w s e z H NS O SG. destruct (write_leaf E w s e z H NS O (signs_eq _ _ SG)) as (r & R & _ & V). eauto.
Qed.
(** Variables are operands: [w] bits of sign [s]. *)
Theorem C45_variable : forall E x, 1 <= dw E x <= 31 -> operand E (ds E x) (XVar x) (value (dw E x) (ds E x) (val E x)) /\ signs E (XVar x).
Proof.
  intros E x H. split; [|reflexivity]. apply op_ex; [discriminate|reflexivity| |].
  - intros W HW. cbn [ev]. reflexivity.
  - pose proof (Z.pow_le_mono_r 2 (dw E x) 31 ltac:(lia) ltac:(lia)). pose proof (Z.pow_le_mono_r 2 (dw E x - 1) 30 ltac:(lia) ltac:(lia)).
    destruct (ds E x); cbn [value]; [pose proof (sgn_range (dw E x) (val E x) ltac:(lia))|pose proof (uns_range (dw E x) (val E x) ltac:(lia))]; lia.
Qed.

(** The sign attribute is Verilog's sign for these expressions; it is not for bitwise operators (never
    signed in Python), conditionals, logical shifts, powers and constants without width. *)
Theorem C45_signs_partial : forall E e, plain e -> signs E e.
Proof.
  assert (A : forall E e, plain e -> psig (ds E) e = ssig E e).
  { intros E. induction e; cbn [plain psig ssig]; try (intros; reflexivity); try contradiction.
    - destruct w; [reflexivity|]. destruct base; [reflexivity|]. intros [H|[H|H]]; [congruence|congruence|exact H].
    - destruct o; cbn [psig ssig]; auto; contradiction.
    - destruct o; try contradiction; auto; intros [A B]; rewrite IHe1, IHe2 by assumption; reflexivity. }
  intros E. induction e; intros H; try (apply A; exact H). destruct o; try (apply A; exact H); cbn [plain signs] in *; destruct H; auto.
Qed.
Theorem C45_signs_refuted : exists E e1 e2, psig (ds E) e1 = false /\ ssig E e1 = true /\ psig (ds E) e2 = true /\ ssig E e2 = false.
Proof.
  exists (vars (fun x => (8, match x with O => true | _ => false end, 0))), (XBin BAnd (XVar 0) (XVar 0)), (XCond (XVar 0) (XVar 0) (XVar 1)). repeat split.
Qed.

(** ** Where it fails *)
(** From 32 bits on the sum has wrapped before it is compared: the result is always the wrapped sum. *)
Theorem C45_wide_refuted : forall a b, let E := vars (fun x => (32, false, match x with O => a | _ => b end)) in
  assigned E 32 (add (ds E) (XVar 0) (XVar 1) 32 None None) = (a + b) mod 2 ^ 32.
Proof.
  intros a b E. unfold assigned, add. cbn [plus psig vars ds E snd fst andb add_]. unfold overflow, the_max, max_of. cbn [andb is_py negb greater mk_mux swid ssig].
  change (dw E 0) with 32. change (dw E 1) with 32. cbn [Z.max Z.compare Pos.compare Pos.compare_cont andb].
  assert (R : ev E 32 false (XBin BPlus (XVar 0) (XVar 1)) = (a + b) mod 2 ^ 32).
  { cbn [ev arith value]. change (dw E 0) with 32. change (dw E 1) with 32. change (val E 0) with a. change (val E 1) with b. unfold uns. rewrite !Z.mod_mod by lia. symmetry. apply Z.add_mod. lia. }
  change (ssig E (XCond (XBin BGt (XBin BPlus (XVar 0) (XVar 1)) (XPy (2 ^ 32 - 1))) (XPy (2 ^ 32 - 1)) (XBin BPlus (XVar 0) (XVar 1)))) with false.
  assert (C : self E (XBin BGt (XBin BPlus (XVar 0) (XVar 1)) (XPy (2 ^ 32 - 1))) = 0).
  { unfold self. change (swid E (XBin BGt (XBin BPlus (XVar 0) (XVar 1)) (XPy (2 ^ 32 - 1)))) with 1.
    change (ssig E (XBin BGt (XBin BPlus (XVar 0) (XVar 1)) (XPy (2 ^ 32 - 1)))) with false.
    change (ev E 1 false (XBin BGt (XBin BPlus (XVar 0) (XVar 1)) (XPy (2 ^ 32 - 1)))) with
      (b2z (value 32 false (ev E 32 false (XPy (2 ^ 32 - 1))) <? value 32 false (ev E 32 false (XBin BPlus (XVar 0) (XVar 1))))).
    rewrite R. change (value 32 false (ev E 32 false (XPy (2 ^ 32 - 1)))) with (2 ^ 32 - 1).
    cbn [value]. unfold uns. rewrite Z.mod_mod by lia. pose proof (Z.mod_pos_bound (a + b) (2 ^ 32) ltac:(lia)).
    destruct (Z.ltb_spec (2 ^ 32 - 1) ((a + b) mod 2 ^ 32)); [lia|reflexivity]. }
  change (Z.max 32 (Z.max 32 (Z.max 32 32))) with 32.
  match goal with |- ev E ?W ?S (XCond ?c ?t ?f) mod _ = _ => change (ev E W S (XCond c t f)) with (if self E c =? 0 then ev E W S f else ev E W S t) end.
  rewrite C. cbn [Z.eqb]. change (ds E 0 && ds E 1) with false. rewrite R. apply Z.mod_mod. lia.
Qed.
(** An unsigned value written to a signed target gives the lowest number, whatever the value. *)
Theorem C45_signed_target_refuted : forall a, 0 <= a < 2 ^ 7 -> let E := vars (fun x => (8, false, a)) in
  option_map (fun r => value 8 true (assigned E 8 r)) (write (ds E) 8 true (XVar 0)) = Some (-128).
Proof.
  intros a H E. cbn [write to_saturate single orb is_py psig ds E vars fst snd int_node Z.ltb Z.compare option_map].
  unfold both, the_max. cbn [is_py negb andb less greater mk_mux psig]. f_equal. unfold assigned.
  change (2 ^ (8 - 1) * -1) with (-128). change (2 ^ (8 - 1) - 1) with 127.
  cbn [swid ssig]. unfold int_node. cbn [Z.ltb Z.compare swid wd ssig lit_signed andb].
  change (dw E 0) with 8. change (ds E 0) with false. cbn [andb Z.max Z.compare Pos.compare Pos.compare_cont ev].
  change (dw E 0) with 8. change (ds E 0) with false. cbn [swid ssig wd lit_signed andb compare].
  change (dw E 0) with 8. change (ds E 0) with false. cbn [andb Z.max Z.compare Pos.compare Pos.compare_cont].
  change (value 32 false (lit 32 32 false (-128))) with 4294967168.
  assert (V : value 32 false (value 8 false (val E 0) mod 2 ^ 32) = a).
  { change (val E 0) with a. change (2 ^ 7) with 128 in H. cbn [value]. unfold uns. rewrite (Z.mod_small a (2 ^ 8)), Z.mod_mod by lia. apply Z.mod_small. lia. }
  rewrite V. destruct (Z.ltb_spec a 4294967168); [|change (2 ^ 7) with 128 in H; lia]. cbn [b2z Z.eqb]. reflexivity.
Qed.
(** A negative value written to an unsigned target wraps. *)
Theorem C45_unsigned_target_refuted : let E := vars (fun x => (8, true, 255)) in
  number E (XVar 0) = -1 /\ option_map (assigned E 8) (write (ds E) 8 false (XVar 0)) = Some 255.
Proof. split; vm_compute; reflexivity. Qed.
(** The unsigned difference of wider operands is not bounded from above: 300 - 0 gives 44. *)
Theorem C45_difference_refuted : let E := vars (fun x => (16, false, match x with O => 300 | _ => 0 end)) in
  assigned E 8 (sub (ds E) (XVar 0) (XVar 1) 8 None None) = 44 /\
  option_map (assigned E 8) (write (ds E) 8 false (XBin BMinus (XVar 0) (XVar 1))) = Some 44.
Proof. split; vm_compute; reflexivity. Qed.
(** An unsigned difference written to a signed target: 5 - 3 gives -128. *)
Theorem C45_signed_difference_refuted : let E := vars (fun x => (8, false, match x with O => 5 | _ => 3 end)) in
  option_map (fun r => value 8 true (assigned E 8 r)) (write (ds E) 8 true (XBin BMinus (XVar 0) (XVar 1))) = Some (-128).
Proof. vm_compute; reflexivity. Qed.
(** Unsigned operands: a lower bound for sums and an upper bound for differences have no effect. *)
Theorem C45_bound_refuted : let E := vars (fun x => (8, false, match x with O => 5 | _ => 1 end)) in
  assigned E 8 (add (ds E) (XVar 0) (XVar 1) 8 None (Some 10)) = 6 /\ assigned E 8 (sub (ds E) (XVar 0) (XVar 1) 8 (Some 2) None) = 4.
Proof. split; vm_compute; reflexivity. Qed.
(** [to_saturate] of a signed value without an explicit [min] raises. *)
Theorem C45_to_saturate_refuted : forall sg x w mx, to_saturate sg (XVar x) w mx None true = None.
Proof. reflexivity. Qed.
(** The operands of a difference ignore an explicit [min]: 0 - ((-20) + (-20)) with bounds -10 and 127. *)
Theorem C45_inner_bound_refuted : let E := vars (fun x => (8, true, match x with O => 0 | _ => 236 end)) in
  option_map (fun r => value 8 true (assigned E 8 r)) (to_saturate (ds E) (XBin BMinus (XVar 0) (XBin BPlus (XVar 1) (XVar 1))) 8 (Some 127) (Some (-10)) true) = Some 40.
Proof. vm_compute; reflexivity. Qed.

(** ** Examples *)
Example C45_add_example : let E := vars (fun x => (8, true, match x with O => 156 | _ => 206 end)) in
  operand E true (XVar 0) (-100) /\ operand E true (XVar 1) (-50) /\ value 8 true (assigned E 8 (add (ds E) (XVar 0) (XVar 1) 8 None None)) = -128.
Proof.
  intros E. split; [|split; [|vm_compute; reflexivity]].
  - exact (proj1 (C45_variable E 0 ltac:(cbn; lia))).
  - exact (proj1 (C45_variable E 1 ltac:(cbn; lia))).
Qed.
Example C45_sub_example : let E := vars (fun x => (8, false, match x with O => 100 | _ => 150 end)) in
  assigned E 8 (sub (ds E) (XVar 0) (XVar 1) 8 None None) = 0 /\ assigned E 8 (sub (ds E) (XVar 1) (XVar 0) 8 None None) = 50.
Proof. split; vm_compute; reflexivity. Qed.
Example C45_sum_example : let E := vars (fun x => (8, true, match x with O => 100 | _ => 206 end)) in
  let e := XBin BPlus (XBin BPlus (XVar 0) (XPy 60)) (XVar 1) in
  sum E 8 true e 77 /\ signs E e /\ built e /\ option_map (assigned E 8) (write (ds E) 8 true e) = Some 77.
Proof.
  intros E e. split; [|split; [|split]]; [|cbn; auto|cbn; auto|vm_compute; reflexivity].
  assert (NV : forall f, (f = XPy 60 \/ f = XVar 0 \/ f = XVar 1) -> ~ is_sum f).
  { intros f H (o & a & b & -> & _). destruct H as [H|[H|H]]; discriminate. }
  change 77 with (saturated 8 true (saturated 8 true (100 + 60) + -50)).
  apply sum_plus; [apply sum_plus| |]; try reflexivity.
  - apply sum_leaf; [auto| |discriminate]. exact (proj1 (C45_variable E 0 ltac:(cbn; lia))).
  - apply sum_leaf; [auto| |discriminate]. apply op_py. lia.
  - apply sum_leaf; [auto| |discriminate]. exact (proj1 (C45_variable E 1 ltac:(cbn; lia))).
Qed.
Print Assumptions C45_add_partial. Print Assumptions C45_sub_partial. Print Assumptions C45_bounds_partial. Print Assumptions C45_constants. Print Assumptions C45_write_sum_partial.
Print Assumptions C45_write_value_partial. Print Assumptions C45_variable. Print Assumptions C45_signs_partial. Print Assumptions C45_signs_refuted. Print Assumptions C45_wide_refuted. Print Assumptions C45_signed_target_refuted.
Print Assumptions C45_unsigned_target_refuted. Print Assumptions C45_difference_refuted. Print Assumptions C45_signed_difference_refuted.
Print Assumptions C45_bound_refuted. Print Assumptions C45_to_saturate_refuted. Print Assumptions C45_inner_bound_refuted.
