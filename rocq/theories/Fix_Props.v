(** * C44: fixed-point conversion and arithmetic *)
From Coq Require Import QArith Qabs.
From Verif Require Import Base Bits Vx_Model Vx_Sem Vx_Spec Fix_Model Fix_Spec Fix_Proofs.
Open Scope Z_scope.

(** ** Conversion of Python numbers *)
(** The result is within 2^-point, not further from zero, and exact if the number is representable. *)
Theorem C44_convert : forall v p r, to_fixed v p = NInt r ->
  (Qabs (fval r p - qnum v) < fval 1 p)%Q /\ (Qabs (fval r p) <= Qabs (qnum v))%Q /\ (forall z, (qnum v == fval z p)%Q -> r = z).
Proof. exact to_fixed_ok. Qed.
(** There is a result, but for floats at point 0. *)
Theorem C44_convert_total : forall v p, p <> 0 \/ (exists z, v = NInt z) -> exists r, to_fixed v p = NInt r.
Proof.
  intros v p H. unfold to_fixed. destruct (p <? 0); [destruct v; eauto|]. destruct (Z.eqb_spec p 0) as [P|P]; [|destruct v; eauto].
  destruct H as [H|[z ->]]; [contradiction|eauto].
Qed.
(** A constant is an [Int] of the converted number at the point asked for. *)
Theorem C44_constant : forall v p sg f, const v p sg false = Some f ->
  exists r b, to_fixed v p = NInt r /\ fe f = XInt r None None b /\ fp f = p /\
    (forall E W s d, room s r -> room s (r * 2 ^ d) -> raw E W s d f r).
Proof.
  intros v p sg f H. unfold const in H. destruct (to_fixed v p) as [r|]; [|discriminate]. injection H as <-.
  exists r. eexists. split; [reflexivity|]. split; [reflexivity|]. split; [reflexivity|]. intros E W s d R1 R2. eapply raw_int; [reflexivity| |]; assumption.
Qed.
(** At point 0 a float stays a float, and is rejected as a constant: 2.5 has no FixedConst of point 0. *)
Theorem C44_convert_zero_refuted : to_fixed (NFloat 5 1) 0 = NFloat 5 1 /\ const (NFloat 5 1) 0 true false = None.
Proof. split; reflexivity. Qed.

(** [fixed_to_int] rounds down, [fixed_to_int_low] is the rest. *)
Theorem C44_integer : forall z p i, fixed_to_int z p = Some i ->
  (inject_Z i <= fval z p)%Q /\ (fval z p < inject_Z (i + 1))%Q /\ (fval z p == inject_Z i + fval (fixed_to_int_low z p) p)%Q.
Proof.
  intros z p i H. unfold fixed_to_int, fixed_to_int_low in *. destruct (Z.ltb_spec p 0) as [|P]; [discriminate|].
  assert (Hi : i = z / 2 ^ p /\ (if p =? 0 then 0 else z mod 2 ^ p) = z mod 2 ^ p).
  { destruct (Z.eqb_spec p 0) as [->|]; injection H as <-; [|auto]. rewrite Z.div_1_r, Z.mod_1_r. auto. }
  destruct Hi as [-> ->]. split; [|split; [|apply parts_value, P]];
    rewrite <- fval_zero; destruct (fval_drop z 0 p P) as [A B]; rewrite Z.add_0_l in A, B; assumption.
Qed.
Theorem C44_integer_total : forall z p, 0 <= p -> exists i, fixed_to_int z p = Some i.
Proof. intros z p H. unfold fixed_to_int. destruct (Z.ltb_spec p 0); [lia|]. destruct (p =? 0); eauto. Qed.
(** With a negative point [fixed_to_int] raises NameError. *)
Theorem C44_negative_point_refuted : forall z p, p < 0 -> fixed_to_int z p = None.
Proof. intros z p H. unfold fixed_to_int. destruct (Z.ltb_spec p 0); [reflexivity|lia]. Qed.
(** Representable values survive a round trip. *)
Theorem C44_round_trip : forall z p, (forall v, fixed_to_real z p = Some v -> (qnum v == fval z p)%Q /\ to_fixed v p = NInt z) /\
  (0 <= p -> forall r, to_fixed (NInt z) p = NInt r -> fixed_to_int r p = Some z).
Proof.
  intros z p. split.
  - unfold fixed_to_real. destruct (Z.ltb_spec 0 p) as [P|P]; [|discriminate]. intros v [= <-].
    assert (Q : (qnum (NFloat z (Z.to_nat p)) == fval z p)%Q) by (cbn [qnum]; rewrite Z2Nat.id by lia; reflexivity).
    split; [exact Q|]. destruct (C44_convert_total (NFloat z (Z.to_nat p)) p ltac:(left; lia)) as [r R].
    destruct (to_fixed_ok _ _ _ R) as (_ & _ & X). rewrite (X _ Q) in R. exact R.
  - intros P r R. unfold to_fixed, fixed_to_int in *. destruct (Z.ltb_spec p 0) as [|_]; [lia|]. destruct (Z.eqb_spec p 0) as [->|N].
    + injection R as <-. reflexivity.
    + injection R as <-. rewrite Z.div_mul by (pose proof (pow_pos p P); lia). reflexivity.
Qed.

(** ** Operators on signals, in any context of width W and sign s *)
(** Variables have their contents as raw value. *)
Theorem C44_variable : forall E W s d x p sg, raw E W s d (variable x p sg) (value (dw E x) s (val E x)).
Proof. intros. apply raw_ex; [discriminate|discriminate|]. apply var_at. Qed.
Theorem C44_pattern : forall E W s d f z, raw E W s d f z -> ev E W s (fe f) = z mod 2 ^ W.
Proof. intros. eapply raw_at; eassumption. Qed.
(** Sums and differences are exact at the larger point. *)
Theorem C44_add : forall E W s l r x y d, 0 <= W -> Z.abs (fp l - fp r) < 2 ^ 31 ->
  raw E W s (gap (fp l) (fp r)) l x -> raw E W s (gap (fp r) (fp l)) r y ->
  exists z, raw E W s d (arith BPlus l r) z /\ fp (arith BPlus l r) = Z.max (fp l) (fp r) /\
    (fval z (fp (arith BPlus l r)) == fval x (fp l) + fval y (fp r))%Q.
Proof. intros E W s l r x y d. apply (arith_raw E W s BPlus). auto. Qed.
Theorem C44_sub : forall E W s l r x y d, 0 <= W -> Z.abs (fp l - fp r) < 2 ^ 31 ->
  raw E W s (gap (fp l) (fp r)) l x -> raw E W s (gap (fp r) (fp l)) r y ->
  exists z, raw E W s d (arith BMinus l r) z /\ fp (arith BMinus l r) = Z.max (fp l) (fp r) /\
    (fval z (fp (arith BMinus l r)) == fval x (fp l) - fval y (fp r))%Q.
Proof. intros E W s l r x y d. apply (arith_raw E W s BMinus). auto. Qed.
Theorem C44_negate : forall E W s f x d, 0 <= W -> is_at E W s (fe f) x -> raw E W s d (uminus f) (- x) /\ (fval (- x) (fp (uminus f)) == - fval x (fp f))%Q.
Proof. intros E W s f x d HW A. split; [|apply fval_opp]. apply raw_ex; [discriminate|discriminate|]. apply at_neg; assumption. Qed.
(** Comparisons are exact if the aligned values fit the larger of the two widths. *)
Theorem C44_compare_partial : forall E o l r x y, comparison o -> Z.abs (fp l - fp r) < 2 ^ 31 ->
  let W := Z.max (swid E (fe l)) (swid E (fe r)) in let s := ssig E (fe l) && ssig E (fe r) in 1 <= W ->
  raw E W s (gap (fp l) (fp r)) l x -> raw E W s (gap (fp r) (fp l)) r y ->
  fits W s (x * 2 ^ gap (fp l) (fp r)) -> fits W s (y * 2 ^ gap (fp r) (fp l)) ->
  truth E (fe (arith o l r)) = qcompare o (fval x (fp l)) (fval y (fp r)).
Proof. exact compare_ok. Qed.
(** ... and not if they do not: 12 at point 0 is below 1.0 at point 4, with 8 bits each. *)
Theorem C44_compare_refuted : let E := mkEnv (fun _ => 8) (fun _ => true) (fun x => match x with O => 12 | _ => 16 end) 0 in
  truth E (fe (arith BLt (variable 0 0 true) (variable 1 4 true))) = true /\ qcompare BLt (fval 12 0) (fval 16 4) = false.
Proof. split; vm_compute; reflexivity. Qed.
(** A product that fits the context loses less than one unit of its point, downwards. *)
Theorem C44_times_partial : forall E W s l r x y, 1 <= W -> let p := fp (times l r) in fp l + fp r - p < 2 ^ 31 ->
  raw E W s 0 l x -> raw E W s 0 r y -> fits W s (x * y) -> (fs l && fs r = false -> 0 <= x * y) ->
  exists z, is_at E W s (fe (times l r)) z /\
    (fval z p <= fval x (fp l) * fval y (fp r))%Q /\ (fval x (fp l) * fval y (fp r) < fval (z + 1) p)%Q.
Proof. exact times_ok. Qed.
Theorem C44_times_point : forall l r, 0 <= fp l -> 0 <= fp r -> fp (times l r) = Z.max (fp l) (fp r).
Proof. intros l r L R. unfold times, fmin, fmax. cbn [fp]. destruct (Z.ltb_spec (fp r) (fp l)); destruct (_ <? _) eqn:C; try apply Z.ltb_ge in C; lia. Qed.
(** The context is as wide as the target: 2.0 * 3.0 stored with 16 bits, point 8, is 0. *)
Theorem C44_times_refuted : let E := mkEnv (fun _ => 16) (fun _ => true) (fun x => match x with O => 512 | _ => 768 end) 0 in
  let p := times (variable 0 8 true) (variable 1 8 true) in
  assigned E 16 (fe (write_adjust p 8)) = 0 /\ (fval 512 8 * fval 768 8 == 6)%Q /\ fits 16 true (6 * 256).
Proof. split; [vm_compute; reflexivity|]. split; [reflexivity|]. cbn; lia. Qed.
(** Assignment to a variable of another point rounds down, and is exact to a larger point. *)
Theorem C44_write : forall E w v point x, 1 <= w -> let W := Z.max w (swid E (fe v)) in let s := ssig E (fe v) in
  Z.abs (fp v - point) < 2 ^ 31 -> raw E W s (gap (fp v) point) v x -> fits W s x -> (fs v = false -> 0 <= x) ->
  exists r, assigned E w (fe (write_adjust v point)) = r mod 2 ^ w /\
    (fval r point <= fval x (fp v))%Q /\ (fval x (fp v) < fval (r + 1) point)%Q /\ (fp v <= point -> (fval r point == fval x (fp v))%Q).
Proof. exact write_ok. Qed.
(** Integer and fraction parts add up to the value. *)
Theorem C44_parts : forall E W s v x, 1 <= W -> 0 <= fp v <= W -> W < 2 ^ 31 -> is_at E W s (fe v) x -> fits W s x ->
  exists i f, is_at E W s (int_part v) i /\ is_at E W s (dec_part v) f /\ 0 <= f < 2 ^ fp v /\ (fval x (fp v) == inject_Z i + fval f (fp v))%Q.
Proof.
  intros E W s v x HW P B A F. exists (x / 2 ^ fp v), (x mod 2 ^ fp v).
  split; [apply int_part_ok; auto; lia|]. split; [apply dec_part_ok; auto; lia|].
  split; [apply Z.mod_pos_bound, pow_pos; lia|apply parts_value; lia].
Qed.
(** Shifts by an integer multiply and divide by powers of two. *)
Theorem C44_shift : forall E W s l x n, 1 <= W -> 0 <= n < 2 ^ 31 -> is_at E W s (fe l) x -> fits W s x ->
  exists u v, sll l (py n) = Some u /\ sra l (py n) = Some v /\ fp u = fp l /\ fp v = fp l /\
    (exists z, is_at E W s (fe u) z /\ (fval z (fp l) == fval x (fp l - n))%Q) /\
    (exists z, is_at E W s (fe v) z /\ (fval z (fp l) <= fval x (fp l + n))%Q /\ (fval x (fp l + n) < fval (z + 1) (fp l))%Q).
Proof.
  intros E W s l x n HW N A F. do 2 eexists. split; [reflexivity|]. split; [reflexivity|]. split; [reflexivity|]. split; [reflexivity|]. split.
  - exists (x * 2 ^ n). split; [apply at_sll; [lia|lia|apply shift_amount; lia|exact A]|].
    rewrite <- (fval_shift x (fp l - n) n) by lia. replace (fp l - n + n) with (fp l) by lia. reflexivity.
  - exists (x / 2 ^ n). split; [apply at_sra; first [assumption|lia|apply shift_amount; lia]|]. apply fval_drop. lia.
Qed.
(** A quotient of two variables of the same sign, the left point not below the right one, is cut to a
    multiple of 2^-(lp - rp): it has lp fraction bits, of which the rp lowest are 0. *)
Theorem C44_divide_partial : forall E W s x y lp rp, 1 <= W -> 1 <= dw E x <= 2 ^ 31 -> 1 <= dw E y <= 2 ^ 31 ->
  let xv := value (dw E x) s (val E x) in let yv := value (dw E y) s (val E y) in
  fits W s (Z.abs xv) -> fits W s (Z.abs yv) -> yv <> 0 -> rp <= lp -> 0 <= rp < 2 ^ 31 ->
  let f := divide x y (dw E x) (dw E y) lp rp s s in
  exists z, is_at E W s (fe f) z /\ fp f = lp /\ (2 ^ rp | z) /\ (Qabs (fval z lp - fval xv lp / fval yv rp) < fval 1 (lp - rp))%Q.
Proof.
  intros E W s x y lp rp HW HX HY xv yv FX FY NZ P R f. exists (Z.quot xv yv * 2 ^ rp).
  destruct (divide_at E W s x y lp rp HW HX HY FX FY NZ P R) as [A B].
  split; [exact A|]. split; [exact B|]. split; [apply Z.divide_factor_r|]. apply divide_value; auto. lia.
Qed.
(** So 1.0 / 2.0 at point 8 is 0. *)
Theorem C44_divide_refuted : let E := mkEnv (fun _ => 16) (fun _ => true) (fun x => match x with O => 256 | _ => 512 end) 0 in
  assigned E 16 (fe (write_adjust (divide 0 1 16 16 8 8 true true) 8)) = 0 /\ (fval 256 8 / fval 512 8 == fval 128 8)%Q.
Proof. split; [vm_compute; reflexivity|reflexivity]. Qed.
(** A Python int on the left is added to the raw value and the point is lost: 1 + 1.5 at point 4. *)
Theorem C44_radd_refuted : let E := mkEnv (fun _ => 8) (fun _ => true) (fun _ => 24) 0 in
  self E (fe (radd 1 (variable 0 4 true))) = 25 /\ fp (radd 1 (variable 0 4 true)) = 0 /\ (fval 24 4 + 1 == fval 40 4)%Q /\
  assigned E 8 (fe (write_adjust (arith BPlus (variable 0 4 true) (py 1)) 4)) = 40.
Proof. repeat split; vm_compute; reflexivity. Qed.
(** The result of a comparison carries the point: a fixed-point variable gets 2^-p for true. *)
Theorem C44_compare_point : forall o l r, fp (arith o l r) = Z.max (fp l) (fp r).
Proof. intros o l r. unfold arith. destruct (aligned o l r). cbn [fp]. unfold fmax. destruct (Z.ltb_spec (fp r) (fp l)); lia. Qed.

(** ** Examples *)
Example C44_convert_example : to_fixed (NFloat (-5) 1) 3 = NInt (-20) /\ to_fixed (NFloat (-5) 4) 3 = NInt (-2) /\ to_fixed (NFloat 100 1) (-3) = NInt 6.
Proof. repeat split. Qed.
Example C44_integer_example : fixed_to_int (-5) 1 = Some (-3) /\ fixed_to_int_low (-5) 1 = 1.
Proof. split; reflexivity. Qed.
(** 2.5 + (-1.25) stored at point 4 *)
Example C44_add_example : let E := mkEnv (fun _ => 8) (fun _ => true) (fun x => match x with O => 5 | _ => 236 end) 0 in
  let l := variable 0 1 true in let r := variable 1 4 true in
  raw E 8 true (gap 1 4) l 5 /\ raw E 8 true (gap 4 1) r (-20) /\ number E (fe (arith BPlus l r)) = 20 /\ truth E (fe (arith BGt l r)) = true.
Proof.
  intros E l r. split; [exact (C44_variable E 8 true _ 0 1 true)|]. split; [exact (C44_variable E 8 true _ 1 4 true)|]. split; vm_compute; reflexivity.
Qed.
(** 1.5 * (-2.25) at points 4 and 2 in 16 bits: -3.375 *)
Example C44_times_example : let E := mkEnv (fun _ => 16) (fun _ => true) (fun x => match x with O => 24 | _ => 65527 end) 0 in
  let p := times (variable 0 4 true) (variable 1 2 true) in
  raw E 16 true 0 (variable 0 4 true) 24 /\ raw E 16 true 0 (variable 1 2 true) (-9) /\ fits 16 true (24 * -9) /\ number E (fe p) = -54 /\ fp p = 4.
Proof.
  intros E p. split; [exact (C44_variable E 16 true _ 0 4 true)|]. split; [exact (C44_variable E 16 true _ 1 2 true)|].
  split; [cbn; lia|]. split; vm_compute; reflexivity.
Qed.
Example C44_write_example : let E := mkEnv (fun _ => 16) (fun _ => true) (fun _ => 65511) 0 in
  value 8 true (assigned E 8 (fe (write_adjust (variable 0 4 true) 2))) = -7 /\ value 8 true (assigned E 8 (fe (write_adjust (variable 0 4 true) 6))) = -100.
Proof. split; vm_compute; reflexivity. Qed.
Example C44_divide_example : let E := mkEnv (fun _ => 16) (fun _ => true) (fun x => match x with O => 65136 | _ => 6 end) 0 in
  number E (fe (divide 0 1 16 16 4 1 true true)) = -132 /\ (fval (-400) 4 / fval 6 1 == (-25 # 3))%Q.
Proof. split; vm_compute; reflexivity. Qed.
Example C44_parts_example : let E := mkEnv (fun _ => 8) (fun _ => true) (fun _ => 236) 0 in
  number E (int_part (variable 0 3 true)) = -3 /\ assigned E 8 (dec_part (variable 0 3 true)) = 4.
Proof. split; vm_compute; reflexivity. Qed.
Print Assumptions C44_convert. Print Assumptions C44_convert_total. Print Assumptions C44_constant. Print Assumptions C44_convert_zero_refuted.
Print Assumptions C44_integer. Print Assumptions C44_integer_total. Print Assumptions C44_negative_point_refuted. Print Assumptions C44_round_trip.
Print Assumptions C44_variable. Print Assumptions C44_pattern. Print Assumptions C44_add. Print Assumptions C44_sub. Print Assumptions C44_negate.
Print Assumptions C44_compare_partial. Print Assumptions C44_compare_refuted. Print Assumptions C44_times_partial. Print Assumptions C44_times_point. Print Assumptions C44_times_refuted.
Print Assumptions C44_write. Print Assumptions C44_parts. Print Assumptions C44_shift. Print Assumptions C44_divide_partial. Print Assumptions C44_divide_refuted.
Print Assumptions C44_radd_refuted. Print Assumptions C44_compare_point.
