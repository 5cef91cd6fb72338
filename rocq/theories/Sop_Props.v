(** Theorems about the operators of a stream. *)
From Coq Require Import QArith Qround.
From Verif Require Import Base Bits Vx_Model Vx_Sem Vx_Spec Vx_Proofs Fix_Model Fix_Spec Fix_Proofs Sop_Model Sop_Spec Sop_Proofs.
Open Scope Z_scope.

(** ** C69: the operators compute on the numbers of their operands *)

(** Plus, Minus: the result is the sum of the numbers, modulo the range of the result *)
Theorem C69_sum_partial E o l r : o = BPlus \/ o = BMinus -> wf E l -> wf E r -> Z.abs (opoint l - opoint r) < 2 ^ 31 ->
  let gl := gap (opoint l) (opoint r) in let gr := gap (opoint r) (opoint l) in let w := common_width l r in let p := common_point l r in let s := both_signed l r in
  literal_room l gl -> literal_room r gr -> sign_kept E l r w l gl -> sign_kept E l r w r gr ->
  exists z, stored E (sum o l r) = z mod 2 ^ w /\ (fval z p == match o with BPlus => number E l + number E r | _ => number E l - number E r end)%Q /\
    (Vx_Spec.fits w s z -> (number_of w p s (stored E (sum o l r)) == match o with BPlus => number E l + number E r | _ => number E l - number E r end)%Q).
Proof.
  intros O Hl Hr G gl gr w p s Ll Lr Kl Kr. pose proof (sum_ok E o l r O Hl Hr G Ll Lr Kl Kr) as H. fold gl gr in H. pose proof (sum_number o E l r) as N. fold gl gr p in N. cbv zeta in N.
  fold gl gr in N. exists (total o (oraw E l * 2 ^ gl) (oraw E r * 2 ^ gr)). fold w in H. split; [exact H|].
  assert (Q : (qtotal o (number E l) (number E r) == match o with BPlus => number E l + number E r | _ => number E l - number E r end)%Q) by (destruct O as [->| ->]; reflexivity).
  split; [rewrite <- Q; exact N|]. intros F. unfold number_of. rewrite H, value_fits; [rewrite <- Q; exact N| |exact F]. unfold w. apply (common_width_l E l r Hl).
Qed.
Print Assumptions C69_sum_partial.
(** signals of the same sign: no further condition *)
Theorem C69_sum_signals E o x y lw lp rw rp s : o = BPlus \/ o = BMinus -> let l := Sig x lw lp s in let r := Sig y rw rp s in
  wf E l -> wf E r -> Z.abs (lp - rp) < 2 ^ 31 -> let w := common_width l r in let p := common_point l r in
  exists z, stored E (sum o l r) = z mod 2 ^ w /\ (fval z p == match o with BPlus => number E l + number E r | _ => number E l - number E r end)%Q /\
    (Vx_Spec.fits w s z -> (number_of w p s (stored E (sum o l r)) == match o with BPlus => number E l + number E r | _ => number E l - number E r end)%Q).
Proof.
  intros O l r Hl Hr G w p. pose proof (C69_sum_partial E o l r O Hl Hr G) as H. cbv zeta in H. replace (both_signed l r) with s in H by (unfold both_signed, l, r; cbn [osigned]; now rewrite andb_diag).
  apply H; try exact I; unfold sign_kept; (destruct s; [left; reflexivity|right; left; apply unsigned_nonneg; [assumption|reflexivity]]).
Qed.
Print Assumptions C69_sum_signals.

(** comparisons: when the aligned values fit the width at which Verilog compares *)
Theorem C69_compare_partial E o l r : Fix_Spec.comparison o -> wf E l -> wf E r -> Z.abs (opoint l - opoint r) < 2 ^ 31 ->
  let gl := gap (opoint l) (opoint r) in let gr := gap (opoint r) (opoint l) in
  let W := Z.max (printed_width l gl) (printed_width r gr) in let s := entered_signed l gl && entered_signed r gr in
  literal_room l gl -> literal_room r gr -> Vx_Spec.fits W s (oraw E l * 2 ^ gl) -> Vx_Spec.fits W s (oraw E r * 2 ^ gr) ->
  stored E (compare_op o l r) = b2z (qcompare o (number E l) (number E r)).
Proof. exact (compare_op_ok E o l r). Qed.
Print Assumptions C69_compare_partial.
(** signals of the same sign and point: no further condition *)
Theorem C69_compare_signals E o x y lw rw p s : Fix_Spec.comparison o -> let l := Sig x lw p s in let r := Sig y rw p s in wf E l -> wf E r ->
  stored E (compare_op o l r) = b2z (qcompare o (number E l) (number E r)).
Proof.
  intros O l r Hl Hr. assert (G : gap p p = 0) by (unfold gap; lia). pose proof (proj1 Hl) as L1. pose proof (proj1 Hr) as R1.
  assert (Fl : Vx_Spec.fits (Z.max lw rw) s (oraw E l * 2 ^ 0)).
  { rewrite Z.mul_1_r. apply (fits_widen lw s); [lia|exact (oraw_fits E l Hl)|auto|]. intros X. apply unsigned_nonneg; [exact Hl|exact X]. }
  assert (Fr : Vx_Spec.fits (Z.max lw rw) s (oraw E r * 2 ^ 0)).
  { rewrite Z.mul_1_r. apply (fits_widen rw s); [lia|exact (oraw_fits E r Hr)|auto|]. intros X. apply unsigned_nonneg; [exact Hr|exact X]. }
  pose proof (compare_op_ok E o l r O Hl Hr) as H. cbv zeta in H. subst l r. cbn [opoint] in H. rewrite G in H. cbn [printed_width entered_signed literal_room] in H. rewrite andb_diag in H.
  apply H; auto. rewrite Z.sub_diag. cbn. lia.
Qed.
Print Assumptions C69_compare_signals.

(** And, Or, Xor, Xnor: bit by bit *)
Theorem C69_bitwise_partial E o l r : is_bitwise o -> wf E l -> wf E r -> let w := Z.max (owidth l) (owidth r) in
  sign_kept E l r w l 0 -> sign_kept E l r w r 0 ->
  forall i, 0 <= i -> Z.testbit (stored E (logical o l r)) i = (i <? w) && bit_fun o (Z.testbit (oraw E l) i) (Z.testbit (oraw E r) i).
Proof.
  intros O Hl Hr w Kl Kr i I. rewrite bitwise_ok by assumption. fold w. pose proof (owidth_pos E l Hl). destruct (Z.ltb_spec i w); cbn [andb].
  - rewrite Z.mod_pow2_bits_low by assumption. apply bitwise_bit; assumption.
  - apply Z.mod_pow2_bits_high. unfold w in *. lia.
Qed.
Print Assumptions C69_bitwise_partial.
(** Land, Lor *)
Theorem C69_connective E l r : wf E l -> wf E r ->
  stored E (logical BLand l r) = b2z (negb (oraw E l =? 0) && negb (oraw E r =? 0)) /\
  stored E (logical BLor l r) = b2z (negb (oraw E l =? 0) || negb (oraw E r =? 0)).
Proof. intros Hl Hr. split; [exact (connective_ok E BLand l r (or_introl eq_refl) Hl Hr)|exact (connective_ok E BLor l r (or_intror eq_refl) Hl Hr)]. Qed.
Print Assumptions C69_connective.

(** Sll never loses a bit; a constant amount must not be negative *)
Theorem C69_sll E l r res : wf E l -> wf E r -> 0 <= oraw E r \/ (exists x w p s, r = Sig x w p s) -> shift_op BSll l r = Some res ->
  (number_of (rw res) (rp res) (rs res) (stored E res) == number E l * inject_Z (2 ^ amount E r))%Q.
Proof.
  intros Hl Hr C H. destruct (sll_ok E l r res Hl Hr C H) as (_ & P & V). unfold number_of, number. rewrite V, P. unfold fval. rewrite inject_Z_mult. ring.
Qed.
Print Assumptions C69_sll.
(** Sra rounds down, Srl shifts the pattern *)
Theorem C69_shift_right E l r res : wf E l -> wf E r ->
  (shift_op BSra l r = Some res -> rp res = opoint l /\ value (rw res) (rs res) (stored E res) = oraw E l / 2 ^ amount E r) /\
  (shift_op BSrl l r = Some res -> rp res = opoint l /\ value (rw res) (rs res) (stored E res) = (oraw E l mod 2 ^ owidth l) / 2 ^ amount E r).
Proof.
  intros Hl Hr. split; intros H.
  - destruct (sra_ok E l r res Hl Hr H) as (_ & _ & P & V). auto.
  - destruct (srl_ok E l r res Hl Hr H) as (W & S & P & V). split; [exact P|]. rewrite W, S, V. cbn [value]. unfold uns. apply Z.mod_small.
    pose proof (owidth_pos E l Hl). pose proof (amount_range E r Hr). pose proof (Z.mod_pos_bound (oraw E l) (2 ^ owidth l) ltac:(apply pow_pos; lia)). pose proof (pow_pos (amount E r) ltac:(lia)).
    split; [apply Z.div_pos; [apply H2|exact H3]|]. apply Z.div_lt_upper_bound; [exact H3|]. clear - H2 H3. nia.
Qed.
Print Assumptions C69_shift_right.
Theorem C69_shift_defined o l r : o = BSrl \/ o = BSra \/ (o = BSll /\ sll_width l r <= 1024) -> opoint r = 0 -> exists res, shift_op o l r = Some res.
Proof. exact (shift_defined o l r). Qed.
Print Assumptions C69_shift_defined.

(** Times: rounded down to the point of the result, modulo its range *)
Theorem C69_times_partial E d l r : (2 <= d)%nat -> wf E l -> wf E r -> let p := times_point l r in let w := times_width l r in let size := opoint l + opoint r - p in
  size < 2 ^ 31 -> both_signed l r = true \/ 0 <= oraw E l * oraw E r \/ size <= Z.min (owidth l) (owidth r) ->
  exists z, times E d l r = z mod 2 ^ w /\ (fval z p <= number E l * number E r < fval (z + 1) p)%Q /\
    (Vx_Spec.fits w (both_signed l r) z -> value w (both_signed l r) (times E d l r) = z).
Proof.
  intros D Hl Hr p w size B C. exists ((oraw E l * oraw E r) / 2 ^ size). pose proof (times_ok' E d l r D Hl Hr B C) as H. split; [exact H|]. split.
  - unfold number. rewrite <- fval_mult. pose proof (times_point_le l r) as S. pose proof (fval_drop (oraw E l * oraw E r) p size ltac:(unfold size, p; lia)) as F.
    replace (p + size) with (opoint l + opoint r) in F by (unfold size; lia). exact F.
  - intros F. rewrite H. apply value_fits; [|exact F]. pose proof (owidth_pos E l Hl). unfold w, times_width. lia.
Qed.
Print Assumptions C69_times_partial.
(** signals of the same sign: no further condition *)
Theorem C69_times_signals E d x y lw lp rw rp s : (2 <= d)%nat -> let l := Sig x lw lp s in let r := Sig y rw rp s in wf E l -> wf E r ->
  let p := times_point l r in let w := times_width l r in lp + rp - p < 2 ^ 31 ->
  exists z, times E d l r = z mod 2 ^ w /\ (fval z p <= number E l * number E r < fval (z + 1) p)%Q /\ (Vx_Spec.fits w s z -> value w s (times E d l r) = z).
Proof.
  intros D l r Hl Hr p w B. pose proof (C69_times_partial E d l r D Hl Hr) as H. cbv zeta in H. replace (both_signed l r) with s in H by (unfold both_signed, l, r; cbn [osigned]; now rewrite andb_diag).
  apply H; [exact B|]. destruct s; [left; reflexivity|]. right. left. apply Z.mul_nonneg_nonneg; [exact (unsigned_nonneg E l Hl eq_refl)|exact (unsigned_nonneg E r Hr eq_refl)].
Qed.
Print Assumptions C69_times_signals.
(** [_MulAdd] *)
Theorem C69_muladd E d a b c v : (2 <= d)%nat -> wf E a -> wf E b -> wf E c -> muladd E d a b c = Some v ->
  let w := muladd_width a b c in let s := all_signed a b c in
  exists z, v = z mod 2 ^ w /\ (fval z (opoint c) == number E a * number E b + number E c)%Q /\
    (Vx_Spec.fits w s z -> (number_of w (opoint c) s v == number E a * number E b + number E c)%Q).
Proof.
  intros D Ha Hb Hc H w s. destruct (muladd_ok E d a b c v D Ha Hb Hc H) as [P ->]. exists (oraw E a * oraw E b + oraw E c). split; [reflexivity|].
  assert (Q : (fval (oraw E a * oraw E b + oraw E c) (opoint c) == number E a * number E b + number E c)%Q).
  { rewrite fval_plus. unfold number. rewrite <- P at 1. rewrite fval_mult. reflexivity. }
  split; [exact Q|]. intros F. unfold number_of. rewrite value_fits; [exact Q| |exact F]. pose proof (owidth_pos E a Ha). unfold w, muladd_width. lia.
Qed.
Print Assumptions C69_muladd.

(** Mod: what remains of the left number after a whole number of times the right one *)
Theorem C69_modulo_partial E l r : wf E l -> wf E r -> Z.abs (opoint l - opoint r) < 2 ^ 31 -> osigned l = osigned r ->
  let gl := gap (opoint l) (opoint r) in let gr := gap (opoint r) (opoint l) in
  let x := oraw E l * 2 ^ gl in let y := oraw E r * 2 ^ gr in let w := common_width l r in let p := common_point l r in let s := osigned l in
  literal_room l gl -> literal_room r gr ->
  (s = true -> Vx_Spec.fits (printed_width l gl) true x /\ Vx_Spec.fits (printed_width r gr) true y) -> oraw E r <> 0 ->
  (number_of w p s (modulo E l r) == number E l - inject_Z (Z.quot x y) * number E r)%Q /\ Z.abs (value w s (modulo E l r)) < Z.abs y.
Proof.
  intros Hl Hr G Sg gl gr x y w p s Ll Lr F N. destruct (divider_ok E l r Hl Hr G Sg Ll Lr F N) as [_ H]. fold gl gr x y w in H.
  destruct (gap_range _ _ G) as [Gl Gr]. fold gl gr in Gl, Gr. destruct (common_width_l E l r Hl) as [Wl Wp]. destruct (common_width_l E r l Hr) as [Wr _]. rewrite common_width_comm in Wr. fold gl w in Wl. fold gr w in Wr.
  assert (Ny : y <> 0) by (unfold y; pose proof (pow_pos gr ltac:(lia)); clear - N H0; nia).
  pose proof (Z.rem_bound_abs x y Ny) as B.
  assert (V : value w s (modulo E l r) = Z.rem x y).
  { rewrite H. apply value_fits; [exact Wp|]. pose proof (fits_scale _ _ _ gr gr (owidth_pos E r Hr) ltac:(lia) (oraw_fits E r Hr)) as Fy. fold y in Fy. rewrite <- Sg in Fy. fold s in Fy.
    pose proof (fits_scale _ _ _ gl gl (owidth_pos E l Hl) ltac:(lia) (oraw_fits E l Hl)) as Fx. fold x s in Fx.
    pose proof (owidth_pos E r Hr). pose proof (Z.pow_le_mono_r 2 (owidth r + gr - 1) (w - 1) ltac:(lia) ltac:(lia)). pose proof (Z.pow_le_mono_r 2 (owidth r + gr) w ltac:(lia) ltac:(lia)).
    unfold Vx_Spec.fits in *. clear - Fx Fy B H1 H2 Ny. clearbody x y s w. destruct s; [lia|]. pose proof (Z.rem_nonneg x y Ny ltac:(lia)). lia. }
  split; [|rewrite V; exact B]. unfold number_of. rewrite V. assert (X : Z.rem x y = x - Z.quot x y * y) by (pose proof (Z.quot_rem' x y); lia). rewrite X, fval_minus.
  pose proof (common_point_gap l r (oraw E l)) as A1. pose proof (common_point_gap r l (oraw E r)) as A2. rewrite common_point_comm in A2. fold gl p x in A1. fold gr p y in A2.
  unfold number. rewrite A1, <- A2. unfold fval. rewrite inject_Z_mult. ring.
Qed.
Print Assumptions C69_modulo_partial.
(** Divide: the pattern is the quotient of the numbers, rounded towards zero, as an integer *)
Theorem C69_divide_partial E l r : wf E l -> wf E r -> Z.abs (opoint l - opoint r) < 2 ^ 31 -> osigned l = osigned r ->
  let gl := gap (opoint l) (opoint r) in let gr := gap (opoint r) (opoint l) in
  let x := oraw E l * 2 ^ gl in let y := oraw E r * 2 ^ gr in let w := common_width l r in let p := common_point l r in let s := osigned l in
  literal_room l gl -> literal_room r gr ->
  (s = true -> Vx_Spec.fits (printed_width l gl) true x /\ Vx_Spec.fits (printed_width r gr) true y) -> oraw E r <> 0 ->
  exists q, divide E l r = q mod 2 ^ w /\ (number E l == inject_Z q * number E r + fval (Z.rem x y) p)%Q /\ Z.abs (Z.rem x y) < Z.abs y /\ 0 <= Z.rem x y * x /\
    (Vx_Spec.fits w s q -> value w s (divide E l r) = q).
Proof.
  intros Hl Hr G Sg gl gr x y w p s Ll Lr F N. destruct (divider_ok E l r Hl Hr G Sg Ll Lr F N) as [H _]. fold gl gr x y w in H.
  destruct (gap_range _ _ G) as [Gl Gr]. fold gl gr in Gl, Gr. destruct (common_width_l E l r Hl) as [_ Wp].
  assert (Ny : y <> 0) by (unfold y; pose proof (pow_pos gr ltac:(lia)); clear - N H0; nia).
  exists (Z.quot x y). split; [exact H|].
  pose proof (common_point_gap l r (oraw E l)) as A1. pose proof (common_point_gap r l (oraw E r)) as A2. rewrite common_point_comm in A2. fold gl p x in A1. fold gr p y in A2.
  split; [|split; [apply Z.rem_bound_abs, Ny|split; [apply Z.rem_sign_mul, Ny|intros Q; rewrite H; apply value_fits; assumption]]].
  unfold number. rewrite <- A1, <- A2. pose proof (Z.quot_rem' x y) as X. rewrite X at 1. rewrite fval_plus. unfold fval. rewrite inject_Z_mult. ring.
Qed.
Print Assumptions C69_divide_partial.

(** Uplus, Uminus, Unot, reductions *)
Theorem C69_unary E r : wf E r -> let w := owidth r in
  stored E (unary UPlus r) = oraw E r mod 2 ^ w /\ stored E (unary UMinus r) = (- oraw E r) mod 2 ^ w /\
  (forall i, 0 <= i < w -> Z.testbit (stored E (unary UNot r)) i = negb (Z.testbit (oraw E r) i)) /\
  forall o, is_reduction o -> stored E (unary o r) = b2z (reduction o (bits w (oraw E r))).
Proof.
  intros H w. split; [apply (unary_ok E UPlus r H); auto|]. split; [apply (unary_ok E UMinus r H); auto|]. split; [|intros o O; apply reduction_ok; assumption].
  intros i I. rewrite (unary_ok E UNot r H) by auto. rewrite Z.mod_pow2_bits_low by apply I. apply Z.lnot_spec. lia.
Qed.
Print Assumptions C69_unary.

(** Cast: rounded down to the new point, modulo the new range; ReinterpretCast: the bits *)
Theorem C69_cast E r w p : wf E r -> let w' := dflt w (owidth r) in let p' := dflt p (opoint r) in 1 <= w' -> Z.abs (p' - opoint r) < 2 ^ 31 ->
  exists z, cast E r w p = z mod 2 ^ w' /\ (fval z p' <= number E r < fval (z + 1) p')%Q /\ (opoint r <= p' -> (fval z p' == number E r)%Q) /\
    forall s, Vx_Spec.fits w' s z -> value w' s (cast E r w p) = z.
Proof.
  intros H w' p' Hw G. pose proof (cast_ok E r w p H Hw G) as C. exists (rescaled (oraw E r) (opoint r) p'). split; [exact C|].
  destruct (rescaled_number (oraw E r) (opoint r) p') as [A B]. split; [exact A|]. split; [exact B|]. intros s F. rewrite C. apply value_fits; assumption.
Qed.
Print Assumptions C69_cast.
Theorem C69_reinterpret E r w : wf E r -> 1 <= dflt w (owidth r) -> reinterpret E r w = oraw E r mod 2 ^ dflt w (owidth r).
Proof. exact (reinterpret_ok E r w). Qed.
Print Assumptions C69_reinterpret.

(** Pointer, Slice, Cat, Repeat, Split *)
Theorem C69_pointer E x w p s pos : wf E (Sig x w p s) -> wf E pos -> 0 <= oraw E pos < w ->
  stored E (pointer x pos) = b2z (Z.testbit (oraw E (Sig x w p s)) (oraw E pos)).
Proof. exact (pointer_ok E x w p s pos). Qed.
Print Assumptions C69_pointer.
Theorem C69_slice E x w p s m l : wf E (Sig x w p s) -> 0 <= l <= m -> m < w ->
  exists res, slice x m l = Some res /\ rw res = m - l + 1 /\ stored E res = (oraw E (Sig x w p s) / 2 ^ l) mod 2 ^ (m - l + 1).
Proof.
  intros H L M. destruct (slice_defined x m l ltac:(lia)) as [res R]. exists res. split; [exact R|]. destruct (slice_ok E x w p s m l res H ltac:(lia) M R) as (A & _ & B). auto.
Qed.
Print Assumptions C69_slice.
Theorem C69_cat E os : Forall (wf E) os -> stored E (cat os) = joined (map (fun o => (owidth o, oraw E o mod 2 ^ owidth o)) os).
Proof. exact (cat_ok E os). Qed.
Print Assumptions C69_cat.
Theorem C69_repeat E o n : wf E o -> 0 <= n -> stored E (repeat_op o n) = joined (repeat (owidth o, oraw E o mod 2 ^ owidth o) (Z.to_nat n)).
Proof. exact (repeat_ok E o n). Qed.
Print Assumptions C69_repeat.
(** the chunks put together are the value, extended with its sign to whole chunks; every chunk must start within the data *)
Theorem C69_split_partial E x dw p s width num w n : wf E (Sig x dw p s) -> dw <= 2 ^ 31 -> split_shape dw width num = Some (w, n) ->
  match width with Some w => 1 <= w | None => True end -> match num with Some n => 1 <= n | None => True end -> (n - 1) * w < dw ->
  exists cs, split E x dw s width num = Some (map Some cs) /\ Z.of_nat (length cs) = n /\ Forall (fun c => 0 <= c < 2 ^ w) cs /\
             stacked w cs = oraw E (Sig x dw p s) mod 2 ^ (w * n) /\ dw <= w * n.
Proof. exact (split_ok E x dw p s width num w n). Qed.
Print Assumptions C69_split_partial.
(** with a width the condition always holds *)
Theorem C69_split_width E x dw p s w : wf E (Sig x dw p s) -> dw <= 2 ^ 31 -> 1 <= w ->
  exists cs, split E x dw s (Some w) None = Some (map Some cs) /\ Forall (fun c => 0 <= c < 2 ^ w) cs /\
             stacked w cs = oraw E (Sig x dw p s) mod 2 ^ (w * Z.of_nat (length cs)) /\ dw <= w * Z.of_nat (length cs) < dw + w.
Proof.
  intros H B W. pose proof (ceil_div_bounds dw w W) as C. destruct (split_ok E x dw p s (Some w) None w (ceil_div dw w) H B eq_refl W I ltac:(lia)) as (cs & A1 & A2 & A3 & A4 & A5).
  exists cs. rewrite A2. repeat split; auto; lia.
Qed.
Print Assumptions C69_split_width.

(** Cond: the value chosen, when the points agree *)
Theorem C69_cond_partial E c t f : wf E c -> wf E t -> wf E f -> let o := if oraw E c =? 0 then f else t in let w := common_width t f in
  sign_kept E t f w o 0 -> stored E (cond c t f) = oraw E o mod 2 ^ w /\
  (opoint t = opoint f -> Vx_Spec.fits w (osigned t || osigned f) (oraw E o) -> let res := cond c t f in (number_of (rw res) (rp res) (rs res) (stored E res) == number E o)%Q).
Proof.
  intros Hc Ht Hf o w K. pose proof (cond_ok E c t f Hc Ht Hf K) as H. fold o w in H. split; [exact H|]. intros P F res. unfold number_of.
  change (rw res) with w. change (rp res) with (common_point t f). change (rs res) with (osigned t || osigned f).
  unfold res. rewrite H, value_fits; [|apply (common_width_l E t f Ht)|exact F].
  unfold number, common_point. replace (opoint o) with (Z.max (opoint t) (opoint f)); [reflexivity|]. unfold o. destruct (oraw E c =? 0); lia.
Qed.
Print Assumptions C69_cond_partial.

(** Complement2, Abs, Sign *)
Theorem C69_signs E r : wf E r -> stored E (complement2 r) = (- oraw E r) mod 2 ^ owidth r /\ stored E (abs r) = Z.abs (oraw E r) mod 2 ^ owidth r /\
  stored E (sign r) = b2z (oraw E r <? 0).
Proof. intros H. split; [apply complement2_ok, H|]. split; [apply abs_ok, H|apply sign_ok, H]. Qed.
Print Assumptions C69_signs.

(** LUT: the entry for the low bits of the address *)
Theorem C69_lut_partial E a patterns w old : wf E a -> patterns <> [] -> 1 <= w -> Forall (fun v => - 2 ^ 31 < v < 2 ^ 31) patterns ->
  exists v, nth_error patterns (Z.to_nat (oraw E a mod 2 ^ lut_size (length patterns))) = Some v /\ lut E a patterns w old = v mod 2 ^ w.
Proof.
  intros H N W F. assert (R : 0 <= oraw E a mod 2 ^ lut_size (length patterns) < 2 ^ lut_size (length patterns)) by (apply Z.mod_pos_bound, pow_pos, Z.log2_nonneg).
  destruct (lut_covers patterns _ N R) as [v V]. exists v. split; [exact V|]. apply lut_ok; auto. rewrite Forall_forall in F. apply F. eapply nth_error_In, V.
Qed.
Print Assumptions C69_lut_partial.

(** ** Examples: 8-bit signals 0 (signed, -20), 1 (signed, 7), 2 (unsigned, 200); signal 3 is one bit *)
Definition ex_E : venv := mkEnv (fun x => match x with 3%nat => 1 | _ => 8 end) (fun x => match x with O | 1%nat => true | _ => false end)
  (fun x => match x with O => 236 | 1%nat => 7 | 2%nat => 200 | _ => 1 end) 0.
Definition s0 := Sig 0 8 4 true.
Definition s1 := Sig 1 8 2 true.
Definition u2 := Sig 2 8 0 false.
Definition b3 := Sig 3 1 0 false.
Example ex_wf : wf ex_E s0 /\ wf ex_E s1 /\ wf ex_E u2 /\ wf ex_E b3 /\ oraw ex_E s0 = -20 /\ oraw ex_E s1 = 7.
Proof. cbn. repeat split; lia. Qed.
(** -20/16 + 7/4 = 8/16, at 10 bits *)
Example ex_sum : stored ex_E (sum BPlus s0 s1) = 8 /\ common_width s0 s1 = 10 /\ common_point s0 s1 = 4.
Proof. vm_compute. auto. Qed.
Example ex_sum_const : let c := Fxd (-12) 4 true in literal_room c 0 /\ sign_kept ex_E s0 c (common_width s0 c) s0 0 /\ stored ex_E (sum BMinus s0 c) = 2 ^ 8 - 8.
Proof. cbn. repeat split; auto. left. reflexivity. Qed.
Example ex_compare : let W := Z.max (printed_width s0 0) (printed_width s1 2) in Vx_Spec.fits W true (-20) /\ Vx_Spec.fits W true (7 * 4) /\
  stored ex_E (compare_op BLt s0 s1) = 1 /\ stored ex_E (compare_op BGt s0 s1) = 0.
Proof. cbn. repeat split; lia. Qed.
Example ex_bits : stored ex_E (logical BXor s0 u2) = 36 /\ stored ex_E (logical BXnor s0 u2) = 219 /\ stored ex_E (logical BLand s0 b3) = 1.
Proof. vm_compute. auto. Qed.
Example ex_shift : option_map (stored ex_E) (shift_op BSll s0 (Cst 3 true)) = Some (2 ^ 11 - 160) /\ option_map (stored ex_E) (shift_op BSra s0 (Cst 3 true)) = Some (2 ^ 8 - 3) /\
  option_map (stored ex_E) (shift_op BSrl s0 b3) = Some 118.
Proof. vm_compute. auto. Qed.
(** -20/16 * 7/4 = -140/64, at point 4: -35/16 *)
Example ex_times : times ex_E 5 s0 s1 = 256 - 35 /\ muladd ex_E 5 s0 s1 (Fxd 100 6 true) = Some (256 - 40).
Proof. vm_compute. auto. Qed.
Example ex_div : divide ex_E s0 (Fxd 7 4 true) = 256 - 2 /\ modulo ex_E s0 (Fxd 7 4 true) = 256 - 6 /\ divide ex_E u2 (Cst 7 false) = 28.
Proof. vm_compute. auto. Qed.
Example ex_unary : stored ex_E (unary UMinus s0) = 20 /\ stored ex_E (unary UXor s0) = 1 /\ stored ex_E (unary UAnd s0) = 0 /\ stored ex_E (abs s0) = 20 /\ stored ex_E (sign s0) = 1.
Proof. vm_compute. auto. Qed.
Example ex_cast : cast ex_E s0 (Some 12) (Some 1) = 2 ^ 12 - 3 /\ cast ex_E s0 (Some 12) (Some 6) = 2 ^ 12 - 80 /\ reinterpret ex_E s0 (Some 12) = 2 ^ 12 - 20.
Proof. vm_compute. auto. Qed.
Example ex_cat : stored ex_E (cat [s0; b3; s1]) = (236 * 2 + 1) * 256 + 7 /\ stored ex_E (repeat_op s1 2) = 7 * 257 /\ split ex_E 0 8 true (Some 3) None = Some [Some 4; Some 5; Some 7].
Proof. vm_compute. auto. Qed.
Example ex_cond : sign_kept ex_E s0 (Sig 1 8 4 true) 8 s0 0 /\ stored ex_E (cond b3 s0 (Sig 1 8 4 true)) = 236.
Proof. split; [left; reflexivity|vm_compute; reflexivity]. Qed.
Example ex_lut : lut ex_E s1 [10; 20; 30; -40] 8 0 = 256 - 40.
Proof. vm_compute. reflexivity. Qed.

(** ** Where it fails *)
Ltac wrong H := exfalso; vm_compute in H; discriminate H.
(** A positive fixed-point constant is printed without the sign of its node; the whole operation becomes unsigned. *)
Theorem C69_positive_constant_refuted :
  ~ (forall E x w p z, let l := Sig x w p true in let r := Fxd z p true in wf E l -> 0 <= z ->
       stored E (compare_op BLt l r) = b2z (qcompare BLt (number E l) (number E r))).
Proof. intros H. specialize (H ex_E 0%nat 8 4 8 ltac:(cbn; repeat split; lia) ltac:(lia)). wrong H. Qed.
Print Assumptions C69_positive_constant_refuted.
(** so that even a sum with a wider constant is wrong: -20/16 + 320/16 *)
Theorem C69_wide_constant_refuted :
  ~ (forall E x w p z, let l := Sig x w p true in let r := Fxd z p true in wf E l -> 0 <= z -> Vx_Spec.fits (common_width l r) true (oraw E l + z) ->
       value (common_width l r) true (stored E (sum BPlus l r)) = oraw E l + z).
Proof. intros H. specialize (H ex_E 0%nat 8 4 320 ltac:(cbn; repeat split; lia) ltac:(lia) ltac:(cbn; lia)). wrong H. Qed.
Print Assumptions C69_wide_constant_refuted.
(** A narrow negative operand beside an unsigned one is extended with zeros: 4-bit -1 + 8-bit 20 = 35. *)
Definition mixed_E : venv := mkEnv (fun x => match x with O => 4 | _ => 8 end) (fun x => match x with O => true | _ => false end) (fun x => match x with O => 15 | _ => 20 end) 0.
Theorem C69_mixed_sign_refuted :
  ~ (forall E l r, wf E l -> wf E r -> opoint l = opoint r -> Vx_Spec.fits (common_width l r) (both_signed l r) (oraw E l + oraw E r) ->
       stored E (sum BPlus l r) = oraw E l + oraw E r).
Proof. intros H. specialize (H mixed_E (Sig 0 4 0 true) (Sig 1 8 0 false) ltac:(cbn; repeat split; lia) ltac:(cbn; repeat split; lia) eq_refl ltac:(cbn; lia)). wrong H. Qed.
Print Assumptions C69_mixed_sign_refuted.
(** Comparisons align at the width of the operands: 15 (240 at point 4) < 48 (192 at point 2) becomes 240 < 192 * 4 mod 256. *)
Definition align_E : venv := mkEnv (fun _ => 8) (fun _ => false) (fun x => match x with O => 240 | _ => 192 end) 0.
Theorem C69_aligned_compare_refuted :
  ~ (forall E o l r, Fix_Spec.comparison o -> wf E l -> wf E r -> osigned l = osigned r -> stored E (compare_op o l r) = b2z (qcompare o (number E l) (number E r))).
Proof. intros H. specialize (H align_E BLt (Sig 0 8 4 false) (Sig 1 8 2 false) ltac:(left; reflexivity) ltac:(cbn; repeat split; lia) ltac:(cbn; repeat split; lia) eq_refl). wrong H. Qed.
Print Assumptions C69_aligned_compare_refuted.
(** Divide of numbers with a point: 15 / 12 is 1 unit in the last place, 1/16 *)
Theorem C69_divide_point_refuted :
  ~ (forall E l r, wf E l -> wf E r -> osigned l = osigned r -> opoint l = opoint r -> oraw E r <> 0 -> let w := common_width l r in let p := common_point l r in
       (number_of w p (osigned l) (divide E l r) * number E r <= number E l < (number_of w p (osigned l) (divide E l r) + 1) * number E r)%Q).
Proof.
  intros H. destruct (H align_E (Sig 0 8 4 false) (Sig 1 8 4 false) ltac:(cbn; repeat split; lia) ltac:(cbn; repeat split; lia) eq_refl eq_refl ltac:(cbn; lia)) as [_ A]. wrong A.
Qed.
Print Assumptions C69_divide_point_refuted.
(** Mod of signed numbers with different points: the alignment is cut off under $signed: 20 mod 3 is 1 *)
Definition mod_E : venv := mkEnv (fun _ => 8) (fun _ => true) (fun x => match x with O => 20 | _ => 48 end) 0.
Theorem C69_modulo_align_refuted :
  ~ (forall E l r, wf E l -> wf E r -> osigned l = osigned r -> oraw E r <> 0 -> exists q, (number_of (common_width l r) (common_point l r) (osigned l) (modulo E l r) == number E l - inject_Z q * number E r)%Q).
Proof.
  intros H. specialize (H mod_E (Sig 0 8 0 true) (Sig 1 8 4 true) ltac:(cbn; repeat split; lia) ltac:(cbn; repeat split; lia) eq_refl ltac:(cbn; lia)) as [q H].
  unfold number_of in H. replace (value _ _ (modulo mod_E (Sig 0 8 0 true) (Sig 1 8 4 true))) with 16 in H by (vm_compute; reflexivity).
  assert (A : (number mod_E (Sig 0 8 0 true) == fval 320 4)%Q) by (vm_compute; reflexivity). assert (B : (inject_Z q * number mod_E (Sig 1 8 4 true) == fval (q * 48) 4)%Q).
  { unfold number, fval. rewrite inject_Z_mult. change (oraw mod_E (Sig 1 8 4 true)) with 48. cbn [opoint]. ring. }
  rewrite A, B in H. rewrite <- fval_minus in H. change (common_point (Sig 0 8 0 true) (Sig 1 8 4 true)) with 4 in H.
  assert (C : 16 <= 320 - q * 48) by (apply (fval_le _ _ 4); rewrite H; apply Qle_refl). assert (D : 320 - q * 48 <= 16) by (apply (fval_le _ _ 4); rewrite <- H; apply Qle_refl). clear - C D. lia.
Qed.
Print Assumptions C69_modulo_align_refuted.
(** Cond does not align its values: 7/4 where the other is -20/16 becomes 7/16 *)
Theorem C69_cond_point_refuted :
  ~ (forall E c t f, wf E c -> wf E t -> wf E f -> osigned t = true -> osigned f = true -> oraw E c <> 0 ->
       (number_of (common_width t f) (common_point t f) true (stored E (cond c t f)) == number E t)%Q).
Proof.
  intros H. specialize (H ex_E b3 s1 s0 ltac:(cbn; repeat split; lia) ltac:(cbn; repeat split; lia) ltac:(cbn; repeat split; lia) eq_refl eq_refl ltac:(cbn; lia)). wrong H.
Qed.
Print Assumptions C69_cond_point_refuted.
(** A table of 5 entries has a 2-bit address: address 4 reads entry 0. *)
Theorem C69_lut_size_refuted :
  ~ (forall E a patterns w old v, wf E a -> 0 <= oraw E a -> nth_error patterns (Z.to_nat (oraw E a)) = Some v -> 0 <= v < 2 ^ w -> w < 31 -> lut E a patterns w old = v).
Proof. intros H. specialize (H ex_E (Cst 4 false) [1; 2; 3; 4; 5] 8 0 5 ltac:(cbn; lia) ltac:(cbn; lia) eq_refl ltac:(lia) ltac:(lia)). wrong H. Qed.
Print Assumptions C69_lut_size_refuted.
(** Split in 4 chunks of 5 bits: chunks of 2 bits, the last one would start at bit 6. *)
Theorem C69_split_overhang_refuted :
  ~ (forall E x dw s n, wf E (Sig x dw 0 s) -> 1 <= n <= dw -> exists cs, split E x dw s None (Some n) = Some (map Some cs)).
Proof.
  intros H. destruct (H (mkEnv (fun _ => 5) (fun _ => false) (fun _ => 0) 0) 0%nat 5 false 4 ltac:(cbn; repeat split; lia) ltac:(lia)) as [cs A].
  assert (B : split (mkEnv (fun _ => 5) (fun _ => false) (fun _ => 0) 0) 0 5 false None (Some 4) = Some [Some 0; Some 0; Some 0; None]) by (vm_compute; reflexivity).
  rewrite B in A. injection A as A. destruct cs as [|a [|b [|c [|d cs]]]]; try discriminate A.
Qed.
Print Assumptions C69_split_overhang_refuted.
