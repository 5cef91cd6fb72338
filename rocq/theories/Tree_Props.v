(** C32 and C34: tree reductions, averages, rounding shift. *)
From Verif Require Import Base Bits Tree_Model Tree_Spec Tree_Proofs.
Open Scope Z_scope.

Definition s8 (x : Z) : node := sig 8 true x.
Definition u8 (x : Z) : node := sig 8 false x.

(** ** C32 *)

(** the tree of an associative operator is the left fold, for every argument count *)
Theorem C32_fold : forall (A : Type) (op : A -> A -> A) (init : A),
  (forall a b c, op (op a b) c = op a (op b c)) ->
  op_tree op init [] = init /\ forall x l, op_tree op init (x :: l) = fold_left op l x.
Proof. intros A op init assoc. split; [reflexivity|]. intros x l. exact (tree_fold op init assoc x l). Qed.
Print Assumptions C32_fold.
Example C32_fold_ex : op_tree (@app nat) [] [[1]; [2]; [3]; [4]; [5]]%nat = [1; 2; 3; 4; 5]%nat.
Proof. reflexivity. Qed.

(** AddTree on arguments of one width is the sum modulo 2^width, signed or not *)
Theorem C32_add_wrap : forall w args, 1 <= w -> args <> [] -> Forall (fun n => nw n = w) args ->
  nw (add_tree args) = w /\ nval (add_tree args) mod 2 ^ w = total args mod 2 ^ w.
Proof. exact add_wrap. Qed.
Print Assumptions C32_add_wrap.
Theorem C32_add_value : forall w s args, 1 <= w -> args <> [] -> Forall (fun n => nw n = w /\ ns n = s) args ->
  nw (add_tree args) = w /\ ns (add_tree args) = s /\ nval (add_tree args) = value w s (total args).
Proof. exact add_value. Qed.
Print Assumptions C32_add_value.
Example C32_add_ex : nval (add_tree [s8 100; s8 (-7); s8 3; s8 (-90); s8 20]) = 26.
Proof. reflexivity. Qed.

(** with different widths, AddTree is the exact sum as long as every run of neighbours fits *)
Theorem C32_add_exact : forall s args, args <> [] -> uniform s args -> no_overflow s args ->
  nval (add_tree args) = total args.
Proof. exact add_exact. Qed.
Print Assumptions C32_add_exact.
Example C32_add_exact_ex : uniform true [s8 100; sig 12 true (-900)] /\ no_overflow true [s8 100; sig 12 true (-900)].
Proof.
  split; [repeat constructor; cbn; lia|].
  intros [|a [|b [|c before]]] run rest E N; cbn in E.
  - destruct run as [|p [|q [|t run]]]; [congruence| | |]; cbn in E; inversion E; subst.
    + exists (s8 100). split; [left; reflexivity|]. cbv; split; congruence.
    + exists (sig 12 true (-900)). split; [right; left; reflexivity|]. cbv; split; congruence.
  - inversion E; subst. destruct run as [|p [|q run]]; [congruence| |discriminate].
    cbn in H1. inversion H1; subst. exists (sig 12 true (-900)). split; [left; reflexivity|]. cbv; split; congruence.
  - inversion E; subst. destruct run; [congruence|discriminate].
  - inversion E.
Qed.

(** the width does not grow, so with different widths a partial sum may wrap where the fold over
    the same arguments (or the sum at the final width) would not: 100 + 100 wraps at 8 bits *)
Theorem C32_mixed_width_refuted :
  exists args, uniform true args /\ nw (add_tree args) = 16 /\ total args = 200 /\ nval (add_tree args) = -56.
Proof. exists [s8 100; s8 100; sig 16 true 0; sig 16 true 0]. repeat split; try reflexivity. repeat constructor; cbn; lia. Qed.
Print Assumptions C32_mixed_width_refuted.

(** PlusN/AddN is one expression: the sum at the widest width, whatever the widths *)
Theorem C32_plus_n : forall s args, args <> [] -> uniform s args ->
  exists n, plus_n args = Some n /\ nw n = widest args /\ ns n = s /\ nval n = value (widest args) s (total args).
Proof. exact plus_n_sum. Qed.
Print Assumptions C32_plus_n.
Example C32_plus_n_ex : option_map nval (plus_n [s8 100; s8 100; sig 16 true 0]) = Some 200.
Proof. reflexivity. Qed.

(** Max and Min pick the largest and smallest value, for any number of arguments of any widths *)
Theorem C32_max : forall s args, args <> [] -> uniform s args ->
  exists n, max_tree args = Some n /\ ns n = s /\ is_max (map nval args) (nval n).
Proof. exact max_ok. Qed.
Print Assumptions C32_max.
Theorem C32_min : forall s args, args <> [] -> uniform s args ->
  exists n, min_tree args = Some n /\ ns n = s /\ is_min (map nval args) (nval n).
Proof. exact min_ok. Qed.
Print Assumptions C32_min.
Example C32_max_ex : option_map nval (max_tree [s8 (-3); sig 12 true 700; s8 5; sig 4 true (-8); s8 100]) = Some 700
  /\ option_map nval (min_tree [s8 (-3); sig 12 true 700; s8 5; sig 4 true (-8); s8 100]) = Some (-8).
Proof. split; reflexivity. Qed.
(** a signed and an unsigned argument are compared as unsigned *)
Theorem C32_mixed_sign_refuted : option_map nval (max_tree [s8 (-1); u8 3]) = Some (-1).
Proof. reflexivity. Qed.
Print Assumptions C32_mixed_sign_refuted.

(** logarithmic latency: one stage per level for AddTree, two (compare, select) for Max and Min *)
Theorem C32_add_stage : forall s args, args <> [] -> Forall (fun x => x = s) args ->
  add_tree_stage args = (s + Nat.log2_up (length args))%nat.
Proof. intros s args N F. unfold add_tree_stage. rewrite (stage_gen _ 1 s) by (assumption || (unfold after; lia)). lia. Qed.
Print Assumptions C32_add_stage.
Theorem C32_max_stage : forall s args, args <> [] -> Forall (fun x => x = s) args ->
  max_tree_stage args = (s + 2 * Nat.log2_up (length args))%nat.
Proof. intros s args N F. unfold max_tree_stage. rewrite (stage_gen _ 2 s) by (assumption || (unfold after; lia)). lia. Qed.
Print Assumptions C32_max_stage.
Example C32_stage_ex : add_tree_stage [0; 0; 0; 0; 0]%nat = 3%nat.
Proof. reflexivity. Qed.

(** ** C34 *)

Theorem C34_sra_round : forall left r, 1 <= nw left -> ns left = true -> 0 <= r <= nw left ->
  round_away (nval left) (2 ^ r) (nval (sra_round_const left r)).
Proof. exact sra_round_const_ok. Qed.
Print Assumptions C34_sra_round.
Example C34_sra_round_ex : map (fun x => nval (sra_round_const (s8 x) 2)) [-7; -6; -5; -3; -2; -1; 1; 2; 3; 5; 6; 127; -128]
  = [-2; -2; -1; -1; -1; 0; 0; 1; 1; 1; 2; 32; -32].
Proof. reflexivity. Qed.
(** the rounding result is unique *)
Theorem C34_round_away_unique : forall x d y z, 0 < d -> round_away x d y -> round_away x d z -> y = z.
Proof.
  intros x d y z D [N1 T1] [N2 T2]. unfold near, tie in *.
  assert (G : forall y z, 2 * Z.abs (d * y - x) <= d -> (2 * Z.abs (d * y - x) = d -> Z.abs x < Z.abs (d * y)) ->
    2 * Z.abs (d * z - x) <= d -> (2 * Z.abs (d * z - x) = d -> Z.abs x < Z.abs (d * z)) -> y < z -> False).
  { clear - D. intros y z N1 T1 N2 T2 L. assert (H : d * (y + 1) <= d * z) by (apply Z.mul_le_mono_nonneg_l; lia).
    assert (S : 0 <= d * y \/ d * y + d <= 0).
    { destruct (Z.le_gt_cases 0 y); [left; apply Z.mul_nonneg_nonneg; lia|right].
      assert (d * (y + 1) <= d * 0) by (apply Z.mul_le_mono_nonneg_l; lia). lia. }
    rewrite Z.mul_add_distr_l, Z.mul_1_r in H. set (p := d * y) in *. set (q := d * z) in *. clearbody p q.
    specialize (T1 ltac:(lia)). specialize (T2 ltac:(lia)). lia. }
  destruct (Z.lt_trichotomy y z) as [L|[L|L]]; [|exact L|]; exfalso; [apply (G y z)|apply (G z y)]; assumption.
Qed.
Print Assumptions C34_round_away_unique.
(** the amount as a stream value, up to the width of the shifted value *)
Theorem C34_sra_round_signal : forall left right n, 3 <= nw left -> ns left = true -> 2 <= nw right ->
  rd false right <= nw left -> sra_round_sig left right = Some n ->
  round_away (nval left) (2 ^ rd false right) (nval n).
Proof. exact sra_round_sig_ok. Qed.
Print Assumptions C34_sra_round_signal.
Example C34_sra_round_signal_ex : map (fun r => option_map nval (sra_round_sig (s8 (-100)) (sig 32 true r))) [0; 1; 3; 7; 8]
  = [Some (-100); Some (-50); Some (-13); Some (-1); Some 0]
  /\ map (fun r => option_map nval (sra_round_sig (s8 (-100)) (sig 2 false r))) [0; 1; 3] = [Some (-100); Some (-50); Some (-13)].
Proof. split; reflexivity. Qed.
(** shifting by more than the width goes wrong: the rounder no longer fits (expected 0) *)
Theorem C34_long_shift_refuted : nval (sra_round_const (s8 5) 9) = -1 /\ nval (sra_round_const (s8 (-5)) 12) = -1.
Proof. split; reflexivity. Qed.
Print Assumptions C34_long_shift_refuted.
(** an unsigned value with its top bit set goes wrong: 129/4 = 32.25 gives 33 *)
Theorem C34_unsigned_refuted : nval (sra_round_const (u8 129) 2) = 33 /\ ~ near 129 4 33.
Proof. split; [reflexivity|]. unfold near. cbn. lia. Qed.
Print Assumptions C34_unsigned_refuted.
(** two-bit values shifted by a two-bit signal go wrong: -1/4 gives -1 *)
Theorem C34_narrow_refuted : option_map nval (sra_round_sig (sig 2 true (-1)) (sig 2 false 2)) = Some (-1).
Proof. reflexivity. Qed.
Print Assumptions C34_narrow_refuted.

(** Average over 2^k arguments: the mean rounded down; AverageRound: rounded to nearest, ties up.
    The sum has to fit the argument width, which AddTree does not extend. *)
Theorem C34_average : forall w s args k, 1 <= w -> length args = (2 ^ k)%nat ->
  Forall (fun n => nw n = w /\ ns n = s) args -> fits w s (total args) ->
  exists n, average args = Some n /\ round_down (total args) (Z.of_nat (length args)) (nval n).
Proof. exact average_ok. Qed.
Print Assumptions C34_average.
Theorem C34_average_round : forall w s args k, 1 <= w -> length args = (2 ^ k)%nat ->
  Forall (fun n => nw n = w /\ ns n = s) args -> fits w s (total args) -> fits w s (total args + Z.of_nat (length args) / 2) ->
  exists n, average_round args = Some n /\ round_up (total args) (Z.of_nat (length args)) (nval n).
Proof. exact average_round_ok. Qed.
Print Assumptions C34_average_round.
Example C34_average_ex : option_map nval (average [s8 (-3); s8 4; s8 (-8); s8 5]) = Some (-1)
  /\ option_map nval (average_round [s8 (-3); s8 4; s8 (-8); s8 5]) = Some 0
  /\ option_map nval (average_round [s8 3; s8 4]) = Some 4 /\ option_map nval (average_round [s8 (-3); s8 (-4)]) = Some (-3).
Proof. repeat split; reflexivity. Qed.
(** the mean of two representable values need not be produced: (100 + 100)/2 gives -28 *)
Theorem C34_average_overflow_refuted : option_map nval (average [s8 100; s8 100]) = Some (-28).
Proof. reflexivity. Qed.
Print Assumptions C34_average_overflow_refuted.
