(** Bit patterns and their values.  A [w]-bit pattern is an integer in [0, 2^w). *)
From Verif Require Import Base.
From Coq Require Znumtheory.
Open Scope Z_scope.

(** value of a pattern read as unsigned or as two's complement *)
Definition uns (w x : Z) : Z := x mod 2 ^ w.
Definition sgn (w x : Z) : Z := if x mod 2 ^ w <? 2 ^ (w - 1) then x mod 2 ^ w else x mod 2 ^ w - 2 ^ w.
Definition value (w : Z) (s : bool) (x : Z) : Z := if s then sgn w x else uns w x.

Lemma pow_split w : 1 <= w -> 2 ^ w = 2 * 2 ^ (w - 1).
Proof. intros H. replace w with (Z.succ (w - 1)) at 1 by lia. rewrite Z.pow_succ_r by lia. reflexivity. Qed.
Lemma pow_pos w : 0 <= w -> 0 < 2 ^ w.
Proof. intros H. apply Z.pow_pos_nonneg; lia. Qed.
Lemma uns_range w x : 0 <= w -> 0 <= uns w x < 2 ^ w.
Proof. intros H. apply Z.mod_pos_bound, pow_pos, H. Qed.
Lemma sgn_range w x : 1 <= w -> - 2 ^ (w - 1) <= sgn w x < 2 ^ (w - 1).
Proof.
  intros H. pose proof (uns_range w x ltac:(lia)) as R. pose proof (pow_split w H). pose proof (pow_pos (w - 1) ltac:(lia)).
  unfold sgn, uns in *. destruct (Z.ltb_spec (x mod 2 ^ w) (2 ^ (w - 1))); lia.
Qed.
Lemma sgn_mod w x : 0 <= w -> sgn w x mod 2 ^ w = x mod 2 ^ w.
Proof.
  intros H. pose proof (pow_pos w H). unfold sgn. destruct (_ <? _); [apply Z.mod_mod; lia|].
  replace (x mod 2 ^ w - 2 ^ w) with (x mod 2 ^ w + -1 * 2 ^ w) by lia. rewrite Z.mod_add, Z.mod_mod by lia. reflexivity.
Qed.
Lemma uns_small w x : 0 <= x < 2 ^ w -> uns w x = x.
Proof. apply Z.mod_small. Qed.
Lemma sgn_small w x : 1 <= w -> - 2 ^ (w - 1) <= x < 2 ^ (w - 1) -> sgn w x = x.
Proof.
  intros H R. pose proof (pow_split w H). unfold sgn. destruct (Z.ltb_spec x 0) as [N|N].
  - replace (x mod 2 ^ w) with (x + 2 ^ w).
    + destruct (Z.ltb_spec (x + 2 ^ w) (2 ^ (w - 1))); lia.
    + rewrite <- (Z.mod_small (x + 2 ^ w) (2 ^ w)) by lia. replace (x + 2 ^ w) with (x + 1 * 2 ^ w) by lia.
      rewrite Z.mod_add by lia. reflexivity.
  - rewrite Z.mod_small by lia. destruct (Z.ltb_spec x (2 ^ (w - 1))); lia.
Qed.
Lemma sgn_of_mod w x : 0 <= w -> sgn w (x mod 2 ^ w) = sgn w x.
Proof. intros H. pose proof (pow_pos w H). unfold sgn. rewrite Z.mod_mod by lia. reflexivity. Qed.
Lemma value_mod w s x : 0 <= w -> value w s x mod 2 ^ w = x mod 2 ^ w.
Proof. intros H. pose proof (pow_pos w H). unfold value. destruct s; [apply sgn_mod, H|apply Z.mod_mod; lia]. Qed.
Lemma mod_mod_le x a b : 0 <= b <= a -> (x mod 2 ^ a) mod 2 ^ b = x mod 2 ^ b.
Proof.
  intros H. symmetry. apply Znumtheory.Zmod_div_mod; [apply pow_pos; lia|apply pow_pos; lia|].
  exists (2 ^ (a - b)). rewrite <- Z.pow_add_r by lia. f_equal. lia.
Qed.
