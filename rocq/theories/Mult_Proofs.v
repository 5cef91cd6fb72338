(** Proofs for the multiplier and multiply-adder. *)
From Verif Require Import Base Bits Mult_Model Mult_Spec.
Open Scope Z_scope.

Lemma op_val_eq w s x : 1 <= w -> op_val w s (x mod 2 ^ w) = value w s x.
Proof.
  intros H. unfold op_val, value. destruct s; [apply sgn_of_mod; lia|].
  unfold uns. pose proof (uns_range w x ltac:(lia)) as R. unfold uns in R.
  apply sgn_small; [lia|]. replace (w + 1 - 1) with w by lia. lia.
Qed.
Lemma mul_wire_eq ret lw rw ls rs a b : 0 <= ret ->
  mul_wire ret lw rw ls rs a b = (op_val lw ls a * op_val rw rs b) mod 2 ^ ret.
Proof.
  intros H. unfold mul_wire, ext. set (c := Z.max ret _). assert (Hc : ret <= c) by apply Z.le_max_l. rewrite <- Z.mul_mod by (pose proof (pow_pos c ltac:(lia)); lia).
  apply mod_mod_le. lia.
Qed.
Lemma madd_wire_eq ret aw bw cw sa sb sc a b c : 0 <= ret ->
  madd_wire ret aw bw cw sa sb sc a b c = (op_val aw sa a * op_val bw sb b + op_val cw sc c) mod 2 ^ ret.
Proof.
  intros H. unfold madd_wire, ext. set (x := Z.max ret _). assert (Hx : ret <= x) by apply Z.le_max_l. rewrite <- Z.add_mod by (pose proof (pow_pos x ltac:(lia)); lia).
  rewrite mod_mod_le by lia. pose proof (pow_pos ret H) as P.
  rewrite (Z.add_mod (sgn ret _)), sgn_mod, mul_wire_eq, Z.mod_mod, <- Z.add_mod by lia. reflexivity.
Qed.

Lemma nth_removelast {A} (l : list A) k x : nth_error (removelast l) k = Some x -> nth_error l k = Some x.
Proof.
  revert k. induction l as [|a l IH]; intros k H; [destruct k; discriminate|].
  destruct l as [|b l]; [destruct k; discriminate|].
  change (removelast (a :: b :: l)) with (a :: removelast (b :: l)) in H. destruct k as [|k]; [exact H|]. cbn in *. apply IH, H.
Qed.
Lemma removelast_nth {A} (l : list A) k : (S k < length l)%nat -> nth_error (removelast l) k = nth_error l k.
Proof.
  revert k. induction l as [|a l IH]; intros k H; [cbn in H; lia|].
  destruct l as [|b l]; [cbn in H; lia|].
  change (removelast (a :: b :: l)) with (a :: removelast (b :: l)). destruct k as [|k]; [reflexivity|]. cbn [nth_error].
  apply IH. cbn in *. lia.
Qed.
Lemma removelast_length {A} (l : list A) : length (removelast l) = (length l - 1)%nat.
Proof.
  induction l as [|a l IH]; [reflexivity|]. destruct l as [|b l]; [reflexivity|].
  change (removelast (a :: b :: l)) with (a :: removelast (b :: l)). cbn [length] in *. rewrite IH. lia.
Qed.
Lemma last_nth {A} (l : list A) d x : nth_error l (length l - 1) = Some x -> last l d = x.
Proof.
  induction l as [|a l IH]; intros H; [discriminate|]. destruct l as [|b l]; [inversion H; reflexivity|].
  change (last (a :: b :: l) d) with (last (b :: l) d). apply IH.
  replace (length (a :: b :: l) - 1)%nat with (S (length (b :: l) - 1)) in H by (cbn; lia). exact H.
Qed.

Section Mult.
  Variables (lw rw : Z) (ls rs : bool).
  Hypothesis Hlw : 1 <= lw.
  Hypothesis Hrw : 1 <= rw.
  Definition prod (x : Z * Z) : Z := (value lw ls (fst x) * value rw rs (snd x)) mod 2 ^ (lw + rw).

  (** the pipe holds the products of the tape, as far as it reaches *)
  Definition mok (d : nat) (s : mul) (t : list (Z * Z)) : Prop :=
    length (p_pipe s) = (d - 1)%nat /\
    (forall x r, t = x :: r -> p_a s = fst x mod 2 ^ lw /\ p_b s = snd x mod 2 ^ rw) /\
    (forall k x, (k < d - 1)%nat -> nth_error t (S k) = Some x -> nth_error (p_pipe s) k = Some (prod x)).
  Lemma mok_step d s t i : (2 <= d)%nat -> mok d s t ->
    mok d (mul_step lw rw ls rs s i) (if mi_update i then (mi_a i, mi_b i) :: t else t).
  Proof.
    intros Hd (L & A & P). unfold mul_step. destruct (mi_update i); [|split; [exact L|split; [exact A|exact P]]].
    unfold mok. cbn [p_a p_b p_pipe]. split; [cbn [length]; rewrite removelast_length, L; lia|]. split.
    - intros x r E. inversion E; subst. auto.
    - intros [|k] x Hk Hx; cbn [nth_error] in *.
      + destruct t as [|y r]; [discriminate|]. cbn in Hx. inversion Hx; subst y. destruct (A x r eq_refl) as (E1 & E2).
        rewrite mul_wire_eq, E1, E2, !op_val_eq by lia. reflexivity.
      + rewrite removelast_nth by lia. apply P; [lia|exact Hx].
  Qed.
  Definition pairs (t : tape) : list (Z * Z) := map fst t.
  Lemma pairs_step t i : pairs (tape_step t i) = if mi_update i then (mi_a i, mi_b i) :: pairs t else pairs t.
  Proof.
    unfold tape_step, pairs. assert (E : map fst (map (fun x : Z * Z * bool => (fst x, false)) t) = map fst t) by (rewrite map_map; reflexivity).
    destruct (mi_rst i), (mi_update i); cbn [map fst]; rewrite ?E; reflexivity.
  Qed.
  Lemma mok_run d s t ins : (2 <= d)%nat -> mok d s (pairs t) ->
    mok d (fold_left (mul_step lw rw ls rs) ins s) (pairs (fold_left tape_step ins t)).
  Proof.
    intros Hd. revert s t. induction ins as [|i r IH]; intros s t H; [exact H|]. cbn. apply IH.
    rewrite pairs_step. apply mok_step; assumption.
  Qed.

  Lemma mul_delivers d s ins a b e : (2 <= d)%nat -> length (p_pipe s) = (d - 1)%nat ->
    nth_error (tape_of ins) (d - 1) = Some (a, b, e) ->
    mul_out (fold_left (mul_step lw rw ls rs) ins s) = (value lw ls a * value rw rs b) mod 2 ^ (lw + rw).
  Proof.
    intros Hd L H. unfold tape_of in H.
    assert (H0 : mok d s (pairs [])) by (split; [exact L|split; [intros; discriminate|intros k x _ X; discriminate]]).
    apply (mok_run d s [] ins Hd) in H0. destruct H0 as (L' & _ & P).
    unfold mul_out. change ((value lw ls a * value rw rs b) mod 2 ^ (lw + rw)) with (prod (a, b)).
    apply last_nth. rewrite L'. apply P; [lia|]. replace (S (d - 1 - 1)) with (d - 1)%nat by lia.
    unfold pairs. rewrite nth_error_map, H. reflexivity.
  Qed.

  (** the result read with its sign is the exact product *)
  Lemma product_exact a b : value (lw + rw) (ls || rs) ((value lw ls a * value rw rs b) mod 2 ^ (lw + rw)) = value lw ls a * value rw rs b.
  Proof.
    pose proof (pow_pos (lw + rw) ltac:(lia)) as P. pose proof (Z.pow_add_r 2 lw rw ltac:(lia) ltac:(lia)) as E.
    pose proof (pow_split lw Hlw) as El. pose proof (pow_split rw Hrw) as Er. pose proof (pow_split (lw + rw) ltac:(lia)) as Elr.
    pose proof (pow_pos (lw - 1) ltac:(lia)). pose proof (pow_pos (rw - 1) ltac:(lia)).
    assert (Ra : if ls then - 2 ^ (lw - 1) <= value lw ls a < 2 ^ (lw - 1) else 0 <= value lw ls a < 2 ^ lw)
      by (destruct ls; [apply sgn_range; lia|apply uns_range; lia]).
    assert (Rb : if rs then - 2 ^ (rw - 1) <= value rw rs b < 2 ^ (rw - 1) else 0 <= value rw rs b < 2 ^ rw)
      by (destruct rs; [apply sgn_range; lia|apply uns_range; lia]).
    set (x := value lw ls a) in *. set (y := value rw rs b) in *. set (m := 2 ^ (lw - 1)) in *. set (n := 2 ^ (rw - 1)) in *.
    assert (Ex : 2 ^ (lw + rw) = 4 * (m * n)) by (rewrite E, El, Er; lia).
    assert (Eh : 2 ^ (lw + rw - 1) = 2 * (m * n)) by lia.
    clear E Elr.
    unfold value. destruct (ls || rs) eqn:S.
    - rewrite sgn_of_mod by lia. apply sgn_small; [lia|]. rewrite Eh.
      destruct ls, rs; try discriminate; rewrite ?El, ?Er in *; clear - Ra Rb H H0; nia.
    - destruct ls, rs; try discriminate. unfold uns. rewrite Z.mod_mod by lia. apply Z.mod_small. rewrite Ex. rewrite El in Ra. rewrite Er in Rb.
      clear - Ra Rb H H0. nia.
  Qed.
End Mult.

(** ** Valid bits *)
Definition vok (d : nat) (v : list bool) (t : tape) : Prop :=
  length v = d /\ forall k, (k < d)%nat -> nth_error v k = Some (match nth_error t k with Some (_, e) => e | None => false end).
Lemma vok_step d v t i : (2 <= d)%nat -> vok d v t -> vok d (valid_step v i) (tape_step t i).
Proof.
  intros Hd (L & H). unfold valid_step, tape_step. destruct (mi_rst i).
  - split; [rewrite map_length; exact L|]. intros k Hk. rewrite nth_error_map, (H k Hk). cbn [option_map]. f_equal.
    assert (E : forall j, match nth_error (map (fun x : Z * Z * bool => (fst x, false)) t) j with Some (_, e) => e | None => false end = false)
      by (intros j; rewrite nth_error_map; destruct (nth_error t j) as [[? ?]|]; reflexivity).
    destruct (mi_update i); [|symmetry; apply E]. destruct k as [|k]; cbn [nth_error]; [rewrite andb_false_r; reflexivity|symmetry; apply E].
  - destruct (mi_update i); [|split; [exact L|exact H]].
    split; [cbn [length]; rewrite removelast_length, L; lia|]. intros [|k] Hk; cbn [nth_error]; [rewrite andb_true_r; reflexivity|].
    rewrite removelast_nth by lia. apply H. lia.
Qed.
Lemma valid_delivers d ins : (2 <= d)%nat ->
  valid_out (fold_left valid_step ins (repeat false d)) = match nth_error (tape_of ins) (d - 1) with Some (_, e) => e | None => false end.
Proof.
  intros Hd. assert (H0 : vok d (repeat false d) []).
  { split; [apply repeat_length|]. intros k Hk. rewrite nth_error_repeat by exact Hk. destruct k; reflexivity. }
  assert (H : forall v t, vok d v t -> vok d (fold_left valid_step ins v) (fold_left tape_step ins t)).
  { induction ins as [|i r IH]; intros v t Hv; [exact Hv|]. cbn. apply IH, vok_step; assumption. }
  destruct (H _ _ H0) as (L & P). apply last_nth. rewrite L. apply P. lia.
Qed.

(** ** Multiply-add *)
Section Madd.
  Variables (aw bw cw : Z) (sa sb sc : bool).
  Hypothesis Haw : 1 <= aw.
  Hypothesis Hbw : 1 <= bw.
  Hypothesis Hcw : 1 <= cw.
  Definition mprod (x : Z * Z * Z) : Z :=
    (value aw sa (fst (fst x)) * value bw sb (snd (fst x)) + value cw sc (snd x)) mod 2 ^ madd_ret aw bw cw.
  Definition aok (d : nat) (s : madd) (t : list (Z * Z * Z)) : Prop :=
    length (q_pipe s) = (d - 1)%nat /\
    (forall x r, t = x :: r -> q_a s = fst (fst x) mod 2 ^ aw /\ q_b s = snd (fst x) mod 2 ^ bw /\ q_c s = snd x mod 2 ^ cw) /\
    (forall k x, (k < d - 1)%nat -> nth_error t (S k) = Some x -> nth_error (q_pipe s) k = Some (mprod x)).
  Lemma aok_step d s t i : (2 <= d)%nat -> aok d s t ->
    aok d (madd_step aw bw cw sa sb sc s i) (if ai_update i then (ai_a i, ai_b i, ai_c i) :: t else t).
  Proof.
    intros Hd (L & A & P). unfold madd_step. destruct (ai_update i); [|split; [exact L|split; [exact A|exact P]]].
    unfold aok. cbn [q_a q_b q_c q_pipe]. split; [cbn [length]; rewrite removelast_length, L; lia|]. split.
    - intros x r E. inversion E; subst. auto.
    - intros [|k] x Hk Hx; cbn [nth_error] in *.
      + destruct t as [|y r]; [discriminate|]. cbn in Hx. inversion Hx; subst y. destruct (A x r eq_refl) as (E1 & E2 & E3).
        rewrite madd_wire_eq, E1, E2, E3, !op_val_eq by (unfold madd_ret; lia). reflexivity.
      + rewrite removelast_nth by lia. apply P; [lia|exact Hx].
  Qed.
  Lemma madd_delivers d s ins a b c : (2 <= d)%nat -> length (q_pipe s) = (d - 1)%nat ->
    nth_error (madd_tape ins) (d - 1) = Some (a, b, c) ->
    madd_out (fold_left (madd_step aw bw cw sa sb sc) ins s) = (value aw sa a * value bw sb b + value cw sc c) mod 2 ^ madd_ret aw bw cw.
  Proof.
    intros Hd L H.
    assert (K : forall ins s t, aok d s t -> aok d (fold_left (madd_step aw bw cw sa sb sc) ins s) (madd_tape ins ++ t)).
    { clear ins H s L. induction ins as [|i r IH]; intros s t Hs; [exact Hs|].
      apply (aok_step d s t i Hd) in Hs. apply IH in Hs. cbn [fold_left]. unfold madd_tape in *. cbn [flat_map].
      rewrite rev_app_distr, <- app_assoc. destruct (ai_update i); exact Hs. }
    assert (H0 : aok d s []) by (split; [exact L|split; [intros; discriminate|intros k x _ X; discriminate]]).
    apply (K ins) in H0. rewrite app_nil_r in H0. destruct H0 as (L' & _ & P).
    unfold madd_out. change ((value aw sa a * value bw sb b + value cw sc c) mod 2 ^ madd_ret aw bw cw) with (mprod (a, b, c)).
    apply last_nth. rewrite L'. apply P; [lia|]. replace (S (d - 1 - 1)) with (d - 1)%nat by lia. exact H.
  Qed.
End Madd.
