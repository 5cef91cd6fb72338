From Verif Require Import Base AxiMemWord_Model AxiMemWord_Spec.
Open Scope Z_scope.

Lemma p2 n : 0 <= n -> 0 < 2 ^ n.
Proof. intros. apply Z.pow_pos_nonneg; lia. Qed.

Lemma wrap_range w x : 1 <= w -> - 2 ^ (w - 1) <= wrap_s w x < 2 ^ (w - 1).
Proof.
  intros. unfold wrap_s. pose proof (p2 (w - 1) ltac:(lia)). pose proof (Z.mod_pos_bound (x + 2 ^ (w - 1)) (2 ^ w) (p2 w ltac:(lia))).
  assert (2 ^ w = 2 * 2 ^ (w - 1)) by (rewrite <- Z.pow_succ_r by lia; f_equal; lia). lia.
Qed.
Lemma wrap_mod w x : 1 <= w -> wrap_s w x mod 2 ^ w = x mod 2 ^ w.
Proof.
  intros. unfold wrap_s. pose proof (p2 w ltac:(lia)). rewrite Zminus_mod_idemp_l. f_equal. lia.
Qed.
Lemma wrap_bits w x j : 0 <= j < w -> Z.testbit (wrap_s w x) j = Z.testbit x j.
Proof.
  intros. rewrite <- (Z.mod_pow2_bits_low _ w j) by lia. rewrite wrap_mod by lia. apply Z.mod_pow2_bits_low; lia.
Qed.
Lemma wrap_small w x : 1 <= w -> - 2 ^ (w - 1) <= x < 2 ^ (w - 1) -> wrap_s w x = x.
Proof.
  intros. unfold wrap_s. pose proof (p2 (w - 1) ltac:(lia)).
  assert (2 ^ w = 2 * 2 ^ (w - 1)) by (rewrite <- Z.pow_succ_r by lia; f_equal; lia).
  rewrite Z.mod_small; lia.
Qed.
(** a signed number is determined by its bits *)
Lemma word_unique m b bits v v' : 1 <= bits -> is_word m b bits v -> is_word m b bits v' -> v = v'.
Proof.
  intros B [R1 H1] [R2 H2].
  assert (E : v mod 2 ^ bits = v' mod 2 ^ bits).
  { apply Z.bits_inj'. intros n N. destruct (Z_lt_le_dec n bits).
    - rewrite !Z.mod_pow2_bits_low by lia. rewrite H1, H2 by lia. reflexivity.
    - rewrite !Z.mod_pow2_bits_high by lia. reflexivity. }
  rewrite <- (wrap_small bits v), <- (wrap_small bits v') by assumption. unfold wrap_s.
  f_equal. rewrite <- Zplus_mod_idemp_l, E, Zplus_mod_idemp_l. reflexivity.
Qed.

Section W.
  Variable q : bm.

  Fixpoint le (n : nat) (m : Z -> Z) (a : Z) : Z :=
    match n with O => 0 | S n => m a + 2 ^ 8 * le n m (a + 1) end.
  Lemma cat_gen m n : forall k a, (forall i, 0 <= i < Z.of_nat n -> inside q (a + Z.of_nat k + i) = true) ->
    fold_right (fun i v => get q m (a + Z.of_nat i) * 2 ^ (8 * Z.of_nat i) + v) 0 (seq k n) = 2 ^ (8 * Z.of_nat k) * le n m (a + Z.of_nat k).
  Proof.
    induction n as [|n IH]; intros k a H; [cbn; lia|]. cbn [seq fold_right le]. rewrite IH.
    - unfold get. specialize (H 0 ltac:(lia)). rewrite Z.add_0_r in H. rewrite H.
      replace (a + Z.of_nat (S k)) with (a + Z.of_nat k + 1) by lia.
      replace (8 * Z.of_nat (S k)) with (8 * Z.of_nat k + 8) by lia. rewrite Z.pow_add_r by lia. ring.
    - intros i Hi. specialize (H (i + 1) ltac:(lia)). replace (a + Z.of_nat (S k) + i) with (a + Z.of_nat k + (i + 1)) by lia. exact H.
  Qed.
  Lemma cat_le m a n : 0 <= a -> a + Z.of_nat n <= 2 ^ k_mw q -> cat q m a n = le n m a.
  Proof.
    intros A L. unfold cat. rewrite cat_gen.
    - cbn [Z.of_nat]. rewrite Z.mul_0_r, Z.add_0_r. lia.
    - intros i Hi. unfold inside. lia.
  Qed.
  Lemma le_bits m : bytes m -> forall n a j, 0 <= j ->
    Z.testbit (le n m a) j = if j <? 8 * Z.of_nat n then Z.testbit (m (a + j / 8)) (j mod 8) else false.
  Proof.
    intros BM. induction n as [|n IH]; intros a j J.
    - cbn [le]. rewrite Z.bits_0. replace (j <? 8 * Z.of_nat 0) with false by lia. reflexivity.
    - cbn [le]. destruct (Z_lt_le_dec j 8) as [L|L].
      + replace (j <? 8 * Z.of_nat (S n)) with true by lia.
        rewrite <- (Z.mod_pow2_bits_low _ 8 j) by lia.
        rewrite (Z.mul_comm (2 ^ 8)), Z.mod_add by lia. rewrite Z.mod_pow2_bits_low by lia.
        rewrite Z.div_small, Z.mod_small by lia. f_equal. f_equal. lia.
      + replace j with (8 + (j - 8)) at 1 by lia. rewrite (Z.add_comm 8), <- Z.div_pow2_bits by lia.
        rewrite (Z.mul_comm (2 ^ 8)), Z.div_add by lia. rewrite (Z.div_small (m a)) by apply BM.
        rewrite Z.add_0_l, IH by lia.
        replace (j - 8 <? 8 * Z.of_nat n) with (j <? 8 * Z.of_nat (S n)) by lia.
        destruct (j <? 8 * Z.of_nat (S n)); [|reflexivity].
        replace (j - 8) with (j + (-1) * 8) by lia. rewrite Z.div_add, Z.mod_add by lia. f_equal. f_equal. lia.
  Qed.
  Lemma le_nonneg m : bytes m -> forall n a, 0 <= le n m a.
  Proof. intros BM. induction n as [|n IH]; intros a; cbn [le]; [lia|]. specialize (IH (a + 1)). pose proof (BM a). lia. Qed.

  Lemma spread_gen v n : forall k a m x, (forall i, 0 <= i < Z.of_nat n -> inside q (a + Z.of_nat k + i) = true) ->
    fold_left (fun m' i => put q m' (a + Z.of_nat i) (v / 2 ^ (8 * Z.of_nat i) mod 2 ^ 8)) (seq k n) m x =
    if (a + Z.of_nat k <=? x) && (x <? a + Z.of_nat k + Z.of_nat n) then v / 2 ^ (8 * (x - a)) mod 2 ^ 8 else m x.
  Proof.
    induction n as [|n IH]; intros k a m x H.
    - cbn [seq fold_left]. replace ((a + Z.of_nat k <=? x) && (x <? a + Z.of_nat k + Z.of_nat 0)) with false by lia. reflexivity.
    - cbn [seq fold_left]. rewrite IH.
      + pose proof (H 0 ltac:(lia)) as H0. rewrite Z.add_0_r in H0. unfold put, upd. rewrite H0.
        destruct (x =? a + Z.of_nat k) eqn:E.
        * replace ((a + Z.of_nat (S k) <=? x) && (x <? a + Z.of_nat (S k) + Z.of_nat n)) with false by lia.
          replace ((a + Z.of_nat k <=? x) && (x <? a + Z.of_nat k + Z.of_nat (S n))) with true by lia.
          do 4 f_equal. lia.
        * replace ((a + Z.of_nat (S k) <=? x) && (x <? a + Z.of_nat (S k) + Z.of_nat n))
            with ((a + Z.of_nat k <=? x) && (x <? a + Z.of_nat k + Z.of_nat (S n))) by lia. reflexivity.
      + intros i Hi. specialize (H (i + 1) ltac:(lia)). replace (a + Z.of_nat (S k) + i) with (a + Z.of_nat k + (i + 1)) by lia. exact H.
  Qed.
  Lemma spread_at m a n v x : 0 <= a -> a + Z.of_nat n <= 2 ^ k_mw q ->
    spread q m a n v x = if (a <=? x) && (x <? a + Z.of_nat n) then v / 2 ^ (8 * (x - a)) mod 2 ^ 8 else m x.
  Proof.
    intros A L. unfold spread. rewrite spread_gen.
    - cbn [Z.of_nat]. rewrite Z.add_0_r. reflexivity.
    - intros i Hi. unfold inside. lia.
  Qed.
  Lemma spread_bytes m a n v : 0 <= a -> a + Z.of_nat n <= 2 ^ k_mw q -> bytes m -> bytes (spread q m a n v).
  Proof.
    intros A L BM x. rewrite spread_at by assumption. destruct (_ && _); [apply Z.mod_pos_bound; lia|apply BM].
  Qed.
  Lemma spread_mbit m a n v j : 0 <= a -> a + Z.of_nat n <= 2 ^ k_mw q ->
    mbit (spread q m a n v) j = if (8 * a <=? j) && (j <? 8 * (a + Z.of_nat n)) then Z.testbit v (j - 8 * a) else mbit m j.
  Proof.
    intros A L. unfold mbit. rewrite spread_at by assumption.
    pose proof (Z.div_mod j 8 ltac:(lia)) as DM. pose proof (Z.mod_pos_bound j 8 ltac:(lia)) as MB.
    replace ((8 * a <=? j) && (j <? 8 * (a + Z.of_nat n))) with ((a <=? j / 8) && (j / 8 <? a + Z.of_nat n)) by lia.
    destruct ((a <=? j / 8) && (j / 8 <? a + Z.of_nat n)) eqn:E; [|reflexivity].
    rewrite Z.mod_pow2_bits_low by lia. rewrite Z.div_pow2_bits by lia. f_equal. lia.
  Qed.

  (** ** Whole words *)
  Lemma t_read_ok dw m a nb : 1 <= nb -> dw = 8 * nb -> bytes m -> 0 <= a -> a + nb <= 2 ^ k_mw q ->
    is_word m (8 * a) dw (t_read q dw m a).
  Proof.
    intros N D BM A L. unfold t_read. split; [apply wrap_range; lia|]. intros j J.
    rewrite wrap_bits by lia. replace (dw / 8) with nb by (subst; symmetry; rewrite Z.mul_comm; apply Z.div_mul; lia).
    rewrite cat_le by lia. rewrite le_bits by (auto; lia). replace (j <? 8 * Z.of_nat (Z.to_nat nb)) with true by lia.
    unfold mbit. replace (8 * a + j) with (j + a * 8) by lia. rewrite Z.div_add, Z.mod_add by lia. f_equal. f_equal. lia.
  Qed.
  Lemma t_write_ok dw m a nb d : 1 <= nb -> dw = 8 * nb -> bytes m -> 0 <= a -> a + nb <= 2 ^ k_mw q ->
    word_put m (8 * a) dw d (t_write q dw m a d).
  Proof.
    intros N D BM A L. unfold t_write. replace (dw / 8) with nb by (subst; symmetry; rewrite Z.mul_comm; apply Z.div_mul; lia).
    split; [apply spread_bytes; auto; lia|]. intros j. rewrite spread_mbit by lia.
    replace (8 * (a + Z.of_nat (Z.to_nat nb))) with (8 * a + dw) by lia.
    destruct ((8 * a <=? j) && (j <? 8 * a + dw)) eqn:E; [|reflexivity]. apply Z.mod_pow2_bits_low. lia.
  Qed.

  (** ** Words of any width *)
  Lemma where_ok off idx bits : in_memory q off idx bits ->
    w_at off idx bits = off + idx * bits / 8 /\ w_shift idx bits = (idx * bits) mod 8 /\ 0 <= idx * bits.
  Proof.
    intros (H1 & H2 & H3 & H4 & H5). unfold w_at, w_shift, w_bit.
    assert (0 <= idx * bits) by nia. rewrite wrap_small by lia. rewrite Z.quot_div_nonneg, Z.rem_mod_nonneg by lia. auto.
  Qed.
  Lemma nb_ge bits : 1 <= bits -> 1 <= (bits + 7) / 8 /\ bits <= 8 * ((bits + 7) / 8) <= bits + 7.
  Proof.
    intros. pose proof (Z.div_mod (bits + 7) 8 ltac:(lia)). pose proof (Z.mod_pos_bound (bits + 7) 8 ltac:(lia)). lia.
  Qed.

  Lemma read_raw m off idx bits j : bytes m -> in_memory q off idx bits -> 0 <= j < bits ->
    Z.testbit (t_read_word q m idx off bits) j =
    if (idx * bits) mod 8 + j <? 8 * ((bits + 7) / 8) then mbit m (first_bit off idx bits + j) else false.
  Proof.
    intros BM IM J. destruct (where_ok _ _ _ IM) as (E1 & E2 & E3). destruct IM as (H1 & H2 & H3 & H4 & H5).
    destruct (nb_ge bits H3) as [N1 N2]. unfold t_read_word, num_bytes. rewrite E1, E2, wrap_bits by lia.
    pose proof (Z.mod_pos_bound (idx * bits) 8 ltac:(lia)) as MB. pose proof (Z.div_mod (idx * bits) 8 ltac:(lia)) as DM.
    assert (0 <= idx * bits / 8) by (apply Z.div_pos; lia).
    rewrite Z.div_pow2_bits by lia. rewrite cat_le by lia. rewrite le_bits by (auto; lia).
    replace (j + (idx * bits) mod 8 <? 8 * Z.of_nat (Z.to_nat ((bits + 7) / 8)))
      with ((idx * bits) mod 8 + j <? 8 * ((bits + 7) / 8)) by lia.
    destruct (_ <? _); [|reflexivity]. unfold mbit, first_bit.
    replace (8 * off + idx * bits + j) with ((j + (idx * bits) mod 8) + (off + idx * bits / 8) * 8) by lia.
    rewrite Z.div_add, Z.mod_add by lia. f_equal. f_equal. lia.
  Qed.
  Lemma read_word_ok m off idx bits : bytes m -> in_memory q off idx bits -> compact idx bits ->
    is_word m (first_bit off idx bits) bits (t_read_word q m idx off bits).
  Proof.
    intros BM IM C. split; [apply wrap_range; destruct IM; lia|]. intros j J. rewrite read_raw by assumption.
    unfold compact in C. replace (_ <? _) with true by lia. reflexivity.
  Qed.

  Lemma write_raw m off idx bits d j : bytes m -> in_memory q off idx bits ->
    mbit (t_write_word q m idx off d bits) j =
    if (first_bit off idx bits <=? j) && (j <? first_bit off idx bits + bits) &&
       (j <? 8 * (off + idx * bits / 8) + 8 * ((bits + 7) / 8))
    then Z.testbit d (j - first_bit off idx bits) else mbit m j.
  Proof.
    intros BM IM. destruct (where_ok _ _ _ IM) as (E1 & E2 & E3). destruct IM as (H1 & H2 & H3 & H4 & H5).
    destruct (nb_ge bits H3) as [N1 N2]. unfold t_write_word, num_bytes. rewrite E1, E2.
    pose proof (Z.mod_pos_bound (idx * bits) 8 ltac:(lia)) as MB. pose proof (Z.div_mod (idx * bits) 8 ltac:(lia)) as DM.
    assert (P0 : 0 <= idx * bits / 8) by (apply Z.div_pos; lia).
    set (a := off + idx * bits / 8) in *. set (sh := (idx * bits) mod 8) in *. set (nb := (bits + 7) / 8) in *.
    cbv zeta. rewrite spread_mbit by lia. rewrite Z2Nat.id by lia.
    assert (FB : first_bit off idx bits = 8 * a + sh) by (unfold first_bit, a; lia). rewrite FB.
    destruct ((8 * a <=? j) && (j <? 8 * (a + nb))) eqn:EI.
    - rewrite Z.mod_pow2_bits_low by lia. rewrite Z.lor_spec, Z.land_spec, Z.shiftl_spec by lia.
      rewrite (Z.mod_pow2_bits_low _ (8 * nb)) by lia. rewrite Z.lnot_spec by lia.
      rewrite (Z.mod_pow2_bits_low _ (8 * nb)) by lia. rewrite Z.shiftl_spec by lia.
      rewrite cat_le by lia. rewrite le_bits by (auto; lia).
      replace (j - 8 * a <? 8 * Z.of_nat (Z.to_nat nb)) with true by lia.
      replace (j <? 8 * a + 8 * nb) with true by lia. rewrite andb_true_r.
      assert (MJ : Z.testbit (m (a + (j - 8 * a) / 8)) ((j - 8 * a) mod 8) = mbit m j).
      { unfold mbit. replace (j - 8 * a) with (j + (- a) * 8) by lia. rewrite Z.div_add, Z.mod_add by lia. f_equal. f_equal. lia. }
      rewrite MJ.
      assert (ON : Z.testbit (2 ^ bits - 1) (j - 8 * a - sh) = (0 <=? j - 8 * a - sh) && (j - 8 * a - sh <? bits)).
      { replace (2 ^ bits - 1) with (Z.ones bits) by (rewrite Z.ones_equiv; lia). destruct (0 <=? j - 8 * a - sh) eqn:X.
        - cbn [andb]. destruct (j - 8 * a - sh <? bits) eqn:Y; [apply Z.ones_spec_low; lia|apply Z.ones_spec_high; lia].
        - apply Z.testbit_neg_r. lia. }
      rewrite ON. replace (j - (8 * a + sh)) with (j - 8 * a - sh) by lia.
      destruct (8 * a + sh <=? j) eqn:X1; cbn [andb].
      + replace (0 <=? j - 8 * a - sh) with true by lia. cbn [andb].
        destruct (j <? 8 * a + sh + bits) eqn:X2.
        * replace (j - 8 * a - sh <? bits) with true by lia. rewrite Z.mod_pow2_bits_low by lia. cbn [negb].
          rewrite andb_false_r, orb_false_r. reflexivity.
        * replace (j - 8 * a - sh <? bits) with false by lia. rewrite Z.mod_pow2_bits_high by lia. cbn [negb orb].
          apply andb_true_r.
      + replace (0 <=? j - 8 * a - sh) with false by lia. cbn [andb negb]. rewrite (Z.testbit_neg_r (d mod 2 ^ bits)) by lia.
        cbn [orb]. apply andb_true_r.
    - replace ((8 * a + sh <=? j) && (j <? 8 * a + sh + bits) && (j <? 8 * a + 8 * nb)) with false by lia. reflexivity.
  Qed.
  Lemma write_word_bytes m off idx bits d : bytes m -> in_memory q off idx bits -> bytes (t_write_word q m idx off d bits).
  Proof.
    intros BM IM. destruct (where_ok _ _ _ IM) as (E1 & E2 & E3). destruct IM as (H1 & H2 & H3 & H4 & H5).
    destruct (nb_ge bits H3) as [N1 N2].
    assert (P0 : 0 <= idx * bits / 8) by (apply Z.div_pos; lia).
    unfold t_write_word, num_bytes. rewrite E1. apply spread_bytes; auto; lia.
  Qed.
  Lemma write_word_ok m off idx bits d : bytes m -> in_memory q off idx bits -> compact idx bits ->
    word_put m (first_bit off idx bits) bits d (t_write_word q m idx off d bits).
  Proof.
    intros BM IM C. split; [apply write_word_bytes; assumption|]. intros j. rewrite write_raw by assumption.
    unfold compact in C. unfold first_bit.
    pose proof (Z.div_mod (idx * bits) 8 ltac:(lia)) as DM.
    destruct (8 * off + idx * bits <=? j) eqn:X1; [|reflexivity]. cbn [andb].
    destruct (j <? 8 * off + idx * bits + bits) eqn:X2; [|reflexivity]. cbn [andb].
    replace (j <? _) with true by lia. reflexivity.
  Qed.
End W.

(** ** Which widths *)
Ltac ev_mod := repeat match goal with
  | H : context [(?a * ?b) mod 8] |- _ => let v := eval vm_compute in ((a * b) mod 8) in change ((a * b) mod 8) with v in H
  | |- context [(?a * ?b) mod 8] => let v := eval vm_compute in ((a * b) mod 8) in change ((a * b) mod 8) with v
  | H : context [if ?a =? 0 then _ else _] |- _ => let v := eval vm_compute in (a =? 0) in change (a =? 0) with v in H; cbv iota in H
  | |- context [if ?a =? 0 then _ else _] => let v := eval vm_compute in (a =? 0) in change (a =? 0) with v; cbv iota
  end.
Lemma widths bits : 1 <= bits ->
  (forall idx, 0 <= idx -> compact idx bits) <-> (bits mod 8 = 0 \/ bits mod 8 = 1 \/ bits mod 8 = 2 \/ bits mod 8 = 4).
Proof.
  intros B. unfold compact.
  pose proof (Z.div_mod bits 8 ltac:(lia)) as DM. pose proof (Z.mod_pos_bound bits 8 ltac:(lia)) as MB.
  set (r := bits mod 8) in *. set (k := bits / 8) in *.
  assert (NB : (bits + 7) / 8 = if r =? 0 then k else k + 1).
  { rewrite DM. replace (8 * k + r + 7) with (r + 7 + k * 8) by lia. rewrite Z.div_add by lia.
    destruct (r =? 0) eqn:E; [replace r with 0 by lia; reflexivity|].
    replace (r + 7) with (r - 1 + 1 * 8) by lia. rewrite Z.div_add, Z.div_small by lia. lia. }
  assert (MD : forall idx, (idx * bits) mod 8 = (idx mod 8 * r) mod 8).
  { intros. unfold r. apply Zmult_mod. }
  rewrite NB. split.
  - intros H.
    pose proof (H 1 ltac:(lia)) as A1. pose proof (H 2 ltac:(lia)) as A2. pose proof (H 3 ltac:(lia)) as A3.
    pose proof (H 5 ltac:(lia)) as A5.
    rewrite MD in A1, A2, A3, A5. change (1 mod 8) with 1 in A1. change (2 mod 8) with 2 in A2. change (3 mod 8) with 3 in A3.
    change (5 mod 8) with 5 in A5.
    assert (C : r = 0 \/ r = 1 \/ r = 2 \/ r = 3 \/ r = 4 \/ r = 5 \/ r = 6 \/ r = 7) by lia.
    clearbody r k. clear - C A1 A2 A3 A5 DM. destruct C as [->|[->|[->|[->|[->|[->|[->| ->]]]]]]]; auto 10; exfalso; ev_mod; lia.
  - intros C idx I. rewrite MD. pose proof (Z.mod_pos_bound idx 8 ltac:(lia)) as IB. set (i := idx mod 8) in *.
    assert (D : i = 0 \/ i = 1 \/ i = 2 \/ i = 3 \/ i = 4 \/ i = 5 \/ i = 6 \/ i = 7) by lia.
    clearbody r k i. clear - C D DM.
    destruct C as [->|[->|[->| ->]]]; destruct D as [->|[->|[->|[->|[->|[->|[->| ->]]]]]]]; ev_mod; lia.
Qed.
