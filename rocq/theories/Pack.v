(** Bit concatenation and slicing, as emitted for [vtypes.Cat] and [vtypes.Slice]
    [core/vtypes.py: Cat, Slice]; used by skid buffers, packed RAM accesses, DMA request words. *)
From Verif Require Import Base.
Open Scope Z_scope.

Definition total_width (fs : list (Z * Z)) : Z := fold_right (fun f acc => fst f + acc) 0 fs.

(** Verilog [{v1, v2, ...}]: first operand in the most significant position; each operand
    (width, value) contributes its low [width] bits. *)
Fixpoint cat (fs : list (Z * Z)) : Z :=
  match fs with
  | [] => 0
  | (w, v) :: r => Z.lor (Z.shiftl (v mod 2 ^ w) (total_width r)) (cat r)
  end.

(** Verilog [x[msb:lsb]]. *)
Definition slice (x msb lsb : Z) : Z := Z.shiftr x lsb mod 2 ^ (msb - lsb + 1).

(** [types/skidbuffer.py:48-58] the unpacking loop: msb starts at width-1 and moves down. *)
Fixpoint unpack_from (x msb : Z) (ws : list Z) : list Z :=
  match ws with
  | [] => []
  | w :: r => slice x msb (msb - w + 1) :: unpack_from x (msb - w) r
  end.

Lemma total_nonneg fs : Forall (fun f => 0 <= fst f) fs -> 0 <= total_width fs.
Proof.
  induction fs as [|f fs IH]; intros H; [cbn; lia|].
  pose proof (Forall_inv H). specialize (IH (Forall_inv_tail H)).
  change (total_width (f :: fs)) with (fst f + total_width fs). cbn beta in *. lia.
Qed.

Lemma lor_shift_add a b n : 0 <= n -> 0 <= b < 2 ^ n -> Z.lor (Z.shiftl a n) b = a * 2 ^ n + b.
Proof.
  intros Hn Hb. rewrite <- Z.shiftl_mul_pow2 by lia. symmetry.
  rewrite Z.add_nocarry_lxor.
  - rewrite <- Z.lxor_lor; [reflexivity|].
    apply Z.bits_inj'; intros i Hi. rewrite Z.land_spec, Z.bits_0.
    destruct (Z.lt_ge_cases i n).
    + rewrite Z.shiftl_spec_low by lia. reflexivity.
    + replace (Z.testbit b i) with false; [apply andb_false_r|].
      symmetry. destruct (Z.eq_dec b 0) as [->|Hb0]; [apply Z.bits_0|].
      apply Z.bits_above_log2; [lia|].
      assert (Z.log2 b < n) by (apply Z.log2_lt_pow2; lia). lia.
  - apply Z.bits_inj'; intros i Hi. rewrite Z.land_spec, Z.bits_0.
    destruct (Z.lt_ge_cases i n).
    + rewrite Z.shiftl_spec_low by lia. reflexivity.
    + replace (Z.testbit b i) with false; [apply andb_false_r|].
      symmetry. destruct (Z.eq_dec b 0) as [->|Hb0]; [apply Z.bits_0|].
      apply Z.bits_above_log2; [lia|].
      assert (Z.log2 b < n) by (apply Z.log2_lt_pow2; lia). lia.
Qed.

Lemma cat_bound fs : Forall (fun f => 0 <= fst f) fs -> 0 <= cat fs < 2 ^ total_width fs.
Proof.
  induction fs as [|[w v] fs IH]; intros H; [cbn; lia|].
  pose proof (Forall_inv H) as Hw; cbn [fst] in Hw. pose proof (Forall_inv_tail H) as Hr.
  specialize (IH Hr). pose proof (total_nonneg fs Hr).
  cbn [cat]. rewrite lor_shift_add by assumption.
  change (total_width ((w, v) :: fs)) with (w + total_width fs).
  rewrite Z.pow_add_r by lia.
  assert (0 <= v mod 2 ^ w < 2 ^ w) by (apply Z.mod_pos_bound; apply Z.pow_pos_nonneg; lia).
  nia.
Qed.

Lemma cat_add w v fs : 0 <= w -> Forall (fun f => 0 <= fst f) fs ->
  cat ((w, v) :: fs) = (v mod 2 ^ w) * 2 ^ total_width fs + cat fs.
Proof. intros Hw H. cbn [cat]. apply lor_shift_add; [apply total_nonneg|apply cat_bound]; assumption. Qed.

Lemma slice_low_irrelevant hi lo n msb lsb : 0 <= n <= lsb -> 0 <= lo < 2 ^ n ->
  slice (hi * 2 ^ n + lo) msb lsb = slice (hi * 2 ^ n) msb lsb.
Proof.
  intros Hn Hlo. unfold slice. f_equal. rewrite !Z.shiftr_div_pow2 by lia.
  replace lsb with (n + (lsb - n)) by lia. rewrite Z.pow_add_r by lia.
  assert (0 < 2 ^ n) by (apply Z.pow_pos_nonneg; lia).
  assert (0 < 2 ^ (lsb - n)) by (apply Z.pow_pos_nonneg; lia).
  rewrite <- !Z.div_div by lia.
  rewrite Z.div_add_l by lia. rewrite (Z.div_small lo) by lia.
  rewrite Z.div_mul by lia. rewrite Z.add_0_r. reflexivity.
Qed.

Lemma slice_high_irrelevant hi lo n msb lsb : 0 <= lsb -> msb + 1 <= n -> lsb <= msb + 1 ->
  slice (hi * 2 ^ n + lo) msb lsb = slice lo msb lsb.
Proof.
  intros Hl Hm Hle. unfold slice. rewrite !Z.shiftr_div_pow2 by lia.
  replace n with ((n - msb - 1) + (msb - lsb + 1) + lsb) by lia. rewrite !Z.pow_add_r by lia.
  rewrite !Z.mul_assoc, Z.div_add_l by (apply Z.pow_nonzero; lia).
  rewrite Z.add_comm, Z_mod_plus_full. reflexivity.
Qed.

(** Packing then unpacking gives every operand back, truncated to its width. *)
Lemma unpack_cat_gen fs : forall hi, Forall (fun f => 0 <= fst f) fs ->
  unpack_from (hi * 2 ^ total_width fs + cat fs) (total_width fs - 1) (map fst fs)
  = map (fun f => snd f mod 2 ^ fst f) fs.
Proof.
  induction fs as [|[w v] fs IH]; intros hi H; [reflexivity|].
  pose proof (Forall_inv H) as Hw; cbn [fst] in Hw. pose proof (Forall_inv_tail H) as Hr.
  pose proof (total_nonneg fs Hr) as Ht. pose proof (cat_bound fs Hr) as Hb.
  cbn [map fst snd unpack_from]. rewrite cat_add by assumption.
  change (total_width ((w, v) :: fs)) with (w + total_width fs).
  f_equal.
  - rewrite Z.add_assoc. rewrite Z.pow_add_r by lia. rewrite Z.mul_assoc, <- Z.mul_add_distr_r.
    rewrite slice_low_irrelevant by lia. unfold slice.
    replace (w + total_width fs - 1 - w + 1) with (total_width fs) by lia.
    rewrite Z.shiftr_div_pow2, Z.div_mul by (try apply Z.pow_nonzero; lia).
    replace (w + total_width fs - 1 - total_width fs + 1) with w by lia.
    rewrite Z.add_comm, Z_mod_plus_full. apply Z.mod_mod. apply Z.pow_nonzero; lia.
  - replace (w + total_width fs - 1 - w) with (total_width fs - 1) by lia.
    rewrite Z.pow_add_r, Z.mul_assoc, Z.add_assoc, <- Z.mul_add_distr_r by lia.
    apply IH. exact Hr.
Qed.

Lemma unpack_cat fs : Forall (fun f => 0 <= fst f) fs ->
  unpack_from (cat fs) (total_width fs - 1) (map fst fs) = map (fun f => snd f mod 2 ^ fst f) fs.
Proof. intros H. exact (unpack_cat_gen fs 0 H). Qed.

(** Packed words of equal width, element 0 in the least significant position:
    [Cat( *reversed(words))] and [Srl(x, w * i)] truncated to [w]
    [thread/ram.py:722-725,822-824]. *)
Definition pack_words (w : Z) (vs : list Z) : Z := cat (rev (map (fun v => (w, v)) vs)).
Definition packed_word (w x : Z) (i : nat) : Z := Z.shiftr x (w * Z.of_nat i) mod 2 ^ w.

Lemma total_width_app a b : total_width (a ++ b) = total_width a + total_width b.
Proof. unfold total_width. induction a as [|f a IH]; [reflexivity|]. cbn [app fold_right]. rewrite IH. lia. Qed.
Lemma total_width_const w vs : total_width (map (fun v => (w, v)) vs) = w * Z.of_nat (length vs).
Proof. induction vs as [|v vs IH]; cbn [map length]; [cbn; lia|].
  change (total_width ((w, v) :: ?r)) with (w + total_width r). rewrite IH. lia. Qed.
Lemma total_width_rev fs : total_width (rev fs) = total_width fs.
Proof. induction fs as [|f fs IH]; [reflexivity|]. cbn [rev]. rewrite total_width_app, IH.
  change (total_width (f :: fs)) with (fst f + total_width fs). change (total_width [f]) with (fst f + 0). lia. Qed.

Lemma cat_app a b : Forall (fun f => 0 <= fst f) a -> Forall (fun f => 0 <= fst f) b ->
  cat (a ++ b) = cat a * 2 ^ total_width b + cat b.
Proof.
  induction a as [|[w v] a IH]; intros Ha Hb; [cbn; lia|].
  pose proof (Forall_inv Ha) as Hw; cbn in Hw. pose proof (Forall_inv_tail Ha) as Ha'.
  rewrite <- app_comm_cons. rewrite !cat_add; try assumption; [|apply Forall_app; auto].
  rewrite IH by assumption. rewrite total_width_app, Z.pow_add_r by (apply total_nonneg; assumption). ring.
Qed.

Lemma const_nonneg w vs : 0 <= w -> Forall (fun f : Z * Z => 0 <= fst f) (map (fun v => (w, v)) vs).
Proof. intros H. apply Forall_forall. intros f Hf. apply in_map_iff in Hf. destruct Hf as [v [<- _]]. exact H. Qed.

Lemma pack_words_cons w v vs : 0 <= w ->
  pack_words w (v :: vs) = pack_words w vs * 2 ^ w + v mod 2 ^ w.
Proof.
  intros Hw. unfold pack_words. cbn [map rev]. rewrite cat_app.
  - cbn [cat total_width fold_right fst]. rewrite Z.shiftl_0_r, Z.lor_0_r, Z.add_0_r. reflexivity.
  - apply Forall_rev, const_nonneg; exact Hw.
  - constructor; [exact Hw|constructor].
Qed.

Lemma packed_word_pack w vs i : 0 <= w -> (i < length vs)%nat ->
  packed_word w (pack_words w vs) i = nth i vs 0 mod 2 ^ w.
Proof.
  intros Hw. revert i. induction vs as [|v vs IH]; intros i Hi; [cbn in Hi; lia|].
  assert (Hp : 0 < 2 ^ w) by (apply Z.pow_pos_nonneg; lia).
  rewrite pack_words_cons by exact Hw. destruct i as [|i]; unfold packed_word in *.
  - rewrite Z.mul_0_r, Z.shiftr_0_r. cbn [nth]. rewrite Z.add_comm, Z_mod_plus_full. apply Z.mod_mod; lia.
  - cbn [nth length] in *. rewrite <- IH by lia. f_equal.
    replace (w * Z.of_nat (S i)) with (w + w * Z.of_nat i) by lia.
    rewrite <- Z.shiftr_shiftr by nia. f_equal.
    rewrite Z.shiftr_div_pow2, Z.div_add_l by lia.
    rewrite Z.div_small by (apply Z.mod_pos_bound; lia). lia.
Qed.
