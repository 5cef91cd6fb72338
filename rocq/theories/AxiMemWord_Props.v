(** C61: the thread functions of the AXI memory read and write words of a packed array. *)
From Verif Require Import Base AxiMemWord_Model AxiMemWord_Spec AxiMemWord_Proofs.
Open Scope Z_scope.

(** ** [read] and [write]: whole words at byte addresses *)
Theorem C61_read : forall q dw nb m a,
  1 <= nb -> dw = 8 * nb -> bytes m -> 0 <= a -> a + nb <= 2 ^ k_mw q ->
  is_word m (8 * a) dw (t_read q dw m a).
Proof. intros q dw nb m a. apply t_read_ok. Qed.
Print Assumptions C61_read.
Theorem C61_write : forall q dw nb m a d,
  1 <= nb -> dw = 8 * nb -> bytes m -> 0 <= a -> a + nb <= 2 ^ k_mw q ->
  word_put m (8 * a) dw d (t_write q dw m a d).
Proof. intros q dw nb m a d. apply t_write_ok. Qed.
Print Assumptions C61_write.

(** ** [read_word] and [write_word]: words of any width side by side *)
Theorem C61_read_word_partial : forall q m off idx bits,
  bytes m -> in_memory q off idx bits -> compact idx bits ->
  is_word m (first_bit off idx bits) bits (t_read_word q m idx off bits).
Proof. intros q m off idx bits. apply read_word_ok. Qed.
Print Assumptions C61_read_word_partial.
Theorem C61_write_word_partial : forall q m off idx bits d,
  bytes m -> in_memory q off idx bits -> compact idx bits ->
  word_put m (first_bit off idx bits) bits d (t_write_word q m idx off d bits).
Proof. intros q m off idx bits d. apply write_word_ok. Qed.
Print Assumptions C61_write_word_partial.

(** A word that was written is read back, any other word of the array is as before. *)
Theorem C61_read_back_partial : forall q m off idx idx' bits d,
  bytes m -> in_memory q off idx bits -> compact idx bits -> in_memory q off idx' bits -> compact idx' bits ->
  let m' := t_write_word q m idx off d bits in
  t_read_word q m' idx' off bits =
    if idx' =? idx then (d + 2 ^ (bits - 1)) mod 2 ^ bits - 2 ^ (bits - 1) else t_read_word q m idx' off bits.
Proof.
  intros q m off idx idx' bits d BM I1 C1 I2 C2 m'.
  destruct (write_word_ok q m off idx bits d BM I1 C1) as [BM' W]. fold m' in BM', W.
  pose proof (read_word_ok q m' off idx' bits BM' I2 C2) as R'.
  pose proof (read_word_ok q m off idx' bits BM I2 C2) as R.
  assert (B : 1 <= bits) by (destruct I1; lia).
  apply (word_unique m' (first_bit off idx' bits) bits _ _ B R').
  unfold first_bit in *. destruct (idx' =? idx) eqn:E.
  - assert (idx' = idx) as -> by lia. split; [apply (wrap_range bits d B)|]. intros j J.
    change ((d + 2 ^ (bits - 1)) mod 2 ^ bits - 2 ^ (bits - 1)) with (wrap_s bits d). rewrite wrap_bits by lia. rewrite W.
    replace ((_ <=? _) && (_ <? _)) with true by lia. f_equal. lia.
  - destruct R as [R1 R2]. split; [exact R1|]. intros j J. rewrite R2, W by exact J.
    assert (D : idx' * bits + bits <= idx * bits \/ idx * bits + bits <= idx' * bits).
    { assert (idx' + 1 <= idx \/ idx + 1 <= idx') as [X|X] by lia; [left|right]; nia. }
    replace ((8 * off + idx * bits <=? 8 * off + idx' * bits + j) && (8 * off + idx' * bits + j <? 8 * off + idx * bits + bits))
      with false by (clear - D J; lia).
    reflexivity.
Qed.
Print Assumptions C61_read_back_partial.

(** All words of an array are [compact] just for these widths. *)
Theorem C61_widths : forall bits, 1 <= bits ->
  (forall idx, 0 <= idx -> compact idx bits) <-> (bits mod 8 = 0 \/ bits mod 8 = 1 \/ bits mod 8 = 2 \/ bits mod 8 = 4).
Proof. exact widths. Qed.
Print Assumptions C61_widths.

(** ** Defects: for every other word neither function is correct, for some contents *)
Theorem C61_straddle_read_refuted : forall q off idx bits,
  in_memory q off idx bits -> ~ compact idx bits ->
  exists m, bytes m /\ ~ is_word m (first_bit off idx bits) bits (t_read_word q m idx off bits).
Proof.
  intros q off idx bits IM NC. exists (fun _ => 255). split; [intros k; lia|]. intros [_ H].
  assert (B : 1 <= bits) by (destruct IM; lia). destruct (nb_ge bits B) as [N1 N2]. unfold compact in NC.
  pose proof (Z.mod_pos_bound (idx * bits) 8 ltac:(lia)) as MB.
  specialize (H (bits - 1) ltac:(lia)). rewrite read_raw in H; [|intros k; lia|exact IM|lia].
  replace (_ <? _) with false in H by lia. unfold mbit in H.
  pose proof (Z.mod_pos_bound (first_bit off idx bits + (bits - 1)) 8 ltac:(lia)) as JB.
  change 255 with (Z.ones 8) in H. rewrite Z.ones_spec_low in H by lia. discriminate.
Qed.
Print Assumptions C61_straddle_read_refuted.
Theorem C61_straddle_write_refuted : forall q off idx bits,
  in_memory q off idx bits -> ~ compact idx bits ->
  exists m d, bytes m /\ ~ word_put m (first_bit off idx bits) bits d (t_write_word q m idx off d bits).
Proof.
  intros q off idx bits IM NC. exists (fun _ => 0), (-1). split; [intros k; lia|]. intros [_ H].
  assert (B : 1 <= bits) by (destruct IM; lia). destruct (nb_ge bits B) as [N1 N2]. unfold compact in NC.
  pose proof (Z.mod_pos_bound (idx * bits) 8 ltac:(lia)) as MB. pose proof (Z.div_mod (idx * bits) 8 ltac:(lia)) as DM.
  specialize (H (first_bit off idx bits + bits - 1)). rewrite write_raw in H; [|intros k; lia|exact IM].
  replace ((first_bit off idx bits <=? first_bit off idx bits + bits - 1) &&
           (first_bit off idx bits + bits - 1 <? first_bit off idx bits + bits)) with true in H by lia.
  replace (first_bit off idx bits + bits - 1 <? 8 * (off + idx * bits / 8) + 8 * ((bits + 7) / 8)) with false in H
    by (unfold first_bit; lia).
  cbn [andb] in H. unfold mbit in H. rewrite Z.bits_0, Z.bits_m1 in H by lia. discriminate.
Qed.
Print Assumptions C61_straddle_write_refuted.

(** The bit number of a word is a signed number of 32 bits: the byte 2^28 of a memory is not found. *)
Theorem C61_far_word_refuted : exists q m off idx bits,
  0 <= off /\ 0 <= idx /\ off + idx * bits / 8 + 1 <= 2 ^ k_mw q /\ bytes m /\ compact idx bits /\ bits = 8 /\
  ~ is_word m (first_bit off idx bits) bits (t_read_word q m idx off bits).
Proof.
  exists (mkBm 30 (fun _ => 0)), (fun _ => 1), 0, (2 ^ 28), 8. cbn [k_mw].
  split; [lia|]. split; [lia|]. split; [vm_compute; discriminate|]. split; [intros k; lia|].
  split; [vm_compute; discriminate|]. split; [reflexivity|]. intros [_ H]. specialize (H 0 ltac:(lia)). vm_compute in H. discriminate.
Qed.
Print Assumptions C61_far_word_refuted.

(** ** Cases *)
Definition qA : bm := mkBm 8 (fun _ => 0).
Definition mA (k : Z) : Z := (k * 37 + 11) mod 2 ^ 8.
Lemma mA_bytes : bytes mA.
Proof. intros k. apply Z.mod_pos_bound. lia. Qed.
Example C61_word_case : bytes mA /\ in_memory qA 5 3 10 /\ compact 3 10 /\
  t_read_word qA mA 3 5 10 = 352 /\ t_read_word qA (t_write_word qA mA 3 5 419 10) 3 5 10 = 419 /\
  map (t_write_word qA mA 3 5 419 10) [7; 8; 9; 10] = [14; 243; 104; 125] /\
  map mA [7; 8; 9; 10] = [14; 51; 88; 125].
Proof. split; [exact mA_bytes|]. split; [unfold in_memory; cbn; lia|]. split; [vm_compute; discriminate|]. vm_compute. auto. Qed.
Example C61_nibble_case : bytes mA /\ in_memory qA 0 3 4 /\ compact 3 4 /\
  map (t_write_word qA mA 3 0 5 4) [0; 1; 2] = [11; 80; 85] /\ map mA [0; 1; 2] = [11; 48; 85].
Proof. split; [exact mA_bytes|]. split; [unfold in_memory; cbn; lia|]. split; [vm_compute; discriminate|]. vm_compute. auto. Qed.
Example C61_plain_case : bytes mA /\ t_read qA 32 mA 4 = 250201247 /\
  map (t_write qA 32 mA 4 1234) [3; 4; 5; 6; 7; 8] = [122; 210; 4; 0; 0; 51].
Proof. split; [exact mA_bytes|]. vm_compute. auto. Qed.
(** words of 3 bits: the third one straddles two bytes *)
Example C61_straddle_case : in_memory qA 0 2 3 /\ ~ compact 2 3.
Proof. split; [unfold in_memory; cbn; lia|]. vm_compute. intros H. apply H. reflexivity. Qed.
