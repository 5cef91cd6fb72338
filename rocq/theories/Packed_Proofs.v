From Verif Require Import Base Ram_Model Ram_Spec Ram_Proofs Packed_Model Packed_Spec.
Open Scope Z_scope.

(** ** Words and elements *)
Lemma pack_bound dw banks q n : 0 <= dw -> 0 <= pack dw banks q n < 2 ^ (dw * Z.of_nat n).
Proof.
  intros D. induction n as [|n IH]; [cbn; rewrite Z.mul_0_r; cbn; lia|]. cbn [pack].
  pose proof (Z.mod_pos_bound (banks n q) (2 ^ dw) ltac:(apply Z.pow_pos_nonneg; lia)) as M.
  replace (dw * Z.of_nat (S n)) with (dw + dw * Z.of_nat n) by lia. rewrite Z.pow_add_r by nia.
  set (P := 2 ^ (dw * Z.of_nat n)) in *. set (Q := 2 ^ dw) in *. clearbody P Q. nia.
Qed.
Lemma pack_element dw banks q n i : 0 <= dw -> (i < n)%nat -> element dw i (pack dw banks q n) = banks i q mod 2 ^ dw.
Proof.
  intros D. unfold element. induction n as [|n IH]; intros Hi; [lia|]. cbn [pack].
  assert (PP : 0 < 2 ^ dw) by (apply Z.pow_pos_nonneg; lia).
  assert (PI : 0 < 2 ^ (dw * Z.of_nat i)) by (apply Z.pow_pos_nonneg; nia).
  destruct (Nat.eq_dec i n) as [->|Ne].
  - rewrite Z.div_add by lia. rewrite (Z.div_small (pack dw banks q n)) by (apply pack_bound; exact D).
    cbn [Z.add]. apply Z.mod_mod. lia.
  - rewrite <- (IH ltac:(lia)).
    replace (2 ^ (dw * Z.of_nat n)) with (2 ^ (dw * (Z.of_nat n - Z.of_nat i - 1)) * 2 ^ dw * 2 ^ (dw * Z.of_nat i)).
    + rewrite !Z.mul_assoc. rewrite Z.div_add by lia. rewrite Z.mod_add by lia. reflexivity.
    + rewrite <- !Z.pow_add_r by nia. f_equal. lia.
Qed.
Lemma elements_app n dw a b : elements n dw (a ++ b) = elements n dw a ++ elements n dw b.
Proof. apply flat_map_app. Qed.
Lemma elements_length n dw ws : length (elements n dw ws) = (length ws * n)%nat.
Proof.
  induction ws as [|w ws IH]; [reflexivity|]. unfold elements in *. cbn [flat_map]. rewrite app_length, map_length, seq_length, IH.
  cbn [length]. lia.
Qed.

(** ** The burst: what it does to the banks *)
Fixpoint pstore (n : nat) (aw dw addr stride : Z) (k : nat) (ws : list Z) (banks : nat -> Z -> Z) : nat -> Z -> Z :=
  match ws with
  | [] => banks
  | w :: r => pstore n aw dw addr stride (S k) r
      (fun b => if (b <? n)%nat then upd (banks b) (Z.shiftr (burst_addr aw addr stride k) (shift_of n)) (element dw b w) else banks b)
  end.
Lemma pstore_snoc n aw dw addr stride ws : forall k m w,
  pstore n aw dw addr stride k (ws ++ [w]) m =
  fun b => if (b <? n)%nat then upd (pstore n aw dw addr stride k ws m b) (Z.shiftr (burst_addr aw addr stride (k + length ws)) (shift_of n)) (element dw b w)
           else pstore n aw dw addr stride k ws m b.
Proof.
  induction ws as [|x ws IH]; intros k m w; cbn [pstore app length].
  - replace (k + 0)%nat with k by lia. reflexivity.
  - rewrite IH. replace (S k + length ws)%nat with (k + S (length ws))%nat by lia. reflexivity.
Qed.
Definition pw_ctl (s : pwrite) (m : Z -> Z) : wburst := mkWB (pw_run s) (pw_addr s) (pw_stride s) (pw_length s) (pw_done s) m.
Lemma pw_ctl_step n aw lw dw s i m :
  wb_step aw lw (pw_ctl s m) i = pw_ctl (pw_step n aw lw dw s i) (wb_mem (wb_step aw lw (pw_ctl s m) i)).
Proof. unfold wb_step, pw_step, pw_ctl. destruct s as [r a st l d b]. cbn. destruct r, (wbi_valid i); reflexivity. Qed.
Definition PInv n aw dw addr stride L (b0 : nat -> Z -> Z) (ws : list Z) (s : pwrite) : Prop :=
  (exists m, WInv aw (fun _ => 0) addr stride L ws (pw_ctl s m)) /\
  (forall b a, pw_banks s b a = pstore n aw dw addr stride 0 (firstn L ws) b0 b a).
Lemma pinv_step n aw lw dw addr stride L b0 ws s i : 0 <= dw -> 0 <= aw -> 0 < Z.of_nat L < 2 ^ lw ->
  PInv n aw dw addr stride L b0 ws s -> wplain i -> PInv n aw dw addr stride L b0 (ws ++ words_of i) (pw_step n aw lw dw s i).
Proof.
  intros Hdw Haw HL ((m & W) & B) P.
  pose proof (proj1 (winv_step aw lw _ addr stride L Haw HL _ _ _ W P)) as W'. rewrite (pw_ctl_step n aw lw dw) in W'.
  split; [eexists; exact W'|]. clear W'. intros b a. destruct P as (Hc & _ & _).
  assert (E : pw_banks (pw_step n aw lw dw s i) b a =
     (if pw_run s && wbi_valid i && (b <? n)%nat
      then upd (pw_banks s b) (Z.shiftr (pw_addr s) (shift_of n)) (Z.shiftr (wbi_data i) (dw * Z.of_nat b) mod 2 ^ dw)
      else pw_banks s b) a).
  { unfold pw_step. destruct (pw_run s); cbn [negb]; [|reflexivity]. destruct (wbi_valid i); reflexivity. }
  rewrite E. unfold words_of.
  inversion W as [? ? Hr Hk Ha _ _ _ _|? ? Hr Hk _]; subst; cbn [pw_ctl wb_run wb_addr] in *; rewrite Hr.
  - destruct (wbi_valid i); cbn [andb]; [|rewrite app_nil_r; apply B].
    rewrite firstn_all2 in B by lia. rewrite firstn_all2 by (rewrite app_length; cbn; lia).
    rewrite pstore_snoc. cbn [Nat.add]. destruct (b <? n)%nat; [|apply B]. rewrite Ha. unfold upd. rewrite Z.shiftr_div_pow2 with (a := wbi_data i) by nia.
    destruct (a =? _); [reflexivity|apply B].
  - cbn [andb]. rewrite firstn_app. replace (L - length ws)%nat with 0%nat by lia. cbn [firstn]. rewrite app_nil_r. apply B.
Qed.
Lemma pinv_run n aw lw dw addr stride L b0 : 0 <= dw -> 0 <= aw -> 0 < Z.of_nat L < 2 ^ lw -> forall ins ws s,
  PInv n aw dw addr stride L b0 ws s -> Forall wplain ins ->
  PInv n aw dw addr stride L b0 (ws ++ valid_words ins) (final (pw_step n aw lw dw) s ins).
Proof.
  intros Hdw Haw HL. induction ins as [|i ins IH]; intros ws s I F; [cbn; rewrite app_nil_r; exact I|].
  apply Forall_cons_iff in F as [F1 F2]. rewrite valid_words_cons, app_assoc. cbn [final fold_left].
  apply IH; [|exact F2]. apply pinv_step; assumption.
Qed.
Lemma packed_write n aw lw dw addr stride L s ins : 0 <= dw -> 0 <= aw -> 0 < Z.of_nat L < 2 ^ lw -> pw_run s = false ->
  Forall wplain ins ->
  let s' := final (pw_step n aw lw dw) s (wstart_in addr stride (Z.of_nat L) :: ins) in
  (forall b a, pw_banks s' b a = pstore n aw dw addr stride 0 (firstn L (valid_words ins)) (pw_banks s) b a) /\
  (pw_ready s' = true <-> (length (valid_words ins) < L)%nat).
Proof.
  intros Hdw Haw HL R F s'.
  assert (I : PInv n aw dw addr stride L (pw_banks s) [] (pw_step n aw lw dw s (wstart_in addr stride (Z.of_nat L)))).
  { split.
    - pose proof (wburst_start aw lw (pw_ctl s (fun _ => 0)) addr stride L Haw HL R) as W.
      rewrite (pw_ctl_step n aw lw dw) in W. eexists. exact W.
    - intros b a. unfold pw_step. rewrite R. rewrite firstn_nil. reflexivity. }
  destruct (pinv_run n aw lw dw addr stride L _ Hdw Haw HL ins [] _ I F) as ((m & W) & B). cbn [app] in W, B.
  change (final _ _ ins) with s' in W, B. split; [exact B|]. unfold pw_ready.
  inversion W as [? ? Hr Hk _ _ _ _ _|? ? Hr Hk _]; subst; cbn [pw_ctl wb_run] in Hr; rewrite Hr; split; intros; try reflexivity; try discriminate; lia.
Qed.
Lemma packed_done n aw lw dw addr stride L s ins i : 0 <= aw -> 0 < Z.of_nat L < 2 ^ lw -> pw_run s = false ->
  Forall wplain ins -> wplain i ->
  pw_done (final (pw_step n aw lw dw) s (wstart_in addr stride (Z.of_nat L) :: ins ++ [i])) = true <->
  wbi_valid i = true /\ length (valid_words (ins ++ [i])) = L.
Proof.
  intros Haw HL R F P.
  rewrite <- (wburst_done aw lw (pw_ctl s (fun _ => 0)) addr stride L ins i Haw HL R F P).
  assert (X : forall l s m, wb_done (final (wb_step aw lw) (pw_ctl s m) l) = pw_done (final (pw_step n aw lw dw) s l)).
  { induction l as [|x l IH]; intros s0 m; [reflexivity|]. cbn [final fold_left]. rewrite (pw_ctl_step n aw lw dw). apply IH. }
  rewrite X. reflexivity.
Qed.

(** ** Power-of-two banks, aligned bursts: one memory *)
Section P.
  Variables (n : nat) (sh aw addr : Z).
  Hypothesis Hsh : 0 <= sh <= aw.
  Hypothesis Hn : Z.of_nat n = 2 ^ sh.
  Lemma shift_pow : shift_of n = sh.
  Proof using Hsh Hn. unfold shift_of. rewrite Hn. apply Z.log2_up_pow2. lia. Qed.
  Hypothesis Hal : addr mod Z.of_nat n = 0.
  Notation N := (Z.of_nat n).
  Lemma npos : 0 < N.
  Proof using Hsh Hn. clear Hal. rewrite Hn. apply Z.pow_pos_nonneg; lia. Qed.
  Lemma pow_multiple : exists c, 0 < c /\ 2 ^ aw = c * N.
  Proof using Hsh Hn. clear Hal. clear addr. exists (2 ^ (aw - sh)). split; [apply Z.pow_pos_nonneg; lia|]. rewrite Hn, <- Z.pow_add_r by lia. f_equal. lia. Qed.
  Lemma burst_aligned k i : (i < n)%nat ->
    burst_addr aw addr 1 (k * n + i) = burst_addr aw addr N k + Z.of_nat i /\ burst_addr aw addr N k mod N = 0.
  Proof using Hsh Hn Hal.
    intros Hi. destruct pow_multiple as (c & Hc & E). pose proof npos as Np. unfold burst_addr. rewrite E.
    apply Z.mod_divide in Hal as (d & ->); [|lia].
    replace (d * N + Z.of_nat (k * n + i) * 1) with (Z.of_nat i + N * (d + Z.of_nat k)) by nia.
    replace (d * N + Z.of_nat k * N) with (0 + N * (d + Z.of_nat k)) by nia.
    rewrite (Z.mul_comm c N). rewrite !Z.rem_mul_r by lia.
    rewrite (Z.mul_comm N (d + Z.of_nat k)), !Z.mod_add, !Z.div_add by lia.
    rewrite !(Z.div_small (Z.of_nat i)), !(Z.mod_small (Z.of_nat i)), Z.div_0_l, Z.mod_0_l by lia.
    split; [lia|]. cbn [Z.add]. rewrite Z.mul_comm. apply Z.mod_mul. lia.
  Qed.
  Lemma store_block (e : nat -> Z) (m : Z -> Z) k j a : (j <= n)%nat ->
    store_words aw addr 1 (k * n) (map e (seq 0 j)) m a =
    let A := burst_addr aw addr N k in
    if (A <=? a) && (a <? A + Z.of_nat j) then e (Z.to_nat (a - A)) else m a.
  Proof using Hsh Hn Hal.
    induction j as [|j IH]; intros Hj; cbn zeta.
    - cbn [seq map store_words]. replace ((_ <=? a) && _) with false; [reflexivity|]. symmetry. apply andb_false_iff. lia.
    - rewrite seq_S, map_app. cbn [map plus]. rewrite (store_snoc aw 0 m addr 1 0%nat), map_length, seq_length.
      rewrite (proj1 (burst_aligned k j ltac:(lia))). unfold upd. rewrite IH by lia. cbn zeta. set (A := burst_addr aw addr N k). clearbody A.
      destruct (a =? A + Z.of_nat j) eqn:E.
      + replace ((A <=? a) && (a <? A + Z.of_nat (S j))) with true by (symmetry; apply andb_true_iff; lia).
        f_equal. lia.
      + replace (a <? A + Z.of_nat (S j)) with (a <? A + Z.of_nat j) by lia. reflexivity.
  Qed.
  Lemma store_app (u v : list Z) : forall k m, store_words aw addr 1 k (u ++ v) m = store_words aw addr 1 (k + length u) v (store_words aw addr 1 k u m).
  Proof using.
    clear Hsh Hn Hal. clear n sh. induction u as [|x u IH]; intros k m; cbn [app store_words length]; [rewrite Nat.add_0_r; reflexivity|].
    rewrite IH. f_equal. lia.
  Qed.
  Lemma one_memory_store dw banks ws a : 
    one_memory n (pstore n aw dw addr N 0 ws banks) a = store_words aw addr 1 0 (elements n dw ws) (one_memory n banks) a.
  Proof using Hsh Hn Hal.
    revert a. induction ws as [|w ws IH] using rev_ind; intros a; [reflexivity|].
    rewrite elements_app, store_app, elements_length. cbn [Nat.add]. change (elements n dw [w]) with (map (fun i => element dw i w) (seq 0 n) ++ []). rewrite app_nil_r.
    rewrite (store_block (fun i => element dw i w) _ (length ws) n a (le_n _)). cbn zeta. rewrite <- IH.
    unfold one_memory. rewrite pstore_snoc. cbn [Nat.add]. pose proof npos as Np.
    pose proof (Z.mod_pos_bound a N Np) as MB.
    replace (Z.to_nat (a mod N) <? n)%nat with true by (symmetry; apply Nat.ltb_lt; lia).
    rewrite shift_pow, Z.shiftr_div_pow2, <- Hn by lia. unfold upd.
    destruct (burst_aligned (length ws) 0 ltac:(lia)) as (_ & Al). set (A := burst_addr aw addr N (length ws)) in *. clearbody A.
    pose proof (Z.div_mod a N ltac:(lia)) as Da. pose proof (Z.div_mod A N ltac:(lia)) as DA. rewrite Al in DA.
    destruct (a / N =? A / N) eqn:E.
    - apply Z.eqb_eq in E. rewrite E in Da. replace ((A <=? a) && (a <? A + N)) with true by (symmetry; apply andb_true_iff; lia).
      f_equal. lia.
    - apply Z.eqb_neq in E. replace ((A <=? a) && (a <? A + N)) with false; [reflexivity|]. symmetry. apply andb_false_iff.
      destruct (A <=? a) eqn:E1; [right|left; reflexivity]. apply Z.ltb_ge. nia.
  Qed.
  Lemma pack_view dw banks k i : 0 <= dw -> (i < n)%nat ->
    element dw i (pack dw banks (Z.shiftr (burst_addr aw addr N k) (shift_of n)) n) =
    one_memory n banks (burst_addr aw addr 1 (k * n + i)) mod 2 ^ dw.
  Proof using Hsh Hn Hal.
    intros D Hi. rewrite pack_element by assumption. f_equal. unfold one_memory. pose proof npos as Np.
    destruct (burst_aligned k i Hi) as (E & Al). rewrite E, shift_pow, Z.shiftr_div_pow2, <- Hn by lia.
    apply Z.mod_divide in Al as (d & ->); [|lia].
    rewrite (Z.add_comm (d * N)), Z.mod_add, Z.div_add, Z.div_mul, Z.mod_small, Z.div_small, Nat2Z.id by lia. reflexivity.
  Qed.
  (** an unaligned start is rounded down *)
  Lemma pstore_round dw stride_k banks c : 0 <= c < N -> stride_k = N -> forall ws k b a,
    pstore n aw dw (addr + c) stride_k k ws banks b a = pstore n aw dw addr stride_k k ws banks b a.
  Proof using Hsh Hn Hal.
    intros Hc -> ws. induction ws as [|w ws IH] using rev_ind; intros k b a; [reflexivity|].
    rewrite !pstore_snoc. destruct (b <? n)%nat; [|apply IH]. unfold upd.
    replace (Z.shiftr (burst_addr aw (addr + c) N (k + length ws)) (shift_of n)) with (Z.shiftr (burst_addr aw addr N (k + length ws)) (shift_of n)).
    - destruct (a =? _); [reflexivity|apply IH].
    - rewrite shift_pow, !Z.shiftr_div_pow2, <- Hn by lia. pose proof npos as Np. destruct pow_multiple as (cc & Hcc & E). unfold burst_addr. rewrite E.
      apply Z.mod_divide in Hal as (d & ->); [|lia]. set (K := Z.of_nat (k + length ws)). clearbody K.
      replace (d * N + c + K * N) with (c + N * (d + K)) by lia. replace (d * N + K * N) with (0 + N * (d + K)) by lia.
      rewrite (Z.mul_comm cc N), !Z.rem_mul_r by lia.
      rewrite (Z.mul_comm N (d + K)), !Z.mod_add, !Z.div_add by lia.
      rewrite (Z.div_small c), (Z.mod_small c), Z.div_0_l, Z.mod_0_l by lia. cbn [Z.add].
      rewrite !(Z.mul_comm N ((d + K) mod cc)), Z.div_add, Z.div_mul, Z.div_small by lia. lia.
  Qed.
End P.

(** ** Number of words *)
Lemma packed_size_pow n sh size : 0 <= sh -> Z.of_nat n = 2 ^ sh -> 0 <= size ->
  packed_size n size = (size + Z.of_nat n - 1) / Z.of_nat n.
Proof.
  intros Hsh Hn Hs. unfold packed_size. assert (E : shift_of n = sh) by (unfold shift_of; rewrite Hn; apply Z.log2_up_pow2, Hsh). rewrite E.
  rewrite Z.land_ones, Z.shiftr_div_pow2, <- Hn by exact Hsh. assert (P : 0 < Z.of_nat n) by (rewrite Hn; apply Z.pow_pos_nonneg; lia).
  set (N := Z.of_nat n) in *. clearbody N. pose proof (Z.div_mod size N ltac:(lia)) as D. pose proof (Z.mod_pos_bound size N P) as B.
  destruct (0 <? size mod N) eqn:Q.
  - apply Z.ltb_lt in Q. apply Z.div_unique with (r := size mod N - 1); [left; lia|]. lia.
  - apply Z.ltb_ge in Q. apply Z.div_unique with (r := N - 1); [left; lia|]. lia.
Qed.

(** ** Quit and last *)
Lemma pw_stop n aw lw dw s i : wbi_cond i = false -> wbi_quit i = true \/ wbi_valid i = true /\ wbi_last i = true ->
  pw_run (pw_step n aw lw dw s i) = false /\
  (pw_run s = true -> wbi_valid i = true -> wbi_last i = true -> pw_done (pw_step n aw lw dw s i) = true).
Proof.
  intros C Q. unfold pw_step. destruct (pw_run s); cbn [negb]; [|rewrite C; split; [reflexivity|discriminate]].
  destruct Q as [Q | [Q1 Q2]].
  - rewrite Q. destruct (wbi_valid i); cbn [pw_run pw_done andb]; (split; [reflexivity|]).
    + intros _ _ ->. reflexivity.
    + discriminate.
  - rewrite Q1, Q2. cbn. split; [destruct (wbi_quit i); reflexivity|reflexivity].
Qed.
