From Verif Require Import Base Ram_Model Ram_Spec Ram_Proofs Block_Model Block_Spec.
Open Scope Z_scope.

(** ** Dealing *)
Lemma mod_S B k : (0 < B)%nat -> (S k mod B = if (S (k mod B) =? B)%nat then 0 else S (k mod B))%nat.
Proof.
  intros H. pose proof (Nat.mod_upper_bound k B ltac:(lia)) as U. pose proof (Nat.div_mod_eq k B) as E.
  destruct (S (k mod B) =? B)%nat eqn:C.
  - apply Nat.eqb_eq in C. symmetry. apply Nat.mod_unique with (q := S (k / B)); [lia|]. nia.
  - apply Nat.eqb_neq in C. symmetry. apply Nat.mod_unique with (q := (k / B)%nat); lia.
Qed.
Lemma div_S B k : (0 < B)%nat -> (S k / B = if (S (k mod B) =? B)%nat then S (k / B) else k / B)%nat.
Proof.
  intros H. pose proof (Nat.mod_upper_bound k B ltac:(lia)) as U. pose proof (Nat.div_mod_eq k B) as E.
  destruct (S (k mod B) =? B)%nat eqn:C.
  - apply Nat.eqb_eq in C. symmetry. apply Nat.div_unique with (r := 0%nat); [lia|]. nia.
  - apply Nat.eqb_neq in C. symmetry. apply Nat.div_unique with (r := S (k mod B)); lia.
Qed.
Lemma bank_lt n B k : (0 < n)%nat -> (bank_of n B k < n)%nat.
Proof. intros H. apply Nat.mod_upper_bound. lia. Qed.
Lemma bank_S n B k : (0 < n)%nat -> (0 < B)%nat ->
  bank_of n B (S k) = if (S (k mod B) =? B)%nat then (if (S (bank_of n B k) =? n)%nat then 0%nat else S (bank_of n B k)) else bank_of n B k.
Proof.
  intros Hn HB. unfold bank_of. rewrite (div_S B k HB). destruct (S (k mod B) =? B)%nat; [|reflexivity].
  apply mod_S, Hn.
Qed.
Lemma bank_0 n B : (0 < n)%nat -> (0 < B)%nat -> bank_of n B 0 = 0%nat.
Proof. intros Hn HB. unfold bank_of. rewrite Nat.div_small, Nat.mod_small by lia. reflexivity. Qed.

Lemma dealt_snoc n B b ws w :
  dealt n B b (ws ++ [w]) = dealt n B b ws ++ (if (bank_of n B (length ws) =? b)%nat then [w] else []).
Proof.
  unfold dealt. rewrite app_length. cbn [length]. rewrite seq_app. cbn [seq].
  assert (C : forall (a : list nat) (b : list Z) a' b', length a = length b -> combine (a ++ a') (b ++ b') = combine a b ++ combine a' b').
  { induction a as [|x a IH]; intros [|y l] a' b' L; try discriminate L; [reflexivity|]. cbn. rewrite IH by (cbn in L; lia). reflexivity. }
  rewrite C by (rewrite seq_length; reflexivity). cbn [combine]. rewrite filter_app, map_app. f_equal. cbn [filter fst].
  destruct (bank_of n B (0 + length ws) =? b)%nat eqn:E; cbn [plus] in E; rewrite E; reflexivity.
Qed.
Lemma dealt_len n B b ws : (length (dealt n B b ws) <= length ws)%nat.
Proof.
  induction ws as [|w ws IH] using rev_ind; [cbn; lia|]. rewrite dealt_snoc, !app_length. cbn [length].
  destruct (_ =? b)%nat; cbn; lia.
Qed.

(** the number of words of bank [b] among the first [k] *)
Definition share (n B b k : nat) : nat := (k / (B * n) * B + Nat.min B (k mod (B * n) - b * B))%nat.
Lemma decomp n B k : (0 < n)%nat -> (0 < B)%nat ->
  (k mod (B * n) = bank_of n B k * B + k mod B)%nat.
Proof. intros Hn HB. unfold bank_of. rewrite Nat.mod_mul_r by lia. lia. Qed.
Lemma share_S n B b k : (0 < n)%nat -> (0 < B)%nat -> (b < n)%nat ->
  share n B b (S k) = (share n B b k + (if bank_of n B k =? b then 1 else 0))%nat.
Proof.
  intros Hn HB Hb. unfold share. assert (P : (0 < B * n)%nat) by nia.
  rewrite (div_S _ k P), (mod_S _ k P), (decomp n B k Hn HB).
  pose proof (bank_lt n B k Hn) as U. pose proof (Nat.mod_upper_bound k B ltac:(lia)) as U2.
  set (s := bank_of n B k) in *. set (t := (k mod B)%nat) in *. set (q := (k / (B * n))%nat) in *. clearbody s t q.
  destruct (S (s * B + t) =? B * n)%nat eqn:E.
  - apply Nat.eqb_eq in E. assert (s = n - 1)%nat by nia. assert (t = B - 1)%nat by nia. subst s t.
    destruct (n - 1 =? b)%nat eqn:F.
    + apply Nat.eqb_eq in F. subst b. nia.
    + apply Nat.eqb_neq in F. replace (Nat.min B ((n - 1) * B + (B - 1) - b * B)) with B by nia. lia.
  - apply Nat.eqb_neq in E. destruct (s =? b)%nat eqn:F.
    + apply Nat.eqb_eq in F. subst b. nia.
    + apply Nat.eqb_neq in F. destruct (le_lt_dec s b); [|].
      * assert (s < b)%nat by lia. assert ((s + 1) * B <= b * B)%nat by (apply Nat.mul_le_mono_r; lia).
        replace (S (s * B + t) - b * B)%nat with 0%nat by nia. replace (s * B + t - b * B)%nat with 0%nat by nia. lia.
      * assert ((b + 1) * B <= s * B)%nat by (apply Nat.mul_le_mono_r; lia).
        replace (Nat.min B (S (s * B + t) - b * B)) with B by nia. replace (Nat.min B (s * B + t - b * B)) with B by nia. lia.
Qed.
Lemma share_0 n B b : (0 < n)%nat -> (0 < B)%nat -> share n B b 0 = 0%nat.
Proof. intros Hn HB. unfold share. assert (0 < B * n)%nat by nia. rewrite Nat.div_small, Nat.mod_small by lia. lia. Qed.
Lemma dealt_share n B b ws : (0 < n)%nat -> (0 < B)%nat -> (b < n)%nat -> length (dealt n B b ws) = share n B b (length ws).
Proof.
  intros Hn HB Hb. induction ws as [|w ws IH] using rev_ind; [rewrite share_0 by assumption; reflexivity|].
  rewrite dealt_snoc, !app_length. cbn [length]. rewrite Nat.add_1_r, share_S, IH by assumption.
  destruct (_ =? b)%nat; reflexivity.
Qed.
Lemma slot_share n B k : (0 < n)%nat -> (0 < B)%nat -> slot_of n B k = share n B (bank_of n B k) k.
Proof.
  intros Hn HB. unfold slot_of, share. rewrite (decomp n B k Hn HB).
  pose proof (Nat.mod_upper_bound k B ltac:(lia)). lia.
Qed.
Lemma layout n B ws k : (0 < n)%nat -> (0 < B)%nat -> (k < length ws)%nat ->
  nth (slot_of n B k) (dealt n B (bank_of n B k) ws) 0 = nth k ws 0 /\
  (slot_of n B k < length (dealt n B (bank_of n B k) ws))%nat.
Proof.
  intros Hn HB. induction ws as [|w ws IH] using rev_ind; [cbn; lia|]. rewrite app_length. cbn [length]. intros L.
  rewrite dealt_snoc, app_length. destruct (Nat.eq_dec k (length ws)) as [->|N].
  - rewrite Nat.eqb_refl. rewrite (app_nth2 ws) by lia. rewrite Nat.sub_diag.
    rewrite slot_share by assumption. rewrite <- (dealt_share n B _ ws Hn HB (bank_lt n B _ Hn)).
    rewrite app_nth2, Nat.sub_diag by lia. cbn. split; [reflexivity|lia].
  - destruct (IH ltac:(lia)) as (E & F). rewrite app_nth1 by lia. rewrite (app_nth1 ws) by lia. split; [exact E|lia].
Qed.

(** ** Block writes *)
Section W.
  Variables (n B L : nat) (aw lw bw addr stride : Z) (m0 : nat -> Z -> Z).
  Hypothesis Hn : (0 < n)%nat.
  Hypothesis HB : 0 < Z.of_nat B < 2 ^ bw.
  Hypothesis Haw : 0 <= aw.
  Hypothesis HL : 0 < Z.of_nat L < 2 ^ lw.

  Inductive BInv : list Z -> wblock -> Prop :=
  | BI_run ws s : (length ws < L)%nat -> wk_fsm s = S (bank_of n B (length ws)) ->
      wk_count s = Z.of_nat (length ws mod B) -> wk_length s = Z.of_nat L - Z.of_nat (length ws) ->
      wk_bsize s = Z.of_nat B -> wk_done s = false ->
      (forall b, (b < n)%nat -> WInv aw (m0 b) addr stride L (dealt n B b ws) (wk_unit s b)) -> BInv ws s
  | BI_done ws s : (L <= length ws)%nat -> wk_fsm s = 0%nat ->
      (forall b, (b < n)%nat -> wb_run (wk_unit s b) = false /\
         wb_mem (wk_unit s b) = store_words aw addr stride 0 (dealt n B b (firstn L ws)) (m0 b)) -> BInv ws s.

  Lemma binv_step ws s x : BInv ws s -> wk_plain x ->
    BInv (ws ++ words_of (wki x)) (wk_step n aw lw bw s x) /\
    (wk_done (wk_step n aw lw bw s x) = true <-> (length ws < L)%nat /\ length (ws ++ words_of (wki x)) = L).
  Proof using Hn HB Haw HL.
    intros I (Hc & Hla & Hq). assert (HB' : (0 < B)%nat) by lia.
    destruct I as [ws s Hk Hf Hco Hl Hb Hd Hu | ws s Hk Hf Hu].
    - unfold wk_step. rewrite Hf. replace (S (bank_of n B (length ws)) =? 0)%nat with false by reflexivity. cbn iota. rewrite Hla, Hq, Hd, andb_false_r.
      destruct (wbi_valid (wki x)) eqn:V; cbn [andb].
      + rewrite Hl, Hco, Hb.
        assert (WO : words_of (wki x) = [wbi_data (wki x)]) by (unfold words_of; rewrite V; reflexivity). rewrite WO.
        assert (FULL : (Z.of_nat (length ws mod B) =? Z.of_nat B - 1) = (S (length ws mod B) =? B)%nat).
        { destruct (S (length ws mod B) =? B)%nat eqn:E; [apply Nat.eqb_eq in E; apply Z.eqb_eq; lia|
            apply Nat.eqb_neq in E; apply Z.eqb_neq; lia]. }
        rewrite FULL. destruct (Z.of_nat L - Z.of_nat (length ws) <=? 1) eqn:E.
        * split; [|rewrite app_length; cbn [length wk_done]; split; [intros _; lia|reflexivity]].
          apply BI_done; cbn [wk_fsm wk_unit]; [rewrite app_length; cbn; lia|reflexivity|].
          intros b Hb'. specialize (Hu b Hb').
          rewrite firstn_all2 by (rewrite app_length; cbn; lia). rewrite dealt_snoc.
          pose proof (dealt_len n B b ws) as DL.
          inversion Hu as [? ? Hr _ Ha _ _ _ Hm|? ? _ X _]; subst; [|lia].
          unfold wb_step, wk_sub. rewrite Hr. cbn [negb wbi_valid wbi_quit wbi_data wbi_last]. rewrite V, Hf, Hl, E.
          cbn [andb]. rewrite !orb_true_r. rewrite Nat.eqb_sym. cbn [Nat.eqb]. rewrite Nat.eqb_sym.
          destruct (bank_of n B (length ws) =? b)%nat; cbn [wb_run wb_mem].
          -- split; [reflexivity|]. rewrite (store_snoc aw lw (m0 b) addr stride L). cbn [Nat.add]. rewrite Hm, Ha. reflexivity.
          -- split; [reflexivity|]. rewrite app_nil_r. exact Hm.
        * split; [|rewrite app_length; cbn [length wk_done]; split; [discriminate|intros; lia]].
          assert (LEN : length (ws ++ [wbi_data (wki x)]) = S (length ws)) by (rewrite app_length; cbn; lia).
          apply BI_run; rewrite ?LEN; cbn [wk_fsm wk_count wk_length wk_bsize wk_done wk_unit].
          -- lia.
          -- rewrite (bank_S n B _ Hn HB'). destruct (S (length ws mod B) =? B)%nat; [|reflexivity].
             destruct (S (bank_of n B (length ws)) =? n)%nat; reflexivity.
          -- rewrite (mod_S B _ HB'). destruct (S (length ws mod B) =? B)%nat eqn:FE; [reflexivity|].
             pose proof (Nat.mod_upper_bound (length ws) B ltac:(lia)). rewrite Z.mod_small by lia. lia.
          -- rewrite Z.mod_small by lia. lia.
          -- reflexivity.
          -- reflexivity.
          -- intros b Hb'. specialize (Hu b Hb'). rewrite dealt_snoc.
             assert (WP : wplain (wk_sub s x b)).
             { unfold wplain, wk_sub. cbn. rewrite Hc, Hla, Hq, V, Hl, E. repeat split; reflexivity. }
             pose proof (proj1 (winv_step aw lw (m0 b) addr stride L Haw HL _ _ _ Hu WP)) as W.
             replace (words_of (wk_sub s x b)) with (if (bank_of n B (length ws) =? b)%nat then [wbi_data (wki x)] else []) in W.
             ++ exact W.
             ++ unfold words_of, wk_sub. cbn [wbi_valid wbi_data]. rewrite V, Hf. cbn [andb Nat.eqb].
                destruct (bank_of n B (length ws) =? b)%nat; reflexivity.
      + assert (WO : words_of (wki x) = []) by (unfold words_of; rewrite V; reflexivity). rewrite WO, app_nil_r.
        split; [|cbn [wk_done]; split; [discriminate|intros; lia]].
        apply BI_run; cbn [wk_fsm wk_count wk_length wk_bsize wk_done wk_unit]; auto.
        intros b Hb'. specialize (Hu b Hb').
        assert (WP : wplain (wk_sub s x b)).
        { unfold wplain, wk_sub. cbn. rewrite Hc, Hla, Hq, V. repeat split; reflexivity. }
        pose proof (proj1 (winv_step aw lw (m0 b) addr stride L Haw HL _ _ _ Hu WP)) as W.
        replace (words_of (wk_sub s x b)) with (@nil Z) in W; [rewrite app_nil_r in W; exact W|].
        unfold words_of, wk_sub. cbn [wbi_valid]. rewrite V. reflexivity.
    - unfold wk_step. rewrite Hf. cbn [Nat.eqb]. rewrite Hc. cbn [andb].
      split; [|cbn [wk_done]; split; [discriminate|intros; lia]].
      apply BI_done; cbn [wk_fsm wk_unit]; [rewrite app_length; lia|reflexivity|].
      intros b Hb'. destruct (Hu b Hb') as (R & M).
      replace (firstn L (ws ++ words_of (wki x))) with (firstn L ws)
        by (rewrite firstn_app; replace (L - length ws)%nat with 0%nat by lia; cbn; rewrite app_nil_r; reflexivity).
      unfold wb_step, wk_sub. rewrite R. cbn [negb wbi_cond]. rewrite Hc. cbn. split; [reflexivity|exact M].
  Qed.
  Lemma binv_run : forall ins ws s, BInv ws s -> Forall wk_plain ins ->
    BInv (ws ++ wk_words ins) (final (wk_step n aw lw bw) s ins).
  Proof using Hn HB Haw HL.
    induction ins as [|x ins IH]; intros ws s I F.
    - cbn. rewrite app_nil_r. exact I.
    - apply Forall_cons_iff in F as [F1 F2]. cbn [final fold_left].
      replace (ws ++ wk_words (x :: ins)) with ((ws ++ words_of (wki x)) ++ wk_words ins).
      + apply IH; [|exact F2]. apply binv_step; assumption.
      + unfold wk_words. cbn [map]. rewrite valid_words_cons, app_assoc. reflexivity.
  Qed.
End W.

Definition wk_start (addr stride : Z) (L B : nat) : wk_in := mkWKIn (wstart_in addr stride (Z.of_nat L)) (Z.of_nat B).
Lemma block_start n B L aw lw bw addr stride s : (0 < n)%nat -> 0 < Z.of_nat B < 2 ^ bw -> 0 <= aw ->
  0 < Z.of_nat L < 2 ^ lw -> wk_idle n s ->
  BInv n B L aw addr stride (fun b => wb_mem (wk_unit s b)) [] (wk_step n aw lw bw s (wk_start addr stride L B)).
Proof.
  intros Hn HB Haw HL (F & U). unfold wk_step. rewrite F. cbn [Nat.eqb wk_start wki wstart_in wbi_cond wbi_length andb wki_bsize].
  replace (0 <? Z.of_nat L) with true by lia.
  apply BI_run; cbn [length wk_fsm wk_count wk_length wk_bsize wk_done wk_unit].
  - lia.
  - rewrite bank_0 by lia. reflexivity.
  - rewrite Nat.mod_0_l by lia. reflexivity.
  - rewrite Z.mod_small by lia. lia.
  - rewrite Z.mod_small by lia. reflexivity.
  - reflexivity.
  - intros b Hb. change (dealt n B b []) with (@nil Z).
    exact (wburst_start aw lw (wk_unit s b) addr stride L Haw HL (U b Hb)).
Qed.
Lemma block_write n B L aw lw bw addr stride s ins b : (0 < n)%nat -> 0 < Z.of_nat B < 2 ^ bw -> 0 <= aw ->
  0 < Z.of_nat L < 2 ^ lw -> wk_idle n s -> Forall wk_plain ins -> (b < n)%nat ->
  let s' := final (wk_step n aw lw bw) s (wk_start addr stride L B :: ins) in
  wb_mem (wk_unit s' b) = store_words aw addr stride 0 (dealt n B b (firstn L (wk_words ins))) (wb_mem (wk_unit s b)) /\
  ((L <= length (wk_words ins))%nat -> wk_idle n s').
Proof.
  intros Hn HB Haw HL Id F Hb s'.
  pose proof (binv_run n B L aw lw bw addr stride _ Hn HB Haw HL ins [] _ (block_start n B L aw lw bw addr stride s Hn HB Haw HL Id) F) as I.
  change (final _ _ ins) with s' in I. cbn [app] in I.
  inversion I as [? ? Hk Hf _ _ _ _ Hu|? ? Hk Hf Hu]; subst.
  - split; [|intros X; exfalso; lia]. rewrite firstn_all2 by lia. specialize (Hu b Hb).
    pose proof (dealt_len n B b (wk_words ins)).
    inversion Hu as [? ? _ _ _ _ _ _ Hm|? ? _ X _]; subst; [exact Hm|lia].
  - split; [exact (proj2 (Hu b Hb))|]. intros _. split; [exact Hf|]. intros b' Hb'. exact (proj1 (Hu b' Hb')).
Qed.
Lemma block_done n B L aw lw bw addr stride s ins x : (0 < n)%nat -> 0 < Z.of_nat B < 2 ^ bw -> 0 <= aw ->
  0 < Z.of_nat L < 2 ^ lw -> wk_idle n s -> Forall wk_plain ins -> wk_plain x ->
  wk_done (final (wk_step n aw lw bw) s (wk_start addr stride L B :: ins ++ [x])) = true <->
  wbi_valid (wki x) = true /\ length (wk_words (ins ++ [x])) = L.
Proof.
  intros Hn HB Haw HL Id F P.
  pose proof (binv_run n B L aw lw bw addr stride _ Hn HB Haw HL ins [] _ (block_start n B L aw lw bw addr stride s Hn HB Haw HL Id) F) as I.
  cbn [app] in I. cbn [final fold_left]. rewrite fold_left_app. cbn [fold_left].
  destruct (binv_step n B L aw lw bw addr stride _ Hn HB Haw HL _ _ x I P) as (_ & D).
  unfold final in D. rewrite D.
  assert (E : wk_words (ins ++ [x]) = wk_words ins ++ words_of (wki x)).
  { unfold wk_words. rewrite map_app. cbn [map]. unfold valid_words, words_of. rewrite filter_app, map_app. cbn.
    destruct (wbi_valid (wki x)); reflexivity. }
  rewrite E. unfold words_of. rewrite app_length. destruct (wbi_valid (wki x)); cbn [length]; split; intros [X Y]; try discriminate; split; try reflexivity; lia.
Qed.
(** the wready of the caller: 0 whenever the word goes to the first bank *)
Lemma block_ready n B L aw lw bw addr stride s ins : (0 < n)%nat -> 0 < Z.of_nat B < 2 ^ bw -> 0 <= aw ->
  0 < Z.of_nat L < 2 ^ lw -> wk_idle n s -> Forall wk_plain ins -> (length (wk_words ins) < L)%nat ->
  wk_ready n (final (wk_step n aw lw bw) s (wk_start addr stride L B :: ins)) =
  negb (bank_of n B (length (wk_words ins)) =? 0)%nat.
Proof.
  intros Hn HB Haw HL Id F K.
  pose proof (binv_run n B L aw lw bw addr stride _ Hn HB Haw HL ins [] _ (block_start n B L aw lw bw addr stride s Hn HB Haw HL Id) F) as I.
  cbn [app] in I. cbn [final fold_left]. unfold final in I.
  inversion I as [? ? Hk Hf _ _ _ _ Hu|? ? Hk Hf Hu]; subst; [|lia].
  unfold wk_ready. rewrite Hf. pose proof (bank_lt n B (length (wk_words ins)) Hn) as U.
  set (b := bank_of n B (length (wk_words ins))) in *. clearbody b. destruct b as [|b]; cbn [Nat.eqb negb].
  - apply not_true_is_false. intros X. apply existsb_exists in X as (j & _ & X). discriminate.
  - apply existsb_exists. exists b. split; [apply in_seq; lia|]. apply Nat.eqb_refl.
Qed.

(** ** Broadcast *)
Lemma bcast_unit aw lw us ins b : final (bcast_step aw lw) us ins b = final (wb_step aw lw) (us b) ins.
Proof.
  revert us. induction ins as [|i ins IH]; intros us; [reflexivity|]. cbn [final fold_left].
  change (final (bcast_step aw lw) (bcast_step aw lw us i) ins b = final (wb_step aw lw) (wb_step aw lw (us b) i) ins).
  rewrite IH. reflexivity.
Qed.

(** ** Block reads *)
Lemma share_le n B b k : (0 < n)%nat -> (0 < B)%nat -> (b < n)%nat -> (share n B b k <= k)%nat.
Proof.
  intros Hn HB Hb. induction k as [|k IH]; [rewrite share_0 by assumption; lia|].
  rewrite share_S by assumption. destruct (_ =? b)%nat; lia.
Qed.
Lemma mux_one (f : nat -> Z) (sel : nat -> bool) b : forall n, (b < n)%nat -> (forall j, sel j = (b =? j)%nat) ->
  fold_left (fun prev i => if sel i then f i else prev) (seq 0 n) 0 = f b.
Proof.
  induction n as [|n IH]; intros Hb Hs; [lia|]. rewrite seq_S, fold_left_app. cbn [fold_left plus]. rewrite Hs.
  destruct (b =? n)%nat eqn:E; [apply Nat.eqb_eq in E; subst; reflexivity|]. apply Nat.eqb_neq in E. apply IH; [lia|exact Hs].
Qed.

Section R.
  Variables (n B L : nat) (aw lw bw addr stride : Z) (mem : nat -> Z -> Z).
  Hypothesis Hn : (0 < n)%nat.
  Hypothesis HB : 0 < Z.of_nat B < 2 ^ bw.
  Hypothesis Haw : 0 <= aw.
  Hypothesis HL : 0 < Z.of_nat L < 2 ^ lw.

  (** a unit that was asked for [c] words *)
  Definition asked (m : Z -> Z) (c : nat) (s : rburst) : Prop :=
    rb_run s = true /\ rb_addr s = burst_addr aw addr stride c /\ rb_stride s = stride mod 2 ^ aw /\
    rb_length s = Z.of_nat L - Z.of_nat c /\ rb_rvalid s = (0 <? c)%nat /\ rb_rlast s = (c =? L)%nat /\
    ((0 < c)%nat -> rb_rdata s = m (burst_addr aw addr stride (c - 1))).
  Lemma asked_step m c s i : asked m c s -> (c < L)%nat -> rbi_rquit i = false ->
    asked m (c + (if rbi_rready i then 1 else 0)) (rb_step aw lw m s i).
  Proof using mem Haw HL.
    clear Hn HB. intros (Hr & Ha & Hs & Hl & Hv & Hla & Hd) Hc Hq. unfold rb_step, rb_renable.
    rewrite Hr, Hq, Hl, Hla, Hv. replace (c =? L)%nat with false by (symmetry; apply Nat.eqb_neq; lia).
    replace (0 <? Z.of_nat L - Z.of_nat c) with true by lia. cbn [negb andb].
    destruct (rbi_rready i) eqn:Er; cbn [andb orb].
    - rewrite orb_true_r. repeat split; cbn [rb_run rb_addr rb_stride rb_length rb_rvalid rb_rlast rb_rdata].
      + rewrite Ha, Hs, burst_addr_S by assumption. f_equal. lia.
      + exact Hs.
      + rewrite Z.mod_small by lia. lia.
      + symmetry. apply Nat.ltb_lt. lia.
      + destruct (Z.of_nat L - Z.of_nat c <=? 1) eqn:E; symmetry; [apply Nat.eqb_eq|apply Nat.eqb_neq]; lia.
      + intros _. rewrite Ha. do 2 f_equal. lia.
    - rewrite Nat.add_0_r. repeat split; cbn [rb_run rb_addr rb_stride rb_length rb_rvalid rb_rlast rb_rdata]; auto.
      + symmetry. apply Nat.eqb_neq. lia.
      + intros P. replace (0 <? c)%nat with true by (symmetry; apply Nat.ltb_lt; lia). cbn. auto.
  Qed.

  (** after [k] ready cycles *)
  Inductive KInv : nat -> rblock -> Prop :=
  | KI_ask k s : (k < L)%nat -> rk_fsm s = S (bank_of n B k) -> rk_count s = Z.of_nat (k mod B) ->
      rk_length s = Z.of_nat L - Z.of_nat k -> rk_bsize s = Z.of_nat B ->
      rk_valid s = (0 <? k)%nat -> rk_last s = false ->
      ((0 < k)%nat -> forall j, rk_sel s j = (bank_of n B (k - 1) =? j)%nat) ->
      (forall b, (b < n)%nat -> asked (mem b) (share n B b k) (rk_unit s b)) -> KInv k s
  | KI_last s : rk_fsm s <> 0%nat -> rk_valid s = true -> rk_last s = true ->
      (forall j, rk_sel s j = (bank_of n B (L - 1) =? j)%nat) -> rk_length s = 0 ->
      (let b := bank_of n B (L - 1) in
       (rb_rvalid (rk_unit s b) = true \/ rb_run (rk_unit s b) = false) /\
       rb_rdata (rk_unit s b) = mem b (burst_addr aw addr stride (slot_of n B (L - 1)))) -> KInv L s
  | KI_idle s : rk_idle n s -> KInv (S L) s.

  Definition next_k (k : nat) (x : rk_in) : nat := if rbi_rready (rki x) then Nat.min (S L) (S k) else k.

  Lemma unit_quit m s i : rbi_cond i = false -> rbi_rquit i = true -> rb_run (rb_step aw lw m s i) = false.
  Proof using.
    intros C Q. unfold rb_step. destruct (rb_run s); cbn [negb]; [|rewrite C; reflexivity]. rewrite Q.
    destruct (rbi_rready i && (0 <? rb_length s)), (rb_rlast s && rb_rvalid s && rbi_rready i); reflexivity.
  Qed.

  Lemma kinv_step k s x : KInv k s -> rk_plain x -> KInv (next_k k x) (rk_step n aw lw bw mem s x).
  Proof using Hn HB Haw HL.
    intros I (Hc & Hq). assert (HB' : (0 < B)%nat) by lia. unfold next_k.
    destruct I as [k s Hk Hf Hco Hl Hb Hv Hla Hs Hu | s Hf Hv Hla Hs Hl Hd | s (Hf & Hv & Hu)].
    - assert (U : forall b, (b < n)%nat ->
        asked (mem b) (share n B b (if rbi_rready (rki x) then S k else k)) (rb_step aw lw (mem b) (rk_unit s b) (rk_sub s x b))).
      { intros b Hb'. pose proof (share_le n B b k Hn HB' Hb') as SL.
        pose proof (asked_step (mem b) _ _ (rk_sub s x b) (Hu b Hb') ltac:(lia)) as A.
        cbn [rk_sub rbi_rquit rbi_rready] in A. rewrite Hq, Hla, andb_false_r, Hf in A. specialize (A eq_refl). cbn [Nat.eqb] in A.
        destruct (rbi_rready (rki x)); cbn [andb] in A.
        - rewrite share_S by assumption. exact A.
        - rewrite Nat.add_0_r in A. exact A. }
      unfold rk_step. rewrite Hf. replace (S (bank_of n B k) =? 0)%nat with false by reflexivity. cbn iota. rewrite Hla, Hq, Hl, Hco, Hb, Hv. cbn [andb].
      replace (0 <? Z.of_nat L - Z.of_nat k) with true by lia.
      assert (FULL : (Z.of_nat (k mod B) =? Z.of_nat B - 1) = (S (k mod B) =? B)%nat).
      { destruct (S (k mod B) =? B)%nat eqn:E; [apply Nat.eqb_eq in E; apply Z.eqb_eq; lia|
          apply Nat.eqb_neq in E; apply Z.eqb_neq; lia]. }
      rewrite FULL.
      destruct (rbi_rready (rki x)) eqn:Er; cbn [andb].
      + rewrite Nat.min_r by lia. destruct (Z.of_nat L - Z.of_nat k <=? 1) eqn:E.
        * assert (EL : L = S k) by lia.
          assert (SB : S k = L) by lia. rewrite SB.
          apply KI_last; cbn [rk_fsm rk_count rk_length rk_bsize rk_valid rk_last rk_sel rk_unit].
          -- destruct (S (k mod B) =? B)%nat; [destruct (_ =? n)%nat|]; discriminate.
          -- reflexivity.
          -- reflexivity.
          -- intros j. replace (L - 1)%nat with k by lia. reflexivity.
          -- rewrite Z.mod_small by lia. lia.
          -- replace (L - 1)%nat with k by lia. pose proof (bank_lt n B k Hn) as BL. pose proof (U _ BL) as (_ & _ & _ & _ & Uv & _ & Ud).
             rewrite share_S, Nat.eqb_refl in Uv, Ud by assumption. split.
             ++ left. rewrite Uv. apply Nat.ltb_lt. lia.
             ++ rewrite Ud by lia. rewrite (slot_share n B k Hn HB'). do 2 f_equal. lia.
        * apply KI_ask; cbn [rk_fsm rk_count rk_length rk_bsize rk_valid rk_last rk_sel rk_unit].
          -- lia.
          -- rewrite (bank_S n B _ Hn HB'). destruct (S (k mod B) =? B)%nat; [|reflexivity].
             destruct (S (bank_of n B k) =? n)%nat; reflexivity.
          -- rewrite (mod_S B _ HB'). destruct (S (k mod B) =? B)%nat eqn:FE; [reflexivity|].
             pose proof (Nat.mod_upper_bound k B ltac:(lia)). rewrite Z.mod_small by lia. lia.
          -- rewrite Z.mod_small by lia. lia.
          -- reflexivity.
          -- reflexivity.
          -- reflexivity.
          -- intros _ j. replace (S k - 1)%nat with k by lia. reflexivity.
          -- exact U.
      + apply KI_ask; cbn [rk_fsm rk_count rk_length rk_bsize rk_valid rk_last rk_sel rk_unit]; auto.
    - assert (Q : forall b, rb_run (rb_step aw lw (mem b) (rk_unit s b) (rk_sub s x b)) = false).
      { intros b. apply unit_quit; cbn [rk_sub rbi_cond rbi_rquit]; [exact Hc|]. rewrite Hv, Hla. apply orb_true_r. }
      unfold rk_step. destruct (rk_fsm s =? 0)%nat eqn:F0; [apply Nat.eqb_eq in F0; contradiction|].
      rewrite Hv, Hla, Hl, Hq. replace (0 <? 0) with false by reflexivity. rewrite andb_false_r. cbn [andb].
      destruct (rbi_rready (rki x)) eqn:Er; cbn [andb].
      + rewrite Nat.min_id. apply KI_idle. repeat split; cbn [rk_fsm rk_valid rk_unit]; auto.
      + apply KI_last; cbn [rk_fsm rk_count rk_length rk_bsize rk_valid rk_last rk_sel rk_unit]; auto.
        split; [right; apply Q|]. destruct Hd as (R & D).
        rewrite <- D. set (u := rk_unit s (bank_of n B (L - 1))) in *. clear D. unfold rb_step, rb_renable.
        cbn [rk_sub rbi_rready rbi_cond]. rewrite Er, Hc. cbn [andb].
        destruct R as [-> | ->]; cbn [negb andb orb]; [rewrite andb_false_r|cbn [rb_rdata]; reflexivity].
        destruct (negb (rb_run u)); [reflexivity|].
        rewrite andb_false_r. destruct (rbi_rquit (rk_sub s x (bank_of n B (L - 1)))); reflexivity.
    - unfold rk_step. rewrite Hf, Hc. cbn [Nat.eqb andb]. replace (if rbi_rready (rki x) then _ else _) with (S L) by (destruct (rbi_rready (rki x)); lia).
      apply KI_idle. repeat split; cbn [rk_fsm rk_valid rk_unit]. intros b Hb'. unfold rb_step. rewrite (Hu b Hb').
      cbn [negb rk_sub rbi_cond rb_run]. rewrite Hc. reflexivity.
  Qed.
  (** what is presented after [k] ready cycles *)
  Lemma kinv_out k s x : KInv k s ->
    rk_valid s = (0 <? k)%nat && (k <=? L)%nat /\
    ((0 < k <= L)%nat -> ro_last (rk_out n s x) = (k =? L)%nat /\
      ro_data (rk_out n s x) = mem (bank_of n B (k - 1)) (burst_addr aw addr stride (slot_of n B (k - 1)))).
  Proof using Hn HB HL.
    assert (HB' : (0 < B)%nat) by lia.
    intros I. destruct I as [k s Hk Hf Hco Hl Hb Hv Hla Hs Hu | s Hf Hv Hla Hs Hl Hd | s (Hf & Hv & Hu)].
    - split; [rewrite Hv; replace (k <=? L)%nat with true by (symmetry; apply Nat.leb_le; lia); rewrite andb_true_r; reflexivity|].
      intros K. cbn [rk_out ro_last ro_data]. split; [rewrite Hla; symmetry; apply Nat.eqb_neq; lia|].
      pose proof (bank_lt n B (k - 1) Hn) as BL. unfold rk_data.
      rewrite (mux_one (fun i => rb_rdata (rk_unit s i)) (rk_sel s) (bank_of n B (k - 1)) n BL (Hs ltac:(lia))).
      destruct (Hu _ BL) as (_ & _ & _ & _ & _ & _ & D).
      replace (share n B (bank_of n B (k - 1)) k) with (S (slot_of n B (k - 1))) in D.
      + rewrite D by lia. do 2 f_equal. lia.
      + rewrite (slot_share n B _ Hn HB'). pose proof (share_S n B (bank_of n B (k - 1)) (k - 1) Hn HB' BL) as SS. rewrite Nat.eqb_refl in SS. replace (S (k - 1)) with k in SS by lia. lia.
    - split; [rewrite Hv, Nat.leb_refl, andb_true_r; symmetry; apply Nat.ltb_lt; lia|].
      intros _. cbn [rk_out ro_last ro_data]. rewrite Nat.eqb_refl. split; [exact Hla|].
      unfold rk_data. rewrite (mux_one (fun i => rb_rdata (rk_unit s i)) (rk_sel s) (bank_of n B (L - 1)) n (bank_lt n B (L - 1) Hn) Hs).
      exact (proj2 Hd).
    - split; [|lia]. rewrite Hv. replace (S L <=? L)%nat with false by (symmetry; apply Nat.leb_gt; lia). apply eq_sym, andb_false_r.
  Qed.

  Definition khist (s : rblock) (ins : list rk_in) :=
    combine (map rki ins) (outs (rk_step n aw lw bw mem) (rk_out n) s ins).
  Definition bw_word (k : nat) : Z * bool :=
    (mem (bank_of n B k) (burst_addr aw addr stride (slot_of n B k)), Nat.eqb (S k) L).
  Fixpoint run_k (k : nat) (ins : list rk_in) : nat := match ins with [] => k | x :: r => run_k (next_k k x) r end.
  Lemma kinv_run : forall ins k s, KInv k s -> (k <= S L)%nat -> Forall rk_plain ins ->
    KInv (run_k k ins) (final (rk_step n aw lw bw mem) s ins) /\
    map bw_word (seq 0 (pred k)) ++ beats (khist s ins) = map bw_word (seq 0 (pred (run_k k ins))).
  Proof using Hn HB Haw HL.
    induction ins as [|x ins IH]; intros k s I K F; [split; [exact I|cbn; apply app_nil_r]|].
    apply Forall_cons_iff in F as [F1 F2].
    pose proof (kinv_step k s x I F1) as I'.
    assert (K' : (next_k k x <= S L)%nat) by (unfold next_k; destruct (rbi_rready (rki x)); lia).
    destruct (IH _ _ I' K' F2) as (J & E). cbn [run_k]. split; [exact J|]. rewrite <- E.
    unfold khist. cbn [map outs combine beats]. rewrite app_assoc. f_equal.
    destruct (kinv_out k s x I) as (V & D). cbn [ro_valid rk_out] in *. rewrite V. unfold next_k.
    destruct (rbi_rready (rki x)); rewrite ?andb_true_r, ?andb_false_r; [|apply app_nil_r].
    destruct k as [|k]; [rewrite Nat.min_r by lia; reflexivity|].
    replace (0 <? S k)%nat with true by reflexivity. rewrite andb_true_l.
    destruct (S k <=? L)%nat eqn:E1; cbn [pred].
    - apply Nat.leb_le in E1. destruct (D ltac:(lia)) as (D1 & D2). rewrite D1, D2. rewrite Nat.min_r by lia. cbn [pred].
      rewrite seq_S, map_app. cbn [map plus]. f_equal. unfold bw_word. rewrite Nat.sub_succ, Nat.sub_0_r. reflexivity.
    - apply Nat.leb_gt in E1.
      rewrite app_nil_r. rewrite Nat.min_l by lia. do 2 f_equal. lia.
  Qed.
  Lemma run_k_le : forall ins k, (k <= S L)%nat -> (run_k k ins <= S L)%nat.
  Proof using. clear n B aw lw bw addr stride mem Hn HB Haw HL. induction ins as [|x ins IH]; intros k K; [exact K|]. cbn. apply IH. unfold next_k. destruct (rbi_rready (rki x)); lia. Qed.
  Lemma run_k_ge : forall ins k, (k <= S L)%nat -> (Nat.min (S L) (k + count_ready (map rki ins)) <= run_k k ins)%nat.
  Proof using.
    clear n B aw lw bw addr stride mem Hn HB Haw HL. induction ins as [|x ins IH]; intros k K; [unfold count_ready; cbn [map filter length run_k]; lia|]. cbn [run_k map]. unfold count_ready in *. cbn [filter].
    unfold next_k. destruct (rbi_rready (rki x)); cbn [length].
    - pose proof (IH (Nat.min (S L) (S k)) ltac:(lia)). lia.
    - apply IH, K.
  Qed.
End R.

Definition rk_start (addr stride : Z) (L B : nat) (rr : bool) : rk_in := mkRKIn (start_in addr stride (Z.of_nat L) rr) (Z.of_nat B).
Lemma block_read n B L aw lw bw addr stride mem s rr ins : (0 < n)%nat -> 0 < Z.of_nat B < 2 ^ bw -> 0 <= aw ->
  0 < Z.of_nat L < 2 ^ lw -> rk_idle n s -> Forall rk_plain ins ->
  let all := rk_start addr stride L B rr :: ins in
  let h := combine (map rki all) (outs (rk_step n aw lw bw mem) (rk_out n) s all) in
  (exists m, (m <= L)%nat /\ beats h = firstn m (block_words n B aw mem addr stride L)) /\
  ((L < count_ready (map rki ins))%nat ->
     beats h = block_words n B aw mem addr stride L /\ rk_idle n (final (rk_step n aw lw bw mem) s all)).
Proof.
  intros Hn HB Haw HL (Hf & Hv & Hu) F all h.
  assert (I : KInv n B L aw addr stride mem 0 (rk_step n aw lw bw mem s (rk_start addr stride L B rr))).
  { unfold rk_step. rewrite Hf. cbn [Nat.eqb rk_start rki start_in rbi_cond rbi_length andb rki_bsize].
    replace (0 <? Z.of_nat L) with true by lia.
    apply KI_ask; cbn [rk_fsm rk_count rk_length rk_bsize rk_valid rk_last rk_sel rk_unit].
    - lia.
    - rewrite bank_0 by lia. reflexivity.
    - rewrite Nat.mod_0_l by lia. reflexivity.
    - rewrite Z.mod_small by lia. lia.
    - rewrite Z.mod_small by lia. reflexivity.
    - reflexivity.
    - reflexivity.
    - lia.
    - intros b Hb. rewrite share_0 by lia. unfold rb_step. rewrite (Hu b Hb). cbn [negb rk_sub rbi_cond rbi_length rbi_addr rbi_stride rki rk_start start_in andb].
      replace (0 <? Z.of_nat L) with true by lia.
      repeat split; cbn [rb_run rb_addr rb_stride rb_length rb_rvalid rb_rlast rb_rdata].
      + unfold burst_addr. f_equal. lia.
      + rewrite Z.mod_small by lia. lia.
      + symmetry. apply Nat.eqb_neq. lia.
      + lia. }
  destruct (kinv_run n B L aw lw bw addr stride mem Hn HB Haw HL ins 0 _ I ltac:(lia) F) as (J & E). cbn [pred seq map app] in E.
  assert (Eh : beats h = map (bw_word n B L aw addr stride mem) (seq 0 (pred (run_k L 0 ins)))).
  { rewrite <- E. subst h all. cbn [map outs combine beats rk_out ro_valid]. rewrite Hv. reflexivity. }
  pose proof (run_k_le L ins 0 ltac:(lia)) as LE. pose proof (run_k_ge L ins 0 ltac:(lia)) as GE.
  change (block_words n B aw mem addr stride L) with (map (bw_word n B L aw addr stride mem) (seq 0 L)).
  split.
  - exists (pred (run_k L 0 ins)). split; [lia|]. rewrite Eh, firstn_map. f_equal.
    assert (X : forall m a, (m <= L)%nat -> firstn m (seq a L) = seq a m).
    { clear. intros m a H. replace L with (m + (L - m))%nat by lia. rewrite seq_app, firstn_app, seq_length, Nat.sub_diag.
      cbn [firstn]. rewrite app_nil_r. apply firstn_all2. rewrite seq_length. lia. }
    symmetry. apply X. lia.
  - intros C. assert (R : run_k L 0 ins = S L) by lia. rewrite Eh, R. split; [reflexivity|].
    rewrite R in J. inversion J as [? ? X|? X|? X]; subst; [lia| lia |]. exact X.
Qed.

(** ** Round trip *)
Lemma stored_nth aw addr stride (m : Z -> Z) N : (forall i j, (i < N)%nat -> (j < N)%nat ->
    burst_addr aw addr stride i = burst_addr aw addr stride j -> i = j) ->
  forall ws j, (length ws <= N)%nat -> (j < length ws)%nat ->
  store_words aw addr stride 0 ws m (burst_addr aw addr stride j) = nth j ws 0.
Proof.
  intros Inj ws. induction ws as [|w ws IH] using rev_ind; intros j LN Hj; [cbn in Hj; lia|].
  rewrite app_length in LN, Hj. cbn [length] in LN, Hj.
  rewrite (store_snoc aw 0 m addr stride 0%nat). cbn [Nat.add]. unfold upd.
  destruct (Nat.eq_dec j (length ws)) as [->|Ne].
  - rewrite Z.eqb_refl, app_nth2, Nat.sub_diag by lia. reflexivity.
  - replace (burst_addr aw addr stride j =? burst_addr aw addr stride (length ws)) with false.
    + rewrite app_nth1 by lia. apply IH; lia.
    + symmetry. apply Z.eqb_neq. intros E. apply Ne, Inj; [lia|lia|exact E].
Qed.
Lemma block_round_trip n B L aw lw bw addr stride s ins : (0 < n)%nat -> 0 < Z.of_nat B < 2 ^ bw -> 0 <= aw ->
  0 < Z.of_nat L < 2 ^ lw -> wk_idle n s -> Forall wk_plain ins -> (L <= length (wk_words ins))%nat ->
  (forall i j, (i < L)%nat -> (j < L)%nat -> burst_addr aw addr stride i = burst_addr aw addr stride j -> i = j) ->
  let s' := final (wk_step n aw lw bw) s (wk_start addr stride L B :: ins) in
  block_words n B aw (fun b => wb_mem (wk_unit s' b)) addr stride L = flagged (firstn L (wk_words ins)).
Proof.
  intros Hn HB Haw HL Id F Len Inj s'. assert (HB' : (0 < B)%nat) by lia.
  set (ws := firstn L (wk_words ins)). assert (WL : length ws = L) by (subst ws; rewrite firstn_length; lia).
  unfold block_words, flagged. rewrite WL. apply map_ext_in. intros k Hk. apply in_seq in Hk. f_equal.
  pose proof (bank_lt n B k Hn) as BL.
  destruct (block_write n B L aw lw bw addr stride s ins (bank_of n B k) Hn HB Haw HL Id F BL) as (M & _).
  fold s' in M. fold ws in M. rewrite M.
  destruct (layout n B ws k Hn HB' ltac:(lia)) as (E & SL). rewrite <- E.
  apply (stored_nth aw addr stride _ L Inj); [|exact SL]. pose proof (dealt_len n B (bank_of n B k) ws). lia.
Qed.

(** ** Quit and last *)
Lemma wunit_stop aw lw u i : wbi_cond i = false -> wbi_quit i = true \/ wbi_valid i = true /\ wbi_last i = true ->
  wb_run (wb_step aw lw u i) = false.
Proof.
  intros C Q. unfold wb_step. destruct (wb_run u); cbn [negb]; [|rewrite C; reflexivity].
  destruct Q as [-> | [-> ->]]; destruct (wbi_valid i); cbn; try reflexivity; destruct (wbi_quit i); reflexivity.
Qed.
Lemma wblock_stop n aw lw bw s x : wbi_cond (wki x) = false ->
  wbi_quit (wki x) = true \/ wbi_valid (wki x) = true /\ wbi_last (wki x) = true -> wk_idle n (wk_step n aw lw bw s x).
Proof.
  intros C Q. split.
  - unfold wk_step. rewrite C. destruct (wk_fsm s =? 0)%nat; [reflexivity|]. cbn [wk_fsm].
    destruct Q as [-> | [-> ->]]; [reflexivity|]. cbn. destruct (wbi_quit (wki x)); reflexivity.
  - intros b _. replace (wk_unit (wk_step n aw lw bw s x) b) with (wb_step aw lw (wk_unit s b) (wk_sub s x b)).
    + apply wunit_stop; cbn [wk_sub wbi_cond wbi_quit]; [exact C|]. left.
      destruct Q as [-> | [-> ->]]; [reflexivity|]. cbn [andb]. rewrite orb_true_r. reflexivity.
    + unfold wk_step. destruct (wk_fsm s =? 0)%nat; reflexivity.
Qed.
Lemma wblock_last n aw lw bw s x : wk_fsm s <> 0%nat -> wbi_valid (wki x) = true -> wbi_last (wki x) = true ->
  wk_done (wk_step n aw lw bw s x) = true.
Proof.
  intros F V La. unfold wk_step. destruct (wk_fsm s =? 0)%nat eqn:E; [apply Nat.eqb_eq in E; contradiction|].
  cbn [wk_done]. rewrite V, La. reflexivity.
Qed.
Lemma rblock_stop n aw lw bw mem s x : rbi_cond (rki x) = false -> rbi_rquit (rki x) = true ->
  rk_idle n (rk_step n aw lw bw mem s x).
Proof.
  intros C Q. unfold rk_idle, rk_step. rewrite C, Q. destruct (rk_fsm s =? 0)%nat; cbn [andb rk_fsm rk_valid rk_unit].
  - split; [reflexivity|]. split; [reflexivity|]. intros b _. apply unit_quit; cbn [rk_sub rbi_cond rbi_rquit]; [exact C|rewrite Q; reflexivity].
  - destruct (rk_last s && rk_valid s && rbi_rready (rki x)); cbn [rk_fsm rk_valid rk_unit];
      (split; [reflexivity|]; split; [reflexivity|]; intros b _; apply unit_quit; cbn [rk_sub rbi_cond rbi_rquit]; [exact C|rewrite Q; reflexivity]).
Qed.
