From Verif Require Import Base Ram_Model Ram_Spec.
From Coq Require Import Permutation.
Open Scope Z_scope.

(** ** Memory *)
Lemma apply_last ws : forall m a, apply_writes ws m a = last_write ws a (m a).
Proof.
  induction ws as [|[a' v] ws IH]; intros m a; [reflexivity|].
  cbn [apply_writes fold_left last_write fst snd].
  change (fold_left _ ws ?mm) with (apply_writes ws mm). rewrite IH. unfold upd. reflexivity.
Qed.

Lemma last_write_app w1 w2 a d : last_write (w1 ++ w2) a d = last_write w2 a (last_write w1 a d).
Proof. revert d; induction w1 as [|[a' v] w1 IH]; intros d; cbn; auto. Qed.

Lemma last_write_notin ws a d : ~ In a (map fst ws) -> last_write ws a d = d.
Proof.
  revert d; induction ws as [|[a' v] ws IH]; intros d H; cbn in *; [reflexivity|].
  replace (a =? a') with false by lia. apply IH; tauto.
Qed.

Lemma last_write_in ws a v d : NoDup (map fst ws) -> In (a, v) ws -> last_write ws a d = v.
Proof.
  revert d; induction ws as [|[a' v'] ws IH]; intros d Hn Hi; [destruct Hi|].
  cbn [map fst] in Hn. inversion Hn as [|? ? Hni Hn']; subst.
  cbn [last_write]. destruct Hi as [E|Hi].
  - inversion E; subst. rewrite Z.eqb_refl. apply last_write_notin; assumption.
  - apply IH; assumption.
Qed.

Lemma last_write_perm ws ws' a d : Permutation ws ws' -> NoDup (map fst ws') ->
  last_write ws a d = last_write ws' a d.
Proof.
  intros P Hn. assert (Hn2 : NoDup (map fst ws))
    by (eapply Permutation_NoDup; [apply Permutation_map, Permutation_sym, P|exact Hn]).
  destruct (in_dec Z.eq_dec a (map fst ws')) as [Hi|Hi].
  - apply in_map_iff in Hi. destruct Hi as [[a1 v] [E Hi]]; cbn in E; subst a1.
    rewrite (last_write_in ws' a v) by assumption.
    apply last_write_in; [assumption|]. eapply Permutation_in; [apply Permutation_sym, P|exact Hi].
  - rewrite (last_write_notin ws') by assumption. apply last_write_notin.
    intros Hi'. apply Hi. eapply Permutation_in; [apply Permutation_map, P|exact Hi'].
Qed.

Lemma wanted_eq reqs : cycle_writes reqs = wanted reqs.
Proof.
  unfold cycle_writes, wanted, port_write. induction reqs as [|r reqs IH]; [reflexivity|]. cbn [flat_map filter].
  rewrite IH. destruct (r_enable r), (r_wenable r); reflexivity.
Qed.

Lemma run_mem h : forall s a, Forall legal h ->
  ram_mem (ram_run s h) a = last_write (history_writes h) a (ram_mem s a).
Proof.
  induction h as [|[reqs ord] h IH]; intros s a Hl; [reflexivity|].
  cbn [ram_run fold_left history_writes flat_map fst snd].
  pose proof (Forall_inv Hl) as [P Hn]; cbn [fst snd] in *. rewrite wanted_eq in P.
  change (fold_left _ h ?st) with (ram_run st h).
  rewrite IH by exact (Forall_inv_tail Hl).
  rewrite last_write_app. cbn [ram_step ram_mem]. rewrite apply_last.
  f_equal. apply last_write_perm; assumption.
Qed.

Lemma map2_length {A B C} (f : A -> B -> C) a : forall b, length a = length b -> length (map2 f a b) = length b.
Proof. induction a as [|x a IH]; intros [|y b] H; cbn in *; try discriminate; auto. Qed.

Lemma map2_nth {A B C} (f : A -> B -> C) a : forall b p da db dc, length a = length b -> (p < length a)%nat ->
  nth p (map2 f a b) dc = f (nth p a da) (nth p b db).
Proof.
  induction a as [|x a IH]; intros [|y b] p da db dc H Hp; cbn in *; try lia; try discriminate.
  destruct p; [reflexivity|]. apply IH; lia.
Qed.

Lemma run_rdata_length h : forall s, Forall (fun c => length (fst c) = length (ram_rdata s)) h ->
  length (ram_rdata (ram_run s h)) = length (ram_rdata s).
Proof.
  induction h as [|[reqs ord] h IH]; intros s Hn; [reflexivity|].
  cbn [ram_run fold_left]. change (fold_left _ h ?st) with (ram_run st h).
  pose proof (Forall_inv Hn) as H0; cbn [fst] in H0.
  rewrite IH; cbn [ram_step ram_rdata fst]; rewrite map2_length by assumption; [reflexivity|].
  exact (Forall_inv_tail Hn).
Qed.

Lemma ram_read_correct s h reqs ord p r0 :
  Forall legal h -> Forall (fun c => length (fst c) = length (ram_rdata s)) h ->
  length reqs = length (ram_rdata s) -> (p < length reqs)%nat ->
  let r := nth p reqs r0 in
  let old := nth p (ram_rdata (ram_run s h)) 0 in
  nth p (ram_rdata (ram_run s (h ++ [(reqs, ord)]))) 0 =
    if r_enable r then
      if r_wenable r then r_wdata r
      else last_write (history_writes h) (r_addr r) (ram_mem s (r_addr r))
    else old.
Proof.
  intros Hl Hn Hlen Hp r old. unfold ram_run at 1. rewrite fold_left_app.
  change (fold_left _ h s) with (ram_run s h). cbn [fold_left fst snd ram_step ram_rdata].
  rewrite (map2_nth _ _ _ _ r0 0) by (rewrite ?run_rdata_length; assumption).
  unfold port_rdata. fold r. rewrite run_mem by assumption. reflexivity.
Qed.

(** ** Read burst *)
Lemma burst_addr_S aw addr stride k : 0 <= aw ->
  (burst_addr aw addr stride k + stride mod 2 ^ aw) mod 2 ^ aw = burst_addr aw addr stride (S k).
Proof.
  intros H. unfold burst_addr. rewrite <- Zplus_mod.
  f_equal. lia.
Qed.

Section RB.
  Variables (aw lw : Z) (mem : Z -> Z) (addr stride : Z) (n : nat).
  Hypothesis Haw : 0 <= aw.
  Hypothesis Hn : 0 < Z.of_nat n < 2 ^ lw.

  (** [k] words have been delivered or are held in the output register *)
  Inductive RInv : rburst -> nat -> Prop :=
  | RI_empty k s : rb_run s = true -> k = 0%nat ->
      rb_addr s = burst_addr aw addr stride 0 -> rb_stride s = stride mod 2 ^ aw ->
      rb_length s = Z.of_nat n -> rb_rvalid s = false -> rb_rlast s = false -> RInv s k
  | RI_word k s : rb_run s = true -> (k < n)%nat ->
      rb_addr s = burst_addr aw addr stride (S k) -> rb_stride s = stride mod 2 ^ aw ->
      rb_length s = Z.of_nat n - Z.of_nat (S k) -> rb_rvalid s = true ->
      rb_rlast s = Nat.eqb (S k) n -> rb_rdata s = mem (burst_addr aw addr stride k) -> RInv s k
  | RI_done k s : rb_run s = false -> k = n -> rb_rvalid s = false -> rb_rlast s = false -> RInv s k.

  (** a cycle of a running burst: the caller does not start another one and does not quit *)
  Definition plain (i : rb_in) : Prop := rbi_cond i = false /\ rbi_rquit i = false.

  Lemma rinv_step s k i : RInv s k -> plain i ->
    RInv (rb_step aw lw mem s i) (k + (if rb_rvalid s && rbi_rready i then 1 else 0)) /\
    (rb_rvalid s = true -> rb_rdata s = mem (burst_addr aw addr stride k) /\ rb_rlast s = Nat.eqb (S k) n /\ (k < n)%nat).
  Proof.
    intros H [Hc Hq]. unfold rb_step, rb_renable.
    destruct H as [k s Hr Hk Ha Hs Hl Hv Hla | k s Hr Hk Ha Hs Hl Hv Hla Hd | k s Hr Hk Hv Hla].
    - split; [|rewrite Hv; discriminate]. rewrite Hr, Hv, Hla, Hq, Hl. subst k. cbn [negb andb orb].
      destruct (rbi_rready i) eqn:Er; cbn [andb].
      + replace (0 <? Z.of_nat n) with true by lia. cbn [andb].
        apply RI_word; cbn [rb_run rb_addr rb_stride rb_length rb_rvalid rb_rlast rb_rdata].
        * reflexivity.
        * lia.
        * rewrite Ha, Hs. apply burst_addr_S; exact Haw.
        * exact Hs.
        * rewrite Z.mod_small by lia. lia.
        * reflexivity.
        * destruct (Z.of_nat n <=? 1) eqn:E; lia.
        * rewrite Ha. reflexivity.
      + apply RI_empty; cbn [rb_run rb_addr rb_stride rb_length rb_rvalid rb_rlast rb_rdata]; auto.
    - split; [|intros _; auto].
      rewrite Hr, Hv, Hla, Hq, Hl. cbn [negb andb orb].
      destruct (rbi_rready i) eqn:Er; cbn [andb].
      + rewrite andb_true_r.
        destruct (Nat.eqb (S k) n) eqn:El; cbn [andb].
        * destruct (0 <? Z.of_nat n - Z.of_nat (S k)) eqn:E0; [lia|].
          apply RI_done; cbn [rb_run rb_rvalid rb_rlast]; try reflexivity. lia.
        * replace (0 <? Z.of_nat n - Z.of_nat (S k)) with true by lia.
          apply RI_word; cbn [rb_run rb_addr rb_stride rb_length rb_rvalid rb_rlast rb_rdata].
          -- reflexivity.
          -- lia.
          -- rewrite Ha, Hs. replace (S (k + 1)) with (S (S k)) by lia. apply burst_addr_S; exact Haw.
          -- exact Hs.
          -- rewrite Z.mod_small by lia. lia.
          -- reflexivity.
          -- destruct (Z.of_nat n - Z.of_nat (S k) <=? 1) eqn:E; lia.
          -- rewrite Ha. f_equal. f_equal. lia.
      + rewrite andb_false_r. replace (k + 0)%nat with k by lia.
        apply RI_word; cbn [rb_run rb_addr rb_stride rb_length rb_rvalid rb_rlast rb_rdata]; auto.
    - split; [|rewrite Hv; discriminate]. rewrite Hr, Hv, Hc. cbn [negb andb].
      apply RI_done; cbn [rb_run rb_rvalid rb_rlast]; try reflexivity. lia.
  Qed.

  Definition rhist (s : rburst) (ins : list rb_in) :=
    combine ins (outs (rb_step aw lw mem) rb_out s ins).

  Lemma rburst_gen ins : forall s k, RInv s k -> Forall plain ins -> (k <= n)%nat ->
    exists m, (k + m <= n)%nat /\
      beats (rhist s ins) = firstn m (skipn k (burst_words aw mem addr stride n)) /\
      RInv (final (rb_step aw lw mem) s ins) (k + m).
  Proof.
    induction ins as [|i ins IH]; intros s k H Hp Hk.
    - exists 0%nat. cbn. replace (k + 0)%nat with k by lia. auto.
    - destruct (rinv_step s k i H (Forall_inv Hp)) as [H' Hw].
      unfold rhist; cbn [outs combine beats final fold_left].
      change (combine ins (outs (rb_step aw lw mem) rb_out (rb_step aw lw mem s i) ins))
        with (rhist (rb_step aw lw mem s i) ins).
      cbn [rb_out ro_valid ro_data ro_last].
      destruct (rb_rvalid s && rbi_rready i) eqn:E.
      + destruct (rb_rvalid s); [|discriminate]. destruct (Hw eq_refl) as (Hd & Hl & Hlt).
        destruct (IH _ (k + 1)%nat H' (Forall_inv_tail Hp) ltac:(lia)) as [m (Hm & Eb & Hf)].
        exists (S m). split; [lia|]. split.
        * rewrite Eb, Hd, Hl.
          assert (Es : skipn k (burst_words aw mem addr stride n) =
                       (mem (burst_addr aw addr stride k), Nat.eqb (S k) n)
                       :: skipn (k + 1) (burst_words aw mem addr stride n)).
          { unfold burst_words. rewrite !skipn_map.
            assert (Eseq : forall a b c, (c < b)%nat ->
                      skipn c (seq a b) = (a + c)%nat :: skipn (c + 1) (seq a b)).
            { intros a b; revert a; induction b as [|b IHb]; intros a c Hc; [lia|].
              destruct c as [|c]; cbn; [f_equal; lia|]. rewrite IHb by lia.
              f_equal; lia. }
            rewrite Eseq by lia. cbn [map]. reflexivity. }
          rewrite Es. reflexivity.
        * replace (k + S m)%nat with (k + 1 + m)%nat by lia. exact Hf.
      + destruct (IH _ (k + 0)%nat H' (Forall_inv_tail Hp) ltac:(lia)) as [m (Hm & Eb & Hf)].
        exists m. replace (k + 0)%nat with k in * by lia. auto.
  Qed.

  (** progress: each ready cycle moves one step *)
  Definition rstage (s : rburst) (k : nat) : nat :=
    if rb_run s then (if rb_rvalid s then S k else k) else S n.

  Lemma rstage_step s k i : RInv s k -> plain i -> rbi_rready i = true ->
    (S (rstage s k) <= rstage (rb_step aw lw mem s i) (k + (if rb_rvalid s && rbi_rready i then 1 else 0))
     \/ (rstage s k = S n /\ rstage (rb_step aw lw mem s i) (k + (if rb_rvalid s && rbi_rready i then 1 else 0)) = S n))%nat.
  Proof.
    intros H [Hc Hq] Hrr. unfold rb_step, rstage.
    destruct H as [k s Hr Hk Ha Hs Hl Hv Hla | k s Hr Hk Ha Hs Hl Hv Hla Hd | k s Hr Hk Hv Hla];
      rewrite ?Hr, ?Hv, ?Hla, ?Hq, ?Hrr, ?Hc, ?Hl; cbn [negb andb rb_run rb_rvalid].
    - replace (0 <? Z.of_nat n) with true by lia. cbn. lia.
    - destruct (Nat.eqb (S k) n) eqn:El; cbn [andb].
      + destruct (0 <? Z.of_nat n - Z.of_nat (S k)) eqn:E0; cbn; lia.
      + replace (0 <? Z.of_nat n - Z.of_nat (S k)) with true by lia. cbn. lia.
    - right; auto.
  Qed.
  Lemma rstage_mono s k i : RInv s k -> plain i -> rbi_rready i = false ->
    (rstage s k <= rstage (rb_step aw lw mem s i) (k + (if rb_rvalid s && rbi_rready i then 1 else 0)))%nat.
  Proof.
    intros H [Hc Hq] Hrr. unfold rb_step, rstage.
    destruct H as [k s Hr Hk Ha Hs Hl Hv Hla | k s Hr Hk Ha Hs Hl Hv Hla Hd | k s Hr Hk Hv Hla];
      rewrite ?Hr, ?Hv, ?Hla, ?Hq, ?Hrr, ?Hc, ?Hl; cbn [negb andb rb_run rb_rvalid];
      rewrite ?andb_false_r; cbn; rewrite ?Hv; lia.
  Qed.

  Lemma rstage_le s k : RInv s k -> (rstage s k <= S n)%nat.
  Proof.
    intros H; unfold rstage.
    destruct H as [k s Hr Hk Ha Hs Hl Hv Hla | k s Hr Hk Ha Hs Hl Hv Hla Hd | k s Hr Hk Hv Hla];
      rewrite Hr, ?Hv; lia.
  Qed.

  Lemma rprogress ins : forall s k, RInv s k -> Forall plain ins ->
    exists k', RInv (final (rb_step aw lw mem) s ins) k' /\
      (Nat.min (S n) (rstage s k + count_ready ins) <= rstage (final (rb_step aw lw mem) s ins) k')%nat.
  Proof.
    induction ins as [|i ins IH]; intros s k H Hp; cbn [final fold_left].
    - exists k. split; [exact H|]. unfold count_ready; cbn [filter length]. lia.
    - destruct (rinv_step s k i H (Forall_inv Hp)) as [H' _].
      destruct (IH _ _ H' (Forall_inv_tail Hp)) as [k' [Hf Hle]].
      exists k'. split; [exact Hf|].
      unfold count_ready in *; cbn [filter].
      destruct (rbi_rready i) eqn:Er.
      + pose proof (rstage_step s k i H (Forall_inv Hp) Er) as P. rewrite Er in P. cbn [length].
        unfold final in Hle. lia.
      + pose proof (rstage_mono s k i H (Forall_inv Hp) Er) as P. rewrite Er in P.
        unfold final in Hle. lia.
  Qed.
End RB.

Lemma burst_words_length aw mem addr stride n : length (burst_words aw mem addr stride n) = n.
Proof. unfold burst_words. rewrite map_length, seq_length. reflexivity. Qed.

Definition start_in (addr stride len : Z) (rr : bool) : rb_in := mkRBIn true addr stride len rr false.

Lemma rburst_start aw lw mem s addr stride n rr : 0 <= aw -> 0 < Z.of_nat n < 2 ^ lw ->
  rb_run s = false ->
  RInv aw mem addr stride n (rb_step aw lw mem s (start_in addr stride (Z.of_nat n) rr)) 0.
Proof.
  intros Haw Hn Hr. unfold rb_step. rewrite Hr. cbn [negb start_in rbi_cond rbi_length rbi_addr rbi_stride].
  replace (0 <? Z.of_nat n) with true by lia.
  apply RI_empty; cbn; try reflexivity.
  - unfold burst_addr. f_equal. lia.
  - apply Z.mod_small; lia.
Qed.

(** The whole burst: prefix property and completion. *)
Lemma rburst_correct aw lw mem s addr stride n rr ins :
  0 <= aw -> 0 < Z.of_nat n < 2 ^ lw -> rb_run s = false -> rb_rvalid s = false ->
  Forall plain ins ->
  let h := combine (start_in addr stride (Z.of_nat n) rr :: ins)
             (outs (rb_step aw lw mem) rb_out s (start_in addr stride (Z.of_nat n) rr :: ins)) in
  let s' := final (rb_step aw lw mem) s (start_in addr stride (Z.of_nat n) rr :: ins) in
  (exists m, (m <= n)%nat /\ beats h = firstn m (burst_words aw mem addr stride n)) /\
  ((n < count_ready ins)%nat -> beats h = burst_words aw mem addr stride n /\ rb_run s' = false).
Proof.
  intros Haw Hn Hr Hv Hp h s'.
  pose proof (rburst_start aw lw mem s addr stride n rr Haw Hn Hr) as H0.
  destruct (rburst_gen aw lw mem addr stride n Haw Hn ins _ 0%nat H0 Hp ltac:(lia)) as [m (Hm & Eb & Hf)].
  assert (Eh : beats h = firstn m (burst_words aw mem addr stride n)).
  { subst h. cbn [outs combine beats rb_out ro_valid]. rewrite Hv. cbn [andb app].
    unfold rhist in Eb. rewrite Eb. reflexivity. }
  split; [exists m; split; [lia|exact Eh]|].
  intros Hc.
  destruct (rprogress aw lw mem addr stride n Haw Hn ins _ 0%nat H0 Hp) as [k' [Hf' Hle]].
  set (sf := final (rb_step aw lw mem) (rb_step aw lw mem s (start_in addr stride (Z.of_nat n) rr)) ins) in *.
  assert (E0 : rstage n (rb_step aw lw mem s (start_in addr stride (Z.of_nat n) rr)) 0 = 0%nat \/
               rstage n (rb_step aw lw mem s (start_in addr stride (Z.of_nat n) rr)) 0 = 1%nat \/ True) by auto.
  assert (Hrun : rb_run sf = false).
  { unfold rstage in Hle. destruct (rb_run sf) eqn:E; [|reflexivity]. exfalso.
    inversion Hf' as [? ? ? Hk | ? ? ? Hk ? ? ? Hvv | ? ? Hrr]; subst; try congruence.
    - destruct (rb_rvalid sf); [congruence|lia].
    - rewrite Hvv in Hle. destruct (rb_run _); [destruct (rb_rvalid _)|]; lia. }
  split; [|exact Hrun].
  rewrite Eh.
  assert (Em : m = n).
  { inversion Hf as [? ? Hx | ? ? Hx | ? ? Hx Hk]; [congruence|congruence|]. exact Hk. }
  rewrite Em. apply firstn_all2. rewrite burst_words_length. lia.
Qed.

(** ** Write burst *)
Section WB.
  Variables (aw lw : Z) (m0 : Z -> Z) (addr stride : Z) (n : nat).
  Hypothesis Haw : 0 <= aw.
  Hypothesis Hn : 0 < Z.of_nat n < 2 ^ lw.

  Definition wplain (i : wb_in) : Prop := wbi_cond i = false /\ wbi_last i = false /\ wbi_quit i = false.

  Lemma store_snoc ws : forall k m w,
    store_words aw addr stride k (ws ++ [w]) m =
    upd (store_words aw addr stride k ws m) (burst_addr aw addr stride (k + length ws)) w.
  Proof.
    induction ws as [|x ws IH]; intros k m w; cbn [store_words app length].
    - replace (k + 0)%nat with k by lia. reflexivity.
    - rewrite IH. replace (S k + length ws)%nat with (k + S (length ws))%nat by lia. reflexivity.
  Qed.

  (** [ws]: words received so far, at most [n] *)
  Inductive WInv : list Z -> wburst -> Prop :=
  | WI_run ws s : wb_run s = true -> (length ws < n)%nat ->
      wb_addr s = burst_addr aw addr stride (length ws) -> wb_stride s = stride mod 2 ^ aw ->
      wb_length s = Z.of_nat n - Z.of_nat (length ws) -> wb_done s = false ->
      wb_mem s = store_words aw addr stride 0 ws m0 -> WInv ws s
  | WI_done ws s : wb_run s = false -> (n <= length ws)%nat ->
      wb_mem s = store_words aw addr stride 0 (firstn n ws) m0 -> WInv ws s.

  Definition words_of (i : wb_in) : list Z := if wbi_valid i then [wbi_data i] else [].

  Lemma winv_step s ws i : WInv ws s -> wplain i ->
    WInv (ws ++ words_of i) (wb_step aw lw s i) /\
    (wb_done (wb_step aw lw s i) = true <-> wb_run s = true /\ length (ws ++ words_of i) = n).
  Proof.
    intros H (Hc & Hla & Hq). unfold wb_step, words_of.
    destruct H as [ws s Hr Hk Ha Hs Hl Hd Hm | ws s Hr Hk Hm].
    - rewrite Hr, Hla, Hq, Hl. cbn [negb andb]. rewrite andb_false_r.
      destruct (wbi_valid i) eqn:Ev; cbn [andb].
      + rewrite app_length; cbn [length].
        destruct (Z.of_nat n - Z.of_nat (length ws) <=? 1) eqn:E; cbn [wb_done].
        * split; [|split; [intros _; split; [reflexivity|lia]|reflexivity]].
          apply WI_done; cbn; [reflexivity|rewrite app_length; cbn; lia|].
          rewrite firstn_all2 by (rewrite app_length; cbn; lia).
          rewrite store_snoc, Hm, Ha. reflexivity.
        * split; [|split; [discriminate|intros [_ X]; lia]].
          apply WI_run; cbn; rewrite ?app_length; cbn [length].
          -- reflexivity.
          -- lia.
          -- rewrite Ha, Hs. rewrite burst_addr_S by exact Haw. f_equal. lia.
          -- exact Hs.
          -- rewrite Z.mod_small by lia. lia.
          -- reflexivity.
          -- rewrite store_snoc, Hm, Ha. reflexivity.
      + rewrite app_nil_r. cbn [wb_done]. rewrite Hd.
        split; [|split; [discriminate|intros [_ X]; lia]].
        apply WI_run; cbn; auto.
    - rewrite Hr, Hc. cbn [negb andb wb_done].
      split; [|split; [discriminate|intros [X _]; discriminate]].
      apply WI_done; cbn; [reflexivity|rewrite app_length; lia|].
      rewrite firstn_app. replace (n - length ws)%nat with 0%nat by lia.
      cbn [firstn]. rewrite app_nil_r. exact Hm.
  Qed.

  Lemma valid_words_cons i ins : valid_words (i :: ins) = words_of i ++ valid_words ins.
  Proof. unfold valid_words, words_of; cbn. destruct (wbi_valid i); reflexivity. Qed.

  Lemma winv_run ins : forall s ws, WInv ws s -> Forall wplain ins ->
    WInv (ws ++ valid_words ins) (final (wb_step aw lw) s ins).
  Proof.
    induction ins as [|i ins IH]; intros s ws H Hp; cbn [final fold_left].
    - cbn. rewrite app_nil_r. exact H.
    - rewrite valid_words_cons, app_assoc. apply IH; [|exact (Forall_inv_tail Hp)].
      apply winv_step; [exact H|exact (Forall_inv Hp)].
  Qed.
End WB.

Definition wstart_in (addr stride len : Z) : wb_in := mkWBIn true addr stride len false 0 false false.

Lemma wburst_start aw lw s addr stride n : 0 <= aw -> 0 < Z.of_nat n < 2 ^ lw -> wb_run s = false ->
  WInv aw (wb_mem s) addr stride n [] (wb_step aw lw s (wstart_in addr stride (Z.of_nat n))).
Proof.
  intros Haw Hn Hr. unfold wb_step. rewrite Hr. cbn [negb wstart_in wbi_cond wbi_length wbi_addr wbi_stride andb].
  replace (0 <? Z.of_nat n) with true by lia.
  apply WI_run; cbn; try reflexivity.
  - lia.
  - unfold burst_addr. f_equal. lia.
  - rewrite Z.mod_small by lia. lia.
Qed.

Lemma wburst_correct aw lw s addr stride n ins :
  0 <= aw -> 0 < Z.of_nat n < 2 ^ lw -> wb_run s = false -> Forall wplain ins ->
  let s' := final (wb_step aw lw) s (wstart_in addr stride (Z.of_nat n) :: ins) in
  wb_mem s' = store_words aw addr stride 0 (firstn n (valid_words ins)) (wb_mem s) /\
  (wb_ready s' = true <-> (length (valid_words ins) < n)%nat).
Proof.
  intros Haw Hn Hr Hp s'.
  pose proof (winv_run aw lw (wb_mem s) addr stride n Haw Hn ins _ []
                (wburst_start aw lw s addr stride n Haw Hn Hr) Hp) as H.
  cbn [app] in H. change (final _ _ ins) with s' in H. unfold wb_ready.
  inversion H as [? ? H1 H2 _ _ _ _ H3 | ? ? H1 H2 H3]; subst.
  - rewrite firstn_all2 by lia. rewrite H1. split; [exact H3|split; [intros _; exact H2|reflexivity]].
  - rewrite H1. split; [exact H3|split; [discriminate|lia]].
Qed.

Lemma wburst_done aw lw s addr stride n ins i :
  0 <= aw -> 0 < Z.of_nat n < 2 ^ lw -> wb_run s = false -> Forall wplain ins -> wplain i ->
  wb_done (final (wb_step aw lw) s (wstart_in addr stride (Z.of_nat n) :: ins ++ [i])) = true <->
  wbi_valid i = true /\ length (valid_words (ins ++ [i])) = n.
Proof.
  intros Haw Hn Hr Hp Hi.
  pose proof (winv_run aw lw (wb_mem s) addr stride n Haw Hn ins _ []
                (wburst_start aw lw s addr stride n Haw Hn Hr) Hp) as H.
  cbn [final fold_left]. rewrite fold_left_app. cbn [fold_left].
  change (fold_left (wb_step aw lw) ins ?x) with (final (wb_step aw lw) x ins).
  set (sf := final _ _ ins) in *. cbn [app] in H.
  destruct (winv_step aw lw (wb_mem s) addr stride n Haw Hn sf _ i H Hi) as [_ E]. rewrite E.
  assert (Ev : valid_words (ins ++ [i]) = valid_words ins ++ words_of i).
  { unfold valid_words, words_of. rewrite filter_app, map_app. cbn. destruct (wbi_valid i); reflexivity. }
  rewrite Ev. unfold words_of. rewrite app_length.
  inversion H as [? ? H1 H2 _ _ _ _ H3 | ? ? H1 H2 H3]; rewrite H1; destruct (wbi_valid i); cbn [length];
    split; intros [? ?]; try discriminate; try (split; [reflexivity|assumption]); try lia.
Qed.

(** ** Multibank RAM *)
Section MB.
  Variable k : Z.
  Hypothesis Hk : 0 <= k.

  Definition mb_ok (m : Z -> Z) (s : mbram) : Prop :=
    (forall a, 0 <= a -> m a = mb_banks s (Z.to_nat (mb_bank k a)) (mb_addr k a)).

  Lemma mb_bank_range a : 0 <= mb_bank k a < 2 ^ k.
  Proof. unfold mb_bank. apply Z.mod_pos_bound. apply Z.pow_pos_nonneg; lia. Qed.

  Lemma mb_split_inj a b : mb_bank k a = mb_bank k b -> mb_addr k a = mb_addr k b -> a = b.
  Proof.
    unfold mb_bank, mb_addr. rewrite !Z.shiftr_div_pow2 by lia. intros H1 H2.
    assert (0 < 2 ^ k) by (apply Z.pow_pos_nonneg; lia).
    rewrite (Z.div_mod a (2 ^ k)), (Z.div_mod b (2 ^ k)) by lia. rewrite H1, H2. reflexivity.
  Qed.

  Lemma mb_ok_step m s o : (match o with MbWrite a _ => 0 <= a | _ => True end) ->
    mb_ok m s -> mb_ok (flat_step m o) (mb_step k s o).
  Proof.
    intros Ho H a Ha. destruct o as [r|w d|]; cbn [flat_step mb_step mb_banks]; auto.
    destruct (Nat.eqb _ _) eqn:E.
    - unfold upd. destruct (a =? w) eqn:E1.
      + assert (a = w) by lia; subst. rewrite Z.eqb_refl. reflexivity.
      + destruct (mb_addr k a =? mb_addr k w) eqn:E2; [|apply H; exact Ha].
        exfalso. pose proof (mb_bank_range a). pose proof (mb_bank_range w).
        assert (a = w) by (apply mb_split_inj; lia). lia.
    - unfold upd. destruct (a =? w) eqn:E1; [|apply H; exact Ha].
      assert (a = w) by lia; subst. rewrite Nat.eqb_refl in E. discriminate.
  Qed.

  Lemma pattern_mux_pick (f : nat -> Z) r n a : 0 <= r -> (a <= Z.to_nat r < a + n)%nat ->
    pattern_mux (map (fun b => (r =? Z.of_nat b, f b)) (seq a n)) 0 = f (Z.to_nat r).
  Proof.
    revert a; induction n as [|n IH]; intros a Hr Hb; [lia|].
    cbn [seq map pattern_mux]. destruct (r =? Z.of_nat a) eqn:E.
    - f_equal. lia.
    - apply IH; lia.
  Qed.

  Lemma mb_run ops : forall m s, Forall (fun o => match o with MbWrite a _ => 0 <= a | _ => True end) ops ->
    mb_ok m s -> mb_ok (fold_left flat_step ops m) (fold_left (mb_step k) ops s).
  Proof.
    induction ops as [|o ops IH]; intros m s Ho H; [exact H|].
    cbn [fold_left]. apply IH; [exact (Forall_inv_tail Ho)|].
    apply mb_ok_step; [exact (Forall_inv Ho)|exact H].
  Qed.

  Lemma mb_correct banks ops a :
    Forall (fun o => match o with MbWrite a _ => 0 <= a | _ => True end) ops -> 0 <= a ->
    let s := fold_left (mb_step k) (ops ++ [MbRead a]) (mb_init banks) in
    mb_out k s = fold_left flat_step ops (flat_init k banks) a /\ mb_rvalid s = true.
  Proof.
    intros Ho Ha s. subst s. rewrite fold_left_app. cbn [fold_left mb_step mb_rvalid]. split; [|reflexivity].
    unfold mb_out. cbn [mb_bank_reg mb_rdata].
    pose proof (mb_bank_range a).
    rewrite (pattern_mux_pick (fun b => mb_banks (fold_left (mb_step k) ops (mb_init banks)) b (mb_addr k a)))
      by (try lia).
    symmetry. apply (mb_run ops); try assumption.
    intros b Hb. reflexivity.
  Qed.
End MB.
