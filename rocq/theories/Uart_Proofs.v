(** Proofs for C48. *)
From Verif Require Import Base Uart_Model Uart_Spec.
Open Scope Z_scope.

Lemma wtrunc_id : forall W z, 1 <= W -> 0 <= z < W -> wtrunc W z = z.
Proof.
  intros W z HW Hz. unfold wtrunc. apply Z.mod_small. split; [lia|].
  pose proof (Z.log2_spec W ltac:(lia)) as [_ K]. unfold Z.succ in K. lia.
Qed.

Ltac eight b H :=
  let q0 := fresh "q" in let q1 := fresh "q" in let q2 := fresh "q" in let q3 := fresh "q" in
  let q4 := fresh "q" in let q5 := fresh "q" in let q6 := fresh "q" in let q7 := fresh "q" in
  destruct b as [|q0 [|q1 [|q2 [|q3 [|q4 [|q5 [|q6 [|q7 [|? ?]]]]]]]]]; try discriminate H.
Ltac nine b H :=
  let q0 := fresh "g" in let q1 := fresh "g" in let q2 := fresh "g" in let q3 := fresh "g" in
  let q4 := fresh "g" in let q5 := fresh "g" in let q6 := fresh "g" in let q7 := fresh "g" in let q8 := fresh "g" in
  destruct b as [|q0 [|q1 [|q2 [|q3 [|q4 [|q5 [|q6 [|q7 [|q8 [|? ?]]]]]]]]]]; try discriminate H.

Lemma upto10 : forall q, 0 <= q < 10 ->
  q = 0 \/ q = 1 \/ q = 2 \/ q = 3 \/ q = 4 \/ q = 5 \/ q = 6 \/ q = 7 \/ q = 8 \/ q = 9.
Proof. intros; lia. Qed.
Ltac ten q H := destruct (upto10 q H) as [?|[?|[?|[?|[?|[?|[?|[?|[?|?]]]]]]]]].

(** the ten bits of a byte on the line *)
Definition fr (b : list bool) : list bool := false :: b ++ [true].

(** ** Position arithmetic *)
Section Pos.
  Variable W : Z.
  Hypothesis HW : 2 <= W.
  Lemma pos_split : forall i, i = W * (i / W) + i mod W /\ 0 <= i mod W < W.
  Proof. intros i. split; [apply Z.div_mod; lia|apply Z.mod_pos_bound; lia]. Qed.
  Lemma pos_is : forall i q r, i = W * q + r -> 0 <= r < W -> i / W = q /\ i mod W = r.
  Proof.
    intros i q r E Hr. split; [symmetry; apply (Z.div_unique i W q r); [left; exact Hr|exact E]|].
    symmetry. apply (Z.mod_unique i W q r); [left; exact Hr|exact E].
  Qed.
  Lemma pos_next : forall i, i mod W < W - 1 -> (i + 1) / W = i / W /\ (i + 1) mod W = i mod W + 1.
  Proof. intros i H. destruct (pos_split i) as [E B]. apply pos_is; lia. Qed.
  Lemma pos_wrap : forall i, i mod W = W - 1 -> (i + 1) / W = i / W + 1 /\ (i + 1) mod W = 0.
  Proof. intros i H. destruct (pos_split i) as [E B]. apply pos_is; lia. Qed.
  Lemma pos_lt : forall i n, i < n * W -> i / W < n.
  Proof. intros i n H. apply Z.div_lt_upper_bound; lia. Qed.
  Lemma pos_ge : forall i, 0 <= i -> 0 <= i / W.
  Proof. intros i H. apply Z.div_pos; lia. Qed.
  Lemma pos_full : forall n, (n * W) / W = n /\ (n * W) mod W = 0.
  Proof. intros n. apply pos_is; lia. Qed.
End Pos.

(** ** The transmitter *)
Section Tx.
  Variable W : Z.
  Hypothesis HW : 2 <= W.

  Definition tx_idle (t : tx) : Prop := t_st t = 0 /\ t_txd t = true /\ t_ready t = true.
  Definition tmem (b : list bool) (q : Z) : list bool := firstn 9 (skipn (Z.to_nat q) (false :: b ++ repeat true 10)).
  Definition tline (b : list bool) (q : Z) : bool := nth (Z.to_nat q) (true :: fr b) true.
  (** [i] cycles after the first cycle of state 1 *)
  Definition tx_at (b : list bool) (i : Z) (t : tx) : Prop :=
    t = mkTx (1 + i / W) (W - 1 - i mod W) (tmem b (i / W)) (tline b (i / W)) false.

  Lemma tx_start : forall b t, byte b -> tx_idle t -> tx_at b 0 (tx_step W b true t).
  Proof.
    intros b t Hb (A & B & C). unfold tx_step, tx_at. rewrite A, Z.eqb_refl. rewrite Z.div_0_l, Z.mod_0_l by lia.
    rewrite wtrunc_id by lia. unfold byte in Hb. eight b Hb. f_equal; lia.
  Qed.
  Lemma tx_stay : forall d t, tx_idle t -> tx_idle (tx_step W d false t).
  Proof. intros d t (A & B & C). unfold tx_step. rewrite A, Z.eqb_refl. repeat split. exact C. Qed.

  Lemma tmem_next : forall b q, byte b -> 0 <= q < 10 -> tl (tmem b q) ++ [true] = tmem b (q + 1).
  Proof. intros b q Hb Hq. unfold byte in Hb. eight b Hb. ten q Hq; subst; reflexivity. Qed.
  Lemma tline_next : forall b q, byte b -> 0 <= q < 10 -> hd false (tmem b q) = tline b (q + 1).
  Proof. intros b q Hb Hq. unfold byte in Hb. eight b Hb. ten q Hq; subst; reflexivity. Qed.

  Lemma tx_next : forall b i d e t, byte b -> 0 <= i < 10 * W -> tx_at b i t -> tx_at b (i + 1) (tx_step W d e t).
  Proof.
    intros b i d e t Hb Hi E. unfold tx_at in *. subst t. unfold tx_step. cbn [t_st t_wait t_mem t_txd t_ready].
    pose proof (pos_lt W HW i 10 ltac:(lia)) as Hq. pose proof (pos_ge W HW i ltac:(lia)) as Hq0.
    destruct (pos_split W HW i) as [_ Hm].
    replace (1 + i / W =? 0) with false by (symmetry; apply Z.eqb_neq; lia).
    replace (1 + i / W <=? 10) with true by (symmetry; apply Z.leb_le; lia).
    destruct (0 <? W - 1 - i mod W) eqn:Ew.
    - apply Z.ltb_lt in Ew. destruct (pos_next W HW i ltac:(lia)) as [-> ->]. rewrite wtrunc_id by lia. f_equal; lia.
    - apply Z.ltb_ge in Ew. destruct (pos_wrap W HW i ltac:(lia)) as [-> ->]. rewrite wtrunc_id by lia.
      rewrite tmem_next, tline_next by (try exact Hb; lia). f_equal; lia.
  Qed.
  Lemma tx_finish : forall b d e t, byte b -> tx_at b (10 * W) t -> tx_idle (tx_step W d e t).
  Proof.
    intros b d e t Hb E. unfold tx_at in E. subst t. destruct (pos_full W HW 10) as [-> ->].
    unfold byte in Hb. eight b Hb. repeat split.
  Qed.
  Lemma tx_at_txd : forall b i t, tx_at b i t -> t_txd t = tline b (i / W).
  Proof. intros b i t ->. reflexivity. Qed.
  Lemma tx_at_ready : forall b i t, tx_at b i t -> t_ready t = false.
  Proof. intros b i t ->. reflexivity. Qed.
End Tx.

(** ** The receiver *)
Section Rx.
  Variable W : Z.
  Hypothesis HW : 2 <= W.
  Lemma half : 1 <= W / 2 /\ W / 2 < W /\ 2 * (W / 2) <= W.
  Proof.
    pose proof (Z.div_mod W 2 ltac:(lia)). pose proof (Z.mod_pos_bound W 2 ltac:(lia)). lia.
  Qed.

  Definition rx_idle (r : rx) : Prop := r_st r = 0 /\ length (r_mem r) = 9%nat.
  Definition rmem (g b : list bool) (q : Z) : list bool := skipn (Z.to_nat q) (g ++ firstn (Z.to_nat q) (fr b)).
  (** [k] counts so that bit [q] is sampled at [k = q * W + W - 1] *)
  Definition rx_at (b : list bool) (k : Z) (r : rx) : Prop :=
    exists g, length g = 9%nat /\ r_st r = 1 + k / W /\ r_wait r = W - 1 - k mod W /\ r_mem r = rmem g b (k / W) /\ r_valid r = false.

  Lemma rx_stay : forall r, rx_idle r -> rx_idle (rx_step W true r) /\ r_valid (rx_step W true r) = false.
  Proof.
    intros r (A & B). unfold rx_step. rewrite A, Z.eqb_refl. split; [|reflexivity]. split; [reflexivity|].
    cbn [r_mem]. nine (r_mem r) B. reflexivity.
  Qed.
  Lemma rx_start : forall b r, rx_idle r -> rx_at b (W - W / 2) (rx_step W false r) /\ r_valid (rx_step W false r) = false.
  Proof.
    intros b r (A & B). pose proof half as Hh. unfold rx_step. rewrite A, Z.eqb_refl. split; [|reflexivity].
    assert (K : (W - W / 2) / W = 0 /\ (W - W / 2) mod W = W - W / 2) by (apply pos_is; lia). destruct K as [K1 K2].
    exists (tl (r_mem r) ++ [false]). cbn [r_mem r_st r_wait r_valid]. rewrite K1, K2, wtrunc_id by lia.
    nine (r_mem r) B. repeat split; lia.
  Qed.
  Lemma rmem_next : forall g b q, length g = 9%nat -> byte b -> 0 <= q < 10 ->
    tl (rmem g b q) ++ [nth (Z.to_nat q) (fr b) true] = rmem g b (q + 1).
  Proof. intros g b q Hg Hb Hq. unfold byte in Hb. eight b Hb. nine g Hg. ten q Hq; subst; reflexivity. Qed.

  Lemma rx_next : forall b k x r, byte b -> 0 <= k < 10 * W ->
    (k mod W = W - 1 -> x = nth (Z.to_nat (k / W)) (fr b) true) -> (k / W = 0 -> x = false) ->
    rx_at b k r -> rx_at b (k + 1) (rx_step W x r) /\ r_valid (rx_step W x r) = false.
  Proof.
    intros b k x r Hb Hk Hx H0 (g & Hg & A & B & C & D). unfold rx_step. rewrite A, B.
    pose proof (pos_lt W HW k 10 ltac:(lia)) as Hq. pose proof (pos_ge W HW k ltac:(lia)) as Hq0.
    destruct (pos_split W HW k) as [_ Hm].
    replace (1 + k / W =? 0) with false by (symmetry; apply Z.eqb_neq; lia).
    replace (1 + k / W <=? 10) with true by (symmetry; apply Z.leb_le; lia).
    assert (Eb : (1 + k / W =? 1) && (W - 1 - k mod W =? 1) && x = false).
    { destruct (1 + k / W =? 1) eqn:E; [|reflexivity]. apply Z.eqb_eq in E. rewrite H0 by lia. apply andb_false_r. }
    rewrite Eb.
    destruct (0 <? W - 1 - k mod W) eqn:Ew.
    - apply Z.ltb_lt in Ew. split; [|exact D]. exists g. cbn [r_mem r_st r_wait r_valid].
      destruct (pos_next W HW k ltac:(lia)) as [-> ->]. rewrite wtrunc_id by lia. repeat split; auto; lia.
    - apply Z.ltb_ge in Ew. split; [|exact D]. exists g. cbn [r_mem r_st r_wait r_valid].
      destruct (pos_wrap W HW k ltac:(lia)) as [-> ->]. rewrite wtrunc_id by lia. rewrite C, (Hx ltac:(lia)).
      rewrite rmem_next by (try assumption; lia). repeat split; auto; lia.
  Qed.
  Lemma rx_finish : forall b x r, byte b -> rx_at b (10 * W) r ->
    rx_idle (rx_step W x r) /\ r_valid (rx_step W x r) = true /\ r_dout (rx_step W x r) = b.
  Proof.
    intros b x r Hb (g & Hg & A & B & C & D). destruct (pos_full W HW 10) as [K1 K2]. rewrite K1 in A, C.
    unfold rx_step. rewrite A. cbn [Z.add Z.eqb Z.leb Z.compare Pos.compare Pos.compare_cont].
    unfold byte in Hb. unfold rx_idle. cbn [r_st r_mem r_valid r_dout]. rewrite C. clear - Hb Hg. eight b Hb. nine g Hg.
    repeat split.
  Qed.
End Rx.

(** ** The link *)
Section Link.
  Variable W : Z.
  Hypothesis HW : 2 <= W.

  (** [pend]: bytes taken and not yet received; [n]: a lower bound on the cycles until the next [valid];
      [m]: after that many cycles without [enable] everything has been received. *)
  Inductive phase : link -> list (list bool) -> Z -> Z -> Prop :=
  | PIdle : forall t r, tx_idle t -> rx_idle r -> phase (mkLink t r) [] (10 * W + W / 2 + 3) 0
  | PWait : forall t r b i, byte b -> 0 <= i <= W -> tx_at W b i t -> rx_idle r ->
      phase (mkLink t r) [b] (10 * W + W / 2 + 2 - i) (10 * W + W / 2 + 2 - i)
  | PBoth : forall t r b i, byte b -> W < i <= 10 * W -> tx_at W b i t -> rx_at W b (i - 1 - W / 2) r ->
      phase (mkLink t r) [b] (10 * W + W / 2 + 2 - i) (10 * W + W / 2 + 2 - i)
  | PTail : forall t r b k, byte b -> 10 * W - W / 2 <= k <= 10 * W -> tx_idle t -> rx_at W b k r ->
      phase (mkLink t r) [b] (10 * W + 1 - k) (10 * W + 1 - k)
  | POver : forall t r b c i k, byte b -> byte c -> 0 <= i -> i + 10 * W + 1 <= k + W / 2 -> k <= 10 * W ->
      tx_at W c i t -> rx_at W b k r ->
      phase (mkLink t r) [b; c] (10 * W + 1 - k) (10 * W + W / 2 + 2 - i).

  Lemma tline_wait : forall b i, 0 <= i < W -> tline b (i / W) = true.
  Proof. intros b i Hi. replace (i / W) with 0 by (symmetry; apply Z.div_small; lia). reflexivity. Qed.
  Lemma tline_is : forall b k, 0 <= k / W -> tline b (k / W + 1) = nth (Z.to_nat (k / W)) (fr b) true.
  Proof. intros b k H. unfold tline. replace (Z.to_nat (k / W + 1)) with (Datatypes.S (Z.to_nat (k / W))) by lia. reflexivity. Qed.
  (** the receiver samples in the middle of the bits *)
  Lemma sampled : forall b i, W < i -> (i - 1 - W / 2) mod W = W - 1 ->
    tline b (i / W) = nth (Z.to_nat ((i - 1 - W / 2) / W)) (fr b) true.
  Proof.
    intros b i Hi Hk. pose proof (half W HW) as Hh. set (k := i - 1 - W / 2) in *.
    destruct (pos_split W HW k) as [E B]. assert (Hkk : 0 <= k / W) by (apply pos_ge; lia).
    rewrite <- tline_is by exact Hkk. f_equal. destruct (pos_is W i (k / W + 1) (W / 2)) as [-> _]; [subst k; lia|lia|reflexivity].
  Qed.
  Lemma still_start : forall b i, W < i -> (i - 1 - W / 2) / W = 0 -> tline b (i / W) = false.
  Proof.
    intros b i Hi Hk. pose proof (half W HW) as Hh. set (k := i - 1 - W / 2) in *.
    destruct (pos_split W HW k) as [E B]. rewrite Hk in E.
    destruct (pos_is W i 1 (i - W)) as [-> _]; [lia|subst k; lia|reflexivity].
  Qed.
  Lemma tail_line : forall b k, byte b -> 10 * W - W / 2 <= k < 10 * W ->
    (k mod W = W - 1 -> true = nth (Z.to_nat (k / W)) (fr b) true) /\ (k / W = 0 -> true = false).
  Proof.
    intros b k Hb Hk. pose proof (half W HW) as Hh.
    destruct (pos_is W k 9 (k - 9 * W)) as [-> _]; [lia|lia|]. split; [|lia]. intros _.
    unfold byte in Hb. eight b Hb. reflexivity.
  Qed.

  Definition took (s : link) (i : list bool * bool) : list (list bool) :=
    if t_ready (l_tx s) && snd i then [fst i] else [].
  Definition gave (s : link) : list (list bool) := if r_valid (l_rx s) then [r_dout (l_rx s)] else [].

  Lemma phase_step : forall s pend n m i, phase s pend n m -> byte (fst i) ->
    exists pend' n' m', phase (link_step W s i) pend' n' m' /\
      pend ++ took s i = gave (link_step W s i) ++ pend' /\
      (if r_valid (l_rx (link_step W s i)) then n = 1 /\ 10 * W + 2 <= n' else n - 1 <= n') /\
      (snd i = false -> m' <= Z.max 0 (m - 1)).
  Proof.
    intros s pend n m [d e] Hp Hd. cbn [fst snd] in *. pose proof (half W HW) as Hh.
    destruct Hp as [t r Ht Hr|t r b i Hb Hi Ht Hr|t r b i Hb Hi Ht Hr|t r b k Hb Hk Ht Hr|t r b c i k Hb Hc Hi Hik Hk Ht Hr];
      unfold link_step, took, gave; cbn [l_tx l_rx fst snd].
    - destruct Ht as (T1 & T2 & T3). rewrite T2. destruct (rx_stay W r Hr) as [Hr' ->].
      rewrite T3. destruct e; cbn [andb app].
      + eexists [d], _, _. split; [eapply (PWait _ _ d 0); [exact Hd|lia|apply tx_start; [exact HW|exact Hd|repeat split; assumption]|exact Hr']|].
        split; [reflexivity|]. split; [lia|discriminate].
      + eexists [], _, _. split; [apply PIdle; [apply tx_stay; repeat split; assumption|exact Hr']|].
        split; [reflexivity|]. split; [lia|lia].
    - rewrite (tx_at_ready W _ _ _ Ht), (tx_at_txd W _ _ _ Ht). cbn [andb].
      pose proof (tx_next W HW b i d e t Hb ltac:(lia) Ht) as Ht'.
      destruct (Z.eq_dec i W) as [->|Hne].
      + assert (E : tline b (W / W) = false) by (rewrite Z.div_same by lia; reflexivity). rewrite E.
        destruct (rx_start W HW b r Hr) as [Hr' ->].
        eexists [b], _, _. split; [eapply (PBoth _ _ b (W + 1)); [exact Hb|lia|exact Ht'|]|].
        { replace (W + 1 - 1 - W / 2) with (W - W / 2) by lia. exact Hr'. }
        split; [reflexivity|]. split; [lia|lia].
      + rewrite tline_wait by lia. destruct (rx_stay W r Hr) as [Hr' ->].
        eexists [b], _, _. split; [eapply (PWait _ _ b (i + 1)); [exact Hb|lia|exact Ht'|exact Hr']|].
        split; [reflexivity|]. split; [lia|lia].
    - rewrite (tx_at_ready W _ _ _ Ht), (tx_at_txd W _ _ _ Ht). cbn [andb].
      destruct (rx_next W HW b (i - 1 - W / 2) (tline b (i / W)) r Hb ltac:(lia)
                  (sampled b i ltac:(lia)) (still_start b i ltac:(lia)) Hr) as [Hr' Hv].
      rewrite Hv. destruct (Z.eq_dec i (10 * W)) as [->|Hne].
      + eexists [b], _, _. split; [eapply (PTail _ _ b (10 * W - W / 2)); [exact Hb|lia|apply (tx_finish W HW b); assumption|]|].
        { replace (10 * W - W / 2) with (10 * W - 1 - W / 2 + 1) by lia. exact Hr'. }
        split; [reflexivity|]. split; [lia|lia].
      + pose proof (tx_next W HW b i d e t Hb ltac:(lia) Ht) as Ht'.
        eexists [b], _, _. split; [eapply (PBoth _ _ b (i + 1)); [exact Hb|lia|exact Ht'|]|].
        { replace (i + 1 - 1 - W / 2) with (i - 1 - W / 2 + 1) by lia. exact Hr'. }
        split; [reflexivity|]. split; [lia|lia].
    - destruct Ht as (T1 & T2 & T3). rewrite T2, T3. cbn [andb].
      destruct (Z.eq_dec k (10 * W)) as [->|Hne].
      + destruct (rx_finish W HW b true r Hb Hr) as (Hr' & Hv & Ho). rewrite Hv, Ho. destruct e.
        * eexists [d], _, _. split; [eapply (PWait _ _ d 0); [exact Hd|lia|apply tx_start; [exact HW|exact Hd|repeat split; assumption]|exact Hr']|].
          split; [reflexivity|]. split; [lia|discriminate].
        * eexists [], _, _. split; [apply PIdle; [apply tx_stay; repeat split; assumption|exact Hr']|].
          split; [reflexivity|]. split; [lia|lia].
      + destruct (tail_line b k Hb ltac:(lia)) as [L1 L2].
        destruct (rx_next W HW b k true r Hb ltac:(lia) L1 L2 Hr) as [Hr' Hv]. rewrite Hv. destruct e.
        * eexists [b; d], _, _. split; [eapply (POver _ _ b d 0 (k + 1)); [exact Hb|exact Hd|lia|lia|lia|apply tx_start; [exact HW|exact Hd|repeat split; assumption]|exact Hr']|].
          split; [reflexivity|]. split; [lia|discriminate].
        * eexists [b], _, _. split; [eapply (PTail _ _ b (k + 1)); [exact Hb|lia|apply tx_stay; repeat split; assumption|exact Hr']|].
          split; [reflexivity|]. split; [lia|lia].
    - rewrite (tx_at_ready W _ _ _ Ht), (tx_at_txd W _ _ _ Ht), tline_wait by lia. cbn [andb].
      pose proof (tx_next W HW c i d e t Hc ltac:(lia) Ht) as Ht'.
      destruct (Z.eq_dec k (10 * W)) as [->|Hne].
      + destruct (rx_finish W HW b true r Hb Hr) as (Hr' & Hv & Ho). rewrite Hv, Ho.
        eexists [c], _, _. split; [eapply (PWait _ _ c (i + 1)); [exact Hc|lia|exact Ht'|exact Hr']|].
        split; [reflexivity|]. split; [lia|lia].
      + destruct (tail_line b k Hb ltac:(lia)) as [L1 L2].
        destruct (rx_next W HW b k true r Hb ltac:(lia) L1 L2 Hr) as [Hr' Hv]. rewrite Hv.
        eexists [b; c], _, _. split; [eapply (POver _ _ b c (i + 1) (k + 1)); [exact Hb|exact Hc|lia|lia|lia|exact Ht'|exact Hr']|].
        split; [reflexivity|]. split; [lia|lia].
  Qed.

  Lemma phase_init : phase link_init [] (10 * W + W / 2 + 3) 0.
  Proof. apply PIdle; repeat split. Qed.

  Fixpoint link_end (s : link) (ins : list (list bool * bool)) : link :=
    match ins with [] => s | i :: l => link_end (link_step W s i) l end.
  Lemma phase_run : forall ins s pend n m, Forall (fun i => byte (fst i)) ins -> phase s pend n m ->
    exists pend' n' m', phase (link_end s ins) pend' n' m' /\ pend ++ taken W s ins = received W s ins ++ pend'.
  Proof.
    induction ins as [|i l IH]; intros s pend n m Hf Hp.
    - exists pend, n, m. split; [exact Hp|]. cbn. apply app_nil_r.
    - apply Forall_cons_iff in Hf as [Hi Hf]. destruct (phase_step s pend n m i Hp Hi) as (p1 & n1 & m1 & H1 & E1 & _).
      destruct (IH _ _ _ _ Hf H1) as (p2 & n2 & m2 & H2 & E2). exists p2, n2, m2. split; [exact H2|].
      cbn [taken received]. fold (took s i). fold (gave (link_step W s i)).
      rewrite app_assoc, E1, <- !app_assoc. f_equal. exact E2.
  Qed.
  Lemma phase_m : forall s pend n m, phase s pend n m -> 0 <= m <= 12 * W /\ (m = 0 -> pend = []) /\ (length pend <= 2)%nat.
  Proof.
    intros s pend n m Hp. pose proof (half W HW) as Hh.
    assert (K : W / 2 + 2 <= 2 * W).
    { clear - HW Hh. destruct (Z.eq_dec W 2) as [e|Hne]; [rewrite e; change (2 / 2) with 1; lia|]. lia. }
    destruct Hp; (split; [lia|split; [|cbn; lia]]); first [reflexivity | intros; exfalso; lia].
  Qed.
  Lemma phase_n : forall s pend n m, phase s pend n m -> 1 <= n.
  Proof. intros s pend n m Hp. pose proof (half W HW) as Hh. destruct Hp; lia. Qed.
  Lemma phase_idle : forall k s pend n m d, byte d -> m <= Z.of_nat k -> phase s pend n m ->
    taken W s (repeat (d, false) k) = [] /\ received W s (repeat (d, false) k) = pend.
  Proof.
    induction k as [|k IH]; intros s pend n m d Hd Hm Hp.
    - destruct (phase_m _ _ _ _ Hp) as (K1 & K2 & _). rewrite K2 by lia. split; reflexivity.
    - destruct (phase_step s pend n m (d, false) Hp Hd) as (p1 & n1 & m1 & H1 & E1 & _ & Em). specialize (Em eq_refl).
      destruct (IH _ p1 n1 m1 d Hd ltac:(lia) H1) as [A B]. cbn [repeat taken received]. rewrite A, B.
      unfold took in E1. cbn [snd] in *. rewrite andb_false_r in *. rewrite app_nil_r in E1. split; [reflexivity|].
      symmetry. exact E1.
  Qed.
  Lemma taken_app : forall a s b, taken W s (a ++ b) = taken W s a ++ taken W (link_end s a) b.
  Proof. induction a as [|i a IH]; intros s b; [reflexivity|]. cbn. rewrite IH, app_assoc. reflexivity. Qed.
  Lemma received_app : forall a s b, received W s (a ++ b) = received W s a ++ received W (link_end s a) b.
  Proof. induction a as [|i a IH]; intros s b; [reflexivity|]. cbn. rewrite IH, app_assoc. reflexivity. Qed.

  Lemma link_exact : forall ins d, Forall (fun i => byte (fst i)) ins -> byte d ->
    received W link_init (ins ++ repeat (d, false) (Z.to_nat (12 * W))) = taken W link_init ins.
  Proof.
    intros ins d Hf Hd. destruct (phase_run ins link_init [] _ _ Hf phase_init) as (p & n & m & Hp & E). cbn [app] in E.
    destruct (phase_m _ _ _ _ Hp) as (K & _). rewrite received_app, E. f_equal.
    eapply phase_idle; [exact Hd| |exact Hp]. lia.
  Qed.
  Lemma link_prefix : forall ins, Forall (fun i => byte (fst i)) ins ->
    exists pend, taken W link_init ins = received W link_init ins ++ pend /\ (length pend <= 2)%nat.
  Proof.
    intros ins Hf. destruct (phase_run ins link_init [] _ _ Hf phase_init) as (p & n & m & Hp & E). cbn [app] in E.
    exists p. split; [exact E|]. eapply phase_m. exact Hp.
  Qed.
End Link.

(** ** The line levels of one byte *)
Lemma seq_map_shift' : forall a n, map (fun j => (a + j)%nat) (seq 0 n) = seq a n.
Proof.
  intros a n. revert a. induction n as [|n IH]; intros a; [reflexivity|].
  cbn [seq map]. rewrite Nat.add_0_r. f_equal. rewrite <- (IH (Datatypes.S a)), <- seq_shift, map_map.
  apply map_ext. intros j. lia.
Qed.
Section Wave.
  Variable W : Z.
  Hypothesis HW : 2 <= W.

  Lemma tx_line_app : forall a t b, tx_line W t (a ++ b) = tx_line W t a ++ tx_line W (tx_end W t a) b.
  Proof. induction a as [|i a IH]; intros t b; [reflexivity|]. cbn. rewrite IH. reflexivity. Qed.
  Lemma tx_end_app : forall a t b, tx_end W t (a ++ b) = tx_end W (tx_end W t a) b.
  Proof. induction a as [|i a IH]; intros t b; [reflexivity|]. cbn. apply IH. Qed.

  Lemma tx_bit : forall b q ins r t, byte b -> 0 <= q < 10 -> 0 <= r -> r + Z.of_nat (length ins) = W ->
    tx_at W b (q * W + r) t ->
    tx_line W t ins = repeat (tline b q) (length ins) /\ tx_at W b ((q + 1) * W) (tx_end W t ins).
  Proof.
    intros b q ins. induction ins as [|i l IH]; intros r t Hb Hq Hr Hl Ht.
    - cbn [length] in Hl. split; [reflexivity|]. cbn. replace ((q + 1) * W) with (q * W + r) by lia. exact Ht.
    - cbn [length] in Hl. cbn [tx_line tx_end length repeat].
      assert (Hn : 0 <= q * W + r < 10 * W) by nia.
      pose proof (tx_next W HW b (q * W + r) (fst i) (snd i) t Hb Hn Ht) as Ht'.
      replace (q * W + r + 1) with (q * W + (r + 1)) in Ht' by lia.
      destruct (IH (r + 1) _ Hb Hq ltac:(lia) ltac:(lia) Ht') as [A B]. rewrite A. split; [|exact B].
      f_equal. rewrite (tx_at_txd W _ _ _ Ht). destruct (pos_is W (q * W + r) q r) as [-> _]; [lia|lia|reflexivity].
  Qed.
  Lemma tx_bits : forall n b q ins t, byte b -> 0 <= q -> q + Z.of_nat n <= 10 ->
    Z.of_nat (length ins) = Z.of_nat n * W -> tx_at W b (q * W) t ->
    tx_line W t ins = flat_map (fun j => hold W (tline b (q + Z.of_nat j))) (seq 0 n) /\
    tx_at W b ((q + Z.of_nat n) * W) (tx_end W t ins).
  Proof.
    induction n as [|n IH]; intros b q ins t Hb Hq Hqn Hl Ht.
    - destruct ins; [|cbn [length] in Hl; lia]. split; [reflexivity|]. cbn [tx_end]. replace (q + Z.of_nat 0) with q by lia. exact Ht.
    - rewrite <- (firstn_skipn (Z.to_nat W) ins). rewrite tx_line_app, tx_end_app.
      assert (L1 : length (firstn (Z.to_nat W) ins) = Z.to_nat W) by (apply firstn_length_le; nia).
      destruct (tx_bit b q (firstn (Z.to_nat W) ins) 0 t Hb) as [A B]; [lia|lia|rewrite L1; lia|rewrite Z.add_0_r; exact Ht|].
      destruct (IH b (q + 1) (skipn (Z.to_nat W) ins) (tx_end W t (firstn (Z.to_nat W) ins)) Hb) as [C D]; [lia|lia|rewrite skipn_length; nia|exact B|].
      rewrite A, C, L1. split.
      + cbn [seq flat_map]. replace (q + Z.of_nat 0) with q by lia. f_equal.
        rewrite <- seq_shift, !flat_map_concat_map, map_map. f_equal. apply map_ext. intros j. f_equal. f_equal. lia.
      + replace (q + Z.of_nat (Datatypes.S n)) with (q + 1 + Z.of_nat n) by lia. exact D.
  Qed.
  Lemma tx_byte_line : forall b ins t, byte b -> tx_idle t -> Z.of_nat (length ins) = 10 * W + 1 ->
    tx_line W t ((b, true) :: ins) = true :: hold W true ++ flat_map (hold W) (false :: b) ++ [true] /\
    tx_idle (tx_end W t ((b, true) :: ins)).
  Proof.
    intros b ins t Hb Ht Hl. cbn [tx_line tx_end fst snd].
    pose proof (tx_start W HW b t Hb Ht) as H0. replace (t_txd t) with true by (symmetry; apply Ht).
    rewrite <- (firstn_skipn (Z.to_nat (10 * W)) ins). rewrite tx_line_app, tx_end_app.
    assert (L1 : length (firstn (Z.to_nat (10 * W)) ins) = Z.to_nat (10 * W)) by (apply firstn_length_le; lia).
    destruct (tx_bits 10 b 0 (firstn (Z.to_nat (10 * W)) ins) (tx_step W b true t) Hb) as [A B]; [lia|lia|lia|exact H0|].
    assert (L2 : length (skipn (Z.to_nat (10 * W)) ins) = 1%nat) by (rewrite skipn_length; lia).
    destruct (skipn (Z.to_nat (10 * W)) ins) as [|i [|? ?]]; try discriminate L2.
    change ((0 + Z.of_nat 10) * W) with (10 * W) in B. cbn [tx_line tx_end].
    split; [|apply (tx_finish W HW b); assumption].
    rewrite A, (tx_at_txd W _ _ _ B). destruct (pos_full W HW 10) as [-> _].
    unfold byte in Hb. clear - Hb. eight b Hb.
    change (tline [q; q0; q1; q2; q3; q4; q5; q6] 10) with true.
    cbn [seq flat_map]. rewrite !app_nil_r, <- !app_assoc. reflexivity.
  Qed.

  (** *** Receiving from any sender *)
  Lemma rx_bytes_app : forall a r b, rx_bytes W r (a ++ b) = rx_bytes W r a ++ rx_bytes W (rx_end W r a) b.
  Proof. induction a as [|i a IH]; intros r b; [reflexivity|]. cbn. rewrite IH, app_assoc. reflexivity. Qed.
  Lemma rx_end_app : forall a r b, rx_end W r (a ++ b) = rx_end W (rx_end W r a) b.
  Proof. induction a as [|i a IH]; intros r b; [reflexivity|]. cbn. apply IH. Qed.
  Lemma rx_quiet : forall n r, rx_idle r -> rx_bytes W r (repeat true n) = [] /\ rx_idle (rx_end W r (repeat true n)).
  Proof.
    induction n as [|n IH]; intros r Hr; [split; [reflexivity|exact Hr]|].
    cbn [repeat rx_bytes rx_end]. destruct (rx_stay W r Hr) as [Hr' ->]. destruct (IH _ Hr') as [A B]. rewrite A. split; [reflexivity|exact B].
  Qed.

  Definition level (b : list bool) (j : nat) : bool := nth (Z.to_nat (Z.of_nat j / W)) (fr b) true.
  Lemma hold_level : forall L s, flat_map (hold W) L ++ repeat true s =
    map (fun j => nth (Z.to_nat (Z.of_nat j / W)) L true) (seq 0 (length L * Z.to_nat W + s)).
  Proof.
    induction L as [|x L IH]; intros s.
    - cbn [flat_map length Nat.mul Nat.add app]. assert (E : forall j, nth j (@nil bool) true = true) by (intros [|]; reflexivity).
      erewrite map_ext; [|intros; apply E]. generalize 0%nat. induction s as [|s IH]; intros n; [reflexivity|]. cbn. f_equal. apply IH.
    - cbn [flat_map length]. rewrite <- app_assoc, IH.
      replace (Datatypes.S (length L) * Z.to_nat W + s)%nat with (Z.to_nat W + (length L * Z.to_nat W + s))%nat by lia.
      rewrite (seq_app (Z.to_nat W) (length L * Z.to_nat W + s) 0), map_app. f_equal.
      + unfold hold. transitivity (map (fun _ : nat => x) (seq 0 (Z.to_nat W))).
        * generalize 0%nat. generalize (Z.to_nat W). induction n as [|n IHn]; intros k; [reflexivity|]. cbn. f_equal. apply IHn.
        * apply map_ext_in. intros j Hj. apply in_seq in Hj. rewrite Z.div_small by lia. reflexivity.
      + rewrite Nat.add_0_l. rewrite <- (seq_map_shift' (Z.to_nat W)). rewrite map_map. apply map_ext. intros j.
        replace (Z.of_nat (Z.to_nat W + j) / W) with (Z.of_nat j / W + 1).
        2:{ replace (Z.of_nat (Z.to_nat W + j)) with (Z.of_nat j + 1 * W) by lia. rewrite Z.div_add by lia. reflexivity. }
        assert (0 <= Z.of_nat j / W) by (apply Z.div_pos; lia).
        replace (Z.to_nat (Z.of_nat j / W + 1)) with (Datatypes.S (Z.to_nat (Z.of_nat j / W))) by lia. reflexivity.
  Qed.
  Lemma frame_level : forall b s, byte b -> frame W (b, s) = map (level b) (seq 0 (9 * Z.to_nat W + s)).
  Proof.
    intros b s Hb. unfold frame. cbn [fst snd]. rewrite hold_level. cbn [length]. rewrite Hb. apply map_ext. intros j.
    unfold level, fr. generalize (Z.to_nat (Z.of_nat j / W)). intros n. unfold byte in Hb. clear - Hb. eight b Hb.
    do 11 (destruct n as [|n]; [reflexivity|]). reflexivity.
  Qed.
  (** from the first sample on until the byte is complete *)
  Lemma rx_middle : forall n b j r, byte b -> 1 <= Z.of_nat j -> Z.of_nat j + Z.of_nat n = 9 * W + W / 2 + 1 ->
    rx_at W b (Z.of_nat j + W - 1 - W / 2) r ->
    rx_bytes W r (map (level b) (seq j n)) = [] /\ rx_at W b (10 * W) (rx_end W r (map (level b) (seq j n))).
  Proof.
    pose proof (half W HW) as Hh.
    induction n as [|n IH]; intros b j r Hb Hj Hn Hr.
    - split; [reflexivity|]. cbn [seq map rx_end]. replace (10 * W) with (Z.of_nat j + W - 1 - W / 2) by lia. exact Hr.
    - cbn [seq map rx_bytes rx_end].
      assert (Hi : W < Z.of_nat j + W) by lia.
      destruct (rx_next W HW b (Z.of_nat j + W - 1 - W / 2) (level b j) r Hb) as [Hr' Hv]; [lia| | |exact Hr|].
      + intros Hm. pose proof (sampled W HW b (Z.of_nat j + W) Hi Hm) as K. rewrite <- K.
        replace ((Z.of_nat j + W) / W) with (Z.of_nat j / W + 1).
        2:{ replace (Z.of_nat j + W) with (Z.of_nat j + 1 * W) by lia. rewrite Z.div_add by lia. reflexivity. }
        rewrite tline_is by (first [exact HW | apply Z.div_pos; lia]). reflexivity.
      + intros Hm. pose proof (still_start W HW b (Z.of_nat j + W) Hi Hm) as K. rewrite <- K.
        replace ((Z.of_nat j + W) / W) with (Z.of_nat j / W + 1).
        2:{ replace (Z.of_nat j + W) with (Z.of_nat j + 1 * W) by lia. rewrite Z.div_add by lia. reflexivity. }
        rewrite tline_is by (first [exact HW | apply Z.div_pos; lia]). reflexivity.
      + rewrite Hv. destruct (IH b (Datatypes.S j) (rx_step W (level b j) r) Hb) as [A B]; [lia|lia| |split; [exact A|exact B]].
        replace (Z.of_nat (Datatypes.S j) + W - 1 - W / 2) with (Z.of_nat j + W - 1 - W / 2 + 1) by lia. exact Hr'.
  Qed.
  Lemma rx_frame : forall b s r, byte b -> W / 2 + 2 <= Z.of_nat s -> rx_idle r ->
    rx_bytes W r (frame W (b, s)) = [b] /\ rx_idle (rx_end W r (frame W (b, s))).
  Proof.
    intros b s r Hb Hs Hr. pose proof (half W HW) as Hh. rewrite frame_level by exact Hb.
    set (n := Z.to_nat (9 * W + W / 2)). set (e := Z.to_nat (Z.of_nat s - W / 2 - 2)).
    replace (9 * Z.to_nat W + s)%nat with (1 + (n + (1 + e)))%nat by (subst n e; lia).
    rewrite (seq_app 1 (n + (1 + e)) 0), (seq_app n (1 + e) (0 + 1)), (seq_app 1 e (0 + 1 + n)), !map_app.
    rewrite !rx_bytes_app, !rx_end_app.
    assert (E0 : level b 0 = false) by (unfold level; rewrite Z.div_0_l by lia; reflexivity).
    cbn [seq map rx_bytes rx_end]. rewrite E0. destruct (rx_start W HW b r Hr) as [R1 V1]. rewrite V1. cbn [app].
    destruct (rx_middle n b (0 + 1) (rx_step W false r) Hb) as [A B]; [lia|subst n; lia| |].
    { replace (Z.of_nat (0 + 1) + W - 1 - W / 2) with (W - W / 2) by lia. exact R1. }
    rewrite A. cbn [app]. set (r2 := rx_end W (rx_step W false r) (map (level b) (seq (0 + 1) n))) in *.
    destruct (rx_finish W HW b (level b (0 + 1 + n)) r2 Hb B) as (R3 & V3 & D3). rewrite V3, D3. cbn [app].
    assert (Et : map (level b) (seq (0 + 1 + n + 1) e) = repeat true e).
    { assert (Ex : forall c j, 9 * W <= Z.of_nat j -> map (level b) (seq j c) = repeat true c).
      { clear - HW Hb. induction c as [|c IH]; intros j Hj; [reflexivity|]. cbn [seq map repeat]. rewrite IH by lia. f_equal.
        unfold level. assert (K : 9 <= Z.of_nat j / W) by (apply Z.div_le_lower_bound; lia).
        replace (Z.to_nat (Z.of_nat j / W)) with (9 + Z.to_nat (Z.of_nat j / W - 9))%nat by lia.
        generalize (Z.to_nat (Z.of_nat j / W - 9)). intros m. unfold byte in Hb. clear - Hb. eight b Hb. destruct m as [|[|m]]; reflexivity. }
      apply Ex. subst n. lia. }
    rewrite Et. destruct (rx_quiet e _ R3) as [A4 B4]. rewrite A4. split; [reflexivity|exact B4].
  Qed.
  Lemma rx_frames : forall l r, Forall (fun p => byte (fst p) /\ W / 2 + 2 <= Z.of_nat (snd p)) l -> rx_idle r ->
    rx_bytes W r (flat_map (frame W) l) = map fst l.
  Proof.
    induction l as [|[b s] l IH]; intros r Hf Hr; [reflexivity|]. apply Forall_cons_iff in Hf as [[Hb Hs] Hf]. cbn [fst snd] in *.
    cbn [flat_map map fst]. rewrite rx_bytes_app. destruct (rx_frame b s r Hb Hs Hr) as [A B]. rewrite A, IH by assumption. reflexivity.
  Qed.
End Wave.

(** ** Two threads *)
Section Threads.
  Variable W : Z.
  Hypothesis HW : 2 <= W.

  (** The sending thread and its transmitter; [c] bounds the cycles until all calls have returned. *)
  Definition call : Z := 10 * W + 10.
  Fixpoint cost (l : list (nat * list bool)) : Z :=
    match l with [] => 0 | (g, _) :: r => Z.of_nat g + call + cost r end.
  Inductive sending : sender -> tx -> list (list bool) -> Z -> Prop :=
  | SDone : forall d st t, byte d -> sending (mkSender [] st d false) t [] 0
  | SGap : forall g b l d t, byte d -> byte b -> tx_idle t ->
      sending (mkSender ((g, b) :: l) 0 d false) t (b :: map snd l) (cost ((g, b) :: l))
  | SSet : forall b l t, byte b -> tx_idle t ->
      sending (mkSender ((O, b) :: l) 1 b true) t (b :: map snd l) (call - 1 + cost l)
  | SBusy : forall b l d t i, byte d -> byte b -> 0 <= i <= 10 * W -> tx_at W b i t ->
      sending (mkSender ((O, b) :: l) 2 d false) t (map snd l) (call - 2 - i + cost l)
  | SBack : forall b l d t, byte d -> tx_idle t ->
      sending (mkSender ((O, b) :: l) 2 d false) t (map snd l) (1 + cost l).

  Lemma cost_pos : forall l, 0 <= cost l.
  Proof. induction l as [|[g b] l IH]; cbn [cost]; [lia|]. unfold call. lia. Qed.

  Lemma sending_next : forall l d t, Forall (fun p => byte (snd p)) l -> byte d -> tx_idle t ->
    exists c, sending (mkSender l 0 d false) t (map snd l) c /\ c = cost l.
  Proof.
    intros [|[g b] l] d t Hf Hd Ht.
    - exists 0. split; [apply SDone; exact Hd|reflexivity].
    - apply Forall_cons_iff in Hf as [Hb Hf]. eexists. split; [apply SGap; assumption|reflexivity].
  Qed.

  Lemma sending_step : forall s t rest c, sending s t rest c -> Forall (fun p => byte (snd p)) (n_todo s) ->
    exists rest' c', sending (sender_step (t_ready t) s) (tx_step W (n_din s) (n_enable s) t) rest' c' /\
      rest = (if t_ready t && n_enable s then [n_din s] else []) ++ rest' /\ c' <= Z.max 0 (c - 1) /\
      byte (n_din s) /\ Forall (fun p => byte (snd p)) (n_todo (sender_step (t_ready t) s)).
  Proof.
    intros s t rest c Hs Hf. destruct Hs as [d st t Hd|g b l d t Hd Hb Ht|b l t Hb Ht|b l d t i Hd Hb Hi Ht|b l d t Hd Ht];
      cbn [n_todo n_st n_din n_enable sender_step] in *.
    - eexists [], 0. split; [apply SDone; exact Hd|]. rewrite andb_false_r. repeat split; auto; lia.
    - apply Forall_cons_iff in Hf as [Hb' Hf]. destruct Ht as (T1 & T2 & T3). rewrite T3. cbn [andb].
      pose proof (cost_pos l) as Hc.
      destruct g as [|g].
      + cbn [Z.eqb]. eexists _, _. split; [apply SSet; [exact Hb|apply tx_stay; repeat split; assumption]|].
        split; [reflexivity|]. split; [cbn [cost]; unfold call in *; lia|]. split; [exact Hd|]. apply Forall_cons; assumption.
      + eexists _, _. split; [apply SGap; [exact Hd|exact Hb|apply tx_stay; repeat split; assumption]|].
        split; [reflexivity|]. split; [cbn [cost]; unfold call in *; lia|]. split; [exact Hd|]. apply Forall_cons; assumption.
    - destruct Ht as (T1 & T2 & T3). rewrite T3. cbn [andb Z.eqb]. pose proof (cost_pos l) as Hc.
      eexists _, _. split; [eapply (SBusy b l b _ 0); [exact Hb|exact Hb|lia|apply tx_start; [exact HW|exact Hb|repeat split; assumption]]|].
      split; [reflexivity|]. split; [unfold call in *; lia|]. split; [exact Hb|exact Hf].
    - rewrite (tx_at_ready W _ _ _ Ht). cbn [andb Z.eqb]. pose proof (cost_pos l) as Hc.
      destruct (Z.eq_dec i (10 * W)) as [->|Hne].
      + eexists _, _. split; [apply SBack; [exact Hd|apply (tx_finish W HW b); assumption]|].
        split; [reflexivity|]. split; [unfold call in *; lia|]. split; [exact Hd|exact Hf].
      + eexists _, _. split; [eapply (SBusy b l d _ (i + 1)); [exact Hd|exact Hb|lia|apply tx_next; [exact HW|exact Hb|lia|exact Ht]]|].
        split; [reflexivity|]. split; [unfold call in *; lia|]. split; [exact Hd|exact Hf].
    - pose proof Ht as (T1 & T2 & T3). rewrite T3. cbn [andb Z.eqb]. pose proof (cost_pos l) as Hc.
      apply Forall_cons_iff in Hf as [Hb' Hf]. destruct (sending_next l d (tx_step W d false t) Hf Hd (tx_stay W d t Ht)) as (c' & A & ->).
      exists (map snd l), (cost l). split; [exact A|]. split; [reflexivity|]. split; [lia|]. split; [exact Hd|exact Hf].
  Qed.

  (** The receiving thread: it is waiting whenever [valid] is high. *)
  Definition listening (v : recver) (l : link) (n : Z) : Prop :=
    Forall (fun g => Z.of_nat g <= 10 * W) (tl (v_gaps v)) /\
    match v_gaps v with
    | [] => True
    | g :: _ => if r_valid (l_rx l) then g = O /\ 10 * W + 2 <= n else Z.of_nat g <= n
    end.
  Definition arrived (v : recver) (l : link) : list (list bool) := rev (v_got v) ++ gave l.

  Definition sys_inv (all : list (list bool)) (c : Z) (y : sys) : Prop :=
    exists rest cs pend n m,
      sending (y_snd y) (l_tx (y_link y)) rest cs /\ Forall (fun p => byte (snd p)) (n_todo (y_snd y)) /\
      phase W (y_link y) pend n m /\ listening (y_rcv y) (y_link y) n /\
      all = arrived (y_rcv y) (y_link y) ++ pend ++ rest /\
      (length (v_got (y_rcv y)) + length (v_gaps (y_rcv y)) = length all)%nat /\
      0 <= cs /\ (if cs =? 0 then m <= c /\ n_todo (y_snd y) = [] else cs + 12 * W <= c).

  Lemma sending_zero : forall s t rest c, sending s t rest c -> 0 <= c /\ (c = 0 -> n_todo s = [] /\ rest = [] /\ n_enable s = false).
  Proof.
    intros s t rest c Hs. destruct Hs as [d st t Hd|g b l d t Hd Hb Ht|b l t Hb Ht|b l d t i Hd Hb Hi Ht|b l d t Hd Ht];
      cbn [n_todo n_enable cost]; try (pose proof (cost_pos l) as Hc); unfold call; (split; [lia|]); first [solve [auto]|lia].
  Qed.

  Lemma recver_len : forall v x d, (length (v_got (recver_step x d v)) + length (v_gaps (recver_step x d v)) =
    length (v_got v) + length (v_gaps v))%nat.
  Proof.
    intros [gs got] x d. unfold recver_step. cbn [v_gaps v_got]. destruct gs as [|[|g] gs]; cbn [v_gaps v_got length]; [lia| |lia].
    destruct x; cbn [v_gaps v_got length]; lia.
  Qed.

  Lemma sys_inv_step : forall all c y, 0 <= c -> sys_inv all c y -> sys_inv all (Z.max 0 (c - 1)) (sys_step W y).
  Proof.
    intros all c y Hc0 (rest & cs & pend & n & m & Hs & Hf & Hp & Hl & Ha & Hg & Hcs & Hc).
    destruct y as [sn lk rc]. cbn [y_snd y_link y_rcv] in *.
    destruct (sending_step _ _ _ _ Hs Hf) as (rest' & cs' & Hs' & Er & Ec & Hb & Hf').
    destruct (phase_step W HW lk pend n m (n_din sn, n_enable sn) Hp Hb) as (pend' & n' & m' & Hp' & Ep & En & Em).
    cbn [fst snd] in *.
    exists rest', cs', pend', n', m'. unfold sys_step. cbn [y_snd y_link y_rcv].
    set (lk' := link_step W lk (n_din sn, n_enable sn)) in *.
    destruct (sending_zero _ _ _ _ Hs') as [P1 P2]. destruct (phase_m W HW _ _ _ _ Hp') as (Q1 & _). pose proof (phase_n W HW _ _ _ _ Hp') as Q3.
    split; [exact Hs'|]. split; [exact Hf'|]. split; [exact Hp'|].
    assert (Lq : listening (recver_step (r_valid (l_rx lk)) (r_dout (l_rx lk)) rc) lk' n' /\
                 (v_gaps rc <> [] \/ r_valid (l_rx lk) = false ->
                  rev (v_got (recver_step (r_valid (l_rx lk)) (r_dout (l_rx lk)) rc)) = arrived rc lk)).
    { destruct Hl as [Hg1 Hg2]. unfold listening, recver_step, arrived, gave.
      destruct rc as [gs got]. cbn [v_gaps v_got] in *. destruct gs as [|g gs]; cbn [tl] in *.
      - cbn [v_gaps v_got tl]. split; [split; [exact Hg1|exact Logic.I]|]. intros [K|K]; [congruence|]. rewrite K, app_nil_r. reflexivity.
      - destruct (r_valid (l_rx lk)) eqn:Ev.
        + destruct Hg2 as [-> Hn]. cbn [v_gaps v_got]. split; [|reflexivity].
          destruct gs as [|g gs]; [split; [exact Hg1|exact Logic.I]|]. apply Forall_cons_iff in Hg1 as [Hg0 Hg1]. split; [exact Hg1|].
          destruct (r_valid (l_rx lk')); [|lia]. exfalso. lia.
        + rewrite app_nil_r. destruct g as [|g]; cbn [v_gaps v_got tl]; (split; [|reflexivity]); (split; [exact Hg1|]).
          * destruct (r_valid (l_rx lk')); [split; [reflexivity|lia]|lia].
          * destruct (r_valid (l_rx lk')); [split; lia|lia]. }
    destruct Lq as [Lq Lr]. split; [exact Lq|]. split.
    { assert (Hn : v_gaps rc <> [] \/ r_valid (l_rx lk) = false).
      { destruct (r_valid (l_rx lk)) eqn:Ev; [left|right; reflexivity]. intros E. rewrite E in Hg. cbn [length] in Hg.
        unfold arrived, gave in Ha. rewrite Ev in Ha. apply (f_equal (@length _)) in Ha. rewrite !app_length, rev_length in Ha.
        cbn [length] in Ha. lia. }
      unfold arrived. rewrite (Lr Hn), Ha, <- !app_assoc. f_equal.
      change (if t_ready (l_tx lk) && n_enable sn then [n_din sn] else []) with (took lk (n_din sn, n_enable sn)) in Er.
      rewrite Er, !app_assoc. rewrite Ep. rewrite <- app_assoc. reflexivity. }
    split; [rewrite recver_len; exact Hg|]. split; [exact P1|].
    destruct (cs' =? 0) eqn:E'.
    - apply Z.eqb_eq in E'. split; [|apply P2; exact E']. destruct (cs =? 0) eqn:E0.
      + destruct Hc as [Hc _]. apply Z.eqb_eq in E0. assert (Een : n_enable sn = false) by (apply (sending_zero _ _ _ _ Hs); exact E0).
        specialize (Em Een). lia.
      + apply Z.eqb_neq in E0. lia.
    - apply Z.eqb_neq in E'. destruct (cs =? 0) eqn:E0; [apply Z.eqb_eq in E0; lia|]. apply Z.eqb_neq in E0. lia.
  Qed.
  Lemma sys_inv_run : forall k all c y, 0 <= c -> sys_inv all c y -> sys_inv all (Z.max 0 (c - Z.of_nat k)) (sys_run W k y).
  Proof.
    induction k as [|k IH]; intros all c y Hc Hi.
    - cbn [sys_run]. replace (Z.max 0 (c - Z.of_nat 0)) with c by lia. exact Hi.
    - cbn [sys_run]. replace (Z.max 0 (c - Z.of_nat (Datatypes.S k))) with (Z.max 0 (Z.max 0 (c - 1) - Z.of_nat k)) by lia.
      apply IH; [lia|]. apply sys_inv_step; assumption.
  Qed.
  Lemma sys_run_S : forall k y, sys_run W (Datatypes.S k) y = sys_step W (sys_run W k y).
  Proof. induction k as [|k IH]; intros y; [reflexivity|]. change (sys_run W (Datatypes.S k) (sys_step W y) = sys_step W (sys_run W k (sys_step W y))). apply IH. Qed.

  Lemma sys_inv_init : forall todo gaps, Forall (fun p => byte (snd p)) todo -> Forall (fun g => Z.of_nat g <= 10 * W) gaps ->
    length gaps = length todo -> sys_inv (map snd todo) (cost todo + 12 * W) (sys_init todo gaps).
  Proof.
    intros todo gaps Hf Hg Hl. pose proof (half W HW) as Hh.
    destruct (sending_next todo (repeat false 8) tx_init Hf eq_refl) as (c & A & ->); [repeat split|].
    exists (map snd todo), (cost todo), [], (10 * W + W / 2 + 3), 0.
    unfold sys_init, sender_init. cbn [y_snd y_link y_rcv n_todo v_got v_gaps].
    split; [exact A|]. split; [exact Hf|]. split; [apply phase_init; exact HW|].
    split.
    { unfold listening. cbn [v_gaps]. destruct gaps as [|g gaps]; [split; [constructor|exact Logic.I]|].
      apply Forall_cons_iff in Hg as [Hg0 Hg]. split; [exact Hg|]. cbn [link_init l_rx rx_init r_valid]. lia. }
    split; [reflexivity|]. split; [rewrite map_length; cbn [length]; lia|]. split; [apply cost_pos|].
    destruct todo as [|[g b] todo]; [split; [cbn [cost]; lia|reflexivity]|]. pose proof (cost_pos todo).
    replace (cost ((g, b) :: todo) =? 0) with false by (symmetry; apply Z.eqb_neq; cbn [cost]; unfold call; lia). lia.
  Qed.

  Lemma threads_done : forall todo gaps N, Forall (fun p => byte (snd p)) todo -> Forall (fun g => Z.of_nat g <= 10 * W) gaps ->
    length gaps = length todo -> cost todo + 12 * W < Z.of_nat N ->
    let y := sys_run W N (sys_init todo gaps) in
    rev (v_got (y_rcv y)) = map snd todo /\ n_todo (y_snd y) = [].
  Proof.
    intros todo gaps N Hf Hg Hl HN y. subst y. pose proof (cost_pos todo) as Hc0. destruct N as [|N]; [lia|].
    pose proof (sys_inv_init todo gaps Hf Hg Hl) as Hi.
    apply (sys_inv_run N) in Hi; [|lia]. replace (Z.max 0 _) with 0 in Hi by lia.
    rewrite sys_run_S. set (y := sys_run W N (sys_init todo gaps)) in *.
    destruct Hi as (rest & cs & pend & n & m & Hs & Hf1 & Hp & Hli & Ha & Hg1 & Hcs & Hc).
    destruct (cs =? 0) eqn:E0; [|apply Z.eqb_neq in E0; exfalso; lia]. apply Z.eqb_eq in E0. destruct Hc as [Hm Hn].
    destruct (sending_zero _ _ _ _ Hs) as [_ Z0]. destruct (Z0 E0) as (_ & -> & _).
    destruct (phase_m W HW _ _ _ _ Hp) as (Q1 & Q2 & _). rewrite (Q2 ltac:(lia)), !app_nil_r in Ha.
    split.
    - rewrite Ha. unfold sys_step. cbn [y_rcv]. unfold arrived, recver_step, gave in *.
      destruct Hli as [_ Hli]. destruct (v_gaps (y_rcv y)) as [|g gs] eqn:Eg.
      + cbn [length] in Hg1. apply (f_equal (@length _)) in Ha. rewrite app_length, rev_length in Ha.
        destruct (r_valid (l_rx (y_link y))); [cbn [length] in Ha; lia|]. rewrite app_nil_r. reflexivity.
      + destruct (r_valid (l_rx (y_link y))).
        * destruct Hli as [-> _]. reflexivity.
        * rewrite app_nil_r. destruct g; reflexivity.
    - unfold sys_step. cbn [y_snd]. unfold sender_step. rewrite Hn. exact Hn.
  Qed.
End Threads.

(** ** Short pulses *)
Section Glitch.
  Variable W : Z.
  Hypothesis HW : 4 <= W.

  Definition rx_check (w : Z) (r : rx) : Prop :=
    r_st r = 1 /\ r_wait r = w /\ r_valid r = false /\ length (r_mem r) = 9%nat.
  Lemma check_low : forall w r, 1 < w < W -> rx_check w r -> rx_check (w - 1) (rx_step W false r).
  Proof.
    intros w r Hw (A & B & C & D). unfold rx_step. rewrite A, B. cbn [Z.eqb Z.leb Z.compare].
    replace (0 <? w) with true by (symmetry; apply Z.ltb_lt; lia). rewrite andb_false_r. cbn [Pos.eqb Pos.compare Pos.compare_cont andb].
    unfold rx_check. cbn [r_st r_wait r_valid r_mem]. rewrite wtrunc_id by lia. repeat split; assumption.
  Qed.
  Lemma check_high : forall n w r, 1 <= w < W -> w <= Z.of_nat n -> rx_check w r ->
    rx_bytes W r (repeat true n) = [] /\ rx_idle (rx_end W r (repeat true n)).
  Proof.
    induction n as [|n IH]; intros w r Hw Hn Hr; [lia|].
    cbn [repeat rx_bytes rx_end]. destruct Hr as (A & B & C & D).
    destruct (Z.eq_dec w 1) as [->|Hne].
    - assert (Hr' : rx_idle (rx_step W true r) /\ r_valid (rx_step W true r) = false).
      { unfold rx_step. rewrite A, B. cbn. unfold rx_idle. cbn. auto. }
      destruct Hr' as [Hr' ->]. apply rx_quiet. exact Hr'.
    - assert (Hr' : rx_check (w - 1) (rx_step W true r) /\ r_valid (rx_step W true r) = false).
      { unfold rx_step. rewrite A, B. replace (w =? 1) with false by (symmetry; apply Z.eqb_neq; lia).
        replace (0 <? w) with true by (symmetry; apply Z.ltb_lt; lia). cbn. unfold rx_check. cbn.
        rewrite wtrunc_id by lia. auto. }
      destruct Hr' as [Hr' ->]. apply (IH (w - 1)); [lia|lia|exact Hr'].
  Qed.
  Lemma glitch_low : forall a s w r, 1 <= w < W -> Z.of_nat a < w -> w <= Z.of_nat a + Z.of_nat s -> rx_check w r ->
    rx_bytes W r (repeat false a ++ repeat true s) = [] /\ rx_idle (rx_end W r (repeat false a ++ repeat true s)).
  Proof.
    induction a as [|a IH]; intros s w r Hw Ha Hs Hr.
    - cbn [repeat app]. apply (check_high s w); [lia|lia|exact Hr].
    - cbn [repeat app rx_bytes rx_end]. pose proof (check_low w r ltac:(lia) Hr) as Hr'.
      replace (r_valid (rx_step W false r)) with false by (symmetry; apply Hr').
      apply (IH s (w - 1)); [lia|lia|lia|exact Hr'].
  Qed.
  Lemma glitch : forall a s r, 1 <= Z.of_nat a < W / 2 -> W / 2 <= Z.of_nat a + Z.of_nat s -> rx_idle r ->
    rx_bytes W r (repeat false a ++ repeat true s) = [] /\ rx_idle (rx_end W r (repeat false a ++ repeat true s)).
  Proof.
    intros a s r Ha Hs (A & B). pose proof (half W ltac:(lia)) as Hh. destruct a as [|a]; [lia|].
    cbn [repeat app rx_bytes rx_end].
    assert (Hr' : rx_check (W / 2 - 1) (rx_step W false r)).
    { unfold rx_step. rewrite A. cbn [Z.eqb]. unfold rx_check. cbn [r_st r_wait r_valid r_mem]. rewrite wtrunc_id by lia.
      repeat split. nine (r_mem r) B. reflexivity. }
    replace (r_valid (rx_step W false r)) with false by (symmetry; apply Hr').
    apply (glitch_low a s (W / 2 - 1)); [lia|lia|lia|exact Hr'].
  Qed.
End Glitch.
