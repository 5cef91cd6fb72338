From Verif Require Import Base Pat_Model Stream_Model Stream_Spec Srun_Model Srun_Spec.
Open Scope Z_scope.

(** ** Chains *)
(** a chain of [n] registers whose input was [f t] in tick [t], in tick [p] *)
Definition chain (f : Z -> bool) (p : Z) (n : nat) : list bool := map (fun i => f (p - 1 - Z.of_nat i)) (seq 0 n).
Lemma chain_step f p n : shift (f p) (chain f p (S n)) = chain f (p + 1) (S n).
Proof.
  change (chain f (p + 1) (S n)) with (f (p + 1 - 1 - Z.of_nat 0) :: map (fun i => f (p + 1 - 1 - Z.of_nat i)) (seq 1 n)).
  unfold shift, chain. rewrite (seq_S n 0), map_app, removelast_app by discriminate. cbn [map removelast]. rewrite app_nil_r.
  replace (p + 1 - 1 - Z.of_nat 0) with p by lia. apply f_equal.
  rewrite <- (seq_shift n 0), map_map. apply map_ext. intros a. f_equal. lia.
Qed.
Lemma chain_last f p n : oldest (chain f p (S n)) = f (p - 1 - Z.of_nat n).
Proof. unfold oldest, chain. rewrite seq_S, map_app. cbn [map]. rewrite last_last. f_equal. Qed.
Lemma chain_nth f p n i : (i < n)%nat -> nth i (chain f p n) false = f (p - 1 - Z.of_nat i).
Proof.
  intros H. unfold chain. rewrite nth_indep with (d' := f (p - 1 - Z.of_nat 0)) by now rewrite map_length, seq_length.
  rewrite (map_nth (fun i => f (p - 1 - Z.of_nat i)) (seq 0 n) 0%nat), seq_nth by assumption. reflexivity.
Qed.
Lemma chain_false f p n : (forall t, p - Z.of_nat n <= t < p -> f t = false) -> chain f p n = repeat false n.
Proof.
  intros H. unfold chain.
  assert (E : forall k a, (a + k <= n)%nat -> map (fun i => f (p - 1 - Z.of_nat i)) (seq a k) = repeat false k).
  { induction k as [|k IH]; intros a Ha; [reflexivity|]. cbn [seq map repeat]. rewrite IH by lia. f_equal. apply H. lia. }
  apply E. lia.
Qed.

(** ** Lists *)
Lemma each_length {A B C} (f : A -> B -> C) a b : length a = length b -> length (each f a b) = length a.
Proof. intros H. unfold each. rewrite map_length, combine_length. lia. Qed.
Lemma each_nth {A B C} (f : A -> B -> C) a b i z :
  nth_error (each f a b) i = Some z <-> exists x y, nth_error a i = Some x /\ nth_error b i = Some y /\ z = f x y.
Proof.
  unfold each. revert b i. induction a as [|x a IH]; intros b i.
  - cbn. split; [destruct i; discriminate|]. intros (x & y & H & _). destruct i; discriminate.
  - destruct b as [|y b].
    + cbn. split; [destruct i; discriminate|]. intros (x' & y' & _ & H & _). destruct i; discriminate.
    + destruct i as [|i]; cbn [combine map nth_error fst snd].
      * split; [intros H; inversion H; eauto|]. intros (x' & y' & H1 & H2 & ->). congruence.
      * apply IH.
Qed.

(** ** The run as a function of the number of ticks since [source_start] *)
Section Run.
  Variable c : cfg.
  Notation aw := (c_aw c).
  Notation D := (Z.of_nat (c_depth c)).
  Notation N := (longest c).
  Hypothesis GC : good c.

  Lemma N_ge x : In x (c_src c) -> sc_size x <= N.
  Proof. unfold longest. induction (c_src c) as [|y l IH]; [intros []|]. intros [->|H]; cbn; [lia|]. specialize (IH H). lia. Qed.
  Lemma N_ex : exists x, In x (c_src c) /\ sc_size x = N.
  Proof.
    destruct GC as (_ & NE & F & _). unfold longest. revert NE F. induction (c_src c) as [|y l IH]; [congruence|]. intros _ F.
    inversion F as [|? ? (_ & (F1 & _) & _) F2]; subst. destruct l as [|z l].
    - exists y. split; [now left|]. cbn. lia.
    - destruct IH as (x & Hx & Ex); [discriminate|assumption|]. cbn [fold_right]. cbn [fold_right] in Ex. destruct (Z_le_gt_dec (sc_size x) (sc_size y)).
      + exists y. split; [now left|]. lia.
      + exists x. split; [now right|]. lia.
  Qed.
  Lemma N_pos : 1 <= N.
  Proof. destruct N_ex as (x & Hx & <-). destruct GC as (_ & _ & F & _). rewrite Forall_forall in F. destruct (F x Hx) as (_ & (H & _) & _). exact H. Qed.
  Lemma N_nat : Z.of_nat (elements c) = N.
  Proof. unfold elements. pose proof N_pos. lia. Qed.

  Definition startf (p : Z) : bool := p =? 0.
  Definition busyf (p : Z) : bool := (1 <=? p) && (p <=? N + 2).
  Definition endf (p : Z) : bool := p =? N + 2.
  Definition validf (p : Z) : bool := (4 <=? p) && (p <=? N + 3).
  Definition statef (p : Z) : nat := if p =? 0 then 1%nat else if p =? 1 then 2%nat else if p <=? N + 2 then 3%nat else 0%nat.

  (** one source *)
  Definition src_at (p : Z) (x : scfg) (r : src) : Prop :=
    let f := r_fsm r in
    (p = 0 -> l_st f = 0%nat /\ l_idle f = true /\ l_en f = false) /\
    (p = 1 -> l_st f = 1%nat /\ l_en f = false /\ l_off f = sc_off x /\ l_size f = sc_size x /\ l_stride f = sc_stride x) /\
    (2 <= p <= sc_size x + 1 -> l_st f = 2%nat /\ l_idle f = false /\ l_en f = true /\ l_cnt f = sc_size x - (p - 2) /\
       l_addr f = (sc_off x + (p - 2) * sc_stride x) mod 2 ^ aw /\ l_stride f = sc_stride x) /\
    (sc_size x + 2 <= p -> l_st f = 0%nat /\ l_idle f = true /\ l_en f = false) /\
    (3 <= p -> r_rdata r = word_of c x (Z.to_nat (p - 3))) /\
    (4 <= p <= N + 3 -> r_wdata r = word_of c x (Z.to_nat (p - 4))).

  (** the element at the inputs in tick [q] *)
  Definition elem_at (q : Z) (e : elem) : Prop := e_valid e = validf q /\ (4 <= q <= N + 3 -> is_element c (Z.to_nat (q - 4)) e).

  Definition ctl (p : Z) (s : strm) : Prop :=
    s_st s = statef p /\ s_start s = startf p /\ s_busy s = busyf p /\ s_ivalid s = validf p /\
    ((p = 4 -> s_rr s = true) /\ (5 <= p <= N + 3 -> s_rr s = false)) /\
    s_d s = chain startf p 4 /\ s_e s = endf (p - 1) /\
    s_ks s = chain startf p (c_depth c + 2) /\ s_kp s = chain endf p (c_depth c + 2) /\ s_kb s = chain busyf p (c_depth c + 2) /\
    (1 <= p -> s_kbp s = busyf (p - 3 - D)) /\
    ((p = 0 -> s_breg s = false) /\ (2 <= p <= D + N + 4 -> s_breg s = true) /\ (D + N + 6 <= p -> s_breg s = false)).

  Lemma chain2 f p : shift (f p) (chain f p (c_depth c + 2)) = chain f (p + 1) (c_depth c + 2).
  Proof. replace (c_depth c + 2)%nat with (S (c_depth c + 1)) by lia. apply chain_step. Qed.
  Lemma old2 f p : oldest (chain f p (c_depth c + 2)) = f (p - 2 - D).
  Proof. replace (c_depth c + 2)%nat with (S (c_depth c + 1)) by lia. rewrite chain_last. f_equal. lia. Qed.

  Definition srcs_at (p : Z) (s : strm) : Prop :=
    length (s_src s) = length (c_src c) /\ forall i x r, nth_error (c_src c) i = Some x -> nth_error (s_src s) i = Some r -> src_at p x r.

  Lemma end_cond_at p s : 0 <= p -> ctl p s -> srcs_at p s -> end_cond s = endf p.
  Proof.
    intros Hp (ST & _) (L & SR). unfold end_cond, all_idle, endf. rewrite ST. unfold statef. pose proof N_pos as NP.
    destruct (p =? 0) eqn:E0; [apply Z.eqb_eq in E0; rewrite andb_false_r; symmetry; apply Z.eqb_neq; lia|].
    destruct (p =? 1) eqn:E1; [apply Z.eqb_eq in E1; rewrite andb_false_r; symmetry; apply Z.eqb_neq; lia|].
    apply Z.eqb_neq in E0, E1. destruct (p <=? N + 2) eqn:E2.
    2:{ apply Z.leb_gt in E2. rewrite andb_false_r. symmetry. apply Z.eqb_neq. lia. }
    apply Z.leb_le in E2. rewrite andb_true_r. destruct (p =? N + 2) eqn:E3.
    - apply Z.eqb_eq in E3. apply forallb_forall. intros r Hr. apply In_nth_error in Hr. destruct Hr as (i & Hi).
      assert (exists x, nth_error (c_src c) i = Some x) as (x & Hx).
      { destruct (nth_error (c_src c) i) eqn:E; [eauto|]. apply nth_error_None in E. assert (i < length (s_src s))%nat by (apply nth_error_Some; congruence). lia. }
      destruct (SR i x r Hx Hi) as (_ & _ & _ & H & _). apply H. pose proof (N_ge x (nth_error_In _ _ Hx)). lia.
    - apply Z.eqb_neq in E3. destruct N_ex as (x & Hx & Ex). apply In_nth_error in Hx. destruct Hx as (i & Hi).
      assert (exists r, nth_error (s_src s) i = Some r) as (r & Hr).
      { destruct (nth_error (s_src s) i) eqn:E; [eauto|]. apply nth_error_None in E. assert (i < length (c_src c))%nat by (apply nth_error_Some; congruence). lia. }
      destruct (SR i x r Hi Hr) as (_ & _ & H & _). destruct H as (_ & H & _); [lia|].
      apply not_true_iff_false. intros F. rewrite forallb_forall in F. rewrite (F r (nth_error_In _ _ Hr)) in H. discriminate.
  Qed.

  (** ** A stalled cycle changes nothing but [busy_reg] *)
  Lemma stall_src x r s : src_step aw s false x r = r.
  Proof. destruct r. reflexivity. Qed.
  Lemma stall_snk x k s : snk_step aw (c_pipe c) s false x k = k.
  Proof. destruct k. unfold snk_step. cbn. now rewrite app_nil_r. Qed.
  Lemma each_snd {A B} (f : A -> B -> B) a b : length a = length b -> (forall x y, f x y = y) -> each f a b = b.
  Proof.
    intros L H. unfold each. revert b L. induction a as [|x a IH]; intros [|y b] L; try discriminate L; [reflexivity|].
    cbn [combine map fst snd]. rewrite H, IH by (cbn in L; lia). reflexivity.
  Qed.

  Ltac li := repeat match goal with
    | H : ?P -> ?Q |- _ => match type of P with Prop => clear H end
    | H : (_ -> _) /\ _ |- _ => clear H
    | H : forall _, _ |- _ => clear H
    | H : srcs_at _ _ |- _ => clear H | H : ctl _ _ |- _ => clear H
    | H : @eq bool _ _ |- _ => clear H | H : @eq (list _) _ _ |- _ => clear H | H : @eq nat _ _ |- _ => clear H end; lia.
  Ltac bz := repeat match goal with
    | H : (_ =? _) = true |- _ => apply Z.eqb_eq in H
    | H : (_ =? _) = false |- _ => apply Z.eqb_neq in H
    | H : (_ <=? _) = true |- _ => apply Z.leb_le in H
    | H : (_ <=? _) = false |- _ => apply Z.leb_gt in H end.
  Ltac cases := repeat match goal with |- context [?a =? ?b] => destruct (a =? b) eqn:? | |- context [?a <=? ?b] => destruct (a <=? b) eqn:? end; bz.

  Lemma ctl_stall p s : 0 <= p -> ctl p s -> srcs_at p s -> ctl p (step c s (false, false)).
  Proof.
    intros Hp (ST & SA & SB & SV & RR & SD & SE & KS & KP & KB & KBP & BR) S. pose proof N_pos as NP.
    assert (SKB : sink_busy s = busyf (p - 2 - D)) by (unfold sink_busy; rewrite KB; apply old2).
    repeat split; cbn [step s_st s_start s_busy s_ivalid s_rr s_d s_e s_ks s_kp s_kb s_kbp s_breg andb assigns fold_left fst snd]; try assumption; try (apply RR).
    - unfold fsm_step. rewrite andb_false_r. cbn [andb]. rewrite <- ST. destruct (s_st s) as [|[|[|[|n]]]] eqn:E; try reflexivity.
      exfalso. unfold statef in ST. repeat match type of ST with context [if ?b then _ else _] => destruct b end; discriminate ST.
    - unfold fsm_step. rewrite andb_false_r. cbn [andb]. destruct (s_st s) as [|[|[|n]]]; exact SA.
    - unfold fsm_step. rewrite andb_false_r. cbn [andb]. destruct (s_st s) as [|[|[|n]]]; exact SB.
    - intros ->. rewrite SB. replace (busyf 0) with false by reflexivity. destruct (negb _ && _); [reflexivity|]. exact (proj1 BR eq_refl).
    - intros H. rewrite SB. destruct (busyf p) eqn:EB; [reflexivity|]. rewrite SKB. unfold busyf in *.
      rewrite KBP by li. unfold busyf.
      destruct BR as (_ & BR & _). rewrite BR by li.
      destruct (negb _ && _) eqn:Q; [|reflexivity]. apply andb_prop in Q. destruct Q as (Q1 & Q2). apply andb_prop in Q2. destruct Q2 as (Q2 & Q3).
      apply Z.leb_le in Q2, Q3. apply negb_true_iff, andb_false_iff in Q1. destruct Q1 as [Q1|Q1]; apply Z.leb_gt in Q1; li.
    - intros H. rewrite SB. replace (busyf p) with false; [|symmetry; unfold busyf; apply andb_false_iff; right; apply Z.leb_gt; li].
      destruct (negb _ && _); [reflexivity|]. apply (proj2 (proj2 BR)); exact H.
  Qed.
  (** ** A tick *)
  Lemma ctl_tick p s : 0 <= p -> ctl p s -> srcs_at p s -> ctl (p + 1) (step c s (false, true)).
  Proof.
    intros Hp CT S. pose proof (end_cond_at p s Hp CT S) as EC. destruct CT as (ST & SA & SB & SV & RR & SD & SE & KS & KP & KB & KBP & BR). pose proof N_pos as NP.
    assert (SKB : sink_busy s = busyf (p - 2 - D)) by (unfold sink_busy; rewrite KB; apply old2).
    assert (D2 : nth 2 (s_d s) false = startf (p - 3)) by (rewrite SD, chain_nth by li; f_equal; li).
    assert (D3 : oldest (s_d s) = startf (p - 4)) by (rewrite SD, chain_last; f_equal; li).
    assert (FS : fsm_step s false true = (statef (p + 1), startf (p + 1), busyf (p + 1))).
    { unfold fsm_step. rewrite ST, SA, SB, EC. unfold statef, startf, busyf, endf. cases; cbn [andb]; try li; try reflexivity. }
    repeat split; cbn [step s_st s_start s_busy s_ivalid s_rr s_d s_e s_ks s_kp s_kb s_kbp s_breg]; rewrite ?FS; cbn [fst snd andb assigns fold_left]; try reflexivity.
    - rewrite D2, SE, SV. unfold startf, endf, validf. cases; cbn [andb]; try li; reflexivity.
    - intros H. rewrite D2, D3, SE. unfold startf, endf. cases; try li; reflexivity.
    - intros H. rewrite D2, D3, SE. unfold startf, endf. destruct RR as (RR1 & RR2). cases; try li; try reflexivity. apply RR2. li.
    - rewrite SD, SA. apply (chain_step startf p 3).
    - rewrite EC. f_equal. li.
    - rewrite KS, SA. apply chain2.
    - rewrite KP, EC. apply chain2.
    - rewrite KB, SB. apply chain2.
    - intros _. rewrite SKB. f_equal. li.
    - intros H. li.
    - intros H. rewrite SB. unfold busyf at 1. destruct BR as (_ & BR & _).
      destruct (Z.leb_spec 1 p); cbn [andb]; [|li]. destruct (Z.leb_spec p (N + 2)); [reflexivity|].
      rewrite SKB, KBP, BR by li. unfold busyf. cases; cbn [andb negb]; try li; reflexivity.
    - intros H. rewrite SB. replace (busyf p) with false; [|unfold busyf; cases; cbn [andb]; try li; reflexivity].
      rewrite SKB, KBP by li. destruct BR as (_ & _ & BR). destruct (Z.eq_dec p (D + N + 5)) as [->|NE].
      + replace (negb (busyf (D + N + 5 - 2 - D)) && busyf (D + N + 5 - 3 - D)) with true; [reflexivity|].
        symmetry. unfold busyf. cases; cbn [andb negb]; try li; reflexivity.
      + rewrite BR by li. destruct (negb _ && _); reflexivity.
  Qed.

  Lemma word_first x : word_of c x 0 = sc_mem x ((sc_off x + Z.min 0 (sc_size x - 1) * sc_stride x) mod 2 ^ aw).
  Proof. reflexivity. Qed.

  Lemma src_tick p s x r : 0 <= p -> ctl p s -> srcs_at p s -> In x (c_src c) -> src_at p x r -> src_at (p + 1) x (src_step aw s true x r).
  Proof.
    intros Hp CT S Hx (A0 & A1 & A2 & A3 & A4 & A5). pose proof (end_cond_at p s Hp CT S) as EC. destruct CT as (_ & SA & SB & _). pose proof N_pos as NP.
    destruct GC as (AW & _ & F & _). rewrite Forall_forall in F. destruct (F x Hx) as (F1 & F2 & F3). pose proof (N_ge x Hx) as NG.
    assert (P2 : 0 < 2 ^ aw) by (apply Z.pow_pos_nonneg; li).
    destruct r as [f rd wd]. cbn [r_fsm r_rdata r_wdata] in *.
    assert (FS : let g := lsrc_step aw f (src_in s true x) in
      (p = 0 -> l_st g = 1%nat /\ l_en g = false /\ l_off g = sc_off x /\ l_size g = sc_size x /\ l_stride g = sc_stride x) /\
      (1 <= p <= sc_size x -> l_st g = 2%nat /\ l_idle g = false /\ l_en g = true /\ l_cnt g = sc_size x - (p - 1) /\
         l_addr g = (sc_off x + (p - 1) * sc_stride x) mod 2 ^ aw /\ l_stride g = sc_stride x) /\
      (sc_size x + 1 <= p -> l_st g = 0%nat /\ l_idle g = true /\ l_en g = false)).
    { cbn zeta. unfold lsrc_step, src_in. cbn [l_ordy negb l_start l_stop l_soff l_ssize l_sstride]. rewrite SA, EC. unfold startf, endf. split; [|split]; intros H.
      - destruct A0 as (E0 & E1 & E2); [li|]. rewrite E0. subst p. cbn. auto.
      - destruct (Z.eq_dec p 1) as [->|NE].
        + destruct A1 as (E0 & E1 & E2 & E3 & E4); [li|]. rewrite E0. cbn. rewrite E2, E3, E4. repeat split; try li. symmetry. replace (_ + _) with (sc_off x) by li. apply Z.mod_small. li.
        + destruct A2 as (E0 & E1 & E2 & E3 & E4 & E5); [li|]. rewrite E0, E3, E4, E5.
          replace (sc_size x - (p - 2) =? 1) with false by (symmetry; apply Z.eqb_neq; li). replace (p =? N + 2) with false by (symmetry; apply Z.eqb_neq; li).
          replace (p =? 0) with false by (symmetry; apply Z.eqb_neq; li).
          cbn. repeat split; try assumption; try reflexivity.
          * rewrite Z.mod_small; li.
          * rewrite Z.add_mod_idemp_l by li. f_equal. li.
      - replace (p =? 0) with false by (symmetry; apply Z.eqb_neq; li). destruct (Z.eq_dec p (sc_size x + 1)) as [E|NE].
        + destruct A2 as (E0 & E1 & E2 & E3 & E4 & E5); [li|]. rewrite E0, E3. replace (sc_size x - (p - 2) =? 1) with true by (symmetry; apply Z.eqb_eq; li). cbn. auto.
        + destruct A3 as (E0 & E1 & E2); [li|]. rewrite E0. cbn. auto. }
    destruct FS as (FS0 & FS1 & FS2). unfold src_step, src_at. cbn [r_fsm r_rdata r_wdata andb].
    split; [intros H; li|]. split; [intros H; apply FS0; li|].
    split; [intros H; replace (p + 1 - 2) with (p - 1) by li; apply FS1; li|]. split; [intros H; apply FS2; li|].
    split.
    - intros H. unfold lsrc_read, src_in. cbn [l_ordy andb]. destruct (Z_le_gt_dec p (sc_size x + 1)) as [L|G].
      + destruct A2 as (E0 & E1 & E2 & E3 & E4 & E5); [li|]. rewrite E2, E4. unfold word_of. do 2 f_equal. replace (Z.of_nat (Z.to_nat (p + 1 - 3))) with (p - 2) by li. rewrite Z.min_l by li. reflexivity.
      + destruct A3 as (E0 & E1 & E2); [li|]. rewrite E2, A4 by li. unfold word_of. do 4 f_equal. li.
    - intros H. rewrite SB. replace (busyf p) with true by (unfold busyf; cases; cbn [andb]; try li; reflexivity). rewrite A4 by li. f_equal. li.
  Qed.

  Lemma srcs_tick p s : 0 <= p -> ctl p s -> srcs_at p s -> srcs_at (p + 1) (step c s (false, true)).
  Proof.
    intros Hp CT S. pose proof S as (L & SR). split; cbn [step s_src].
    - apply each_length. congruence.
    - intros i x r Hx Hr. apply each_nth in Hr. destruct Hr as (x' & r' & Hx' & Hr' & ->). rewrite Hx in Hx'. inversion Hx'; subst x'.
      apply src_tick; try assumption; [exact (nth_error_In _ _ Hx)|exact (SR i x r' Hx Hr')].
  Qed.
  Lemma srcs_stall p s run : srcs_at p s -> srcs_at p (step c s (run, false)).
  Proof. intros (L & SR). unfold srcs_at. cbn [step s_src]. rewrite each_snd; [split; assumption|congruence|intros; apply stall_src]. Qed.

  (** the element at the inputs *)
  Lemma inputs_at p s : ctl p s -> srcs_at p s -> elem_at p (inputs s).
  Proof.
    intros (_ & _ & _ & SV & RR & _) (L & SR). split; [exact SV|]. intros H. split; [|split].
    - intros i x Hx. cbn [inputs e_in]. destruct (nth_error (s_src s) i) as [r|] eqn:E.
      + destruct (SR i x r Hx E) as (_ & _ & _ & _ & _ & A5). apply A5. li.
      + apply nth_error_None in E. assert (i < length (c_src c))%nat by (apply nth_error_Some; congruence). clear - L E H0; lia.
    - cbn [inputs e_in]. replace (nth_error (s_src s) (length (c_src c))) with (@None src) by (symmetry; apply nth_error_None; clear - L; lia).
      destruct (Z.eq_dec p 4) as [->|NE]; [now rewrite (proj1 RR eq_refl)|]. rewrite (proj2 RR) by li. replace (Z.to_nat (p - 4) =? 0)%nat with false; [reflexivity|]. symmetry. apply Nat.eqb_neq. li.
    - cbn [inputs e_valid]. rewrite SV. unfold validf. cases; cbn [andb]; try li; reflexivity.
  Qed.

  (** ** The sinks *)
  Lemma combine_snoc {A B} (a : list A) (l : list B) v :
    combine a (l ++ [v]) = combine a l ++ match nth_error a (length l) with Some x => [(x, v)] | None => [] end.
  Proof. revert l. induction a as [|x a IH]; intros [|y l]; try reflexivity; [destruct a; reflexivity|]. cbn [app combine length nth_error]. now rewrite IH. Qed.
  Lemma address_nth x n : (n < Z.to_nat (kc_size x))%nat -> nth_error (addresses c x) n = Some ((kc_off x + Z.of_nat n * kc_stride x) mod 2 ^ aw).
  Proof.
    intros H. unfold addresses. apply (map_nth_error (fun i => (kc_off x + Z.of_nat i * kc_stride x) mod 2 ^ aw) n).
    rewrite (nth_error_nth' _ 0%nat) by now rewrite seq_length. f_equal. apply seq_nth. exact H.
  Qed.
  Lemma address_none x n : (Z.to_nat (kc_size x) <= n)%nat -> nth_error (addresses c x) n = None.
  Proof. intros H. apply nth_error_None. unfold addresses. now rewrite map_length, seq_length. Qed.

  Definition passes (H : list elem) (x : kcfg) (t : nat) : bool := match kc_when x with Some w => negb (result c H w t =? 0) | None => true end.
  Lemma results_snoc H x t n : results c H x t (S n) = results c H x t n ++ (if passes H x (t + n) then [result c H (kc_out x) (t + n)] else []).
  Proof. unfold results. rewrite seq_S, filter_app, map_app. f_equal. cbn [filter]. fold (passes H x (t + n)). destruct (passes H x (t + n)); reflexivity. Qed.
  Lemma result_app H e o t : (t + c_depth c < length H)%nat -> result c (H ++ [e]) o t = result c H o t.
  Proof. intros L. unfold result. rewrite firstn_app, app_nth1 by exact L. replace (_ - length H)%nat with 0%nat by lia. cbn [firstn]. now rewrite app_nil_r. Qed.
  Lemma result_new H e o t : (t + c_depth c = length H)%nat -> result c (H ++ [e]) o t = c_pipe c H e o.
  Proof. intros L. unfold result. rewrite L, firstn_app, app_nth2, Nat.sub_diag, firstn_all by lia. cbn [firstn nth]. now rewrite app_nil_r. Qed.
  Lemma results_app H e x t n : (t + n + c_depth c <= length H)%nat -> results c (H ++ [e]) x t n = results c H x t n.
  Proof.
    induction n as [|n IH]; intros L; [reflexivity|]. rewrite !results_snoc, IH by lia. f_equal.
    assert (P : passes (H ++ [e]) x (t + n) = passes H x (t + n)).
    { unfold passes. destruct (kc_when x); [|reflexivity]. now rewrite result_app by lia. }
    rewrite P, result_app by lia. reflexivity.
  Qed.

  (** the number of results the sinks have seen *)
  Definition seen (p : Z) : nat := Z.to_nat (Z.min (p - D - 4) (N + 1)).
  Definition snk_at (t : nat) (L0 : list (Z * Z)) (p : Z) (H : list elem) (x : kcfg) (k : snk) : Prop :=
    let f := w_fsm k in let l := results c H x t (seen p) in
    writes k = L0 ++ combine (addresses c x) l /\
    (p <= D + 2 -> lk_st f = 0%nat) /\
    (p = D + 3 -> lk_st f = 1%nat /\ lk_off f = kc_off x /\ lk_size f = kc_size x /\ lk_stride f = kc_stride x) /\
    (D + 4 <= p <= D + N + 4 ->
       (Z.of_nat (length l) < kc_size x -> lk_st f = 2%nat /\ lk_cnt f = kc_size x - Z.of_nat (length l) /\
          lk_addr f = (kc_off x + (Z.of_nat (length l) - 1) * kc_stride x) mod 2 ^ aw /\ lk_stride f = kc_stride x) /\
       (kc_size x <= Z.of_nat (length l) -> lk_st f = 0%nat)) /\
    (D + N + 5 <= p -> lk_st f = 0%nat /\ (kc_size x <= Z.of_nat (length (results c H x t (elements c))) -> lk_en f = false)).

  Lemma writes_step s x k : writes (snk_step aw (c_pipe c) s true x k) = writes k ++ pending (snk_step aw (c_pipe c) s true x k).
  Proof. reflexivity. Qed.

  Lemma snk_tick t L0 p s x k : 0 <= p -> ctl p s -> In x (c_snk c) -> Z.of_nat (length (s_hist s)) = Z.of_nat t - 4 + p -> (4 <= t)%nat ->
    snk_at t L0 p (s_hist s) x k -> snk_at t L0 (p + 1) (s_hist s ++ [inputs s]) x (snk_step aw (c_pipe c) s true x k).
  Proof.
    intros Hp CT Hx LH Ht (W & A0 & A1 & A2 & A3). destruct CT as (_ & _ & _ & _ & _ & _ & _ & KS & KP & _). pose proof N_pos as NP. pose proof N_nat as NN.
    destruct GC as (AW & _ & _ & F). rewrite Forall_forall in F. destruct (F x Hx) as (F1 & F2 & F3). clear F.
    assert (P2 : 0 < 2 ^ aw) by (apply Z.pow_pos_nonneg; lia).
    assert (SS : sink_start s = startf (p - 2 - D)) by (unfold sink_start; rewrite KS; apply old2).
    assert (SP : sink_stop s = endf (p - 2 - D)) by (unfold sink_stop; rewrite KP; apply old2). clear KS KP.
    set (H := s_hist s) in *. set (e := inputs s) in *.
    assert (OLD : forall n, (n <= seen p)%nat -> results c (H ++ [e]) x t n = results c H x t n).
    { intros n Hn. unfold seen in Hn. destruct n as [|n]; [reflexivity|]. apply results_app. clear - Hn LH. lia. }
    assert (SAME : p < D + 4 \/ D + N + 5 <= p -> results c (H ++ [e]) x t (seen (p + 1)) = results c H x t (seen p)).
    { intros G. replace (seen (p + 1)) with (seen p) by (unfold seen; clear - G NP; lia). apply OLD. apply le_n. }
    assert (I : snk_in (c_pipe c) s true x = mkLKin true (startf (p - 2 - D)) (endf (p - 2 - D)) (kc_off x) (kc_size x) (kc_stride x)
      (match kc_when x with Some w => negb (c_pipe c H e w =? 0) | None => true end) (c_pipe c H e (kc_out x))).
    { unfold snk_in. now rewrite SS, SP. }
    assert (C : p <= D + 1 \/ p = D + 2 \/ p = D + 3 \/ D + 4 <= p <= D + N + 4 \/ D + N + 5 <= p) by lia.
    unfold snk_at. rewrite writes_step. unfold snk_step, pending. rewrite I. cbn [w_fsm].
    destruct C as [C|[C|[C|[C|C]]]].
    - (* before the start *)
      rewrite SAME by (left; lia). replace (startf (p - 2 - D)) with false by (unfold startf; symmetry; apply Z.eqb_neq; lia).
      unfold lsnk_step. cbn [lk_ordy negb lk_start lk_stop lk_soff lk_ssize lk_sstride lk_wc lk_rd]. rewrite A0 by lia. cbn.
      rewrite app_nil_r. repeat split; try assumption; try reflexivity; intros; lia.
    - (* the start *)
      rewrite SAME by (left; lia). replace (startf (p - 2 - D)) with true by (unfold startf; symmetry; apply Z.eqb_eq; lia).
      unfold lsnk_step. cbn [lk_ordy negb lk_start lk_stop lk_soff lk_ssize lk_sstride lk_wc lk_rd]. rewrite A0 by lia. cbn.
      rewrite app_nil_r. split; [assumption|]. repeat split; try reflexivity; intros; lia.
    - rewrite SAME by (left; lia). replace (startf (p - 2 - D)) with false by (unfold startf; symmetry; apply Z.eqb_neq; lia).
      unfold lsnk_step. cbn [lk_ordy negb lk_start lk_stop lk_soff lk_ssize lk_sstride lk_wc lk_rd]. destruct A1 as (E0 & E1 & E2 & E3); [lia|]. rewrite E0. cbn.
      rewrite app_nil_r. split; [assumption|]. replace (seen p) with 0%nat by (unfold seen; lia). cbn. rewrite E1, E2, E3.
      repeat split; try reflexivity; try (intros; lia).
    - (* a result *)
      replace (startf (p - 2 - D)) with false by (unfold startf; symmetry; apply Z.eqb_neq; lia).
      assert (SEEN : seen (p + 1) = S (seen p)) by (unfold seen; clear - C; lia).
      assert (TL : (t + seen p + c_depth c)%nat = length H) by (unfold seen; clear - C LH Ht; lia).
      rewrite SEEN, results_snoc, OLD by apply le_n.
      assert (PS : passes (H ++ [e]) x (t + seen p) = match kc_when x with Some w => negb (c_pipe c H e w =? 0) | None => true end).
      { unfold passes. destruct (kc_when x); [|reflexivity]. now rewrite result_new by exact TL. }
      rewrite PS, result_new by exact TL. set (wc := match kc_when x with Some w => _ | None => true end). set (rd := c_pipe c H e (kc_out x)).
      set (l := results c H x t (seen p)) in *. destruct (A2 C) as (B1 & B2). clear A0 A1 A2 A3 SAME PS I.
      assert (EX : p = D + N + 4 -> results c (H ++ [e]) x t (elements c) = l).
      { intros G. unfold l. replace (seen p) with (elements c) by (unfold seen; clear - G NN NP; lia). apply OLD. unfold seen. clear - G NN NP; lia. }
      destruct (Z_lt_le_dec (Z.of_nat (length l)) (kc_size x)) as [LT|GE].
      + destruct (B1 LT) as (E0 & E1 & E2 & E3). unfold lsnk_step. cbn [lk_ordy negb lk_start lk_stop lk_soff lk_ssize lk_sstride lk_wc lk_rd]. rewrite E0. cbn [lk_st lk_en lk_addr lk_data lk_cnt lk_stride lk_off lk_size].
        rewrite E1, E2, E3.
        assert (AD : ((kc_off x + (Z.of_nat (length l) - 1) * kc_stride x) mod 2 ^ aw + kc_stride x) mod 2 ^ aw = (kc_off x + Z.of_nat (length l) * kc_stride x) mod 2 ^ aw)
          by (rewrite Z.add_mod_idemp_l by (clear - P2; lia); f_equal; clear; lia).
        destruct wc.
        * rewrite AD, combine_snoc, address_nth by (clear - LT; lia). rewrite app_assoc, <- W. split; [reflexivity|].
          split; [clear - C; intros; lia|]. split; [clear - C; intros; lia|]. rewrite app_length. cbn [length andb].
          split.
          { intros G. replace (endf (p - 2 - D)) with false by (unfold endf; symmetry; apply Z.eqb_neq; clear - G C; lia). rewrite orb_false_r. split.
            - intros G2. replace (kc_size x - Z.of_nat (length l) =? 1) with false by (symmetry; apply Z.eqb_neq; clear - G2; lia).
              split; [reflexivity|]. split; [rewrite Z.mod_small by (clear - F2 LT; lia); clear; lia|]. split; [|reflexivity]. f_equal. clear; lia.
            - intros G2. replace (kc_size x - Z.of_nat (length l) =? 1) with true by (symmetry; apply Z.eqb_eq; clear - G2 LT; lia). reflexivity. }
          { intros G. replace (endf (p - 2 - D)) with true by (unfold endf; symmetry; apply Z.eqb_eq; clear - G C; lia). rewrite orb_true_r. split; [reflexivity|].
            intros G2. exfalso. rewrite EX in G2 by (clear - G C; lia). clear - G2 LT. lia. }
        * rewrite app_nil_r, app_nil_r. split; [exact W|]. split; [clear - C; intros; lia|]. split; [clear - C; intros; lia|]. cbn [andb orb]. split.
          { intros G. replace (endf (p - 2 - D)) with false by (unfold endf; symmetry; apply Z.eqb_neq; clear - G C; lia). split; [auto|]. intros G2. clear - G2 LT. lia. }
          { intros G. replace (endf (p - 2 - D)) with true by (unfold endf; symmetry; apply Z.eqb_eq; clear - G C; lia). split; reflexivity. }
      + unfold lsnk_step. cbn [lk_ordy negb lk_start lk_stop lk_soff lk_ssize lk_sstride lk_wc lk_rd]. rewrite B2 by exact GE. cbn [lk_st lk_en lk_addr lk_data lk_cnt lk_stride lk_off lk_size].
        rewrite app_nil_r. split.
        { destruct wc; [|now rewrite app_nil_r]. rewrite combine_snoc, address_none by (clear - GE; lia). rewrite app_nil_r. exact W. }
        split; [clear - C; intros; lia|]. split; [clear - C; intros; lia|]. split.
        { intros G. split; [|reflexivity]. rewrite app_length. intros G2. clear - GE G2. lia. }
        { intros G. split; reflexivity. }
    - rewrite SAME by (right; lia). replace (startf (p - 2 - D)) with false by (unfold startf; symmetry; apply Z.eqb_neq; lia).
      unfold lsnk_step. cbn [lk_ordy negb lk_start lk_stop lk_soff lk_ssize lk_sstride lk_wc lk_rd]. rewrite (proj1 (A3 C)). cbn.
      rewrite app_nil_r. split; [assumption|]. repeat split; try reflexivity; intros; lia.
  Qed.

  (** ** The whole stream *)
  (** [p] ticks after the start of a run from [s0]; [E] is what the pipeline took since *)
  Definition phase (s0 : strm) (pre : list elem) (p : Z) (E : list elem) (s : strm) : Prop :=
    0 <= p /\ ctl p s /\ srcs_at p s /\
    (s_hist s = (s_hist s0 ++ pre) ++ E /\ Z.of_nat (length E) = p /\ forall q e, nth_error E q = Some e -> elem_at (Z.of_nat q) e) /\
    length (s_snk s0) = length (c_snk c) /\ length (s_snk s) = length (c_snk c) /\
    forall j x k0 k, nth_error (c_snk c) j = Some x -> nth_error (s_snk s0) j = Some k0 -> nth_error (s_snk s) j = Some k ->
      snk_at (length (s_hist s0 ++ pre) + 4) (writes k0) p (s_hist s) x k.

  Lemma phase_stall s0 pre p E s : phase s0 pre p E s -> phase s0 pre p E (step c s (false, false)).
  Proof.
    intros (Hp & CT & S & HI & L0 & L & SK). split; [exact Hp|]. split; [apply ctl_stall; assumption|]. split; [apply srcs_stall; exact S|]. split; [exact HI|].
    unfold step. cbn [s_snk s_hist]. rewrite each_snd; [auto|congruence|intros; apply stall_snk].
  Qed.
  Lemma phase_tick s0 pre p E s : phase s0 pre p E s -> phase s0 pre (p + 1) (E ++ [inputs s]) (step c s (false, true)).
  Proof.
    intros (Hp & CT & S & (HI & HL & HE) & L0 & L & SK). split; [lia|]. split; [apply ctl_tick; assumption|]. split; [apply srcs_tick; assumption|]. split; [|split; [exact L0|split]].
    - unfold step. cbn [s_hist]. rewrite HI, app_assoc. split; [reflexivity|]. split; [rewrite app_length; cbn; lia|].
      intros q e Hq. destruct (Nat.lt_ge_cases q (length E)) as [LT|GE].
      + rewrite nth_error_app1 in Hq by exact LT. exact (HE q e Hq).
      + rewrite nth_error_app2 in Hq by exact GE. destruct (q - length E)%nat as [|n] eqn:EQ; [|destruct n; discriminate]. cbn in Hq. inversion Hq; subst e.
        replace (Z.of_nat q) with p by lia. apply inputs_at; assumption.
    - unfold step. cbn [s_snk]. rewrite each_length by congruence. reflexivity.
    - unfold step. cbn [s_snk s_hist]. intros j x k0 k Hx H0 Hk. apply each_nth in Hk. destruct Hk as (x' & k' & Hx' & Hk' & ->). rewrite Hx in Hx'. inversion Hx'; subst x'.
      apply snk_tick; try assumption; [exact (nth_error_In _ _ Hx)| |lia|exact (SK j x k0 k' Hx H0 Hk')].
      rewrite HI, app_length. lia.
  Qed.

  Lemma repeat_shift n : shift false (repeat false (S n)) = repeat false (S n).
  Proof. unfold shift. cbn [repeat]. f_equal. induction n as [|n IH]; [reflexivity|]. cbn [repeat removelast] in *. now rewrite IH. Qed.
  Lemma repeat_old n : oldest (repeat false n) = false.
  Proof. unfold oldest. induction n as [|n IH]; [reflexivity|]. cbn [repeat last]. destruct n; [reflexivity|exact IH]. Qed.
  Lemma start_chain f n : (forall t, t < 0 -> f t = false) -> chain f 0 n = repeat false n.
  Proof. intros H. apply chain_false. intros t Ht. apply H. lia. Qed.

  Lemma phase_start s b : ready c s -> exists pre, Forall (fun e => e_valid e = false) pre /\ phase s pre 0 [] (step c s (true, b)).
  Proof.
    intros (ST & SA & SB & SV & SD & SE & KS & KP & KB & BR & LS & FS & LK & FK). pose proof N_pos as NP.
    assert (EC : end_cond s = false) by (unfold end_cond; rewrite ST; apply andb_false_r).
    assert (D2 : (c_depth c + 2)%nat = S (c_depth c + 1)) by lia.
    assert (SKB : sink_busy s = false) by (unfold sink_busy; rewrite KB; apply repeat_old).
    assert (SKS : sink_start s = false) by (unfold sink_start; rewrite KS; apply repeat_old).
    exists (if b then [inputs s] else []). split; [destruct b; repeat constructor; exact SV|].
    assert (C1 : forall n, chain startf 0 n = repeat false n) by (intros; apply start_chain; intros t Ht; unfold startf; apply Z.eqb_neq; lia).
    assert (C2 : forall n, chain endf 0 n = repeat false n) by (intros; apply start_chain; intros t Ht; unfold endf; apply Z.eqb_neq; lia).
    assert (C3 : forall n, chain busyf 0 n = repeat false n) by (intros; apply start_chain; intros t Ht; unfold busyf; apply andb_false_iff; left; apply Z.leb_gt; lia).
    split; [lia|]. split; [|split; [|split; [|split; [exact LK|split]]]].
    - unfold ctl. rewrite C1, C1, C2, C3. unfold step. cbn [s_st s_start s_busy s_ivalid s_rr s_d s_e s_ks s_kp s_kb s_kbp s_breg].
      unfold fsm_step. rewrite ST. cbn [fst snd]. split; [reflexivity|]. split; [reflexivity|]. split; [exact SB|].
      split; [rewrite SV, SD, SE; destruct b; reflexivity|]. split; [split; intros; li|].
      split; [rewrite SA, SD; destruct b; reflexivity|]. rewrite EC, SE, SA, SB, KS, KP, KB, D2, repeat_shift.
      split; [destruct b; unfold endf; symmetry; apply Z.eqb_neq; li|].
      split; [destruct b; reflexivity|]. split; [destruct b; reflexivity|]. split; [destruct b; reflexivity|].
      split; [intros; li|]. split; [|split; intros; li]. intros _. unfold assigns. cbn [fold_left fst snd]. rewrite BR. destruct (negb _ && _); reflexivity.
    - split; unfold step; cbn [s_src].
      + apply each_length. congruence.
      + intros i x r Hx Hr. apply each_nth in Hr. destruct Hr as (x' & r' & Hx' & Hr' & ->). rewrite Forall_forall in FS. destruct (FS r' (nth_error_In _ _ Hr')) as (E0 & E1 & E2).
        assert (Q : l_st (lsrc_step aw (r_fsm r') (src_in s b x')) = 0%nat /\ l_idle (lsrc_step aw (r_fsm r') (src_in s b x')) = true /\ l_en (lsrc_step aw (r_fsm r') (src_in s b x')) = false).
        { unfold lsrc_step, src_in. cbn [l_ordy l_start]. rewrite SA. destruct b; cbn [negb]; [rewrite E0; cbn; auto|auto]. }
        unfold src_at, src_step. cbn [r_fsm r_rdata r_wdata]. split; [intros _; exact Q|].
        rewrite Hx in Hx'. inversion Hx'; subst x'. destruct GC as (_ & _ & G & _). rewrite Forall_forall in G. destruct (G x (nth_error_In _ _ Hx)) as (_ & G2 & _).
        repeat split; intros; exfalso; clear - NP G2 H; lia.
    - unfold step. cbn [s_hist]. split; [destruct b; now rewrite ?app_nil_r|]. split; [reflexivity|]. intros q e Hq. destruct q; discriminate.
    - unfold step. cbn [s_snk]. rewrite each_length by congruence. reflexivity.
    - unfold step. cbn [s_snk s_hist]. intros j x k0 k Hx H0 Hk. apply each_nth in Hk. destruct Hk as (x' & k' & Hx' & Hk' & ->). rewrite H0 in Hk'. inversion Hk'; subst k'. clear Hk'.
      rewrite Forall_forall in FK. specialize (FK k0 (nth_error_In _ _ H0)). unfold snk_at.
      replace (seen 0) with 0%nat by (unfold seen; lia). cbn [results filter seq map]. unfold results. cbn [seq filter map]. rewrite combine_nil, app_nil_r.
      split; [|split; [|repeat split; intros; exfalso; clear - NP H; lia]].
      + destruct b; [|now rewrite stall_snk]. rewrite writes_step. unfold snk_step, pending. cbn [w_fsm]. unfold lsnk_step, snk_in. cbn [lk_ordy negb lk_start]. rewrite FK, SKS. cbn. apply app_nil_r.
      + intros _. destruct b; [|now rewrite stall_snk]. unfold snk_step. cbn [w_fsm]. unfold lsnk_step, snk_in. cbn [lk_ordy negb lk_start]. rewrite FK, SKS. reflexivity.
  Qed.

  (** ** [busy] *)
  Lemma busy_at p s : ctl p s -> busy s = busyf p || busyf (p - 2 - D) || s_breg s.
  Proof. intros (_ & _ & SB & _ & _ & _ & _ & _ & _ & KB & _). unfold busy, sink_busy. now rewrite SB, KB, old2. Qed.
  Lemma busy_0 s : ctl 0 s -> busy s = false.
  Proof.
    intros CT. rewrite (busy_at 0 s CT). destruct CT as (_ & _ & _ & _ & _ & _ & _ & _ & _ & _ & _ & B & _). rewrite (B eq_refl).
    replace (busyf (0 - 2 - D)) with false; [reflexivity|]. symmetry. unfold busyf. apply andb_false_iff. left. apply Z.leb_gt. lia.
  Qed.
  Lemma busy_mid p s : 1 <= p <= D + N + 4 -> ctl p s -> busy s = true.
  Proof.
    intros H CT. rewrite (busy_at p s CT). destruct CT as (_ & _ & _ & _ & _ & _ & _ & _ & _ & _ & _ & _ & B & _). pose proof N_pos.
    destruct (Z.eq_dec p 1) as [->|NE].
    - replace (busyf 1) with true; [reflexivity|]. unfold busyf. cases; cbn [andb]; try lia; reflexivity.
    - rewrite B by lia. apply orb_true_r.
  Qed.
  Lemma busy_end p s : D + N + 5 <= p -> ctl p s -> busy s = s_breg s.
  Proof.
    intros H CT. rewrite (busy_at p s CT). pose proof N_pos.
    replace (busyf p) with false; [replace (busyf (p - 2 - D)) with false; [reflexivity|]|]; symmetry; unfold busyf; apply andb_false_iff; right; apply Z.leb_gt; lia.
  Qed.
  Lemma busy_over p s : D + N + 6 <= p -> ctl p s -> busy s = false.
  Proof. intros H CT. rewrite (busy_end p s) by (assumption || lia). destruct CT as (_ & _ & _ & _ & _ & _ & _ & _ & _ & _ & _ & _ & _ & B). apply B. lia. Qed.
  Lemma breg_low p s b : D + N + 5 <= p -> ctl p s -> s_breg s = false -> s_breg (step c s (false, b)) = false.
  Proof.
    intros H (_ & _ & SB & _) B. unfold step. cbn [s_breg]. unfold assigns. cbn [fold_left fst snd]. rewrite SB, B.
    replace (busyf p) with false; [destruct (negb _ && _); reflexivity|]. symmetry; unfold busyf; apply andb_false_iff; right; apply Z.leb_gt. lia.
  Qed.

  (** ** The end of a run *)
  Lemma phase_ready s0 pre p E s : D + N + 5 <= p -> phase s0 pre p E s -> s_breg s = false -> ready c s.
  Proof.
    intros H (Hp & CT & (LS & SR) & _ & L0 & LK & SK) B. destruct CT as (ST & SA & SB & SV & RR & SD & SE & KS & KP & KB & KBP & _). pose proof N_pos as NP. clear RR KBP.
    assert (F1 : forall t, N + 3 <= t -> startf t = false) by (intros; unfold startf; apply Z.eqb_neq; li).
    assert (F2 : forall t, N + 3 <= t -> endf t = false) by (intros; unfold endf; apply Z.eqb_neq; li).
    assert (F3 : forall t, N + 3 <= t -> busyf t = false) by (intros; unfold busyf; apply andb_false_iff; right; apply Z.leb_gt; li).
    assert (X : forall i r, nth_error (s_src s) i = Some r -> exists x, nth_error (c_src c) i = Some x).
    { intros i r Hr. destruct (nth_error (c_src c) i) eqn:Q; [eauto|]. apply nth_error_None in Q. assert (Li : (i < length (s_src s))%nat) by (apply nth_error_Some; congruence). clear - LS Q Li. lia. }
    unfold ready. rewrite ST, SA, SB, SV, SD, SE, KS, KP, KB.
    split; [unfold statef; cases; try li; reflexivity|]. split; [apply F1; li|]. split; [apply F3; li|].
    split; [unfold validf; apply andb_false_iff; right; apply Z.leb_gt; li|].
    split; [apply chain_false; intros t Ht; unfold startf; apply Z.eqb_neq; li|]. split; [apply F2; li|].
    split; [apply chain_false; intros t Ht; apply F1; li|]. split; [apply chain_false; intros t Ht; apply F2; li|]. split; [apply chain_false; intros t Ht; apply F3; li|].
    split; [exact B|]. split; [exact LS|]. split; [|split; [exact LK|]].
    - apply Forall_forall. intros r Hr. apply In_nth_error in Hr. destruct Hr as (i & Hi). destruct (X i r Hi) as (x & Hx).
      destruct (SR i x r Hx Hi) as (_ & _ & _ & Q & _). apply Q. pose proof (N_ge x (nth_error_In _ _ Hx)). li.
    - apply Forall_forall. intros k Hk. apply In_nth_error in Hk. destruct Hk as (j & Hj).
      assert (Lj : (j < length (s_snk s))%nat) by (apply nth_error_Some; congruence).
      destruct (nth_error (c_snk c) j) as [x|] eqn:Hx; [|apply nth_error_None in Hx; clear - Hx Lj LK; lia].
      destruct (nth_error (s_snk s0) j) as [k0|] eqn:H0; [|apply nth_error_None in H0; clear - H0 Lj LK L0; lia].
      destruct (SK j x k0 k Hx H0 Hj) as (_ & _ & _ & _ & Q). apply Q. exact H.
  Qed.

  Lemma app_at {A} (l m : list A) i : nth_error (l ++ m) (length l + i) = nth_error m i.
  Proof. rewrite nth_error_app2 by lia. f_equal. lia. Qed.
  Lemma phase_done s0 pre p E s : Forall (fun e => e_valid e = false) pre -> D + N + 5 <= p -> phase s0 pre p E s -> one_run c s0 s.
  Proof.
    intros FP H (Hp & _ & _ & (HI & HL & HE) & L0 & _ & SK). pose proof N_pos as NP. pose proof N_nat as NN.
    assert (E3 : exists A B C, E = A ++ B ++ C /\ length A = 4%nat /\ length B = elements c).
    { exists (firstn 4 E), (firstn (elements c) (skipn 4 E)), (skipn (elements c) (skipn 4 E)). rewrite !firstn_skipn. split; [reflexivity|].
      rewrite !firstn_length, skipn_length. clear - H HL NN NP. split; lia. }
    destruct E3 as (A & B & C & -> & LA & LB). rewrite !app_length, LA, LB in HL.
    exists (pre ++ A), B, C. split; [rewrite HI, <- !app_assoc; reflexivity|]. split; [|split; [|split; [exact LB|split; [|split]]]].
    - apply Forall_app. split; [exact FP|]. apply Forall_forall. intros e He. apply In_nth_error in He. destruct He as (q & Hq).
      assert (q < length A)%nat by (apply nth_error_Some; congruence). destruct (HE q e) as (V & _); [now rewrite nth_error_app1|]. rewrite V. unfold validf. apply andb_false_iff. left. apply Z.leb_gt. lia.
    - apply Forall_forall. intros e He. apply In_nth_error in He. destruct He as (q & Hq).
      destruct (HE (length A + (length B + q))%nat e) as (V & _); [now rewrite !app_at|]. rewrite V. unfold validf. apply andb_false_iff. right. apply Z.leb_gt. lia.
    - intros k e Hk. assert (k < length B)%nat by (apply nth_error_Some; congruence).
      destruct (HE (length A + k)%nat e) as (_ & Q); [rewrite app_at, nth_error_app1; assumption|]. replace k with (Z.to_nat (Z.of_nat (length A + k) - 4)) by lia. apply Q. lia.
    - lia.
    - intros j x k k' Hx Hk Hk'. cbn zeta. destruct (SK j x k k' Hx Hk Hk') as (W & _ & _ & _ & Q). destruct (Q H) as (_ & EN). clear Q SK HE.
      replace (length (s_hist s0 ++ pre) + 4)%nat with (length (s_hist s0 ++ pre ++ A)) in * by (rewrite !app_length; lia).
      replace (seen p) with (S (elements c)) in W by (unfold seen; lia). split; [|exact W].
      intros G. specialize (EN G). unfold writes at 1 in W. unfold pending in W. rewrite EN, app_nil_r in W. rewrite W. f_equal.
      rewrite results_snoc. destruct (passes _ _ _); [|now rewrite app_nil_r]. rewrite combine_snoc, address_none by lia. apply app_nil_r.
  Qed.

  (** ** The calling thread *)
  Definition finished (rest : list tst) (s0 : strm) (y : sys) : Prop := y_thr y = rest /\ ready c (y_str y) /\ one_run c s0 (y_str y).
  (** between [run] and the end of [join], [p] ticks after the start *)
  Definition under_way (rest : list tst) (s0 : strm) (p : Z) (y : sys) : Prop :=
    exists pre E, Forall (fun e => e_valid e = false) pre /\ phase s0 pre p E (y_str y) /\ p <= D + N + 6 /\
      ((y_thr y = TBusy :: TJoin :: rest /\ p <= 1) \/ (y_thr y = TJoin :: rest /\ 1 <= p)).
  Lemma way_step rest s0 p y (b : bool) : under_way rest s0 p y ->
    under_way rest s0 (if b then p + 1 else p) (sys_step c y b) \/ finished rest s0 (sys_step c y b).
  Proof.
    intros (pre & E & FP & PH & LE & T). pose proof N_pos as NP.
    assert (PN : flag (y_thr y) = false) by (destruct T as [(-> & _)|(-> & _)]; reflexivity).
    assert (PH' : exists E', phase s0 pre (if b then p + 1 else p) E' (y_str (sys_step c y b))).
    { unfold sys_step. cbn [y_str]. rewrite PN. destruct b; [eexists; apply phase_tick; exact PH|exists E; now apply phase_stall]. }
    destruct PH' as (E' & PH'). pose proof PH as (Hp & CT & _).
    destruct T as [(T & L1)|(T & L1)].
    - left. exists pre, E'. split; [exact FP|]. split; [exact PH'|]. split; [destruct b; lia|].
      unfold sys_step. cbn [y_thr]. rewrite T. cbn [moves]. assert (C : p = 0 \/ p = 1) by lia. destruct C as [-> | ->].
      + rewrite busy_0 by exact CT. left. split; [reflexivity|]. destruct b; lia.
      + rewrite (busy_mid 1) by (exact CT || lia). right. split; [reflexivity|]. destruct b; lia.
    - destruct (busy (y_str y)) eqn:EB.
      + left. exists pre, E'. split; [exact FP|]. split; [exact PH'|]. destruct (Z.eq_dec p (D + N + 6)) as [Ep|NE].
        { rewrite (busy_over p) in EB by (exact CT || lia). discriminate. }
        split; [destruct b; lia|]. right. unfold sys_step. cbn [y_thr]. rewrite T. cbn [moves]. rewrite EB. cbn [negb]. split; [reflexivity|]. destruct b; lia.
      + right. destruct (Z_le_gt_dec p (D + N + 4)) as [Lp|Gp]; [rewrite (busy_mid p) in EB by (exact CT || lia); discriminate|].
        assert (LP : D + N + 5 <= (if b then p + 1 else p)) by (destruct b; lia).
        split; [unfold sys_step; cbn [y_thr]; rewrite T; cbn [moves]; rewrite EB; reflexivity|]. split.
        * eapply phase_ready; [exact LP|exact PH'|]. unfold sys_step. cbn [y_str]. rewrite PN. apply (breg_low p); [lia|exact CT|].
          rewrite <- EB. symmetry. apply (busy_end p); [lia|exact CT].
        * eapply phase_done; [exact FP|exact LP|exact PH'].
  Qed.

  Lemma way_run rest s0 : forall ins p y, under_way rest s0 p y ->
    (exists p', under_way rest s0 p' (final (sys_step c) y ins) /\ p' = p + Z.of_nat (ticks ins)) \/
    (exists ins1 ins2, ins = ins1 ++ ins2 /\ finished rest s0 (final (sys_step c) y ins1) /\ p + Z.of_nat (ticks ins1) <= D + N + 7).
  Proof.
    induction ins as [|b ins IH]; intros p y W.
    - left. exists p. split; [exact W|]. cbn. lia.
    - destruct (way_step rest s0 p y b W) as [W'|F].
      + destruct (IH _ _ W') as [(p' & U & Ep)|(i1 & i2 & -> & F & LT)].
        * left. exists p'. split; [exact U|]. rewrite Ep. unfold ticks. destruct b; cbn [filter length]; lia.
        * right. exists (b :: i1), i2. split; [reflexivity|]. split; [exact F|]. unfold ticks in *. destruct b; cbn [filter length]; lia.
      + right. exists [b], ins. split; [reflexivity|]. split; [exact F|]. destruct W as (_ & _ & _ & _ & LE & _). unfold ticks. destruct b; cbn [filter length]; lia.
  Qed.
  Lemma run_join s rest ins : ready c s ->
    let y := final (sys_step c) (mkSys (m_run ++ m_join ++ rest) s) ins in
    ((length rest < length (y_thr y))%nat /\ (ticks ins <= c_depth c + elements c + 7)%nat) \/
    exists ins1 ins2, ins = ins1 ++ ins2 /\ finished rest s (final (sys_step c) (mkSys (m_run ++ m_join ++ rest) s) ins1) /\
      (ticks ins1 <= c_depth c + elements c + 8)%nat.
  Proof.
    intros R. cbn zeta. pose proof N_nat as NN. pose proof N_pos as NP. destruct ins as [|b ins]; [left; cbn; lia|].
    destruct (phase_start s b R) as (pre & FP & PH).
    assert (W : under_way rest s 0 (sys_step c (mkSys (m_run ++ m_join ++ rest) s) b)).
    { exists pre, []. split; [exact FP|]. split; [exact PH|]. split; [lia|]. left. split; [reflexivity|lia]. }
    destruct (way_run rest s ins 0 _ W) as [(p' & (pre' & E' & _ & _ & LE & T) & Ep)|(i1 & i2 & -> & F & LT)].
    - left. change (final (sys_step c) (mkSys (m_run ++ m_join ++ rest) s) (b :: ins)) with (final (sys_step c) (sys_step c (mkSys (m_run ++ m_join ++ rest) s) b) ins).
      split; [destruct T as [(-> & _)|(-> & _)]; cbn; lia|]. unfold ticks in *. destruct b; cbn [filter length]; lia.
    - right. exists (b :: i1), i2. split; [reflexivity|]. split; [exact F|]. unfold ticks in *. destruct b; cbn [filter length]; lia.
  Qed.

  (** ** Several runs *)
  Lemma repeat_runs : forall n s ins, ready c s ->
    let y := final (sys_step c) (mkSys (concat (repeat (m_run ++ m_join) n)) s) ins in
    (y_thr y = [] \/ n * (c_depth c + elements c + 8) <= ticks ins)%nat ->
    exists ins1 ins2 s', ins = ins1 ++ ins2 /\ final (sys_step c) (mkSys (concat (repeat (m_run ++ m_join) n)) s) ins1 = mkSys [] s' /\ runs c n s s'.
  Proof.
    induction n as [|n IH]; intros s ins R; cbn zeta; intros H.
    - exists [], ins, s. split; [reflexivity|]. split; [reflexivity|constructor].
    - cbn [repeat concat] in *. rewrite <- app_assoc in *. destruct (run_join s (concat (repeat (m_run ++ m_join) n)) ins R) as [(A & B)|(i1 & i2 & -> & (F1 & F2 & F3) & B)].
      + exfalso. destruct H as [H|H]; [rewrite H in A; cbn in A; lia|]. clear - B H. lia.
      + set (y1 := final (sys_step c) (mkSys (m_run ++ m_join ++ concat (repeat (m_run ++ m_join) n)) s) i1) in *.
        assert (Y : y1 = mkSys (concat (repeat (m_run ++ m_join) n)) (y_str y1)) by (rewrite <- F1; destruct y1; reflexivity).
        destruct (IH (y_str y1) i2 F2) as (j1 & j2 & s' & -> & FJ & RR).
        { destruct H as [H|H].
          - left. unfold final in H. rewrite fold_left_app in H. fold (final (sys_step c) (mkSys (m_run ++ m_join ++ concat (repeat (m_run ++ m_join) n)) s) i1) in H. fold y1 in H. rewrite Y in H. exact H.
          - right. unfold ticks in *. rewrite filter_app, app_length in H. clear - B H. lia. }
        exists (i1 ++ j1), j2, s'. split; [apply app_assoc|]. split.
        * unfold final. rewrite fold_left_app. fold (final (sys_step c) (mkSys (m_run ++ m_join ++ concat (repeat (m_run ++ m_join) n)) s) i1). fold y1. rewrite Y. exact FJ.
        * exact (runs_S c n s (y_str y1) s' F3 F2 RR).
  Qed.
End Run.

(** ** The meaning of an element depends on the elements up to it *)
Lemma den_causal g par xs : forall n k v, den g par xs n k v -> forall ys, (forall t, (t <= k)%nat -> xs t = ys t) -> den g par ys n k v.
Proof.
  apply (den_ind3 g par xs
    (fun n k v _ => forall ys, (forall t, (t <= k)%nat -> xs t = ys t) -> den g par ys n k v)
    (fun l k vs _ => forall ys, (forall t, (t <= k)%nat -> xs t = ys t) -> dens g par ys l k vs)
    (fun n k s _ => forall ys, (forall t, (t < k)%nat -> xs t = ys t) -> state g par ys n k s)).
  - intros n d i k G K ys H. rewrite H by lia. now apply den_var with d.
  - intros n d c k G K ys H. now apply den_const with d.
  - intros n d p k G K ys H. now apply den_param with d.
  - intros n d f k vs G K _ IH ys H. apply den_op with d; auto.
  - intros n d k v G K _ IH ys H. apply den_prev with d; auto.
  - intros n d s0 u o k s G K _ IH ys H. apply den_acc with d s0 u; auto. apply IH. intros t Ht. apply H. lia.
  - intros k ys H. constructor.
  - intros a r k v vs _ IH1 _ IH2 ys H. constructor; auto.
  - intros n d s0 u o G K ys H. now apply state_0 with d u o.
  - intros n k s _ IH V ys H. apply state_invalid; [apply IH; intros; apply H; lia|]. rewrite <- H by lia. exact V.
  - intros n d s0 u o k s vs G K _ IH1 V _ IH2 ys H. apply (state_valid g par ys n d s0 u o k s vs G K).
    + apply IH1. intros; apply H; lia.
    + rewrite <- H by lia. exact V.
    + apply IH2. intros; apply H; lia.
Qed.
