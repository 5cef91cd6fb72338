From Verif Require Import Base Fifo_Model Fifo_Spec.
Open Scope Z_scope.

Definition wrap (N x : Z) : Z := if x <? N then x else x - N.

Lemma mod_wrap N x : 0 <= x < 2 * N -> x mod N = wrap N x.
Proof.
  intros H; unfold wrap; destruct (x <? N) eqn:E.
  - apply Z.mod_small; lia.
  - symmetry; apply (Z.mod_unique_pos x N 1 (x - N)); lia.
Qed.

Lemma land_mask aw x : 0 <= aw -> Z.land x (f_mask aw) = x mod 2 ^ aw.
Proof.
  intros H; unfold f_mask.
  replace (2 ^ aw - 1) with (Z.ones aw) by (rewrite Z.ones_equiv; lia).
  apply Z.land_ones; lia.
Qed.

Lemma pow2_ge2 aw : 1 <= aw -> 2 <= 2 ^ aw.
Proof. intros H; change 2 with (2 ^ 1) at 1; apply Z.pow_le_mono_r; lia. Qed.

Record Inv (N : Z) (s : fifo) (l : list Z) : Prop := {
  inv_tail : 0 <= f_tail s < N;
  inv_len : Z.of_nat (length l) < N;
  inv_head : f_head s = wrap N (f_tail s + Z.of_nat (length l));
  inv_mem : forall k, (k < length l)%nat ->
            f_mem s (wrap N (f_tail s + Z.of_nat k)) = nth k l 0 }.

Section Fixed.
  Variable aw : Z.
  Hypothesis Haw : 1 <= aw.
  Let N := 2 ^ aw.
  Let HN : 2 <= N := pow2_ge2 aw Haw.

  Lemma empty_iff s l : Inv N s l -> p_empty s = (Z.of_nat (length l) =? 0).
  Proof.
    intros [Ht Hl Hh Hm]; unfold p_empty, f_is_empty; rewrite Hh; unfold wrap.
    destruct (f_tail s + Z.of_nat (length l) <? N) eqn:E; lia.
  Qed.

  Lemma full_iff s l : Inv N s l -> p_full aw s = (Z.of_nat (length l) =? N - 1).
  Proof.
    intros [Ht Hl Hh Hm]; unfold p_full, f_is_full; rewrite land_mask by lia; fold N.
    rewrite Hh; rewrite mod_wrap by (unfold wrap; destruct (_ <? _) eqn:E; lia).
    unfold wrap.
    destruct (f_tail s + Z.of_nat (length l) <? N) eqn:E.
    - destruct (f_tail s + Z.of_nat (length l) + 1 <? N) eqn:E2; lia.
    - destruct (f_tail s + Z.of_nat (length l) - N + 1 <? N) eqn:E2; lia.
  Qed.

  Lemma aempty_iff s l : Inv N s l -> p_almost_empty aw s = (Z.of_nat (length l) <=? 1).
  Proof.
    intros I; unfold p_almost_empty.
    change (f_is_empty s) with (p_empty s); rewrite (empty_iff s l I).
    destruct I as [Ht Hl Hh Hm]; unfold f_is_almost_empty; rewrite land_mask by lia; fold N.
    rewrite Hh; rewrite mod_wrap by lia.
    unfold wrap.
    destruct (f_tail s + Z.of_nat (length l) <? N) eqn:E;
    destruct (f_tail s + 1 <? N) eqn:E2; lia.
  Qed.

  Lemma afull_iff s l : Inv N s l -> p_almost_full aw s = (N - 2 <=? Z.of_nat (length l)).
  Proof.
    intros I; unfold p_almost_full.
    change (f_is_full aw s) with (p_full aw s); rewrite (full_iff s l I).
    destruct I as [Ht Hl Hh Hm]; unfold f_is_almost_full; rewrite land_mask by lia; fold N.
    rewrite Hh.
    rewrite mod_wrap by (unfold wrap; destruct (_ <? _) eqn:E; lia).
    unfold wrap.
    destruct (f_tail s + Z.of_nat (length l) <? N) eqn:E.
    - destruct (f_tail s + Z.of_nat (length l) + 2 <? N) eqn:E2; lia.
    - destruct (f_tail s + Z.of_nat (length l) - N + 2 <? N) eqn:E2; lia.
  Qed.

  Lemma init_inv m0 : Inv N (fifo_init m0) [].
  Proof.
    constructor; cbn; try lia; unfold wrap; try (destruct (_ <? _) eqn:E; lia).
  Qed.

  (** Effect of an enqueue that is not refused. *)
  Lemma enq_inv s l i :
    Inv N s l -> i_enq i = true -> Z.of_nat (length l) < N - 1 ->
    Inv N (fifo_enq_stmt aw i s s) (l ++ [i_wdata i]).
  Proof.
    intros I He Hlen. pose proof (full_iff s l I) as Hf; unfold p_full in Hf.
    destruct I as [Ht Hl Hh Hm].
    unfold fifo_enq_stmt; rewrite He, Hf. cbn [andb].
    replace (Z.of_nat (length l) =? N - 1) with false by lia; cbn [negb].
    fold N. constructor; cbn [f_tail f_head f_mem].
    - exact Ht.
    - rewrite app_length; cbn [length]; lia.
    - rewrite app_length; cbn [length]; rewrite Hh.
      rewrite mod_wrap by (unfold wrap; destruct (_ <? _) eqn:E; lia).
      unfold wrap.
      destruct (f_tail s + Z.of_nat (length l) <? N) eqn:E.
      + replace (f_tail s + Z.of_nat (length l + 1)) with (f_tail s + Z.of_nat (length l) + 1) by lia.
        reflexivity.
      + destruct (f_tail s + Z.of_nat (length l) - N + 1 <? N) eqn:E2;
        destruct (f_tail s + Z.of_nat (length l + 1) <? N) eqn:E3; lia.
    - intros k Hk; rewrite app_length in Hk; cbn [length] in Hk. unfold upd.
      destruct (Nat.eq_dec k (length l)) as [->|Hne].
      + rewrite app_nth2 by lia. replace (length l - length l)%nat with 0%nat by lia. cbn [nth].
        rewrite Hh, Z.eqb_refl. reflexivity.
      + rewrite app_nth1 by lia.
        replace (wrap N (f_tail s + Z.of_nat k) =? f_head s) with false.
        * apply Hm; lia.
        * rewrite Hh; unfold wrap; symmetry; apply Z.eqb_neq.
          destruct (f_tail s + Z.of_nat k <? N) eqn:E1;
          destruct (f_tail s + Z.of_nat (length l) <? N) eqn:E2; lia.
  Qed.

  (** Removing the oldest word. *)
  Lemma pop_inv s x l (h r : Z) :
    Inv N s (x :: l) ->
    Inv N (mkFifo (f_mem s) (f_head s) ((f_tail s + 1) mod N) r) l /\
    f_mem s (f_tail s) = x.
  Proof.
    intros [Ht Hl Hh Hm]; cbn [length] in *. split.
    - rewrite mod_wrap by lia.
      constructor; cbn [f_tail f_head f_mem].
      + unfold wrap; destruct (_ <? _) eqn:E; lia.
      + lia.
      + rewrite Hh. unfold wrap.
        destruct (f_tail s + 1 <? N) eqn:E1;
        destruct (f_tail s + Z.of_nat (S (length l)) <? N) eqn:E2.
        * destruct (f_tail s + 1 + Z.of_nat (length l) <? N) eqn:E3; lia.
        * destruct (f_tail s + 1 + Z.of_nat (length l) <? N) eqn:E3; lia.
        * destruct (f_tail s + 1 - N + Z.of_nat (length l) <? N) eqn:E3; lia.
        * destruct (f_tail s + 1 - N + Z.of_nat (length l) <? N) eqn:E3; lia.
      + intros k Hk. specialize (Hm (S k)); cbn [nth] in Hm.
        rewrite <- Hm by lia. f_equal. unfold wrap.
        destruct (f_tail s + 1 <? N) eqn:E1;
        destruct (f_tail s + Z.of_nat (S k) <? N) eqn:E2.
        * destruct (f_tail s + 1 + Z.of_nat k <? N) eqn:E3; lia.
        * destruct (f_tail s + 1 + Z.of_nat k <? N) eqn:E3; lia.
        * destruct (f_tail s + 1 - N + Z.of_nat k <? N) eqn:E3; lia.
        * destruct (f_tail s + 1 - N + Z.of_nat k <? N) eqn:E3; lia.
    - specialize (Hm 0%nat). cbn [nth] in Hm. rewrite <- Hm by lia. f_equal.
      unfold wrap; destruct (_ <? _) eqn:E; lia.
  Qed.

  Definition step_list (l : list Z) (i : fifo_in) : list Z :=
    q_words (queue_step (N - 1) (mkQueue l 0) i).

  Lemma step_list_eq q i : q_words (queue_step (N - 1) q i) = step_list (q_words q) i.
  Proof. unfold step_list, queue_step; cbn; destruct (q_words q); [|destruct (i_deq i)]; reflexivity. Qed.

  Lemma enq_stmt_noop i s : i_enq i && negb (f_is_full aw s) = false -> fifo_enq_stmt aw i s s = s.
  Proof. intros E; unfold fifo_enq_stmt; rewrite E; reflexivity. Qed.

  Lemma step_inv sync s l i :
    Inv N s l -> Inv N (fifo_step sync aw s i) (step_list l i).
  Proof.
    intros I.
    pose proof (full_iff s l I) as Hf; unfold p_full in Hf.
    pose proof (empty_iff s l I) as Hem; unfold p_empty in Hem.
    set (added := if i_enq i && (Z.of_nat (length l) <? N - 1) then [i_wdata i] else []).
    assert (I1 : Inv N (fifo_enq_stmt aw i s s) (l ++ added)).
    { subst added. destruct (i_enq i) eqn:He; cbn [andb].
      - destruct (Z.of_nat (length l) <? N - 1) eqn:Hlt.
        + apply enq_inv; auto; lia.
        + rewrite app_nil_r, enq_stmt_noop; auto. rewrite Hf.
          pose proof (inv_len _ _ _ I); lia.
      - rewrite app_nil_r, enq_stmt_noop; auto. rewrite He; reflexivity. }
    assert (Htl : f_tail (fifo_enq_stmt aw i s s) = f_tail s)
      by (unfold fifo_enq_stmt; destruct (i_enq i && negb (f_is_full aw s)); reflexivity).
    assert (Hmm : forall x r, l = x :: r -> f_mem (fifo_enq_stmt aw i s s) (f_tail s) = f_mem s (f_tail s)).
    { intros x r ->. cbn [app] in I1. destruct (pop_inv _ _ _ 0 0 I1) as [_ P1].
      destruct (pop_inv _ _ _ 0 0 I) as [_ P2]. rewrite Htl in P1; congruence. }
    unfold step_list, queue_step, fifo_step; cbn [q_words]; fold added.
    unfold fifo_deq_stmt. rewrite Hem.
    destruct l as [|x r].
    - cbn [length Z.of_nat app] in *. cbn [Z.eqb negb]. rewrite andb_false_r.
      cbn [q_words]. exact I1.
    - replace (Z.of_nat (length (x :: r)) =? 0) with false by (cbn [length]; lia).
      cbn [negb]; rewrite andb_true_r. destruct (i_deq i); cbn [q_words].
      + cbn [app] in I1. fold N. rewrite <- Htl.
        apply (pop_inv _ x (r ++ added) 0); exact I1.
      + exact I1.
  Qed.

  Lemma step_rdata s q i :
    Inv N s (q_words q) -> f_rdata s = q_last q ->
    f_rdata (fifo_step true aw s i) = q_last (queue_step (N - 1) q i).
  Proof.
    intros I Hr.
    pose proof (empty_iff s _ I) as Hem; unfold p_empty in Hem.
    assert (He : f_rdata (fifo_enq_stmt aw i s s) = f_rdata s)
      by (unfold fifo_enq_stmt; destruct (i_enq i && negb (f_is_full aw s)); reflexivity).
    unfold fifo_step, fifo_deq_stmt, queue_step; rewrite Hem.
    destruct (q_words q) as [|x r] eqn:Eq; cbn [length].
    - cbn [Z.of_nat Z.eqb negb]. rewrite andb_false_r. cbn [q_last]. congruence.
    - replace (Z.of_nat (S (length r)) =? 0) with false by lia. cbn [negb]; rewrite andb_true_r.
      destruct (i_deq i); cbn [q_last f_rdata]; [|congruence].
      apply (pop_inv _ x r 0 0 I).
  Qed.

  Lemma out_eq s q i :
    Inv N s (q_words q) -> f_rdata s = q_last q ->
    fifo_out true aw s i = queue_out (N - 1) q i.
  Proof.
    intros I Hr. unfold fifo_out, queue_out.
    rewrite (empty_iff s _ I), (full_iff s _ I), (aempty_iff s _ I), (afull_iff s _ I).
    cbn [p_rdata]. rewrite Hr. f_equal. f_equal. lia.
  Qed.

  Lemma refines_gen ins : forall s q,
    Inv N s (q_words q) -> f_rdata s = q_last q ->
    outs (fifo_step true aw) (fifo_out true aw) s ins =
    outs (queue_step (N - 1)) (queue_out (N - 1)) q ins.
  Proof.
    induction ins as [|i ins IH]; intros s q I Hr; cbn [outs]; [reflexivity|].
    rewrite (out_eq s q i I Hr). f_equal.
    apply IH.
    - rewrite step_list_eq. apply step_inv; exact I.
    - apply step_rdata; assumption.
  Qed.

  Lemma refines m0 ins :
    outs (fifo_step true aw) (fifo_out true aw) (fifo_init m0) ins =
    outs (queue_step (2 ^ aw - 1)) (queue_out (2 ^ aw - 1)) queue_init ins.
  Proof. apply refines_gen; [apply init_inv|reflexivity]. Qed.

  (** Port-level losslessness, synchronous read. *)
  Lemma step_list_shape l i :
    step_list l i =
    (if i_deq i && negb (Z.of_nat (length l) =? 0) then tl l else l) ++
    (if i_enq i && negb (Z.of_nat (length l) =? N - 1) then [i_wdata i] else [])
    \/ ~ (Z.of_nat (length l) < N).
  Proof.
    destruct (Z_lt_ge_dec (Z.of_nat (length l)) N) as [Hlt|]; [left|right; lia].
    unfold step_list, queue_step; cbn [q_words].
    replace (negb (Z.of_nat (length l) =? N - 1)) with (Z.of_nat (length l) <? N - 1) by lia.
    destruct l as [|x r].
    - rewrite andb_false_r. reflexivity.
    - replace (Z.of_nat (length (x :: r)) =? 0) with false by (cbn [length]; lia).
      cbn [negb]; rewrite andb_true_r. destruct (i_deq i); reflexivity.
  Qed.

  Definition popped_of (l : list Z) (i : fifo_in) : list Z :=
    if i_deq i && negb (Z.of_nat (length l) =? 0) then firstn 1 l else [].
  Definition added_of (l : list Z) (i : fifo_in) : list Z :=
    if i_enq i && negb (Z.of_nat (length l) =? N - 1) then [i_wdata i] else [].

  Lemma step_list_cons l i : Z.of_nat (length l) < N ->
    l ++ added_of l i = popped_of l i ++ step_list l i.
  Proof.
    intros H. destruct (step_list_shape l i) as [E|E]; [|contradiction].
    rewrite E. unfold popped_of, added_of.
    destruct (i_deq i && negb (Z.of_nat (length l) =? 0)) eqn:Ed.
    - destruct l as [|x r]; [cbn in Ed; rewrite andb_false_r in Ed; discriminate|]. reflexivity.
    - reflexivity.
  Qed.

  Lemma lossless_sync_gen ins : forall s l,
    Inv N s l ->
    exists rest,
      l ++ accepted (combine ins (outs (fifo_step true aw) (fifo_out true aw) s ins)) =
      delivered (combine ins (outs (fifo_step true aw) (fifo_out true aw) s ins)) ++ rest /\
      Z.of_nat (length rest) <= N.
  Proof.
    induction ins as [|i ins IH]; intros s l I.
    - exists l; cbn; rewrite app_nil_r; split; [reflexivity|]. pose proof (inv_len _ _ _ I); lia.
    - pose proof (inv_len _ _ _ I) as Hlen.
      pose proof (step_inv true s l i I) as I'.
      destruct (IH _ _ I') as [rest [E Hr]].
      cbn [outs combine accepted].
      set (T := combine ins (outs (fifo_step true aw) (fifo_out true aw) (fifo_step true aw s i) ins)) in *.
      assert (Ha : (if i_enq i && negb (o_full (fifo_out true aw s i)) then [i_wdata i] else [])
                   = added_of l i).
      { unfold fifo_out; cbn [o_full]. rewrite (full_iff s l I). reflexivity. }
      rewrite Ha, app_assoc, step_list_cons by exact Hlen. rewrite <- app_assoc, E.
      destruct ins as [|i2 ins].
      + (* last cycle: the popped word, if any, is not visible yet *)
        cbn in T. subst T. cbn [combine delivered app].
        exists (popped_of l i ++ rest). split; [reflexivity|].
        cbn in E. rewrite app_nil_r in E. subst rest.
        rewrite <- step_list_cons by exact Hlen. rewrite app_length.
        unfold added_of. destruct (i_enq i && negb (Z.of_nat (length l) =? N - 1)) eqn:Ee; cbn [length]; lia.
      + exists rest. split; [|exact Hr].
        rewrite app_assoc. f_equal.
        subst T; cbn [outs combine].
        match goal with |- _ = delivered ((i, ?o) :: (?j, ?o') :: ?r) =>
          change (delivered ((i, o) :: (j, o') :: r)) with
            ((if i_deq i && negb (o_empty o) then [o_rdata o'] else []) ++ delivered ((j, o') :: r)) end.
        f_equal. unfold fifo_out; cbn [o_empty o_rdata p_rdata].
        rewrite (empty_iff s l I). unfold popped_of.
        destruct (i_deq i && negb (Z.of_nat (length l) =? 0)) eqn:Ed; [|reflexivity].
        destruct l as [|x r]; [cbn in Ed; rewrite andb_false_r in Ed; discriminate|].
        cbn [firstn]. f_equal.
        pose proof (empty_iff s _ I) as Hem; unfold p_empty in Hem.
        unfold fifo_step, fifo_deq_stmt. rewrite Hem, Ed. cbn [f_rdata].
        symmetry. apply (pop_inv _ x r 0 0 I).
  Qed.

  Lemma lossless_async_gen ins : forall s l,
    Inv N s l ->
    exists rest,
      l ++ accepted (combine ins (outs (fifo_step false aw) (fifo_out false aw) s ins)) =
      delivered_async (combine ins (outs (fifo_step false aw) (fifo_out false aw) s ins)) ++ rest /\
      Z.of_nat (length rest) <= N - 1.
  Proof.
    induction ins as [|i ins IH]; intros s l I.
    - exists l; cbn; rewrite app_nil_r; split; [reflexivity|]. pose proof (inv_len _ _ _ I); lia.
    - pose proof (inv_len _ _ _ I) as Hlen.
      pose proof (step_inv false s l i I) as I'.
      destruct (IH _ _ I') as [rest [E Hr]].
      cbn [outs combine accepted delivered_async].
      set (T := combine ins (outs (fifo_step false aw) (fifo_out false aw) (fifo_step false aw s i) ins)) in *.
      assert (Ha : (if i_enq i && negb (o_full (fifo_out false aw s i)) then [i_wdata i] else [])
                   = added_of l i).
      { unfold fifo_out; cbn [o_full]. rewrite (full_iff s l I). reflexivity. }
      rewrite Ha, app_assoc, step_list_cons by exact Hlen. rewrite <- app_assoc, E.
      exists rest. split; [|exact Hr].
      rewrite app_assoc. f_equal. f_equal.
      unfold fifo_out; cbn [o_empty o_rdata p_rdata].
      rewrite (empty_iff s l I). unfold popped_of.
      destruct (i_deq i && negb (Z.of_nat (length l) =? 0)) eqn:Ed; [|reflexivity].
      destruct l as [|x r]; [cbn in Ed; rewrite andb_false_r in Ed; discriminate|].
      cbn [firstn]. f_equal. symmetry. apply (pop_inv _ x r 0 0 I).
  Qed.

  (** Counter. *)
  Lemma count_inv s l c i :
    Inv N s l -> c = Z.of_nat (length l) ->
    count_step aw s c i = Z.of_nat (length (step_list l i)).
  Proof.
    intros I ->. pose proof (inv_len _ _ _ I) as Hlen.
    assert (HN2 : 2 ^ (aw + 1) = 2 * N) by (unfold N; rewrite Z.pow_add_r by lia; lia).
    unfold count_step. rewrite (full_iff s l I), (empty_iff s l I), HN2.
    pose proof (step_list_cons l i Hlen) as E. apply (f_equal (@length Z)) in E.
    rewrite !app_length in E. unfold added_of, popped_of in E.
    destruct (i_enq i && negb (Z.of_nat (length l) =? N - 1)) eqn:Ee;
    destruct (i_deq i && negb (Z.of_nat (length l) =? 0)) eqn:Ed; cbn [andb];
      cbn [length] in E; rewrite ?firstn_length in E; cbn [length] in E.
    - lia.
    - rewrite Z.mod_small; lia.
    - rewrite Z.mod_small; lia.
    - lia.
  Qed.

  Lemma tfifo_inv sync ins : forall s l,
    Inv N (t_fifo s) l -> t_count s = Z.of_nat (length l) ->
    Inv N (t_fifo (final (tfifo_step sync aw) s ins)) (fold_left step_list ins l) /\
    t_count (final (tfifo_step sync aw) s ins) = Z.of_nat (length (fold_left step_list ins l)).
  Proof.
    induction ins as [|i ins IH]; intros s l I Hc; cbn [final fold_left]; [auto|].
    apply IH; cbn [tfifo_step t_fifo t_count].
    - apply step_inv; exact I.
    - apply count_inv; assumption.
  Qed.
End Fixed.

Lemma final_queue N ins : forall q,
  q_words (final (queue_step (N - 1)) q ins) =
  fold_left (fun l i => q_words (queue_step (N - 1) (mkQueue l 0) i)) ins (q_words q).
Proof.
  induction ins as [|i ins IH]; intros q; cbn [final fold_left]; [reflexivity|].
  unfold final in IH. rewrite IH. f_equal.
  unfold queue_step; cbn; destruct (q_words q); [|destruct (i_deq i)]; reflexivity.
Qed.

Lemma tfifo_count aw sync m0 ins : 1 <= aw ->
  t_count (final (tfifo_step sync aw) (tfifo_init m0) ins) =
  Z.of_nat (length (q_words (final (queue_step (2 ^ aw - 1)) queue_init ins))).
Proof.
  intros Haw. rewrite final_queue.
  apply (tfifo_inv aw Haw sync ins (tfifo_init m0) []).
  - apply init_inv; exact Haw.
  - reflexivity.
Qed.
