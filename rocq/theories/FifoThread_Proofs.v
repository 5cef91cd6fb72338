From Verif Require Import Base Fifo_Model Fifo_Spec Fifo_Proofs.
Open Scope Z_scope.

Record SInv (aw : Z) (words : list Z) (y : sys) (l : list Z) : Prop := {
  si_inv : Inv (2 ^ aw) (y_fifo y) l;
  si_valid : y_valid y = match y_cons y with CCapture => true | _ => false end;
  si_in : y_in_enq y = true -> y_todo y <> [];
  si_words : words = y_got y ++ (match y_cons y with CCapture => [f_rdata (y_fifo y)] | _ => [] end)
                     ++ l ++ y_todo y }.

Section S.
  Variable aw : Z.
  Hypothesis Haw : 1 <= aw.
  Let N := 2 ^ aw.
  Let HN : 2 <= N := pow2_ge2 aw Haw.

  Lemma ready_iff s l : Inv N s l -> enq_ready aw s = (Z.of_nat (length l) <? N - 2).
  Proof. intros I; unfold enq_ready; rewrite (afull_iff aw Haw s l I). fold N. lia. Qed.

  Lemma dready_iff s l : Inv N s l -> deq_ready s = (0 <? Z.of_nat (length l)).
  Proof. intros I; unfold deq_ready; rewrite (empty_iff aw Haw s l I). lia. Qed.

  Definition next_list (y : sys) (l : list Z) : list Z :=
    (match y_cons y with CReq => tl l | _ => l end) ++
    (if y_in_enq y && (Z.of_nat (length l) <? N - 2) then firstn 1 (y_todo y) else []).

  Lemma step_list_next words y l : SInv aw words y l ->
    step_list aw l (sys_in aw y) = next_list y l.
  Proof.
    intros [I Hv Hin Hw].
    destruct (step_list_shape aw Haw l (sys_in aw y)) as [E|E];
      [|pose proof (inv_len _ _ _ I); contradiction].
    rewrite E; clear E. unfold sys_in, next_list; cbn [i_deq i_enq i_wdata].
    unfold enq_rtl, deq_rtl. rewrite (ready_iff _ l I), (dready_iff _ l I). fold N.
    f_equal.
    - destruct (y_cons y); cbn [andb]; try reflexivity.
      destruct l as [|x r]; [reflexivity|].
      replace (0 <? Z.of_nat (length (x :: r))) with true by (cbn [length]; lia).
      replace (Z.of_nat (length (x :: r)) =? 0) with false by (cbn [length]; lia). reflexivity.
    - destruct (y_in_enq y) eqn:Ei; cbn [andb]; [|reflexivity].
      destruct (Z.of_nat (length l) <? N - 2) eqn:El; cbn [andb]; [|reflexivity].
      replace (Z.of_nat (length l) =? N - 1) with false by lia. cbn [negb].
      destruct (y_todo y) as [|w t] eqn:Et; [exfalso; apply Hin; auto|reflexivity].
  Qed.

  Lemma sys_step_inv words y l g : SInv aw words y l ->
    SInv aw words (sys_step aw y g) (next_list y l).
  Proof.
    intros S0. pose proof (step_list_next words y l S0) as En.
    destruct S0 as [I Hv Hin Hw].
    pose proof (step_inv aw Haw true (y_fifo y) l (sys_in aw y) I) as I'. rewrite En in I'.
    assert (Hrd : forall x r, l = x :: r -> y_cons y = CReq ->
              f_rdata (fifo_step true aw (y_fifo y) (sys_in aw y)) = x).
    { intros x r El Ec.
      pose proof (step_rdata aw Haw (y_fifo y) (mkQueue l (f_rdata (y_fifo y))) (sys_in aw y) I eq_refl) as Hr.
      rewrite Hr. unfold queue_step; cbn [q_words]. rewrite El.
      unfold sys_in; cbn [i_deq]. unfold deq_rtl. rewrite Ec, (dready_iff _ l I), El.
      replace (0 <? Z.of_nat (length (x :: r))) with true by (cbn [length]; lia). reflexivity. }
    unfold sys_step.
    rewrite (ready_iff _ l I), (dready_iff _ l I).
    destruct (y_cons y) eqn:Ec; cbn [app] in Hw.
    - (* CIdle *)
      destruct (y_in_enq y) eqn:Ei.
      + destruct (y_todo y) as [|w t] eqn:Et; [exfalso; apply Hin; auto|].
        destruct (Z.of_nat (length l) <? N - 2) eqn:El.
        * constructor; cbn [y_fifo y_valid y_cons y_in_enq y_todo y_got].
          -- exact I'.
          -- unfold sys_in; cbn [i_deq]; unfold deq_rtl; rewrite Ec. destruct (g_cons g); reflexivity.
          -- discriminate.
          -- unfold next_list; rewrite Ec, Ei, Et, El. rewrite Hw.
             destruct (g_cons g); cbn [andb app firstn tl]; rewrite <- app_assoc; reflexivity.
        * constructor; cbn [y_fifo y_valid y_cons y_in_enq y_todo y_got].
          -- exact I'.
          -- unfold sys_in; cbn [i_deq]; unfold deq_rtl; rewrite Ec. destruct (g_cons g); reflexivity.
          -- discriminate.
          -- unfold next_list; rewrite Ec, Ei, Et, El. rewrite Hw.
             destruct (g_cons g); cbn [andb app firstn tl]; rewrite ?app_nil_r; reflexivity.
      + constructor; cbn [y_fifo y_valid y_cons y_in_enq y_todo y_got].
        * exact I'.
        * unfold sys_in; cbn [i_deq]; unfold deq_rtl; rewrite Ec. destruct (g_cons g); reflexivity.
        * destruct (y_todo y); [rewrite andb_false_r; discriminate|discriminate].
        * unfold next_list; rewrite Ec, Ei. rewrite Hw.
          destruct (g_cons g); cbn [andb app firstn tl]; rewrite ?app_nil_r; reflexivity.
    - (* CReq *)
      assert (Hcons : (if 0 <? Z.of_nat (length l) then CCapture else CReq) =
                      match l with [] => CReq | _ => CCapture end)
        by (destruct l as [|x r]; [reflexivity|];
            replace (0 <? Z.of_nat (length (x :: r))) with true by (cbn [length]; lia); reflexivity).
      rewrite Hcons.
      assert (Hval : i_deq (sys_in aw y) = match l with [] => false | _ => true end).
      { unfold sys_in; cbn [i_deq]; unfold deq_rtl; rewrite Ec, (dready_iff _ l I); cbn [andb].
        destruct l as [|x r]; [reflexivity|]. cbn [length]; lia. }
      assert (Hsplit : match match l with [] => CReq | _ => CCapture end with
                       | CCapture => [f_rdata (fifo_step true aw (y_fifo y) (sys_in aw y))]
                       | _ => [] end ++ tl l = l).
      { destruct l as [|x r]; [reflexivity|]. rewrite (Hrd x r) by auto. reflexivity. }
      destruct (y_in_enq y) eqn:Ei.
      + destruct (y_todo y) as [|w t] eqn:Et; [exfalso; apply Hin; auto|].
        destruct (Z.of_nat (length l) <? N - 2) eqn:El.
        * constructor; cbn [y_fifo y_valid y_cons y_in_enq y_todo y_got].
          -- exact I'.
          -- rewrite Hval; destruct l; reflexivity.
          -- discriminate.
          -- unfold next_list; rewrite Ec, Ei, Et, El. rewrite Hw; cbn [andb firstn tl].
             rewrite <- Hsplit at 1. rewrite <- !app_assoc. reflexivity.
        * constructor; cbn [y_fifo y_valid y_cons y_in_enq y_todo y_got].
          -- exact I'.
          -- rewrite Hval; destruct l; reflexivity.
          -- discriminate.
          -- unfold next_list; rewrite Ec, Ei, Et, El. rewrite Hw; cbn [andb firstn tl].
             rewrite <- Hsplit at 1. rewrite <- !app_assoc. rewrite ?app_nil_r. reflexivity.
      + constructor; cbn [y_fifo y_valid y_cons y_in_enq y_todo y_got].
        * exact I'.
        * rewrite Hval; destruct l; reflexivity.
        * destruct (y_todo y); [rewrite andb_false_r; discriminate|discriminate].
        * unfold next_list; rewrite Ec, Ei. rewrite Hw; cbn [andb firstn tl].
          rewrite <- Hsplit at 1. rewrite <- !app_assoc. reflexivity.
    - (* CCapture *)
      rewrite Hv. cbn [p_rdata].
      destruct (y_in_enq y) eqn:Ei.
      + destruct (y_todo y) as [|w t] eqn:Et; [exfalso; apply Hin; auto|].
        destruct (Z.of_nat (length l) <? N - 2) eqn:El.
        * constructor; cbn [y_fifo y_valid y_cons y_in_enq y_todo y_got].
          -- exact I'.
          -- unfold sys_in; cbn [i_deq]; unfold deq_rtl; rewrite Ec; reflexivity.
          -- discriminate.
          -- unfold next_list; rewrite Ec, Ei, Et, El. rewrite Hw; cbn [andb firstn tl app].
             rewrite <- !app_assoc. reflexivity.
        * constructor; cbn [y_fifo y_valid y_cons y_in_enq y_todo y_got].
          -- exact I'.
          -- unfold sys_in; cbn [i_deq]; unfold deq_rtl; rewrite Ec; reflexivity.
          -- discriminate.
          -- unfold next_list; rewrite Ec, Ei, Et, El. rewrite Hw; cbn [andb firstn tl app].
             rewrite <- !app_assoc. rewrite ?app_nil_r. reflexivity.
      + constructor; cbn [y_fifo y_valid y_cons y_in_enq y_todo y_got].
        * exact I'.
        * unfold sys_in; cbn [i_deq]; unfold deq_rtl; rewrite Ec; reflexivity.
        * destruct (y_todo y); [rewrite andb_false_r; discriminate|discriminate].
        * unfold next_list; rewrite Ec, Ei. rewrite Hw; cbn [andb firstn tl app].
          rewrite <- !app_assoc. reflexivity.
  Qed.

  Lemma sys_init_inv m0 words : SInv aw words (sys_init m0 words) [].
  Proof. constructor; cbn; try reflexivity; try discriminate. apply init_inv; exact Haw. Qed.

  Lemma sys_run_inv words gs : forall y l, SInv aw words y l ->
    exists l', SInv aw words (final (sys_step aw) y gs) l'.
  Proof.
    induction gs as [|g gs IH]; intros y l H; cbn [final fold_left]; [exists l; exact H|].
    apply (IH _ _ (sys_step_inv words y l g H)).
  Qed.

  Lemma sys_prefix m0 words gs :
    exists rest, words = y_got (final (sys_step aw) (sys_init m0 words) gs) ++ rest.
  Proof.
    destruct (sys_run_inv words gs _ _ (sys_init_inv m0 words)) as [l' H].
    eexists; apply (si_words _ _ _ _ H).
  Qed.

  (** ** Progress *)
  Definition cstage (c : cons_state) : Z := match c with CIdle => 0 | CReq => 1 | CCapture => 2 end.
  Definition mu (y : sys) (l : list Z) : Z :=
    2 * Z.of_nat (length (y_todo y)) - b2z (y_in_enq y)
    + 3 * (Z.of_nat (length (y_todo y)) + Z.of_nat (length l)
           + match y_cons y with CCapture => 1 | _ => 0 end) - cstage (y_cons y).

  Definition go := mkSched true true.

  Lemma mu_nonneg words y l : SInv aw words y l -> y_got y <> words -> 0 < mu y l.
  Proof.
    intros [I Hv Hin Hw] Hne. unfold mu.
    destruct (y_in_enq y) eqn:Ei; cbn [b2z].
    - assert (y_todo y <> []) by auto. destruct (y_todo y); [contradiction|].
      destruct (y_cons y); cbn [cstage length]; lia.
    - destruct (y_cons y) eqn:Ec; cbn [cstage].
      + destruct (y_todo y), l; cbn [length]; try lia.
        exfalso; apply Hne; rewrite Hw; cbn; rewrite app_nil_r; reflexivity.
      + destruct (y_todo y), l; cbn [length]; try lia.
        exfalso; apply Hne; rewrite Hw; cbn; rewrite app_nil_r; reflexivity.
      + lia.
  Qed.

  Lemma mu_dec words y l : 2 <= aw -> SInv aw words y l -> y_got y <> words ->
    mu (sys_step aw y go) (next_list y l) < mu y l.
  Proof.
    intros H2 [I Hv Hin Hw] Hne.
    assert (HN4 : 4 <= N) by (unfold N; change 4 with (2 ^ 2); apply Z.pow_le_mono_r; lia).
    unfold mu, sys_step, next_list.
    rewrite (ready_iff _ l I), (dready_iff _ l I). cbn [go g_prod g_cons].
    destruct (y_in_enq y) eqn:Ei; cbn [andb].
    - destruct (y_todo y) as [|w t] eqn:Et; [exfalso; apply Hin; auto|].
      destruct (Z.of_nat (length l) <? N - 2) eqn:El; cbn [firstn tl];
      destruct (y_cons y) eqn:Ec; rewrite ?Hv;
      try (destruct l as [|x r]; [cbn [length] in El; try lia|];
           try replace (0 <? Z.of_nat (length (x :: r))) with true by (cbn [length]; lia));
      cbn [y_todo y_in_enq y_cons b2z cstage tl length app andb];
      rewrite ?app_length; cbn [length];
      change (0 <? Z.of_nat 0) with false; cbn [cstage]; lia.
    - destruct (y_todo y) as [|w t] eqn:Et;
      destruct (y_cons y) eqn:Ec; rewrite ?Hv;
      try (destruct l as [|x r];
           [try (exfalso; apply Hne; rewrite Hw; cbn; rewrite app_nil_r; reflexivity)|];
           try replace (0 <? Z.of_nat (length (x :: r))) with true by (cbn [length]; lia));
      cbn [y_todo y_in_enq y_cons b2z cstage tl length app andb negb];
      rewrite ?app_length; cbn [length];
      change (0 <? Z.of_nat 0) with false; cbn [cstage]; lia.
  Qed.

  Lemma done_stable words y l g : SInv aw words y l -> y_got y = words ->
    y_got (sys_step aw y g) = words.
  Proof.
    intros H Hd. pose proof (sys_step_inv words y l g H) as H'.
    destruct H as [I Hv Hin Hw]. destruct H' as [_ _ _ Hw'].
    assert (Hc : y_cons y <> CCapture).
    { intros Hc; rewrite Hc in Hw. rewrite <- Hd in Hw at 1.
      apply (f_equal (@length Z)) in Hw. rewrite !app_length in Hw. cbn [length] in Hw. lia. }
    unfold sys_step.
    destruct (y_in_enq y); [destruct (enq_ready aw (y_fifo y))|];
    destruct (y_cons y); try contradiction; cbn [y_got]; assumption.
  Qed.

  Lemma progress_gen words n : 2 <= aw -> forall y l, SInv aw words y l ->
    (y_got y <> words -> mu y l <= Z.of_nat n) ->
    y_got (final (sys_step aw) y (repeat go n)) = words.
  Proof.
    intros H2; induction n as [|n IH]; intros y l H Hmu; cbn [repeat final fold_left].
    - destruct (list_eq_dec Z.eq_dec (y_got y) words) as [E|E]; [exact E|].
      pose proof (mu_nonneg words y l H E). specialize (Hmu E). lia.
    - apply (IH _ _ (sys_step_inv words y l go H)). intros Hne.
      destruct (list_eq_dec Z.eq_dec (y_got y) words) as [E|E].
      + exfalso; apply Hne; apply (done_stable words y l go H E).
      + pose proof (mu_dec words y l H2 H E). specialize (Hmu E). lia.
  Qed.

  Lemma progress m0 words n : 2 <= aw -> (5 * length words <= n)%nat ->
    y_got (final (sys_step aw) (sys_init m0 words) (repeat go n)) = words.
  Proof.
    intros H2 Hn. apply (progress_gen words n H2 _ _ (sys_init_inv m0 words)).
    intros _. unfold mu; cbn [sys_init y_todo y_in_enq y_cons b2z cstage length]. lia.
  Qed.
End S.

(** addrwidth = 1: the producer is never served. *)
Lemma aw1_stuck m0 words gs :
  y_got (final (sys_step 1) (sys_init m0 words) gs) = [].
Proof.
  assert (G : forall gs y, f_head (y_fifo y) = f_tail (y_fifo y) -> (f_tail (y_fifo y) = 0) ->
               y_cons y <> CCapture -> y_got y = [] ->
               y_got (final (sys_step 1) y gs) = []).
  { induction gs0 as [|g gs0 IH]; intros y Hh Ht Hc Hg; cbn [final fold_left]; [exact Hg|].
    assert (He : f_is_empty (y_fifo y) = true) by (unfold f_is_empty; lia).
    assert (Hr : enq_ready 1 (y_fifo y) = false).
    { unfold enq_ready, p_almost_full, f_is_almost_full. rewrite Hh, Ht. reflexivity. }
    assert (Hd : deq_ready (y_fifo y) = false) by (unfold deq_ready, p_empty; rewrite He; reflexivity).
    assert (Hf : fifo_step true 1 (y_fifo y) (sys_in 1 y) = y_fifo y).
    { unfold fifo_step, fifo_deq_stmt, fifo_enq_stmt, sys_in; cbn [i_enq i_deq].
      unfold enq_rtl, deq_rtl. rewrite Hr, Hd, !andb_false_r. reflexivity. }
    apply IH; unfold sys_step; rewrite Hf, Hr, Hd;
      destruct (y_in_enq y), (y_cons y); cbn [y_fifo y_cons y_got]; try assumption; try congruence;
      destruct (g_cons g); discriminate. }
  apply G; cbn; auto; discriminate.
Qed.

(** has_space is exact for a run of [num] back-to-back enqueues without dequeues. *)
Definition enq_only (w : Z) : fifo_in := mkFifoIn true w false.

Lemma has_space_exact aw m0 ins num :
  1 <= aw -> (1 <= num)%nat ->
  has_space aw (final (tfifo_step true aw) (tfifo_init m0) ins) (Z.of_nat num) = true <->
  (forall k ws, (k < num)%nat -> length ws = k ->
     enq_ready aw (t_fifo (final (tfifo_step true aw)
        (final (tfifo_step true aw) (tfifo_init m0) ins) (map enq_only ws))) = true).
Proof.
  intros Haw Hnum.
  destruct (tfifo_inv aw Haw true ins (tfifo_init m0) [] (init_inv aw Haw m0) eq_refl) as [I Hc].
  set (s := final (tfifo_step true aw) (tfifo_init m0) ins) in *.
  set (l := fold_left (step_list aw) ins []) in *.
  assert (Hrun : forall ws, Z.of_nat (length l + length ws) < 2 ^ aw ->
            Inv (2 ^ aw) (t_fifo (final (tfifo_step true aw) s (map enq_only ws)))
                (fold_left (step_list aw) (map enq_only ws) l) /\
            length (fold_left (step_list aw) (map enq_only ws) l) = (length l + length ws)%nat).
  { clear Hc. clearbody s l. intros ws. revert s l I.
    induction ws as [|w ws IH]; intros s l I Hlen; cbn [map fold_left final length].
    - split; [exact I|lia].
    - cbn [length] in Hlen.
      assert (El : step_list aw l (enq_only w) = l ++ [w]).
      { destruct (step_list_shape aw Haw l (enq_only w)) as [E|E]; [|lia]. rewrite E.
        cbn [enq_only i_enq i_deq i_wdata andb].
        replace (Z.of_nat (length l) =? 2 ^ aw - 1) with false by lia. reflexivity. }
      pose proof (step_inv aw Haw true (t_fifo s) l (enq_only w) I) as I'.
      unfold final in IH.
      destruct (IH (tfifo_step true aw s (enq_only w)) (step_list aw l (enq_only w)) I') as [A B].
      + rewrite El, app_length; cbn [length]; lia.
      + split; [exact A|]. rewrite B, El, app_length; cbn [length]; lia. }
  unfold has_space. replace (Z.of_nat num <? 1) with false by lia. rewrite Hc. unfold t_max_size.
  pose proof (inv_len _ _ _ I) as Hl.
  split.
  - intros Hs k ws Hk Hws. destruct (Hrun ws) as [A B]; [lia|].
    rewrite (ready_iff aw Haw _ _ A), B. lia.
  - intros Hall.
    (* use the largest k that keeps the occupancy below 2^aw *)
    set (k := Nat.min (num - 1) (Z.to_nat (2 ^ aw - 1) - length l)).
    specialize (Hall k (repeat 0 k)).
    destruct (Hrun (repeat 0 k)) as [A B]; [rewrite repeat_length; lia|].
    rewrite (ready_iff aw Haw _ _ A), B, repeat_length in Hall.
    specialize (Hall ltac:(lia) eq_refl). lia.
Qed.
