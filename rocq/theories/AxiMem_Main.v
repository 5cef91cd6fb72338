(** Proofs about the AXI memory model: whole runs, and the defects found. *)
From Verif Require Import Base Fifo_Model Fifo_Spec Fifo_Proofs AxiMem_Model AxiMem_Spec AxiMem_Proofs AxiMem_Live.
Open Scope Z_scope.

Section M.
  Variable p : mp.
  Hypothesis G : good_mp p.
  Variables m0 m1 m2 m3 : Z -> Z.
  Variable B : list wburst.
  Hypothesis LB : Forall (legal_burst p) B.
  Let s0 := am_init m1 m2 m3 m0.

  Lemma firstn_mid {X} (a b : list X) : firstn (length a) (a ++ b) = a.
  Proof. rewrite firstn_app, firstn_all, Nat.sub_diag. cbn [firstn]. apply app_nil_r. Qed.
  Lemma nth_mid {X} (a : list X) x b : nth_error (a ++ x :: b) (length a) = Some x.
  Proof. rewrite nth_error_app2, Nat.sub_diag by lia. reflexivity. Qed.

  Lemma writes_land ins i : aw_held p s0 ins ->
    prefix (seen p aw_taken s0 ins) (headers B) -> prefix (seen p (w_taken p) s0 ins) (beats B) ->
    exists n k,
      same_mem (a_mem (am_run p s0 ins)) (put_part (nbytes p) B n k m0) /\
      seen p b_shown s0 ins ++ b_shown (am_run p s0 ins) i = map b_id (firstn n B) /\
      (n <= length B)%nat /\
      (n + Nat.min 1 k <= length (seen p aw_taken s0 ins))%nat /\
      (length (beats (firstn n B)) + k <= length (seen p (w_taken p) s0 ins))%nat /\
      (k = 0%nat \/ exists b, nth_error B n = Some b /\ (k < length (b_beats b))%nat).
  Proof using G LB.
    intros H PA PW. destruct (wrun_ok p G m0 B LB m1 m2 m3 ins H PA PW) as [[_ _ (D & rest & A & Wl & _ & _ & PH)] _].
    fold s0 in PH.
    destruct PH as [P1 P2 P3 P4 P5 P6 | b pre post P1 P2 P3 P4 P5 P6 P7 P8 P9 P10 P11 P12].
    - exists (length D), 0%nat.
      assert (F : firstn (length D) B = D) by (rewrite P2; apply firstn_mid).
      rewrite F. split; [|split; [|split; [|split; [|split]]]].
      + unfold put_part. rewrite F. destruct (nth_error B (length D)); exact P5.
      + exact P6.
      + rewrite P2, app_length. lia.
      + rewrite P3, app_length. unfold headers. rewrite map_length. cbn. lia.
      + rewrite P4, app_length. lia.
      + auto.
    - exists (length D), (length pre).
      assert (F : firstn (length D) B = D) by (rewrite P2; apply firstn_mid).
      assert (N : nth_error B (length D) = Some b) by (rewrite P2; apply nth_mid).
      rewrite F. split; [|split; [|split; [|split; [|split]]]].
      + unfold put_part. rewrite F, N, P3, firstn_mid. exact P7.
      + unfold b_shown at 2. rewrite P9, app_nil_r. exact P8.
      + rewrite P2, app_length. lia.
      + rewrite P5, app_length. unfold headers. rewrite map_length, app_length. cbn [length]. lia.
      + rewrite P6, !app_length, map_length. lia.
      + right. exists b. split; [exact N|]. rewrite P3, app_length. destruct post; [contradiction|]. cbn [length]. lia.
  Qed.

  (** once all responses have been shown, the memory holds all bursts *)
  Lemma writes_done ins : aw_held p s0 ins ->
    prefix (seen p aw_taken s0 ins) (headers B) -> prefix (seen p (w_taken p) s0 ins) (beats B) ->
    (length B <= length (seen p b_shown s0 ins))%nat ->
    same_mem (a_mem (am_run p s0 ins)) (put_bursts (nbytes p) B m0).
  Proof using G LB.
    intros H PA PW L. destruct (writes_land ins (mkIn None None false None false) H PA PW) as (n & k & E1 & E2 & E3 & _ & _ & E6).
    apply (f_equal (@length _)) in E2. rewrite app_length, map_length, firstn_length in E2.
    assert (n = length B) as -> by lia.
    assert (N : nth_error B (length B) = None) by (apply nth_error_None; lia).
    unfold put_part in E1. rewrite N, firstn_all in E1. exact E1.
  Qed.

  Lemma reads_answered ins1 ins2 : let s1 := am_run p s0 ins1 in
    ar_held p s0 (ins1 ++ ins2) ->
    Forall (legal_req p (p_arid p)) (seen p ar_taken s0 ins1) ->
    length (seen p r_taken s0 ins1) = length (asked (nbytes p) (seen p ar_taken s0 ins1)) ->
    Forall (legal_req p (p_arid p)) (seen p ar_taken s1 ins2) ->
    let taken := seen p r_taken s1 ins2 in
    Forall2 (answered (nbytes p) (mems p s1 ins2)) (firstn (length taken) (asked (nbytes p) (seen p ar_taken s1 ins2))) taken.
  Proof using G.
    intros s1 H L1 E1 L2 taken.
    assert (R1 : RInv p [] s1 [] []).
    { apply (r_fresh p (mems p s0 ins1) s1 (seen p ar_taken s0 ins1) (seen p r_taken s0 ins1)); auto.
      apply (rrun_ok p G m1 m2 m3 m0 [] ins1); [exact (ar_held_app p _ _ _ H)|apply r_init_ok; exact G|exact L1]. }
    pose proof (rrun_ok p G m1 m2 m3 m0 ins1 ins2 H R1 L2) as R. fold s0 in R. fold s1 in R.
    destruct R as [_ _ _ _ (D & A & _ & PH)]. fold taken in PH.
    destruct PH as [P1 P2 P3 P4 | a l id k P1 P2 P3 P4 P5 P6 P7 P8 P9 P10].
    - pose proof (Forall2_len _ _ _ P4) as E. rewrite P3, asked_app, <- E, firstn_mid. exact P4.
    - rewrite P3, asked_app. change (asked (nbytes p) ((a, l, id) :: A)) with (asked1 (nbytes p) (a, l, id) ++ asked (nbytes p) A).
      apply Forall2_app_inv_r in P10. destruct P10 as (q1 & q2 & F1 & F2 & E).
      pose proof (Forall2_len _ _ _ F1) as EL.
      assert (X : exists r, asked (nbytes p) D ++ asked1 (nbytes p) (a, l, id) ++ asked (nbytes p) A = q1 ++ r).
      { exists (q2 ++ skipn k (asked1 (nbytes p) (a, l, id)) ++ asked (nbytes p) A).
        rewrite (app_assoc q1), <- E, <- app_assoc. f_equal. rewrite app_assoc, firstn_skipn. reflexivity. }
      destruct X as [r ->]. rewrite <- EL, firstn_mid. exact F1.
  Qed.

  Lemma mems_in ms ins s : In ms (mems p s ins) -> exists a b, ins = a ++ b /\ ms = a_mem (am_run p s a).
  Proof.
    revert s. induction ins as [|i ins IH]; intros s; cbn; [tauto|]. intros [E|E].
    - exists [], (i :: ins). split; [reflexivity|]. symmetry. exact E.
    - destruct (IH _ E) as (a & b & -> & E2). exists (i :: a), b. split; [reflexivity|exact E2].
  Qed.
  Lemma answered_map m qs : forall ms ys, (forall m', In m' ms -> same_mem m' m) ->
    Forall2 (answered (nbytes p) ms) qs ys -> ys = map (answer (nbytes p) m) qs.
  Proof.
    induction qs as [|q qs IH]; intros ms ys HM F; inversion F as [|x y xs ys' (m' & I1 & E) F2]; subst; [reflexivity|].
    cbn [map]. f_equal; [|apply (IH ms); auto].
    destruct q as [[a l] id]. cbn [answer]. rewrite (word_same _ _ _ (HM m' I1)). reflexivity.
  Qed.

  Lemma write_then_read ins1 ins2 : let s1 := am_run p s0 ins1 in let ins := ins1 ++ ins2 in
    aw_held p s0 ins -> ar_held p s0 ins ->
    prefix (seen p aw_taken s0 ins) (headers B) -> prefix (seen p (w_taken p) s0 ins) (beats B) ->
    seen p b_shown s0 ins1 = map b_id B ->
    Forall (legal_req p (p_arid p)) (seen p ar_taken s0 ins) ->
    length (seen p r_taken s0 ins1) = length (asked (nbytes p) (seen p ar_taken s0 ins1)) ->
    seen p r_taken s1 ins2 =
      map (answer (nbytes p) (put_bursts (nbytes p) B m0))
          (firstn (length (seen p r_taken s1 ins2)) (asked (nbytes p) (seen p ar_taken s1 ins2))).
  Proof using G LB.
    intros s1 ins HA HR PA PW SB LQ E1. unfold ins in LQ. rewrite seen_app in LQ. apply Forall_app in LQ. destruct LQ as [L1 L2].
    fold s1 in L2. apply (answered_map _ _ (mems p s1 ins2)).
    - intros m' I1. destruct (mems_in _ _ _ I1) as (a & b & -> & ->). unfold s1. rewrite <- run_app.
      unfold ins in *. rewrite (app_assoc ins1) in HA, PA, PW.
      apply writes_done.
      + exact (aw_held_app p _ _ _ HA).
      + rewrite seen_app in PA. exact (prefix_app _ _ _ PA).
      + rewrite seen_app in PW. exact (prefix_app _ _ _ PW).
      + rewrite seen_app, SB, app_length, map_length. lia.
    - apply reads_answered; auto.
  Qed.

  Hypothesis WK : wakes p.
  Lemma eager_ready n : forall s t, seen p b_taken s (eager p n s t) = seen p b_shown s (eager p n s t).
  Proof.
    induction n as [|n IH]; intros s t; [reflexivity|]. cbn [eager].
    change (seen p b_taken s (offer t :: eager p n (am_step p s (offer t)) (t_next p s t)))
      with (b_taken s (offer t) ++ seen p b_taken (am_step p s (offer t)) (eager p n (am_step p s (offer t)) (t_next p s t))).
    rewrite IH. unfold b_taken at 1. cbn [offer i_bready]. rewrite andb_true_r. reflexivity.
  Qed.

  Lemma everything_served Q n : Forall (legal_req p (p_arid p)) Q -> w_time p B <= Z.of_nat n -> r_time p Q <= Z.of_nat n ->
    let ins := eager p n s0 (mkMaster (headers B) (beats B) Q) in
    same_mem (a_mem (am_run p s0 ins)) (put_bursts (nbytes p) B m0) /\
    seen p aw_taken s0 ins = headers B /\ seen p (w_taken p) s0 ins = beats B /\
    seen p b_taken s0 ins = map b_id B /\
    Forall2 (answered (nbytes p) (mems p s0 ins)) (asked (nbytes p) Q) (seen p r_taken s0 ins).
  Proof using G LB WK.
    intros LQ T1 T2 ins. destruct (w_served p G m0 B LB WK m1 m2 m3 Q n T1) as (E1 & E2 & E3 & E4).
    split; [exact E1|]. split; [exact E3|]. split; [exact E4|]. split.
    - unfold ins. rewrite eager_ready. exact E2.
    - exact (r_served p G Q LQ WK m1 m2 m3 m0 (headers B) (beats B) n T2).
  Qed.
End M.

(** ** A sleep interval of one cycle *)
Lemma never_awake p ins : p_sleep p = 1 -> forall s, l_count (a_s s) = 0 -> r_valid (a_r s) = false -> w_bvalid (a_w s) = false ->
  a_mem (am_run p s ins) = a_mem s /\ seen p b_shown s ins = [] /\ seen p r_taken s ins = [].
Proof.
  intros P1. induction ins as [|i ins IH]; intros s C V W; [auto|].
  assert (N1 : awake_w p (a_s s) = false) by (unfold awake_w; rewrite P1, C; reflexivity).
  assert (N2 : awake_r p (a_s s) = false) by (unfold awake_r; rewrite P1, C; reflexivity).
  assert (TK : w_take p (a_w s) false = false) by (unfold w_take; rewrite andb_false_r; reflexivity).
  destruct (IH (am_step p s i)) as (E1 & E2 & E3).
  - cbn [am_step a_s]. unfold sleep_step. rewrite P1, C. cbn.
    destruct ((if 0 <? p_keep p then l_keep (a_s s) =? p_keep p - 1 else true) && true); reflexivity.
  - cbn [am_step a_r r_step r_valid]. rewrite N2, V.
    assert (NG : r_go p (a_r s) i false = false) by (unfold r_go; rewrite andb_false_r; reflexivity).
    rewrite NG. cbn [andb]. rewrite andb_false_r.
    destruct ((r_d1 (a_r s) =? rd_last p) && r_cond (a_r s)); reflexivity.
  - cbn [am_step a_w w_step w_bvalid]. rewrite N1, TK, W. cbn [andb]. destruct (w_dfsm (a_w s) =? 0); reflexivity.
  - split; [|split].
    + change (am_run p s (i :: ins)) with (am_run p (am_step p s i) ins). rewrite E1.
      cbn [am_step a_mem]. unfold w_mem. rewrite N1, TK. reflexivity.
    + change (seen p b_shown s (i :: ins)) with (b_shown s i ++ seen p b_shown (am_step p s i) ins).
      rewrite E2. unfold b_shown. rewrite W. reflexivity.
    + change (seen p r_taken s (i :: ins)) with (r_taken s i ++ seen p r_taken (am_step p s i) ins).
      rewrite E3. unfold r_taken. rewrite V. reflexivity.
Qed.
