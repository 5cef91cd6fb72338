(** Proofs about the AXI memory model: everything asked is done. *)
From Verif Require Import Base Fifo_Model Fifo_Spec Fifo_Proofs AxiMem_Model AxiMem_Spec AxiMem_Proofs.
Open Scope Z_scope.

(** ** Occupancy of a FIFO *)
Definition occ (a : Z) (f : fifo) : Z := (f_head f - f_tail f) mod 2 ^ a.
Lemma occ_len a f l : 1 <= a -> Inv (2 ^ a) f l -> occ a f = Z.of_nat (length l).
Proof.
  intros A I. destruct I as [T L H _]. unfold occ. rewrite H. unfold wrap.
  destruct (f_tail f + Z.of_nat (length l) <? 2 ^ a).
  - replace (f_tail f + Z.of_nat (length l) - f_tail f) with (Z.of_nat (length l)) by lia. apply Z.mod_small; lia.
  - replace (f_tail f + Z.of_nat (length l) - 2 ^ a - f_tail f) with (Z.of_nat (length l) + (-1) * 2 ^ a) by lia.
    rewrite Z.mod_add by lia. apply Z.mod_small; lia.
Qed.

(** ** Sleeping *)
Definition zz (p : mp) (s : slp) : Z :=
  if awake_w p s then 0 else if 0 <? p_keep p then p_keep p - l_keep s else 1.
Definition SInv (p : mp) (s : slp) : Prop :=
  p_sleep p <= 0 \/
  (0 <= l_count s <= p_sleep p - 1 /\ (0 < p_keep p -> 0 <= l_keep s < p_keep p)).

Section S.
  Variable p : mp.
  Hypothesis AW : 0 <= p_aw p.
  Hypothesis WK : wakes p.

  Lemma s_init_ok : SInv p (mkSlp 0 0).
  Proof using WK. destruct WK as [H|H]; [left; exact H|]. right. cbn. lia. Qed.
  Lemma awake_same s : SInv p s -> awake_r p s = awake_w p s.
  Proof using.
    clear. intros [H|[H _]]; unfold awake_r, awake_w; destruct (0 <? p_sleep p) eqn:E; try reflexivity; lia.
  Qed.
  Lemma zz_range s : SInv p s -> 0 <= zz p s <= nap p.
  Proof using.
    clear. intros H. unfold zz, nap. destruct (awake_w p s) eqn:E; [lia|].
    destruct (0 <? p_keep p) eqn:K; [|lia]. destruct H as [H|[_ H]]; [|specialize (H ltac:(lia)); lia].
    assert (X : awake_w p s = true) by (unfold awake_w; replace (0 <? p_sleep p) with false by lia; reflexivity).
    congruence.
  Qed.
  Lemma s_step_ok s : SInv p s -> SInv p (sleep_step p s) /\
    (awake_w p s = false -> zz p (sleep_step p s) = zz p s - 1).
  Proof using AW WK.
    intros H. pose proof (p2 (p_aw p + 1) ltac:(lia)) as P.
    destruct WK as [W|[W1 W2]].
    - split; [left; exact W|]. unfold awake_w. replace (0 <? p_sleep p) with false by lia. discriminate.
    - destruct H as [H|[H1 H2]]; [lia|].
      unfold SInv, zz, awake_w, sleep_step. replace (0 <? p_sleep p) with true by lia. cbv zeta.
      destruct (l_count s =? p_sleep p - 1) eqn:E1.
      + destruct (0 <? p_keep p) eqn:E2.
        * specialize (H2 ltac:(lia)). destruct (l_keep s =? p_keep p - 1) eqn:E3; cbn [andb negb l_count l_keep].
          -- replace (0 =? p_sleep p - 1) with false by lia. cbn [negb]. split; [right; lia|intros _; lia].
          -- replace (l_count s <? p_sleep p - 1) with false by lia. rewrite E1. cbn [negb].
             rewrite Z.mod_small by lia. split; [right; lia|intros _; lia].
        * cbn [andb negb l_count l_keep]. replace (0 =? p_sleep p - 1) with false by lia. cbn [negb].
          split; [right; lia|intros _; lia].
      + rewrite andb_false_r. cbn [andb negb l_count l_keep].
        replace (l_count s <? p_sleep p - 1) with true by lia. rewrite Z.mod_small by lia.
        split; [right|discriminate]. split; [lia|].
        intros K. replace (0 <? p_keep p) with true by lia. apply H2; lia.
  Qed.
End S.

Lemma after_taken {A} (l : list A) (r : bool) (tk : list A) :
  tk = match hd_error l with Some x => if r then [x] else [] | None => [] end ->
  tk ++ after l tk = l /\ length (after l tk) = (length l - length tk)%nat /\
  (length tk = if r then Nat.min 1 (length l) else 0)%nat.
Proof.
  intros ->. unfold after. destruct l as [|x l]; cbn [hd_error]; [auto|].
  - destruct r; auto.
  - destruct r; cbn [length skipn app]; split; auto; split; lia.
Qed.

(** ** Write side *)
Definition a_left (p : mp) (s : wside) (t : master) : Z :=
  zlen (t_aw t) * (wa_last p + 3) +
  match t_aw t with [] => 0 | _ => wa_last p - w_afsm s + 1 - b2z (w_awready s) end.
Definition mu_w (p : mp) (s : axim) (t : master) : Z :=
  2 * (occ (p_da p) (w_df (a_w s)) + zlen (t_w t)) + zlen (t_w t) + a_left p (a_w s) t + (1 - w_dfsm (a_w s)).

Record JW (p : mp) (m0 : Z -> Z) (B : list wburst) (s : axim) (t : master) aws ws shown : Prop := {
  jw_inv : WInv p m0 B s aws ws shown;
  jw_aw : aws ++ t_aw t = headers B;
  jw_w : ws ++ t_w t = beats B;
  jw_held : w_afsm (a_w s) <> 0 -> t_aw t <> []
}.

Section LW.
  Variable p : mp.
  Hypothesis G : good_mp p.
  Variable m0 : Z -> Z.
  Variable B : list wburst.
  Hypothesis LB : Forall (legal_burst p) B.

  Lemma aw_off s t : aw_taken s (offer t) =
    match hd_error (t_aw t) with Some x => if w_awready (a_w s) then [x] else [] | None => [] end.
  Proof. reflexivity. Qed.
  Lemma w_off s t : w_taken p s (offer t) =
    match hd_error (t_w t) with Some x => if wready p (a_w s) then [x] else [] | None => [] end.
  Proof. reflexivity. Qed.
  Lemma ar_off s t : ar_taken s (offer t) =
    match hd_error (t_ar t) with Some x => if r_arready (a_r s) then [x] else [] | None => [] end.
  Proof. reflexivity. Qed.

  Lemma some_hd {A} (l : list A) : some (hd_error l) = match l with [] => false | _ => true end.
  Proof. destruct l; reflexivity. Qed.

  Lemma jw_step s t aws ws shown : JW p m0 B s t aws ws shown ->
    JW p m0 B (am_step p s (offer t)) (t_next p s t)
      (aws ++ aw_taken s (offer t)) (ws ++ w_taken p s (offer t)) (shown ++ b_shown s (offer t)).
  Proof using G LB.
    intros [I1 I2 I3 I4].
    destruct (after_taken _ _ _ (aw_off s t)) as (A1 & _).
    destruct (after_taken _ _ _ (w_off s t)) as (A2 & _).
    assert (Hh : w_afsm (a_w s) <> 0 -> some (i_aw (offer t)) = true).
    { intros X. specialize (I4 X). cbn [offer i_aw]. rewrite some_hd. destruct (t_aw t); [contradiction|reflexivity]. }
    constructor.
    - apply wstep_ok; auto.
      + exists (after (t_aw t) (aw_taken s (offer t))). rewrite <- app_assoc, A1. symmetry. exact I2.
      + exists (after (t_w t) (w_taken p s (offer t))). rewrite <- app_assoc, A2. symmetry. exact I3.
    - cbn [t_next t_aw]. rewrite <- app_assoc, A1. exact I2.
    - cbn [t_next t_w]. rewrite <- app_assoc, A2. exact I3.
    - intros X. destruct (aw_wait p s (offer t) (wi_fsm _ _ _ _ _ _ _ I1) (fun R => proj1 (wi_rdy _ _ _ _ _ _ _ I1 R)) Hh X) as [E1 E2].
      cbn [t_next t_aw]. rewrite E2. unfold after. cbn [length skipn]. cbn [offer i_aw] in E1.
      rewrite some_hd in E1. destruct (t_aw t); [discriminate|discriminate].
  Qed.

  (** progress of the address part *)
  Lemma a_step s t : 0 <= w_afsm (a_w s) <= wa_last p ->
    (w_awready (a_w s) = true -> w_afsm (a_w s) = wa_last p /\ p_almost_full (p_qa p) (w_rq (a_w s)) = false) ->
    (w_afsm (a_w s) <> 0 -> t_aw t <> []) ->
    let d := a_left p (a_w s) t - a_left p (a_w (am_step p s (offer t))) (t_next p s t) in
    0 <= d /\ (t_aw t <> [] -> p_almost_full (p_qa p) (w_rq (a_w s)) = false -> 1 <= d).
  Proof.
    intros F R H. pose proof (wa_pos p) as WP.
    assert (C : t_aw t = [] \/ exists x l, t_aw t = x :: l) by (destruct (t_aw t); eauto).
    destruct C as [E|(x & l & E)].
    - unfold a_left. cbn [t_next t_aw]. rewrite aw_off, E. cbn. split; [lia|]. intros X. contradiction.
    - cbv zeta. unfold a_left. cbn [t_next t_aw]. rewrite aw_off, E. cbn [hd_error].
      cbn [am_step a_w w_step w_afsm w_awready]. unfold aw_hs. cbn [offer i_aw]. rewrite E. cbn [hd_error some andb negb].
      unfold after, zlen. destruct (w_awready (a_w s)) eqn:ER.
      + destruct (R eq_refl) as [R1 R2]. rewrite R1 in *. replace (wa_last p =? 0) with false by lia.
        rewrite Z.eqb_refl. cbn [length skipn b2z]. destruct l; cbn [length]; [split; intros; lia|]. split; intros; lia.
      + cbn [length skipn b2z].
        destruct (w_afsm (a_w s) =? 0) eqn:E0; [cbn [b2z]; split; intros; lia|].
        destruct (w_afsm (a_w s) =? wa_last p) eqn:E1; [|cbn [b2z]; split; intros; lia].
        destruct (p_almost_full (p_qa p) (w_rq (a_w s))); cbn [negb b2z]; split; intros; try discriminate; lia.
  Qed.

  (** progress of the data part *)
  Lemma beats_nil X : Forall (legal_burst p) X -> beats X = [] -> X = [].
  Proof.
    intros L E. destruct X as [|b X]; [reflexivity|]. inversion L as [|x y LL _]; subst.
    destruct LL as (_ & L2 & _). change (beats (b :: X)) with (flagged (b_beats b) ++ beats X) in E.
    apply app_eq_nil in E. destruct E as [E _].
    assert (Y : length (flagged (b_beats b)) = 0%nat) by (rewrite E; reflexivity). rewrite flagged_len in Y. lia.
  Qed.

  Lemma mu_step s t aws ws shown : JW p m0 B s t aws ws shown ->
    mu_w p (am_step p s (offer t)) (t_next p s t) <= mu_w p s t /\
    (awake_w p (a_s s) = true -> 1 < mu_w p s t ->
     mu_w p (am_step p s (offer t)) (t_next p s t) < mu_w p s t).
  Proof using G LB.
    intros [I1 I2 I3 I4]. destruct I1 as [F1 F2 (D & rest & A & Wl & IQ & ID & PH)].
    assert (Q1 : 1 <= p_qa p) by (pose proof (g_qa p G); lia).
    assert (Q2 : 2 <= p_qa p) by exact (g_qa p G).
    assert (D1 : 1 <= p_da p) by (pose proof (g_da p G); lia).
    assert (D2 : 2 <= p_da p) by exact (g_da p G).
    destruct (a_step s t F1 F2 I4) as [AS1 AS2]. cbv zeta in AS1, AS2.
    destruct (after_taken _ _ _ (w_off s t)) as (T1 & T2 & T3).
    set (take := w_take p (a_w s) (awake_w p (a_s s))).
    (* occupancy after the step *)
    assert (TE : deq_rtl (w_df (a_w s)) take = take).
    { unfold deq_rtl, deq_ready, take, w_take. destruct (p_empty (w_df (a_w s))); rewrite ?andb_false_r, ?andb_true_r; reflexivity. }
    assert (TW : (if some (i_w (offer t)) && wready p (a_w s) && negb (p_almost_full (p_da p) (w_df (a_w s)))
                  then [match i_w (offer t) with Some (d, st, l) => pack_data p d st l | None => 0 end] else [])
                 = map (dat_word p) (w_taken p s (offer t))).
    { unfold w_taken, wready. destruct (i_w (offer t)) as [[[d st] l]|]; cbn [some andb]; [|reflexivity].
      destruct (p_almost_full (p_da p) (w_df (a_w s))); reflexivity. }
    assert (TN : take = true -> Wl <> []).
    { intros E. unfold take, w_take in E. rewrite (empty_list (p_da p) _ _ D1 ID) in E.
      destruct Wl; [rewrite andb_false_r in E; discriminate|discriminate]. }
    assert (ID' : Inv (2 ^ p_da p) (w_df (a_w (am_step p s (offer t))))
       (map (dat_word p) ((if take then tl Wl else Wl) ++ w_taken p s (offer t)))).
    { cbn [am_step a_w w_step w_df]. unfold wdf_in. fold take. rewrite TE.
      rewrite map_app, <- TW.
      replace (map (dat_word p) (if take then tl Wl else Wl))
        with (if take then tl (map (dat_word p) Wl) else map (dat_word p) Wl)
        by (destruct take; [destruct Wl; reflexivity|reflexivity]).
      apply fstep_list; [exact D1|exact ID|].
      intros E. specialize (TN E). destruct Wl; [contradiction|discriminate]. }
    clear TW TE.
    assert (O1 : occ (p_da p) (w_df (a_w s)) = zlen Wl).
    { rewrite (occ_len _ _ _ D1 ID), map_length. reflexivity. }
    assert (O2 : occ (p_da p) (w_df (a_w (am_step p s (offer t)))) = zlen Wl - b2z take + zlen (w_taken p s (offer t))).
    { rewrite (occ_len _ _ _ D1 ID'), map_length, app_length. unfold zlen. clear - TN.
      destruct take; cbn [b2z]; [destruct Wl; [exfalso; apply TN; reflexivity|cbn [tl length]; lia]|lia]. }
    assert (L2 : zlen (t_w (t_next p s t)) = zlen (t_w t) - zlen (w_taken p s (offer t))).
    { cbn [t_next t_w]. unfold zlen. rewrite T2. clear - T3. destruct (wready p (a_w s)); lia. }
    set (tk := zlen (w_taken p s (offer t))) in *.
    assert (TK : 0 <= tk) by (unfold tk, zlen; clear; lia).
    set (fin := take && ((w_count (a_w s) =? 1) || last_of p (p_rdata false (w_df (a_w s))))).
    set (d := a_left p (a_w s) t - a_left p (a_w (am_step p s (offer t))) (t_next p s t)) in *.
    assert (E1 : mu_w p s t - mu_w p (am_step p s (offer t)) (t_next p s t)
                 = 2 * b2z take + tk + d + (w_dfsm (a_w (am_step p s (offer t))) - w_dfsm (a_w s))).
    { unfold mu_w. fold d. rewrite O1, O2, L2. unfold d. clear. lia. }
    assert (DF : w_dfsm (a_w (am_step p s (offer t))) =
      if w_dfsm (a_w s) =? 0 then (if (w_dfsm (a_w s) =? 0) && negb (p_empty (w_rq (a_w s))) then 1 else 0)
      else if fin then 0 else w_dfsm (a_w s)) by reflexivity.
    assert (WR : w_dfsm (a_w s) = 0 \/ w_dfsm (a_w s) = 1) by (destruct PH; auto).
    assert (FI : fin = true -> take = true) by (unfold fin; destruct take; [reflexivity|discriminate]).
    split.
    - clear - E1 AS1 TK DF WR FI. destruct WR as [E|E]; rewrite E in DF; cbn [Z.eqb andb] in DF; rewrite DF, E in E1.
      + destruct (negb (p_empty (w_rq (a_w s)))); destruct take; cbn [b2z] in E1; lia.
      + destruct fin; [rewrite FI in E1 by reflexivity; cbn [b2z] in E1; lia|]. destruct take; cbn [b2z] in E1; lia.
    - intros AW M1.
      destruct PH as [P1 P2 P3 P4 P5 P6 | b pre post P1 P2 P3 P4 P5 P6 P7 P8 P9 P10 P11 P12].
      + (* idle *)
        rewrite P1, (empty_list (p_qa p) _ _ Q1 IQ) in DF. cbn [Z.eqb andb] in DF.
        assert (TF : take = false) by (unfold take, w_take; rewrite P1; reflexivity).
        destruct A as [|h A].
        * assert (NA : t_aw t <> []).
          { intros E. rewrite E, app_nil_r in I2. subst aws B. rewrite app_nil_r in I2. unfold headers in I2.
            rewrite map_app in I2.
            assert (R0 : rest = []).
            { destruct rest; [reflexivity|]. apply (f_equal (@length _)) in I2. rewrite app_length in I2. cbn [map length] in I2. clear - I2. lia. }
            subst rest ws. rewrite app_nil_r in I3. rewrite <- app_assoc in I3.
            assert (X : Wl ++ t_w t = []).
            { apply (app_inv_head (beats D)). rewrite app_nil_r. exact I3. }
            apply app_eq_nil in X. destruct X as [X1 X2].
            unfold mu_w, a_left in M1. rewrite O1, X1, X2, E, P1 in M1. cbn in M1. clear - M1. lia. }
          assert (NF : p_almost_full (p_qa p) (w_rq (a_w s)) = false).
          { rewrite (afull_list _ _ _ Q1 IQ). cbn [map length Z.of_nat].
            assert (2 ^ 2 <= 2 ^ p_qa p) by (apply Z.pow_le_mono_r; [clear; lia|exact Q2]). lia. }
          specialize (AS2 NA NF). cbn [map negb] in DF. rewrite DF, TF, P1 in E1. cbn [b2z] in E1.
          clear - E1 AS2 TK. lia.
        * cbn [map negb] in DF. rewrite DF, TF, P1 in E1. cbn [b2z] in E1. clear - E1 AS1 TK. lia.
      + rewrite P1 in DF. cbn [Z.eqb andb] in DF.
        destruct Wl as [|w Wl].
        * (* the data queue is empty: the next beat is taken *)
          assert (TF : take = false) by (destruct take; [exfalso; apply TN; reflexivity|reflexivity]).
          assert (FF : fin = false) by (destruct fin; [rewrite FI in TF by reflexivity; discriminate|reflexivity]).
          assert (NW : t_w t <> []).
          { intros E. rewrite E, app_nil_r in I3. subst ws B. rewrite app_nil_r, beats_app in I3.
            change (beats (b :: rest)) with (flagged (b_beats b) ++ beats rest) in I3.
            rewrite P3, flagged_app in I3 by exact P4. rewrite <- app_assoc in I3. apply app_inv_head in I3.
            apply (f_equal (@length _)) in I3. rewrite !app_length, map_length, flagged_len in I3.
            destruct post; [contradiction|]. cbn [length] in I3. clear - I3. lia. }
          assert (NF : wready p (a_w s) = true).
          { unfold wready. rewrite (afull_list _ _ _ D1 ID). cbn [map length Z.of_nat].
            assert (2 ^ 2 <= 2 ^ p_da p) by (apply Z.pow_le_mono_r; [clear; lia|exact D2]). lia. }
          rewrite NF in T3. assert (K : tk = 1).
          { unfold tk, zlen. rewrite T3. destruct (t_w t); [contradiction|]. cbn [length]. clear. lia. }
          rewrite FF in DF. rewrite DF, TF, P1, K in E1. cbn [b2z] in E1. clear - E1 AS1. lia.
        * assert (TT : take = true).
          { unfold take, w_take. rewrite P1, AW, (empty_list (p_da p) _ _ D1 ID). reflexivity. }
          rewrite DF, TT, P1 in E1. cbn [b2z] in E1. clear - E1 AS1 TK. destruct fin; lia.
  Qed.

  Hypothesis WK : wakes p.

  Lemma live_w n : forall s t aws ws shown, JW p m0 B s t aws ws shown -> SInv p (a_s s) ->
    mu_w p s t <= 1 \/ (nap p + 1) * (mu_w p s t - 1) + zz p (a_s s) <= Z.of_nat n ->
    let ins := eager p n s t in
    exists t', JW p m0 B (am_run p s ins) t' (aws ++ seen p aw_taken s ins) (ws ++ seen p (w_taken p) s ins)
                 (shown ++ seen p b_shown s ins) /\ mu_w p (am_run p s ins) t' <= 1.
  Proof using G LB WK.
    assert (AW : 0 <= p_aw p) by (pose proof (g_aw p G); lia).
    induction n as [|n IH]; intros s t aws ws shown J SI H ins.
    - exists t. unfold ins. cbn [eager am_run final fold_left seen outs concat]. unfold seen. cbn [outs concat]. rewrite !app_nil_r.
      split; [exact J|]. destruct H as [H|H]; [exact H|].
      pose proof (zz_range p (a_s s) SI). assert (1 <= nap p) by (unfold nap; lia). clear - H H0 H1. nia.
    - destruct (mu_step s t aws ws shown J) as [M1 M2].
      destruct (s_step_ok p AW WK (a_s s) SI) as [SI' ZS].
      pose proof (zz_range p (a_s s) SI) as Z1. pose proof (zz_range p (sleep_step p (a_s s)) SI') as Z2.
      assert (N1 : 1 <= nap p) by (unfold nap; lia).
      destruct (IH (am_step p s (offer t)) (t_next p s t) _ _ _ (jw_step s t _ _ _ J) SI') as (t' & J' & M').
      { destruct (Z_le_gt_dec (mu_w p s t) 1) as [L|L]; [left; lia|]. destruct H as [H|H]; [lia|].
        right. cbn [am_step a_s]. destruct (awake_w p (a_s s)) eqn:E.
        - specialize (M2 eq_refl ltac:(lia)). clear - M2 H Z1 Z2 N1. nia.
        - specialize (ZS eq_refl). clear - ZS H M1 N1. nia. }
      exists t'. rewrite <- !app_assoc in J'. split; [exact J'|exact M'].
  Qed.

  Lemma eager_snoc n : forall s t, exists t', eager p (S n) s t = eager p n s t ++ [offer t'].
  Proof using.
    induction n as [|n IH]; intros s t; [exists t; reflexivity|].
    destruct (IH (am_step p s (offer t)) (t_next p s t)) as [t' E]. exists t'.
    change (eager p (S (S n)) s t) with (offer t :: eager p (S n) (am_step p s (offer t)) (t_next p s t)).
    rewrite E. reflexivity.
  Qed.

  Lemma mu_done s t aws ws shown : JW p m0 B s t aws ws shown -> mu_w p s t <= 1 ->
    same_mem (a_mem s) (put_bursts (nbytes p) B m0) /\ shown ++ (if w_bvalid (a_w s) then [w_bid (a_w s)] else []) = map b_id B.
  Proof using G LB.
    intros [I1 I2 I3 I4] M. destruct I1 as [F1 F2 (D & rest & A & Wl & IQ & ID & PH)].
    assert (D1 : 1 <= p_da p) by (pose proof (g_da p G); lia). pose proof (wa_pos p) as WP.
    assert (O1 : occ (p_da p) (w_df (a_w s)) = zlen Wl).
    { rewrite (occ_len _ _ _ D1 ID), map_length. reflexivity. }
    assert (AL : 0 <= a_left p (a_w s) t).
    { unfold a_left, zlen. clear - F1 WP. destruct (t_aw t); cbn [length]; [lia|]. destruct (w_awready (a_w s)); cbn [b2z]; lia. }
    unfold mu_w in M. rewrite O1 in M. unfold zlen in M.
    assert (WR : 0 <= w_dfsm (a_w s) <= 1) by (clear - PH; destruct PH as [E|b pre post E]; lia).
    assert (Wl = []) as -> by (destruct Wl; [reflexivity|cbn [length] in M; clear - M AL WR; lia]).
    assert (TW : t_w t = []) by (destruct (t_w t); [reflexivity|cbn [length] in M; clear - M AL WR; lia]).
    rewrite TW, app_nil_r in I3.
    destruct PH as [P1 P2 P3 P4 P5 P6 | b pre post P1 P2 P3 P4 P5 P6 P7 P8 P9 P10 P11 P12].
    - subst ws B. rewrite app_nil_r, beats_app in I3.
      assert (R0 : rest = []).
      { apply beats_nil; [apply Forall_app in LB; exact (proj2 LB)|].
        apply (app_inv_head (beats D)). rewrite app_nil_r. symmetry. exact I3. }
      subst rest. rewrite app_nil_r. auto.
    - exfalso. subst ws B. rewrite app_nil_r, beats_app in I3.
      change (beats (b :: rest)) with (flagged (b_beats b) ++ beats rest) in I3.
      rewrite P3, flagged_app in I3 by exact P4. apply app_inv_head in I3.
      apply (f_equal (@length _)) in I3. rewrite !app_length, map_length, flagged_len in I3.
      destruct post; [contradiction|]. cbn [length] in I3. clear - I3. lia.
  Qed.

  Lemma w_served m1 m2 m3 Q n : w_time p B <= Z.of_nat n ->
    let s0 := am_init m1 m2 m3 m0 in
    let ins := eager p n s0 (mkMaster (headers B) (beats B) Q) in
    same_mem (a_mem (am_run p s0 ins)) (put_bursts (nbytes p) B m0) /\ seen p b_shown s0 ins = map b_id B /\
    seen p aw_taken s0 ins = headers B /\ seen p (w_taken p) s0 ins = beats B.
  Proof using G LB WK.
    intros T s0 ins. set (t0 := mkMaster (headers B) (beats B) Q).
    assert (N1 : 1 <= nap p) by (unfold nap; lia).
    assert (J0 : JW p m0 B s0 t0 [] [] []).
    { constructor; [apply w_init_ok; exact G|reflexivity|reflexivity|]. intros X. exfalso. apply X. reflexivity. }
    assert (T0 : (nap p + 1) * (mu_w p s0 t0 - 1) + zz p (a_s s0) <= w_time p B - 1).
    { pose proof (zz_range p (mkSlp 0 0) (s_init_ok p WK)) as Z1. change (a_s s0) with (mkSlp 0 0).
      assert (E : mu_w p s0 t0 - 1 <= 3 * zlen (beats B) + zlen B * (Z.max 0 (p_wdelay p) + 4) + Z.max 0 (p_wdelay p) + 3).
      { unfold mu_w, a_left, t0. cbn [t_w t_aw]. change (occ (p_da p) (w_df (a_w s0))) with ((0 - 0) mod 2 ^ p_da p).
        change (w_afsm (a_w s0)) with 0. change (w_dfsm (a_w s0)) with 0. change (w_awready (a_w s0)) with false.
        rewrite Z.mod_0_l by (pose proof (p2 (p_da p)); pose proof (g_da p G); lia).
        unfold headers, zlen. rewrite map_length. cbn [b2z]. unfold wa_last. destruct B; cbn [map length]; lia. }
      unfold w_time. clear - E Z1 N1. nia. }
    destruct n as [|n].
    { exfalso. unfold w_time, zlen in T. clear - T N1. nia. }
    destruct (live_w n s0 t0 [] [] [] J0 (s_init_ok p WK)) as (t' & J & M).
    { right. clear - T0 T. lia. }
    destruct (live_w (S n) s0 t0 [] [] [] J0 (s_init_ok p WK)) as (t2 & J2 & M2).
    { right. clear - T0 T. lia. }
    cbv zeta in J2, M2. change (eager p (S n) s0 t0) with ins in J2, M2. cbn [app] in *.
    destruct (mu_done _ _ _ _ _ J M) as [_ E1]. destruct (mu_done _ _ _ _ _ J2 M2) as [E2 E3].
    split; [exact E2|]. split.
    - destruct (eager_snoc n s0 t0) as [t3 E]. unfold ins. fold t0. rewrite E, seen_snoc.
      unfold b_shown at 2. exact E1.
    - destruct J2 as [K1 K2 K3 _].
      assert (X : t_aw t2 = [] /\ t_w t2 = []).
      { destruct K1 as [F1 F2 (D & rest & A & Wl & IQ & ID & PH)]. pose proof (wa_pos p) as WP.
        assert (D1 : 1 <= p_da p) by (pose proof (g_da p G); lia).
        unfold mu_w, a_left in M2. rewrite (occ_len _ _ _ D1 ID) in M2. unfold zlen in M2.
        assert (WR : 0 <= w_dfsm (a_w (am_run p s0 ins)) <= 1) by (destruct PH as [E|b pre post E]; rewrite E; clear; lia).
        assert (PQ : 0 <= Z.of_nat (length (t_aw t2)) * (wa_last p + 3)) by (clear - WP; nia).
        assert (PB : b2z (w_awready (a_w (am_run p s0 ins))) <= 1) by (destruct (w_awready (a_w (am_run p s0 ins))); cbn; lia).
        split.
        - destruct (t_aw t2) as [|x l]; [reflexivity|]. exfalso. cbn [length] in M2, PQ.
          assert (PR : wa_last p + 3 <= Z.of_nat (S (length l)) * (wa_last p + 3)) by (clear - WP; nia).
          clear - M2 F1 WP WR PB PR. lia.
        - destruct (t_w t2) as [|x l]; [reflexivity|]. exfalso. cbn [length] in M2.
          clear - M2 F1 WP WR PB PQ. destruct (t_aw t2); lia. }
      destruct X as [X1 X2]. rewrite X1, app_nil_r in K2. rewrite X2, app_nil_r in K3. auto.
  Qed.
End LW.

(** ** Read side *)
Definition ar_left (s : rside) (t : master) : Z :=
  3 * zlen (t_ar t) + match t_ar t with [] => 0 | _ => 1 - r_afsm s + 1 - b2z (r_arready s) end.
Definition r_cost (p : mp) (s : rside) : Z := if r_dfsm s =? 0 then 0 else rd_last p + 1 - r_dfsm s.
Definition mu_r (p : mp) (Q : list (Z * Z * Z)) (s : axim) (t : master) (taken : list (Z * bool * Z)) : Z :=
  ar_left (a_r s) t + (occ (p_qa p) (r_rq (a_r s)) + zlen (t_ar t)) * (rd_last p + 1) + r_cost p (a_r s)
  + (zlen (asked (nbytes p) Q) - zlen taken - b2z (r_valid (a_r s))).

Record JR (p : mp) (ms : list (Z -> Z)) (Q : list (Z * Z * Z)) (s : axim) (t : master) ars taken : Prop := {
  jr_inv : RInv p ms s ars taken;
  jr_ar : ars ++ t_ar t = Q;
  jr_held : r_afsm (a_r s) <> 0 -> t_ar t <> []
}.

Section LR.
  Variable p : mp.
  Hypothesis G : good_mp p.
  Variable Q : list (Z * Z * Z).
  Hypothesis LQ : Forall (legal_req p (p_arid p)) Q.

  Lemma jr_step ms s t ars taken : JR p ms Q s t ars taken ->
    JR p (ms ++ [a_mem s]) Q (am_step p s (offer t)) (t_next p s t)
      (ars ++ ar_taken s (offer t)) (taken ++ r_taken s (offer t)).
  Proof using G LQ.
    intros [I1 I2 I3].
    destruct (after_taken _ _ _ (ar_off s t)) as (A1 & _).
    assert (Hh : r_afsm (a_r s) <> 0 -> some (i_ar (offer t)) = true).
    { intros X. specialize (I3 X). cbn [offer i_ar]. rewrite some_hd. destruct (t_ar t); [contradiction|reflexivity]. }
    assert (E : (ars ++ ar_taken s (offer t)) ++ t_ar (t_next p s t) = Q).
    { cbn [t_next t_ar]. rewrite <- app_assoc, A1. exact I2. }
    constructor.
    - apply rstep_ok; auto. rewrite <- E in LQ. apply Forall_app in LQ. exact (proj1 LQ).
    - exact E.
    - cbn [am_step a_r r_step r_afsm t_next t_ar]. unfold ar_hs, ar_taken, after in *. cbn [offer i_ar] in *.
      rewrite some_hd in *. destruct (t_ar t) as [|x l]; cbn [hd_error] in *.
      + destruct (r_afsm (a_r s) =? 0) eqn:E0; [intros X; exfalso; apply X; reflexivity|].
        apply Z.eqb_neq in E0. specialize (Hh E0). discriminate.
      + pose proof (ri_fsm _ _ _ _ _ I1) as F1. pose proof (ri_rdy _ _ _ _ _ I1) as F2.
        destruct (r_arready (a_r s)).
        * destruct (F2 eq_refl) as [-> _]. cbn. intros X. exfalso. apply X. reflexivity.
        * intros _. cbn [length skipn]. discriminate.
  Qed.

  Lemma ar_step s t : 0 <= r_afsm (a_r s) <= 1 ->
    (r_arready (a_r s) = true -> r_afsm (a_r s) = 1 /\ p_almost_full (p_qa p) (r_rq (a_r s)) = false) ->
    let d := ar_left (a_r s) t - ar_left (a_r (am_step p s (offer t))) (t_next p s t) in
    0 <= d /\ (t_ar t <> [] -> p_almost_full (p_qa p) (r_rq (a_r s)) = false -> 1 <= d).
  Proof using.
    clear. intros F R.
    assert (C : t_ar t = [] \/ exists x l, t_ar t = x :: l) by (destruct (t_ar t); eauto).
    destruct C as [E|(x & l & E)].
    - unfold ar_left. cbn [t_next t_ar]. rewrite ar_off, E. cbn. split; [lia|]. intros X. contradiction.
    - cbv zeta. unfold ar_left. cbn [t_next t_ar]. rewrite ar_off, E. cbn [hd_error].
      cbn [am_step a_r r_step r_afsm r_arready]. unfold ar_hs. cbn [offer i_ar]. rewrite E. cbn [hd_error some andb negb].
      unfold after, zlen. destruct (r_arready (a_r s)) eqn:ER.
      + destruct (R eq_refl) as [R1 R2]. rewrite R1 in *. change (1 =? 1) with true. change (1 =? 0) with false. cbv iota. cbn [length skipn b2z].
        destruct l; cbn [length b2z]; split; intros; lia.
      + cbn [length skipn b2z].
        destruct (r_afsm (a_r s) =? 0) eqn:E0; [cbn [b2z]; split; intros; lia|].
        destruct (r_afsm (a_r s) =? 1) eqn:E1; [|cbn [b2z]; split; intros; lia].
        destruct (p_almost_full (p_qa p) (r_rq (a_r s))); cbn [negb b2z]; split; intros; try discriminate; lia.
  Qed.

  (** beats taken and shown never exceed those asked *)
  Lemma r_bound ms s t ars taken : JR p ms Q s t ars taken ->
    zlen taken + b2z (r_valid (a_r s)) <= zlen (asked (nbytes p) Q).
  Proof using G LQ.
    intros [[F1 F2 F3 F4 (D & A & IQ & PH)] I2 I3]. unfold zlen.
    destruct PH as [P1 P2 P3 P4 | a l id k P1 P2 P3 P4 P5 P6 P7 P8 P9 P10].
    - rewrite P2. subst Q ars. rewrite !asked_app, !app_length. apply Forall2_len in P4. cbn [b2z]. lia.
    - subst Q ars. rewrite !asked_app. change (asked (nbytes p) ((a, l, id) :: A)) with (asked1 (nbytes p) (a, l, id) ++ asked (nbytes p) A).
      apply Forall2_len in P10. rewrite !app_length in *. rewrite firstn_length in P10. unfold r_cur in P10.
      destruct (r_valid (a_r s)); cbn [b2z length] in *; lia.
  Qed.

  Lemma mur_step ms s t ars taken : JR p ms Q s t ars taken ->
    mu_r p Q (am_step p s (offer t)) (t_next p s t) (taken ++ r_taken s (offer t)) <= mu_r p Q s t taken /\
    (awake_r p (a_s s) = true -> 0 < mu_r p Q s t taken ->
     mu_r p Q (am_step p s (offer t)) (t_next p s t) (taken ++ r_taken s (offer t)) < mu_r p Q s t taken).
  Proof using G LQ.
    intros J. pose proof J as [I1 I2 I3]. destruct I1 as [F1 F2 F3 F4 (D & A & IQ & PH)].
    assert (Q1 : 1 <= p_qa p) by (pose proof (g_qa p G); lia).
    assert (Q2 : 2 <= p_qa p) by exact (g_qa p G).
    pose proof (rd_pos p) as RP.
    destruct (ar_step s t F1 F2) as [AS1 AS2]. cbv zeta in AS1, AS2.
    destruct (after_taken _ _ _ (ar_off s t)) as (T1 & T2 & T3).
    assert (TA : (if (r_afsm (a_r s) =? 1) && ar_hs (a_r s) (offer t) && negb (p_almost_full (p_qa p) (r_rq (a_r s)))
                  then [match i_ar (offer t) with Some (a, n, id) => req_word p (pack_req p (p_arid p) a ((n + 1) mod 2 ^ 32) id) | None => 0 end]
                  else []) = map (hdr_word p (p_arid p)) (ar_taken s (offer t))).
    { unfold ar_hs, ar_taken. destruct (i_ar (offer t)) as [[[a n] id]|]; cbn [some andb].
      - destruct (r_arready (a_r s)) eqn:E; [|rewrite !andb_false_r; reflexivity].
        destruct (F2 eq_refl) as [E1 E2]. rewrite E1, E2, Z.eqb_refl. reflexivity.
      - rewrite andb_false_r. reflexivity. }
    set (start := (r_dfsm (a_r s) =? 0) && negb (p_empty (r_rq (a_r s)))).
    assert (SE : deq_rtl (r_rq (a_r s)) start = start).
    { unfold deq_rtl, deq_ready, start. destruct (p_empty (r_rq (a_r s))); rewrite ?andb_false_r, ?andb_true_r; reflexivity. }
    assert (SN : start = true -> A <> []).
    { intros E. unfold start in E. rewrite (empty_list (p_qa p) _ _ Q1 IQ) in E.
      destruct A; [rewrite andb_false_r in E; discriminate|discriminate]. }
    assert (IQ' : Inv (2 ^ p_qa p) (r_rq (a_r (am_step p s (offer t))))
       (map (hdr_word p (p_arid p)) ((if start then tl A else A) ++ ar_taken s (offer t)))).
    { cbn [am_step a_r r_step r_rq]. unfold rrq_in. fold start. rewrite SE.
      rewrite map_app, <- TA.
      replace (map (hdr_word p (p_arid p)) (if start then tl A else A))
        with (if start then tl (map (hdr_word p (p_arid p)) A) else map (hdr_word p (p_arid p)) A)
        by (destruct start; [destruct A; reflexivity|reflexivity]).
      apply fstep_list; [exact Q1|exact IQ|].
      intros E. specialize (SN E). destruct A; [contradiction|discriminate]. }
    clear TA SE.
    assert (O1 : occ (p_qa p) (r_rq (a_r s)) = zlen A).
    { rewrite (occ_len _ _ _ Q1 IQ), map_length. reflexivity. }
    assert (O2 : occ (p_qa p) (r_rq (a_r (am_step p s (offer t)))) + zlen (t_ar (t_next p s t))
                 = zlen A + zlen (t_ar t) - b2z start).
    { rewrite (occ_len _ _ _ Q1 IQ'), map_length, app_length. cbn [t_next t_ar]. unfold zlen. rewrite T2. clear - SN T3.
      destruct start; cbn [b2z].
      - destruct A; [exfalso; apply SN; reflexivity|]. cbn [tl length]. destruct (r_arready (a_r s)); lia.
      - destruct (r_arready (a_r s)); lia. }
    set (d := ar_left (a_r s) t - ar_left (a_r (am_step p s (offer t))) (t_next p s t)) in *.
    set (v := b2z (r_valid (a_r s))).
    set (v' := b2z (r_valid (a_r (am_step p s (offer t))))).
    set (c := r_cost p (a_r s)). set (c' := r_cost p (a_r (am_step p s (offer t)))).
    assert (TK : zlen (taken ++ r_taken s (offer t)) = zlen taken + v).
    { unfold zlen, v, r_taken. rewrite app_length. cbn [offer i_rready]. rewrite andb_true_r.
      destruct (r_valid (a_r s)); cbn [length b2z]; lia. }
    assert (E1 : mu_r p Q s t taken - mu_r p Q (am_step p s (offer t)) (t_next p s t) (taken ++ r_taken s (offer t))
                 = d + b2z start * (rd_last p + 1) + (c - c') + v').
    { unfold mu_r. rewrite O1, O2, TK. fold c c' v v'. unfold d. clear. lia. }
    pose proof (r_bound _ _ _ _ _ J) as RB.
    assert (PG : r_ack (a_r s) (offer t) = true) by reflexivity.
    assert (V' : v' = b2z (if r_go p (a_r s) (offer t) (awake_r p (a_s s)) then true
                           else if (r_d1 (a_r s) =? rd_last p) && r_cond (a_r s) then false else r_valid (a_r s))).
    { unfold v'. cbn [am_step a_r r_step r_valid offer i_rready negb]. rewrite !andb_false_r. reflexivity. }
    assert (V0 : 0 <= v') by (unfold v'; destruct (r_valid (a_r (am_step p s (offer t)))); cbn; lia).
    assert (C' : c' = if r_dfsm (a_r s) =? 0 then (if start then rd_last p else 0)
                      else if r_dfsm (a_r s) =? rd_last p then
                        (if r_valid (a_r s) && (r_count (a_r s) =? 0) then 0 else rd_last p + 1 - r_dfsm (a_r s))
                      else rd_last p + 1 - (r_dfsm (a_r s) + 1)).
    { assert (DR : r_dfsm (a_r s) = 0 \/ 1 <= r_dfsm (a_r s)) by (clear - PH; destruct PH; lia).
      unfold c', r_cost. cbn [am_step a_r r_step r_dfsm offer i_rready]. fold start. rewrite andb_true_r.
      clear - DR RP. destruct (r_dfsm (a_r s) =? 0) eqn:E0.
      - destruct start; cbn [Z.eqb]; lia.
      - destruct (r_dfsm (a_r s) =? rd_last p) eqn:E1.
        + destruct (r_valid (a_r s) && (r_count (a_r s) =? 0)); [reflexivity|]. rewrite E0. reflexivity.
        + replace (r_dfsm (a_r s) + 1 =? 0) with false by lia. reflexivity. }
    assert (CC : c = if r_dfsm (a_r s) =? 0 then 0 else rd_last p + 1 - r_dfsm (a_r s)) by reflexivity.
    rewrite CC, C' in E1. clear c c' CC C'.
    destruct PH as [P1 P2 P3 P4 | a l id k P1 P2 P3 P4 P5 P6 P7 P8 P9 P10].
    - rewrite P1 in E1. cbn [Z.eqb] in E1. split.
      + clear - E1 AS1 V0 RP. destruct start; cbn [b2z] in E1; lia.
      + intros _ M. destruct A as [|h A].
        * assert (SF : start = false) by (destruct start; [exfalso; apply SN; reflexivity|reflexivity]).
          rewrite SF in E1. cbn [b2z] in E1.
          assert (NA : t_ar t <> []).
          { intros E. rewrite E, app_nil_r in I2. subst ars Q. rewrite app_nil_r in *. apply Forall2_len in P4.
            unfold mu_r, ar_left, r_cost in M. rewrite O1, E, P1, P2 in M. unfold zlen in M. rewrite P4 in M. cbn in M.
            clear - M. lia. }
          assert (NF : p_almost_full (p_qa p) (r_rq (a_r s)) = false).
          { rewrite (afull_list _ _ _ Q1 IQ). cbn [map length Z.of_nat].
            assert (2 ^ 2 <= 2 ^ p_qa p) by (apply Z.pow_le_mono_r; [clear; lia|exact Q2]). lia. }
          specialize (AS2 NA NF). clear - E1 AS2 V0. lia.
        * assert (ST : start = true) by (unfold start; rewrite P1, (empty_list (p_qa p) _ _ Q1 IQ); reflexivity).
          rewrite ST in E1. cbn [b2z] in E1. clear - E1 AS1 V0. lia.
    - assert (N0 : (r_dfsm (a_r s) =? 0) = false) by (clear - P1; lia).
      assert (SF : start = false) by (unfold start; rewrite N0; reflexivity).
      rewrite N0, SF in E1. cbn [b2z] in E1.
      destruct (r_dfsm (a_r s) =? rd_last p) eqn:EH; [|split; clear - E1 AS1 V0; lia].
      split; [clear - E1 AS1 V0 P1; destruct (r_valid (a_r s) && (r_count (a_r s) =? 0)); lia|].
      intros AW _. destruct (r_count (a_r s) =? 0) eqn:CZ.
      + rewrite P8 in E1 by (clear - CZ P5; lia). cbn [andb] in E1. clear - E1 AS1 V0 P1. lia.
      + assert (GO : r_go p (a_r s) (offer t) (awake_r p (a_s s)) = true).
        { unfold r_go. rewrite EH, AW, PG. clear - CZ P4 P5. cbn [andb]. lia. }
        rewrite GO in V'. cbn [b2z] in V'. rewrite andb_false_r in E1. clear - E1 AS1 V'. lia.
  Qed.

  Hypothesis WK : wakes p.

  Lemma live_r n : forall ms s t ars taken, JR p ms Q s t ars taken -> SInv p (a_s s) ->
    mu_r p Q s t taken <= 0 \/ (nap p + 1) * mu_r p Q s t taken + zz p (a_s s) <= Z.of_nat n ->
    let ins := eager p n s t in
    exists t', JR p (ms ++ mems p s ins) Q (am_run p s ins) t' (ars ++ seen p ar_taken s ins) (taken ++ seen p r_taken s ins)
      /\ mu_r p Q (am_run p s ins) t' (taken ++ seen p r_taken s ins) <= 0.
  Proof using G LQ WK.
    assert (AW : 0 <= p_aw p) by (pose proof (g_aw p G); lia).
    assert (N1 : 1 <= nap p) by (unfold nap; lia).
    induction n as [|n IH]; intros ms s t ars taken J SI H ins.
    - exists t. unfold ins. cbn [eager am_run final fold_left]. unfold seen, mems. cbn [outs concat]. rewrite !app_nil_r.
      split; [exact J|]. destruct H as [H|H]; [exact H|].
      pose proof (zz_range p (a_s s) SI). clear - H H0 N1. nia.
    - destruct (mur_step ms s t ars taken J) as [M1 M2].
      destruct (s_step_ok p AW WK (a_s s) SI) as [SI' ZS].
      pose proof (zz_range p (a_s s) SI) as Z1. pose proof (zz_range p (sleep_step p (a_s s)) SI') as Z2.
      destruct (IH _ (am_step p s (offer t)) (t_next p s t) _ _ (jr_step ms s t _ _ J) SI') as (t' & J' & M').
      { destruct (Z_le_gt_dec (mu_r p Q s t taken) 0) as [L|L]; [left; lia|]. destruct H as [H|H]; [lia|].
        right. cbn [am_step a_s]. destruct (awake_w p (a_s s)) eqn:E.
        - rewrite awake_same in M2 by exact SI. specialize (M2 E ltac:(lia)). clear - M2 H Z1 Z2 N1. nia.
        - specialize (ZS eq_refl). clear - ZS H M1 N1. nia. }
      exists t'. repeat rewrite <- app_assoc in J'. rewrite <- app_assoc in M'. split; [exact J'|exact M'].
  Qed.

  Lemma r_start m1 m2 m3 m0 aw w n : r_time p Q <= Z.of_nat n ->
    let s0 := am_init m1 m2 m3 m0 in
    (nap p + 1) * mu_r p Q s0 (mkMaster aw w Q) [] + zz p (a_s s0) <= Z.of_nat n.
  Proof using G LQ WK.
    intros T s0. set (t0 := mkMaster aw w Q).
    assert (N1 : 1 <= nap p) by (unfold nap; lia).
    pose proof (zz_range p (mkSlp 0 0) (s_init_ok p WK)) as Z1. change (a_s s0) with (mkSlp 0 0).
    assert (E : mu_r p Q s0 t0 [] <= zlen (asked (nbytes p) Q) + zlen Q * (Z.max 0 (p_rdelay p) + 5) + 2).
    { unfold mu_r, ar_left, r_cost, t0. cbn [t_ar]. change (occ (p_qa p) (r_rq (a_r s0))) with ((0 - 0) mod 2 ^ p_qa p).
      change (r_afsm (a_r s0)) with 0. change (r_dfsm (a_r s0)) with 0. change (r_arready (a_r s0)) with false.
      change (r_valid (a_r s0)) with false.
      rewrite Z.mod_0_l by (pose proof (p2 (p_qa p)); pose proof (g_qa p G); lia).
      unfold zlen, rd_last. cbn [length b2z Z.eqb]. destruct Q; cbn [length]; lia. }
    unfold r_time in T. clear - E Z1 N1 T. nia.
  Qed.

  Lemma r_done ms s t ars taken : JR p ms Q s t ars taken -> mu_r p Q s t taken <= 0 ->
    Forall2 (answered (nbytes p) ms) (asked (nbytes p) Q) taken.
  Proof using G LQ.
    intros J M.
    pose proof (r_bound _ _ _ _ _ J) as RB. destruct J as [[F1 F2 F3 F4 (D & A & IQ & PH)] I2 I3].
    assert (Q1 : 1 <= p_qa p) by (pose proof (g_qa p G); lia). pose proof (rd_pos p) as RP.
    unfold mu_r in M. rewrite (occ_len _ _ _ Q1 IQ), map_length in M.
    assert (AL : 3 * zlen (t_ar t) <= ar_left (a_r s) t).
    { unfold ar_left. destruct (t_ar t); [lia|].
      destruct (r_arready (a_r s)); cbn [b2z]; clear - F1; lia. }
    assert (PN : Z.of_nat (length A) + zlen (t_ar t) <= (Z.of_nat (length A) + zlen (t_ar t)) * (rd_last p + 1)).
    { unfold zlen. clear - RP. nia. }
    destruct PH as [P1 P2 P3 P4 | a l id k P1 P2 P3 P4 P5 P6 P7 P8 P9 P10].
    - assert (X : A = [] /\ t_ar t = []).
      { unfold r_cost in M. rewrite P1 in M. cbn [Z.eqb] in M. unfold zlen in *.
        clear - M AL PN RB. destruct A, (t_ar t); cbn [length] in *; auto; exfalso; lia. }
      destruct X as [-> X]. rewrite X, app_nil_r in I2. rewrite P3, app_nil_r in I2. rewrite <- I2. exact P4.
    - exfalso. unfold r_cost in M. replace (r_dfsm (a_r s) =? 0) with false in M by (clear - P1; lia).
      unfold zlen in *. clear - M AL PN RB P1. lia.
  Qed.

  Lemma r_served m1 m2 m3 m0 aw w n : r_time p Q <= Z.of_nat n ->
    let s0 := am_init m1 m2 m3 m0 in
    let ins := eager p n s0 (mkMaster aw w Q) in
    Forall2 (answered (nbytes p) (mems p s0 ins)) (asked (nbytes p) Q) (seen p r_taken s0 ins).
  Proof using G LQ WK.
    intros T s0 ins. set (t0 := mkMaster aw w Q).
    assert (J0 : JR p [] Q s0 t0 [] []).
    { constructor; [apply r_init_ok; exact G|reflexivity|]. intros X. exfalso. apply X. reflexivity. }
    destruct (live_r n [] s0 t0 [] [] J0 (s_init_ok p WK)) as (t' & J & M).
    { right. exact (r_start m1 m2 m3 m0 aw w n T). }
    exact (r_done _ _ _ _ _ J M).
  Qed.
End LR.
