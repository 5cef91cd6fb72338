(** Proofs about the data movers. *)
From Verif Require Import Base Fifo_Model Fifo_Proofs AxiDma_Model AxiDma_Spec AxiDma_Proofs AxiMem_Proofs Mover_Model Mover_Spec.
Open Scope Z_scope.

Lemma flags_app a b : flags (a ++ b) = flags a ++ flags b.
Proof. apply flat_map_app. Qed.
Lemma sum_app a b : sum (a ++ b) = sum a + sum b.
Proof. unfold sum. induction a as [|x a IH]; cbn [app fold_right]; lia. Qed.
Lemma flags_len ns : Forall (fun n => 1 <= n) ns -> Z.of_nat (length (flags ns)) = sum ns.
Proof.
  induction 1 as [|n ns H F IH]; [reflexivity|]. cbn [flags flat_map]. fold (flags ns). rewrite !app_length, repeat_length. cbn [length sum fold_right]. fold (sum ns). lia.
Qed.
Lemma repeat_snoc {X} (x : X) k : repeat x k ++ [x] = repeat x (S k).
Proof. induction k as [|k IH]; [reflexivity|]. cbn [repeat app]. rewrite IH. reflexivity. Qed.
(** a packet of [n] words of which [r] are still to come *)
Definition part (n r : Z) : list bool := repeat false (Z.to_nat (n - r)).
Lemma part_step n r : 2 <= r <= n -> part n r ++ [r <=? 1] = part n (r - 1).
Proof. intros H. unfold part. replace (r <=? 1) with false by lia. rewrite repeat_snoc. f_equal. lia. Qed.
Lemma part_last n : 1 <= n -> part n 1 ++ [true] = flags [n].
Proof. intros H. unfold part. cbn [flags flat_map]. rewrite app_nil_r. reflexivity. Qed.
Lemma part_begins n r : 1 <= r <= n -> begins (part n r) (flags [n]).
Proof.
  intros H. exists (repeat false (Z.to_nat (r - 1)) ++ [true]). unfold part. rewrite app_assoc, <- repeat_app. cbn [flags flat_map]. rewrite app_nil_r. do 2 f_equal. lia.
Qed.
Lemma part_len n r : 0 <= r <= n -> Z.of_nat (length (part n r)) = n - r.
Proof. intros H. unfold part. rewrite repeat_length. lia. Qed.

(** the channel: what went in is what came out and what waits *)
Lemma ch_log h rd w : (forall x, w = Some x -> ch_ack h rd = true) ->
  ch_out h rd ++ waiting (ch_step h rd w) = waiting h ++ match w with Some x => [x] | None => [] end.
Proof.
  intros A. unfold ch_out, waiting, ch_step. destruct w as [[d l]|].
  - rewrite (A _ eq_refl). specialize (A _ eq_refl). unfold ch_ack in A. cbn [h_valid h_data h_last]. destruct (h_valid h), rd; try discriminate A; reflexivity.
  - destruct (h_valid h) eqn:V, rd; cbn [andb negb]; rewrite ?V; reflexivity.
Qed.
Lemma ch_held h rd w : (forall x, w = Some x -> ch_ack h rd = true) -> h_valid h = true -> rd = false -> ch_step h rd w = h.
Proof.
  intros A V ->. unfold ch_step. rewrite V. destruct w as [[d l]|]; [|reflexivity]. specialize (A _ eq_refl). unfold ch_ack in A. rewrite V in A. discriminate A.
Qed.

(** the request machine: what is waiting to be queued *)
Definition unqueued (q : rq) : list Z := if q_start q then [q_size q] else [].
Section RQ.
  Variables (write : bool) (aw s : Z).
  Hypothesis Haw : 0 <= aw.
  Hypothesis Hs : 0 <= s <= 12.
  Lemma unqueued_step q i : Ok aw s q -> (forall r, take q i = Some r -> reasonable aw (2 ^ s) r) ->
    unqueued q ++ map snd (rq_taken q i) = (if q_begin q (i_full i) then [q_size q] else []) ++ unqueued (rq_step write aw s q i).
  Proof using Haw Hs.
    intros O R. destruct (ok_flags aw s q O) as (F1 & F2 & F3 & F4). unfold unqueued, q_begin, rq_taken. cbn [rq_step q_start q_size].
    destruct (q_start q) eqn:St.
    - assert (T : take q i = None) by (unfold take, req_idle; rewrite St; reflexivity). rewrite T.
      destruct (q_state q) eqn:S1; [destruct (F1 eq_refl); discriminate|]. cbn [negb andb map app]. destruct (i_full i) eqn:Fu; cbn [negb]; [|reflexivity].
      unfold check_cond. rewrite Fu, andb_false_r. reflexivity.
    - rewrite andb_false_r. cbn [andb app]. destruct (take q i) as [[a n]|] eqn:T; [|reflexivity]. cbn [map snd app].
      assert (ID : req_idle q = true) by (unfold take in T; destruct (req_idle q); [reflexivity|discriminate T]).
      pose proof (req_idle_rest aw s q O ID) as RN. unfold rest in RN. destruct (q_state q) eqn:S1; [discriminate RN|].
      destruct (q_start q || q_cont q) eqn:SC; [discriminate RN|]. unfold check_cond. rewrite SC, andb_false_r. cbn [andb].
      specialize (R _ eq_refl). unfold reasonable in R. cbn [fst snd] in R. rewrite Z.mod_small; [reflexivity|].
      pose proof (B_pos s Hs) as BP. rewrite Z.pow_add_r by lia. change (2 ^ 1) with 2. assert (0 <= a / 2 ^ s) by (apply Z.div_pos; lia). clear - R BP H. nia.
  Qed.
  Lemma unqueued_pos q : Ok aw s q -> Forall (fun n => 1 <= n <= 2 ^ aw) (unqueued q).
  Proof using Haw Hs.
    intros O. unfold unqueued. destruct (q_start q) eqn:St; constructor; [|constructor]. destruct (ok_flags aw s q O) as (F1 & F2 & F3 & F4).
    destruct (q_state q) eqn:S1; [destruct (F1 eq_refl); congruence|]. destruct (ok_rest aw s q O (q_addr q) (q_size q)) as ((k & Hk) & H1 & H2 & H3).
    { unfold rest. rewrite S1, St. reflexivity. }
    pose proof (B_pos s Hs) as BP. clear - BP H1 H2 H3. nia.
  Qed.
End RQ.

Lemma rearrange (D cur P u tk en u' : list Z) : u ++ tk = en ++ u' -> (D ++ cur ++ P ++ u) ++ tk = D ++ cur ++ (P ++ en) ++ u'.
Proof. intros E. rewrite <- !app_assoc. do 3 f_equal. exact E. Qed.
Section Read.
  Variables (aw s fa : Z).
  Hypothesis Haw : 0 <= aw.
  Hypothesis Hs : 0 <= s <= 12.
  Hypothesis Hfa : 2 <= fa.
  Notation step := (rmv_step aw s fa).
  (** [T]: sizes of the requests taken, [L]: words taken from the bus with their last flags, [P]: the queue *)
  Definition rinv (m : rmv) (T : list Z) (L : list (Z * bool)) (P : list Z) : Prop :=
    Ok aw s (r_rq m) /\
    exists D cur, T = D ++ cur ++ P ++ unqueued (r_rq m) /\ Forall (fun n => 1 <= n <= 2 ^ aw) T /\ Inv (2 ^ fa) (r_q m) P /\ r_busy m = r_run m /\
      if r_run m then exists n, cur = [n] /\ 1 <= r_size m <= n /\ map snd L = flags D ++ part n (r_size m)
      else cur = [] /\ r_size m = 0 /\ map snd L = flags D.
  Lemma wcond_ack m i x : (if r_wcond m i then Some (x_rdata i, r_wlast m) else None) = Some x -> ch_ack (r_ch m) (x_tready i) = true.
  Proof using. unfold r_wcond, r_rready. destruct (ch_ack (r_ch m) (x_tready i)); [reflexivity|]. rewrite andb_false_l, andb_false_r. discriminate. Qed.
  Definition rword (m : rmv) (i : rmv_in) : list (Z * bool) := if r_wcond m i then [(x_rdata i, r_wlast m)] else [].

  Definition rnew (m : rmv) : list Z := if q_begin (r_rq m) (r_full fa m) then [q_size (r_rq m)] else [].
  Lemma rinv_step m i T L P reqs iss : rinv m T L P -> inv s (r_rq m) reqs iss -> (forall r, take (r_rq m) (r_rqin fa m i) = Some r -> reasonable aw (2 ^ s) r) ->
    rinv (step m i) (T ++ map snd (rq_taken (r_rq m) (r_rqin fa m i))) (L ++ rword m i) ((if r_start m then tl P else P) ++ rnew m).
  Proof using Haw Hs Hfa.
    intros (O & D & cur & ET & FT & IQ & BR & C) HI R.
    destruct (Ok_step false aw s Haw Hs (r_rq m) (r_rqin fa m i) reqs iss O HI R) as (O' & _ & _).
    split; [exact O'|].
    pose proof (unqueued_step false aw s Haw Hs (r_rq m) (r_rqin fa m i) O R) as U. cbn [i_full r_rqin] in U.
    assert (FT' : Forall (fun n => 1 <= n <= 2 ^ aw) (T ++ map snd (rq_taken (r_rq m) (r_rqin fa m i)))).
    { apply Forall_app. split; [exact FT|]. unfold rq_taken. destruct (take (r_rq m) (r_rqin fa m i)) as [[a n]|] eqn:TK; [|constructor].
      constructor; [|constructor]. specialize (R _ eq_refl). unfold reasonable in R. cbn [fst snd] in *. pose proof (B_pos s Hs) as BP. assert (0 <= a / 2 ^ s) by (apply Z.div_pos; lia). clear - R BP H. nia. }
    fold (rnew m) in U. set (en := rnew m) in *.
    assert (NE : r_start m = true -> P <> []).
    { unfold r_start. rewrite (empty_list fa _ P ltac:(lia) IQ). destruct P; [rewrite !andb_false_r; discriminate|discriminate]. }
    assert (IQ' : Inv (2 ^ fa) (r_q (step m i)) ((if r_start m then tl P else P) ++ en)).
    { cbn [rmv_step r_q]. assert (ED : deq_rtl (r_q m) (r_start m) = r_start m).
      { unfold deq_rtl, deq_ready, r_start. destruct (p_empty (r_q m)); [rewrite !andb_false_r; reflexivity|rewrite !andb_true_r; reflexivity]. }
      rewrite ED. pose proof (fstep_list fa (r_q m) P (q_begin (r_rq m) (r_full fa m)) (q_size (r_rq m)) (r_start m) ltac:(lia) IQ NE) as X.
      replace (q_begin (r_rq m) (r_full fa m) && negb (p_almost_full fa (r_q m))) with (q_begin (r_rq m) (r_full fa m)) in X; [exact X|].
      unfold q_begin, r_full. destruct (p_almost_full fa (r_q m)); [rewrite !andb_false_r; reflexivity|rewrite !andb_true_r; reflexivity]. }
    destruct (r_run m) eqn:RR.
    - destruct C as (n & -> & SZ & ML).
      assert (ST : r_start m = false) by (unfold r_start; rewrite RR; reflexivity). rewrite ST in *.
      destruct (r_wcond m i) eqn:WC.
      + destruct (Z.eq_dec (r_size m) 1) as [E1|E1].
        * exists (D ++ [n]), []. split; [rewrite ET, (rearrange _ _ _ _ _ _ _ U), <- (app_assoc D [n]); reflexivity|]. split; [exact FT'|]. split; [exact IQ'|].
          cbn [rmv_step r_busy r_run r_size]. unfold r_fin, r_wlast. rewrite RR, WC, E1. cbn [andb Z.leb Z.compare Pos.compare Pos.compare_cont negb]. split; [reflexivity|].
          split; [reflexivity|]. split; [apply Z.mod_0_l; pose proof (Z.pow_pos_nonneg 2 (aw + 1) ltac:(lia) ltac:(lia)); lia|].
          unfold rword. rewrite WC, map_app, ML, E1, flags_app, <- app_assoc. f_equal. cbn [map snd]. unfold r_wlast. rewrite E1. apply part_last. lia.
        * exists D, [n]. split; [rewrite ET; apply rearrange, U|]. split; [exact FT'|]. split; [exact IQ'|].
          assert (NL : r_wlast m = false) by (unfold r_wlast; lia).
          cbn [rmv_step r_busy r_run r_size]. unfold r_fin. rewrite RR, WC, NL, ?ST. cbn [andb negb]. split; [rewrite BR; reflexivity|].
          assert (NB : n <= 2 ^ aw). { rewrite ET in FT. rewrite !Forall_app in FT. destruct FT as (_ & FN & _). inversion FN as [|? ? N1 _]; subst. lia. }
          rewrite Z.mod_small by (rewrite Z.pow_add_r by lia; change (2 ^ 1) with 2; lia).
          exists n. split; [reflexivity|]. split; [lia|]. unfold rword. rewrite WC, map_app, ML, <- app_assoc. f_equal. cbn [map snd]. unfold r_wlast. apply part_step. lia.
      + exists D, [n]. split; [rewrite ET; apply rearrange, U|]. split; [exact FT'|]. split; [exact IQ'|].
        cbn [rmv_step r_busy r_run r_size]. unfold r_fin. rewrite RR, WC, ?ST. cbn [andb negb]. split; [rewrite BR; reflexivity|].
        exists n. split; [reflexivity|]. split; [exact SZ|]. unfold rword. rewrite WC, app_nil_r. exact ML.
    - destruct C as (-> & SZ & ML).
      assert (WC : r_wcond m i = false) by (unfold r_wcond, r_rready; rewrite SZ; change (0 <? 0) with false; rewrite !andb_false_r; reflexivity).
      assert (LW : map snd (L ++ rword m i) = flags D) by (unfold rword; rewrite WC, app_nil_r; exact ML). rewrite LW.
      destruct (r_start m) eqn:ST.
      + destruct P as [|n P]; [exfalso; apply NE; reflexivity|]. cbn [tl] in IQ' |- *.
        exists D, [n]. split; [rewrite ET; exact (rearrange D [n] P _ _ _ _ U)|]. split; [exact FT'|]. split; [exact IQ'|].
        cbn [rmv_step r_busy r_run r_size]. unfold r_fin. rewrite RR, ST. cbn [andb]. split; [reflexivity|]. rewrite (rdata_list fa (r_q m) n P ltac:(lia) IQ).
        exists n. split; [reflexivity|]. rewrite ET in FT. rewrite !Forall_app in FT. destruct FT as (_ & _ & FN & _). inversion FN as [|? ? N1 _]; subst. split; [lia|].
        unfold part. rewrite Z.sub_diag. cbn [Z.to_nat repeat]. rewrite app_nil_r. reflexivity.
      + exists D, []. split; [rewrite ET; exact (rearrange D [] P _ _ _ _ U)|]. split; [exact FT'|]. split; [exact IQ'|].
        cbn [rmv_step r_busy r_run r_size]. unfold r_fin. rewrite RR, ST. cbn [andb]. rewrite BR. repeat split. exact SZ.
  Qed.

  Lemma rinv_init fm : rinv (rmv_init fm) [] [] [].
  Proof using Hfa.
    split; [apply Ok_init|]. exists [], []. split; [reflexivity|]. split; [constructor|]. split; [apply (init_inv fa ltac:(lia))|]. repeat split.
  Qed.
  (** the request machine in the mover runs as by itself *)
  Definition rqins (m : rmv) (ins : list rmv_in) : list rq_in := outs step (r_rqin fa) m ins.
  Lemma rq_same ins : forall m, r_rq (rmv_run aw s fa m ins) = rq_run false aw s (r_rq m) (rqins m ins) /\
    r_taken aw s fa m ins = taken false aw s (r_rq m) (rqins m ins) /\ r_bursts aw s fa m ins = bursts false aw s (r_rq m) (rqins m ins).
  Proof using.
    induction ins as [|i ins IH]; intros m; [repeat split|]. destruct (IH (step m i)) as (A & B & C).
    unfold rmv_run, rq_run, r_taken, taken, r_bursts, bursts, rqins, final in *. cbn [outs concat fold_left] in *. split; [exact A|]. split; f_equal; assumption.
  Qed.
  Definition rlog (m : rmv) (ins : list rmv_in) : list (Z * bool) := concat (outs step rword m ins).
  Lemma rlog_words ins : forall m, map fst (rlog m ins) = r_words aw s fa m ins.
  Proof using.
    induction ins as [|i ins IH]; intros m; [reflexivity|]. unfold rlog, r_words in *. cbn [outs concat]. rewrite map_app, IH. f_equal. unfold rword, r_wcond. destruct (x_rvalid i && r_rready m i); reflexivity.
  Qed.
  Lemma rlog_sent ins : forall m, r_sent aw s fa m ins ++ waiting (r_ch (rmv_run aw s fa m ins)) = waiting (r_ch m) ++ rlog m ins.
  Proof using.
    induction ins as [|i ins IH]; intros m; [cbn; rewrite app_nil_r; reflexivity|]. unfold rlog, r_sent, rmv_run, final in *. cbn [outs concat fold_left].
    rewrite <- app_assoc, IH, !app_assoc. f_equal. cbn [rmv_step r_ch]. rewrite ch_log; [|exact (wcond_ack m i)]. f_equal. unfold rword. destruct (r_wcond m i); reflexivity.
  Qed.
  Lemma rinv_run ins : forall m T L P reqs iss, rinv m T L P -> inv s (r_rq m) reqs iss -> Forall (reasonable aw (2 ^ s)) (r_taken aw s fa m ins) ->
    exists P' iss', rinv (rmv_run aw s fa m ins) (T ++ map snd (r_taken aw s fa m ins)) (L ++ rlog m ins) P' /\
      inv s (r_rq (rmv_run aw s fa m ins)) (reqs ++ r_taken aw s fa m ins) iss'.
  Proof using Haw Hs Hfa.
    induction ins as [|i ins IH]; intros m T L P reqs iss H HI F; [exists P, iss; cbn; rewrite !app_nil_r; auto|].
    unfold r_taken in F. cbn [outs concat] in F. apply Forall_app in F. destruct F as (F1 & F2).
    assert (R : forall r, take (r_rq m) (r_rqin fa m i) = Some r -> reasonable aw (2 ^ s) r).
    { intros r E. unfold rq_taken in F1. rewrite E in F1. exact (Forall_inv F1). }
    pose proof (rinv_step m i T L P reqs iss H HI R) as H'. destruct H as (O & _).
    destruct (Ok_step false aw s Haw Hs (r_rq m) (r_rqin fa m i) reqs iss O HI R) as (_ & HI' & _).
    destruct (IH _ _ _ _ _ _ H' HI' F2) as (P' & iss' & X & Y). exists P', iss'.
    unfold r_taken, rlog, rmv_run, final in *. cbn [outs concat fold_left] in *. rewrite map_app, !app_assoc. split; [exact X|exact Y].
  Qed.
  Lemma inv_start q : q = rq_init -> inv s q [] [].
  Proof using. intros ->. exists []. split; [constructor|reflexivity]. Qed.
  Theorem r_packets fm ins : Forall (reasonable aw (2 ^ s)) (r_taken aw s fa (rmv_init fm) ins) ->
    let m := rmv_run aw s fa (rmv_init fm) ins in let T := map snd (r_taken aw s fa (rmv_init fm) ins) in
    let out := r_sent aw s fa (rmv_init fm) ins ++ waiting (r_ch m) in
    map fst out = r_words aw s fa (rmv_init fm) ins /\ begins (map snd out) (flags T) /\ (r_idle m = true -> map snd out = flags T).
  Proof using Haw Hs Hfa.
    intros F m T out. assert (EO : out = rlog (rmv_init fm) ins) by (unfold out, m; rewrite rlog_sent; reflexivity). rewrite EO. split; [apply rlog_words|].
    destruct (rinv_run ins (rmv_init fm) [] [] [] [] [] (rinv_init fm) (inv_start _ eq_refl) F) as (P & iss & (O & D & cur & ET & FT & IQ & BR & C) & _).
    cbn [app] in *. fold m in ET, IQ, BR, C. fold T in ET, FT. split.
    - destruct (r_run m).
      + destruct C as (n & -> & SZ & ML). rewrite ML. destruct (part_begins n (r_size m) ltac:(lia)) as (r & Er). exists (r ++ flags (P ++ unqueued (r_rq m))).
        rewrite ET, !flags_app, <- Er, <- !app_assoc. reflexivity.
      + destruct C as (-> & SZ & ML). rewrite ML, ET. exists (flags (P ++ unqueued (r_rq m))). rewrite !flags_app. reflexivity.
    - intros ID. unfold r_idle in ID. apply andb_true_iff in ID. destruct ID as (I1 & I2). apply andb_true_iff in I2. destruct I2 as (I2 & I3).
      rewrite (empty_list fa _ P ltac:(lia) IQ) in I2. destruct P; [|discriminate I2]. rewrite BR in I3. destruct (r_run m); [discriminate I3|]. destruct C as (-> & SZ & ML).
      unfold req_idle in I1. destruct (q_start (r_rq m)) eqn:St; [discriminate I1|]. rewrite ML, ET. unfold unqueued. rewrite St. cbn [app]. rewrite !app_nil_r. reflexivity.
  Qed.

  (** ** Liveness *)
  Definition due (ns : list Z) : Z := fold_right (fun n k => n + 1 + k) 0 ns.
  Lemma due_app a b : due (a ++ b) = due a + due b.
  Proof using. unfold due. induction a as [|x a IH]; cbn [app fold_right]; lia. Qed.
  Lemma due_pos ns : Forall (fun n => 1 <= n <= 2 ^ aw) ns -> 0 <= due ns /\ (ns <> [] -> 0 < due ns) /\ due ns <= 2 * sum ns.
  Proof using.
    clear Haw Hs Hfa. induction 1 as [|n l H F (I1 & I2 & I3)]; [cbn; repeat split; try lia; congruence|]. change (due (n :: l)) with (n + 1 + due l). change (sum (n :: l)) with (n + sum l). repeat split; intros; lia.
  Qed.
  Definition rmu (m : rmv) (P : list Z) : Z := measure (r_rq m) + due (unqueued (r_rq m)) + due P + (if r_run m then r_size m else 0).
  Definition rgood (i : rmv_in) : bool := x_arready i && x_rvalid i && x_tready i.
  Lemma rmu_step m i T L P : rinv m T L P -> x_req i = None ->
    let P' := (if r_start m then tl P else P) ++ rnew m in
    0 <= rmu m P /\ rmu (step m i) P' <= rmu m P /\ (rgood i = true -> 0 < rmu m P -> rmu (step m i) P' < rmu m P).
  Proof using Haw Hs Hfa.
    intros (O & D & cur & ET & FT & IQ & BR & C) NR P'.
    destruct (measure_step false aw s Haw Hs (r_rq m) (r_rqin fa m i) O NR) as (M0 & M1 & M2).
    assert (TK : take (r_rq m) (r_rqin fa m i) = None) by (unfold take; cbn [i_req r_rqin]; rewrite NR; destruct (req_idle (r_rq m)); reflexivity).
    pose proof (unqueued_step false aw s Haw Hs (r_rq m) (r_rqin fa m i) O ltac:(rewrite TK; discriminate)) as U. cbn [i_full r_rqin] in U. fold (rnew m) in U. fold (r_rqin fa m i) in U.
    unfold rq_taken in U. rewrite TK in U. cbn [map] in U. rewrite app_nil_r in U.
    assert (DU : due (unqueued (r_rq m)) = due (rnew m) + due (unqueued (r_rq (step m i)))) by (rewrite U, due_app; reflexivity).
    assert (F4 := FT). rewrite ET in F4. rewrite !Forall_app in F4. destruct F4 as (_ & FC & FP & FU).
    destruct (due_pos _ FP) as (P0 & P1 & _). destruct (due_pos _ FU) as (U0 & _ & _).
    unfold rmu. assert (R0 : 0 <= if r_run m then r_size m else 0) by (destruct (r_run m); [destruct C as (n & _ & SZ & _); lia|lia]).
    assert (ME : measure (r_rq (step m i)) <= measure (r_rq m)) by exact M1.
    assert (EP : due P' = due (if r_start m then tl P else P) + due (rnew m)) by (unfold P'; apply due_app). rewrite EP, DU.
    assert (W : due (if r_start m then tl P else P) + (if r_run (step m i) then r_size (step m i) else 0) <= due P + (if r_run m then r_size m else 0) /\
      (rgood i = true -> 0 < due P + (if r_run m then r_size m else 0) ->
       due (if r_start m then tl P else P) + (if r_run (step m i) then r_size (step m i) else 0) < due P + (if r_run m then r_size m else 0))).
    { cbn [rmv_step r_run r_size]. destruct (r_run m) eqn:RR.
      - assert (ST : r_start m = false) by (unfold r_start; rewrite RR; reflexivity). rewrite ST. destruct C as (n & -> & SZ & ML). unfold r_fin. rewrite RR. cbn [andb].
        inversion FC as [|? ? N1 _]; subst. destruct (r_wcond m i) eqn:WC.
        + rewrite Z.mod_small by (rewrite Z.pow_add_r by lia; change (2 ^ 1) with 2; lia). destruct (r_wlast m); cbn [andb negb]; split; intros; lia.
        + cbn [andb negb]. split; [lia|]. intros G _. exfalso. unfold rgood in G. apply andb_true_iff in G. destruct G as (G & G3). apply andb_true_iff in G. destruct G as (_ & G2).
          unfold r_wcond, r_rready, ch_ack in WC. rewrite G2, G3 in WC. cbn [orb andb] in WC. lia.
      - destruct C as (-> & SZ & ML). destruct (r_start m) eqn:ST.
        + assert (NE : P <> []).
          { intros ->. unfold r_start in ST. rewrite (empty_list fa _ [] ltac:(lia) IQ), !andb_false_r in ST. discriminate ST. }
          destruct P as [|n P]; [congruence|]. cbn [tl andb]. rewrite (rdata_list fa (r_q m) n P ltac:(lia) IQ). cbn [due fold_right]. fold (due P). split; intros; lia.
        + cbn [andb]. split; [lia|]. intros _ PD. exfalso. unfold r_start in ST. rewrite BR, RR in ST. cbn [negb andb] in ST. rewrite (empty_list fa _ P ltac:(lia) IQ) in ST.
          destruct P; [cbn in PD; lia|discriminate ST]. }
    destruct W as (W1 & W2). split; [lia|]. split; [lia|]. intros G PM.
    destruct (Z_lt_ge_dec 0 (due P + (if r_run m then r_size m else 0))) as [Y|Y]; [specialize (W2 G Y); lia|].
    assert (PE : P = []) by (destruct P; [reflexivity|]; specialize (P1 ltac:(discriminate)); lia).
    assert (GG : good (r_rqin fa m i) = true).
    { unfold good, r_rqin. cbn [i_ready i_full i_acc]. unfold rgood in G. apply andb_true_iff in G. destruct G as (G & _). apply andb_true_iff in G. destruct G as (G & _). rewrite G, andb_true_r. cbn [andb].
      unfold r_full. rewrite (afull_list fa _ P ltac:(lia) IQ), PE. cbn [length]. assert (4 <= 2 ^ fa) by (change 4 with (2 ^ 2); apply Z.pow_le_mono_r; lia). lia. }
    destruct (Z.eq_dec (measure (r_rq m)) 0) as [E|E].
    - exfalso. destruct (measure_zero aw s Haw Hs (r_rq m) O ltac:(lia)) as (I & _). unfold req_idle in I. destruct (q_start (r_rq m)) eqn:St; [discriminate I|].
      assert (UE : unqueued (r_rq m) = []) by (unfold unqueued; rewrite St; reflexivity). rewrite UE in DU. change (due []) with 0 in DU. clear - PM DU E Y. lia.
    - specialize (M2 GG ltac:(lia)). change (measure (rq_step false aw s (r_rq m) (r_rqin fa m i))) with (measure (r_rq (step m i))) in M2. lia.
  Qed.
  Lemma rmu_zero m T L P : rinv m T L P -> rmu m P <= 0 -> r_idle m = true.
  Proof using Haw Hs Hfa.
    intros (O & D & cur & ET & FT & IQ & BR & C) H. unfold rmu in H. rewrite ET in FT. rewrite !Forall_app in FT. destruct FT as (_ & FC & FP & FU).
    destruct (due_pos _ FP) as (P0 & P1 & _). destruct (due_pos _ FU) as (U0 & _ & _).
    destruct (measure_step false aw s Haw Hs (r_rq m) (mkRqIn None false false false) O eq_refl) as (M0 & _).
    assert (RN : r_run m = false) by (destruct (r_run m); [destruct C as (n & _ & SZ & _); lia|reflexivity]).
    assert (PE : P = []) by (destruct P; [reflexivity|]; specialize (P1 ltac:(discriminate)); destruct (r_run m); lia).
    rewrite RN in *. destruct (measure_zero aw s Haw Hs (r_rq m) O ltac:(lia)) as (I & _). unfold r_idle. rewrite I, (empty_list fa _ P ltac:(lia) IQ), PE, BR. reflexivity.
  Qed.
  Lemma no_taken ins : forall m, Forall (fun i => x_req i = None) ins -> r_taken aw s fa m ins = [].
  Proof using.
    induction ins as [|i ins IH]; intros m F; [reflexivity|]. inversion F as [|? ? E F']; subst. unfold r_taken in *. cbn [outs concat]. rewrite (IH _ F'), app_nil_r.
    unfold rq_taken, take. cbn [r_rqin i_req]. rewrite E. destruct (req_idle (r_rq m)); reflexivity.
  Qed.
  Lemma rmu_run more : forall m T L P reqs iss, rinv m T L P -> inv s (r_rq m) reqs iss -> Forall (fun i => x_req i = None) more -> rmu m P <= count (map rgood more) ->
    r_idle (rmv_run aw s fa m more) = true.
  Proof using Haw Hs Hfa.
    induction more as [|i more IH]; intros m T L P reqs iss H HI F C; [apply (rmu_zero m T L P H); exact C|]. inversion F as [|? ? E F']; subst.
    assert (TK : forall r, take (r_rq m) (r_rqin fa m i) = Some r -> reasonable aw (2 ^ s) r).
    { intros r. unfold take. cbn [i_req r_rqin]. rewrite E. destruct (req_idle (r_rq m)); discriminate. }
    pose proof (rinv_step m i T L P reqs iss H HI TK) as H'. destruct (rmu_step m i T L P H E) as (R0 & R1 & R2). pose proof H as (O & _).
    destruct (Ok_step false aw s Haw Hs (r_rq m) (r_rqin fa m i) reqs iss O HI TK) as (_ & HI' & _).
    unfold rmv_run, final in *. cbn [fold_left]. apply (IH _ _ _ _ _ _ H' HI' F'). assert (CN : 0 <= count (map rgood more)) by (clear; unfold count; induction (map rgood more) as [|b l I]; cbn [fold_right]; [lia|destruct b; cbn [b2z]; lia]).
    cbn [map] in C. change (count (rgood i :: map rgood more)) with (b2z (rgood i) + count (map rgood more)) in C. destruct (rgood i); cbn [b2z] in C; [|lia].
    destruct (Z_lt_ge_dec 0 (rmu m P)) as [Y|Y]; [specialize (R2 eq_refl Y); lia|lia].
  Qed.
  Lemma words_sum l : words l = sum (map snd l).
  Proof using. unfold words, sum. induction l as [|x l IH]; cbn [map fold_right]; lia. Qed.
  Theorem r_finish fm ins more : Forall (reasonable aw (2 ^ s)) (r_taken aw s fa (rmv_init fm) ins) -> Forall (fun i => x_req i = None) more ->
    5 * words (r_taken aw s fa (rmv_init fm) ins) + 1 <= count (map rgood more) ->
    r_idle (rmv_run aw s fa (rmv_init fm) (ins ++ more)) = true.
  Proof using Haw Hs Hfa.
    intros F NR CT. destruct (rinv_run ins (rmv_init fm) [] [] [] [] [] (rinv_init fm) (inv_start _ eq_refl) F) as (P & iss & H & HI). cbn [app] in *.
    unfold rmv_run, final in *. rewrite fold_left_app. apply (rmu_run more _ _ _ _ _ _ H HI NR).
    destruct H as (O & D & cur & ET & FT & IQ & BR & C). pose proof (measure_bound aw s Haw Hs _ _ _ O HI) as MB. unfold rmu.
    rewrite words_sum in MB, CT. rewrite ET in *. rewrite !Forall_app in FT. destruct FT as (FD & FC & FP & FU). rewrite !sum_app in *.
    destruct (due_pos _ FP) as (_ & _ & P2). destruct (due_pos _ FU) as (_ & _ & U2). destruct (due_pos _ FD) as (D0 & _ & D2).
    destruct (r_run (fold_left (rmv_step aw s fa) ins (rmv_init fm))).
    - destruct C as (n & -> & SZ & _). cbn [sum fold_right] in *. lia.
    - destruct C as (-> & _). cbn [sum fold_right] in *. lia.
  Qed.
End Read.

Lemma r_held aw s fa m i : h_valid (r_ch m) = true -> x_tready i = false -> r_ch (rmv_step aw s fa m i) = r_ch m.
Proof. intros V R. cbn [rmv_step r_ch]. apply ch_held; [apply wcond_ack|exact V|exact R]. Qed.

(** a data FSM started for no words never ends *)
Definition stuck (m : rmv) : Prop := r_run m = true /\ r_busy m = true /\ r_size m = 0 /\ h_valid (r_ch m) = false.
Lemma stuck_run aw s fa ins : forall m, stuck m -> stuck (rmv_run aw s fa m ins) /\ r_words aw s fa m ins = [] /\ r_sent aw s fa m ins = [].
Proof.
  induction ins as [|i ins IH]; intros m H; [auto|]. pose proof H as (A & B & C & D).
  assert (RR : r_rready m i = false) by (unfold r_rready; rewrite C; apply andb_false_r).
  assert (ST : r_start m = false) by (unfold r_start; rewrite A; reflexivity).
  assert (H' : stuck (rmv_step aw s fa m i)).
  { unfold stuck. cbn [rmv_step r_run r_busy r_size r_ch]. unfold r_fin, r_wcond. rewrite RR, A, B, ST, !andb_false_r. cbn [andb negb ch_step]. rewrite D. cbn [andb h_valid]. auto. }
  destruct (IH _ H') as (X & Y & W). unfold rmv_run, r_words, r_sent, final in *. cbn [outs concat fold_left]. rewrite Y, W, RR, andb_false_r. unfold ch_out. rewrite D. auto.
Qed.

(** ** Stream to bus *)
(** words of the request under way not yet asked for in bursts *)
Definition rem (q : rq) : Z := if q_start q then 0 else match rest q with Some (_, n) => n | None => 0 end.
Section WRQ.
  Variables (aw s : Z).
  Hypothesis Haw : 0 <= aw.
  Hypothesis Hs : 0 <= s <= 12.
  Lemma rem_begin q i : Ok aw s q -> q_begin q (i_full i) = true -> issue true q i = false /\ rem q = 0 /\ 1 <= q_size q /\ rem (rq_step true aw s q i) = q_size q.
  Proof using Haw Hs.
    intros O QB. unfold q_begin in QB. destruct (q_state q) eqn:S1; [discriminate QB|]. destruct (q_start q) eqn:St; [|discriminate QB]. destruct (i_full i) eqn:Fu; [discriminate QB|].
    assert (IS : issue true q i = false) by (unfold issue; rewrite S1; reflexivity). split; [exact IS|].
    destruct (ok_rest aw s q O (q_addr q) (q_size q)) as ((k & Hk) & H1 & H2 & H3); [unfold rest; rewrite S1, St; reflexivity|].
    destruct (split_ok aw s Haw Hs (q_addr q) k (q_size q) Hk H1 H2 H3) as (c & EC & C1 & C2 & _).
    assert (T : take q i = None) by (unfold take, req_idle; rewrite St; reflexivity).
    unfold rem. rewrite St. split; [reflexivity|]. split; [exact H2|]. cbn [rq_step q_start q_state q_cur q_size]. unfold rest. cbn [rq_step q_start q_state q_cur q_size q_addr].
    unfold check_cond. rewrite S1, St, Fu, T, EC. cbn [negb andb orb fst snd]. lia.
  Qed.
  Lemma rem_issue q i : Ok aw s q -> issue true q i = true -> q_begin q (i_full i) = false /\ rem q = q_cur q + q_size q /\ 1 <= q_cur q /\ 0 <= q_size q /\ rem (rq_step true aw s q i) = q_size q.
  Proof using Haw Hs.
    intros O IS. assert (S1 : q_state q = true) by (unfold issue in IS; destruct (q_state q); [reflexivity|discriminate IS]).
    destruct (ok_flags aw s q O) as (F1 & F2 & F3 & F4). destruct (F1 S1) as (St & Bu). destruct (ok_cur aw s q O S1) as (C1 & C2 & _).
    split; [unfold q_begin; rewrite S1; reflexivity|]. unfold rem. rewrite St. unfold rest at 1. rewrite S1. split; [reflexivity|]. split; [lia|]. split; [lia|].
    assert (T : take q i = None) by (unfold take, req_idle; rewrite Bu, andb_false_r; reflexivity).
    cbn [rq_step q_start]. rewrite St, T. cbn [andb]. unfold rest. cbn [rq_step q_start q_state q_cont q_size q_addr q_cur]. unfold check_cond. rewrite S1, St, IS, T. cbn [andb negb orb].
    destruct (q_size q =? 0) eqn:E; [lia|reflexivity].
  Qed.
  Lemma rem_other q i : Ok aw s q -> q_begin q (i_full i) = false -> issue true q i = false -> rem (rq_step true aw s q i) = rem q.
  Proof using Haw Hs.
    intros O QB IS. destruct (ok_flags aw s q O) as (F1 & F2 & F3 & F4). unfold rem, rest. cbn [rq_step q_start q_state q_cont q_size q_addr q_cur].
    destruct (q_state q) eqn:S1.
    - destruct (F1 eq_refl) as (St & Bu). assert (T : take q i = None) by (unfold take, req_idle; rewrite Bu, andb_false_r; reflexivity).
      unfold check_cond. rewrite S1, St, IS, T. cbn [andb negb orb]. reflexivity.
    - unfold q_begin in QB. rewrite S1 in QB. cbn [negb andb] in QB. rewrite IS. cbn [andb]. destruct (q_start q) eqn:St.
      + destruct (i_full i) eqn:Fu; [|discriminate QB]. reflexivity.
      + cbn [andb orb]. unfold check_cond. rewrite S1, St. cbn [negb andb orb]. destruct (q_cont q) eqn:Co.
        * destruct (F3 eq_refl eq_refl) as (_ & Bu). assert (T : take q i = None) by (unfold take, req_idle; rewrite Bu, andb_false_r; reflexivity). rewrite T.
          destruct (i_full i); cbn [negb andb]; [reflexivity|].
          destruct (ok_rest aw s q O (q_addr q) (q_size q)) as ((k & Hk) & H1 & H2 & H3); [unfold rest; rewrite S1, St, Co; reflexivity|].
          destruct (split_ok aw s Haw Hs (q_addr q) k (q_size q) Hk H1 H2 H3) as (c & EC & C1 & C2 & _). rewrite EC. cbn [fst snd]. lia.
        * cbn [andb]. destruct (take q i) as [[a n]|]; reflexivity.
  Qed.
  Lemma rem_bound q : Ok aw s q -> 0 <= rem q <= 2 ^ aw.
  Proof using Haw Hs.
    intros O. unfold rem. pose proof (Z.pow_pos_nonneg 2 aw ltac:(lia) Haw). destruct (q_start q); [lia|]. destruct (rest q) as [[a n]|] eqn:E; [|lia].
    destruct (ok_rest aw s q O a n E) as (_ & H1 & H2 & H3). pose proof (B_pos s Hs) as BP. clear - BP H1 H2 H3 H. nia.
  Qed.
End WRQ.

(** the queue of totals and bursts, read with [e] words of the current total still to come *)
Fixpoint left (e : Z) (P : list Z) : option Z :=
  match P with
  | [] => Some e
  | x :: P => if e =? 0 then if 1 <=? x then left x P else None else if (1 <=? x) && (x <=? e) then left (e - x) P else None
  end.
Fixpoint bin (e : Z) (P : list Z) : list Z :=
  match P with [] => [] | x :: P => if e =? 0 then bin x P else x :: bin (e - x) P end.
Fixpoint tot (e : Z) (P : list Z) : Z :=
  match P with [] => 0 | x :: P => if e =? 0 then x + tot x P else tot (e - x) P end.
Lemma left_total P : forall e n, left e P = Some 0 -> 1 <= n -> left e (P ++ [n]) = Some n /\ bin e (P ++ [n]) = bin e P /\ tot e (P ++ [n]) = tot e P + n.
Proof.
  induction P as [|x P IH]; intros e n H N; cbn [app left bin tot] in *.
  - injection H as ->. change (0 =? 0) with true. cbn iota. replace (1 <=? n) with true by lia. repeat split; lia.
  - destruct (e =? 0).
    + destruct (1 <=? x); [|discriminate H]. destruct (IH x n H N) as (A & B & C). rewrite A, B, C. repeat split; lia.
    + destruct ((1 <=? x) && (x <=? e)); [|discriminate H]. destruct (IH _ n H N) as (A & B & C). rewrite A, B, C. repeat split; lia.
Qed.
Lemma left_burst P : forall e b r, left e P = Some (b + r) -> 1 <= b -> 0 <= r -> left e (P ++ [b]) = Some r /\ bin e (P ++ [b]) = bin e P ++ [b] /\ tot e (P ++ [b]) = tot e P.
Proof.
  induction P as [|x P IH]; intros e b r H N R; cbn [app left bin tot] in *.
  - injection H as ->. replace (b + r =? 0) with false by lia. replace ((1 <=? b) && (b <=? b + r)) with true by lia. replace (b + r - b) with r by lia. repeat split.
  - destruct (e =? 0).
    + destruct (1 <=? x); [|discriminate H]. destruct (IH x b r H N R) as (A & B & C). rewrite A, B, C. repeat split.
    + destruct ((1 <=? x) && (x <=? e)); [|discriminate H]. destruct (IH _ b r H N R) as (A & B & C). rewrite A, B, C. repeat split.
Qed.
Lemma tot_nonneg P : forall e r, 0 <= e -> left e P = Some r -> 0 <= tot e P.
Proof.
  induction P as [|x P IH]; intros e r E H; cbn [left tot] in *; [lia|]. destruct (e =? 0).
  - destruct (1 <=? x) eqn:X; [|discriminate H]. specialize (IH x r ltac:(lia) H). lia.
  - destruct ((1 <=? x) && (x <=? e)) eqn:X; [|discriminate H]. apply (IH (e - x) r); [lia|exact H].
Qed.

Section Write.
  Variables (aw s fa : Z).
  Hypothesis Haw : 0 <= aw.
  Hypothesis Hs : 0 <= s <= 12.
  Hypothesis Hfa : 2 <= fa.
  Notation step := (wmv_step aw s fa).
  Definition lots (ns : list Z) : Z := fold_right (fun n k => 2 * n + 1 + k) 0 ns.
  Lemma lots_app a b : lots (a ++ b) = lots a + lots b.
  Proof using. clear. unfold lots. induction a as [|x a IH]; cbn [app fold_right]; lia. Qed.
  (** the data side: state, count, size, queue, words the queue still lacks, bursts asked for, words sent *)
  Definition dinv (run : bool) (c z : Z) (P : list Z) (R : Z) (Bs : list Z) (L : list (Z * bool)) : Prop :=
    left (c - z) P = Some R /\ Forall (fun n => n <= 2 ^ aw) P /\
    (if run then 1 <= c <= 2 ^ aw /\ 0 <= z <= c else c = 0 /\ z = 0) /\
    exists F cur, Bs = F ++ cur ++ bin (c - z) P /\
      if z =? 0 then cur = [] /\ map snd L = flags F else exists b, cur = [b] /\ 1 <= z <= b /\ map snd L = flags F ++ part b z.
  Definition dwork (c z : Z) (P : list Z) : Z := Z.of_nat (length P) + c + tot (c - z) P.
  Definition wword (m : wmv) (i : wmv_in) : list (Z * bool) := if w_wcond m i then [(y_tdata i, w_wlast m)] else [].
  Definition wpop (m : wmv) (P : list Z) : list Z := if w_start m || w_next m then tl P else P.
  Definition wgood (i : wmv_in) : bool := y_awready i && y_acc i && y_wready i && y_tvalid i.
  Lemma dinv_data m i P R Bs L : Inv (2 ^ fa) (w_q m) P -> w_busy m = w_run m -> dinv (w_run m) (w_count m) (w_size m) P R Bs L ->
    let m' := step m i in
    dinv (w_run m') (w_count m') (w_size m') (wpop m P) R Bs (L ++ wword m i) /\ w_busy m' = w_run m' /\
    dwork (w_count m') (w_size m') (wpop m P) <= dwork (w_count m) (w_size m) P /\
    (wgood i = true -> P <> [] \/ 0 < w_size m -> dwork (w_count m') (w_size m') (wpop m P) < dwork (w_count m) (w_size m) P).
  Proof using Haw Hs Hfa.
    intros IQ BR (HL & HP & HC & F & cur & EB & HF). cbv zeta. cbn [wmv_step w_run w_count w_size w_busy].
    assert (EM : p_empty (w_q m) = match P with [] => true | _ => false end) by (rewrite (empty_list fa _ P ltac:(lia) IQ); destruct P; reflexivity).
    pose proof (Z.pow_pos_nonneg 2 aw ltac:(lia) Haw) as PA. assert (PA' : 2 ^ (aw + 1) = 2 * 2 ^ aw) by (rewrite Z.pow_add_r by lia; change (2 ^ 1) with 2; lia).
    destruct (w_run m) eqn:RR.
    - assert (ST : w_start m = false) by (unfold w_start; rewrite RR; reflexivity). unfold wpop. rewrite ST. cbn [orb andb].
      destruct (Z.eq_dec (w_size m) 0) as [Z0|Z0].
      + assert (WC : w_wcond m i = false) by (unfold w_wcond, w_rready; rewrite Z0; change (0 <? 0) with false; rewrite !andb_false_r; reflexivity).
        assert (LW : L ++ wword m i = L) by (unfold wword; rewrite WC; apply app_nil_r). rewrite LW. unfold w_fin. rewrite RR, WC. cbn [andb negb]. rewrite BR.
        unfold w_next. rewrite RR, EM, Z0 in *. change (0 =? 0) with true in *. cbn [andb] in *. rewrite andb_true_r. destruct HF as (-> & HF).
        destruct P as [|x P]; cbn [negb].
        * split; [|split; [reflexivity|split; [lia|intros _ [X|X]; [congruence|lia]]]]. split; [exact HL|]. split; [exact HP|]. split; [exact HC|]. exists F, []. change (0 =? 0) with true. auto.
        * rewrite (rdata_list fa (w_q m) x P ltac:(lia) IQ). cbn [tl]. cbn [left bin] in HL, EB. replace (w_count m - 0 =? 0) with false in * by lia.
          destruct ((1 <=? x) && (x <=? w_count m - 0)) eqn:X; [|discriminate HL]. rewrite Z.sub_0_r in *. inversion HP as [|? ? X1 X2]; subst.
          split; [|split; [reflexivity|]].
          -- split; [exact HL|]. split; [exact X2|]. split; [lia|]. exists F, [x]. split; [cbn [app]; reflexivity|]. replace (x =? 0) with false by lia. exists x. split; [reflexivity|]. split; [lia|].
             unfold part. rewrite Z.sub_diag. cbn [Z.to_nat repeat]. rewrite app_nil_r. exact HF.
          -- unfold dwork. cbn [length tot]. rewrite Z.sub_0_r. replace (w_count m =? 0) with false by lia. split; intros; lia.
      + assert (NX : w_next m = false) by (unfold w_next; replace (w_size m =? 0) with false by lia; rewrite !andb_false_r; reflexivity). rewrite NX.
        replace (w_size m =? 0) with false in HF by lia. destruct HF as (b & -> & SZ & HF). unfold w_fin. rewrite RR. destruct (w_wcond m i) eqn:WC.
        * cbn [andb]. rewrite !Z.mod_small by lia. replace (w_count m - 1 - (w_size m - 1)) with (w_count m - w_size m) by lia. split; [|split].
          -- split; [replace (w_count m - 1 - (w_size m - 1)) with (w_count m - w_size m) by lia; exact HL|]. split; [exact HP|]. split; [destruct (w_count m =? 1) eqn:C1; cbn [negb]; lia|].
             replace (w_count m - 1 - (w_size m - 1)) with (w_count m - w_size m) by lia. unfold wword. rewrite WC, map_app, HF. cbn [map snd]. unfold w_wlast. destruct (Z.eq_dec (w_size m) 1) as [E1|E1].
             ++ exists (F ++ [b]), []. split; [rewrite <- app_assoc; exact EB|]. rewrite E1. change (1 - 1 =? 0) with true. split; [reflexivity|]. rewrite flags_app, <- app_assoc. f_equal. apply part_last. lia.
             ++ exists F, [b]. split; [exact EB|]. replace (w_size m - 1 =? 0) with false by lia. exists b. split; [reflexivity|]. split; [lia|]. rewrite <- app_assoc. f_equal. apply part_step. lia.
          -- destruct (w_count m =? 1); [reflexivity|exact BR].
          -- unfold dwork. replace (w_count m - 1 - (w_size m - 1)) with (w_count m - w_size m) by lia. split; intros; lia.
        * cbn [andb negb]. rewrite BR. unfold wword. rewrite WC, app_nil_r. split; [|split; [reflexivity|split; [lia|]]].
          -- split; [exact HL|]. split; [exact HP|]. split; [exact HC|]. exists F, [b]. split; [exact EB|]. replace (w_size m =? 0) with false by lia. exists b. auto.
          -- intros G _. exfalso. unfold wgood in G. apply andb_true_iff in G. destruct G as (G & G4). apply andb_true_iff in G. destruct G as (_ & G3).
             unfold w_wcond, w_rready, ch_ack in WC. rewrite G3, G4 in WC. cbn [orb andb] in WC. lia.
    - destruct HC as (C0 & Z0). assert (WC : w_wcond m i = false) by (unfold w_wcond, w_rready; rewrite Z0; change (0 <? 0) with false; rewrite !andb_false_r; reflexivity).
      assert (LW : L ++ wword m i = L) by (unfold wword; rewrite WC; apply app_nil_r). rewrite LW. unfold w_fin. rewrite RR. cbn [andb].
      assert (NX : w_next m = false) by (unfold w_next; rewrite RR; reflexivity). unfold wpop. rewrite NX, orb_false_r. rewrite Z0, C0 in *. change (0 =? 0) with true in HF. destruct HF as (-> & HF).
      assert (ST : w_start m = negb match P with [] => true | _ => false end) by (unfold w_start; rewrite RR, BR, EM; reflexivity). rewrite ST.
      destruct P as [|x P]; cbn [negb].
      + split; [|split; [exact BR|split; [lia|intros _ [X|X]; [congruence|lia]]]]. split; [exact HL|]. split; [exact HP|]. split; [split; reflexivity|]. exists F, []. split; [exact EB|]. split; [reflexivity|exact HF].
      + rewrite (rdata_list fa (w_q m) x P ltac:(lia) IQ). cbn [tl]. cbn [left bin] in HL, EB. change (0 - 0 =? 0) with true in *. cbn iota in HL, EB. destruct (1 <=? x) eqn:X; [|discriminate HL].
        inversion HP as [|? ? X1 X2]; subst. split; [|split; [reflexivity|]].
        * rewrite <- (Z.sub_0_r x) in HL. split; [exact HL|]. split; [exact X2|]. split; [lia|]. exists F, []. rewrite Z.sub_0_r. split; [reflexivity|]. split; [reflexivity|exact HF].
        * unfold dwork. cbn [length tot]. change (0 - 0 =? 0) with true. cbn iota. rewrite Z.sub_0_r. split; intros; lia.
  Qed.

  Lemma push_total run c z P Bs L n : dinv run c z P 0 Bs L -> 1 <= n <= 2 ^ aw -> dinv run c z (P ++ [n]) n Bs L /\ dwork c z (P ++ [n]) = dwork c z P + 1 + n.
  Proof using.
    intros (HL & HP & HC & HF) N. destruct (left_total P (c - z) n HL ltac:(lia)) as (A & B & C). split.
    - split; [exact A|]. split; [apply Forall_app; split; [exact HP|constructor; [lia|constructor]]|]. split; [exact HC|]. rewrite B. exact HF.
    - unfold dwork. rewrite C, app_length. cbn [length]. lia.
  Qed.
  Lemma push_burst run c z P Bs L b r : dinv run c z P (b + r) Bs L -> 1 <= b <= 2 ^ aw -> 0 <= r -> dinv run c z (P ++ [b]) r (Bs ++ [b]) L /\ dwork c z (P ++ [b]) = dwork c z P + 1.
  Proof using.
    intros (HL & HP & HC & F & cur & EB & HF) N R. destruct (left_burst P (c - z) b r HL ltac:(lia) R) as (A & B & C). split.
    - split; [exact A|]. split; [apply Forall_app; split; [exact HP|constructor; [lia|constructor]]|]. split; [exact HC|]. exists F, cur. rewrite B, EB, <- !app_assoc. auto.
    - unfold dwork. rewrite C, app_length. cbn [length]. lia.
  Qed.
  Notation rem := Mover_Proofs.rem.
  (** [T]: sizes of the requests *)
  Definition winv (m : wmv) (T Bs : list Z) (L : list (Z * bool)) (P : list Z) : Prop :=
    Ok aw s (w_rq m) /\ Inv (2 ^ fa) (w_q m) P /\ w_busy m = w_run m /\ dinv (w_run m) (w_count m) (w_size m) P (rem (w_rq m)) Bs L /\
    sum T = sum Bs + rem (w_rq m) + sum (unqueued (w_rq m)) /\ dwork (w_count m) (w_size m) P + rem (w_rq m) + lots (unqueued (w_rq m)) <= lots T.
  Definition wnewt (m : wmv) : list Z := if q_begin (w_rq m) (w_full fa m) then [q_size (w_rq m)] else [].
  Definition wnewb (m : wmv) (i : wmv_in) : list Z := if issue true (w_rq m) (w_rqin fa m i) then [q_cur (w_rq m)] else [].
  Definition wpush (m : wmv) (i : wmv_in) (P : list Z) : list Z := wpop m P ++ wnewt m ++ wnewb m i.
  Lemma winv_step m i T Bs L P reqs iss : winv m T Bs L P -> inv s (w_rq m) reqs iss -> (forall r, take (w_rq m) (w_rqin fa m i) = Some r -> reasonable aw (2 ^ s) r) ->
    let tk := map snd (rq_taken (w_rq m) (w_rqin fa m i)) in
    let E m P := dwork (w_count m) (w_size m) P + rem (w_rq m) + lots (unqueued (w_rq m)) in
    winv (step m i) (T ++ tk) (Bs ++ wnewb m i) (L ++ wword m i) (wpush m i P) /\
    E (step m i) (wpush m i P) <= E m P + lots tk /\
    (wgood i = true -> P <> [] \/ 0 < w_size m -> E (step m i) (wpush m i P) < E m P + lots tk).
  Proof using Haw Hs Hfa.
    intros (O & IQ & BR & DI & SU & WO) HI R tk E.
    destruct (Ok_step true aw s Haw Hs (w_rq m) (w_rqin fa m i) reqs iss O HI R) as (O' & _ & _). change (rq_step true aw s (w_rq m) (w_rqin fa m i)) with (w_rq (step m i)) in O'.
    pose proof (unqueued_step true aw s Haw Hs (w_rq m) (w_rqin fa m i) O R) as U. cbn [i_full w_rqin] in U. fold (wnewt m) in U. fold (w_rqin fa m i) in U. fold tk in U.
    change (rq_step true aw s (w_rq m) (w_rqin fa m i)) with (w_rq (step m i)) in U.
    destruct (dinv_data m i P (rem (w_rq m)) Bs L IQ BR DI) as (DI' & BR' & W1 & W2). set (m' := step m i) in *.
    assert (IQ' : Inv (2 ^ fa) (w_q m') (wpush m i P)).
    { unfold m'. cbn [wmv_step w_q]. assert (ED : deq_rtl (w_q m) (w_start m || w_next m) = w_start m || w_next m).
      { unfold deq_rtl, deq_ready, w_start, w_next. destruct (p_empty (w_q m)); [rewrite !andb_false_r; reflexivity|rewrite !andb_true_r; reflexivity]. }
      rewrite ED. assert (NE : w_start m || w_next m = true -> P <> []).
      { unfold w_start, w_next. rewrite (empty_list fa _ P ltac:(lia) IQ). destruct P; [rewrite !andb_false_r; discriminate|discriminate]. }
      pose proof (fstep_list fa (w_q m) P (w_enq fa m i) (w_enqdata fa m i) (w_start m || w_next m) ltac:(lia) IQ NE) as X.
      replace (if w_enq fa m i && negb (p_almost_full fa (w_q m)) then [w_enqdata fa m i] else []) with (wnewt m ++ wnewb m i) in X; [exact X|].
      unfold wnewt, wnewb, w_enq, w_enqdata. destruct (issue true (w_rq m) (w_rqin fa m i)) eqn:IS.
      - destruct (rem_issue aw s Haw Hs _ _ O IS) as (QB & _). cbn [i_full w_rqin] in QB. rewrite QB. cbn [orb app]. unfold issue in IS. cbn [i_full w_rqin] in IS. unfold w_full in IS.
        destruct (p_almost_full fa (w_q m)); [cbn [negb] in IS; rewrite !andb_false_l, !andb_false_r in IS; discriminate IS|reflexivity].
      - rewrite orb_false_r, app_nil_r. unfold q_begin, w_full. destruct (p_almost_full fa (w_q m)); [rewrite !andb_false_r; reflexivity|rewrite !andb_true_r; reflexivity]. }
    assert (K : dinv (w_run m') (w_count m') (w_size m') (wpush m i P) (rem (w_rq m')) (Bs ++ wnewb m i) (L ++ wword m i) /\
      sum (T ++ tk) = sum (Bs ++ wnewb m i) + rem (w_rq m') + sum (unqueued (w_rq m')) /\
      E m' (wpush m i P) <= dwork (w_count m') (w_size m') (wpop m P) + rem (w_rq m) + lots (unqueued (w_rq m)) + lots tk).
    { pose proof (f_equal sum U) as US. pose proof (f_equal lots U) as UL. rewrite !sum_app in US. rewrite !lots_app in UL. unfold wpush, E. rewrite !sum_app. destruct (q_begin (w_rq m) (w_full fa m)) eqn:QB.
      - destruct (rem_begin aw s Haw Hs (w_rq m) (w_rqin fa m i) O QB) as (IS & R0 & N1 & R'). change (rem (rq_step true aw s (w_rq m) (w_rqin fa m i))) with (rem (w_rq m')) in R'.
        unfold wnewt, wnewb in *. rewrite QB, IS in *. rewrite R0 in DI'. assert (N2 : q_size (w_rq m) <= 2 ^ aw).
        { pose proof (rem_bound aw s Haw Hs (w_rq m') O') as RB. rewrite R' in RB. lia. }
        destruct (push_total _ _ _ _ _ _ (q_size (w_rq m)) DI' ltac:(lia)) as (X & Y). cbn [app]. rewrite !app_nil_r, R'. split; [exact X|]. rewrite Y. cbn [sum lots fold_right] in *. lia.
      - unfold wnewt in *. rewrite QB in *. cbn [app] in *. unfold wnewb. destruct (issue true (w_rq m) (w_rqin fa m i)) eqn:IS.
        + destruct (rem_issue aw s Haw Hs (w_rq m) (w_rqin fa m i) O IS) as (_ & R0 & C1 & C2 & R'). change (rem (rq_step true aw s (w_rq m) (w_rqin fa m i))) with (rem (w_rq m')) in R'.
          pose proof (rem_bound aw s Haw Hs (w_rq m) O) as RB. rewrite R0 in DI', RB. destruct (push_burst _ _ _ _ _ _ (q_cur (w_rq m)) (q_size (w_rq m)) DI' ltac:(lia) C2) as (X & Y).
          rewrite R'. split; [exact X|]. rewrite Y. cbn [sum lots fold_right] in *. lia.
        + pose proof (rem_other aw s Haw Hs (w_rq m) (w_rqin fa m i) O QB IS) as R'. change (rem (rq_step true aw s (w_rq m) (w_rqin fa m i))) with (rem (w_rq m')) in R'.
          rewrite !app_nil_r, R'. split; [exact DI'|]. cbn [sum lots fold_right] in *. lia. }
    destruct K as (K1 & K2 & K3). split; [|split].
    - split; [exact O'|]. split; [exact IQ'|]. split; [exact BR'|]. split; [exact K1|]. split; [exact K2|]. rewrite lots_app. unfold E in K3. lia.
    - unfold E in *. lia.
    - intros G X. specialize (W2 G X). unfold E in *. lia.
  Qed.
  Lemma winv_init fm : winv (wmv_init fm) [] [] [] [].
  Proof using Haw Hs Hfa.
    split; [apply Ok_init|]. split; [apply (init_inv fa ltac:(lia))|]. split; [reflexivity|]. split; [|split; [reflexivity|vm_compute; discriminate]].
    split; [reflexivity|]. split; [constructor|]. split; [split; reflexivity|]. exists [], []. repeat split.
  Qed.
  Definition wqins (m : wmv) (ins : list wmv_in) : list rq_in := outs step (w_rqin fa) m ins.
  Lemma wq_same ins : forall m, w_rq (wmv_run aw s fa m ins) = rq_run true aw s (w_rq m) (wqins m ins) /\
    w_taken aw s fa m ins = taken true aw s (w_rq m) (wqins m ins) /\ w_bursts aw s fa m ins = bursts true aw s (w_rq m) (wqins m ins).
  Proof using.
    induction ins as [|i ins IH]; intros m; [repeat split|]. destruct (IH (step m i)) as (A & B & C).
    unfold wmv_run, rq_run, w_taken, taken, w_bursts, bursts, wqins, final in *. cbn [outs concat fold_left] in *. split; [exact A|]. split; f_equal; assumption.
  Qed.
  Definition wlog (m : wmv) (ins : list wmv_in) : list (Z * bool) := concat (outs step wword m ins).
  Lemma wlog_words ins : forall m, map fst (wlog m ins) = w_words aw s fa m ins.
  Proof using.
    induction ins as [|i ins IH]; intros m; [reflexivity|]. unfold wlog, w_words in *. cbn [outs concat]. rewrite map_app, IH. f_equal. unfold wword, w_wcond. destruct (y_tvalid i && w_rready m i); reflexivity.
  Qed.
  Lemma wcond_ackw m i x : (if w_wcond m i then Some (y_tdata i, w_wlast m) else None) = Some x -> ch_ack (w_ch m) (y_wready i) = true.
  Proof using. unfold w_wcond, w_rready. destruct (ch_ack (w_ch m) (y_wready i)); [reflexivity|]. rewrite andb_false_l, andb_false_r. discriminate. Qed.
  Lemma wlog_sent ins : forall m, w_sent aw s fa m ins ++ waiting (w_ch (wmv_run aw s fa m ins)) = waiting (w_ch m) ++ wlog m ins.
  Proof using.
    induction ins as [|i ins IH]; intros m; [cbn; rewrite app_nil_r; reflexivity|]. unfold wlog, w_sent, wmv_run, final in *. cbn [outs concat fold_left].
    rewrite <- app_assoc, IH, !app_assoc. f_equal. cbn [wmv_step w_ch]. rewrite ch_log; [|exact (wcond_ackw m i)]. f_equal. unfold wword. destruct (w_wcond m i); reflexivity.
  Qed.
  Lemma winv_run ins : forall m T Bs L P reqs iss, winv m T Bs L P -> inv s (w_rq m) reqs iss -> Bs = map snd iss -> Forall (reasonable aw (2 ^ s)) (w_taken aw s fa m ins) ->
    exists P' more, let m' := wmv_run aw s fa m ins in
      winv m' (T ++ map snd (w_taken aw s fa m ins)) (map snd (iss ++ more)) (L ++ wlog m ins) P' /\
      inv s (w_rq m') (reqs ++ w_taken aw s fa m ins) (iss ++ more) /\ w_bursts aw s fa m ins ++ pend (w_rq m') = pend (w_rq m) ++ more.
  Proof using Haw Hs Hfa.
    induction ins as [|i ins IH]; intros m T Bs L P reqs iss H HI EB F.
    { exists P, []. cbn. rewrite !app_nil_r, <- EB. auto. }
    unfold w_taken in F. cbn [outs concat] in F. apply Forall_app in F. destruct F as (F1 & F2).
    assert (R : forall r, take (w_rq m) (w_rqin fa m i) = Some r -> reasonable aw (2 ^ s) r).
    { intros r E. unfold rq_taken in F1. rewrite E in F1. exact (Forall_inv F1). }
    destruct (winv_step m i T Bs L P reqs iss H HI R) as (H' & _). destruct H as (O & _).
    destruct (Ok_step true aw s Haw Hs (w_rq m) (w_rqin fa m i) reqs iss O HI R) as (_ & HI' & EP).
    set (ld := if ch_load true (w_rq m) (w_rqin fa m i) then [(q_addr (w_rq m), q_cur (w_rq m))] else []) in *.
    assert (EN : Bs ++ wnewb m i = map snd (iss ++ ld)).
    { rewrite map_app, EB. f_equal. unfold wnewb, ld, ch_load. destruct (issue true (w_rq m) (w_rqin fa m i)) eqn:IS; [|reflexivity].
      destruct (rem_issue aw s Haw Hs (w_rq m) (w_rqin fa m i) O IS) as (_ & _ & C1 & _). replace (q_cur (w_rq m) =? 0) with false by lia. reflexivity. }
    destruct (IH _ _ _ _ _ _ _ H' HI' EN F2) as (P' & more & X & Y & W). exists P', (ld ++ more). cbv zeta in *.
    unfold w_taken, wlog, wmv_run, w_bursts, final in *. cbn [outs concat fold_left] in *. rewrite (app_assoc iss), !map_app, !app_assoc in *. split; [exact X|]. split; [exact Y|].
    rewrite <- app_assoc, W, app_assoc. f_equal. exact EP.
  Qed.
  Lemma w_start_inv q : q = rq_init -> inv s q [] [].
  Proof using. intros ->. exists []. split; [constructor|reflexivity]. Qed.
  Lemma tail_flags b r : 1 <= r <= b -> begins (part b r) (flags [b]).
  Proof using. apply part_begins. Qed.
  Theorem w_packets fm ins : Forall (reasonable aw (2 ^ s)) (w_taken aw s fa (wmv_init fm) ins) ->
    let m := wmv_run aw s fa (wmv_init fm) ins in
    let out := w_sent aw s fa (wmv_init fm) ins ++ waiting (w_ch m) in
    let bs := w_bursts aw s fa (wmv_init fm) ins ++ pend (w_rq m) in
    map fst out = w_words aw s fa (wmv_init fm) ins /\ begins (map snd out) (flags (map snd bs)) /\
    (w_idle m = true -> map snd out = flags (map snd bs) /\ words bs = words (w_taken aw s fa (wmv_init fm) ins)).
  Proof using Haw Hs Hfa.
    intros F m out bs. assert (EO : out = wlog (wmv_init fm) ins) by (unfold out, m; rewrite wlog_sent; reflexivity). rewrite EO. split; [apply wlog_words|].
    destruct (winv_run ins (wmv_init fm) [] [] [] [] [] [] (winv_init fm) (w_start_inv _ eq_refl) eq_refl F) as (P & more & (O & IQ & BR & DI & SU & _) & _ & EP).
    cbn [app] in *. fold m in O, IQ, BR, DI, SU, EP. fold bs in EP. change (pend (w_rq (wmv_init fm))) with (@nil (Z * Z)) in EP. cbn [app] in EP. rewrite <- EP in *.
    destruct DI as (HL & HP & HC & G & cur & EB & HF). split.
    - rewrite EB. destruct (w_size m =? 0).
      + destruct HF as (-> & ->). eexists. rewrite !flags_app. reflexivity.
      + destruct HF as (b & -> & SZ & ->). destruct (part_begins b (w_size m) ltac:(lia)) as (r & Er). exists (r ++ flags (bin (w_count m - w_size m) P)). rewrite !flags_app, <- Er, <- !app_assoc. reflexivity.
    - intros ID. unfold w_idle in ID. apply andb_true_iff in ID. destruct ID as (I1 & I2). apply andb_true_iff in I2. destruct I2 as (I2 & I3).
      rewrite (empty_list fa _ P ltac:(lia) IQ) in I2. destruct P; [|discriminate I2]. rewrite BR in I3. destruct (w_run m); [discriminate I3|]. destruct HC as (C0 & Z0).
      rewrite Z0 in HF. change (0 =? 0) with true in HF. destruct HF as (-> & ->). cbn [bin app] in EB. rewrite app_nil_r in EB. rewrite EB. split; [reflexivity|].
      rewrite !words_sum, SU. unfold rem, unqueued. pose proof (req_idle_rest aw s _ O I1) as RN. rewrite RN. unfold req_idle in I1. destruct (q_start (w_rq m)); [discriminate I1|]. cbn [sum fold_right]. fold sum. lia.
  Qed.
  Definition wmu (m : wmv) (P : list Z) : Z := measure (w_rq m) + (dwork (w_count m) (w_size m) P + rem (w_rq m) + lots (unqueued (w_rq m))).
  Lemma lots_nonneg l : Forall (fun n => 1 <= n <= 2 ^ aw) l -> 0 <= lots l /\ lots l <= 3 * sum l.
  Proof using. clear. induction 1 as [|n l H F IH]; [cbn; lia|]. change (lots (n :: l)) with (2 * n + 1 + lots l). change (sum (n :: l)) with (n + sum l). lia. Qed.
  Lemma work_nonneg m T Bs L P : winv m T Bs L P -> 0 <= dwork (w_count m) (w_size m) P + rem (w_rq m) + lots (unqueued (w_rq m)) /\ 0 <= rem (w_rq m) /\ 0 <= lots (unqueued (w_rq m)) /\
    0 <= dwork (w_count m) (w_size m) P /\ 0 <= w_count m /\ 0 <= w_size m <= w_count m /\ 0 <= tot (w_count m - w_size m) P.
  Proof using Haw Hs Hfa.
    intros (O & IQ & BR & (HL & HP & HC & _) & SU & WO). destruct (lots_nonneg _ (unqueued_pos aw s Haw Hs _ O)) as (U0 & _). pose proof (rem_bound aw s Haw Hs _ O) as RB.
    assert (CZ : 0 <= w_size m <= w_count m) by (destruct (w_run m); lia). pose proof (tot_nonneg P (w_count m - w_size m) _ ltac:(lia) HL) as TN. unfold dwork. lia.
  Qed.
  Lemma wmu_idle m T Bs L P : winv m T Bs L P -> measure (w_rq m) <= 0 -> P = [] -> w_size m = 0 -> w_idle m = true /\ dwork (w_count m) (w_size m) P + rem (w_rq m) + lots (unqueued (w_rq m)) = 0.
  Proof using Haw Hs Hfa.
    intros H MZ PE Z0. pose proof H as (O & IQ & BR & (HL & HP & HC & _) & SU & WO). destruct (measure_zero aw s Haw Hs (w_rq m) O MZ) as (I & _).
    pose proof (req_idle_rest aw s _ O I) as RN. assert (St : q_start (w_rq m) = false) by (unfold req_idle in I; destruct (q_start (w_rq m)); [discriminate I|reflexivity]).
    assert (R0 : rem (w_rq m) = 0) by (unfold rem; rewrite RN, St; reflexivity). rewrite PE, R0 in *. cbn [left] in HL. injection HL as HL.
    assert (RU : w_run m = false) by (destruct (w_run m); [lia|reflexivity]). unfold w_idle. rewrite I, (empty_list fa _ [] ltac:(lia) IQ), BR, RU. split; [reflexivity|].
    unfold dwork, unqueued. rewrite St. cbn [length tot lots fold_right]. lia.
  Qed.
  Lemma wmu_run more : forall m T Bs L P reqs iss, winv m T Bs L P -> inv s (w_rq m) reqs iss -> Forall (fun i => y_req i = None) more -> wmu m P <= count (map wgood more) ->
    w_idle (wmv_run aw s fa m more) = true.
  Proof using Haw Hs Hfa.
    induction more as [|i more IH]; intros m T Bs L P reqs iss H HI F C.
    - destruct (work_nonneg _ _ _ _ _ H) as (E0 & E1 & E2 & E3 & E4 & E5 & E6). pose proof H as (O & IQ & BR & DI & SU & WO). unfold wmu in C. change (count (map wgood [])) with 0 in C.
      destruct (measure_step true aw s Haw Hs (w_rq m) (mkRqIn None false false false) O eq_refl) as (M0 & _).
      assert (D0 : dwork (w_count m) (w_size m) P = 0) by lia. unfold dwork in D0.
      apply (wmu_idle m T Bs L P H); [lia| |lia]. destruct P; [reflexivity|]. cbn [length] in D0. lia.
    - inversion F as [|? ? E F']; subst.
      assert (TK : take (w_rq m) (w_rqin fa m i) = None) by (unfold take; cbn [i_req w_rqin]; rewrite E; destruct (req_idle (w_rq m)); reflexivity).
      assert (R : forall r, take (w_rq m) (w_rqin fa m i) = Some r -> reasonable aw (2 ^ s) r) by (rewrite TK; discriminate).
      destruct (winv_step m i T Bs L P reqs iss H HI R) as (H' & W1 & W2). unfold rq_taken in W1, W2. rewrite TK in W1, W2. cbn [map] in W1, W2. change (lots []) with 0 in W1, W2.
      pose proof H as (O & IQ & _). destruct (Ok_step true aw s Haw Hs (w_rq m) (w_rqin fa m i) reqs iss O HI R) as (_ & HI' & _).
      destruct (measure_step true aw s Haw Hs (w_rq m) (w_rqin fa m i) O E) as (M0 & M1 & M2).
      change (rq_step true aw s (w_rq m) (w_rqin fa m i)) with (w_rq (step m i)) in M1, M2.
      unfold wmv_run, final in *. cbn [fold_left]. apply (IH _ _ _ _ _ _ _ H' HI' F').
      assert (CN : 0 <= count (map wgood more)) by (clear; unfold count; induction (map wgood more) as [|b l I]; cbn [fold_right]; [lia|destruct b; cbn [b2z]; lia]).
      cbn [map] in C. change (count (wgood i :: map wgood more)) with (b2z (wgood i) + count (map wgood more)) in C. unfold wmu in *. destruct (wgood i) eqn:G; cbn [b2z] in C; [|lia].
      destruct (work_nonneg _ _ _ _ _ H) as (E0 & E1 & E2 & E3 & E4 & E5 & E6).
      assert (DC : (P <> [] \/ 0 < w_size m) \/ (P = [] /\ w_size m = 0)) by (destruct P; [destruct (Z.eq_dec (w_size m) 0); [right; auto|left; right; lia]|left; left; discriminate]).
      destruct DC as [X|(PE & Z0)]; [specialize (W2 eq_refl X); lia|].
      destruct (Z.eq_dec (measure (w_rq m)) 0) as [MZ|MZ].
      + destruct (wmu_idle m T Bs L P H ltac:(lia) PE Z0) as (_ & X). clear - W1 X M1 MZ CN. lia.
      + assert (GG : good (w_rqin fa m i) = true).
        { unfold good, w_rqin. cbn [i_ready i_full i_acc]. unfold wgood in G. apply andb_true_iff in G. destruct G as (G & _). apply andb_true_iff in G. destruct G as (G & _). apply andb_true_iff in G. destruct G as (G1 & G2).
          rewrite G1, G2, andb_true_r. cbn [andb]. unfold w_full. rewrite (afull_list fa _ P ltac:(lia) IQ), PE. cbn [length].
          assert (4 <= 2 ^ fa) by (change 4 with (2 ^ 2); apply Z.pow_le_mono_r; lia). lia. }
        specialize (M2 GG ltac:(lia)). clear - W1 M2 C. lia.
  Qed.
  Theorem w_finish fm ins more : Forall (reasonable aw (2 ^ s)) (w_taken aw s fa (wmv_init fm) ins) -> Forall (fun i => y_req i = None) more ->
    6 * words (w_taken aw s fa (wmv_init fm) ins) + 1 <= count (map wgood more) ->
    w_idle (wmv_run aw s fa (wmv_init fm) (ins ++ more)) = true.
  Proof using Haw Hs Hfa.
    intros F NR CT. destruct (winv_run ins (wmv_init fm) [] [] [] [] [] [] (winv_init fm) (w_start_inv _ eq_refl) eq_refl F) as (P & iss & H & HI & _). cbn [app] in *.
    unfold wmv_run, final in *. rewrite fold_left_app. apply (wmu_run more _ _ _ _ _ _ _ H HI NR).
    destruct H as (O & IQ & BR & DI & SU & WO). pose proof (measure_bound aw s Haw Hs _ _ _ O HI) as MB. unfold wmu.
    assert (FT : Forall (fun n => 1 <= n <= 2 ^ aw) (map snd (w_taken aw s fa (wmv_init fm) ins))).
    { apply Forall_map. eapply Forall_impl; [|exact F]. intros (a & n) X. unfold reasonable in X. cbn [fst snd] in *. pose proof (B_pos s Hs) as BP. assert (0 <= a / 2 ^ s) by (apply Z.div_pos; lia). clear - X BP H. nia. }
    destruct (lots_nonneg _ FT) as (_ & LB). rewrite words_sum in MB, CT. lia.
  Qed.
  Lemma w_held m i : h_valid (w_ch m) = true -> y_wready i = false -> w_ch (step m i) = w_ch m.
  Proof using. intros V R. cbn [wmv_step w_ch]. apply ch_held; [apply wcond_ackw|exact V|exact R]. Qed.
End Write.
