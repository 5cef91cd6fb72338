(** Proofs about the serial memory. *)
From Verif Require Import Base AxiMem_Model AxiMem_Spec AxiMem_Proofs AxiMem_Live Smem_Model Smem_Spec.
Open Scope Z_scope.

(** the parameters that matter to the memory *)
Definition core (p : mp) : mp := mkMp (p_dw p) (p_aw p) (p_mw p) 0 0 0 0 0 0 0 0 2 2 (p_xbyte p) 0.
Lemma core_good p : sm_ok p -> good_mp (core p).
Proof. intros [A B C D E]. constructor; cbn; try lia. exact A. Qed.

Section S.
  Variables (p : mp) (m0 : Z -> Z) (B : list wburst) (Q : list (Z * Z * Z)).
  Hypothesis OK : sm_ok p.
  Hypothesis LB : Forall (legal_burst p) B.
  Hypothesis LQ : Forall (legal_req p (p_arid p)) Q.
  Notation step := (sm_step p).
  Notation nb := (nbytes p).
  Definition mem_of (ops : list op) : Z -> Z := fst (do_ops nb m0 ops).
  Definition ans_of (ops : list op) : list (Z * bool * Z) := snd (do_ops nb m0 ops).
  Lemma do_snoc ops o : do_ops nb m0 (ops ++ [o]) = do_op nb (do_ops nb m0 ops) o.
  Proof using. unfold do_ops. rewrite fold_left_app. reflexivity. Qed.
  Lemma store_is m a d st : 0 <= a -> a + nb <= 2 ^ p_mw p -> same_mem (mem_store p m a (d mod 2 ^ p_dw p) (st mod 2 ^ nb)) (put_beat nb a d st m).
  Proof using OK. exact (store_ok (core p) (core_good p OK) m a d st). Qed.
  Lemma load_is m a : 0 <= a -> a + nb <= 2 ^ p_mw p -> mem_load p m a = word (Z.to_nat nb) m a.
  Proof using OK. exact (load_ok (core p) (core_good p OK) m a). Qed.
  Lemma nb_pos : 1 <= nb.
  Proof using OK. clear - OK. destruct OK as [(n & N & D) _ _ _ _]. unfold nbytes. rewrite D, Z.mul_comm, Z.div_mul by lia. exact N. Qed.

  Definition quiet (s : sm) : Prop := m_awready s = false /\ m_arready s = false /\ m_wready s = false /\ m_rvalid s = false /\ m_rlast s = false.
  Definition resp (s : sm) (BT : list Z) (ops : list op) : Prop := BT ++ (if m_bvalid s then [m_bid s] else []) = map b_id (writes ops).
  Definition base (s : sm) (R : list (Z * bool * Z)) (ops : list op) : Prop := same_mem (m_mem s) (mem_of ops) /\ R = ans_of ops.
  (** the write address is about to be taken, or has been *)
  Definition aw_part (s : sm) (t : master) (ma : bool) (b : wburst) (Br : list wburst) : Prop :=
    if m_awready s then t_aw t = headers (b :: Br) /\ ma = true /\ m_d1 s = PWaddr else t_aw t = headers Br /\ m_bid s = b_id b.
  Definition ar_part (s : sm) (t : master) (mr : bool) (q : Z * Z * Z) (Qr : list (Z * Z * Z)) : Prop :=
    if m_arready s then t_ar t = q :: Qr /\ mr = true /\ m_d1 s = PRaddr else t_ar t = Qr /\ m_rid s = snd q.
  Definition in_wait (s : sm) (t : master) (ma : bool) (R : list (Z * bool * Z)) (ops : list op) (Br : list wburst) (Qr : list (Z * Z * Z)) : Prop :=
    exists b Br', Br = b :: Br' /\ base s R ops /\ aw_part s t ma b Br' /\ t_w t = beats Br /\ t_ar t = Qr /\ m_waddr s = b_addr b /\ m_wcount s = Z.of_nat (length (b_beats b)) /\
      m_bvalid s = false /\ m_arready s = false /\ m_wready s = false /\ m_rvalid s = false /\ m_rlast s = false.
  Definition in_wdata (s : sm) (t : master) (R : list (Z * bool * Z)) (ops : list op) (Br : list wburst) (Qr : list (Z * Z * Z)) : Prop :=
    exists b Br' db rb, Br = b :: Br' /\ b_beats b = db ++ rb /\ rb <> [] /\ R = ans_of ops /\
      (same_mem (m_mem s) (put_beats nb (b_addr b) db (mem_of ops)) \/ exists x rb', rb = x :: rb' /\ same_mem (m_mem s) (put_beats nb (b_addr b) (db ++ [x]) (mem_of ops))) /\
      t = mkMaster (headers Br') (flagged rb ++ beats Br') Qr /\ m_waddr s = b_addr b + nb * Z.of_nat (length db) /\ m_wcount s = Z.of_nat (length rb) /\ m_bid s = b_id b /\
      m_bvalid s = false /\ m_awready s = false /\ m_arready s = false /\ m_rvalid s = false /\ m_rlast s = false.
  Definition in_rwait (s : sm) (t : master) (mr : bool) (R : list (Z * bool * Z)) (ops : list op) (Br : list wburst) (Qr : list (Z * Z * Z)) : Prop :=
    exists q Qr', Qr = q :: Qr' /\ base s R ops /\ ar_part s t mr q Qr' /\ t_aw t = headers Br /\ t_w t = beats Br /\ m_raddr s = fst (fst q) /\ m_rcount s = snd (fst q) + 1 /\
      m_awready s = false /\ m_wready s = false /\ m_rvalid s = false /\ m_rlast s = false.
  Definition in_rdata (s : sm) (t : master) (mr : bool) (R : list (Z * bool * Z)) (ops : list op) (Br : list wburst) (Qr : list (Z * Z * Z)) : Prop :=
    exists q Qr' j, Qr = q :: Qr' /\ same_mem (m_mem s) (mem_of ops) /\ ar_part s t mr q Qr' /\ t_aw t = headers Br /\ t_w t = beats Br /\
      (Z.of_nat j <= snd (fst q) -> m_raddr s = fst (fst q) + nb * Z.of_nat j) /\ m_rcount s = snd (fst q) + 1 - Z.of_nat j /\ m_awready s = false /\ m_wready s = false /\
      let sent := ans_of ops ++ map (answer nb (mem_of ops)) (firstn j (asked1 nb q)) in
      if m_rvalid s then m_d1 s = PRdata /\ m_arready s = false /\ (1 <= j)%nat /\ Z.of_nat j <= snd (fst q) + 1 /\ R ++ [(m_rdata s, m_rlast s, m_rid s)] = sent
      else m_rlast s = false /\ Z.of_nat j <= snd (fst q) /\ R = sent.
  Definition inv (s : sm) (t : master) (ma mr : bool) (R : list (Z * bool * Z)) (BT : list Z) (ops : list op) : Prop :=
    exists Br Qr, B = writes ops ++ Br /\ Q = reads ops ++ Qr /\ resp s BT ops /\
    let still := quiet s /\ base s R ops /\ t = mkMaster (headers Br) (beats Br) Qr in
    match m_ph s with
    | PIdle => still
    | PWaddr => still /\ ma = true /\ m_bvalid s = false
    | PWdelay _ | PWready => in_wait s t ma R ops Br Qr
    | PWdata => in_wdata s t R ops Br Qr
    | PRaddr => still /\ mr = true
    | PRdelay _ => in_rwait s t mr R ops Br Qr
    | PRdata => in_rdata s t mr R ops Br Qr
    end.

  Lemma resp_step s i BT ops : m_wready s = false -> (m_awready s = true -> m_bvalid s = false) -> resp s BT ops -> resp (step s i) (BT ++ s_b s i) ops.
  Proof using.
    intros W A H. unfold resp, s_b in *. cbn [sm_step m_bvalid m_bid]. rewrite W.
    assert (E1 : match i_w i with Some (_, _, true) => if false then true else if m_bvalid s && i_bready i then false else m_bvalid s | _ => if m_bvalid s && i_bready i then false else m_bvalid s end
      = if m_bvalid s && i_bready i then false else m_bvalid s) by (destruct (i_w i) as [[[d st] [|]]|]; reflexivity). rewrite E1.
    destruct (m_bvalid s) eqn:V; cbn [andb].
    - destruct (m_awready s); [discriminate (A eq_refl)|]. destruct (i_bready i).
      + rewrite app_nil_r. exact H.
      + rewrite app_nil_r, <- H. destruct (i_aw i) as [[[a l] id]|]; reflexivity.
    - rewrite app_nil_r. exact H.
  Qed.
  Lemma bv_clear s i : m_wready s = false -> (m_bvalid s = true -> i_bready i = true) -> m_bvalid (step s i) = false.
  Proof using.
    intros W C. cbn [sm_step m_bvalid]. rewrite W. destruct (m_bvalid s); [rewrite (C eq_refl)|]; destruct (i_w i) as [[[d st] [|]]|]; reflexivity.
  Qed.
  Lemma not_taken_aw s i : m_awready s = false -> s_aw s i = [].
  Proof using. intros E. unfold s_aw. rewrite E. destruct (i_aw i); reflexivity. Qed.
  Lemma not_taken_ar s i : m_arready s = false -> s_ar s i = [].
  Proof using. intros E. unfold s_ar. rewrite E. destruct (i_ar i); reflexivity. Qed.
  Lemma not_taken_w s i : m_wready s = false -> s_w s i = [].
  Proof using. intros E. unfold s_w. rewrite E. destruct (i_w i); reflexivity. Qed.
  Lemma not_taken_r s i : m_rvalid s = false -> s_r s i = [].
  Proof using. intros E. unfold s_r. rewrite E. reflexivity. Qed.
  Lemma next_none s i t : s_aw s i = [] -> s_w s i = [] -> s_ar s i = [] -> s_next s i t = t.
  Proof using. intros E1 E2 E3. unfold s_next. rewrite E1, E2, E3. destruct t; reflexivity. Qed.
  Lemma mem_same s i : m_ph s <> PWdata -> m_mem (step s i) = m_mem s.
  Proof using. intros N. cbn [sm_step m_mem]. destruct (i_w i) as [[[d st] l]|]; [|reflexivity]. destruct (m_ph s); try reflexivity. congruence. Qed.

  Lemma step_idle s i t ma mr R BT ops : m_ph s = PIdle -> inv s t ma mr R BT ops -> offers t ma mr s i ->
    inv (step s i) (s_next s i t) (some (i_aw i) && negb (m_awready s)) (some (i_ar i) && negb (m_arready s)) (R ++ s_r s i) (BT ++ s_b s i) ops.
  Proof using.
    intros PH (Br & Qr & EB & EQ & RS & X) (_ & _ & _ & PT). rewrite PH in X. destruct X as ((Q1 & Q2 & Q3 & Q4 & Q5) & (MS & RA) & ET).
    pose proof (mem_same s i ltac:(congruence)) as MM. pose proof (bv_clear s i Q3) as BC.
    assert (WF : m_wfin s i = false) by (unfold m_wfin; rewrite PH; reflexivity).
    assert (QU : quiet (step s i)).
    { unfold quiet. cbn [sm_step m_awready m_arready m_wready m_rvalid m_rlast]. unfold m_awgo, m_argo, m_retry, m_rgo. rewrite PH, Q1, Q2, Q3, Q4, Q5, WF. cbn [is_waddr is_raddr is_wdata is_rdata is_wready andb].
      destruct (is_waddr (m_d1 s)), (is_raddr (m_d1 s)), (is_rdata (m_d1 s)); repeat split. }
    exists Br, Qr. split; [exact EB|]. split; [exact EQ|]. split; [apply resp_step; [exact Q3|congruence|exact RS]|].
    rewrite (next_none s i t (not_taken_aw s i Q1) (not_taken_w s i Q3) (not_taken_ar s i Q2)), (not_taken_r s i Q4), app_nil_r, Q1, Q2. cbv zeta.
    assert (PN : m_ph (step s i) = if some (i_ar i) then PRaddr else if some (i_aw i) then PWaddr else PIdle) by (cbn [sm_step m_ph]; unfold ph_step; rewrite PH; reflexivity).
    assert (ST : quiet (step s i) /\ base (step s i) R ops /\ t = mkMaster (headers Br) (beats Br) Qr).
    { split; [exact QU|]. split; [|exact ET]. unfold base. rewrite MM. split; [exact MS|exact RA]. }
    rewrite PN. destruct (some (i_ar i)); [split; [exact ST|reflexivity]|]. destruct (some (i_aw i)) eqn:SA; [|exact ST].
    split; [exact ST|]. split; [reflexivity|]. apply BC. intros V. exact (PT V eq_refl).
  Qed.

  Lemma legal_in b Br ops : B = writes ops ++ b :: Br -> legal_burst p b.
  Proof using LB. intros E. rewrite Forall_forall in LB. apply LB. rewrite E. apply in_or_app. right. left. reflexivity. Qed.
  Lemma legal_q q Qr ops : Q = reads ops ++ q :: Qr -> legal_req p (p_arid p) q.
  Proof using LQ. intros E. rewrite Forall_forall in LQ. apply LQ. rewrite E. apply in_or_app. right. left. reflexivity. Qed.
  Lemma id_fits w w' id : 0 <= w <= w' -> 0 <= id < 2 ^ w -> id mod 2 ^ w' = id.
  Proof using. clear. intros W I. apply Z.mod_small. pose proof (Z.pow_le_mono_r 2 w w' ltac:(lia) ltac:(lia)). lia. Qed.

  Lemma step_waddr s i t ma mr R BT ops : m_ph s = PWaddr -> inv s t ma mr R BT ops -> offers t ma mr s i ->
    inv (step s i) (s_next s i t) (some (i_aw i) && negb (m_awready s)) (some (i_ar i) && negb (m_arready s)) (R ++ s_r s i) (BT ++ s_b s i) ops.
  Proof using LB.
    intros PH (Br & Qr & EB & EQ & RS & X) (OA & _ & _ & _). rewrite PH in X. destruct X as (((Q1 & Q2 & Q3 & Q4 & Q5) & (MS & RA) & ET) & MA & BV).
    pose proof (mem_same s i ltac:(congruence)) as MM. pose proof (bv_clear s i Q3 ltac:(congruence)) as BC.
    assert (WF : m_wfin s i = false) by (unfold m_wfin; rewrite PH; reflexivity).
    assert (AG : m_awgo s i = some (i_aw i)) by (unfold m_awgo; rewrite PH, BV; cbn [is_waddr andb negb]; apply andb_true_r).
    assert (OTH : m_arready (step s i) = false /\ m_wready (step s i) = false /\ m_rvalid (step s i) = false /\ m_rlast (step s i) = false).
    { cbn [sm_step m_arready m_wready m_rvalid m_rlast]. unfold m_argo, m_retry, m_rgo. rewrite PH, Q2, Q3, Q4, Q5, WF. cbn [is_waddr is_raddr is_wdata is_rdata is_wready andb].
      destruct (is_raddr (m_d1 s)), (is_rdata (m_d1 s)); repeat split. }
    destruct OTH as (O2 & O3 & O4 & O5).
    assert (IA : i_aw i = hd_error (headers Br)) by (rewrite ET in OA; destruct OA as [OA|(_ & OA)]; [exact OA|congruence]).
    exists Br, Qr. split; [exact EB|]. split; [exact EQ|]. split; [apply resp_step; [exact Q3|congruence|exact RS]|].
    rewrite (next_none s i t (not_taken_aw s i Q1) (not_taken_w s i Q3) (not_taken_ar s i Q2)), (not_taken_r s i Q4), app_nil_r, Q1. cbv zeta.
    assert (PN : m_ph (step s i) = if some (i_aw i) then (if p_wdelay p <=? 0 then PWready else PWdelay (p_wdelay p)) else PIdle) by (cbn [sm_step m_ph]; unfold ph_step; rewrite PH; reflexivity).
    assert (AR : m_awready (step s i) = some (i_aw i)).
    { cbn [sm_step m_awready]. rewrite AG, Q1. destruct (some (i_aw i)); [reflexivity|]. destruct (is_waddr (m_d1 s)); reflexivity. }
    rewrite PN. destruct Br as [|b Br].
    - rewrite IA in *. cbn [headers map hd_error some] in *. split; [unfold quiet; auto|]. split; [|exact ET]. unfold base. rewrite MM. auto.
    - assert (W : in_wait (step s i) t true R ops (b :: Br) Qr).
      { exists b, Br. split; [reflexivity|]. split; [unfold base; rewrite MM; auto|]. unfold aw_part. rewrite AR, IA. cbn [headers map hd_error some]. rewrite ET. cbn [t_aw t_w t_ar].
        split; [split; [reflexivity|]; split; [reflexivity|]; cbn [sm_step m_d1]; exact PH|]. split; [reflexivity|]. split; [reflexivity|].
        cbn [sm_step m_waddr m_wcount]. rewrite AG, IA. cbn [headers map hd_error some header]. repeat split; auto. clear. ring. }
      rewrite IA. cbn [headers map hd_error some negb andb]. destruct (p_wdelay p <=? 0); exact W.
  Qed.

  Lemma step_wait s i t ma mr R BT ops : (m_ph s = PWready \/ exists k, m_ph s = PWdelay k) -> inv s t ma mr R BT ops -> offers t ma mr s i ->
    inv (step s i) (s_next s i t) (some (i_aw i) && negb (m_awready s)) (some (i_ar i) && negb (m_arready s)) (R ++ s_r s i) (BT ++ s_b s i) ops.
  Proof using LB OK.
    intros PH (Br & Qr & EB & EQ & RS & X) (OA & _ & _ & _).
    assert (XW : in_wait s t ma R ops Br Qr) by (destruct PH as [PH|(k & PH)]; rewrite PH in X; exact X). clear X.
    destruct XW as (b & Br' & -> & (MS & RA) & AP & TW & TR & WA & WC & BV & Q2 & Q3 & Q4 & Q5).
    pose proof (legal_in b Br' ops EB) as LG. unfold legal_burst, legal_req, header in LG.
    assert (NP : m_ph s <> PWdata) by (destruct PH as [PH|(k & PH)]; congruence).
    assert (ISP : is_waddr (m_ph s) = false /\ is_raddr (m_ph s) = false /\ is_wdata (m_ph s) = false /\ is_rdata (m_ph s) = false) by (destruct PH as [PH|(k & PH)]; rewrite PH; auto).
    destruct ISP as (I1 & I2 & I3 & I4).
    pose proof (mem_same s i NP) as MM. pose proof (bv_clear s i Q3 (fun V => ltac:(rewrite BV in V; discriminate V))) as BC.
    assert (WF : m_wfin s i = false) by (unfold m_wfin; rewrite I3; reflexivity).
    assert (AG : m_awgo s i = false) by (unfold m_awgo; rewrite I1; reflexivity).
    assert (OTH : m_arready (step s i) = false /\ m_rvalid (step s i) = false /\ m_rlast (step s i) = false).
    { cbn [sm_step m_arready m_rvalid m_rlast]. unfold m_argo, m_retry, m_rgo. rewrite I2, I4, Q2, Q4, Q5. cbn [andb].
      destruct (is_raddr (m_d1 s)), (is_rdata (m_d1 s)); repeat split. }
    destruct OTH as (O2 & O4 & O5).
    assert (SW : m_waddr (step s i) = b_addr b /\ m_wcount (step s i) = Z.of_nat (length (b_beats b))).
    { cbn [sm_step m_waddr m_wcount]. rewrite AG, I3. cbn [andb]. destruct (i_aw i) as [[[x y] z]|]; auto. }
    destruct SW as (WA' & WC').
    set (t' := s_next s i t).
    assert (TT : t_w t' = beats (b :: Br') /\ t_ar t' = Qr) by (unfold t', s_next; cbn [t_w t_ar]; rewrite (not_taken_w s i Q3), (not_taken_ar s i Q2), TW, TR; split; reflexivity).
    destruct TT as (TW' & TR').
    assert (AN : m_awready (step s i) = false /\ t_aw t' = headers Br' /\ m_bid (step s i) = b_id b).
    { unfold aw_part in AP. cbn [sm_step m_awready m_bid]. rewrite AG, BV. unfold t', s_next. cbn [t_aw]. unfold s_aw. destruct (m_awready s) eqn:AR.
      - destruct AP as (TA & -> & D1). rewrite TA in *. destruct OA as [OA|(_ & OA)]; [|discriminate OA]. rewrite OA, D1. cbn [headers map hd_error is_waddr after length skipn header andb negb].
        split; [reflexivity|]. split; [reflexivity|]. apply (id_fits (p_wid p)); [exact (so_wid p OK)|]. tauto.
      - destruct AP as (TA & BI). rewrite TA, BI. cbn [andb]. split; [destruct (is_waddr (m_d1 s)); reflexivity|]. destruct (i_aw i) as [[[x y] z]|]; split; reflexivity. }
    destruct AN as (AR' & TA' & BI').
    exists (b :: Br'), Qr. split; [exact EB|]. split; [exact EQ|]. split; [apply resp_step; [exact Q3|intros _; exact BV|exact RS]|].
    rewrite (not_taken_r s i Q4), app_nil_r. cbv zeta. destruct PH as [PH|(k & PH)].
    - assert (PN : m_ph (step s i) = PWdata) by (cbn [sm_step m_ph]; unfold ph_step; rewrite PH; reflexivity). rewrite PN.
      exists b, Br', [], (b_beats b). split; [reflexivity|]. split; [reflexivity|]. split; [intros E; rewrite E in LG; cbn [length] in LG; clear - LG; destruct LG as (_ & LG & _); cbn in LG; lia|]. split; [exact RA|].
      split; [left; rewrite MM; exact MS|]. split; [clearbody t'; destruct t' as [xa xw xr]; cbn [t_aw t_w t_ar] in TA', TW', TR'; rewrite TA', TW', TR'; reflexivity|].
      cbn [length]. rewrite WA', WC', BI', BC, AR'. repeat split; auto. clear. cbn. ring.
    - assert (PN : m_ph (step s i) = if k <=? 1 then PWready else PWdelay (k - 1)) by (cbn [sm_step m_ph]; unfold ph_step; rewrite PH; reflexivity). rewrite PN.
      assert (W : in_wait (step s i) t' (some (i_aw i) && negb (m_awready s)) R ops (b :: Br') Qr).
      { exists b, Br'. split; [reflexivity|]. split; [unfold base; rewrite MM; auto|]. unfold aw_part. rewrite AR', BC, WA', WC'. split; [auto|]. split; [exact TW'|]. split; [exact TR'|].
        repeat split; auto. cbn [sm_step m_wready]. rewrite WF, I3, PH. cbn [andb is_wready]. exact Q3. }
      destruct (k <=? 1); exact W.
  Qed.

  Lemma flagged_cons x (rb : list (Z * Z)) : flagged (x :: rb) = (x, match rb with [] => true | _ => false end) :: flagged rb.
  Proof using. destruct rb; reflexivity. Qed.
  Lemma flagged_app (db rb : list (Z * Z)) : exists v, flagged (db ++ rb) = v ++ flagged rb.
  Proof using.
    induction db as [|x db (v & E)]; [exists []; reflexivity|]. cbn [app]. rewrite flagged_cons, E. eexists (_ :: v). reflexivity.
  Qed.
  Lemma put_twice nb' a d st m : same_mem (put_beat nb' a d st (put_beat nb' a d st m)) (put_beat nb' a d st m).
  Proof using. intros x. unfold put_beat. destruct (_ && _); reflexivity. Qed.

  Lemma put_snoc a db d st m : put_beats nb a (db ++ [(d, st)]) m = put_beat nb (a + nb * Z.of_nat (length db)) d st (put_beats nb a db m).
  Proof using. rewrite put_beats_app. reflexivity. Qed.

  Lemma step_wdata s i t ma mr R BT ops : m_ph s = PWdata -> inv s t ma mr R BT ops -> offers t ma mr s i ->
    exists ops', (exists o, ops' = ops ++ o /\ (m_ph (step s i) = PIdle -> o <> [])) /\ inv (step s i) (s_next s i t) (some (i_aw i) && negb (m_awready s)) (some (i_ar i) && negb (m_arready s)) (R ++ s_r s i) (BT ++ s_b s i) ops'.
  Proof using LB OK.
    intros PH (Br & Qr & EB & EQ & RS & X) (_ & OFW & _ & _). rewrite PH in X.
    destruct X as (b & Br' & db & rb & -> & EBB & NE & RA & MS & ET & WA & WC & BI & BV & Q1 & Q2 & Q4 & Q5).
    pose proof (legal_in b Br' ops EB) as LG. unfold legal_burst, legal_req, header in LG. destruct LG as (LA & LL & LM & _).
    rewrite EBB, app_length, Nat2Z.inj_add in LL, LM. pose proof nb_pos as NB.
    assert (MW : 2 ^ p_mw p <= 2 ^ p_aw p) by (apply Z.pow_le_mono_r; [clear; lia|exact (proj2 (so_mw p OK))]).
    assert (AW : 256 <= 2 ^ (p_aw p + 1)) by (pose proof (Z.pow_le_mono_r 2 8 (p_aw p + 1) ltac:(clear; lia) ltac:(pose proof (so_aw p OK) as H; clear - H; lia)) as H; exact H).
    destruct rb as [|[d st] rb]; [congruence|]. cbn [length] in LL, LM, WC. rewrite Nat2Z.inj_succ in LL, LM, WC.
    assert (OTH : m_awready (step s i) = false /\ m_arready (step s i) = false /\ m_rvalid (step s i) = false /\ m_rlast (step s i) = false).
    { cbn [sm_step m_awready m_arready m_rvalid m_rlast]. unfold m_awgo, m_argo, m_retry, m_rgo. rewrite PH, Q1, Q2, Q4, Q5. cbn [is_waddr is_raddr is_rdata andb].
      destruct (is_waddr (m_d1 s)), (is_raddr (m_d1 s)), (is_rdata (m_d1 s)); repeat split. }
    destruct OTH as (O1 & O2 & O4 & O5).
    assert (AG : m_awgo s i = false) by (unfold m_awgo; rewrite PH; reflexivity).
    assert (BI' : m_bid (step s i) = b_id b) by (cbn [sm_step m_bid]; rewrite Q1; cbn [andb]; destruct (i_aw i) as [[[x y] z]|]; exact BI).
    assert (SB : s_b s i = []) by (unfold s_b; rewrite BV; reflexivity).
    assert (RS0 : BT = map b_id (writes ops)) by (unfold resp in RS; rewrite BV, app_nil_r in RS; exact RS).
    assert (WAE : m_waddr (step s i) = if m_whs s i then (m_waddr s + nb) mod 2 ^ p_aw p else m_waddr s).
    { cbn [sm_step m_waddr]. rewrite AG, PH. cbn [is_wdata andb]. destruct (i_aw i) as [[[x y] z]|]; reflexivity. }
    assert (WCE : m_wcount (step s i) = if m_whs s i then (m_wcount s - 1) mod 2 ^ (p_aw p + 1) else m_wcount s).
    { cbn [sm_step m_wcount]. rewrite AG, PH. cbn [is_wdata andb]. destruct (i_aw i) as [[[x y] z]|]; reflexivity. }
    assert (PN : m_ph (step s i) = if m_whs s i && (m_wcount s =? 1) then PIdle else PWdata) by (cbn [sm_step m_ph]; unfold ph_step, m_wfin; rewrite PH; reflexivity).
    rewrite (not_taken_r s i Q4), app_nil_r, SB, app_nil_r.
    assert (IW : i_w i = Some (d, st, match rb with [] => true | _ => false end) \/ i_w i = None) by (rewrite ET in OFW; cbn [t_w] in OFW; rewrite flagged_cons in OFW; exact OFW).
    destruct IW as [IW|IW].
    2:{ assert (HS : m_whs s i = false) by (unfold m_whs; rewrite IW; reflexivity).
      assert (SW : s_w s i = []) by (unfold s_w; rewrite IW; reflexivity).
      assert (BV' : m_bvalid (step s i) = false) by (cbn [sm_step m_bvalid]; rewrite IW, BV; reflexivity).
      rewrite HS in *. cbn [andb] in PN.
      exists ops. split; [exists []; split; [symmetry; apply app_nil_r|rewrite PN; discriminate]|]. exists (b :: Br'), Qr. split; [exact EB|]. split; [exact EQ|]. split; [unfold resp; rewrite BV', app_nil_r; exact RS0|].
      rewrite (next_none s i t (not_taken_aw s i Q1) SW (not_taken_ar s i Q2)), PN. cbv zeta.
      exists b, Br', db, ((d, st) :: rb). split; [reflexivity|]. split; [exact EBB|]. split; [exact NE|]. split; [exact RA|].
      split; [cbn [sm_step m_mem]; rewrite IW; exact MS|]. split; [exact ET|]. rewrite WAE, WCE, BI', BV'. cbn [length]. rewrite Nat2Z.inj_succ. repeat split; auto. }
    assert (MM : same_mem (m_mem (step s i)) (put_beats nb (b_addr b) (db ++ [(d, st)]) (mem_of ops))).
    { cbn [sm_step m_mem]. rewrite IW, PH. cbn [is_wdata]. intros x.
      rewrite (store_is (m_mem s) (m_waddr s) d st ltac:(rewrite WA; clear - NB LA; nia) ltac:(rewrite WA; clear - NB LM; nia) x).
      rewrite WA. destruct MS as [MS|(y & rb' & E & MS)].
      - rewrite put_snoc. apply put_beat_same. exact MS.
      - injection E as <- <-. rewrite (put_beat_same _ _ _ _ _ _ MS x), put_snoc. apply put_twice. }
    destruct (m_wready s) eqn:WR.
    2:{ assert (HS : m_whs s i = false) by (unfold m_whs; rewrite WR; apply andb_false_r).
      assert (BV' : m_bvalid (step s i) = false) by (cbn [sm_step m_bvalid]; rewrite IW, BV, WR; destruct rb; reflexivity).
      rewrite HS in *. cbn [andb] in PN.
      exists ops. split; [exists []; split; [symmetry; apply app_nil_r|rewrite PN; discriminate]|]. exists (b :: Br'), Qr. split; [exact EB|]. split; [exact EQ|]. split; [unfold resp; rewrite BV', app_nil_r; exact RS0|].
      rewrite (next_none s i t (not_taken_aw s i Q1) (not_taken_w s i WR) (not_taken_ar s i Q2)), PN. cbv zeta.
      exists b, Br', db, ((d, st) :: rb). split; [reflexivity|]. split; [exact EBB|]. split; [exact NE|]. split; [exact RA|].
      split; [right; exists (d, st), rb; split; [reflexivity|exact MM]|]. split; [exact ET|]. rewrite WAE, WCE, BI', BV'. cbn [length]. rewrite Nat2Z.inj_succ. repeat split; auto. }
    assert (HS : m_whs s i = true) by (unfold m_whs; rewrite WR, IW; reflexivity). rewrite HS in *. cbn [andb] in PN.
    assert (TN : s_next s i t = mkMaster (headers Br') (flagged rb ++ beats Br') Qr).
    { unfold s_next. rewrite (not_taken_aw s i Q1), (not_taken_ar s i Q2), ET. unfold s_w. rewrite IW, WR. cbn [t_aw t_w t_ar]. rewrite flagged_cons. reflexivity. }
    rewrite TN. destruct rb as [|x rb].
    - assert (BV' : m_bvalid (step s i) = true) by (cbn [sm_step m_bvalid]; rewrite IW, WR; reflexivity).
      assert (N1 : (m_wcount s =? 1) = true) by (rewrite WC; reflexivity). rewrite N1 in PN.
      exists (ops ++ [OW b]). split; [exists [OW b]; split; [reflexivity|discriminate]|]. exists Br', Qr. unfold writes, reads. rewrite !flat_map_app. cbn [flat_map app]. rewrite <- app_assoc, app_nil_r. split; [exact EB|]. split; [exact EQ|].
      split. { unfold resp, writes. rewrite BV', BI', RS0, flat_map_app, map_app. reflexivity. }
      rewrite PN. cbv zeta. split.
      { unfold quiet. repeat split; auto. cbn [sm_step m_wready]. unfold m_wfin. rewrite PH, HS, WC. reflexivity. }
      split; [|reflexivity]. split; [|unfold ans_of; rewrite do_snoc; exact RA].
      unfold mem_of. rewrite do_snoc. cbn [do_op fst]. unfold put_burst. rewrite EBB. exact MM.
    - assert (BV' : m_bvalid (step s i) = false) by (cbn [sm_step m_bvalid]; rewrite IW, BV; reflexivity).
      cbn [length] in *. rewrite Nat2Z.inj_succ in LL, LM, WC.
      assert (N1 : (m_wcount s =? 1) = false) by (rewrite WC; apply Z.eqb_neq; clear; lia). rewrite N1 in PN.
      exists ops. split; [exists []; split; [symmetry; apply app_nil_r|rewrite PN; discriminate]|]. exists (b :: Br'), Qr. split; [exact EB|]. split; [exact EQ|]. split; [unfold resp; rewrite BV', app_nil_r; exact RS0|]. rewrite PN. cbv zeta.
      exists b, Br', (db ++ [(d, st)]), (x :: rb). split; [reflexivity|]. split; [rewrite <- app_assoc; exact EBB|]. split; [discriminate|]. split; [exact RA|].
      split; [left; exact MM|]. split; [reflexivity|]. rewrite WAE, WCE, BI', BV', app_length. cbn [length]. rewrite WA, WC, Nat2Z.inj_add.
      repeat split; auto.
      + rewrite Z.mod_small; [clear; cbn; ring|]. clear - NB LA LM MW. cbn. nia.
      + rewrite Z.mod_small; [clear; lia|]. clear - LL AW. lia.
  Qed.

  Lemma step_raddr s i t ma mr R BT ops : m_ph s = PRaddr -> inv s t ma mr R BT ops -> offers t ma mr s i ->
    inv (step s i) (s_next s i t) (some (i_aw i) && negb (m_awready s)) (some (i_ar i) && negb (m_arready s)) (R ++ s_r s i) (BT ++ s_b s i) ops.
  Proof using LQ.
    intros PH (Br & Qr & EB & EQ & RS & X) (_ & _ & OA & _). rewrite PH in X. destruct X as (((Q1 & Q2 & Q3 & Q4 & Q5) & (MS & RA) & ET) & MA).
    pose proof (mem_same s i ltac:(congruence)) as MM.
    assert (WF : m_wfin s i = false) by (unfold m_wfin; rewrite PH; reflexivity).
    assert (AG : m_argo s i = some (i_ar i)) by (unfold m_argo; rewrite PH; reflexivity).
    assert (GO : m_rgo p s i = false) by (unfold m_rgo; rewrite PH; reflexivity).
    assert (OTH : m_awready (step s i) = false /\ m_wready (step s i) = false /\ m_rvalid (step s i) = false /\ m_rlast (step s i) = false).
    { cbn [sm_step m_awready m_wready m_rvalid m_rlast]. unfold m_awgo, m_retry. rewrite GO, PH, Q1, Q3, Q4, Q5, WF. cbn [is_waddr is_raddr is_wdata is_rdata is_wready andb].
      destruct (is_waddr (m_d1 s)), (is_rdata (m_d1 s)); repeat split. }
    destruct OTH as (O2 & O3 & O4 & O5).
    assert (IA : i_ar i = hd_error Qr) by (rewrite ET in OA; destruct OA as [OA|(_ & OA)]; [exact OA|congruence]).
    exists Br, Qr. split; [exact EB|]. split; [exact EQ|]. split; [apply resp_step; [exact Q3|congruence|exact RS]|].
    rewrite (next_none s i t (not_taken_aw s i Q1) (not_taken_w s i Q3) (not_taken_ar s i Q2)), (not_taken_r s i Q4), app_nil_r, Q2. cbv zeta.
    assert (PN : m_ph (step s i) = if some (i_ar i) then (if p_rdelay p <=? 0 then PRdata else PRdelay (p_rdelay p)) else PIdle) by (cbn [sm_step m_ph]; unfold ph_step; rewrite PH; reflexivity).
    assert (AR : m_arready (step s i) = some (i_ar i)).
    { cbn [sm_step m_arready]. rewrite AG, Q2. destruct (some (i_ar i)); [reflexivity|]. destruct (is_raddr (m_d1 s)); reflexivity. }
    rewrite PN. destruct Qr as [|q Qr].
    - rewrite IA in *. cbn [hd_error some] in *. split; [unfold quiet; auto|]. split; [|exact ET]. unfold base. rewrite MM. auto.
    - assert (AP : ar_part (step s i) t true q Qr).
      { unfold ar_part. rewrite AR, IA, ET. cbn [hd_error some t_ar]. split; [reflexivity|]. split; [reflexivity|]. cbn [sm_step m_d1]. exact PH. }
      assert (RR : m_raddr (step s i) = fst (fst q) /\ m_rcount (step s i) = snd (fst q) + 1) by (cbn [sm_step m_raddr m_rcount]; rewrite AG, IA; destruct q as [[a l] id]; split; reflexivity).
      destruct RR as (RR & RC). pose proof (legal_q q Qr ops EQ) as LG.
      rewrite IA. cbn [hd_error some negb andb]. destruct (p_rdelay p <=? 0).
      + exists q, Qr, 0%nat. split; [reflexivity|]. split; [rewrite MM; exact MS|]. split; [exact AP|]. rewrite ET. split; [reflexivity|]. split; [reflexivity|].
        split; [intros _; rewrite RR; clear; cbn; ring|]. split; [rewrite RC; clear; cbn; ring|]. split; [exact O2|]. split; [exact O3|]. cbv zeta. rewrite O4.
        split; [exact O5|]. split; [|cbn [firstn map]; rewrite app_nil_r; exact RA]. destruct q as [[a l] id]. cbn [fst snd]. clear - LG. destruct LG as (_ & LG & _). cbn. lia.
      + exists q, Qr. split; [reflexivity|]. split; [unfold base; rewrite MM; auto|]. split; [exact AP|]. rewrite ET. repeat split; auto.
  Qed.

  (** the address, while it is taken *)
  Lemma ar_next s i t ma mr q Qr ops : Q = reads ops ++ q :: Qr -> is_raddr (m_ph s) = false -> ar_part s t mr q Qr -> offers t ma mr s i ->
    m_arready (step s i) = false /\ after (t_ar t) (s_ar s i) = Qr /\ m_rid (step s i) = snd q.
  Proof using LQ OK m0.
    intros EQ I2 AP (_ & _ & OA & _). pose proof (legal_q q Qr ops EQ) as LG.
    assert (AG : m_argo s i = false) by (unfold m_argo; rewrite I2; reflexivity).
    cbn [sm_step m_arready m_rid]. rewrite AG. unfold s_ar. unfold ar_part in AP. destruct (m_arready s) eqn:AR.
    - destruct AP as (TA & -> & D1). rewrite TA in *. destruct OA as [OA|(_ & OA)]; [|discriminate OA]. rewrite OA, D1. cbn [hd_error is_raddr after length skipn].
      split; [reflexivity|]. split; [reflexivity|]. destruct q as [[a l] id]. cbn [snd]. apply (id_fits (p_arid p)); [exact (so_arid p OK)|]. unfold legal_req in LG. tauto.
    - destruct AP as (TA & BI). rewrite TA, BI. split; [destruct (is_raddr (m_d1 s)); reflexivity|]. destruct (i_ar i) as [[[x y] z]|]; split; reflexivity.
  Qed.

  Lemma step_rwait s i t ma mr R BT ops k : m_ph s = PRdelay k -> inv s t ma mr R BT ops -> offers t ma mr s i ->
    inv (step s i) (s_next s i t) (some (i_aw i) && negb (m_awready s)) (some (i_ar i) && negb (m_arready s)) (R ++ s_r s i) (BT ++ s_b s i) ops.
  Proof using LQ OK.
    intros PH (Br & Qr & EB & EQ & RS & X) OF. rewrite PH in X. destruct X as (q & Qr' & -> & (MS & RA) & AP & TA & TW & RD & RC & Q1 & Q3 & Q4 & Q5).
    pose proof (mem_same s i ltac:(congruence)) as MM.
    destruct (ar_next s i t ma mr q Qr' ops EQ ltac:(rewrite PH; reflexivity) AP OF) as (AR' & TR' & RI').
    assert (WF : m_wfin s i = false) by (unfold m_wfin; rewrite PH; reflexivity).
    assert (AG : m_argo s i = false) by (unfold m_argo; rewrite PH; reflexivity).
    assert (GO : m_rgo p s i = false) by (unfold m_rgo; rewrite PH; reflexivity).
    assert (OTH : m_awready (step s i) = false /\ m_wready (step s i) = false /\ m_rvalid (step s i) = false /\ m_rlast (step s i) = false).
    { cbn [sm_step m_awready m_wready m_rvalid m_rlast]. unfold m_awgo, m_retry. rewrite GO, PH, Q1, Q3, Q4, Q5, WF. cbn [is_waddr is_raddr is_wdata is_rdata is_wready andb].
      destruct (is_waddr (m_d1 s)), (is_rdata (m_d1 s)); repeat split. }
    destruct OTH as (O2 & O3 & O4 & O5).
    assert (RR : m_raddr (step s i) = fst (fst q) /\ m_rcount (step s i) = snd (fst q) + 1) by (cbn [sm_step m_raddr m_rcount]; rewrite AG, GO; destruct (i_ar i) as [[[x y] z]|]; auto).
    destruct RR as (RR & RC').
    exists Br, (q :: Qr'). split; [exact EB|]. split; [exact EQ|]. split; [apply resp_step; [exact Q3|congruence|exact RS]|].
    rewrite (not_taken_r s i Q4), app_nil_r. unfold s_next. rewrite TR', (not_taken_aw s i Q1), (not_taken_w s i Q3), TA, TW. cbn [after length skipn]. cbv zeta.
    assert (PN : m_ph (step s i) = if k <=? 1 then PRdata else PRdelay (k - 1)) by (cbn [sm_step m_ph]; unfold ph_step; rewrite PH; reflexivity).
    rewrite PN. pose proof (legal_q q Qr' ops EQ) as LG. destruct (k <=? 1).
    - exists q, Qr', 0%nat. split; [reflexivity|]. split; [rewrite MM; exact MS|]. split; [unfold ar_part; rewrite AR'; auto|]. split; [reflexivity|]. split; [reflexivity|].
      split; [intros _; rewrite RR; clear; cbn; ring|]. split; [rewrite RC'; clear; cbn; ring|]. split; [exact O2|]. split; [exact O3|]. cbv zeta. rewrite O4.
      split; [exact O5|]. split; [|cbn [firstn map]; rewrite app_nil_r; exact RA]. destruct q as [[a l] id]. cbn [fst snd]. clear - LG. destruct LG as (_ & LG & _). cbn. lia.
    - exists q, Qr'. split; [reflexivity|]. split; [unfold base; rewrite MM; auto|]. split; [unfold ar_part; rewrite AR'; auto|]. repeat split; auto.
  Qed.

  Lemma step_rdata s i t ma mr R BT ops : m_ph s = PRdata -> inv s t ma mr R BT ops -> offers t ma mr s i ->
    exists ops', (exists o, ops' = ops ++ o /\ (m_ph (step s i) = PIdle -> o <> [])) /\ inv (step s i) (s_next s i t) (some (i_aw i) && negb (m_awready s)) (some (i_ar i) && negb (m_arready s)) (R ++ s_r s i) (BT ++ s_b s i) ops'.
  Proof using LQ OK m0.
    intros PH (Br & Qr & EB & EQ & RS & X) OF. rewrite PH in X. destruct X as (q & Qr' & j & -> & MS & AP & TA & TW & RD & RC & Q1 & Q3 & X).
    pose proof (mem_same s i ltac:(congruence)) as MM.
    destruct (ar_next s i t ma mr q Qr' ops EQ ltac:(rewrite PH; reflexivity) AP OF) as (AR' & TR' & RI').
    pose proof (legal_q q Qr' ops EQ) as LG. destruct q as [[a l] id]. cbn [fst snd] in *. destruct LG as (LA & LL & LM & _). pose proof nb_pos as NB.
    assert (MW : 2 ^ p_mw p <= 2 ^ p_aw p) by (apply Z.pow_le_mono_r; [clear; lia|exact (proj2 (so_mw p OK))]).
    assert (AW : 256 <= 2 ^ (p_aw p + 1)) by (pose proof (Z.pow_le_mono_r 2 8 (p_aw p + 1) ltac:(clear; lia) ltac:(pose proof (so_aw p OK) as H; clear - H; lia)) as H; exact H).
    assert (WF : m_wfin s i = false) by (unfold m_wfin; rewrite PH; reflexivity).
    assert (AG : m_argo s i = false) by (unfold m_argo; rewrite PH; reflexivity).
    assert (OTH : m_awready (step s i) = false /\ m_wready (step s i) = false).
    { cbn [sm_step m_awready m_wready]. unfold m_awgo. rewrite PH, Q1, Q3, WF. cbn [is_waddr is_wdata is_wready andb]. destruct (is_waddr (m_d1 s)); repeat split. }
    destruct OTH as (O2 & O3).
    assert (TN : s_next s i t = mkMaster (headers Br) (beats Br) Qr') by (unfold s_next; rewrite TR', (not_taken_aw s i Q1), (not_taken_w s i Q3), TA, TW; reflexivity).
    assert (RS' : resp (step s i) (BT ++ s_b s i) ops) by (apply resp_step; [exact Q3|congruence|exact RS]).
    assert (RDE : m_raddr (step s i) = if m_rgo p s i then (m_raddr s + nb) mod 2 ^ p_aw p else m_raddr s) by (cbn [sm_step m_raddr]; rewrite AG; destruct (i_ar i) as [[[x y] z]|]; reflexivity).
    assert (RCE : m_rcount (step s i) = if m_rgo p s i then (m_rcount s - 1) mod 2 ^ (p_aw p + 1) else m_rcount s) by (cbn [sm_step m_rcount]; rewrite AG; destruct (i_ar i) as [[[x y] z]|]; reflexivity).
    assert (PN : m_ph (step s i) = if m_rvalid s && i_rready i && (m_rcount s =? 0) then PIdle else PRdata) by (cbn [sm_step m_ph]; unfold ph_step; rewrite PH; reflexivity).
    assert (D1' : m_d1 (step s i) = PRdata) by exact PH.
    assert (VE : m_rvalid (step s i) = if m_retry s i then m_rvalid s else if m_rgo p s i then true else if is_rdata (m_d1 s) then false else m_rvalid s) by reflexivity.
    assert (LE : m_rlast (step s i) = if m_retry s i then m_rlast s else if m_rgo p s i && (m_rcount s =? 1) then true else if is_rdata (m_d1 s) then false else m_rlast s) by reflexivity.
    assert (DE : m_rdata (step s i) = if m_ack s i then mem_load p (m_mem s) (m_raddr s) else m_rdata s) by (cbn [sm_step m_rdata]; rewrite PH; reflexivity).
    set (sent := fun j => ans_of ops ++ map (answer nb (mem_of ops)) (firstn j (asked1 nb (a, l, id)))).
    change (ans_of ops ++ map (answer nb (mem_of ops)) (firstn j (asked1 nb (a, l, id)))) with (sent j) in X. cbv zeta in X.
    (* more is to be sent, and there is room *)
    assert (MORE : m_ack s i = true -> m_retry s i = false -> (m_rvalid s = true -> m_d1 s = PRdata) -> (m_rvalid s = false -> m_rlast s = false) ->
      Z.of_nat j <= l -> R ++ s_r s i = sent j ->
      inv (step s i) (mkMaster (headers Br) (beats Br) Qr') (some (i_aw i) && negb (m_awready s)) (some (i_ar i) && negb (m_arready s)) (R ++ s_r s i) (BT ++ s_b s i) ops).
    { intros AK RT D1 LF JL RE. specialize (RD JL).
      assert (PN' : m_ph (step s i) = PRdata).
      { rewrite PN. assert (E : (m_rcount s =? 0) = false) by (rewrite RC; apply Z.eqb_neq; clear - JL; lia). rewrite E, andb_false_r. reflexivity. }
      assert (GE : m_rgo p s i = awake_r p (m_slp s)).
      { unfold m_rgo. rewrite PH, AK. assert (E : (0 <? m_rcount s) = true) by (rewrite RC; apply Z.ltb_lt; clear - JL; lia). rewrite E. cbn [is_rdata andb]. apply andb_true_r. }
      rewrite RT in *. rewrite AK in DE.
      exists Br, ((a, l, id) :: Qr'). split; [exact EB|]. split; [exact EQ|]. split; [exact RS'|]. rewrite PN'. cbv zeta. destruct (m_rgo p s i) eqn:GO.
      - exists (a, l, id), Qr', (S j). split; [reflexivity|]. split; [rewrite MM; exact MS|]. split; [unfold ar_part; rewrite AR'; auto|]. split; [reflexivity|]. split; [reflexivity|].
        cbn [fst snd]. rewrite RDE, RCE, RD, RC, Nat2Z.inj_succ. split.
        { intros JS. rewrite Z.mod_small; [clear; ring|]. clear - JS NB LA LM MW. nia. }
        split. { rewrite Z.mod_small; [clear; ring|]. clear - JL LL AW. lia. }
        split; [exact O2|]. split; [exact O3|]. cbv zeta. rewrite VE. split; [exact D1'|]. split; [exact AR'|]. split; [clear; lia|]. split; [clear - JL; lia|].
        rewrite RE, DE, RI', LE. unfold sent. rewrite asked1_next by exact JL. rewrite map_app, app_assoc. f_equal. cbn [map answer snd]. f_equal. f_equal. f_equal.
        + rewrite (load_is (m_mem s) (m_raddr s)) by (rewrite RD; clear - JL NB LA LM; nia). rewrite RD. apply word_same. exact MS.
        + cbn [andb]. rewrite RC. destruct (Z.of_nat j =? l) eqn:JE.
          * apply Z.eqb_eq in JE. assert (E : (l + 1 - Z.of_nat j =? 1) = true) by (apply Z.eqb_eq; clear - JE; lia). rewrite E. reflexivity.
          * apply Z.eqb_neq in JE. assert (E : (l + 1 - Z.of_nat j =? 1) = false) by (apply Z.eqb_neq; clear - JE; lia). rewrite E.
            destruct (m_rvalid s) eqn:V; [rewrite (D1 eq_refl); reflexivity|]. rewrite (LF eq_refl). destruct (is_rdata (m_d1 s)); reflexivity.
      - exists (a, l, id), Qr', j. split; [reflexivity|]. split; [rewrite MM; exact MS|]. split; [unfold ar_part; rewrite AR'; auto|]. split; [reflexivity|]. split; [reflexivity|].
        cbn [fst snd]. rewrite RDE, RCE. split; [intros _; exact RD|]. split; [exact RC|]. split; [exact O2|]. split; [exact O3|]. cbv zeta.
        assert (V' : m_rvalid (step s i) = false) by (rewrite VE; destruct (m_rvalid s) eqn:V; [rewrite (D1 eq_refl); reflexivity|destruct (is_rdata (m_d1 s)); reflexivity]).
        rewrite V'. split; [|split; [exact JL|exact RE]].
        rewrite LE. cbn [andb]. destruct (m_rvalid s) eqn:V; [rewrite (D1 eq_refl); reflexivity|]. rewrite (LF eq_refl). destruct (is_rdata (m_d1 s)); reflexivity. }
    rewrite TN. destruct (m_rvalid s) eqn:V.
    - destruct X as (D1 & X1 & X2 & X3 & X4). destruct (i_rready i) eqn:RY.
      + assert (SR : s_r s i = [(m_rdata s, m_rlast s, m_rid s)]) by (unfold s_r; rewrite V, RY; reflexivity).
        assert (RT : m_retry s i = false) by (unfold m_retry; rewrite RY; cbn [negb]; rewrite !andb_false_r; reflexivity).
        destruct (m_rcount s =? 0) eqn:C0.
        * apply Z.eqb_eq in C0. cbn [andb] in PN. assert (JE : j = Z.to_nat (l + 1)) by (clear - C0 RC; lia).
          assert (GO : m_rgo p s i = false) by (unfold m_rgo; rewrite C0; cbn [Z.ltb Z.compare andb]; rewrite !andb_false_r; reflexivity).
          exists (ops ++ [OR (a, l, id)]). split; [exists [OR (a, l, id)]; split; [reflexivity|discriminate]|]. exists Br, Qr'. unfold writes, reads. rewrite !flat_map_app. cbn [flat_map app]. rewrite app_nil_r, <- app_assoc. split; [exact EB|]. split; [exact EQ|].
          split. { unfold resp, writes in *. rewrite flat_map_app. cbn [flat_map app]. rewrite app_nil_r. exact RS'. }
          rewrite PN. cbv zeta. split.
          { unfold quiet. rewrite VE, LE, RT, GO, D1. cbn [is_rdata andb]. repeat split; auto. }
          split; [|reflexivity]. unfold base, mem_of, ans_of. rewrite do_snoc. cbn [do_op fst snd]. rewrite MM. split; [exact MS|].
          rewrite SR, X4. unfold sent. rewrite firstn_all2; [reflexivity|]. rewrite asked1_len by (clear - LL; lia). rewrite JE. apply le_n.
        * apply Z.eqb_neq in C0. exists ops. split; [exists []; split; [symmetry; apply app_nil_r|rewrite PN; discriminate]|]. apply MORE; auto; try discriminate.
          -- unfold m_ack. rewrite RY. reflexivity.
          -- clear - C0 RC X3. lia.
          -- rewrite SR. exact X4.
      + assert (SR : s_r s i = []) by (unfold s_r; rewrite V, RY; reflexivity).
        assert (RT : m_retry s i = true) by (unfold m_retry; rewrite PH, V, RY; reflexivity).
        assert (AK : m_ack s i = false) by (unfold m_ack; rewrite V, RY; reflexivity).
        assert (GO : m_rgo p s i = false) by (unfold m_rgo; rewrite AK, !andb_false_r; reflexivity).
        rewrite GO in *. rewrite RT in *. rewrite AK in DE. cbn [andb] in PN.
        exists ops. split; [exists []; split; [symmetry; apply app_nil_r|rewrite PN; discriminate]|]. exists Br, ((a, l, id) :: Qr'). split; [exact EB|]. split; [exact EQ|]. split; [exact RS'|]. rewrite PN. cbv zeta.
        exists (a, l, id), Qr', j. split; [reflexivity|]. split; [rewrite MM; exact MS|]. split; [unfold ar_part; rewrite AR'; auto|]. split; [reflexivity|]. split; [reflexivity|].
        cbn [fst snd]. rewrite RDE, RCE. split; [exact RD|]. split; [exact RC|]. split; [exact O2|]. split; [exact O3|]. cbv zeta. rewrite VE.
        split; [exact D1'|]. split; [exact AR'|]. split; [exact X2|]. split; [exact X3|].
        rewrite SR, app_nil_r, DE, LE, RI'. unfold ar_part in AP. rewrite X1 in AP. destruct AP as (_ & RI). cbn [snd] in RI. rewrite RI in X4. exact X4.
    - destruct X as (X1 & X2 & X3). exists ops. split; [exists []; split; [symmetry; apply app_nil_r|rewrite PN; discriminate]|]. assert (SR : s_r s i = []) by (unfold s_r; rewrite V; reflexivity). apply MORE; auto; try discriminate.
      + unfold m_ack. rewrite V. apply orb_true_r.
      + unfold m_retry. rewrite V. apply andb_false_r.
      + rewrite SR, app_nil_r. exact X3.
  Qed.

  Lemma step_any s i t ma mr R BT ops : inv s t ma mr R BT ops -> offers t ma mr s i ->
    exists ops', (exists o, ops' = ops ++ o) /\ inv (step s i) (s_next s i t) (some (i_aw i) && negb (m_awready s)) (some (i_ar i) && negb (m_arready s)) (R ++ s_r s i) (BT ++ s_b s i) ops'.
  Proof using LB LQ OK m0.
    intros I OF. destruct (m_ph s) eqn:PH.
    - exists ops. split; [exists []; symmetry; apply app_nil_r|]. apply (step_idle s i t ma mr R BT ops PH I OF).
    - exists ops. split; [exists []; symmetry; apply app_nil_r|]. apply (step_waddr s i t ma mr R BT ops PH I OF).
    - exists ops. split; [exists []; symmetry; apply app_nil_r|]. apply (step_wait s i t ma mr R BT ops (or_intror (ex_intro _ k PH)) I OF).
    - exists ops. split; [exists []; symmetry; apply app_nil_r|]. apply (step_wait s i t ma mr R BT ops (or_introl PH) I OF).
    - destruct (step_wdata s i t ma mr R BT ops PH I OF) as (ops' & (o & E & _) & J). exists ops'. split; [exists o; exact E|exact J].
    - exists ops. split; [exists []; symmetry; apply app_nil_r|]. apply (step_raddr s i t ma mr R BT ops PH I OF).
    - exists ops. split; [exists []; symmetry; apply app_nil_r|]. apply (step_rwait s i t ma mr R BT ops k PH I OF).
    - destruct (step_rdata s i t ma mr R BT ops PH I OF) as (ops' & (o & E & _) & J). exists ops'. split; [exists o; exact E|exact J].
  Qed.

  Lemma takes s i t ma mr : offers t ma mr s i ->
    t_aw t = s_aw s i ++ t_aw (s_next s i t) /\ t_w t = s_w s i ++ t_w (s_next s i t) /\ t_ar t = s_ar s i ++ t_ar (s_next s i t).
  Proof using.
    intros (OA & OD & OR & _). unfold s_next, s_aw, s_w, s_ar. cbn [t_aw t_w t_ar]. split; [|split].
    - destruct (i_aw i) as [x|]; [destruct (m_awready s); [|reflexivity]|reflexivity]. destruct OA as [OA|(OA & _)]; [|discriminate OA].
      destruct (t_aw t); [discriminate OA|]. injection OA as ->. reflexivity.
    - destruct (i_w i) as [x|]; [destruct (m_wready s); [|reflexivity]|reflexivity]. destruct OD as [OD|OD]; [|discriminate OD].
      destruct (t_w t); [discriminate OD|]. injection OD as ->. reflexivity.
    - destruct (i_ar i) as [x|]; [destruct (m_arready s); [|reflexivity]|reflexivity]. destruct OR as [OR|(OR & _)]; [|discriminate OR].
      destruct (t_ar t); [discriminate OR|]. injection OR as ->. reflexivity.
  Qed.
  Lemma run_any ins : forall s t ma mr R BT ops, inv s t ma mr R BT ops -> behaves p t ma mr s ins ->
    exists o t' ma' mr', inv (sm_run p s ins) t' ma' mr' (R ++ sseen p s_r s ins) (BT ++ sseen p s_b s ins) (ops ++ o) /\
      t_aw t = sseen p s_aw s ins ++ t_aw t' /\ t_w t = sseen p s_w s ins ++ t_w t' /\ t_ar t = sseen p s_ar s ins ++ t_ar t'.
  Proof using LB LQ OK m0.
    induction ins as [|i ins IH]; intros s t ma mr R BT ops I H.
    - exists [], t, ma, mr. unfold sm_run, sseen. cbn [final outs concat]. rewrite !app_nil_r. auto.
    - destruct H as (OF & H). destruct (step_any s i t ma mr R BT ops I OF) as (ops' & (o & ->) & I').
      destruct (IH _ _ _ _ _ _ _ I' H) as (o' & t' & ma' & mr' & J & A1 & A2 & A3).
      exists (o ++ o'), t', ma', mr'. unfold sm_run, sseen in *. cbn [final outs concat]. rewrite <- !app_assoc in J. split; [exact J|].
      destruct (takes s i t ma mr OF) as (T1 & T2 & T3). rewrite T1, T2, T3, A1, A2, A3, !app_assoc. auto.
  Qed.
  Lemma start : inv (sm_init m0) (mkMaster (headers B) (beats B) Q) false false [] [] [].
  Proof using. exists B, Q. repeat split. Qed.
  Lemma behaves_app a : forall b s t ma mr, behaves p t ma mr s (a ++ b) -> behaves p t ma mr s a.
  Proof using. induction a as [|i a IH]; intros b s t ma mr H; [exact I|]. destruct H as (OF & H). split; [exact OF|exact (IH _ _ _ _ _ H)]. Qed.

  Lemma headers_app x y : headers (x ++ y) = headers x ++ headers y.
  Proof using. apply map_app. Qed.
  Lemma beats_app x y : beats (x ++ y) = beats x ++ beats y.
  Proof using. unfold beats. rewrite map_app, concat_app. reflexivity. Qed.
  (** in every state of a run *)
  Lemma inv_any s t ma mr R BT ops : inv s t ma mr R BT ops -> exists Br Qr more, B = writes ops ++ Br /\ Q = reads ops ++ Qr /\
    (exists u, beats Br = u ++ t_w t) /\ (exists u, Qr = u ++ t_ar t) /\ BT ++ (if m_bvalid s then [m_bid s] else []) = map b_id (writes ops) /\
    R = ans_of ops ++ more /\ (more = [] \/ exists q Qr' z, Qr = q :: Qr' /\ map (answer nb (mem_of ops)) (asked1 nb q) = more ++ z).
  Proof using.
    intros (Br & Qr & EB & EQ & RS & X). exists Br, Qr. cbv zeta in X.
    assert (SAME : forall u, (exists v, beats Br = v ++ t_w t) -> (exists v, Qr = v ++ t_ar t) -> R = ans_of ops ++ u -> (u = [] \/ exists q Qr' z, Qr = q :: Qr' /\ map (answer nb (mem_of ops)) (asked1 nb q) = u ++ z) ->
      exists more, B = writes ops ++ Br /\ Q = reads ops ++ Qr /\ (exists u, beats Br = u ++ t_w t) /\ (exists u, Qr = u ++ t_ar t) /\ BT ++ (if m_bvalid s then [m_bid s] else []) = map b_id (writes ops) /\
        R = ans_of ops ++ more /\ (more = [] \/ exists q Qr' z, Qr = q :: Qr' /\ map (answer nb (mem_of ops)) (asked1 nb q) = more ++ z)).
    { intros u U1 U2 U3 U4. exists u. repeat (split; [assumption|]). exact U4. }
    destruct (m_ph s).
    - destruct X as (_ & (_ & RA) & ->). apply (SAME []); [exists []; reflexivity|exists []; reflexivity|rewrite app_nil_r; exact RA|left; reflexivity].
    - destruct X as ((_ & (_ & RA) & ->) & _). apply (SAME []); [exists []; reflexivity|exists []; reflexivity|rewrite app_nil_r; exact RA|left; reflexivity].
    - destruct X as (b & Br' & E & (_ & RA) & _ & TW & TR & _). apply (SAME []); [exists []; symmetry; exact TW|exists []; symmetry; exact TR|rewrite app_nil_r; exact RA|left; reflexivity].
    - destruct X as (b & Br' & E & (_ & RA) & _ & TW & TR & _). apply (SAME []); [exists []; symmetry; exact TW|exists []; symmetry; exact TR|rewrite app_nil_r; exact RA|left; reflexivity].
    - destruct X as (b & Br' & db & rb & -> & EBB & _ & RA & _ & -> & _). apply (SAME []); [|exists []; reflexivity|rewrite app_nil_r; exact RA|left; reflexivity].
      cbn [t_w]. unfold beats. cbn [map concat]. rewrite EBB. destruct (flagged_app db rb) as (v & E). rewrite E. exists v. rewrite <- app_assoc. reflexivity.
    - destruct X as ((_ & (_ & RA) & ->) & _). apply (SAME []); [exists []; reflexivity|exists []; reflexivity|rewrite app_nil_r; exact RA|left; reflexivity].
    - destruct X as (q & Qr' & -> & (_ & RA) & AP & _ & TW & _). apply (SAME []); [exists []; symmetry; exact TW| |rewrite app_nil_r; exact RA|left; reflexivity].
      unfold ar_part in AP. destruct (m_arready s); destruct AP as (-> & _); [exists []; reflexivity|exists [q]; reflexivity].
    - destruct X as (q & Qr' & j & -> & _ & AP & _ & TW & _ & _ & _ & _ & X).
      assert (TR : exists v, q :: Qr' = v ++ t_ar t) by (unfold ar_part in AP; destruct (m_arready s); destruct AP as (-> & _); [exists []; reflexivity|exists [q]; reflexivity]).
      set (L := map (answer nb (mem_of ops)) (asked1 nb q)). destruct (m_rvalid s).
      + destruct X as (_ & _ & J1 & J2 & X). destruct j as [|j]; [clear - J1; lia|]. destruct q as [[a l] id]. cbn [fst snd] in J2.
        rewrite asked1_next in X by (clear - J2; lia). rewrite map_app, app_assoc in X. cbn [map] in X. apply app_inj_tail in X. destruct X as (X & _).
        apply (SAME (map (answer nb (mem_of ops)) (firstn j (asked1 nb (a, l, id))))); [exists []; symmetry; exact TW|exact TR|exact X|].
        right. exists (a, l, id), Qr', (skipn j L). split; [reflexivity|]. rewrite <- firstn_map. symmetry. apply firstn_skipn.
      + destruct X as (_ & _ & X). rewrite <- firstn_map in X. apply (SAME (firstn j L)); [exists []; symmetry; exact TW|exact TR|exact X|]. right. exists q, Qr', (skipn j L). split; [reflexivity|]. symmetry. apply firstn_skipn.
  Qed.
End S.

Lemma idle_carried p m0 B Q s t ma mr ops ins : s = sm_run p (sm_init m0) ins -> m_ph s = PIdle ->
  inv p m0 B Q s t ma mr (sseen p s_r (sm_init m0) ins) (sseen p s_b (sm_init m0) ins) ops ->
  headers B = sseen p s_aw (sm_init m0) ins ++ t_aw t -> beats B = sseen p s_w (sm_init m0) ins ++ t_w t -> Q = sseen p s_ar (sm_init m0) ins ++ t_ar t ->
  carried p m0 B Q ins ops.
Proof.
  intros -> PH (Br & Qr & EB & EQ & RS & X) HA HW HR. rewrite PH in X. destruct X as (_ & (MS & RA) & ->). cbn [t_aw t_w t_ar] in *.
  split; [exists Br; exact EB|]. split; [exists Qr; exact EQ|].
  split. { rewrite EB, headers_app in HA. apply app_inv_tail in HA. symmetry. exact HA. }
  split. { rewrite EB, beats_app in HW. apply app_inv_tail in HW. symmetry. exact HW. }
  split. { rewrite EQ in HR. apply app_inv_tail in HR. symmetry. exact HR. }
  split; [exact RA|]. split; [exact RS|exact MS].
Qed.
Lemma serial p m0 B Q ins1 ins2 : sm_ok p -> Forall (legal_burst p) B -> Forall (legal_req p (p_arid p)) Q ->
  behaves p (mkMaster (headers B) (beats B) Q) false false (sm_init m0) (ins1 ++ ins2) ->
  m_ph (sm_run p (sm_init m0) ins1) = PIdle -> m_ph (sm_run p (sm_init m0) (ins1 ++ ins2)) = PIdle ->
  exists ops more, carried p m0 B Q ins1 ops /\ carried p m0 B Q (ins1 ++ ins2) (ops ++ more).
Proof.
  intros OK LB LQ H P1 P2.
  assert (SPLIT : forall s t ma mr, behaves p t ma mr s (ins1 ++ ins2) -> forall R BT ops, inv p m0 B Q s t ma mr R BT ops ->
    exists o o' t1 ma1 mr1 t2 ma2 mr2, inv p m0 B Q (sm_run p s ins1) t1 ma1 mr1 (R ++ sseen p s_r s ins1) (BT ++ sseen p s_b s ins1) (ops ++ o) /\
      (t_aw t = sseen p s_aw s ins1 ++ t_aw t1 /\ t_w t = sseen p s_w s ins1 ++ t_w t1 /\ t_ar t = sseen p s_ar s ins1 ++ t_ar t1) /\
      inv p m0 B Q (sm_run p s (ins1 ++ ins2)) t2 ma2 mr2 (R ++ sseen p s_r s (ins1 ++ ins2)) (BT ++ sseen p s_b s (ins1 ++ ins2)) ((ops ++ o) ++ o') /\
      (t_aw t = sseen p s_aw s (ins1 ++ ins2) ++ t_aw t2 /\ t_w t = sseen p s_w s (ins1 ++ ins2) ++ t_w t2 /\ t_ar t = sseen p s_ar s (ins1 ++ ins2) ++ t_ar t2)).
  { clear P1 P2 H. induction ins1 as [|i ins1 IH]; intros s t ma mr H R BT ops I.
    - destruct (run_any p m0 B Q OK LB LQ ins2 s t ma mr R BT ops I H) as (o & t' & ma' & mr' & J & A).
      exists [], o, t, ma, mr, t', ma', mr'. cbn [app]. rewrite !app_nil_r. repeat split; try exact I; try exact J; apply A.
    - destruct H as (OF & H). destruct (step_any p m0 B Q OK LB LQ s i t ma mr R BT ops I OF) as (ops' & (o & ->) & I').
      destruct (IH _ _ _ _ H _ _ _ I') as (o1 & o' & t1 & ma1 & mr1 & t2 & ma2 & mr2 & J1 & (A1 & A2 & A3) & J2 & (B1 & B2 & B3)).
      exists (o ++ o1), o', t1, ma1, mr1, t2, ma2, mr2. destruct (takes s i t ma mr OF) as (T1 & T2 & T3).
      unfold sm_run, sseen in *. cbn [app final outs concat]. rewrite <- !app_assoc in J1. rewrite <- !app_assoc in J2. rewrite <- !app_assoc.
      split; [exact J1|]. split; [rewrite <- A1, <- A2, <- A3; auto|]. split; [exact J2|]. rewrite <- B1, <- B2, <- B3. auto. }
  destruct (SPLIT _ _ _ _ H [] [] [] (start p m0 B Q)) as (o & o' & t1 & ma1 & mr1 & t2 & ma2 & mr2 & J1 & (A1 & A2 & A3) & J2 & (B1 & B2 & B3)).
  exists o, o'. split.
  - exact (idle_carried p m0 B Q _ t1 ma1 mr1 o ins1 eq_refl P1 J1 A1 A2 A3).
  - exact (idle_carried p m0 B Q _ t2 ma2 mr2 (o ++ o') (ins1 ++ ins2) eq_refl P2 J2 B1 B2 B3).
Qed.
Lemma any_time p m0 B Q ins : sm_ok p -> Forall (legal_burst p) B -> Forall (legal_req p (p_arid p)) Q ->
  behaves p (mkMaster (headers B) (beats B) Q) false false (sm_init m0) ins ->
  let s0 := sm_init m0 in let s := sm_run p s0 ins in
  exists ops Br Qr more, B = writes ops ++ Br /\ Q = reads ops ++ Qr /\
    (exists u, sseen p s_w s0 ins = beats (writes ops) ++ u) /\ (exists u, sseen p s_ar s0 ins = reads ops ++ u) /\
    sseen p s_b s0 ins ++ (if m_bvalid s then [m_bid s] else []) = map b_id (writes ops) /\
    sseen p s_r s0 ins = snd (do_ops (nbytes p) m0 ops) ++ more /\
    (more = [] \/ exists q Qr' z, Qr = q :: Qr' /\ map (answer (nbytes p) (fst (do_ops (nbytes p) m0 ops))) (asked1 (nbytes p) q) = more ++ z).
Proof.
  intros OK LB LQ H s0 s. destruct (run_any p m0 B Q OK LB LQ ins _ _ _ _ _ _ _ (start p m0 B Q) H) as (ops & t & ma & mr & J & _ & A2 & A3).
  cbn [app t_w t_ar] in *. destruct (inv_any p m0 B Q _ _ _ _ _ _ _ J) as (Br & Qr & more & EB & EQ & (u & EU) & (v & EV) & RS & RR & MO).
  exists ops, Br, Qr, more. split; [exact EB|]. split; [exact EQ|].
  split. { exists u. rewrite EB, beats_app, EU, app_assoc in A2. apply app_inv_tail in A2. symmetry. exact A2. }
  split. { exists v. rewrite EV in EQ. rewrite EQ, app_assoc in A3. apply app_inv_tail in A3. symmetry. exact A3. }
  split; [exact RS|]. split; [exact RR|exact MO].
Qed.

(** sleeping all the time *)
Lemma never_awake p ins : p_sleep p = 1 -> forall s, l_count (m_slp s) = 0 -> m_rvalid s = false ->
  sseen p s_r s ins = [].
Proof.
  intros SL. induction ins as [|i ins IH]; intros s L V; [reflexivity|]. unfold sseen in *. cbn [outs concat]. unfold s_r at 1. rewrite V. cbn [andb app]. apply IH.
  - cbn [sm_step m_slp]. unfold sleep_step. rewrite SL, L. cbn. destruct (0 <? p_keep p); [|reflexivity]. destruct (l_keep (m_slp s) =? p_keep p - 1); reflexivity.
  - cbn [sm_step m_rvalid]. unfold m_retry, m_rgo, awake_r. rewrite SL, L, V. cbn. rewrite !andb_false_r. destruct (is_rdata (m_d1 s)); reflexivity.
Qed.

Lemma eager_behaves p n : forall t ma mr s, behaves p t ma mr s (eager_ins p n t s).
Proof.
  induction n as [|n IH]; intros t ma mr s; [exact I|]. cbn [eager_ins behaves]. split; [|apply IH].
  unfold offers, eager. cbn [i_aw i_w i_ar i_bready]. repeat split; left; reflexivity.
Qed.

(** ** Bursts end *)
Fixpoint erun (p : mp) (n : nat) (t : master) (s : sm) : master * sm :=
  match n with O => (t, s) | S n => erun p n (s_next s (eager t) t) (sm_step p s (eager t)) end.
Lemma erun_run p n : forall t s, snd (erun p n t s) = sm_run p s (eager_ins p n t s).
Proof. induction n as [|n IH]; intros t s; [reflexivity|]. cbn [erun eager_ins]. rewrite IH. reflexivity. Qed.
Lemma erun_add p a b : forall t s, erun p (a + b) t s = erun p b (fst (erun p a t s)) (snd (erun p a t s)).
Proof. induction a as [|a IH]; intros t s; [reflexivity|]. cbn [Nat.add erun]. apply IH. Qed.
Lemma eager_offers t ma mr s : offers t ma mr s (eager t).
Proof. unfold offers, eager. cbn [i_aw i_w i_ar i_bready]. repeat split; left; reflexivity. Qed.

Section L.
  Variables (p : mp) (m0 : Z -> Z) (B : list wburst) (Q : list (Z * Z * Z)).
  Hypothesis OK : sm_ok p.
  Hypothesis LB : Forall (legal_burst p) B.
  Hypothesis LQ : Forall (legal_req p (p_arid p)) Q.
  Hypothesis WK : wakes p.
  Definition at_ (s : sm) (t : master) (ops : list op) : Prop := SInv p (m_slp s) /\ exists ma mr R BT, inv p m0 B Q s t ma mr R BT ops.
  Definition reach (s : sm) (t : master) (ops : list op) : Prop :=
    exists n ops', let '(t', s') := erun p n t s in m_ph s' = PIdle /\ at_ s' t' ops' /\ (length ops < length ops')%nat.
  Definition nxt (s : sm) (t : master) : sm := sm_step p s (eager t).
  Definition nxm (s : sm) (t : master) : master := s_next s (eager t) t.

  Lemma reach_back s t ops ops' : reach (nxt s t) (nxm s t) ops' -> (length ops <= length ops')%nat -> reach s t ops.
  Proof using.
    intros (n & o & H) L. exists (S n), o. cbn [erun]. fold (nxt s t) (nxm s t). destruct (erun p n (nxm s t) (nxt s t)) as [t' s']. destruct H as (A & C & D).
    split; [exact A|]. split; [exact C|]. clear - L D. lia.
  Qed.
  Lemma slp_next s t : SInv p (m_slp s) -> SInv p (m_slp (nxt s t)).
  Proof using OK WK. intros H. refine (proj1 (s_step_ok p _ WK (m_slp s) H)). pose proof (so_aw p OK) as X. clear - X. lia. Qed.
  Lemma zz_next s t : SInv p (m_slp s) -> awake_w p (m_slp s) = false -> zz p (m_slp (nxt s t)) = zz p (m_slp s) - 1 /\ 0 <= zz p (m_slp (nxt s t)).
  Proof using OK WK.
    intros H W. assert (A : 0 <= p_aw p) by (pose proof (so_aw p OK) as X; clear - X; lia). destruct (s_step_ok p A WK (m_slp s) H) as (I & E). split; [exact (E W)|].
    exact (proj1 (zz_range p _ I)).
  Qed.
  Lemma at_step s t ops : at_ s t ops -> exists o, at_ (nxt s t) (nxm s t) (ops ++ o).
  Proof using LB LQ OK WK.
    intros (SI & ma & mr & R & BT & I). destruct (step_any p m0 B Q OK LB LQ s (eager t) t ma mr R BT ops I (eager_offers t ma mr s)) as (ops' & (o & ->) & J).
    exists o. split; [exact (slp_next s t SI)|]. eexists _, _, _, _. exact J.
  Qed.
  Lemma end_step s t ops : at_ s t ops -> m_ph s = PRdata \/ m_ph s = PWdata -> m_ph (nxt s t) = PIdle -> reach s t ops.
  Proof using LB LQ OK WK.
    intros (SI & ma & mr & R & BT & I) PH E.
    assert (X : exists ops', (exists o, ops' = ops ++ o /\ (m_ph (nxt s t) = PIdle -> o <> [])) /\ at_ (nxt s t) (nxm s t) ops').
    { destruct PH as [PH|PH].
      - destruct (step_rdata p m0 B Q OK LQ s (eager t) t ma mr R BT ops PH I (eager_offers t ma mr s)) as (ops' & O & J). exists ops'. split; [exact O|]. split; [exact (slp_next s t SI)|]. eexists _, _, _, _. exact J.
      - destruct (step_wdata p m0 B Q OK LB s (eager t) t ma mr R BT ops PH I (eager_offers t ma mr s)) as (ops' & O & J). exists ops'. split; [exact O|]. split; [exact (slp_next s t SI)|]. eexists _, _, _, _. exact J. }
    destruct X as (ops' & (o & -> & N) & A). exists 1%nat, (ops ++ o). cbn [erun]. fold (nxt s t) (nxm s t). split; [exact E|]. split; [exact A|].
    specialize (N E). rewrite app_length. destruct o; [congruence|]. cbn [length]. clear. lia.
  Qed.
  Lemma go_on s t ops : at_ s t ops -> (forall ops', at_ (nxt s t) (nxm s t) ops' -> reach (nxt s t) (nxm s t) ops') -> reach s t ops.
  Proof using LB LQ OK WK.
    intros A H. destruct (at_step s t ops A) as (o & A'). apply (reach_back s t ops (ops ++ o) (H _ A')). rewrite app_length. clear. lia.
  Qed.
  Lemma aw_pow : 256 <= 2 ^ (p_aw p + 1).
  Proof using OK. pose proof (Z.pow_le_mono_r 2 8 (p_aw p + 1) ltac:(clear; lia) ltac:(pose proof (so_aw p OK) as H; clear - H; lia)) as H. exact H. Qed.

  Lemma ev_rdata n : forall s t ops, (Z.to_nat (m_rcount s) <= n)%nat -> m_ph s = PRdata -> at_ s t ops -> reach s t ops.
  Proof using LB LQ OK WK.
    induction n as [n IH] using lt_wf_ind.
    assert (IN : forall m s t ops, (Z.to_nat (zz p (m_slp s)) <= m)%nat -> (Z.to_nat (m_rcount s) <= n)%nat -> m_ph s = PRdata -> at_ s t ops -> reach s t ops);
      [|intros s t ops N PH A; exact (IN _ s t ops (le_n _) N PH A)].
    induction m as [m IM] using lt_wf_ind. intros s t ops M N PH A.
    assert (X : (m_rcount s = 0 /\ m_rvalid s = true) \/ 1 <= m_rcount s <= 256).
    { destruct A as (_ & ma & mr & R & BT & (Br & Qr & EB & EQ & _ & X)). rewrite PH in X. destruct X as (q & Qr' & j & -> & _ & _ & _ & _ & _ & RC & _ & _ & X).
      pose proof (legal_q p Q LQ q Qr' ops EQ) as LG. destruct q as [[a l] id]. destruct LG as (_ & LL & _). cbn [fst snd] in *. cbv zeta in X. destruct (m_rvalid s).
      - destruct X as (_ & _ & _ & JL & _). clear - RC LL JL. lia.
      - destruct X as (_ & JL & _). clear - RC LL JL. lia. }
    destruct X as [(C0 & V)|C1].
    - apply end_step; auto. unfold nxt. cbn [sm_step m_ph]. unfold ph_step. rewrite PH, V, C0. reflexivity.
    - apply go_on; [exact A|]. intros ops' A'.
      assert (PN : m_ph (nxt s t) = PRdata).
      { unfold nxt. cbn [sm_step m_ph]. unfold ph_step. rewrite PH. assert (E : (m_rcount s =? 0) = false) by (apply Z.eqb_neq; clear - C1; lia). rewrite E, andb_false_r. reflexivity. }
      assert (E2 : (0 <? m_rcount s) = true) by (apply Z.ltb_lt; clear - C1; lia).
      assert (GO : m_rgo p s (eager t) = awake_w p (m_slp s)).
      { rewrite <- (awake_same p (m_slp s) (proj1 A)). unfold m_rgo, m_ack. rewrite PH, E2. apply andb_true_r. }
      assert (RC : m_rcount (nxt s t) = if awake_w p (m_slp s) then m_rcount s - 1 else m_rcount s).
      { unfold nxt. cbn [sm_step m_rcount]. unfold m_argo. rewrite PH, GO. cbn [is_raddr andb]. pose proof aw_pow as AW.
        rewrite Z.mod_small by (clear - C1 AW; lia). destruct (i_ar (eager t)) as [[[x y] z]|]; reflexivity. }
      destruct (awake_w p (m_slp s)) eqn:W.
      + apply (IH (Z.to_nat (m_rcount s - 1))); [clear - C1 N; lia|rewrite RC; apply le_n|exact PN|exact A'].
      + destruct (zz_next s t (proj1 A) W) as (Z1 & Z2). apply (IM (Z.to_nat (zz p (m_slp (nxt s t))))); [clear - Z1 Z2 M; lia|apply le_n|rewrite RC; exact N|exact PN|exact A'].
  Qed.
  Lemma ev_rdelay n : forall s t ops k, (Z.to_nat k <= n)%nat -> m_ph s = PRdelay k -> at_ s t ops -> reach s t ops.
  Proof using LB LQ OK WK.
    induction n as [|n IH]; intros s t ops k N PH A; (apply go_on; [exact A|]; intros ops' A').
    - apply (ev_rdata (Z.to_nat (m_rcount (nxt s t)))); [apply le_n| |exact A']. unfold nxt. cbn [sm_step m_ph]. unfold ph_step. rewrite PH.
      assert (E : (k <=? 1) = true) by (apply Z.leb_le; clear - N; lia). rewrite E. reflexivity.
    - assert (PN : m_ph (nxt s t) = if k <=? 1 then PRdata else PRdelay (k - 1)) by (unfold nxt; cbn [sm_step m_ph]; unfold ph_step; rewrite PH; reflexivity).
      destruct (k <=? 1) eqn:K; [apply (ev_rdata (Z.to_nat (m_rcount (nxt s t)))); auto|]. apply (IH _ _ _ (k - 1)); auto. clear - N. lia.
  Qed.
  Lemma ev_wdata n : forall s t ops, (Z.to_nat (m_wcount s) <= n)%nat -> m_ph s = PWdata -> (p_sleep p <= 0 -> m_wready s = true) -> at_ s t ops -> reach s t ops.
  Proof using LB LQ OK WK.
    induction n as [n IH] using lt_wf_ind.
    assert (IN : forall m s t ops, ((if m_wready s then 0 else S (Z.to_nat (zz p (m_slp s)))) <= m)%nat -> (Z.to_nat (m_wcount s) <= n)%nat -> m_ph s = PWdata -> (p_sleep p <= 0 -> m_wready s = true) -> at_ s t ops -> reach s t ops);
      [|intros s t ops N PH NW A; exact (IN _ s t ops (le_n _) N PH NW A)].
    induction m as [m IM] using lt_wf_ind. intros s t ops M N PH NW A.
    assert (X : 1 <= m_wcount s <= 256 /\ exists x, i_w (eager t) = Some x).
    { destruct A as (_ & ma & mr & R & BT & (Br & Qr & EB & EQ & _ & X)). rewrite PH in X. destruct X as (b & Br' & db & rb & -> & EBB & NE & _ & _ & -> & _ & WC & _).
      pose proof (legal_in p B LB b Br' ops EB) as LG. destruct LG as (_ & LL & _). rewrite EBB, app_length, Nat2Z.inj_add in LL. rewrite WC. destruct rb as [|x rb]; [congruence|]. split.
      - cbn [length] in *. clear - LL. lia.
      - unfold eager. cbn [i_w t_w]. rewrite flagged_cons. eexists. reflexivity. }
    destruct X as (C1 & x & IX).
    assert (HS : m_whs s (eager t) = m_wready s) by (unfold m_whs; rewrite IX; reflexivity).
    assert (WF : m_wfin s (eager t) = m_wready s && (m_wcount s =? 1)) by (unfold m_wfin; rewrite PH, HS; reflexivity).
    assert (PN : m_ph (nxt s t) = if m_wready s && (m_wcount s =? 1) then PIdle else PWdata) by (unfold nxt; cbn [sm_step m_ph]; unfold ph_step; rewrite PH, WF; reflexivity).
    assert (WC : m_wcount (nxt s t) = if m_wready s then m_wcount s - 1 else m_wcount s).
    { unfold nxt. cbn [sm_step m_wcount]. unfold m_awgo. rewrite PH, HS. cbn [is_waddr is_wdata andb]. pose proof aw_pow as AW.
      rewrite Z.mod_small by (clear - C1 AW; lia). destruct (i_aw (eager t)) as [[[u y] z]|]; reflexivity. }
    destruct (m_wready s) eqn:WR.
    - cbn [andb] in PN. destruct (m_wcount s =? 1) eqn:E1; [apply end_step; auto|]. apply Z.eqb_neq in E1.
      apply go_on; [exact A|]. intros ops' A'. apply (IH (Z.to_nat (m_wcount s - 1))); [clear - C1 N; lia|rewrite WC; apply le_n|exact PN| |exact A'].
      intros SL. unfold nxt. cbn [sm_step m_wready]. rewrite WF, PH, WR. assert (E2 : (0 <? p_sleep p) = false) by (apply Z.ltb_ge; exact SL). rewrite E2. reflexivity.
    - cbn [andb] in PN, WF. apply go_on; [exact A|]. intros ops' A'.
      assert (SL : 0 < p_sleep p) by (destruct (Z.le_gt_cases (p_sleep p) 0) as [L|L]; [discriminate (NW L)|exact L]).
      assert (WN : m_wready (nxt s t) = awake_w p (m_slp s)).
      { unfold nxt. cbn [sm_step m_wready]. rewrite WF, PH. assert (E2 : (0 <? p_sleep p) = true) by (apply Z.ltb_lt; exact SL). rewrite E2. reflexivity. }
      refine (IM _ _ (nxt s t) (nxm s t) ops' (le_n _) _ PN _ A'); [|rewrite WC; exact N|intros L; clear - SL L; lia].
      rewrite WN. destruct (awake_w p (m_slp s)) eqn:W; [clear - M; lia|]. destruct (zz_next s t (proj1 A) W) as (Z1 & Z2). clear - Z1 Z2 M. lia.
  Qed.
  Lemma ev_wready s t ops : m_ph s = PWready -> at_ s t ops -> reach s t ops.
  Proof using LB LQ OK WK.
    intros PH A. apply go_on; [exact A|]. intros ops' A'. apply (ev_wdata (Z.to_nat (m_wcount (nxt s t)))); [apply le_n| | |exact A'].
    - unfold nxt. cbn [sm_step m_ph]. unfold ph_step. rewrite PH. reflexivity.
    - intros _. unfold nxt. cbn [sm_step m_wready]. unfold m_wfin. rewrite PH. reflexivity.
  Qed.
  Lemma ev_wdelay n : forall s t ops k, (Z.to_nat k <= n)%nat -> m_ph s = PWdelay k -> at_ s t ops -> reach s t ops.
  Proof using LB LQ OK WK.
    induction n as [|n IH]; intros s t ops k N PH A; (apply go_on; [exact A|]; intros ops' A').
    - apply ev_wready; [|exact A']. unfold nxt. cbn [sm_step m_ph]. unfold ph_step. rewrite PH.
      assert (E : (k <=? 1) = true) by (apply Z.leb_le; clear - N; lia). rewrite E. reflexivity.
    - assert (PN : m_ph (nxt s t) = if k <=? 1 then PWready else PWdelay (k - 1)) by (unfold nxt; cbn [sm_step m_ph]; unfold ph_step; rewrite PH; reflexivity).
      destruct (k <=? 1) eqn:K; [apply ev_wready; auto|]. apply (IH _ _ _ (k - 1)); auto. clear - N. lia.
  Qed.
  Lemma ev_idle s t ops : m_ph s = PIdle -> at_ s t ops -> (exists x, hd_error (t_ar t) = Some x) \/ (t_ar t = [] /\ exists x, hd_error (t_aw t) = Some x) -> reach s t ops.
  Proof using LB LQ OK WK.
    intros PH A X.
    assert (TS : nxm s t = t).
    { destruct A as (_ & ma & mr & R & BT & (Br & Qr & EB & EQ & _ & Y)). rewrite PH in Y. destruct Y as ((Q1 & Q2 & Q3 & _) & _).
      unfold nxm. apply next_none; [apply not_taken_aw, Q1|apply not_taken_w, Q3|apply not_taken_ar, Q2]. }
    apply go_on; [exact A|]. intros ops' A'. rewrite TS in *.
    assert (PN : m_ph (nxt s t) = if some (hd_error (t_ar t)) then PRaddr else if some (hd_error (t_aw t)) then PWaddr else PIdle) by (unfold nxt; cbn [sm_step m_ph]; unfold ph_step; rewrite PH; reflexivity).
    apply go_on; [exact A'|]. intros ops2 A2. destruct X as [(x & E)|(E0 & x & E)].
    - rewrite E in PN. cbn [some] in PN.
      assert (P2 : m_ph (nxt (nxt s t) t) = if p_rdelay p <=? 0 then PRdata else PRdelay (p_rdelay p)) by (unfold nxt at 1; cbn [sm_step m_ph]; unfold ph_step; rewrite PN; unfold eager at 1; cbn [i_ar]; rewrite E; reflexivity).
      destruct (p_rdelay p <=? 0); [eapply ev_rdata|eapply ev_rdelay]; eauto.
    - rewrite E0, E in PN. cbn [some hd_error] in PN.
      assert (P2 : m_ph (nxt (nxt s t) t) = if p_wdelay p <=? 0 then PWready else PWdelay (p_wdelay p)) by (unfold nxt at 1; cbn [sm_step m_ph]; unfold ph_step; rewrite PN; unfold eager at 1; cbn [i_aw]; rewrite E; reflexivity).
      destruct (p_wdelay p <=? 0); [eapply ev_wready|eapply ev_wdelay]; eauto.
  Qed.
  Lemma ops_len ops : length ops = (length (writes ops) + length (reads ops))%nat.
  Proof using. induction ops as [|[b|q] ops IH]; [reflexivity| |]; cbn [writes reads flat_map app length] in *; unfold writes, reads in IH; rewrite IH; clear; lia. Qed.
  Lemma all_done n : forall s t ops, (length B + length Q - length ops <= n)%nat -> m_ph s = PIdle -> at_ s t ops ->
    exists k, let '(t', s') := erun p k t s in m_ph s' = PIdle /\ t' = mkMaster [] [] [].
  Proof using LB LQ OK WK.
    induction n as [n IH] using lt_wf_ind. intros s t ops N PH A.
    assert (Y : exists Br Qr, B = writes ops ++ Br /\ Q = reads ops ++ Qr /\ t = mkMaster (headers Br) (beats Br) Qr).
    { destruct A as (_ & ma & mr & R & BT & (Br & Qr & EB & EQ & _ & Y)). rewrite PH in Y. exists Br, Qr. split; [exact EB|]. split; [exact EQ|apply Y]. }
    destruct Y as (Br & Qr & EB & EQ & ET).
    assert (D : (Br = [] /\ Qr = []) \/ ((exists x, hd_error (t_ar t) = Some x) \/ (t_ar t = [] /\ exists x, hd_error (t_aw t) = Some x))).
    { rewrite ET. cbn [t_ar t_aw]. destruct Qr as [|q Qr]; [|right; left; eexists; reflexivity]. destruct Br as [|b Br]; [left; auto|]. right. right. split; [reflexivity|]. eexists. reflexivity. }
    destruct D as [(-> & ->)|D]; [exists 0%nat; cbn [erun]; split; [exact PH|exact ET]|].
    destruct (ev_idle s t ops PH A D) as (k & ops' & H). destruct (erun p k t s) as [t1 s1] eqn:ER. destruct H as (P1 & A1 & L1).
    assert (LE : (length ops' <= length B + length Q)%nat).
    { destruct A1 as (_ & ma & mr & R & BT & (Br1 & Qr1 & EB1 & EQ1 & _)). rewrite ops_len, EB1, EQ1, !app_length. clear. lia. }
    destruct (IH (length B + length Q - length ops')%nat ltac:(clear - L1 LE N; lia) s1 t1 ops' (le_n _) P1 A1) as (k' & H).
    exists (k + k')%nat. rewrite erun_add, ER. cbn [fst snd]. exact H.
  Qed.
End L.


Lemma erun_takes p n : forall t s, let ins := eager_ins p n t s in let t' := fst (erun p n t s) in
  t_aw t = sseen p s_aw s ins ++ t_aw t' /\ t_ar t = sseen p s_ar s ins ++ t_ar t'.
Proof.
  induction n as [|n IH]; intros t s; [split; reflexivity|]. cbv zeta in *. destruct (takes s (eager t) t false false (eager_offers t false false s)) as (T1 & _ & T3).
  cbn [eager_ins erun]. unfold sseen in *. cbn [outs concat]. destruct (IH (s_next s (eager t) t) (sm_step p s (eager t))) as (I1 & I3). rewrite <- !app_assoc, <- I1, <- I3. split; [exact T1|exact T3].
Qed.
Lemma ends p m0 B Q : sm_ok p -> Forall (legal_burst p) B -> Forall (legal_req p (p_arid p)) Q -> wakes p ->
  exists n ops, m_ph (sm_run p (sm_init m0) (eager_ins p n (mkMaster (headers B) (beats B) Q) (sm_init m0))) = PIdle /\
    carried p m0 B Q (eager_ins p n (mkMaster (headers B) (beats B) Q) (sm_init m0)) ops /\ writes ops = B /\ reads ops = Q.
Proof.
  intros OK LB LQ WK. set (t := mkMaster (headers B) (beats B) Q).
  destruct (all_done p m0 B Q OK LB LQ WK _ (sm_init m0) t [] (le_n _) eq_refl) as (n & H).
  { split; [exact (s_init_ok p WK)|]. exists false, false, [], []. apply start. }
  pose proof (erun_takes p n t (sm_init m0)) as TK. pose proof (erun_run p n t (sm_init m0)) as RU.
  destruct (erun p n t (sm_init m0)) as [t' s']. destruct H as (PH & ->). cbv zeta in TK. cbn [fst snd t_aw t_ar] in *. rewrite !app_nil_r in TK. destruct TK as (TA & TR).
  rewrite RU in PH.
  destruct (serial p m0 B Q (eager_ins p n t (sm_init m0)) [] OK LB LQ) as (ops & more & C & _); rewrite ?app_nil_r; auto.
  { apply eager_behaves. }
  exists n, ops. split; [exact PH|]. split; [exact C|]. destruct C as ((Br & EB) & (Qr & EQ) & SA & _ & SR & _). rewrite SA in TA. rewrite SR in TR. split.
  - assert (X : headers (writes ops) ++ headers Br = headers (writes ops) ++ []) by (rewrite app_nil_r, <- headers_app, <- EB; exact TA). apply app_inv_head in X.
    destruct Br; [|discriminate X]. rewrite app_nil_r in EB. symmetry. exact EB.
  - unfold t in TR. cbn [t_ar] in TR. symmetry. exact TR.
Qed.
