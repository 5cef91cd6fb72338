(** Proofs about the AXI stream input with FIFOs. *)
From Verif Require Import Base Pack Fifo_Model Fifo_Spec Fifo_Proofs Ram_Model Ram_Spec AxiDma_Model AxiDma_Proofs AxiData_Model AxiData_Spec
  AxiData_Proofs AxiMem_Proofs AxiPorts_Model AxiPorts_Proofs AxisIn_Model AxisInFifo_Model AxisInFifo_Spec.
Open Scope Z_scope.

(** ** Request words *)
Lemma unpack_breq c o n : 1 <= g_aw c -> 1 <= g_sw c -> 0 <= o < 2 ^ g_sw c -> 0 <= n < 2 ^ lw c ->
  let v := pack_breq c o n in bq_op c v = o /\ bq_size c v = n.
Proof.
  intros Haw Hsw Ho Hn. cbv zeta.
  pose proof (unpack_cat [(g_sw c, o); (lw c, n)]) as H.
  assert (F : Forall (fun f : Z * Z => 0 <= fst f) [(g_sw c, o); (lw c, n)])
    by (unfold lw; repeat constructor; cbn [fst]; lia).
  specialize (H F). fold (pack_breq c o n) in H. set (v := pack_breq c o n) in *. clearbody v.
  cbn [total_width fold_right fst map snd unpack_from] in H.
  rewrite (Z.mod_small o), (Z.mod_small n) in H by assumption.
  injection H as H1 H2. unfold bq_op, bq_size, lw in *.
  repeat split; [rewrite <- H1|rewrite <- H2]; f_equal; lia.
Qed.

Lemma any_true c f : any c f = true -> exists k, (k < nops c)%nat /\ f k = true.
Proof. intros H. apply existsb_exists in H. destruct H as (k & A & B). apply in_seq in A. exists k. split; [lia|exact B]. Qed.
Lemma any_intro c f k : (k < nops c)%nat -> f k = true -> any c f = true.
Proof. intros A B. apply existsb_exists. exists k. split; [apply in_seq; lia|exact B]. Qed.
Lemma any_false c f : (forall k, (k < nops c)%nat -> f k = false) -> any c f = false.
Proof. intros H. destruct (any c f) eqn:E; [|reflexivity]. apply any_true in E. destruct E as (k & A & B). rewrite H in B by exact A. discriminate. Qed.
Lemma any_one c f k : (k < nops c)%nat -> (forall j, (j < nops c)%nat -> f j = true -> f k = true) -> any c f = f k.
Proof.
  intros A H. destruct (f k) eqn:E; [exact (any_intro c f k A E)|]. apply any_false. intros j Hj.
  destruct (f j) eqn:F; [symmetry; exact (H j Hj F)|reflexivity].
Qed.
Lemma opid_inj j k : opid j = opid k -> j = k.
Proof. unfold opid. lia. Qed.
Lemma same_class_bfsm s r r' : same_class r r' = true -> bfsm s r = bfsm s r'.
Proof. destruct r, r'; try discriminate; reflexivity. Qed.
Lemma bfsm_step_class c s i r r' : same_class r r' = true -> bfsm_step c s i r = bfsm_step c s i r'.
Proof.
  intros H. unfold bfsm_step. rewrite (same_class_bfsm s r r' H).
  assert (E : forall k, same_class r (o_ratio (opk c k)) = same_class r' (o_ratio (opk c k)))
    by (intros k; destruct r, r'; try discriminate; reflexivity).
  assert (G : forall f, any c (fun k => same_class r (o_ratio (opk c k)) && f k) = any c (fun k => same_class r' (o_ratio (opk c k)) && f k)).
  { intros f. unfold any. induction (seq 0 (nops c)) as [|x l IH]; [reflexivity|]. cbn [existsb]. rewrite IH, E. reflexivity. }
  rewrite !G. reflexivity.
Qed.
Lemma bfsm_of_step c s i r : bfsm (bstep c s i) r = bfsm_step c s i r.
Proof. destruct r; cbn [bfsm bstep b_same b_narrow b_wide]; [reflexivity| |]; apply bfsm_step_class; reflexivity. Qed.

Section Eng.
  Variable c : cfg.
  Hypothesis Hc : blegal_cfg c.
  Notation R k := (o_ratio (opk c k)).
  Notation W k := (o_w (opk c k)).
  Notation A k := (o_raw (opk c k)).

  Lemma aw1 : 1 <= g_aw c. Proof using Hc. apply Hc. Qed.
  Lemma fa1 : 1 <= g_fa c. Proof using Hc. apply Hc. Qed.
  Lemma op_ok k : (k < nops c)%nat -> 0 <= W k /\ 1 <= A k /\
    match R k with Same => True | Narrow lp => 0 < lp /\ W k = g_dw c | Wide lp => 0 < lp end.
  Proof using Hc.
    intros H. destruct Hc as (_ & _ & _ & _ & F & _).
    refine (proj1 (Forall_forall _ (g_ops c)) F (opk c k) _). apply nth_In. exact H.
  Qed.
  Lemma op_raw k : (k < nops c)%nat -> 1 <= A k. Proof using Hc. intros H. apply (op_ok k H). Qed.
  Lemma op_w k : (k < nops c)%nat -> 0 <= W k. Proof using Hc. intros H. apply (op_ok k H). Qed.
  Lemma op_r k : (k < nops c)%nat -> match R k with Same => True | Narrow lp | Wide lp => 0 < lp end.
  Proof using Hc. intros H. destruct (op_ok k H) as (_ & _ & X). destruct (R k); [exact X|apply X|exact X]. Qed.
  Lemma op_id k : (k < nops c)%nat -> 0 <= opid k < 2 ^ g_sw c.
  Proof using Hc. intros H. destruct Hc as (_ & _ & _ & X & _). unfold opid. lia. Qed.
  Lemma one_same j k : (j < nops c)%nat -> (k < nops c)%nat -> R j = Same -> R k = Same -> j = k.
  Proof using Hc. destruct Hc as (_ & _ & _ & _ & _ & X). apply X. Qed.

  (** ** Control *)
  Definition others (s : bst) (k : nat) : Prop := forall r, same_class r (R k) = false -> bfsm s r = 0.
  Definition all0 (s : bst) : Prop := forall r, bfsm s r = 0.
  Record active (s : bst) (k : nat) : Prop := mkActive {
    ac_k : (k < nops c)%nat; ac_sel : b_sel s = opid k; ac_fsm : bfsm s (R k) = 1;
    ac_oth : others s k; ac_busy : b_busy s = true; ac_thr : b_thr s = 0 \/ b_thr s = 1 }.

  Lemma active_sel s k j : active s k -> bsel s j = Nat.eqb j k.
  Proof using.
    intros H. unfold bsel. rewrite (ac_sel _ _ H). destruct (Nat.eqb j k) eqn:E.
    - apply Nat.eqb_eq in E. subst. apply Z.eqb_refl.
    - apply Nat.eqb_neq in E. apply Z.eqb_neq. intros X. apply E. symmetry. apply opid_inj. exact X.
  Qed.
  Lemma active_here s k j : active s k -> bhere c s j 1 = true -> same_class (R j) (R k) = true.
  Proof using.
    intros H E. unfold bhere in E. apply Z.eqb_eq in E. destruct (same_class (R j) (R k)) eqn:S; [reflexivity|].
    rewrite (ac_oth _ _ H _ S) in E. discriminate.
  Qed.
  Lemma busy_dispatch s k : b_busy s = true -> bdispatch c s k = false.
  Proof using. intros H. unfold bdispatch. rewrite H. cbn. apply andb_false_r. Qed.
  Lemma busy_no s : b_busy s = true -> any c (bdispatch c s) = false.
  Proof using. intros H. apply any_false. intros k _. apply busy_dispatch, H. Qed.
  Lemma mine_no s r : b_busy s = true -> any c (fun k => same_class r (R k) && bdispatch c s k) = false.
  Proof using. intros H. apply any_false. intros k _. rewrite busy_dispatch by exact H. apply andb_false_r. Qed.
  Lemma class_refl r : same_class r r = true.
  Proof using. destruct r; reflexivity. Qed.

  (** in data state 1 only the selected operation does anything *)
  Lemma run_active s k j : active s k -> (j < nops c)%nat -> brun c s j = true -> j = k.
  Proof using Hc.
    intros H Hj E. unfold brun in E. apply andb_prop in E. destruct E as [E1 E2]. apply andb_prop in E1. destruct E1 as [E1 _].
    pose proof (active_here s k j H E1) as S. rewrite (active_sel s k j H) in E2.
    destruct (R j) eqn:Rj; [|apply Nat.eqb_eq; exact E2..].
    apply one_same; [exact Hj|apply (ac_k _ _ H)|exact Rj|]. destruct (R k); try discriminate. reflexivity.
  Qed.
  Lemma run_self s k : active s k -> brun c s k = negb (baf c s k).
  Proof using.
    intros H. unfold brun, bhere. rewrite (ac_fsm _ _ H). cbn [Z.eqb Pos.eqb andb].
    rewrite (active_sel s k k H), Nat.eqb_refl. destruct (R k); apply andb_true_r.
  Qed.
  Lemma only_active s k f : active s k -> (forall j, f j = true -> brun c s j = true) -> any c f = f k.
  Proof using Hc.
    intros H F. apply any_one; [apply (ac_k _ _ H)|]. intros j Hj E. rewrite <- (run_active s k j H Hj (F j E)). exact E.
  Qed.
  Lemma bdec_run s i j : bdec c s i j = true -> brun c s j = true.
  Proof using. unfold bdec. cbv zeta. intros E. apply andb_prop in E. apply E. Qed.
  Lemma bfin_run s i j : bfin c s i j = true -> brun c s j = true.
  Proof using. unfold bfin. cbv zeta. intros E. apply andb_prop in E. destruct E as [E _]. apply andb_prop in E. apply E. Qed.
  Lemma run_all0 s j : all0 s -> brun c s j = false.
  Proof using. intros H. unfold brun, bhere. rewrite H. reflexivity. Qed.
  Lemma nofin s i : all0 s -> any c (bdec c s i) = false /\ any c (bfin c s i) = false.
  Proof using.
    intros H. split; apply any_false; intros k _; unfold bfin, bdec; rewrite (run_all0 s k H); reflexivity.
  Qed.
  Lemma unit_eq s i k : b_unit (bstep c s i) k = bunit_step c s i k.
  Proof using. cbn [bstep b_unit]. apply tab_ok. Qed.
  Lemma idle_busy s : b_busy s = true -> bidle s = false.
  Proof using. intros H. unfold bidle. rewrite H. apply andb_false_r. Qed.

  Lemma active_step s i k : active s k ->
    if bfin c s i k then all0 (bstep c s i) /\ b_busy (bstep c s i) = false /\ (b_thr (bstep c s i) = 0 \/ b_thr (bstep c s i) = 1)
    else active (bstep c s i) k.
  Proof using Hc.
    intros H. pose proof (ac_busy _ _ H) as Hb. pose proof (busy_no s Hb) as Hd.
    assert (Hthr : b_thr s =? 2 = false) by (destruct (ac_thr _ _ H) as [E|E]; rewrite E; reflexivity).
    assert (Hthr' : b_thr (bstep c s i) = 0 \/ b_thr (bstep c s i) = 1).
    { cbn [bstep b_thr]. unfold bthr_step. rewrite (idle_busy s Hb). destruct (ac_thr _ _ H) as [E|E]; rewrite E; cbn [Z.eqb Pos.eqb].
      - destruct (c_read i); auto.
      - auto. }
    assert (Eoth : forall r, same_class r (R k) = false -> bfsm (bstep c s i) r = 0).
    { intros r Hr. rewrite bfsm_of_step. unfold bfsm_step. rewrite (ac_oth _ _ H r Hr). cbn [Z.eqb].
      rewrite mine_no by exact Hb. reflexivity. }
    assert (Ek : forall r, same_class r (R k) = true -> bfsm (bstep c s i) r = if bfin c s i k then 0 else 1).
    { intros r Hr. rewrite bfsm_of_step. unfold bfsm_step. rewrite (same_class_bfsm s r (R k) Hr), (ac_fsm _ _ H). cbn [Z.eqb].
      rewrite (only_active s k (fun j => same_class r (R j) && bfin c s i j) H).
      - rewrite Hr. reflexivity.
      - intros j E. apply andb_prop in E. apply (bfin_run s i), E. }
    assert (Ef : any c (bfin c s i) = bfin c s i k) by (apply (only_active s k _ H), bfin_run).
    destruct (bfin c s i k) eqn:E.
    - split; [|split; [|exact Hthr']].
      + intros r. destruct (same_class r (R k)) eqn:Er; [apply Ek, Er|apply Eoth, Er].
      + cbn [bstep b_busy]. rewrite Ef. reflexivity.
    - constructor; auto.
      + apply (ac_k _ _ H).
      + cbn [bstep b_sel]. rewrite Hd. apply (ac_sel _ _ H).
      + apply Ek, class_refl.
      + cbn [bstep b_busy]. rewrite Ef, Hthr, Hd, (idle_busy s Hb), andb_false_r. exact Hb.
  Qed.

  (** ** The FIFOs *)
  Definition fok (s : bst) (k : nat) : Prop := exists l, Inv (2 ^ A k) (b_f (b_unit s k)) l.
  Lemma unit_f s i k : b_f (b_unit (bstep c s i) k) = fifo_step true (A k) (b_f (b_unit s k)) (bf_in c s i k).
  Proof using.
    rewrite unit_eq. unfold bunit_step. destruct (R k); [reflexivity| |];
      destruct (bhere c s k 0); try reflexivity; destruct (brun c s k); reflexivity.
  Qed.
  Lemma fok_step s i k : (k < nops c)%nat -> fok s k -> fok (bstep c s i) k.
  Proof using Hc.
    intros Hk [l H]. exists (step_list (A k) l (bf_in c s i k)). rewrite unit_f. apply step_inv; [apply op_raw, Hk|exact H].
  Qed.
  Lemma enq_notfull s i k : benq c s i k = true -> baf c s k = false /\ p_full (A k) (b_f (b_unit s k)) = false.
  Proof using.
    unfold benq, enq_rtl, enq_ready. intros E. apply andb_prop in E. destruct E as [_ E]. fold (baf c s k) in E.
    destruct (baf c s k) eqn:F; [discriminate|]. split; [reflexivity|]. unfold baf, p_almost_full in F. apply orb_false_iff in F. apply F.
  Qed.
  Lemma push_eq s i k : bpush c k s i = if benq c s i k then [bword c s i k] else [].
  Proof using.
    unfold bpush. destruct (benq c s i k) eqn:E; [|reflexivity]. destruct (enq_notfull s i k E) as [_ ->]. reflexivity.
  Qed.
  (** without a word entering, a FIFO with room keeps it *)
  Lemma af_keeps s i k : (k < nops c)%nat -> fok s k -> baf c s k = false -> benq c s i k = false -> baf c (bstep c s i) k = false.
  Proof using Hc.
    intros Hk [l H] Ha He. pose proof (op_raw k Hk) as HA. unfold baf in *. rewrite unit_f.
    pose proof (step_inv (A k) HA true (b_f (b_unit s k)) l (bf_in c s i k) H) as H'.
    rewrite (afull_list (A k) _ _ HA H) in Ha. rewrite (afull_list (A k) _ _ HA H').
    assert (E : (length (step_list (A k) l (bf_in c s i k)) <= length l)%nat).
    { unfold step_list, queue_step, bf_in. cbn [q_words i_enq i_deq i_wdata]. rewrite He. cbn [andb].
      destruct l as [|x r]; [cbn; lia|]. destruct (c_deq i k); cbn [q_words]; rewrite app_nil_r; cbn [length]; lia. }
    apply Z.leb_gt in Ha. apply Z.leb_gt. lia.
  Qed.

  (** ** Data registers of an operation, in the terms of AxiData_Proofs.v *)
  Definition regs (s : bst) (k : nat) : rd :=
    mkRd 2 0 0 0 (b_count (b_unit s k)) (b_wdata (b_unit s k)) (b_wvalid (b_unit s k)) (wb_init (fun _ => 0)).
  Definition pend (s : bst) (k : nat) : list Z := pending (R k) (W k) (regs s k).
  (** a transfer of [n] words in progress: stream words [bs] taken, [ps] put into the FIFO *)
  Definition busy (s : bst) (k : nat) (n : Z) (bs ps : list Z) : Prop :=
    exists m, ps ++ pend s k = ram_words (R k) (W k) bs m /\ Z.of_nat m < n /\ b_size s = n - Z.of_nat m /\
      shape (R k) (W k) (regs s k) bs m /\
      match R k with Narrow _ => b_wvalid (b_unit s k) = true -> b_count (b_unit s k) = 0 | _ => True end.
  (** the pending word will find room *)
  Definition settles (s : bst) (k : nat) : Prop :=
    match R k with Narrow _ => b_wvalid (b_unit s k) = true -> baf c s k = false | _ => True end.

  Definition takes (s : bst) (i : binp) (k : nat) : list Z :=
    if negb (baf c s k) && match R k with Wide _ => b_count (b_unit s k) =? 0 | _ => true end && c_valid i then [c_data i] else [].
  Lemma active_taken s i k : active s k -> map fst (btaken c s i) = takes s i k /\ bresult s i = [].
  Proof using.
    intros H. assert (Ht : b_thr s =? 2 = false) by (destruct (ac_thr _ _ H) as [E|E]; rewrite E; reflexivity).
    split; [|unfold bresult; rewrite Ht; reflexivity].
    unfold btaken, btready, takes. rewrite Ht, orb_false_r. rewrite (any_one c _ k).
    - unfold bhere. rewrite (ac_fsm _ _ H), (active_sel s k k H), Nat.eqb_refl. cbn [Z.eqb Pos.eqb andb]. rewrite andb_true_r.
      destruct (_ && _ && _); reflexivity.
    - apply (ac_k _ _ H).
    - intros j _ E. apply andb_prop in E. destruct E as [E1 E2]. apply andb_prop in E1. destruct E1 as [E1 E3].
      rewrite (active_sel s k j H) in E3. apply Nat.eqb_eq in E3. subst j. rewrite E1, E2.
      rewrite (active_sel s k k H), Nat.eqb_refl. reflexivity.
  Qed.
  Lemma active_size s i k : active s k -> b_size (bstep c s i) = if bdec c s i k then (b_size s - 1) mod 2 ^ lw c else b_size s.
  Proof using Hc.
    intros H. cbn [bstep b_size]. rewrite (busy_no s (ac_busy _ _ H)). rewrite (only_active s k _ H (bdec_run s i)). reflexivity.
  Qed.
  Lemma here01 s k : active s k -> bhere c s k 0 = false /\ bhere c s k 1 = true.
  Proof using. intros H. unfold bhere. rewrite (ac_fsm _ _ H). split; reflexivity. Qed.

  (** the word pushed by the active operation *)
  Lemma active_push s i k : active s k -> bpush c k s i =
    if baf c s k then [] else match R k with Same => if c_valid i then [c_data i] else [] | _ => pend s k end.
  Proof using.
    intros H. rewrite push_eq. unfold benq, enq_rtl, enq_ready. fold (baf c s k). unfold bword, pend, pending, regs. cbn [x_wvalid x_wdata].
    rewrite (proj2 (here01 s k H)), (active_sel s k k H), Nat.eqb_refl. destruct (baf c s k).
    - rewrite andb_false_r. reflexivity.
    - cbn [negb]. rewrite !andb_true_r. destruct (R k); reflexivity.
  Qed.

  Lemma room_of s k bs m : (k < nops c)%nat -> shape (R k) (W k) (regs s k) bs m -> room (R k) bs m.
  Proof using Hc. intros Hk. exact (shape_room (R k) (W k) (op_w k Hk) (op_r k Hk) (regs s k) bs m). Qed.

  (** a stalled cycle *)
  Lemma stall s i k n bs ps : active s k -> baf c s k = true -> busy s k n bs ps ->
    bfin c s i k = false /\ busy (bstep c s i) k n (bs ++ takes s i k) (ps ++ bpush c k s i).
  Proof using Hc.
    intros H Ha (m & E1 & E2 & E3 & E4 & E5).
    assert (Er : brun c s k = false) by (rewrite (run_self s k H), Ha; reflexivity).
    assert (Ef : bfin c s i k = false) by (unfold bfin; rewrite Er; reflexivity).
    assert (Ed : bdec c s i k = false) by (unfold bdec; rewrite Er; reflexivity).
    split; [exact Ef|]. unfold takes. rewrite (active_push s i k H), Ha. cbn [negb andb]. rewrite !app_nil_r.
    pose proof (active_size s i k H) as Es. rewrite Ed in Es.
    assert (Eu : b_count (b_unit (bstep c s i) k) = b_count (b_unit s k) /\ b_wdata (b_unit (bstep c s i) k) = b_wdata (b_unit s k) /\
                 b_wvalid (b_unit (bstep c s i) k) = b_wvalid (b_unit s k)).
    { rewrite unit_eq. unfold bunit_step. rewrite (proj1 (here01 s k H)), Er. destruct (R k); auto. }
    destruct Eu as (U1 & U2 & U3).
    exists m. unfold pend, regs in *. rewrite U1, U2, U3, Es. auto.
  Qed.

  Lemma pend_push s i k ps bs m : active s k -> baf c s k = false -> ps ++ pend s k = ram_words (R k) (W k) bs m -> R k <> Same ->
    ps ++ bpush c k s i = ram_words (R k) (W k) bs m.
  Proof using. intros H Ha E Hr. rewrite (active_push s i k H), Ha. destruct (R k); [congruence|exact E..]. Qed.
  Lemma in_range_k i k : (k < nops c)%nat -> blegal_in c i -> match R k with Narrow _ => 0 <= c_data i < 2 ^ W k | _ => True end.
  Proof using Hc.
    intros Hk [H _]. destruct (op_ok k Hk) as (_ & _ & X). destruct (R k); auto. destruct X as [_ ->]. exact H.
  Qed.
  Lemma pk_two lp : 0 < lp -> 2 <= 2 ^ lp.
  Proof using. clear. intros H. change 2 with (2 ^ 1) at 1. apply Z.pow_le_mono_r; lia. Qed.

  (** the data of one cycle with room in the FIFO *)
  Lemma work s i k bs ps m n : active s k -> baf c s k = false -> blegal_in c i -> blegal_size c k n ->
    ps ++ pend s k = ram_words (R k) (W k) bs m -> Z.of_nat m < n -> b_size s = n - Z.of_nat m -> shape (R k) (W k) (regs s k) bs m ->
    let s' := bstep c s i in let m' := if bdec c s i k then S m else m in
    let bs' := bs ++ takes s i k in
    (ps ++ bpush c k s i) ++ pend s' k = ram_words (R k) (W k) bs' m' /\ shape (R k) (W k) (regs s' k) bs' m' /\
    bfin c s i k = bdec c s i k && (b_size s <=? 1) /\
    match R k with Narrow lp => b_wvalid (b_unit s' k) = bdec c s i k /\
      (bdec c s i k = true -> b_count (b_unit s' k) = 0 /\ b_count (b_unit s k) = pk lp) | _ => True end.
  Proof using Hc.
    intros H Ha Hi Hl E1 E2 E3 E4. cbv zeta.
    pose proof (ac_k _ _ H) as Hk. pose proof (room_of s k bs m Hk E4) as Hroom. pose proof (op_r k Hk) as Hr. pose proof (op_w k Hk) as Hw.
    pose proof (in_range_k i k Hk Hi) as Hin.
    assert (Er : brun c s k = true) by (rewrite (run_self s k H), Ha; reflexivity).
    pose proof (unit_eq s i k) as Eu. unfold bunit_step in Eu. rewrite (proj1 (here01 s k H)), Er in Eu.
    pose proof (pend_push s i k ps bs m H Ha E1) as Hp.
    pose proof (ram_words_app (R k) (W k) Hr bs (c_data i) m Hroom) as Happ.
    pose proof (active_push s i k H) as Hps. rewrite Ha in Hps.
    unfold takes, bfin, bdec. rewrite Er, Ha. cbn [negb andb].
    set (s' := bstep c s i) in *. clearbody s'. unfold shape, regs in E4. cbn [x_count x_wdata] in E4.
    unfold pend, pending, shape, regs. cbn [x_count x_wdata x_wvalid].
    set (u := b_unit s k) in *. set (u' := b_unit s' k) in *. clearbody u'.
    pose proof (pack_P (R k) Hr) as HP. unfold blegal_size in Hl.
    destruct (R k) as [|lp|lp] eqn:Erk.
    - (* same *)
      rewrite Hps. unfold pend, pending in E1. rewrite Erk, app_nil_r in E1. destruct (c_valid i); cbn [andb].
      + rewrite app_nil_r. split; [|split; [|rewrite andb_true_r; auto]].
        * rewrite ram_words_S, Happ, E1. cbn [ram_word]. rewrite app_nth2 by lia. rewrite E4, Nat.sub_diag. reflexivity.
        * rewrite app_length. cbn [length]. lia.
      + rewrite !app_nil_r, andb_false_r. auto.
    - (* narrow *)
      specialize (Hp ltac:(discriminate)). rewrite Hp. clear Hp Hps E1. destruct HP as [HP1 HP2]. destruct E4 as (S1 & S2 & S3 & S4).
      assert (Hbl : length bs = (m * pack (Narrow lp) + Z.to_nat (b_count u))%nat)
        by (clear - S1 S2; unfold packz in *; nia).
      unfold pk in *. rewrite Eu. cbn [b_count b_wdata b_wvalid]. clear Eu u'.
      destruct (c_valid i); cbn [andb orb].
      + destruct (shift_in (W k) Hw (packz (Narrow lp)) (b_count u) (b_wdata u) (c_data i) S2 S3 Hin) as [D1 D2].
        assert (Elen : length (skipn (m * pack (Narrow lp)) bs) = Z.to_nat (b_count u)).
        { rewrite skipn_length, Hbl. clear; lia. }
        assert (Eskip : skipn (m * pack (Narrow lp)) (bs ++ [c_data i]) = skipn (m * pack (Narrow lp)) bs ++ [c_data i]).
        { rewrite skipn_app. replace (m * pack (Narrow lp) - length bs)%nat with 0%nat by (rewrite Hbl; clear; lia). reflexivity. }
        assert (Ele : le (W k) (skipn (m * pack (Narrow lp)) (bs ++ [c_data i])) =
          cat [(W k, c_data i); (W k * (packz (Narrow lp) - 1), Z.shiftr (b_wdata u) (W k))] / 2 ^ (W k * (packz (Narrow lp) - (b_count u + 1)))).
        { rewrite Eskip, (le_snoc (W k) Hw), Elen, Z2Nat.id, D2, S4 by (clear - S2; lia). reflexivity. }
        rewrite HP1 in S2, Ele, D1. destruct (b_count u =? 2 ^ lp - 1) eqn:Ec; cbn [orb].
        * apply Z.eqb_eq in Ec.
          assert (Elen2 : length (bs ++ [c_data i]) = (S m * pack (Narrow lp))%nat).
          { rewrite app_length, Hbl. cbn [length]. rewrite <- HP1 in Ec. clear - Ec HP2. unfold packz in *. nia. }
          split; [|split; [|split; [rewrite andb_true_r; reflexivity|auto]]].
          -- rewrite ram_words_S, Happ. cbn [ram_word]. rewrite (group_last _ _ _ Elen2), Ele.
             assert (E0 : 2 ^ lp - (b_count u + 1) = 0) by (clear - Ec; lia).
             rewrite E0, Z.mul_0_r, Z.pow_0_r, Z.div_1_r. reflexivity.
          -- rewrite HP1, Elen2. split; [|split; [clear - HP1 HP2; lia|split]].
             ++ rewrite <- HP1. unfold packz. clear; lia.
             ++ exact D1.
             ++ rewrite skipn_all2 by (rewrite Elen2; clear; lia). rewrite Z.sub_0_r. apply Z.div_small. exact D1.
        * apply Z.eqb_neq in Ec.
          replace (b_count u <? 2 ^ lp - 1) with true by (clear - S2 Ec; symmetry; apply Z.ltb_lt; lia). cbn [andb]. rewrite andb_false_r.
          split; [rewrite app_nil_r; symmetry; exact Happ|]. split; [|split; [reflexivity|split; [reflexivity|discriminate]]].
          rewrite HP1, Z.mod_small by (clear - S2 Ec; lia).
          rewrite app_length. cbn [length]. split; [rewrite <- HP1; clear - S1; lia|]. split; [clear - S2 Ec; lia|]. split; [exact D1|]. symmetry. exact Ele.
      + rewrite !app_nil_r, andb_false_r. split; [reflexivity|]. split; [auto|]. split; [reflexivity|split; [reflexivity|discriminate]].
    - (* wide *)
      specialize (Hp ltac:(discriminate)). rewrite Hp. clear Hp Hps E1 Hin. destruct HP as [HP1 HP2]. destruct E4 as (S1 & S2 & S3).
      destruct Hl as [Hl Hmn]. rewrite <- HP1 in Hmn.
      assert (Epk : packz (Wide lp) = Z.of_nat (pack (Wide lp))) by reflexivity.
      pose proof (Z.mod_pos_bound (Z.of_nat m) (packz (Wide lp)) ltac:(lia)) as Hmod. rewrite <- S2 in Hmod.
      pose proof (Z.div_mod (Z.of_nat m) (packz (Wide lp)) ltac:(lia)) as Hdm. rewrite <- S2 in Hdm.
      assert (Hnat : (m mod pack (Wide lp) = Z.to_nat (b_count u))%nat).
      { apply Nat2Z.inj. rewrite Nat2Z.inj_mod, <- Epk, <- S2. lia. }
      (* at the last word the counter is at its end *)
      assert (Hlast : b_size s <= 1 -> b_count u = pk lp).
      { intros Hs. unfold pk. rewrite <- HP1. assert (En : n = Z.of_nat m + 1) by (clear - Hs E2 E3; lia).
        pose proof (Z.div_mod n (packz (Wide lp)) ltac:(clear - HP2; lia)) as Hn. rewrite Hmn in Hn.
        rewrite S2. symmetry. apply Z.mod_unique with (q := n / packz (Wide lp) - 1); clear - Hn En HP2; lia. }
      rewrite Eu. cbn [b_count b_wdata b_wvalid]. clear Eu u'. unfold pk in *.
      destruct (b_count u =? 0) eqn:Ec.
      + apply Z.eqb_eq in Ec. replace (0 <? b_count u) with false by (symmetry; apply Z.ltb_ge; clear - Ec; lia).
        assert (Ecp : (b_count u =? 2 ^ lp - 1) = false) by (apply Z.eqb_neq; clear - Ec HP1 HP2; lia). rewrite Ecp.
        destruct (c_valid i); cbn [andb orb].
        * assert (Esz : b_size s <=? 1 = false).
          { apply Z.leb_gt. apply Z.eqb_neq in Ecp. clear - Ecp Hlast. lia. }
          rewrite Esz. split; [|split; [|auto]].
          -- assert (Ek : (m = length bs * pack (Wide lp))%nat) by (rewrite Epk in S1; clear - S1; nia).
             assert (Ediv : (m / pack (Wide lp) = length bs)%nat) by (rewrite Ek; apply Nat.div_mul; clear - HP2 Epk; lia).
             rewrite ram_words_S, Happ. cbn [ram_word]. rewrite Ediv, app_nth2, Nat.sub_diag, Hnat, Ec by lia. cbn [nth Z.to_nat]. unfold part.
             change (Z.of_nat 0) with 0. rewrite Z.mul_0_r, Z.pow_0_r, Z.div_1_r. reflexivity.
          -- assert (Ek : (m = length bs * pack (Wide lp))%nat) by (rewrite Epk in S1; clear - S1; nia).
             assert (Hc1 : (Z.of_nat (S m)) mod packz (Wide lp) = 1).
             { replace (Z.of_nat (S m)) with (1 + Z.of_nat (length bs) * packz (Wide lp)) by (clear - S1; lia).
               rewrite Z.mod_add by (clear - HP2; lia). apply Z.mod_small. clear - HP2; lia. }
             rewrite Ec, Hc1. change (0 + 1) with 1. rewrite Z.mod_small by (clear - HP1 HP2; lia).
             cbn [Z.eqb]. rewrite app_length. cbn [length]. split; [clear - S1 HP2; lia|]. split; [reflexivity|]. intros _ j.
             replace (S m / pack (Wide lp))%nat with (length bs).
             ++ rewrite app_nth2, Nat.sub_diag by (clear; lia). cbn [nth]. f_equal. clear; lia.
             ++ apply Nat.div_unique with (r := 1%nat); clear - Ek HP2 Epk; nia.
        * rewrite !app_nil_r, andb_false_r. split; [reflexivity|]. split; [|auto]. rewrite Ec. cbn [Z.eqb].
          rewrite <- S2, Ec. split; [exact S1|]. split; [reflexivity|]. intros X. exfalso. apply X. reflexivity.
      + apply Z.eqb_neq in Ec. replace (0 <? b_count u) with true by (symmetry; apply Z.ltb_lt; clear - Ec Hmod; lia).
        rewrite andb_false_r. cbn [andb orb]. rewrite app_nil_r.
        split; [|split; [|split; [|exact I]]].
        * rewrite ram_words_S. f_equal. f_equal. cbn [ram_word]. rewrite Hnat. rewrite <- (Nat.add_0_l (Z.to_nat (b_count u))), <- (S3 Ec 0%nat).
          rewrite (part_shift (W k) Hw), Z.shiftr_div_pow2 by exact Hw. unfold part.
          change (Z.of_nat 0) with 0. rewrite Z.mul_0_r, Z.pow_0_r, Z.div_1_r. reflexivity.
        * assert (Hc1 : (Z.of_nat (S m)) mod packz (Wide lp) = if b_count u =? 2 ^ lp - 1 then 0 else b_count u + 1).
          { destruct (b_count u =? 2 ^ lp - 1) eqn:E.
            - apply Z.eqb_eq in E. symmetry. apply Z.mod_unique with (q := Z.of_nat m / packz (Wide lp) + 1); clear - E HP1 HP2 Hdm; nia.
            - apply Z.eqb_neq in E. symmetry. apply Z.mod_unique with (q := Z.of_nat m / packz (Wide lp)); clear - E HP1 HP2 Hdm Hmod; nia. }
          rewrite Hc1. destruct (b_count u =? 2 ^ lp - 1) eqn:E.
          -- apply Z.eqb_eq in E. cbn [Z.eqb]. split; [clear - S1 E HP1; lia|]. split; [reflexivity|]. intros X. exfalso. apply X. reflexivity.
          -- apply Z.eqb_neq in E. rewrite Z.mod_small by (clear - E Hmod HP1; lia).
             replace (b_count u + 1 =? 0) with false by (symmetry; apply Z.eqb_neq; clear - Hmod; lia). split; [clear - S1; lia|]. split; [reflexivity|].
             intros _ j. rewrite Z.shiftr_div_pow2, <- (part_shift (W k) Hw), (S3 Ec (S j)) by exact Hw.
             replace (S m / pack (Wide lp))%nat with (m / pack (Wide lp))%nat.
             ++ f_equal. clear - Hmod. lia.
             ++ apply Nat.div_unique with (r := S (m mod pack (Wide lp))); [rewrite Hnat; clear - E Hmod HP1 Epk; lia|].
                pose proof (Nat.div_mod m (pack (Wide lp)) ltac:(clear - HP2 Epk; lia)). clear - H0. lia.
        * destruct (b_size s <=? 1) eqn:E; [|reflexivity]. apply Z.leb_le in E. rewrite (Hlast E), Z.eqb_refl. reflexivity.
  Qed.

  (** one cycle of a transfer *)
  Lemma busy_step s i k n bs ps : active s k -> fok s k -> blegal_in c i -> blegal_size c k n -> busy s k n bs ps ->
    let s' := bstep c s i in let bs' := bs ++ takes s i k in let ps' := ps ++ bpush c k s i in
    if bfin c s i k then
      ps' ++ pend s' k = ram_words (R k) (W k) bs' (Z.to_nat n) /\ length bs' = bus_words (R k) (Z.to_nat n) /\ settles s' k
    else busy s' k n bs' ps'.
  Proof using Hc.
    intros H Hf Hi Hl HB. cbv zeta. destruct (baf c s k) eqn:Ha.
    - destruct (stall s i k n bs ps H Ha HB) as [-> X]. exact X.
    - destruct HB as (m & E1 & E2 & E3 & E4 & E5).
      destruct (work s i k bs ps m n H Ha Hi Hl E1 E2 E3 E4) as (W1 & W2 & W3 & W4). cbv zeta in *.
      pose proof (active_size s i k H) as Hsz. rewrite E3 in W3, Hsz. rewrite W3. pose proof (ac_k _ _ H) as Hk.
      destruct (bdec c s i k) eqn:Ed; cbn [andb].
      + assert (Hlen : Z.of_nat (length (bs ++ takes s i k)) * (match R k with Wide _ => packz (R k) | _ => 1 end) =
                       Z.of_nat (S m) * (match R k with Narrow _ => packz (R k) | _ => 1 end) + match R k with
                         Wide _ => if b_count (b_unit (bstep c s i) k) =? 0 then 0 else packz (R k) - b_count (b_unit (bstep c s i) k) | _ => 0 end).
        { unfold shape in W2. cbn [regs x_count x_wdata] in W2. destruct (R k).
          - rewrite W2. lia.
          - destruct W4 as [_ W4]. destruct (W4 eq_refl) as [W5 _]. destruct W2 as [W2 _]. rewrite W5 in W2. lia.
          - destruct W2 as [W2 _]. lia. }
        pose proof (pack_P (R k) (op_r k Hk)) as HP.
        destruct (n - Z.of_nat m <=? 1) eqn:El.
        * apply Z.leb_le in El. assert (En : Z.to_nat n = S m) by (clear - El E2; lia). rewrite En.
          split; [exact W1|]. split.
          -- unfold bus_words. unfold shape in W2. cbn [regs x_count x_wdata] in W2. unfold blegal_size in Hl. destruct (R k) as [|lp|lp].
             ++ exact W2.
             ++ clear - Hlen. unfold packz in *. lia.
             ++ destruct HP as [HP1 HP2]. destruct Hl as [_ Hl]. destruct W2 as (_ & W2 & _).
                rewrite <- En, Z2Nat.id, HP1, Hl in W2 by (clear - E2; lia). rewrite W2 in Hlen. cbn [Z.eqb] in Hlen.
                apply Nat.div_unique with (r := (pack (Wide lp) - 1)%nat); unfold packz in *; clear - Hlen HP2; nia.
          -- unfold settles. destruct (R k) eqn:Erk; auto. intros _. apply af_keeps; [exact Hk|exact Hf|exact Ha|].
             destruct W4 as [_ W4]. destruct (W4 eq_refl) as [_ W5].
             unfold benq. rewrite Erk. destruct (b_wvalid (b_unit s k)) eqn:Ev; [|reflexivity]. exfalso.
             rewrite (E5 eq_refl) in W5. destruct HP as [HP1 HP2]. unfold pk in W5. clear - W5 HP1 HP2. lia.
        * apply Z.leb_gt in El. exists (S m). split; [exact W1|]. split; [clear - El; lia|]. split.
          -- rewrite Hsz. unfold blegal_size in Hl. rewrite Z.mod_small by (destruct Hl as [Hl _]; clear - El Hl; lia). clear; lia.
          -- split; [exact W2|]. destruct (R k); auto. intros _. apply W4. reflexivity.
      + exists m. split; [exact W1|]. split; [exact E2|]. split; [exact Hsz|]. split; [exact W2|].
        destruct (R k); auto. destruct W4 as [W4 _]. rewrite W4. discriminate.
  Qed.

  (** ** Operations without a transfer *)
  Lemma pend_nil s k : R k <> Same -> pend s k = [] <-> b_wvalid (b_unit s k) = false.
  Proof using. unfold pend, pending, regs. cbn [x_wvalid x_wdata]. intros H. destruct (R k); [congruence| |]; destruct (b_wvalid _); split; congruence. Qed.
  Lemma other_step s i k j : active s k -> (j < nops c)%nat -> j <> k -> pend s j = [] -> pend (bstep c s i) j = [] /\ bpush c j s i = [].
  Proof using Hc.
    intros H Hj Hn Hp.
    assert (Er : brun c s j = false).
    { destruct (brun c s j) eqn:E; [|reflexivity]. exfalso. apply Hn. apply (run_active s k j H Hj E). }
    assert (Es : bsel s j = false) by (rewrite (active_sel s k j H); apply Nat.eqb_neq; exact Hn).
    rewrite push_eq. unfold benq. destruct (R j) eqn:Erj.
    - unfold pend, pending. rewrite Erj, Es, andb_false_r. split; reflexivity.
    - assert (Hns : R j <> Same) by (rewrite Erj; discriminate). apply (pend_nil s j Hns) in Hp. rewrite Hp. split; [|reflexivity].
      apply pend_nil; [exact Hns|]. rewrite unit_eq. unfold bunit_step. rewrite Erj, Er. destruct (bhere c s j 0); [reflexivity|exact Hp].
    - assert (Hns : R j <> Same) by (rewrite Erj; discriminate). apply (pend_nil s j Hns) in Hp. rewrite Hp. split; [|reflexivity].
      apply pend_nil; [exact Hns|]. rewrite unit_eq. unfold bunit_step. rewrite Erj, Er. destruct (bhere c s j 0); [reflexivity|exact Hp].
  Qed.
  Lemma all0_step s i j : all0 s -> (b_wvalid (b_unit s j) = true -> baf c s j = false) \/ pend s j = [] ->
    pend (bstep c s i) j = [] /\ bpush c j s i = pend s j.
  Proof using.
    intros H Hv. assert (Eh : bhere c s j 0 = true /\ bhere c s j 1 = false) by (unfold bhere; rewrite H; split; reflexivity).
    destruct Eh as [Eh0 Eh1].
    split.
    - unfold pend, pending, regs. cbn [x_wvalid x_wdata]. rewrite unit_eq. unfold bunit_step. rewrite Eh0. destruct (R j); reflexivity.
    - rewrite push_eq. unfold benq, enq_rtl, enq_ready, bword. fold (baf c s j). unfold pend, pending, regs in *. cbn [x_wvalid x_wdata] in *.
      destruct (R j); [rewrite Eh1; reflexivity| |];
        (destruct (b_wvalid (b_unit s j)); [|reflexivity]; destruct Hv as [Hv|Hv]; [rewrite (Hv eq_refl); reflexivity|discriminate]).
  Qed.

  Definition wok (s : bst) (k : nat) : Prop :=
    match R k with Narrow _ => 0 <= b_wdata (b_unit s k) < 2 ^ (W k * packz (R k)) | _ => True end.
  Lemma wok_step s i k : (k < nops c)%nat -> wok s k -> wok (bstep c s i) k.
  Proof using Hc.
    intros Hk H. unfold wok in *. rewrite unit_eq. unfold bunit_step. pose proof (op_w k Hk) as Hw. pose proof (op_r k Hk) as Hr.
    pose proof (pack_P (R k) Hr) as HP.
    destruct (R k) as [|lp|lp]; auto. destruct (bhere c s k 0); [exact H|]. destruct (brun c s k); [|exact H].
    cbn [b_wdata]. destruct (_ || _); [|exact H].
    pose proof (cat_bound [(W k, c_data i); (W k * pk lp, Z.shiftr (b_wdata (b_unit s k)) (W k))]) as Hb.
    cbn [total_width fold_right fst] in Hb. unfold pk in *. destruct HP as [HP1 HP2]. rewrite HP1 in *.
    replace (W k * 2 ^ lp) with (W k + (W k * (2 ^ lp - 1) + 0)) by ring. apply Hb.
    repeat constructor; cbn [fst]; nia.
  Qed.

  (** a transfer starts *)
  Lemma start s k n : (k < nops c)%nat -> wok s k -> blegal_size c k n -> b_size s = n -> pend s k = [] ->
    (R k <> Same -> b_count (b_unit s k) = 0) -> busy s k n [] [].
  Proof using Hc.
    intros Hk Hw Hl Hs Hp Hcn. exists 0%nat. rewrite Hp. split; [reflexivity|]. destruct Hl as [Hl _]. split; [clear - Hl; lia|].
    split; [rewrite Hs; clear; lia|]. pose proof (pack_P (R k) (op_r k Hk)) as HP. split.
    - unfold shape, regs. cbn [x_count x_wdata]. unfold wok in Hw. destruct (R k) as [|lp|lp].
      + reflexivity.
      + rewrite (Hcn ltac:(discriminate)). destruct HP as [_ HP]. split; [reflexivity|]. split; [clear - HP; lia|]. split; [exact Hw|].
        rewrite Z.sub_0_r, Z.div_small by exact Hw. reflexivity.
      + rewrite (Hcn ltac:(discriminate)). split; [reflexivity|]. split; [|congruence]. symmetry. apply Z.mod_0_l. destruct HP as [_ HP]. clear - HP. lia.
    - destruct (R k) eqn:E; auto. intros _. apply Hcn. discriminate.
  Qed.

  (** ** The invariant *)
  Definition req := (nat * Z)%type.
  Definition req_job (x : req) : bjob := BDma (fst x) (snd x).
  Definition req_word (x : req) : Z := pack_breq c (opid (fst x)) (snd x).
  Definition legal_rq (x : req) : Prop := (fst x < nops c)%nat /\ blegal_size c (fst x) (snd x).
  Notation F k js wss := (bfilled c k js wss).

  Inductive phase (s : bst) (js : list bjob) (ws res : list word) (pu : nat -> list Z) : Prop :=
  | P_idle (wss : list (list word)) : Forall2 (bown c) js wss -> ws = concat wss -> res = breads js wss ->
      all0 s -> b_busy s = false -> b_thr s = 0 \/ b_thr s = 1 ->
      (forall k, (k < nops c)%nat -> pu k ++ pend s k = F k js wss /\ settles s k) -> phase s js ws res pu
  | P_read J (wss : list (list word)) : js = J ++ [BRead] -> Forall2 (bown c) J wss -> ws = concat wss -> res = breads J wss ->
      all0 s -> b_busy s = true -> b_thr s = 2 ->
      (forall k, (k < nops c)%nat -> pu k = F k J wss /\ pend s k = []) -> phase s js ws res pu
  | P_dma J (wss : list (list word)) k n cur ps : js = J ++ [BDma k n] -> Forall2 (bown c) J wss -> ws = concat wss ++ cur -> res = breads J wss ->
      active s k -> blegal_size c k n ->
      (forall j, (j < nops c)%nat -> j <> k -> pu j = F j J wss /\ pend s j = []) ->
      pu k = F k J wss ++ ps -> busy s k n (map fst cur) ps ->
      phase s js ws res pu.

  Record inv (s : bst) (D : list bjob) (P : list req) (ws res : list word) (pu : nat -> list Z) : Prop := mkInv {
    v_q : Inv (2 ^ g_fa c) (b_q s) (map req_word P);
    v_legal : Forall legal_rq P;
    v_wok : forall k, (k < nops c)%nat -> wok s k;
    v_fok : forall k, (k < nops c)%nat -> fok s k;
    v_ph : phase s D ws res pu }.

  Lemma combine_snoc {X Y} (a : list X) : forall (b : list Y) x y, length a = length b ->
    combine (a ++ [x]) (b ++ [y]) = combine a b ++ [(x, y)].
  Proof using.
    induction a as [|z a IH]; intros [|t b] x y H; try discriminate; [reflexivity|]. cbn. f_equal. apply IH. injection H. auto.
  Qed.
  Lemma own_len J wss : Forall2 (bown c) J wss -> length J = length wss.
  Proof using. intros H. induction H; cbn; congruence. Qed.
  Lemma reads_snoc J wss j w : length J = length wss ->
    breads (J ++ [j]) (wss ++ [w]) = breads J wss ++ match j with BRead => w | BDma _ _ => [] end.
  Proof using.
    intros H. unfold breads. rewrite combine_snoc by exact H. rewrite flat_map_app. cbn [flat_map fst snd].
    rewrite app_nil_r. reflexivity.
  Qed.
  Lemma filled_snoc k J wss j w : length J = length wss -> F k (J ++ [j]) (wss ++ [w]) = F k J wss ++ bgives c k j w.
  Proof using.
    intros H. unfold bfilled. rewrite combine_snoc by exact H. rewrite flat_map_app. cbn [flat_map fst snd].
    rewrite app_nil_r. reflexivity.
  Qed.

  (** ** The queue *)
  Definition acc (s : bst) (i : binp) : list req :=
    match c_req i with Some (k, n) => if baccepts c s then [(k, n)] else [] | None => [] end.
  Lemma issued_acc s i : bissued c s i = (if (b_thr s =? 1) && bidle s then [BRead] else []) ++ map req_job (acc s i).
  Proof using.
    unfold bissued, acc. f_equal. destruct (c_req i) as [[k n]|]; [|reflexivity]. destruct (baccepts c s); reflexivity.
  Qed.
  Lemma acc_legal s i : blegal_in c i -> Forall legal_rq (acc s i).
  Proof using.
    intros [_ H]. unfold acc. destruct (c_req i) as [[k n]|]; [|constructor].
    destruct (baccepts c s); constructor; [exact H|constructor].
  Qed.
  Lemma q_step s i P : Inv (2 ^ g_fa c) (b_q s) (map req_word P) ->
    (any c (bdispatch c s) = true -> P <> []) ->
    Inv (2 ^ g_fa c) (b_q (bstep c s i)) (map req_word ((if any c (bdispatch c s) then tl P else P) ++ acc s i)).
  Proof using Hc.
    intros HI HD. cbn [bstep b_q]. unfold bq_in. set (dq := any c (bdispatch c s)) in *.
    assert (Ed : deq_rtl (b_q s) dq = dq).
    { unfold deq_rtl, deq_ready. rewrite (empty_list (g_fa c) _ _ fa1 HI). destruct dq; [|reflexivity].
      destruct P; [exfalso; apply HD; reflexivity|reflexivity]. }
    rewrite Ed. rewrite map_app. replace (map req_word (if dq then tl P else P)) with (if dq then tl (map req_word P) else map req_word P)
      by (destruct dq; [destruct P; reflexivity|reflexivity]).
    assert (HD' : dq = true -> map req_word P <> []).
    { intros E. specialize (HD E). destruct P; [exfalso; apply HD; reflexivity|discriminate]. }
    assert (Hn : Inv (2 ^ g_fa c) (fifo_step false (g_fa c) (b_q s) (mkFifoIn false 0 dq)) ((if dq then tl (map req_word P) else map req_word P) ++ [])).
    { pose proof (fstep_list (g_fa c) _ _ false 0 dq fa1 HI HD') as X. exact X. }
    unfold acc. destruct (c_req i) as [[k n]|]; [|exact Hn].
    pose proof (fstep_list (g_fa c) _ _ (baccepts c s) (pack_breq c (opid k) n) dq fa1 HI HD') as X.
    unfold enq_rtl, enq_ready in *. unfold baccepts in *. rewrite andb_diag in *. destruct (negb (p_almost_full (g_fa c) (b_q s))); exact X.
  Qed.

  Lemma unpack_req x : legal_rq x -> bq_op c (req_word x) = opid (fst x) /\ bq_size c (req_word x) = snd x.
  Proof using Hc.
    intros (X1 & X4 & _). assert (X4' : 0 <= snd x < 2 ^ lw c) by (clear - X4; lia).
    assert (Hs : 1 <= g_sw c) by apply Hc.
    exact (unpack_breq c (opid (fst x)) _ aw1 Hs (op_id _ X1) X4').
  Qed.
  Lemma idle_dispatch s x P k : all0 s -> b_busy s = false -> Inv (2 ^ g_fa c) (b_q s) (map req_word (x :: P)) -> legal_rq x ->
    bdispatch c s k = Nat.eqb k (fst x).
  Proof using Hc.
    intros H0 Hb HI Hx. unfold bdispatch, bhere. rewrite H0, Hb, (empty_list (g_fa c) _ _ fa1 HI). cbn [map Z.eqb negb andb].
    unfold bhead. rewrite (rdata_list (g_fa c) _ _ _ fa1 HI).
    destruct (unpack_req x Hx) as (E & _). rewrite E.
    destruct (Nat.eqb k (fst x)) eqn:En.
    - apply Nat.eqb_eq in En. subst. apply Z.eqb_refl.
    - apply Nat.eqb_neq in En. apply Z.eqb_neq. intros Y. apply En. symmetry. apply opid_inj. exact Y.
  Qed.
  Lemma empty_dispatch s k : Inv (2 ^ g_fa c) (b_q s) [] -> bdispatch c s k = false.
  Proof using Hc. intros HI. unfold bdispatch. rewrite (empty_list (g_fa c) _ _ fa1 HI). rewrite andb_false_r. cbn. apply andb_false_r. Qed.
  Lemma all0_ready s : all0 s -> btready c s = (b_thr s =? 2).
  Proof using.
    intros H. unfold btready. rewrite any_false; [reflexivity|]. intros k _. unfold bhere. rewrite H. reflexivity.
  Qed.
  Lemma all0_fsm_step s i : all0 s -> (forall k, (k < nops c)%nat -> bdispatch c s k = false) -> all0 (bstep c s i).
  Proof using.
    intros H D r. rewrite bfsm_of_step. unfold bfsm_step. rewrite H. cbn [Z.eqb]. rewrite any_false; [reflexivity|].
    intros k Hk. rewrite D by exact Hk. apply andb_false_r.
  Qed.
  Lemma pend_settles s k : pend s k = [] -> settles s k.
  Proof using.
    intros H. unfold settles. destruct (R k) eqn:E; auto. apply pend_nil in H; [|rewrite E; discriminate]. rewrite H. discriminate.
  Qed.
  Lemma room_settles s k : (k < nops c)%nat -> broomy1 c s -> all0 s -> settles s k ->
    (b_wvalid (b_unit s k) = true -> baf c s k = false) \/ pend s k = [].
  Proof using.
    intros Hk Hr H0 Hs. unfold settles in Hs. specialize (Hr k Hk). destruct (R k) eqn:E.
    - right. unfold pend, pending. rewrite E. reflexivity.
    - left. exact Hs.
    - left. apply Hr, H0.
  Qed.

  Definition nextP (s : bst) (i : binp) (P : list req) : list req := (if any c (bdispatch c s) then tl P else P) ++ acc s i.
  Theorem inv_step s i D P ws res pu : inv s D P ws res pu -> blegal_in c i -> broomy1 c s ->
    exists D', inv (bstep c s i) D' (nextP s i P) (ws ++ btaken c s i) (res ++ bresult s i) (fun k => pu k ++ bpush c k s i) /\
      D' ++ map req_job (nextP s i P) = D ++ map req_job P ++ bissued c s i.
  Proof using Hc.
    intros [HQ HL HW HV HP] Hi Hroom. rewrite issued_acc. unfold nextP.
    assert (HW' : forall k, (k < nops c)%nat -> wok (bstep c s i) k) by (intros k Hk; apply wok_step; auto).
    assert (HV' : forall k, (k < nops c)%nat -> fok (bstep c s i) k) by (intros k Hk; apply fok_step; auto).
    destruct HP as [wss HF -> -> H0 Hb Ht Hu | J wss -> HF -> -> H0 Hb Ht Hu | J wss k n cur ps -> HF -> -> Ha Hq Ho Hpk Hx].
    - (* idle *)
      assert (Et2 : b_thr s =? 2 = false) by (destruct Ht as [E|E]; rewrite E; reflexivity).
      assert (Etk : btaken c s i = []) by (unfold btaken; rewrite (all0_ready s H0), Et2; reflexivity).
      assert (Ers : bresult s i = []) by (unfold bresult; rewrite Et2; reflexivity).
      rewrite Etk, Ers, !app_nil_r.
      assert (Hqu : forall k, (k < nops c)%nat -> pu k ++ bpush c k s i = F k D wss /\ pend (bstep c s i) k = []).
      { intros k Hk. destruct (Hu k Hk) as [U1 U2]. destruct (all0_step s i k H0 (room_settles s k Hk Hroom H0 U2)) as [V1 V2].
        rewrite V2. auto. }
      destruct (nofin s i H0) as (Nd & Nf).
      destruct P as [|x P].
      + (* nothing queued *)
        cbn [map] in HQ. assert (Hd : forall k, (k < nops c)%nat -> bdispatch c s k = false) by (intros; apply empty_dispatch, HQ).
        assert (Ed : any c (bdispatch c s) = false) by (apply any_false, Hd).
        assert (Ei : bidle s = true) by (unfold bidle; rewrite (empty_list (g_fa c) _ _ fa1 HQ), Hb; reflexivity).
        pose proof (q_step s i [] HQ ltac:(rewrite Ed; discriminate)) as HQ'. rewrite Ed in HQ'. cbn [app] in HQ'.
        rewrite Ei, andb_true_r. pose proof (acc_legal s i Hi) as HL'.
        assert (H0' : all0 (bstep c s i)) by (apply all0_fsm_step; assumption).
        destruct Ht as [Ht|Ht]; rewrite Ht; cbn [Z.eqb Pos.eqb app].
        * exists D. rewrite Ed. cbn [app]. split; [|reflexivity]. constructor; auto.
          apply (P_idle _ _ _ _ _ wss); auto.
          -- cbn [bstep b_busy]. rewrite Nf, Ed, Ht. cbn. exact Hb.
          -- cbn [bstep b_thr]. unfold bthr_step. rewrite Ht. cbn [Z.eqb]. destruct (c_read i); auto.
          -- intros k Hk. destruct (Hqu k Hk) as [Q1 Q2]. rewrite Q2, app_nil_r. split; [exact Q1|apply pend_settles, Q2].
        * exists (D ++ [BRead]). rewrite Ed. cbn [app]. split; [|rewrite <- app_assoc; reflexivity]. constructor; auto.
          apply (P_read _ _ _ _ _ D wss); auto.
          -- cbn [bstep b_busy]. rewrite Nf, Ed, Ht, Ei. reflexivity.
          -- cbn [bstep b_thr]. unfold bthr_step. rewrite Ht, Ei. reflexivity.
      + (* a request is dispatched *)
        pose proof (Forall_inv HL) as Hx. pose proof (Forall_inv_tail HL) as HL2.
        pose proof (fun k => idle_dispatch s x P k H0 Hb HQ Hx) as Hd.
        assert (Ed : any c (bdispatch c s) = true).
        { apply (any_intro c _ (fst x)); [apply Hx|]. rewrite Hd. apply Nat.eqb_refl. }
        assert (Ei : bidle s = false) by (unfold bidle; rewrite (empty_list (g_fa c) _ _ fa1 HQ); reflexivity).
        pose proof (q_step s i (x :: P) HQ ltac:(discriminate)) as HQ'. rewrite Ed in HQ'. cbn [tl] in HQ'.
        rewrite Ei, andb_false_r. cbn [app]. exists (D ++ [req_job x]). rewrite Ed. cbn [tl].
        split; [|rewrite <- app_assoc, map_app; reflexivity].
        destruct (unpack_req x Hx) as [U1 U2]. assert (Eh : bhead s = req_word x) by (unfold bhead; apply (rdata_list (g_fa c) _ _ _ fa1 HQ)).
        assert (Hk : (fst x < nops c)%nat) by apply Hx. assert (Hsz : blegal_size c (fst x) (snd x)) by apply Hx.
        constructor; auto.
        * apply Forall_app. split; [exact HL2|]. apply acc_legal, Hi.
        * apply (P_dma _ _ _ _ _ D wss (fst x) (snd x) [] []); auto.
          -- rewrite app_nil_r. reflexivity.
          -- constructor; auto.
             ++ cbn [bstep b_sel]. rewrite Ed, Eh. exact U1.
             ++ rewrite bfsm_of_step. unfold bfsm_step. rewrite H0. cbn [Z.eqb].
                rewrite (any_intro c _ (fst x)); [reflexivity|exact Hk|]. rewrite Hd, class_refl, Nat.eqb_refl. reflexivity.
             ++ intros r Hr. rewrite bfsm_of_step. unfold bfsm_step. rewrite H0. cbn [Z.eqb]. rewrite any_false; [reflexivity|].
                intros j Hj. rewrite Hd. destruct (Nat.eqb j (fst x)) eqn:E; [|apply andb_false_r].
                apply Nat.eqb_eq in E. subst j. rewrite Hr. reflexivity.
             ++ cbn [bstep b_busy]. rewrite Nf, Ed, Et2. reflexivity.
             ++ cbn [bstep b_thr]. unfold bthr_step. rewrite Ei. destruct Ht as [E|E]; rewrite E; cbn [Z.eqb Pos.eqb]; [destruct (c_read i); auto|auto].
          -- rewrite app_nil_r. apply Hqu, Hk.
          -- cbn [map]. apply start; auto.
             ++ cbn [bstep b_size]. rewrite Ed, Eh. exact U2.
             ++ apply Hqu, Hk.
             ++ intros Hns. rewrite unit_eq. unfold bunit_step, bhere. rewrite H0. cbn [Z.eqb]. destruct (R (fst x)); [congruence|reflexivity..].
    - (* a thread reads *)
      pose proof (busy_no s Hb) as Ed. pose proof (idle_busy s Hb) as Ei.
      pose proof (q_step s i P HQ ltac:(rewrite Ed; discriminate)) as HQ'. rewrite Ed in HQ'.
      rewrite Ei, andb_false_r. cbn [app].
      exists (J ++ [BRead]). rewrite Ed. split; [|rewrite map_app; reflexivity].
      destruct (nofin s i H0) as (Nd & Nf).
      assert (H0' : all0 (bstep c s i)) by (apply all0_fsm_step; [exact H0|intros; apply busy_dispatch, Hb]).
      assert (Hqu : forall k, (k < nops c)%nat -> pu k ++ bpush c k s i = F k J wss /\ pend (bstep c s i) k = []).
      { intros k Hk. destruct (Hu k Hk) as [U1 U2]. destruct (all0_step s i k H0 (or_intror U2)) as [V1 V2].
        rewrite V2, U2, app_nil_r. auto. }
      assert (Etk : btaken c s i = bresult s i) by (unfold btaken, bresult; rewrite (all0_ready s H0); reflexivity).
      rewrite Etk. pose proof (own_len J wss HF) as Hlen.
      constructor; auto; [apply Forall_app; split; [exact HL|apply acc_legal, Hi]|].
      unfold bresult. rewrite Ht. cbn [Z.eqb Pos.eqb andb]. destruct (c_valid i) eqn:Ev.
      + apply (P_idle _ _ _ _ _ (wss ++ [[(c_data i, c_last i)]])); auto.
        * apply Forall2_app; [exact HF|]. constructor; [reflexivity|constructor].
        * rewrite concat_app. reflexivity.
        * rewrite reads_snoc by exact Hlen. reflexivity.
        * cbn [bstep b_busy]. rewrite Nf, Ht, Ev. reflexivity.
        * cbn [bstep b_thr]. unfold bthr_step. rewrite Ht, Ev. auto.
        * intros k Hk. destruct (Hqu k Hk) as [Q1 Q2]. rewrite Q2, filled_snoc by exact Hlen. cbn [bgives]. rewrite !app_nil_r.
          split; [exact Q1|apply pend_settles, Q2].
      + rewrite !app_nil_r. apply (P_read _ _ _ _ _ J wss); auto.
        * cbn [bstep b_busy]. rewrite Nf, Ht, Ev, Ed, Ei. exact Hb.
        * cbn [bstep b_thr]. unfold bthr_step. rewrite Ht, Ev. reflexivity.
    - (* a transfer *)
      pose proof (ac_busy _ _ Ha) as Hb. pose proof (ac_k _ _ Ha) as Hk.
      pose proof (busy_no s Hb) as Ed. pose proof (idle_busy s Hb) as Ei.
      pose proof (q_step s i P HQ ltac:(rewrite Ed; discriminate)) as HQ'. rewrite Ed in HQ'.
      rewrite Ei, andb_false_r. cbn [app].
      exists (J ++ [BDma k n]). rewrite Ed. split; [|rewrite map_app; reflexivity].
      pose proof (own_len J wss HF) as Hlen.
      destruct (active_taken s i k Ha) as [Etk Ers]. rewrite Ers, app_nil_r.
      assert (Hqu : forall j, (j < nops c)%nat -> j <> k -> pu j ++ bpush c j s i = F j J wss /\ pend (bstep c s i) j = []).
      { intros j Hj Hn. destruct (Ho j Hj Hn) as [O1 O2]. destruct (other_step s i k j Ha Hj Hn O2) as [V1 V2]. rewrite V2, app_nil_r. auto. }
      constructor; auto; [apply Forall_app; split; [exact HL|apply acc_legal, Hi]|].
      pose proof (active_step s i k Ha) as Hn. pose proof (busy_step s i k n _ _ Ha (HV k Hk) Hi Hq Hx) as X. cbv zeta in X.
      rewrite <- Etk, <- map_app in X.
      destruct (bfin c s i k).
      + destruct Hn as (N1 & N2 & N3). destruct X as (X1 & X2 & X3).
        apply (P_idle _ _ _ _ _ (wss ++ [cur ++ btaken c s i])); auto.
        * apply Forall2_app; [exact HF|]. constructor; [|constructor]. unfold bown, bjob_words.
          rewrite map_length in X2. exact X2.
        * rewrite concat_app. cbn [concat]. rewrite app_nil_r, app_assoc. reflexivity.
        * rewrite reads_snoc by exact Hlen. rewrite app_nil_r. reflexivity.
        * intros j Hj. rewrite filled_snoc by exact Hlen. cbn [bgives]. destruct (Nat.eq_dec j k) as [->|Hne].
          -- rewrite Nat.eqb_refl. split; [|exact X3]. rewrite Hpk, <- !app_assoc. f_equal. rewrite app_assoc. exact X1.
          -- destruct (Hqu j Hj Hne) as [Q1 Q2].
             assert (En : Nat.eqb k j = false) by (apply Nat.eqb_neq; congruence). rewrite En, Q2, !app_nil_r. split; [exact Q1|apply pend_settles, Q2].
      + apply (P_dma _ _ _ _ _ J wss k n (cur ++ btaken c s i) (ps ++ bpush c k s i)); auto.
        * rewrite app_assoc. reflexivity.
        * rewrite Hpk, app_assoc. reflexivity.
  Qed.

  (** ** Runs *)
  Variable m0 : nat -> Z -> Z.
  Variable fm : Z -> Z.
  Notation s0 := (binit m0 fm).
  Lemma inv_init : inv s0 [] [] [] [] (fun _ => []).
  Proof using Hc.
    constructor.
    - apply init_inv, fa1.
    - constructor.
    - intros k Hk. unfold wok. pose proof (op_w k Hk) as Hw. pose proof (pack_P (R k) (op_r k Hk)) as HP. destruct (R k); auto.
      cbn [binit b_unit b_wdata]. split; [lia|]. apply Z.pow_pos_nonneg; [lia|]. destruct HP. nia.
    - intros k Hk. exists []. apply init_inv, op_raw, Hk.
    - apply (P_idle _ _ _ _ _ []); auto.
      + intros r. destruct r; reflexivity.
      + intros k Hk. unfold settles, pend, pending, regs. cbn. destruct (R k); split; try reflexivity; try exact I; discriminate.
  Qed.
  Lemma broomy_app a : forall s b, broomy c s (a ++ b) -> broomy c s a /\ broomy c (brun_ c s a) b.
  Proof using.
    induction a as [|i a IH]; intros s b H.
    - split; [|exact H]. split; [destruct b; apply H|exact I].
    - destruct H as [H1 H2]. destruct (IH _ _ H2) as [H3 H4]. split; [split; assumption|exact H4].
  Qed.
  Lemma broomy_last s ins : broomy c s ins -> broomy1 c (brun_ c s ins).
  Proof using. intros H. rewrite <- (app_nil_r ins) in H. apply broomy_app in H. apply H. Qed.
  Lemma inv_ext s D P ws res pu pu' : (forall k, pu k = pu' k) -> inv s D P ws res pu -> inv s D P ws res pu'.
  Proof using.
    intros E [HQ HL HW HV HP]. constructor; auto.
    destruct HP as [wss HF H1 H2 H0 Hb Ht Hu | J wss H1 HF H2 H3 H0 Hb Ht Hu | J wss k n cur ps H1 HF H2 H3 Ha Hq Ho Hpk Hx].
    - apply (P_idle _ _ _ _ _ wss); auto. intros k Hk. rewrite <- E. apply Hu, Hk.
    - apply (P_read _ _ _ _ _ J wss); auto. intros k Hk. rewrite <- E. apply Hu, Hk.
    - apply (P_dma _ _ _ _ _ J wss k n cur ps); auto; [|rewrite <- E; exact Hpk]. intros j Hj Hn. rewrite <- E. apply Ho; assumption.
  Qed.
  Lemma inv_run ins : forall s D P ws res pu, inv s D P ws res pu -> Forall (blegal_in c) ins -> broomy c s ins ->
    exists D' P', inv (brun_ c s ins) D' P' (ws ++ bwords c s ins) (res ++ bresults c s ins) (fun k => pu k ++ bpushes c k s ins) /\
      D' ++ map req_job P' = D ++ map req_job P ++ bjobs c s ins.
  Proof using Hc.
    clear m0 fm. induction ins as [|i ins IH]; intros s D P ws res pu HI HL HR.
    - exists D, P. unfold bwords, bresults, bjobs, bpushes. cbn [outs concat brun_ final fold_left]. rewrite !app_nil_r. split; [|reflexivity].
      apply (inv_ext s D P ws res pu); [|exact HI]. intros k. cbn. rewrite app_nil_r. reflexivity.
    - destruct HR as [HR1 HR2]. destruct (inv_step s i D P ws res pu HI (Forall_inv HL) HR1) as (D1 & HI1 & E1).
      destruct (IH (bstep c s i) D1 (nextP s i P) _ _ _ HI1 (Forall_inv_tail HL) HR2) as (D' & P' & HI' & E').
      exists D', P'. unfold bwords, bresults, bjobs, bpushes, brun_, final in *. cbn [outs concat fold_left]. rewrite !app_assoc. split.
      + eapply inv_ext; [|exact HI']. intros k. cbn beta. rewrite <- app_assoc. reflexivity.
      + rewrite E'. rewrite app_assoc, E1, <- !app_assoc. reflexivity.
  Qed.
  Lemma reached ins : Forall (blegal_in c) ins -> broomy c s0 ins ->
    exists D P, inv (brun_ c s0 ins) D P (bwords c s0 ins) (bresults c s0 ins) (fun k => bpushes c k s0 ins) /\
      bjobs c s0 ins = D ++ map req_job P.
  Proof using Hc.
    intros H HR. destruct (inv_run ins _ [] [] [] [] _ inv_init H HR) as (D & P & A1 & A2).
    exists D, P. split; [exact A1|symmetry; exact A2].
  Qed.

  Theorem idle_done ins : Forall (blegal_in c) ins -> broomy c s0 ins ->
    let s := brun_ c s0 ins in let js := bjobs c s0 ins in
    bidle s = true ->
    exists wss, Forall2 (bown c) js wss /\ bwords c s0 ins = concat wss /\ bresults c s0 ins = breads js wss /\
      forall k i, (k < nops c)%nat -> bpushes c k s0 (ins ++ [i]) = bfilled c k js wss.
  Proof using Hc.
    intros H HR s js Hid. destruct (reached ins H HR) as (D & P & [HQ HL HW HV HP] & E). fold s in HQ, HW, HV, HP. fold js in E.
    unfold bidle in Hid. rewrite (empty_list (g_fa c) _ _ fa1 HQ) in Hid.
    assert (EP : P = []) by (destruct P; [reflexivity|discriminate]). subst P. cbn [map andb] in Hid, E. rewrite app_nil_r in E. subst D.
    destruct HP as [wss HF E1 E2 H0 Hb Ht Hu | J wss _ HF _ _ H0 Hb Ht Hu | J wss k n cur ps _ HF _ _ Ha Hq Ho Hpk Hx].
    - exists wss. repeat (split; [assumption|]). intros k i Hk. destruct (Hu k Hk) as [U1 U2].
      destruct (all0_step s i k H0 (room_settles s k Hk (broomy_last s0 ins HR) H0 U2)) as [_ V2].
      rewrite <- U1, <- V2. unfold bpushes. rewrite outs_app, concat_app. f_equal. cbn [outs concat]. apply app_nil_r.
    - rewrite Hb in Hid. discriminate.
    - rewrite (ac_busy _ _ Ha) in Hid. discriminate.
  Qed.

  (** a transfer in progress: words taken, words completed *)
  Lemma busy_len s k n bs ps : (k < nops c)%nat -> busy s k n bs ps -> (length bs <= bus_words (R k) (Z.to_nat n))%nat /\
    exists m, ps ++ pend s k = ram_words (R k) (W k) bs m /\ (bus_words (R k) m <= length bs <= bus_words (R k) (S m))%nat.
  Proof using Hc.
    clear m0 fm. intros Hk (m & E1 & Hm & _ & Hsh & _). pose proof (pack_P (R k) (op_r k Hk)) as HP. unfold shape in Hsh. unfold bus_words.
    destruct (R k) as [|lp|lp].
    - split; [lia|]. exists m. split; [exact E1|lia].
    - destruct Hsh as (S1 & S2 & _). unfold packz in *. split; [nia|]. exists m. split; [exact E1|nia].
    - destruct Hsh as (S1 & S2 & _). destruct HP as [HP1 HP2]. pose proof (Z.mod_pos_bound (Z.of_nat m) (packz (Wide lp)) ltac:(lia)) as Hmb.
      assert (Hlen : (length bs * pack (Wide lp) <= m + pack (Wide lp) - 1)%nat /\ (m <= length bs * pack (Wide lp))%nat).
      { assert (Z.of_nat (length bs) * packz (Wide lp) < Z.of_nat m + packz (Wide lp)) by (destruct (x_count (regs s k) =? 0) eqn:E; lia).
        assert (Z.of_nat m <= Z.of_nat (length bs) * packz (Wide lp)) by (destruct (x_count (regs s k) =? 0) eqn:E; lia).
        clear - H H0 HP2. unfold packz in *. nia. }
      assert (Hp0 : (pack (Wide lp) <> 0)%nat) by (clear - HP2; unfold packz in *; lia).
      split; [|exists m; split; [exact E1|split]].
      + apply Nat.div_le_lower_bound; [exact Hp0|]. lia.
      + apply Nat.lt_succ_r. apply Nat.div_lt_upper_bound; [exact Hp0|]. lia.
      + apply Nat.div_le_lower_bound; [exact Hp0|]. lia.
  Qed.
  Theorem always ins : Forall (blegal_in c) ins -> broomy c s0 ins ->
    exists D rest wss cur, bjobs c s0 ins = D ++ rest /\ Forall2 (bown c) D wss /\
      bwords c s0 ins = concat wss ++ cur /\ bresults c s0 ins = breads D wss /\
      match rest with [] => cur = [] | j :: _ => (length cur <= bjob_words c j)%nat end /\
      forall k, (k < nops c)%nat -> exists m later, bprogress c k rest cur m /\
        bpushes c k s0 ins ++ later = bfilled c k D wss ++ bpart c k rest cur m /\ (length later <= 1)%nat.
  Proof using Hc.
    intros H HR. destruct (reached ins H HR) as (D & P & [HQ HL HW HV HP] & E). rewrite E.
    assert (Hpl : forall s k, (length (pend s k) <= 1)%nat).
    { intros s k. unfold pend, pending. destruct (R k); [cbn; lia| |]; destruct (x_wvalid (regs s k)); cbn; lia. }
    assert (Hz : forall k, (k < nops c)%nat -> bus_words (R k) 0 = 0%nat).
    { intros k Hk. pose proof (pack_P (R k) (op_r k Hk)) as HP'. unfold bus_words, packz in *. destruct (R k); try reflexivity.
      destruct HP'. apply Nat.div_small. lia. }
    destruct HP as [wss HF -> -> H0 Hb Ht Hu | J wss -> HF -> -> H0 Hb Ht Hu | J wss k n cur ps -> HF -> -> Ha Hq Ho Hpk Hx].
    - exists D, (map req_job P), wss, []. rewrite app_nil_r. do 4 (split; [auto|]). split; [destruct P; cbn; [reflexivity|lia]|].
      intros k Hk. exists 0%nat, (pend (brun_ c s0 ins) k). destruct (Hu k Hk) as [-> _]. split; [|split; [|apply Hpl]].
      + destruct P as [|[k' n'] P]; cbn; [exact I|]. destruct (Nat.eqb k' k); [|exact I]. rewrite Hz by exact Hk. lia.
      + destruct P as [|[k' n'] P]; cbn; [rewrite app_nil_r; reflexivity|]. destruct (Nat.eqb k' k); rewrite app_nil_r; reflexivity.
    - exists J, (BRead :: map req_job P), wss, []. rewrite app_nil_r, <- app_assoc. do 4 (split; [auto|]). split; [cbn; lia|].
      intros k Hk. exists 0%nat, []. cbn [bpart bprogress length]. destruct (Hu k Hk) as [-> _]. split; [exact I|]. split; [reflexivity|lia].
    - exists J, (BDma k n :: map req_job P), wss, cur. rewrite <- app_assoc. do 4 (split; [auto|]). cbn [bjob_words].
      destruct (busy_len _ k n _ _ (ac_k _ _ Ha) Hx) as [X1 (m & X2 & X3)]. rewrite map_length in X1, X3. split; [exact X1|].
      intros j Hj. cbn [bpart bprogress]. destruct (Nat.eqb k j) eqn:En.
      + apply Nat.eqb_eq in En. subst j. exists m, (pend (brun_ c s0 ins) k). split; [exact X3|]. split; [|apply Hpl].
        rewrite Hpk, <- app_assoc. f_equal. exact X2.
      + apply Nat.eqb_neq in En. assert (En' : j <> k) by congruence. destruct (Ho j Hj En') as [-> _].
        exists 0%nat, []. split; [exact I|]. split; [reflexivity|cbn; lia].
  Qed.

  (** ** Progress *)
  Definition left (s : bst) (k : nat) : Z :=
    match R k with Narrow _ => b_size s * packz (R k) - b_count (b_unit s k) | _ => b_size s end.
  Definition act (s : bst) : Z := let k := Z.to_nat (b_sel s - 1) in if bfsm s (R k) =? 0 then 0 else left s k.
  Definition waiting (s : bst) : Z := if b_thr s =? 1 then 2 else if b_thr s =? 2 then 1 else 0.
  Definition due (P : list req) : Z := fold_right (fun x t => bjob_cost c (req_job x) + t) 0 P.
  Definition mu (s : bst) (P : list req) : Z := due P + waiting s + act s.
  Lemma act_active s k : active s k -> act s = left s k.
  Proof using.
    clear m0 fm. intros H. unfold act. rewrite (ac_sel _ _ H). replace (Z.to_nat (opid k - 1)) with k by (unfold opid; lia).
    rewrite (ac_fsm _ _ H). reflexivity.
  Qed.
  Lemma act_all0 s : all0 s -> act s = 0.
  Proof using. intros H. unfold act. rewrite H. reflexivity. Qed.
  Lemma legal_cost x : legal_rq x -> 1 <= bjob_cost c (req_job x).
  Proof using.
    clear m0 fm. intros (_ & H & _). unfold bjob_cost, req_job. assert (0 <= match R (fst x) with Narrow _ => Z.of_nat (pack (R (fst x))) | _ => 1 end) by (destruct (R (fst x)); lia).
    nia.
  Qed.
  Lemma due_nonneg P : Forall legal_rq P -> 0 <= due P.
  Proof using.
    clear m0 fm. induction 1 as [|x P H _ IH]; [cbn; lia|]. change (due (x :: P)) with (bjob_cost c (req_job x) + due P).
    pose proof (legal_cost x H). lia.
  Qed.
  Lemma left_bound s k n bs ps : (k < nops c)%nat -> blegal_size c k n -> busy s k n bs ps -> 1 <= left s k <= bjob_cost c (BDma k n) - 1.
  Proof using Hc.
    clear m0 fm. intros Hk [Hl _] (m & _ & Hm & Hs & Hsh & _). pose proof (pack_P (R k) (op_r k Hk)) as HP.
    unfold left, bjob_cost. fold (packz (R k)). unfold shape in Hsh. destruct (R k) as [|lp|lp].
    - lia.
    - destruct Hsh as (_ & S2 & _). cbn [regs x_count] in S2. destruct HP. nia.
    - lia.
  Qed.
  Lemma good_af s i k : (k < nops c)%nat -> bgood c s i = b2z (c_valid i) /\ baf c s k = false \/ bgood c s i = 0.
  Proof using.
    clear m0 fm. intros Hk. unfold bgood. destruct (any c (baf c s)) eqn:E; [right; rewrite andb_false_r; reflexivity|left].
    rewrite andb_true_r. split; [reflexivity|]. destruct (baf c s k) eqn:F; [|reflexivity]. rewrite (any_intro c _ k Hk F) in E. discriminate.
  Qed.
  Lemma left_step s i k n bs ps : active s k -> fok s k -> blegal_in c i -> blegal_size c k n -> busy s k n bs ps ->
    bfin c s i k = false -> left (bstep c s i) k <= left s k - bgood c s i.
  Proof using Hc.
    clear m0 fm. intros H Hf Hi Hl HB Hfin. pose proof (ac_k _ _ H) as Hk. pose proof (pack_P (R k) (op_r k Hk)) as HP.
    pose proof (active_size s i k H) as Hsz.
    pose proof HB as (m & _ & Hm & Hs & Hsh & _).
    assert (Hd : (b_size s - 1) mod 2 ^ lw c = b_size s - 1) by (apply Z.mod_small; destruct Hl as [Hl _]; lia).
    rewrite Hd in Hsz. clear Hd.
    assert (Eu : brun c s k = true \/ (baf c s k = true)) by (rewrite (run_self s k H); destruct (baf c s k); auto).
    destruct Eu as [Er|Ha].
    - assert (Hv : 0 <= bgood c s i <= b2z (c_valid i)).
      { unfold bgood. destruct (c_valid i), (any c (baf c s)); cbn; lia. }
      unfold left. rewrite Hsz, unit_eq. unfold bunit_step, bdec, bfin in *. rewrite (proj1 (here01 s k H)), Er in *. cbn [andb] in *. unfold shape in Hsh.
      cbn [regs x_count] in Hsh. unfold pk in *.
      destruct (R k) as [|lp|lp].
      + destruct (c_valid i); cbn [b2z] in Hv; lia.
      + destruct HP as [HP1 HP2]. destruct Hsh as (_ & S2 & _). cbn [b_count]. rewrite HP1 in *.
        destruct (c_valid i); cbn [andb b2z] in *.
        * destruct (b_count (b_unit s k) =? 2 ^ lp - 1) eqn:E.
          -- apply Z.eqb_eq in E. nia.
          -- apply Z.eqb_neq in E. replace (b_count (b_unit s k) <? 2 ^ lp - 1) with true by (symmetry; apply Z.ltb_lt; lia).
             rewrite Z.mod_small by lia. lia.
        * lia.
      + destruct Hsh as (_ & S2 & _). destruct HP as [HP1 HP2].
        pose proof (Z.mod_pos_bound (Z.of_nat m) (packz (Wide lp)) ltac:(lia)) as Hmb. rewrite <- S2 in Hmb.
        destruct (c_valid i); cbn [andb b2z] in *.
        * replace ((b_count (b_unit s k) =? 0) || (0 <? b_count (b_unit s k))) with true; [lia|].
          symmetry. apply orb_true_iff. rewrite Z.eqb_eq, Z.ltb_lt. lia.
        * destruct (false || (0 <? b_count (b_unit s k))); lia.
    - destruct (good_af s i k Hk) as [[_ X]|X]; [congruence|]. rewrite X.
      assert (Er : brun c s k = false) by (rewrite (run_self s k H), Ha; reflexivity).
      unfold left. rewrite Hsz, unit_eq. unfold bunit_step, bdec. rewrite (proj1 (here01 s k H)), Er. cbn [andb].
      destruct (R k); cbn [b_count]; lia.
  Qed.
  Lemma mu_step s i D P ws res pu : inv s D P ws res pu -> blegal_in c i -> bquiet_in i ->
    mu (bstep c s i) (nextP s i P) <= Z.max 0 (mu s P - bgood c s i).
  Proof using Hc.
    clear m0 fm. intros [HQ HL HW HV HP] Hi [Hn1 Hn2]. unfold nextP. assert (Ea : acc s i = []) by (unfold acc; rewrite Hn1; reflexivity). rewrite Ea, app_nil_r.
    pose proof (due_nonneg P HL) as Hdue.
    assert (Hv : 0 <= bgood c s i <= b2z (c_valid i) /\ b2z (c_valid i) <= 1).
    { unfold bgood. destruct (c_valid i), (any c (baf c s)); cbn; lia. }
    destruct HP as [wss HF -> -> H0 Hb Ht Hu | J wss -> HF -> -> H0 Hb Ht Hu | J wss k n cur ps -> HF -> -> Ha Hq Ho Hpk Hx].
    - destruct P as [|x P].
      + assert (Hd : forall k, (k < nops c)%nat -> bdispatch c s k = false) by (intros; apply empty_dispatch, HQ).
        assert (Ed : any c (bdispatch c s) = false) by (apply any_false, Hd). rewrite Ed.
        assert (Ei : bidle s = true) by (unfold bidle; rewrite (empty_list (g_fa c) _ _ fa1 HQ), Hb; reflexivity).
        unfold mu. rewrite (act_all0 _ H0), (act_all0 (bstep c s i)) by (apply all0_fsm_step; assumption).
        unfold waiting. cbn [bstep b_thr]. unfold bthr_step. rewrite Ei, Hn2. destruct Ht as [E|E]; rewrite E; cbn [Z.eqb Pos.eqb due fold_right]; lia.
      + pose proof (Forall_inv HL) as Hx. pose proof (fun k => idle_dispatch s x P k H0 Hb HQ Hx) as Hd.
        assert (Hk : (fst x < nops c)%nat) by apply Hx.
        assert (Ed : any c (bdispatch c s) = true).
        { apply (any_intro c _ (fst x)); [exact Hk|]. rewrite Hd. apply Nat.eqb_refl. }
        rewrite Ed. cbn [tl].
        assert (Ei : bidle s = false) by (unfold bidle; rewrite (empty_list (g_fa c) _ _ fa1 HQ); reflexivity).
        destruct (unpack_req x Hx) as [U1 U2]. assert (Eh : bhead s = req_word x) by (unfold bhead; apply (rdata_list (g_fa c) _ _ _ fa1 HQ)).
        assert (Ew : waiting (bstep c s i) = waiting s).
        { unfold waiting. cbn [bstep b_thr]. unfold bthr_step. rewrite Ei, Hn2. destruct Ht as [E|E]; rewrite E; reflexivity. }
        assert (Eact : act (bstep c s i) = left (bstep c s i) (fst x)).
        { unfold act. assert (Es : b_sel (bstep c s i) = opid (fst x)) by (cbn [bstep b_sel]; rewrite Ed, Eh; exact U1).
          rewrite Es. replace (Z.to_nat (opid (fst x) - 1)) with (fst x) by (unfold opid; lia).
          rewrite bfsm_of_step. unfold bfsm_step. rewrite H0. cbn [Z.eqb].
          rewrite (any_intro c _ (fst x)); [reflexivity|exact Hk|]. rewrite Hd, class_refl, Nat.eqb_refl. reflexivity. }
        unfold mu. rewrite Eact, Ew, (act_all0 s H0). unfold left. rewrite unit_eq. unfold bunit_step, bhere. rewrite H0. cbn [Z.eqb].
        assert (Esz : b_size (bstep c s i) = snd x) by (cbn [bstep b_size]; rewrite Ed, Eh; exact U2). rewrite Esz.
        change (due (x :: P)) with (bjob_cost c (req_job x) + due P) in *. unfold bjob_cost, req_job. cbn [fst snd].
        destruct (R (fst x)); cbn [b_count]; unfold packz; lia.
    - pose proof (busy_no s Hb) as Ed. rewrite Ed. pose proof (idle_busy s Hb) as Ei.
      unfold mu. rewrite (act_all0 _ H0), (act_all0 (bstep c s i)) by (apply all0_fsm_step; [exact H0|intros; apply busy_dispatch, Hb]).
      unfold waiting. cbn [bstep b_thr]. unfold bthr_step. rewrite Ht. cbn [Z.eqb Pos.eqb]. destruct (c_valid i); cbn [Z.eqb Pos.eqb b2z] in *; lia.
    - pose proof (ac_busy _ _ Ha) as Hb. pose proof (ac_k _ _ Ha) as Hk.
      pose proof (busy_no s Hb) as Ed. rewrite Ed. pose proof (idle_busy s Hb) as Ei.
      assert (Ew : waiting (bstep c s i) = waiting s).
      { unfold waiting. cbn [bstep b_thr]. unfold bthr_step. rewrite Ei, Hn2. destruct (ac_thr _ _ Ha) as [E|E]; rewrite E; reflexivity. }
      assert (Hw : 0 <= waiting s) by (unfold waiting; destruct (b_thr s =? 1), (b_thr s =? 2); lia).
      pose proof (left_bound s k n _ _ Hk Hq Hx) as Hm. pose proof (active_step s i k Ha) as Hn.
      pose proof (left_step s i k n _ _ Ha (HV k Hk) Hi Hq Hx) as Hst.
      unfold mu. rewrite Ew, (act_active s k Ha).
      destruct (bfin c s i k).
      + destruct Hn as (N1 & _). rewrite (act_all0 _ N1). lia.
      + rewrite (act_active _ k Hn). specialize (Hst eq_refl). lia.
  Qed.
  Lemma mu_zero s D P ws res pu : inv s D P ws res pu -> mu s P <= 0 -> bidle s = true /\ b_thr s = 0.
  Proof using Hc.
    clear m0 fm. intros [HQ HL HW HV HP] Hm. pose proof (due_nonneg P HL) as Hdue. unfold mu in Hm.
    assert (Hw : 0 <= waiting s) by (unfold waiting; destruct (b_thr s =? 1), (b_thr s =? 2); lia).
    destruct HP as [wss HF -> -> H0 Hb Ht Hu | J wss -> HF -> -> H0 Hb Ht Hu | J wss k n cur ps -> HF -> -> Ha Hq Ho Hpk Hx].
    - rewrite (act_all0 s H0) in Hm. unfold waiting in *. destruct P as [|x P].
      + unfold bidle. rewrite (empty_list (g_fa c) _ _ fa1 HQ), Hb. split; [reflexivity|]. destruct Ht as [E|E]; [exact E|]. rewrite E in Hm. cbn in Hm. lia.
      + pose proof (legal_cost x (Forall_inv HL)). pose proof (due_nonneg P (Forall_inv_tail HL)).
        change (due (x :: P)) with (bjob_cost c (req_job x) + due P) in *. lia.
    - rewrite (act_all0 s H0) in Hm. unfold waiting in *. rewrite Ht in *. cbn in *. lia.
    - pose proof (left_bound s k n _ _ (ac_k _ _ Ha) Hq Hx). rewrite (act_active s k Ha) in Hm. lia.
  Qed.
  Lemma cost_app a b : bcost c (a ++ b) = bcost c a + bcost c b - 2.
  Proof using. clear. unfold bcost. induction a as [|j a IH]; cbn [app fold_right]; lia. Qed.
  Lemma cost_due P : bcost c (map req_job P) = due P + 2.
  Proof using. clear m0 fm Hc. unfold bcost, due. induction P as [|j a IH]; cbn [map fold_right]; lia. Qed.
  Definition legal_job (j : bjob) : Prop := match j with BRead => True | BDma _ n => 1 <= n end.
  Lemma job_cost_nonneg j : legal_job j -> 0 <= bjob_cost c j.
  Proof using. clear. intros H. unfold bjob_cost. destruct j; [lia|]. cbn in H. destruct (R k); nia. Qed.
  Lemma jobs_legal ins : forall s, Forall (blegal_in c) ins -> Forall legal_job (bjobs c s ins).
  Proof using.
    clear m0 fm. induction ins as [|i ins IH]; intros s H; [constructor|]. unfold bjobs. cbn [outs concat].
    apply Forall_app. split; [|apply IH, (Forall_inv_tail H)]. unfold bissued. apply Forall_app. split.
    - destruct (_ && _); repeat constructor.
    - destruct (Forall_inv H) as [_ X]. destruct (c_req i) as [[k n]|]; [|constructor]. destruct (baccepts c s); constructor; [|constructor].
      destruct X as (_ & X & _). cbn. lia.
  Qed.
  Lemma cost_ge js : Forall legal_job js -> 2 <= bcost c js.
  Proof using.
    clear m0 fm. induction 1 as [|j js H _ IH]; [cbn; lia|]. change (bcost c (j :: js)) with (bjob_cost c j + bcost c js).
    pose proof (job_cost_nonneg j H). lia.
  Qed.
  Lemma mu_cost s D P ws res pu : inv s D P ws res pu -> Forall legal_job D -> mu s P <= bcost c (D ++ map req_job P).
  Proof using Hc.
    clear m0 fm. intros [HQ HL HW HV HP] HD. rewrite cost_app, cost_due. unfold mu.
    assert (Hw : waiting s <= 2) by (unfold waiting; destruct (b_thr s =? 1), (b_thr s =? 2); lia).
    destruct HP as [wss HF -> -> H0 Hb Ht Hu | J wss -> HF -> -> H0 Hb Ht Hu | J wss k n cur ps -> HF -> -> Ha Hq Ho Hpk Hx].
    - rewrite (act_all0 s H0). pose proof (cost_ge D HD). lia.
    - rewrite (act_all0 s H0). pose proof (cost_ge _ HD). lia.
    - apply Forall_app in HD. pose proof (cost_ge J (proj1 HD)). rewrite cost_app. change (bcost c [BDma k n]) with (bjob_cost c (BDma k n) + 2).
      pose proof (left_bound s k n _ _ (ac_k _ _ Ha) Hq Hx). rewrite (act_active s k Ha). lia.
  Qed.
  Lemma mu_run more : forall s D P ws res pu, inv s D P ws res pu -> Forall (blegal_in c) more -> broomy c s more -> Forall bquiet_in more ->
    exists D' P' ws' res' pu', inv (brun_ c s more) D' P' ws' res' pu' /\ mu (brun_ c s more) P' <= Z.max 0 (mu s P - bgoods c s more).
  Proof using Hc.
    clear m0 fm. induction more as [|i more IH]; intros s D P ws res pu HI HL HR HN.
    - exists D, P, ws, res, pu. split; [exact HI|]. cbn. clear. lia.
    - destruct HR as [HR1 HR2]. destruct (inv_step s i D P ws res pu HI (Forall_inv HL) HR1) as (D1 & HI1 & _).
      pose proof (mu_step s i D P ws res pu HI (Forall_inv HL) (Forall_inv HN)) as Hm.
      destruct (IH (bstep c s i) D1 _ _ _ _ HI1 (Forall_inv_tail HL) HR2 (Forall_inv_tail HN)) as (D' & P' & ws' & res' & pu' & HI' & Hm').
      exists D', P', ws', res', pu'. unfold brun_, final in *. cbn [fold_left]. split; [exact HI'|].
      change (bgoods c s (i :: more)) with (bgood c s i + bgoods c (bstep c s i) more).
      assert (0 <= bgoods c (bstep c s i) more).
      { clear. generalize (bstep c s i). induction more as [|j l IH]; intros t; [cbn; lia|].
        change (bgoods c t (j :: l)) with (bgood c t j + bgoods c (bstep c t j) l). specialize (IH (bstep c t j)).
        unfold bgood. destruct (_ && _); cbn [b2z]; lia. }
      clear - Hm Hm' H. lia.
  Qed.
  Theorem finishes ins more : Forall (blegal_in c) (ins ++ more) -> broomy c s0 (ins ++ more) -> Forall bquiet_in more ->
    bcost c (bjobs c s0 ins) <= bgoods c (brun_ c s0 ins) more ->
    bidle (brun_ c s0 (ins ++ more)) = true /\ b_thr (brun_ c s0 (ins ++ more)) = 0.
  Proof using Hc.
    intros HL HR HN Hv. apply Forall_app in HL. destruct HL as [HL1 HL2]. apply broomy_app in HR. destruct HR as [HR1 HR2].
    destruct (reached ins HL1 HR1) as (D & P & HI & E). pose proof (jobs_legal ins s0 HL1) as HJ. rewrite E in HJ, Hv.
    apply Forall_app in HJ. pose proof (mu_cost _ D P _ _ _ HI (proj1 HJ)) as Hm.
    destruct (mu_run more _ D P _ _ _ HI HL2 HR2 HN) as (D' & P' & ws' & res' & pu' & HI' & Hm').
    assert (Er : brun_ c s0 (ins ++ more) = brun_ c (brun_ c s0 ins) more) by (unfold brun_, final; apply fold_left_app).
    rewrite Er. apply (mu_zero _ D' P' ws' res' pu' HI'). clear - Hm Hm' Hv. lia.
  Qed.

  (** setting and clearing [read_data_busy] never meet *)
  Lemma no_clash ins i : Forall (blegal_in c) ins -> broomy c s0 ins -> let s := brun_ c s0 ins in
    (any c (bfin c s i) || (b_thr s =? 2) && c_valid i) && (any c (bdispatch c s) || (b_thr s =? 1) && bidle s) = false.
  Proof using Hc.
    intros HL HR. cbv zeta. destruct (reached ins HL HR) as (D & P & HI & _). set (s := brun_ c s0 ins) in *.
    destruct (b_busy s) eqn:Hb.
    - rewrite (busy_no s Hb), (idle_busy s Hb), andb_false_r. apply andb_false_r.
    - destruct HI as [HQ _ _ _ HP].
      destruct HP as [wss HF _ _ H0 _ Ht Hu | J wss _ HF _ _ H0 Hb' Ht Hu | J wss k n cur ps _ HF _ _ Ha Hq Ho Hpk Hx].
      + destruct (nofin s i H0) as (_ & Nf). rewrite Nf.
        destruct Ht as [E|E]; rewrite E; reflexivity.
      + congruence.
      + rewrite (ac_busy _ _ Ha) in Hb. discriminate.
  Qed.

  (** ** What the readers of the FIFOs see *)
  Lemma pop_step s i k l : (k < nops c)%nat -> Inv (2 ^ A k) (b_f (b_unit s k)) l ->
    exists l', Inv (2 ^ A k) (b_f (b_unit (bstep c s i) k)) l' /\ l ++ bpush c k s i = bpop k s i ++ l' /\
      forall x, bpop k s i = [x] -> p_rdata true (b_f (b_unit (bstep c s i) k)) = x.
  Proof using Hc.
    clear m0 fm. intros Hk HI. pose proof (op_raw k Hk) as HA. exists (step_list (A k) l (bf_in c s i k)).
    pose proof (step_inv (A k) HA true _ _ (bf_in c s i k) HI) as HI'. rewrite unit_f. split; [exact HI'|].
    pose proof (full_iff (A k) HA _ _ HI) as Hfu. pose proof (empty_iff (A k) HA _ _ HI) as Hem.
    split.
    - destruct (step_list_shape (A k) HA l (bf_in c s i k)) as [E|E].
      + rewrite E. unfold bf_in. cbn [i_deq i_enq i_wdata]. unfold bpush, bpop. rewrite Hfu, Hem.
        destruct l as [|x r].
        * cbn [length Z.of_nat Z.eqb negb]. rewrite andb_false_r. reflexivity.
        * rewrite (rdata_list (A k) _ _ _ HA HI). replace (Z.of_nat (length (x :: r)) =? 0) with false by (cbn [length]; lia).
          cbn [negb]. rewrite andb_true_r. destruct (c_deq i k); reflexivity.
      + exfalso. apply E. destruct HI. lia.
    - intros x Hx. unfold bpop in Hx. destruct (c_deq i k) eqn:Ed; [|discriminate]. destruct (p_empty (b_f (b_unit s k))) eqn:Ee; [discriminate|].
      injection Hx as <-. unfold fifo_step, fifo_deq_stmt, bf_in. cbn [i_deq]. unfold p_empty in Ee. rewrite Ed, Ee. reflexivity.
  Qed.
  Theorem pops_in_order ins k : (k < nops c)%nat -> let s := brun_ c s0 ins in
    exists l, bpushes c k s0 ins = bpops c k s0 ins ++ l /\ Z.of_nat (length l) < 2 ^ A k /\ (p_empty (b_f (b_unit s k)) = true <-> l = []) /\
      forall i x, bpop k s i = [x] -> hd_error l = Some x /\ p_rdata true (b_f (b_unit (bstep c s i) k)) = x.
  Proof using Hc.
    intros Hk. cbv zeta. pose proof (op_raw k Hk) as HA.
    assert (G : forall ins s l0, Inv (2 ^ A k) (b_f (b_unit s k)) l0 -> exists l, Inv (2 ^ A k) (b_f (b_unit (brun_ c s ins) k)) l /\
        l0 ++ bpushes c k s ins = bpops c k s ins ++ l).
    { clear ins m0 fm. induction ins as [|i ins IH]; intros s l0 HI.
      - exists l0. split; [exact HI|]. unfold bpushes, bpops. cbn. apply app_nil_r.
      - destruct (pop_step s i k l0 Hk HI) as (l1 & HI1 & E1 & _). destruct (IH _ _ HI1) as (l & HI2 & E2).
        exists l. split; [exact HI2|]. unfold bpushes, bpops in *. cbn [outs concat]. rewrite app_assoc, E1, <- !app_assoc. f_equal. exact E2. }
    destruct (G ins s0 []) as (l & HI & E); [apply init_inv, HA|]. exists l. split; [exact E|].
    split; [destruct HI; lia|]. split.
    - rewrite (empty_list (A k) _ _ HA HI). destruct l; split; congruence.
    - intros i x Hx. destruct (pop_step (brun_ c s0 ins) i k l Hk HI) as (l' & _ & _ & X). split; [|apply X, Hx].
      unfold bpop in Hx. rewrite (empty_list (A k) _ _ HA HI) in Hx. destruct l as [|y l]; [rewrite andb_false_r in Hx; discriminate|].
      rewrite (rdata_list (A k) _ _ _ HA HI) in Hx. destruct (c_deq i k); [|discriminate]. injection Hx as <-. reflexivity.
  Qed.
End Eng.
