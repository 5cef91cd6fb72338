(** Proofs about the AXI stream input. *)
From Verif Require Import Base Pack Fifo_Model Fifo_Spec Fifo_Proofs Ram_Model Ram_Spec AxiDma_Model AxiData_Model AxiData_Spec
  AxiData_Proofs AxiMem_Proofs AxiPorts_Model AxiPorts_Proofs AxisIn_Model AxisIn_Spec.
Open Scope Z_scope.

(** ** Request words *)
Lemma unpack_pack c o a d n : 1 <= g_aw c -> 1 <= g_sw c ->
  0 <= o < 2 ^ g_sw c -> 0 <= a < 2 ^ g_aw c -> 0 <= d < 2 ^ g_aw c -> 0 <= n < 2 ^ lw c ->
  let v := pack_rreq c o a d n in rq_op c v = o /\ rq_addr c v = a /\ rq_stride c v = d /\ rq_size c v = n.
Proof.
  intros Haw Hsw Ho Ha Hd Hn. cbv zeta.
  pose proof (unpack_cat [(g_sw c, o); (g_aw c, a); (g_aw c, d); (lw c, n)]) as H.
  assert (F : Forall (fun f : Z * Z => 0 <= fst f) [(g_sw c, o); (g_aw c, a); (g_aw c, d); (lw c, n)])
    by (unfold lw; repeat constructor; cbn [fst]; lia).
  specialize (H F). fold (pack_rreq c o a d n) in H. set (v := pack_rreq c o a d n) in *. clearbody v.
  cbn [total_width fold_right fst map snd unpack_from] in H.
  rewrite (Z.mod_small o), (Z.mod_small a), (Z.mod_small d), (Z.mod_small n) in H by assumption.
  injection H as H1 H2 H3 H4. unfold rq_op, rq_addr, rq_stride, rq_size, lw in *.
  repeat split; [rewrite <- H1|rewrite <- H2|rewrite <- H3|rewrite <- H4]; f_equal; lia.
Qed.

Lemma any_true c f : any c f = true -> exists k, (k < nops c)%nat /\ f k = true.
Proof. intros H. apply existsb_exists in H. destruct H as (k & A & B). apply in_seq in A. exists k. split; [lia|exact B]. Qed.
Lemma any_intro c f k : (k < nops c)%nat -> f k = true -> any c f = true.
Proof. intros A B. apply existsb_exists. exists k. split; [apply in_seq; lia|exact B]. Qed.
Lemma any_false c f : (forall k, (k < nops c)%nat -> f k = false) -> any c f = false.
Proof. intros H. destruct (any c f) eqn:E; [|reflexivity]. apply any_true in E. destruct E as (k & A & B). rewrite H in B by exact A. discriminate. Qed.
Lemma any_one c f k : (k < nops c)%nat -> (forall j, (j < nops c)%nat -> f j = true -> f k = true) -> any c f = f k.
Proof.
  intros A H. destruct (f k) eqn:E; [exact (any_intro c f k A E)|]. apply any_false. intros j Hj.
  destruct (f j) eqn:F; [symmetry; exact (H j Hj F)|reflexivity].
Qed.

Lemma opid_inj j k : opid j = opid k -> j = k.
Proof. unfold opid. lia. Qed.
Lemma same_class_fsm s r r' : same_class r r' = true -> fsm s r = fsm s r'.
Proof. destruct r, r'; try discriminate; reflexivity. Qed.
Lemma fsm_step_class c s i r r' : same_class r r' = true -> fsm_step c s i r = fsm_step c s i r'.
Proof.
  intros H. unfold fsm_step. rewrite (same_class_fsm s r r' H).
  assert (E : forall k, same_class r (o_ratio (opk c k)) = same_class r' (o_ratio (opk c k)))
    by (intros k; destruct r, r'; try discriminate; reflexivity).
  assert (G : forall f, any c (fun k => same_class r (o_ratio (opk c k)) && f k) = any c (fun k => same_class r' (o_ratio (opk c k)) && f k)).
  { intros f. unfold any. induction (seq 0 (nops c)) as [|x l IH]; [reflexivity|]. cbn [existsb]. rewrite IH, E. reflexivity. }
  rewrite !G. reflexivity.
Qed.
Lemma fsm_of_step c s i r : fsm (step c s i) r = fsm_step c s i r.
Proof. destruct r; cbn [fsm step s_same s_narrow s_wide]; [reflexivity| |]; apply fsm_step_class; reflexivity. Qed.

Section Eng.
  Variable c : cfg.
  Hypothesis Hc : legal_cfg c.
  Notation R k := (o_ratio (opk c k)).
  Notation W k := (o_w (opk c k)).
  Notation A k := (o_raw (opk c k)).

  Lemma aw1 : 1 <= g_aw c. Proof using Hc. apply Hc. Qed.
  Lemma fa1 : 1 <= g_fa c. Proof using Hc. apply Hc. Qed.
  Lemma op_ok k : (k < nops c)%nat -> legal_op c (opk c k).
  Proof using Hc.
    intros H. destruct Hc as (_ & _ & _ & _ & F). apply (Forall_forall (legal_op c) (g_ops c)); [exact F|].
    apply nth_In. exact H.
  Qed.
  Lemma op_raw k : (k < nops c)%nat -> 0 <= A k. Proof using Hc. intros H. apply (op_ok k H). Qed.
  Lemma op_w k : (k < nops c)%nat -> 0 <= W k. Proof using Hc. intros H. apply (op_ok k H). Qed.
  Lemma op_r k : (k < nops c)%nat -> match R k with Same => True | Narrow lp | Wide lp => 0 < lp end.
  Proof using Hc. intros H. destruct (op_ok k H) as (_ & _ & X). destruct (R k); [exact X|apply X|exact X]. Qed.
  Lemma op_id k : (k < nops c)%nat -> 0 <= opid k < 2 ^ g_sw c.
  Proof using Hc. intros H. destruct Hc as (_ & _ & _ & X & _). unfold opid. lia. Qed.

  (** the registers as the data machine of one operation sees them *)
  Definition proj (s : st) (k : nat) : rd :=
    let u := s_unit s k in
    mkRd (if sel s k then fsm s (R k) else 0) (s_addr s) (s_stride s) (s_size s)
         (match R k with Same => 0 | _ => u_count u end) (u_wdata u)
         (match R k with Same => false | _ => u_wvalid u end) (u_wb u).
  Definition beat_in (i : inp) : rd_in := mkRdIn None (i_valid i) (i_data i).

  (** ** Control *)
  Definition others (s : st) (k : nat) : Prop := forall r, same_class r (R k) = false -> fsm s r = 0.
  Definition all0 (s : st) : Prop := forall r, fsm s r = 0.
  Record active (s : st) (k : nat) (x : Z) : Prop := mkActive {
    ac_k : (k < nops c)%nat; ac_sel : s_sel s = opid k; ac_fsm : fsm s (R k) = x;
    ac_x : x = 1 \/ x = 2; ac_oth : others s k; ac_busy : s_busy s = true; ac_thr : s_thr s = 0 \/ s_thr s = 1 }.

  Lemma active_sel s k x j : active s k x -> sel s j = Nat.eqb j k.
  Proof using.
    intros H. unfold sel. rewrite (ac_sel _ _ _ H). destruct (Nat.eqb j k) eqn:E.
    - apply Nat.eqb_eq in E. subst. apply Z.eqb_refl.
    - apply Nat.eqb_neq in E. apply Z.eqb_neq. intros X. apply E. symmetry. apply opid_inj. exact X.
  Qed.
  Lemma active_here s k x j y : active s k x -> y <> 0 -> here c s j y = true -> same_class (R j) (R k) = true /\ x = y.
  Proof using.
    intros H Hy E. unfold here in E. apply Z.eqb_eq in E. destruct (same_class (R j) (R k)) eqn:S.
    - split; [reflexivity|]. rewrite (same_class_fsm s _ _ S), (ac_fsm _ _ _ H) in E. exact E.
    - rewrite (ac_oth _ _ _ H _ S) in E. congruence.
  Qed.
  Lemma busy_dispatch s k : s_busy s = true -> dispatch c s k = false.
  Proof using. intros H. unfold dispatch. rewrite H. cbn. apply andb_false_r. Qed.
  Lemma busy_no s : s_busy s = true -> any c (dispatch c s) = false.
  Proof using. intros H. apply any_false. intros k _. apply busy_dispatch, H. Qed.
  Lemma mine_no s r : s_busy s = true -> any c (fun k => same_class r (R k) && dispatch c s k) = false.
  Proof using. intros H. apply any_false. intros k _. rewrite busy_dispatch by exact H. apply andb_false_r. Qed.
  Lemma class_refl r : same_class r r = true.
  Proof using. destruct r; reflexivity. Qed.
  Lemma class_sym r r' : same_class r r' = same_class r' r.
  Proof using. destruct r, r'; reflexivity. Qed.

  (** in data state 2 only the selected operation does anything; same-width operations do the same *)
  Lemma run_active s k j : active s k 2 -> run c s j = true -> R j = Same /\ R k = Same \/ j = k.
  Proof using.
    intros H E. unfold run in E. apply andb_prop in E. destruct E as [E1 E2].
    destruct (active_here s k 2 j 2 H ltac:(lia) E1) as [S _]. rewrite (active_sel s k 2 j H) in E2.
    destruct (R j) eqn:Rj; [left; split; [reflexivity|]; destruct (R k); try discriminate; reflexivity| |];
      right; apply Nat.eqb_eq; exact E2.
  Qed.
  Lemma run_self s k : active s k 2 -> run c s k = true.
  Proof using.
    intros H. unfold run, here. rewrite (ac_fsm _ _ _ H). cbn [Z.eqb Pos.eqb andb].
    rewrite (active_sel s k 2 k H), Nat.eqb_refl. destruct (R k); reflexivity.
  Qed.
  Lemma dec_any s i k : active s k 2 -> any c (dec c s i) = dec c s i k.
  Proof using.
    intros H. apply any_one; [apply (ac_k _ _ _ H)|]. intros j _ E. unfold dec in *. cbv zeta in *. rewrite (run_self s k H).
    apply andb_prop in E. destruct E as [E1 E2]. destruct (run_active s k j H E1) as [[X Y]| -> ].
    - rewrite X in E2. rewrite Y. exact E2.
    - exact E2.
  Qed.
  Lemma fin_any s i k r : active s k 2 -> same_class r (R k) = true ->
    any c (fun j => same_class r (R j) && fin c s i j) = fin c s i k.
  Proof using.
    intros H S. rewrite (any_one c _ k).
    - rewrite S. reflexivity.
    - apply (ac_k _ _ _ H).
    - intros j _ E. rewrite S. cbn [andb]. apply andb_prop in E. destruct E as [_ E]. unfold fin, dec in *. cbv zeta in *. rewrite (run_self s k H).
      apply andb_prop in E. destruct E as [E E3]. apply andb_prop in E. destruct E as [E1 E2].
      destruct (run_active s k j H E1) as [[X Y]| -> ].
      + rewrite X in E2. rewrite Y, E2. exact E3.
      + rewrite E2. exact E3.
  Qed.
  Lemma fin_any' s i k : active s k 2 -> any c (fin c s i) = fin c s i k.
  Proof using.
    intros H. apply any_one; [apply (ac_k _ _ _ H)|]. intros j _ E. unfold fin, dec in *. cbv zeta in *. rewrite (run_self s k H).
    apply andb_prop in E. destruct E as [E E3]. apply andb_prop in E. destruct E as [E1 E2].
    destruct (run_active s k j H E1) as [[X Y]| -> ].
    - rewrite X in E2. rewrite Y, E2. exact E3.
    - rewrite E2. exact E3.
  Qed.
  Lemma run_not2 s k x j : active s k x -> x <> 2 -> run c s j = false.
  Proof using.
    intros H X. unfold run. destruct (here c s j 2) eqn:E; [|reflexivity].
    destruct (active_here s k x j 2 H ltac:(lia) E) as [_ Y]. congruence.
  Qed.
  Lemma run_all0 s j : all0 s -> run c s j = false.
  Proof using. intros H. unfold run, here. rewrite H. reflexivity. Qed.
  Lemma nofin s i : (forall j, run c s j = false) -> forall r, any c (dec c s i) = false /\ any c (fin c s i) = false /\
    any c (fun k => same_class r (R k) && fin c s i k) = false.
  Proof using.
    intros H r. split; [|split]; apply any_false; intros k _; unfold fin, dec; rewrite H; cbn [andb]; [reflexivity..|apply andb_false_r].
  Qed.

  (** ** A step of an operation in progress is a step of the data machine *)
  Lemma unit_eq s i k : s_unit (step c s i) k = unit_step c s i k.
  Proof using. cbn [step s_unit]. apply tab_ok. Qed.

  Lemma idle_busy s : s_busy s = true -> idle s = false.
  Proof using. intros H. unfold idle. rewrite H. apply andb_false_r. Qed.

  Lemma active_step s i k x : active s k x ->
    proj (step c s i) k = rd_step (R k) (W k) (A k) (lw c) (proj s k) (beat_in i) /\
    let x' := x_fsm (proj (step c s i) k) in
    (x' <> 0 /\ active (step c s i) k x' \/
     x' = 0 /\ all0 (step c s i) /\ s_busy (step c s i) = false /\ (s_thr (step c s i) = 0 \/ s_thr (step c s i) = 1)).
  Proof using.
    intros H. pose proof (ac_busy _ _ _ H) as Hb. pose proof (busy_no s Hb) as Hd.
    assert (Hthr : s_thr s =? 2 = false) by (destruct (ac_thr _ _ _ H) as [E|E]; rewrite E; reflexivity).
    assert (Hthr' : s_thr (step c s i) = 0 \/ s_thr (step c s i) = 1).
    { cbn [step s_thr]. unfold thr_step. rewrite (idle_busy s Hb). destruct (ac_thr _ _ _ H) as [E|E]; rewrite E; cbn [Z.eqb Pos.eqb].
      - destruct (i_read i); auto.
      - auto. }
    assert (Hsel : s_sel (step c s i) = s_sel s) by (cbn [step s_sel]; rewrite Hd; reflexivity).
    assert (Eoth : forall r, same_class r (R k) = false -> fsm (step c s i) r = 0).
    { intros r Hr. rewrite fsm_of_step. unfold fsm_step. rewrite (ac_oth _ _ _ H r Hr). cbn [Z.eqb].
      rewrite mine_no by exact Hb. reflexivity. }
    assert (Ek : forall r, same_class r (R k) = true -> fsm (step c s i) r = if x =? 1 then 2 else if fin c s i k then 0 else 2).
    { intros r Hr. rewrite fsm_of_step. unfold fsm_step. rewrite (same_class_fsm s r (R k) Hr), (ac_fsm _ _ _ H).
      destruct (ac_x _ _ _ H) as [->| -> ]; cbn [Z.eqb Pos.eqb]; [reflexivity|].
      rewrite (fin_any s i k r H Hr). destruct (fin c s i k); reflexivity. }
    assert (Ex' : x_fsm (proj (step c s i) k) = if x =? 1 then 2 else if fin c s i k then 0 else 2).
    { unfold proj. cbn [x_fsm]. unfold sel. rewrite Hsel. change (s_sel s =? opid k) with (sel s k).
      rewrite (active_sel s k x k H), Nat.eqb_refl. apply Ek, class_refl. }
    split.
    - unfold proj at 1. rewrite unit_eq. cbn [step s_addr s_stride s_size]. rewrite Hd.
      unfold proj in Ex'. cbn [x_fsm] in Ex'. rewrite Ex'. clear Ex' Ek Eoth Hsel Hthr' Hthr.
      pose proof (active_sel s k x k H) as Es. rewrite Nat.eqb_refl in Es.
      unfold rd_step, proj, beat_in, unit_step, here, rd_ram. cbn [x_fsm x_addr x_stride x_size x_count x_wdata x_wvalid x_wb xi_req xi_valid xi_data].
      rewrite Es, (ac_fsm _ _ _ H). destruct (ac_x _ _ _ H) as [->| -> ]; cbn [Z.eqb Pos.eqb andb].
      + destruct (nofin s i (fun j => run_not2 s k 1 j H ltac:(lia)) Same) as (X & _ & _). rewrite X.
        destruct (R k); reflexivity.
      + rewrite (dec_any s i k H), (run_self s k H). unfold fin, dec. rewrite (run_self s k H). cbn [andb].
        destruct (R k) as [|lp|lp]; unfold pk; cbn [u_count u_wdata u_wvalid u_wb]; [reflexivity| |].
        * f_equal. rewrite <- !andb_assoc. rewrite (andb_comm (s_size s <=? 1)). reflexivity.
        * f_equal.
          -- rewrite (andb_comm (s_size s <=? 1) (0 <? _)), (andb_comm (s_size s <=? 1)).
             rewrite <- andb_orb_distrib_l, (orb_comm (0 <? _)). reflexivity.
          -- destruct (0 <? u_count (s_unit s k)); rewrite ?orb_true_r, ?orb_false_r; reflexivity.
    - cbv zeta. rewrite Ex'. destruct (ac_x _ _ _ H) as [Hx|Hx]; subst x; cbn [Z.eqb Pos.eqb] in *.
      + left. split; [lia|]. constructor; auto.
        * apply (ac_k _ _ _ H).
        * rewrite Hsel. apply (ac_sel _ _ _ H).
        * apply Ek, class_refl.
        * cbn [step s_busy]. destruct (nofin s i (fun j => run_not2 s k 1 j H ltac:(lia)) Same) as (_ & X & _). rewrite X, Hthr, Hd, (idle_busy s Hb), andb_false_r.
          exact Hb.
      + destruct (fin c s i k) eqn:Ef.
        * right. split; [reflexivity|]. split; [|split; [|exact Hthr']].
          -- intros r. destruct (same_class r (R k)) eqn:Er; [apply Ek, Er|apply Eoth, Er].
          -- cbn [step s_busy]. rewrite (fin_any' s i k H), Ef. reflexivity.
        * left. split; [lia|]. constructor; auto.
          -- apply (ac_k _ _ _ H).
          -- rewrite Hsel. apply (ac_sel _ _ _ H).
          -- apply Ek, class_refl.
          -- cbn [step s_busy]. rewrite (fin_any' s i k H), Ef, Hthr, Hd, (idle_busy s Hb), andb_false_r. exact Hb.
  Qed.

  (** ** Units without a transfer *)
  Definition quiet (u : ounit) (m : Z -> Z) : Prop := wb_run (u_wb u) = false /\ wb_mem (u_wb u) = m.
  Definition wbi (k : nat) (u : ounit) (s : st) (i : inp) : wb_in :=
    mkWBIn false (s_addr s) (s_stride s) (s_size s)
       (match R k with Same => i_valid i | _ => u_wvalid u end)
       (match R k with Same => i_data i | Narrow _ => u_wdata u | Wide _ => u_wdata u mod 2 ^ W k end) false false.
  Definition settles (k : nat) (u : ounit) (m : Z -> Z) : Prop := forall s i,
    let wb := wb_step (A k) (lw c) (u_wb u) (wbi k u s i) in wb_run wb = false /\ wb_mem wb = m.
  Lemma quiet_settles k u m : quiet u m -> settles k u m.
  Proof using. intros [Q1 Q2] s i. cbv zeta. rewrite <- Q2. apply wb_idle_keep; [exact Q1|reflexivity]. Qed.
  Lemma unit_wb s i k : here c s k 1 && sel s k = false ->
    u_wb (s_unit (step c s i) k) = wb_step (A k) (lw c) (u_wb (s_unit s k)) (wbi k (s_unit s k) s i).
  Proof using.
    intros E. rewrite unit_eq. unfold unit_step, wbi. rewrite E.
    destruct (R k); cbn [u_wb]; [reflexivity| |]; destruct (here c s k 1); try reflexivity; destruct (run c s k); reflexivity.
  Qed.
  Lemma settles_step s i k m : here c s k 1 && sel s k = false -> settles k (s_unit s k) m -> quiet (s_unit (step c s i) k) m.
  Proof using. intros E H. unfold quiet. rewrite (unit_wb s i k E). apply (H s i). Qed.
  Lemma settled_settles s k m : sel s k = false \/ fsm s (R k) = 0 -> settled (R k) (W k) (A k) (lw c) (proj s k) m -> settles k (s_unit s k) m.
  Proof using.
    intros Hs H s' i. specialize (H (beat_in i)). cbv zeta in *. unfold rd_ram, proj, beat_in in H.
    cbn [x_fsm x_addr x_stride x_size x_count x_wdata x_wvalid x_wb xi_req xi_valid xi_data] in H.
    assert (E : (if sel s k then fsm s (R k) else 0) =? 1 = false) by (destruct Hs as [-> | ->]; [reflexivity|destruct (sel s k); reflexivity]).
    rewrite E in H. unfold wbi, wb_step in *. cbn [wbi_cond wbi_addr wbi_stride wbi_length wbi_valid wbi_data wbi_last wbi_quit] in *.
    destruct (R k), (wb_run (u_wb (s_unit s k))); exact H.
  Qed.

  Definition wok (s : st) (k : nat) : Prop :=
    match R k with Narrow _ => 0 <= u_wdata (s_unit s k) < 2 ^ (W k * Z.of_nat (pack (R k))) | _ => True end.
  Lemma wok_step s i k : (k < nops c)%nat -> wok s k -> wok (step c s i) k.
  Proof using Hc.
    intros Hk H. unfold wok in *. rewrite unit_eq. unfold unit_step. pose proof (op_w k Hk) as Hw. pose proof (op_r k Hk) as Hr.
    destruct (R k) as [|lp|lp]; auto. destruct (here c s k 1); [exact H|]. destruct (run c s k); [|exact H].
    cbn [u_wdata]. destruct (_ || _); [|exact H].
    pose proof (cat_bound [(W k, i_data i); (W k * pk lp, Z.shiftr (u_wdata (s_unit s k)) (W k))]) as Hb.
    cbn [total_width fold_right fst] in Hb. unfold pk in *. cbn [pack].
    assert (2 <= 2 ^ lp) by (change 2 with (2 ^ 1) at 1; apply Z.pow_le_mono_r; lia).
    rewrite Z2Nat.id by lia. replace (W k * 2 ^ lp) with (W k + (W k * (2 ^ lp - 1) + 0)) by ring. apply Hb.
    repeat constructor; cbn [fst]; nia.
  Qed.

  (** ** The invariant *)
  Definition req := (nat * rrequest)%type.
  Definition req_job (x : req) : job := JDma (fst x) (snd x).
  Definition req_word (x : req) : Z :=
    pack_rreq c (opid (fst x)) (fst (fst (snd x))) (snd (fst (snd x))) (snd (snd x)).
  Definition legal_rq (x : req) : Prop :=
    (fst x < nops c)%nat /\ 0 <= fst (fst (snd x)) < 2 ^ g_aw c /\ 0 <= snd (fst (snd x)) < 2 ^ g_aw c /\
    1 <= snd (snd x) < 2 ^ lw c.
  Variable m0 : nat -> Z -> Z.
  Notation M k js wss := (ram_after c k js wss (m0 k)).

  Inductive phase (s : st) (js : list job) (ws : list word) (res : list word) : Prop :=
  | P_idle (wss : list (list word)) : Forall2 (own_words c) js wss -> ws = concat wss -> res = reads js wss ->
      all0 s -> s_busy s = false -> s_thr s = 0 \/ s_thr s = 1 ->
      (forall k, (k < nops c)%nat -> settles k (s_unit s k) (M k js wss)) -> phase s js ws res
  | P_read J (wss : list (list word)) : js = J ++ [JRead] -> Forall2 (own_words c) J wss -> ws = concat wss -> res = reads J wss ->
      all0 s -> s_busy s = true -> s_thr s = 2 ->
      (forall k, (k < nops c)%nat -> quiet (s_unit s k) (M k J wss)) -> phase s js ws res
  | P_dma J (wss : list (list word)) k q cur x : js = J ++ [JDma k q] -> Forall2 (own_words c) J wss -> ws = concat wss ++ cur -> res = reads J wss ->
      active s k x -> legal_req (lw c) q ->
      (forall j, (j < nops c)%nat -> j <> k -> quiet (s_unit s j) (M j J wss)) ->
      (if x =? 1 then cur = [] /\ q = (s_addr s, s_stride s, s_size s) /\ quiet (s_unit s k) (M k J wss)
       else busy (R k) (W k) (A k) (proj s k) (M k J wss) q (map fst cur)) ->
      phase s js ws res.

  Record inv (s : st) (D : list job) (P : list req) (ws res : list word) : Prop := mkInv {
    v_q : Inv (2 ^ g_fa c) (s_q s) (map req_word P);
    v_legal : Forall legal_rq P;
    v_wok : forall k, (k < nops c)%nat -> wok s k;
    v_ph : phase s D ws res }.

  Lemma combine_snoc {X Y} (a : list X) : forall (b : list Y) x y, length a = length b ->
    combine (a ++ [x]) (b ++ [y]) = combine a b ++ [(x, y)].
  Proof using.
    induction a as [|z a IH]; intros [|t b] x y H; try discriminate; [reflexivity|]. cbn. f_equal. apply IH. injection H. auto.
  Qed.
  Lemma own_len J wss : Forall2 (own_words c) J wss -> length J = length wss.
  Proof using. intros H. induction H; cbn; congruence. Qed.
  Lemma reads_snoc J wss j w : length J = length wss ->
    reads (J ++ [j]) (wss ++ [w]) = reads J wss ++ match j with JRead => w | JDma _ _ => [] end.
  Proof using.
    intros H. unfold reads. rewrite combine_snoc by exact H. rewrite flat_map_app. cbn [flat_map fst snd].
    rewrite app_nil_r. reflexivity.
  Qed.
  Lemma mine_snoc k J wss j w : length J = length wss ->
    mine k (J ++ [j]) (wss ++ [w]) = mine k J wss ++ match j with JDma k' q => if Nat.eqb k' k then [(q, map fst w)] else [] | JRead => [] end.
  Proof using.
    intros H. unfold mine. rewrite combine_snoc by exact H. rewrite flat_map_app. cbn [flat_map fst snd].
    rewrite app_nil_r. reflexivity.
  Qed.
  Lemma ram_other k J wss j w m : length J = length wss -> (match j with JDma k' _ => k' <> k | JRead => True end) ->
    ram_after c k (J ++ [j]) (wss ++ [w]) m = ram_after c k J wss m.
  Proof using.
    intros H Hj. unfold ram_after. rewrite mine_snoc by exact H. destruct j as [|k' q]; [rewrite app_nil_r; reflexivity|].
    apply Nat.eqb_neq in Hj. rewrite Hj, app_nil_r. reflexivity.
  Qed.
  Lemma ram_own k J wss q w m : length J = length wss ->
    ram_after c k (J ++ [JDma k q]) (wss ++ [w]) m =
    store_words (A k) (fst (fst q)) (snd (fst q)) 0 (ram_words (R k) (W k) (map fst w) (nwords q)) (ram_after c k J wss m).
  Proof using.
    intros H. unfold ram_after. rewrite mine_snoc by exact H. rewrite Nat.eqb_refl, !map_app. cbn [map fst snd].
    rewrite image_snoc by (rewrite !map_length; reflexivity). reflexivity.
  Qed.

  (** ** The queue *)
  Definition acc (s : st) (i : inp) : list req :=
    match i_req i with Some (k, a, d, n) => if accepts c s then [(k, (a, d, n))] else [] | None => [] end.
  Lemma issued_acc s i : issued c s i = (if (s_thr s =? 1) && idle s then [JRead] else []) ++ map req_job (acc s i).
  Proof using.
    unfold issued, acc. f_equal. destruct (i_req i) as [[[[k a] d] n]|]; [|reflexivity]. destruct (accepts c s); reflexivity.
  Qed.
  Lemma acc_legal s i : legal_in c i -> Forall legal_rq (acc s i).
  Proof using.
    intros [_ H]. unfold acc. destruct (i_req i) as [[[[k a] d] n]|]; [|constructor].
    destruct (accepts c s); constructor; [exact H|constructor].
  Qed.
  Lemma q_step s i P : Inv (2 ^ g_fa c) (s_q s) (map req_word P) ->
    (any c (dispatch c s) = true -> P <> []) ->
    Inv (2 ^ g_fa c) (s_q (step c s i)) (map req_word ((if any c (dispatch c s) then tl P else P) ++ acc s i)).
  Proof using Hc.
    intros HI HD. cbn [step s_q]. unfold q_in. set (dq := any c (dispatch c s)) in *.
    assert (Ed : deq_rtl (s_q s) dq = dq).
    { unfold deq_rtl, deq_ready. rewrite (empty_list (g_fa c) _ _ fa1 HI). destruct dq; [|reflexivity].
      destruct P; [exfalso; apply HD; reflexivity|reflexivity]. }
    rewrite Ed. rewrite map_app. replace (map req_word (if dq then tl P else P)) with (if dq then tl (map req_word P) else map req_word P)
      by (destruct dq; [destruct P; reflexivity|reflexivity]).
    assert (HD' : dq = true -> map req_word P <> []).
    { intros E. specialize (HD E). destruct P; [exfalso; apply HD; reflexivity|discriminate]. }
    assert (Hn : Inv (2 ^ g_fa c) (fifo_step false (g_fa c) (s_q s) (mkFifoIn false 0 dq)) ((if dq then tl (map req_word P) else map req_word P) ++ [])).
    { pose proof (fstep_list (g_fa c) _ _ false 0 dq fa1 HI HD') as X. exact X. }
    unfold acc. destruct (i_req i) as [[[[k a] d] n]|]; [|exact Hn].
    pose proof (fstep_list (g_fa c) _ _ (accepts c s) (pack_rreq c (opid k) a d n) dq fa1 HI HD') as X.
    unfold accepts in *. rewrite andb_diag in X. destruct (negb (p_almost_full (g_fa c) (s_q s))); exact X.
  Qed.

  Lemma unpack_req x : legal_rq x ->
    rq_op c (req_word x) = opid (fst x) /\ (rq_addr c (req_word x), rq_stride c (req_word x), rq_size c (req_word x)) = snd x.
  Proof using Hc.
    intros (X1 & X2 & X3 & X4). assert (X4' : 0 <= snd (snd x) < 2 ^ lw c) by (clear - X4; lia).
    assert (Hs : 1 <= g_sw c) by apply Hc.
    destruct (unpack_pack c (opid (fst x)) _ _ _ aw1 Hs (op_id _ X1) X2 X3 X4') as (E1 & E2 & E3 & E4).
    unfold req_word. split; [exact E1|]. rewrite E2, E3, E4. destruct x as [? [[? ?] ?]]. reflexivity.
  Qed.
  (** ** Idle: is a request dispatched? *)
  Lemma idle_dispatch s x P k : all0 s -> s_busy s = false -> Inv (2 ^ g_fa c) (s_q s) (map req_word (x :: P)) -> legal_rq x ->
    (k < nops c)%nat -> dispatch c s k = Nat.eqb k (fst x).
  Proof using Hc.
    intros H0 Hb HI Hx Hk. unfold dispatch, here. rewrite H0, Hb, (empty_list (g_fa c) _ _ fa1 HI). cbn [map Z.eqb negb andb].
    unfold head. rewrite (rdata_list (g_fa c) _ _ _ fa1 HI).
    destruct Hx as (X1 & X2 & X3 & X4).
    destruct (unpack_req x (conj X1 (conj X2 (conj X3 X4)))) as (E & _). rewrite E.
    destruct (Nat.eqb k (fst x)) eqn:En.
    - apply Nat.eqb_eq in En. subst. apply Z.eqb_refl.
    - apply Nat.eqb_neq in En. apply Z.eqb_neq. intros Y. apply En. symmetry. apply opid_inj. exact Y.
  Qed.
  Lemma empty_dispatch s k : Inv (2 ^ g_fa c) (s_q s) [] -> dispatch c s k = false.
  Proof using Hc. intros HI. unfold dispatch. rewrite (empty_list (g_fa c) _ _ fa1 HI). rewrite andb_false_r. cbn. apply andb_false_r. Qed.
  Lemma all0_here s k : all0 s -> here c s k 1 && sel s k = false.
  Proof using. intros H. unfold here. rewrite H. reflexivity. Qed.
  Lemma all0_ready s : all0 s -> tready c s = (s_thr s =? 2).
  Proof using.
    intros H. unfold tready. rewrite any_false; [reflexivity|]. intros k _. rewrite run_all0 by exact H.
    unfold here. rewrite H. destruct (R k); reflexivity.
  Qed.
  Lemma all0_fsm_step s i : all0 s -> (forall k, (k < nops c)%nat -> dispatch c s k = false) -> all0 (step c s i).
  Proof using.
    intros H D r. rewrite fsm_of_step. unfold fsm_step. rewrite H. cbn [Z.eqb]. rewrite any_false; [reflexivity|].
    intros k Hk. rewrite D by exact Hk. apply andb_false_r.
  Qed.

  Lemma active_ready s k x : active s k x -> tready c s = rd_ready (R k) (proj s k).
  Proof using.
    clear m0. intros H. unfold tready. destruct (ac_thr _ _ _ H) as [E|E]; rewrite E; cbn [Z.eqb Pos.eqb]; rewrite orb_false_r; clear E.
    all: rewrite (any_one c _ k).
    all: try apply (ac_k _ _ _ H).
    all: pose proof (active_sel s k x k H) as Es; rewrite Nat.eqb_refl in Es.
    all: unfold rd_ready, proj; cbn [x_fsm x_count]; rewrite ?Es, ?(ac_fsm _ _ _ H).
    1,3: unfold run, here; rewrite (ac_fsm _ _ _ H), Es; destruct (R k); cbn [andb orb]; destruct (x =? 2); cbn [andb orb]; rewrite ?orb_false_r; try reflexivity.
    all: intros j _ E; apply orb_prop in E.
    all: assert (Hx : x = 2) by (destruct E as [E|E];
      [apply andb_prop in E; destruct E as [E _]; destruct (ac_x _ _ _ H) as [->|X]; [|exact X];
       rewrite (run_not2 s k 1 j H) in E by lia; discriminate
      |destruct (R j); try discriminate; apply (active_here s k x j 2 H ltac:(lia)) in E; apply E]); subst x.
    all: rewrite (run_self s k H); cbn [andb]; unfold here; rewrite (ac_fsm _ _ _ H).
    all: destruct E as [E|E];
      [apply andb_prop in E; destruct E as [E1 E2]; destruct (run_active s k j H E1) as [[X Y]| -> ];
       [rewrite Y; reflexivity|rewrite E2; reflexivity]
      |destruct (R j) eqn:Ej; try discriminate; destruct (active_here s k 2 j 2 H ltac:(lia) E) as [X _]; rewrite Ej in X;
       destruct (R k); try discriminate; reflexivity].
  Qed.

  (** every word taken by the active operation is a beat of its data machine *)
  Lemma active_taken s i k x : active s k x -> map fst (taken c s i) = rd_beat (R k) (proj s k) (beat_in i) /\ result s i = [].
  Proof using.
    intros H. unfold taken, rd_beat. rewrite (active_ready s k x H). cbn [beat_in xi_valid xi_data]. split.
    - destruct (_ && _); reflexivity.
    - unfold result. destruct (ac_thr _ _ _ H) as [E|E]; rewrite E; reflexivity.
  Qed.
  Lemma in_range_k i k : (k < nops c)%nat -> legal_in c i -> in_range (R k) (W k) (beat_in i).
  Proof using Hc.
    intros Hk [H _]. unfold in_range. destruct (op_ok k Hk) as (_ & _ & X). destruct (R k); auto. cbn. destruct X as [_ ->]. exact H.
  Qed.

  (** data state 1 starts the burst *)
  Lemma start_busy s i k m : active s k 1 -> wok s k -> legal_req (lw c) (s_addr s, s_stride s, s_size s) -> quiet (s_unit s k) m ->
    legal_in c i ->
    busy (R k) (W k) (A k) (proj (step c s i) k) m (s_addr s, s_stride s, s_size s) [] /\ x_fsm (proj (step c s i) k) = 2.
  Proof using Hc.
    intros H Hwo Hl [Q1 Q2] Hi. pose proof (ac_k _ _ _ H) as Hk.
    assert (Ef : x_fsm (proj s k) = 1).
    { unfold proj. cbn [x_fsm]. rewrite (active_sel s k 1 k H), Nat.eqb_refl. apply (ac_fsm _ _ _ H). }
    assert (HI : rinv (R k) (W k) (A k) (lw c) m (proj s k) [(s_addr s, s_stride s, s_size s)] []).
    { split.
      - unfold wrange, packz. unfold wok in Hwo. destruct (R k); exact Hwo || exact I.
      - exists [], []. split; [constructor|]. rewrite Ef. cbn [Z.eqb Pos.eqb].
        exists (s_addr s, s_stride s, s_size s). split; [reflexivity|]. split; [exact Hl|]. split; [reflexivity|]. split; [reflexivity|].
        split; [exact Q1|exact Q2]. }
    destruct (active_step s i k 1 H) as [E _]. rewrite E.
    pose proof (rinv_step (R k) (W k) (A k) (lw c) (op_raw k Hk) (op_w k Hk) (op_r k Hk) m (proj s k) (beat_in i) _ _ HI (in_range_k i k Hk Hi)) as X.
    assert (Et : rd_taken (proj s k) (beat_in i) = []) by (unfold rd_taken; rewrite Ef; reflexivity).
    assert (Eb : rd_beat (R k) (proj s k) (beat_in i) = []) by (unfold rd_beat, rd_ready; rewrite Ef; reflexivity).
    rewrite Et, Eb in X. specialize (X ltac:(constructor)). cbn [app] in X.
    assert (E2 : x_fsm (rd_step (R k) (W k) (A k) (lw c) (proj s k) (beat_in i)) = 2) by (unfold rd_step; rewrite Ef; reflexivity).
    destruct X as (_ & done & bss & F & X). rewrite E2 in X. cbn [Z.eqb Pos.eqb] in X.
    destruct X as (q & Eq & _ & _ & cur & Ec & B). destruct done as [|d done].
    - inversion F; subst bss. cbn [app] in Eq. injection Eq as <-. cbn [concat app] in Ec. subst cur. split; [exact B|exact E2].
    - exfalso. destruct done; discriminate.
  Qed.

  Lemma quiet_step s i k m : here c s k 1 && sel s k = false -> quiet (s_unit s k) m -> quiet (s_unit (step c s i) k) m.
  Proof using. intros E H. apply settles_step; [exact E|apply quiet_settles, H]. Qed.

  Definition nextP (s : st) (i : inp) (P : list req) : list req := (if any c (dispatch c s) then tl P else P) ++ acc s i.
  Theorem inv_step s i D P ws res : inv s D P ws res -> legal_in c i ->
    exists D', inv (step c s i) D' (nextP s i P) (ws ++ taken c s i) (res ++ result s i) /\
      D' ++ map req_job (nextP s i P) = D ++ map req_job P ++ issued c s i.
  Proof using Hc.
    intros [HQ HL HW HP] Hi. rewrite issued_acc. unfold nextP.
    assert (HW' : forall k, (k < nops c)%nat -> wok (step c s i) k) by (intros k Hk; apply wok_step; auto).
    destruct HP as [wss HF -> -> H0 Hb Ht Hu | J wss -> HF -> -> H0 Hb Ht Hu | J wss k q cur x -> HF -> -> Ha Hq Ho Hx].
    - (* idle *)
      assert (Et2 : s_thr s =? 2 = false) by (destruct Ht as [E|E]; rewrite E; reflexivity).
      assert (Etk : taken c s i = []) by (unfold taken; rewrite (all0_ready s H0), Et2; reflexivity).
      assert (Ers : result s i = []) by (unfold result; rewrite Et2; reflexivity).
      rewrite Etk, Ers, !app_nil_r.
      assert (Hqu : forall k, (k < nops c)%nat -> quiet (s_unit (step c s i) k) (M k D wss)).
      { intros k Hk. apply settles_step; [apply all0_here, H0|apply Hu, Hk]. }
      destruct (nofin s i (fun j => run_all0 s j H0) Same) as (Nd & Nf & _).
      destruct P as [|x P].
      + (* nothing queued *)
        cbn [map] in HQ. assert (Hd : forall k, (k < nops c)%nat -> dispatch c s k = false) by (intros; apply empty_dispatch, HQ).
        assert (Ed : any c (dispatch c s) = false) by (apply any_false, Hd).
        assert (Ei : idle s = true) by (unfold idle; rewrite (empty_list (g_fa c) _ _ fa1 HQ), Hb; reflexivity).
        pose proof (q_step s i [] HQ ltac:(rewrite Ed; discriminate)) as HQ'. rewrite Ed in HQ'. cbn [app] in HQ'.
        rewrite Ei, andb_true_r. pose proof (acc_legal s i Hi) as HL'.
        assert (H0' : all0 (step c s i)) by (apply all0_fsm_step; assumption).
        destruct Ht as [Ht|Ht]; rewrite Ht; cbn [Z.eqb Pos.eqb app].
        * exists D. rewrite Ed. cbn [app]. split; [|reflexivity]. constructor; auto.
          apply (P_idle _ _ _ _ wss); auto.
          -- cbn [step s_busy]. rewrite Nf, Ed, Ht. cbn. exact Hb.
          -- cbn [step s_thr]. unfold thr_step. rewrite Ht. cbn [Z.eqb]. destruct (i_read i); auto.
          -- intros k Hk. apply quiet_settles, Hqu, Hk.
        * exists (D ++ [JRead]). rewrite Ed. cbn [app]. split; [|rewrite <- app_assoc; reflexivity]. constructor; auto.
          apply (P_read _ _ _ _ D wss); auto.
          -- cbn [step s_busy]. rewrite Nf, Ed, Ht, Ei. reflexivity.
          -- cbn [step s_thr]. unfold thr_step. rewrite Ht, Ei. reflexivity.
      + (* a request is dispatched *)
        pose proof (Forall_inv HL) as Hx. pose proof (Forall_inv_tail HL) as HL2.
        pose proof (fun k => idle_dispatch s x P k H0 Hb HQ Hx) as Hd.
        assert (Ed : any c (dispatch c s) = true).
        { apply (any_intro c _ (fst x)); [apply Hx|]. rewrite Hd by apply Hx. apply Nat.eqb_refl. }
        assert (Ei : idle s = false) by (unfold idle; rewrite (empty_list (g_fa c) _ _ fa1 HQ); reflexivity).
        pose proof (q_step s i (x :: P) HQ ltac:(discriminate)) as HQ'. rewrite Ed in HQ'. cbn [tl] in HQ'.
        rewrite Ei, andb_false_r. cbn [app]. exists (D ++ [req_job x]). rewrite Ed. cbn [tl].
        split; [|rewrite <- app_assoc, map_app; reflexivity].
        destruct (unpack_req x Hx) as [U1 U2]. assert (Eh : head s = req_word x) by (unfold head; apply (rdata_list (g_fa c) _ _ _ fa1 HQ)).
        constructor; auto.
        * apply Forall_app. split; [exact HL2|]. apply acc_legal, Hi.
        * apply (P_dma _ _ _ _ D wss (fst x) (snd x) [] 1); auto.
          -- rewrite app_nil_r. reflexivity.
          -- constructor; auto.
             ++ apply Hx.
             ++ cbn [step s_sel]. rewrite Ed, Eh. exact U1.
             ++ rewrite fsm_of_step. unfold fsm_step. rewrite H0. cbn [Z.eqb].
                rewrite (any_intro c _ (fst x)); [reflexivity|apply Hx|]. rewrite Hd by apply Hx. rewrite class_refl, Nat.eqb_refl. reflexivity.
             ++ intros r Hr. rewrite fsm_of_step. unfold fsm_step. rewrite H0. cbn [Z.eqb]. rewrite any_false; [reflexivity|].
                intros j Hj. rewrite Hd by exact Hj. destruct (Nat.eqb j (fst x)) eqn:E; [|apply andb_false_r].
                apply Nat.eqb_eq in E. subst j. rewrite Hr. reflexivity.
             ++ cbn [step s_busy]. rewrite Nf, Ed, Et2. reflexivity.
             ++ cbn [step s_thr]. unfold thr_step. rewrite Ei. destruct Ht as [E|E]; rewrite E; cbn [Z.eqb Pos.eqb]; [destruct (i_read i); auto|auto].
          -- apply Hx.
          -- cbn [Z.eqb Pos.eqb]. split; [reflexivity|]. split; [|apply Hqu, Hx].
             cbn [step s_addr s_stride s_size]. rewrite Ed, Eh. symmetry. exact U2.
    - (* a thread reads *)
      pose proof (busy_no s Hb) as Ed. pose proof (idle_busy s Hb) as Ei.
      pose proof (q_step s i P HQ ltac:(rewrite Ed; discriminate)) as HQ'. rewrite Ed in HQ'.
      rewrite Ei, andb_false_r. cbn [app].
      exists (J ++ [JRead]). rewrite Ed. split; [|rewrite map_app; reflexivity].
      destruct (nofin s i (fun j => run_all0 s j H0) Same) as (Nd & Nf & _).
      assert (H0' : all0 (step c s i)) by (apply all0_fsm_step; [exact H0|intros; apply busy_dispatch, Hb]).
      assert (Hqu : forall k, (k < nops c)%nat -> quiet (s_unit (step c s i) k) (M k J wss)).
      { intros k Hk. apply quiet_step; [apply all0_here, H0|apply Hu, Hk]. }
      assert (Etk : taken c s i = result s i) by (unfold taken, result; rewrite (all0_ready s H0); reflexivity).
      rewrite Etk. pose proof (own_len J wss HF) as Hlen.
      constructor; auto; [apply Forall_app; split; [exact HL|apply acc_legal, Hi]|].
      unfold result. rewrite Ht. cbn [Z.eqb Pos.eqb andb]. destruct (i_valid i) eqn:Ev.
      + apply (P_idle _ _ _ _ (wss ++ [[(i_data i, i_last i)]])); auto.
        * apply Forall2_app; [exact HF|]. constructor; [reflexivity|constructor].
        * rewrite concat_app. reflexivity.
        * rewrite reads_snoc by exact Hlen. reflexivity.
        * cbn [step s_busy]. rewrite Nf, Ht, Ev. reflexivity.
        * cbn [step s_thr]. unfold thr_step. rewrite Ht, Ev. auto.
        * intros k Hk. apply quiet_settles. rewrite ram_other by (exact Hlen || exact I). apply Hqu, Hk.
      + rewrite !app_nil_r. apply (P_read _ _ _ _ J wss); auto.
        * cbn [step s_busy]. rewrite Nf, Ht, Ev, Ed, Ei. exact Hb.
        * cbn [step s_thr]. unfold thr_step. rewrite Ht, Ev. reflexivity.
    - (* a transfer *)
      pose proof (ac_busy _ _ _ Ha) as Hb. pose proof (ac_k _ _ _ Ha) as Hk.
      pose proof (busy_no s Hb) as Ed. pose proof (idle_busy s Hb) as Ei.
      pose proof (q_step s i P HQ ltac:(rewrite Ed; discriminate)) as HQ'. rewrite Ed in HQ'.
      rewrite Ei, andb_false_r. cbn [app].
      exists (J ++ [JDma k q]). rewrite Ed. split; [|rewrite map_app; reflexivity].
      pose proof (own_len J wss HF) as Hlen.
      destruct (active_taken s i k x Ha) as [Etk Ers]. rewrite Ers, app_nil_r.
      assert (Hqu : forall j, (j < nops c)%nat -> j <> k -> quiet (s_unit (step c s i) j) (M j J wss)).
      { intros j Hj Hn. apply quiet_step; [|apply Ho; assumption]. rewrite (active_sel s k x j Ha).
        apply Nat.eqb_neq in Hn. rewrite Hn. apply andb_false_r. }
      constructor; auto; [apply Forall_app; split; [exact HL|apply acc_legal, Hi]|].
      destruct (active_step s i k x Ha) as [Ep Hn].
      destruct (x =? 1) eqn:Ex.
      + apply Z.eqb_eq in Ex. subst x. destruct Hx as (-> & -> & Hqk).
        destruct (start_busy s i k _ Ha (HW k Hk) Hq Hqk Hi) as [B F2].
        assert (E0 : taken c s i = []).
        { apply map_eq_nil with (f := fst). rewrite Etk. unfold rd_beat, rd_ready, proj. cbn [x_fsm].
          rewrite (active_sel s k 1 k Ha), Nat.eqb_refl, (ac_fsm _ _ _ Ha). reflexivity. }
        rewrite E0, !app_nil_r. apply (P_dma _ _ _ _ J wss k (s_addr s, s_stride s, s_size s) [] 2); auto.
        * rewrite app_nil_r. reflexivity.
        * cbv zeta in Hn. rewrite F2 in Hn. destruct Hn as [[_ Hn]|[Hn _]]; [exact Hn|discriminate].
      + destruct (ac_x _ _ _ Ha) as [->| ->]; [discriminate|]. 
        assert (F2 : x_fsm (proj s k) = 2).
        { unfold proj. cbn [x_fsm]. rewrite (active_sel s k 2 k Ha), Nat.eqb_refl. apply (ac_fsm _ _ _ Ha). }
        pose proof (busy_step (R k) (W k) (A k) (lw c) (op_raw k Hk) (op_w k Hk) (op_r k Hk) (proj s k) (beat_in i) _ q _ Hq F2 (in_range_k i k Hk Hi) Hx) as X.
        cbv zeta in X. rewrite <- Ep, <- Etk, <- map_app in X. cbv zeta in Hn.
        destruct X as [[X1 X2]|(X1 & X2 & X3)]; rewrite X1 in Hn.
        * destruct Hn as [[_ Hn]|[Hn _]]; [|discriminate].
          apply (P_dma _ _ _ _ J wss k q (cur ++ taken c s i) 2); auto. rewrite app_assoc. reflexivity.
        * destruct Hn as [[Hn _]|(_ & N1 & N2 & N3)]; [congruence|].
          apply (P_idle _ _ _ _ (wss ++ [cur ++ taken c s i])); auto.
          -- apply Forall2_app; [exact HF|]. constructor; [|constructor]. unfold own_words, job_words. unfold own_beats in X3.
             rewrite map_length in X3. exact X3.
          -- rewrite concat_app. cbn [concat]. rewrite app_nil_r, app_assoc. reflexivity.
          -- rewrite reads_snoc by exact Hlen. rewrite app_nil_r. reflexivity.
          -- intros j Hj. destruct (Nat.eq_dec j k) as [->|Hne].
             ++ rewrite ram_own by exact Hlen. apply settled_settles; [right; apply N1|exact X2].
             ++ rewrite ram_other by (exact Hlen || (intros E; apply Hne; symmetry; exact E)). apply quiet_settles, Hqu; assumption.
  Qed.

  Variable fm : Z -> Z.
  Lemma inv_init : inv (init m0 fm) [] [] [] [].
  Proof using Hc.
    constructor.
    - apply init_inv, fa1.
    - constructor.
    - intros k Hk. unfold wok. pose proof (op_w k Hk) as Hw. destruct (R k); auto. cbn [init s_unit u_wdata]. split; [lia|]. apply Z.pow_pos_nonneg; nia.
    - apply (P_idle _ _ _ _ []); auto.
      + intros r. destruct r; reflexivity.
      + intros k Hk. apply quiet_settles. split; reflexivity.
  Qed.
  Lemma inv_run ins : forall s D P ws res, inv s D P ws res -> Forall (legal_in c) ins ->
    exists D' P', inv (run_ c s ins) D' P' (ws ++ words c s ins) (res ++ results c s ins) /\
      D' ++ map req_job P' = D ++ map req_job P ++ jobs c s ins.
  Proof using Hc.
    induction ins as [|i ins IH]; intros s D P ws res HI HL.
    - exists D, P. unfold words, results, jobs. cbn. rewrite !app_nil_r. split; [exact HI|reflexivity].
    - destruct (inv_step s i D P ws res HI (Forall_inv HL)) as (D1 & HI1 & E1).
      destruct (IH (step c s i) D1 (nextP s i P) _ _ HI1 (Forall_inv_tail HL)) as (D' & P' & HI' & E').
      exists D', P'. unfold words, results, jobs, run_, final in *. cbn [outs concat fold_left]. rewrite !app_assoc. split; [exact HI'|].
      rewrite E'. rewrite app_assoc, E1, <- !app_assoc. reflexivity.
  Qed.
  Lemma reached ins : Forall (legal_in c) ins ->
    exists D P, inv (run_ c (init m0 fm) ins) D P (words c (init m0 fm) ins) (results c (init m0 fm) ins) /\
      jobs c (init m0 fm) ins = D ++ map req_job P.
  Proof using Hc. intros H. destruct (inv_run ins _ [] [] [] [] inv_init H) as (D & P & A1 & A2). exists D, P. split; [exact A1|symmetry; exact A2]. Qed.

  Lemma inv_idle s D P ws res : inv s D P ws res -> idle s = true -> P = [] /\
    exists wss, Forall2 (own_words c) D wss /\ ws = concat wss /\ res = reads D wss /\ all0 s /\
      (forall k, (k < nops c)%nat -> settles k (s_unit s k) (M k D wss)).
  Proof using Hc.
    intros [HQ HL HW HP] Hi. unfold idle in Hi. rewrite (empty_list (g_fa c) _ _ fa1 HQ) in Hi. split; [destruct P; [reflexivity|discriminate]|].
    destruct (map req_word P); [|discriminate]. cbn [andb] in Hi.
    destruct HP as [wss HF -> -> H0 Hb Ht Hu | J wss -> HF -> -> H0 Hb Ht Hu | J wss k q cur x -> HF -> -> Ha Hq Ho Hx].
    - exists wss. auto.
    - rewrite Hb in Hi. discriminate.
    - rewrite (ac_busy _ _ _ Ha) in Hi. discriminate.
  Qed.
  Theorem idle_done ins : Forall (legal_in c) ins ->
    let s := run_ c (init m0 fm) ins in let js := jobs c (init m0 fm) ins in
    idle s = true ->
    exists wss, Forall2 (own_words c) js wss /\ words c (init m0 fm) ins = concat wss /\ results c (init m0 fm) ins = reads js wss /\
      forall k i, (k < nops c)%nat -> wb_mem (u_wb (s_unit (step c s i) k)) = M k js wss.
  Proof using Hc.
    intros H s js Hid. destruct (reached ins H) as (D & P & HI & E). fold s in HI. fold js in E.
    destruct (inv_idle s D P _ _ HI Hid) as (-> & wss & F & E1 & E2 & H0 & Hs).
    cbn [map] in E. rewrite app_nil_r in E. subst D. exists wss. repeat (split; [assumption|]).
    intros k i Hk. apply (settles_step s i k); [apply all0_here, H0|apply Hs, Hk].
  Qed.

  (** ** While a transfer runs it never takes more than its own words *)
  Lemma busy_len r w aw s m q bs : match r with Same => True | Narrow lp | Wide lp => 0 < lp end ->
    busy r w aw s m q bs -> (length bs <= bus_words r (nwords q))%nat.
  Proof using.
    clear. intros Hr (k & ws & _ & _ & Hk & _ & Hsh). pose proof (pack_P r Hr) as HP. unfold shape in Hsh. unfold bus_words.
    destruct r as [|lp|lp].
    - lia.
    - destruct Hsh as (S1 & S2 & _). unfold packz in *. nia.
    - destruct Hsh as (S1 & S2 & _). destruct HP as [HP1 HP2]. pose proof (Z.mod_pos_bound (Z.of_nat k) (packz (Wide lp)) ltac:(lia)) as Hm.
      assert (Hlen : (length bs * pack (Wide lp) <= nwords q + pack (Wide lp) - 1)%nat).
      { assert (Z.of_nat (length bs) * packz (Wide lp) < Z.of_nat (nwords q) + packz (Wide lp)) by (destruct (x_count s =? 0); lia).
        clear - H HP2. unfold packz in *. nia. }
      apply Nat.div_le_lower_bound; [clear - HP2; unfold packz in *; lia|]. rewrite Nat.mul_comm. exact Hlen.
  Qed.
  Theorem always ins : Forall (legal_in c) ins ->
    exists D rest wss cur, jobs c (init m0 fm) ins = D ++ rest /\ Forall2 (own_words c) D wss /\
      words c (init m0 fm) ins = concat wss ++ cur /\ results c (init m0 fm) ins = reads D wss /\
      match rest with [] => cur = [] | j :: _ => (length cur <= job_words c j)%nat end.
  Proof using Hc.
    intros H. destruct (reached ins H) as (D & P & [HQ HL HW HP] & E). rewrite E.
    destruct HP as [wss HF -> -> H0 Hb Ht Hu | J wss -> HF -> -> H0 Hb Ht Hu | J wss k q cur x -> HF -> -> Ha Hq Ho Hx].
    - exists D, (map req_job P), wss, []. rewrite app_nil_r. repeat (split; [auto|]). destruct P; cbn; [reflexivity|lia].
    - exists J, (JRead :: map req_job P), wss, []. rewrite app_nil_r, <- app_assoc. repeat (split; [auto|]). cbn. lia.
    - exists J, (JDma k q :: map req_job P), wss, cur. rewrite <- app_assoc. repeat (split; [auto|]). cbn [job_words].
      destruct (x =? 1); [destruct Hx as (-> & _); cbn; lia|].
      pose proof (busy_len _ _ _ _ _ _ _ (op_r k (ac_k _ _ _ Ha)) Hx) as X. rewrite map_length in X. exact X.
  Qed.

  (** ** Progress *)
  Definition rate (k : nat) : Z := match R k with Narrow _ => Z.of_nat (pack (R k)) | _ => 1 end.
  Definition act (s : st) : Z :=
    let k := Z.to_nat (s_sel s - 1) in if x_fsm (proj s k) =? 0 then 0 else rmeasure (R k) (proj s k).
  Definition waiting (s : st) : Z := if s_thr s =? 1 then 2 else if s_thr s =? 2 then 1 else 0.
  Definition due (P : list req) : Z := fold_right (fun x t => job_cost c (req_job x) + t) 0 P.
  Definition mu (s : st) (P : list req) : Z := due P + waiting s + act s.

  Lemma act_active s k x : active s k x -> act s = rmeasure (R k) (proj s k) /\ x_fsm (proj s k) = x.
  Proof using.
    clear m0 fm. intros H. unfold act. rewrite (ac_sel _ _ _ H). replace (Z.to_nat (opid k - 1)) with k by (unfold opid; lia).
    assert (E : x_fsm (proj s k) = x).
    { unfold proj. cbn [x_fsm]. rewrite (active_sel s k x k H), Nat.eqb_refl. apply (ac_fsm _ _ _ H). }
    rewrite E. destruct (ac_x _ _ _ H) as [->| ->]; auto.
  Qed.
  Lemma act_all0 s : all0 s -> act s = 0.
  Proof using. intros H. unfold act, proj. cbn [x_fsm]. rewrite H. destruct (sel s _); reflexivity. Qed.
  Lemma legal_cost x : legal_rq x -> 1 <= job_cost c (req_job x).
  Proof using.
    clear m0 fm. intros (_ & _ & _ & H). unfold job_cost, req_job. assert (0 <= match R (fst x) with Narrow _ => Z.of_nat (pack (R (fst x))) | _ => 1 end) by (destruct (R (fst x)); lia).
    nia.
  Qed.
  Lemma due_nonneg P : Forall legal_rq P -> 0 <= due P.
  Proof using.
    clear m0 fm. induction 1 as [|x P H _ IH]; [cbn; lia|]. change (due (x :: P)) with (job_cost c (req_job x) + due P).
    pose proof (legal_cost x H). lia.
  Qed.
  (** a transfer in progress, as the data machine's invariant *)
  Lemma dma_rinv s k x q cur m : active s k x -> wok s k -> legal_req (lw c) q ->
    (if x =? 1 then cur = [] /\ q = (s_addr s, s_stride s, s_size s) /\ quiet (s_unit s k) m
     else busy (R k) (W k) (A k) (proj s k) m q cur) ->
    rinv (R k) (W k) (A k) (lw c) m (proj s k) [q] cur /\
    1 <= rmeasure (R k) (proj s k) <= job_cost c (JDma k q) - 1.
  Proof using Hc.
    clear m0 fm. intros Ha Hwo Hl H. destruct (act_active s k x Ha) as [_ E]. pose proof (op_r k (ac_k _ _ _ Ha)) as Hr.
    pose proof (pack_P (R k) Hr) as HP. split.
    - split.
      + unfold wrange, packz. unfold wok in Hwo. destruct (R k); exact Hwo || exact I.
      + exists [], []. split; [constructor|]. rewrite E. destruct (ac_x _ _ _ Ha) as [->| ->]; cbn [Z.eqb Pos.eqb] in H |- *.
        * destruct H as (-> & -> & Q1 & Q2). exists (s_addr s, s_stride s, s_size s). repeat (split; [reflexivity|assumption] || split; auto).
        * exists q. split; [reflexivity|]. split; [exact Hl|]. split; [reflexivity|]. exists cur. split; [reflexivity|exact H].
    - unfold rmeasure. rewrite E. unfold legal_req in Hl. unfold job_cost. destruct (ac_x _ _ _ Ha) as [->| ->]; cbn [Z.eqb Pos.eqb] in H |- *.
      + destruct H as (_ & -> & _). cbn [snd] in *. unfold proj. cbn [x_size]. destruct (R k) eqn:Er; fold (packz (R k)); rewrite ?Er; [lia| |lia].
        unfold packz in *. destruct HP. nia.
      + destruct H as (j & ws & _ & _ & Hj & Hsz & Hsh). unfold nwords in Hj. unfold left_words, shape in *. destruct (R k) as [|lp|lp] eqn:Er.
        * lia.
        * destruct Hsh as (_ & S2 & _). destruct HP. unfold packz in *. nia.
        * lia.
  Qed.
  Lemma mu_step s i D P ws res : inv s D P ws res -> legal_in c i -> quiet_in i ->
    mu (step c s i) (nextP s i P) <= Z.max 0 (mu s P - b2z (i_valid i)).
  Proof using Hc.
    clear fm. intros [HQ HL HW HP] Hi [Hn1 Hn2]. unfold nextP. assert (Ea : acc s i = []) by (unfold acc; rewrite Hn1; reflexivity). rewrite Ea, app_nil_r.
    pose proof (due_nonneg P HL) as Hdue. assert (Hv : 0 <= b2z (i_valid i) <= 1) by (destruct (i_valid i); cbn; lia).
    destruct HP as [wss HF -> -> H0 Hb Ht Hu | J wss -> HF -> -> H0 Hb Ht Hu | J wss k q cur x -> HF -> -> Ha Hq Ho Hx].
    - destruct P as [|x P].
      + assert (Hd : forall k, (k < nops c)%nat -> dispatch c s k = false) by (intros; apply empty_dispatch, HQ).
        assert (Ed : any c (dispatch c s) = false) by (apply any_false, Hd). rewrite Ed.
        assert (Ei : idle s = true) by (unfold idle; rewrite (empty_list (g_fa c) _ _ fa1 HQ), Hb; reflexivity).
        unfold mu. rewrite (act_all0 _ H0), (act_all0 (step c s i)) by (apply all0_fsm_step; assumption).
        unfold waiting. cbn [step s_thr]. unfold thr_step. rewrite Ei, Hn2. destruct Ht as [E|E]; rewrite E; cbn [Z.eqb Pos.eqb due fold_right]; lia.
      + pose proof (Forall_inv HL) as Hx. pose proof (fun k => idle_dispatch s x P k H0 Hb HQ Hx) as Hd.
        assert (Ed : any c (dispatch c s) = true).
        { apply (any_intro c _ (fst x)); [apply Hx|]. rewrite Hd by apply Hx. apply Nat.eqb_refl. }
        rewrite Ed. cbn [tl].
        assert (Ei : idle s = false) by (unfold idle; rewrite (empty_list (g_fa c) _ _ fa1 HQ); reflexivity).
        destruct (unpack_req x Hx) as [U1 U2]. assert (Eh : head s = req_word x) by (unfold head; apply (rdata_list (g_fa c) _ _ _ fa1 HQ)).
        assert (Ew : waiting (step c s i) = waiting s).
        { unfold waiting. cbn [step s_thr]. unfold thr_step. rewrite Ei, Hn2. destruct Ht as [E|E]; rewrite E; reflexivity. }
        assert (Eact : act (step c s i) = rmeasure (R (fst x)) (proj (step c s i) (fst x)) /\ x_fsm (proj (step c s i) (fst x)) = 1 /\ x_size (proj (step c s i) (fst x)) = snd (snd x)).
        { unfold act. assert (Es : s_sel (step c s i) = opid (fst x)) by (cbn [step s_sel]; rewrite Ed, Eh; exact U1).
          rewrite Es. replace (Z.to_nat (opid (fst x) - 1)) with (fst x) by (unfold opid; lia).
          assert (Ef : x_fsm (proj (step c s i) (fst x)) = 1).
          { unfold proj. cbn [x_fsm]. unfold sel. rewrite Es, Z.eqb_refl. rewrite fsm_of_step. unfold fsm_step. rewrite H0. cbn [Z.eqb].
            rewrite (any_intro c _ (fst x)); [reflexivity|apply Hx|]. rewrite Hd by apply Hx. rewrite class_refl, Nat.eqb_refl. reflexivity. }
          rewrite Ef. cbn [Z.eqb]. split; [reflexivity|]. split; [reflexivity|]. unfold proj. cbn [x_size step s_size]. rewrite Ed, Eh.
          rewrite <- U2. reflexivity. }
        destruct Eact as (Eact & Ef & Esz). unfold mu. rewrite Eact, Ew, (act_all0 s H0). unfold rmeasure. rewrite Ef, Esz. cbn [Z.eqb Pos.eqb].
        change (due (x :: P)) with (job_cost c (req_job x) + due P) in *. unfold job_cost, req_job. fold (packz (R (fst x))).
        destruct (R (fst x)); lia.
    - pose proof (busy_no s Hb) as Ed. rewrite Ed. pose proof (idle_busy s Hb) as Ei.
      unfold mu. rewrite (act_all0 _ H0), (act_all0 (step c s i)) by (apply all0_fsm_step; [exact H0|intros; apply busy_dispatch, Hb]).
      unfold waiting. cbn [step s_thr]. unfold thr_step. rewrite Ht. cbn [Z.eqb Pos.eqb]. destruct (i_valid i); cbn [Z.eqb Pos.eqb b2z]; lia.
    - pose proof (ac_busy _ _ _ Ha) as Hb. pose proof (ac_k _ _ _ Ha) as Hk.
      pose proof (busy_no s Hb) as Ed. rewrite Ed. pose proof (idle_busy s Hb) as Ei.
      assert (Ew : waiting (step c s i) = waiting s).
      { unfold waiting. cbn [step s_thr]. unfold thr_step. rewrite Ei, Hn2. destruct (ac_thr _ _ _ Ha) as [E|E]; rewrite E; reflexivity. }
      assert (Hw : 0 <= waiting s) by (unfold waiting; destruct (s_thr s =? 1), (s_thr s =? 2); lia).
      destruct (dma_rinv s k x q (map fst cur) (M k J wss) Ha (HW k Hk) Hq) as [HI Hm].
      { destruct (x =? 1); [|exact Hx]. destruct Hx as (-> & X). split; [reflexivity|exact X]. }
      pose proof (rmeasure_step (R k) (W k) (A k) (lw c) (op_raw k Hk) (op_w k Hk) (op_r k Hk) _ (proj s k) (beat_in i) _ _ HI (in_range_k i k Hk Hi) eq_refl) as Hs.
      destruct (act_active s k x Ha) as [Eact _]. destruct (active_step s i k x Ha) as [Ep Hn]. cbv zeta in Hn.
      rewrite <- Ep in Hs. cbn [beat_in xi_valid] in Hs. unfold mu. rewrite Ew, Eact.
      destruct Hn as [[_ Hn]|(_ & N1 & _)].
      + destruct (act_active _ k _ Hn) as [-> _]. lia.
      + rewrite (act_all0 _ N1). lia.
  Qed.
  Lemma mu_zero s D P ws res : inv s D P ws res -> mu s P <= 0 -> idle s = true /\ s_thr s = 0.
  Proof using Hc.
    clear fm. intros [HQ HL HW HP] Hm. pose proof (due_nonneg P HL) as Hdue. unfold mu in Hm.
    assert (Hw : 0 <= waiting s) by (unfold waiting; destruct (s_thr s =? 1), (s_thr s =? 2); lia).
    destruct HP as [wss HF -> -> H0 Hb Ht Hu | J wss -> HF -> -> H0 Hb Ht Hu | J wss k q cur x -> HF -> -> Ha Hq Ho Hx].
    - rewrite (act_all0 s H0) in Hm. unfold waiting in *. destruct P as [|x P].
      + unfold idle. rewrite (empty_list (g_fa c) _ _ fa1 HQ), Hb. split; [reflexivity|]. destruct Ht as [E|E]; [exact E|]. rewrite E in Hm. cbn in Hm. lia.
      + pose proof (legal_cost x (Forall_inv HL)). pose proof (due_nonneg P (Forall_inv_tail HL)).
        change (due (x :: P)) with (job_cost c (req_job x) + due P) in *. lia.
    - rewrite (act_all0 s H0) in Hm. unfold waiting in *. rewrite Ht in *. cbn in *. lia.
    - pose proof (ac_k _ _ _ Ha) as Hk. destruct (dma_rinv s k x q (map fst cur) (M k J wss) Ha (HW k Hk) Hq) as [HI Hr].
      { destruct (x =? 1); [|exact Hx]. destruct Hx as (-> & X). split; [reflexivity|exact X]. }
      destruct (act_active s k x Ha) as [Eact _]. lia.
  Qed.
  Lemma cost_app a b : cost c (a ++ b) = cost c a + cost c b - 3.
  Proof using. clear. unfold cost. induction a as [|j a IH]; cbn [app fold_right]; lia. Qed.
  Lemma cost_due P : cost c (map req_job P) = due P + 3.
  Proof using. clear m0 fm Hc. unfold cost, due. induction P as [|j a IH]; cbn [map fold_right]; lia. Qed.
  Lemma job_cost_nonneg j : (match j with JRead => True | JDma _ q => 1 <= snd q end) -> 0 <= job_cost c j.
  Proof using. clear. intros H. unfold job_cost. destruct j; [lia|]. destruct (R k); nia. Qed.

  Definition legal_job (j : job) : Prop := match j with JRead => True | JDma _ q => 1 <= snd q end.
  Lemma jobs_legal ins : forall s, Forall (legal_in c) ins -> Forall legal_job (jobs c s ins).
  Proof using.
    clear m0 fm. induction ins as [|i ins IH]; intros s H; [constructor|]. unfold jobs. cbn [outs concat].
    apply Forall_app. split; [|apply IH, (Forall_inv_tail H)]. unfold issued. apply Forall_app. split.
    - destruct (_ && _); repeat constructor.
    - destruct (Forall_inv H) as [_ X]. destruct (i_req i) as [[[[k a] d] n]|]; [|constructor]. destruct (accepts c s); constructor; [|constructor].
      cbn. lia.
  Qed.
  Lemma cost_ge js : Forall legal_job js -> 3 <= cost c js.
  Proof using.
    clear m0 fm. induction 1 as [|j js H _ IH]; [cbn; lia|]. change (cost c (j :: js)) with (job_cost c j + cost c js).
    pose proof (job_cost_nonneg j H). lia.
  Qed.
  Lemma mu_cost s D P ws res : inv s D P ws res -> Forall legal_job D -> mu s P <= cost c (D ++ map req_job P).
  Proof using Hc.
    clear fm. intros [HQ HL HW HP] HD. rewrite cost_app, cost_due. unfold mu.
    assert (Hw : waiting s <= 2) by (unfold waiting; destruct (s_thr s =? 1), (s_thr s =? 2); lia).
    destruct HP as [wss HF -> -> H0 Hb Ht Hu | J wss -> HF -> -> H0 Hb Ht Hu | J wss k q cur x -> HF -> -> Ha Hq Ho Hx].
    - rewrite (act_all0 s H0). pose proof (cost_ge D HD). lia.
    - rewrite (act_all0 s H0). pose proof (cost_ge _ HD). lia.
    - apply Forall_app in HD. pose proof (cost_ge J (proj1 HD)). rewrite cost_app. change (cost c [JDma k q]) with (job_cost c (JDma k q) + 3).
      pose proof (ac_k _ _ _ Ha) as Hk. destruct (dma_rinv s k x q (map fst cur) (M k J wss) Ha (HW k Hk) Hq) as [HI Hr].
      { destruct (x =? 1); [|exact Hx]. destruct Hx as (-> & X). split; [reflexivity|exact X]. }
      destruct (act_active s k x Ha) as [Eact _]. lia.
  Qed.
  Lemma mu_run more : forall s D P ws res, inv s D P ws res -> Forall (legal_in c) more -> Forall quiet_in more ->
    exists D' P' ws' res', inv (run_ c s more) D' P' ws' res' /\ mu (run_ c s more) P' <= Z.max 0 (mu s P - valids more).
  Proof using Hc.
    induction more as [|i more IH]; intros s D P ws res HI HL HN.
    - exists D, P, ws, res. split; [exact HI|]. cbn. clear. lia.
    - destruct (inv_step s i D P ws res HI (Forall_inv HL)) as (D1 & HI1 & _).
      pose proof (mu_step s i D P ws res HI (Forall_inv HL) (Forall_inv HN)) as Hm.
      destruct (IH (step c s i) D1 _ _ _ HI1 (Forall_inv_tail HL) (Forall_inv_tail HN)) as (D' & P' & ws' & res' & HI' & Hm').
      exists D', P', ws', res'. unfold run_, final in *. cbn [fold_left]. split; [exact HI'|].
      change (valids (i :: more)) with (b2z (i_valid i) + valids more).
      assert (0 <= valids more) by (clear; induction more as [|j l IH]; [cbn; lia|]; change (valids (j :: l)) with (b2z (i_valid j) + valids l); destruct (i_valid j); cbn [b2z]; lia).
      clear - Hm Hm' H. lia.
  Qed.
  Theorem finishes ins more : Forall (legal_in c) (ins ++ more) -> Forall quiet_in more ->
    cost c (jobs c (init m0 fm) ins) <= valids more ->
    idle (run_ c (init m0 fm) (ins ++ more)) = true /\ s_thr (run_ c (init m0 fm) (ins ++ more)) = 0.
  Proof using Hc.
    intros HL HN Hv. apply Forall_app in HL. destruct HL as [HL1 HL2].
    destruct (reached ins HL1) as (D & P & HI & E). pose proof (jobs_legal ins (init m0 fm) HL1) as HJ. rewrite E in HJ, Hv.
    apply Forall_app in HJ. pose proof (mu_cost _ D P _ _ HI (proj1 HJ)) as Hm.
    destruct (mu_run more _ D P _ _ HI HL2 HN) as (D' & P' & ws' & res' & HI' & Hm').
    assert (Er : run_ c (init m0 fm) (ins ++ more) = run_ c (run_ c (init m0 fm) ins) more) by (unfold run_, final; apply fold_left_app).
    rewrite Er. apply (mu_zero _ D' P' ws' res' HI'). clear - Hm Hm' Hv. lia.
  Qed.

  (** setting and clearing [read_data_busy] never meet *)
  Lemma no_clash ins i : Forall (legal_in c) ins -> let s := run_ c (init m0 fm) ins in
    (any c (fin c s i) || (s_thr s =? 2) && i_valid i) && (any c (dispatch c s) || (s_thr s =? 1) && idle s) = false.
  Proof using Hc.
    intros HL. cbv zeta. destruct (reached ins HL) as (D & P & HI & _). set (s := run_ c (init m0 fm) ins) in *.
    destruct (s_busy s) eqn:Hb.
    - rewrite (busy_no s Hb), (idle_busy s Hb), andb_false_r. apply andb_false_r.
    - destruct HI as [HQ _ _ HP].
      destruct HP as [wss HF _ _ H0 _ Ht Hu | J wss _ HF _ _ H0 Hb' Ht Hu | J wss k q cur x _ HF _ _ Ha Hq Ho Hx].
      + destruct (nofin s i (fun j => run_all0 s j H0) Same) as (_ & Nf & _). rewrite Nf.
        destruct Ht as [E|E]; rewrite E; reflexivity.
      + congruence.
      + rewrite (ac_busy _ _ _ Ha) in Hb. discriminate.
  Qed.
End Eng.
