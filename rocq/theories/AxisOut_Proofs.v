(** Proofs about the AXI stream output. *)
From Verif Require Import Base Pack Fifo_Model Fifo_Spec Fifo_Proofs Ram_Model Ram_Spec Ram_Proofs AxiDma_Model AxiData_Model AxiData_Spec
  AxiData_Proofs AxiMem_Proofs AxiPorts_Model AxiPorts_Proofs AxisIn_Model AxisIn_Proofs AxisOut_Model AxisOut_Spec.
Open Scope Z_scope.

Section Last.
  Context {X : Type}.
  Variable c : cfg.
  Implicit Types f : nat -> option X.
  Let F f := fun (o : option X) k => match f k with Some x => Some x | None => o end.
  Lemma fold_none f l : forall o, (forall k, In k l -> f k = None) -> fold_left (F f) l o = o.
  Proof. induction l as [|j l IH]; intros o H; [reflexivity|]. cbn [fold_left]. unfold F at 2. rewrite (H j) by (left; reflexivity). apply IH. intros k Hk. apply H. right. exact Hk. Qed.
  Lemma fold_some f x l : forall o, (forall k, In k l -> f k = None \/ f k = Some x) -> o = Some x \/ (exists k, In k l /\ f k = Some x) ->
    (o = None \/ o = Some x) -> fold_left (F f) l o = Some x.
  Proof.
    induction l as [|j l IH]; intros o H E Ho.
    - destruct E as [E|(k & [] & _)]. exact E.
    - cbn [fold_left]. apply IH.
      + intros k Hk. apply H. right. exact Hk.
      + unfold F. destruct (H j (or_introl eq_refl)) as [Ej|Ej]; rewrite Ej; [|left; reflexivity].
        destruct E as [E|(k & [->|Hk] & E)]; [left; exact E|congruence|right; exists k; auto].
      + unfold F. destruct (H j (or_introl eq_refl)) as [Ej|Ej]; rewrite Ej; auto.
  Qed.
  Lemma last_none f : (forall k, (k < nops c)%nat -> f k = None) -> lastof c f = None.
  Proof. intros H. apply fold_none. intros k Hk. apply in_seq in Hk. apply H. lia. Qed.
  Lemma last_some f x k : (k < nops c)%nat -> f k = Some x -> (forall j, (j < nops c)%nat -> f j = None \/ f j = Some x) -> lastof c f = Some x.
  Proof.
    intros Hk E H. apply fold_some; [|right; exists k; split; [apply in_seq; lia|exact E]|left; reflexivity].
    intros j Hj. apply in_seq in Hj. apply H. lia.
  Qed.
  Lemma last_ext f g : (forall k, (k < nops c)%nat -> f k = g k) -> lastof c f = lastof c g.
  Proof.
    intros H. unfold lastof. assert (G : forall l o, (forall k, In k l -> f k = g k) -> fold_left (F f) l o = fold_left (F g) l o).
    { induction l as [|j l IH]; intros o E; [reflexivity|]. cbn [fold_left]. unfold F at 2 4. rewrite (E j) by (left; reflexivity).
      apply IH. intros k Hk. apply E. right. exact Hk. }
    apply G. intros k Hk. apply in_seq in Hk. apply H. lia.
  Qed.
  Lemma last_in f x : lastof c f = Some x -> exists k, (k < nops c)%nat /\ f k = Some x.
  Proof.
    unfold lastof. intros H. assert (G : forall l o, fold_left (F f) l o = Some x -> o = Some x \/ exists k, In k l /\ f k = Some x).
    { induction l as [|j l IH]; intros o E; [left; exact E|]. cbn [fold_left] in E. destruct (IH _ E) as [E1|(k & K & E1)].
      - unfold F in E1. destruct (f j) eqn:Ej; [right; exists j; split; [left; reflexivity|congruence]|left; exact E1].
      - right. exists k. split; [right; exact K|exact E1]. }
    destruct (G _ _ H) as [|(k & K & E)]; [discriminate|]. apply in_seq in K. exists k. split; [lia|exact E].
  Qed.
End Last.

Lemma osame_class_fsm s r r' : same_class r r' = true -> ofsm s r = ofsm s r'.
Proof. destruct r, r'; try discriminate; reflexivity. Qed.
Lemma ofsm_step_class c s i r r' : same_class r r' = true -> ofsm_step c s i r = ofsm_step c s i r'.
Proof.
  intros H. unfold ofsm_step. rewrite (osame_class_fsm s r r' H).
  assert (E : forall k, same_class r (o_ratio (opk c k)) = same_class r' (o_ratio (opk c k)))
    by (intros k; destruct r, r'; try discriminate; reflexivity).
  assert (G : lastof c (fun k => if same_class r (o_ratio (opk c k)) then ojump c s i k else None)
            = lastof c (fun k => if same_class r' (o_ratio (opk c k)) then ojump c s i k else None)).
  { apply last_ext. intros k _. rewrite E. reflexivity. }
  rewrite G. reflexivity.
Qed.
Lemma ofsm_of_step c M s i r : ofsm (ostep c M s i) r = ofsm_step c s i r.
Proof. destruct r; cbn [ofsm ostep e_same e_narrow e_wide]; [reflexivity| |]; apply ofsm_step_class; reflexivity. Qed.

(** ** The channel *)
Definition ofired (c : cfg) (s : ost) (i : oinp) : list (Z * bool) := match oword c s i with Some x => [x] | None => [] end.
Lemma oword_ack c s i x : oword c s i = Some x -> oack s i = true.
Proof.
  unfold oword. destruct (oack s i) eqn:E; [reflexivity|]. rewrite andb_false_r. intros H. apply last_in in H. destruct H as (k & _ & H).
  rewrite andb_false_r in H. discriminate.
Qed.
Lemma chan_step c M s i : opending s ++ ofired c s i = osent s i ++ opending (ostep c M s i).
Proof.
  unfold opending, ofired, osent. cbn [ostep e_tvalid e_tdata e_tlast]. pose proof (oword_ack c s i) as H.
  destruct (oword c s i) as [[v l]|].
  - specialize (H _ eq_refl). unfold oack in H. destruct (e_tvalid s), (w_ready i); cbn in *; try reflexivity; discriminate.
  - destruct (e_tvalid s), (w_ready i); reflexivity.
Qed.

(** ** Sums of words *)
Lemma owords_app c M a b : owords c M (a ++ b) = owords c M a ++ owords c M b.
Proof. apply flat_map_app. Qed.

Section Eng.
  Variable c : cfg.
  Hypothesis Hc : olegal_cfg c.
  Variable M : nat -> Z -> Z.
  Hypothesis HM : olegal_ram c M.
  Notation R k := (o_ratio (opk c k)).
  Notation W k := (o_w (opk c k)).
  Notation A k := (o_raw (opk c k)).
  Notation step := (ostep c M).

  Lemma aw1 : 1 <= g_aw c. Proof using Hc. apply Hc. Qed.
  Lemma fa1 : 1 <= g_fa c. Proof using Hc. apply Hc. Qed.
  Lemma op_ok k : (k < nops c)%nat -> 0 <= W k /\ 0 <= A k /\ match R k with Same => True | Narrow lp | Wide lp => 0 < lp end.
  Proof using Hc.
    intros H. destruct Hc as (_ & _ & _ & _ & F & _). rewrite Forall_forall in F. apply (F (opk c k)). apply nth_In. exact H.
  Qed.
  Lemma op_w k : (k < nops c)%nat -> 0 <= W k. Proof using Hc. intros H. apply (op_ok k H). Qed.
  Lemma op_raw k : (k < nops c)%nat -> 0 <= A k. Proof using Hc. intros H. apply (op_ok k H). Qed.
  Lemma op_r k : (k < nops c)%nat -> match R k with Same => True | Narrow lp | Wide lp => 0 < lp end.
  Proof using Hc. intros H. apply (op_ok k H). Qed.
  Lemma op_id k : (k < nops c)%nat -> 0 <= opid k < 2 ^ g_sw c.
  Proof using Hc. intros H. destruct Hc as (_ & _ & _ & X & _). unfold opid. lia. Qed.
  Lemma base0 k : (k < nops c)%nat -> base c k = 0.
  Proof using Hc.
    intros H. unfold base. destruct (R k) eqn:E; try reflexivity.
    destruct (existsb _ _) eqn:X; [|reflexivity]. exfalso. apply existsb_exists in X. destruct X as (j & J & X). apply in_seq in J.
    destruct Hc as (_ & _ & _ & _ & _ & U). specialize (U j k ltac:(lia) H). rewrite E in U. destruct (R j); try discriminate. lia.
  Qed.
  Lemma here0 s k x : (k < nops c)%nat -> ohere c s k x = (ofsm s (R k) =? x).
  Proof using Hc. intros H. unfold ohere. rewrite (base0 k H). reflexivity. Qed.
  Lemma jump0 s i k : (k < nops c)%nat -> ojump c s i k =
    if ofsm s (R k) =? 0 then (if odispatch c s k then Some 1 else None)
    else if ofsm s (R k) =? 1 then Some 2 else if ofin c s i k then Some 0 else None.
  Proof using Hc. intros H. unfold ojump. rewrite !here0 by exact H. rewrite (base0 k H). reflexivity. Qed.

  (** the registers as the data machine of one operation sees them *)
  Definition oproj (s : ost) (k : nat) : wr :=
    let u := e_unit s k in
    mkWr (if osel s k then ofsm s (R k) else 0) (e_addr s) (e_stride s) (e_size s) (n_count u) (n_wdata u) (n_wlast u) (e_tvalid s) (n_rb u) [].
  Definition wi (i : oinp) : wr_in := mkWrIn true (w_ready i).

  (** ** Control *)
  Definition oothers (s : ost) (k : nat) : Prop := forall r, same_class r (R k) = false -> ofsm s r = 0.
  Definition oall0 (s : ost) : Prop := forall r, ofsm s r = 0.
  Definition oquiet (s : ost) (k : nat) : Prop := idle_rb (n_rb (e_unit s k)).
  Record oactive (s : ost) (k : nat) (x : Z) : Prop := mkActive {
    oc_k : (k < nops c)%nat; oc_sel : e_sel s = opid k; oc_fsm : ofsm s (R k) = x;
    oc_x : x = 1 \/ x = 2; oc_oth : oothers s k; oc_busy : e_busy s = true; oc_thr : e_thr s = 0 \/ e_thr s = 1;
    oc_quiet : forall j, (j < nops c)%nat -> j <> k -> oquiet s j }.

  Lemma oactive_sel s k x j : oactive s k x -> osel s j = Nat.eqb j k.
  Proof using.
    clear. intros H. unfold osel. rewrite (oc_sel _ _ _ H). destruct (Nat.eqb j k) eqn:E.
    - apply Nat.eqb_eq in E. subst. apply Z.eqb_refl.
    - apply Nat.eqb_neq in E. apply Z.eqb_neq. intros X. apply E. symmetry. apply opid_inj. exact X.
  Qed.
  Lemma obusy_dispatch s k : e_busy s = true -> odispatch c s k = false.
  Proof using. clear. intros H. unfold odispatch. rewrite H. cbn. apply andb_false_r. Qed.
  Lemma obusy_no s : e_busy s = true -> any c (odispatch c s) = false.
  Proof using. clear. intros H. apply any_false. intros k _. apply obusy_dispatch, H. Qed.
  Lemma oidle_busy s : e_busy s = true -> oidle s = false.
  Proof using. clear. intros H. unfold oidle. rewrite H. apply andb_false_r. Qed.
  Lemma ounit_eq s i k : e_unit (step s i) k = onit_step c M s i k.
  Proof using. clear. cbn [ostep e_unit]. apply tab_ok. Qed.

  (** a quiet operation does nothing *)
  Lemma quiet_no s i k : (k < nops c)%nat -> oquiet s k -> (R k = Same \/ osel s k = false \/ ofsm s (R k) <> 2 \/ match R k with Narrow _ => False | _ => True end) ->
    owcond c s i k = false /\ odec c s i k = false /\ ofin c s i k = false.
  Proof using Hc.
    intros Hk [_ Q] H. unfold odec, ofin. rewrite here0 by exact Hk.
    assert (E : owcond c s i k = false).
    { unfold owcond, orv. rewrite Q. rewrite here0 by exact Hk. destruct (R k) as [|lp|lp].
      - apply andb_false_r.
      - cbn [orb]. destruct H as [H|[H|[H|[]]]]; [discriminate|rewrite H, andb_false_r; reflexivity|].
        apply Z.eqb_neq in H. rewrite H. reflexivity.
      - cbn [andb]. apply andb_false_r. }
    split; [exact E|]. unfold orv. rewrite E, Q. cbn [andb]. rewrite ?andb_false_r. cbn [andb]. destruct (R k); rewrite ?andb_false_r; auto.
  Qed.
  Lemma quiet_step s i k : (k < nops c)%nat -> ohere c s k 1 && osel s k = false -> oquiet s k -> oquiet (step s i) k.
  Proof using.
    clear. intros Hk E Q. unfold oquiet. rewrite ounit_eq.
    assert (X : n_rb (onit_step c M s i k) = rb_step (A k) (lw c) (M k) (n_rb (e_unit s k))
      (mkRBIn (ohere c s k 1 && osel s k) (e_addr s) (e_stride s) (e_size s) (orready c s i k) false)).
    { unfold onit_step. destruct (R k); [reflexivity| |]; destruct (ohere c s k 1); try reflexivity; destruct (ohere c s k 2); reflexivity. }
    rewrite X, E. apply rb_idle_step; [exact Q|reflexivity].
  Qed.
  Lemma active_others s k x j : oactive s k x -> (j < nops c)%nat -> j <> k -> forall i,
    owcond c s i j = false /\ odec c s i j = false /\ ofin c s i j = false.
  Proof using Hc.
    intros H Hj Hn i. apply quiet_no; [exact Hj|apply (oc_quiet _ _ _ H); assumption|].
    right. left. rewrite (oactive_sel s k x j H). apply Nat.eqb_neq, Hn.
  Qed.
  Lemma dec_any s i k x : oactive s k x -> any c (odec c s i) = odec c s i k.
  Proof using Hc.
    intros H. apply any_one; [apply (oc_k _ _ _ H)|]. intros j Hj E. destruct (Nat.eq_dec j k) as [->|Hn]; [exact E|].
    destruct (active_others s k x j H Hj Hn i) as (_ & X & _). rewrite X in E. discriminate.
  Qed.
  Lemma fin_any s i k x : oactive s k x -> any c (ofin c s i) = ofin c s i k.
  Proof using Hc.
    intros H. apply any_one; [apply (oc_k _ _ _ H)|]. intros j Hj E. destruct (Nat.eq_dec j k) as [->|Hn]; [exact E|].
    destruct (active_others s k x j H Hj Hn i) as (_ & _ & X). rewrite X in E. discriminate.
  Qed.
  Lemma thr_not2 s k x : oactive s k x -> (e_thr s =? 2) = false.
  Proof using. clear. intros H. destruct (oc_thr _ _ _ H) as [E|E]; rewrite E; reflexivity. Qed.
  Lemma word_active s i k x : oactive s k x ->
    oword c s i = if owcond c s i k && oack s i then Some (odata c s k, olast c s k) else None.
  Proof using Hc.
    intros H. unfold oword. rewrite (thr_not2 s k x H). cbn [andb].
    assert (G : forall j, (j < nops c)%nat -> j <> k -> owcond c s i j = false) by (intros j Hj Hn; apply (active_others s k x j H Hj Hn)).
    destruct (owcond c s i k && oack s i) eqn:E.
    - apply (last_some c _ _ k); [apply (oc_k _ _ _ H)|rewrite E; reflexivity|]. intros j Hj.
      destruct (Nat.eq_dec j k) as [->|Hn]; [rewrite E; right; reflexivity|rewrite (G j Hj Hn); left; reflexivity].
    - apply last_none. intros j Hj. destruct (Nat.eq_dec j k) as [->|Hn]; [rewrite E; reflexivity|rewrite (G j Hj Hn); reflexivity].
  Qed.
  Lemma class_refl r : same_class r r = true. Proof using. clear. destruct r; reflexivity. Qed.
  Lemma class_sym r r' : same_class r r' = same_class r' r. Proof using. clear. destruct r, r'; reflexivity. Qed.

  (** FSM steps *)
  Lemma fsm_idle s i r : ofsm s r = 0 -> (forall k, (k < nops c)%nat -> same_class r (R k) = true -> odispatch c s k = false) ->
    ofsm (step s i) r = 0.
  Proof using Hc.
    intros H D. rewrite ofsm_of_step. unfold ofsm_step. rewrite last_none; [exact H|]. intros k Hk.
    destruct (same_class r (R k)) eqn:E; [|reflexivity]. rewrite jump0 by exact Hk. rewrite <- (osame_class_fsm s r (R k) E), H. cbn [Z.eqb].
    rewrite (D k Hk E). reflexivity.
  Qed.
  Lemma fsm_one s i k r : (k < nops c)%nat -> same_class r (R k) = true -> ofsm s r = 1 -> ofsm (step s i) r = 2.
  Proof using Hc.
    intros Hk E H. rewrite ofsm_of_step. unfold ofsm_step. rewrite (last_some c _ 2 k); [reflexivity|exact Hk| |].
    - rewrite E, jump0 by exact Hk. rewrite <- (osame_class_fsm s r (R k) E), H. reflexivity.
    - intros j Hj. destruct (same_class r (R j)) eqn:Ej; [|left; reflexivity]. rewrite jump0 by exact Hj.
      rewrite <- (osame_class_fsm s r (R j) Ej), H. right. reflexivity.
  Qed.
  Lemma fsm_two s i k r : oactive s k 2 -> same_class r (R k) = true -> ofsm (step s i) r = if ofin c s i k then 0 else 2.
  Proof using Hc.
    intros H E. pose proof (oc_k _ _ _ H) as Hk. assert (Ef : ofsm s r = 2) by (rewrite (osame_class_fsm s r (R k) E); apply (oc_fsm _ _ _ H)).
    rewrite ofsm_of_step. unfold ofsm_step.
    assert (G : forall j, (j < nops c)%nat -> (if same_class r (R j) then ojump c s i j else None) = None \/
      j = k /\ (if same_class r (R j) then ojump c s i j else None) = if ofin c s i k then Some 0 else None).
    { intros j Hj. destruct (same_class r (R j)) eqn:Ej; [|left; reflexivity]. rewrite jump0 by exact Hj.
      rewrite <- (osame_class_fsm s r (R j) Ej), Ef. cbn [Z.eqb Pos.eqb].
      destruct (Nat.eq_dec j k) as [->|Hn]; [right; auto|]. left. destruct (active_others s k 2 j H Hj Hn i) as (_ & _ & X). rewrite X. reflexivity. }
    destruct (ofin c s i k) eqn:Fk.
    - rewrite (last_some c _ 0 k); [reflexivity|exact Hk| |].
      + rewrite E, jump0 by exact Hk. rewrite (oc_fsm _ _ _ H), Fk. reflexivity.
      + intros j Hj. destruct (G j Hj) as [X|[_ X]]; rewrite X; auto.
    - rewrite last_none; [exact Ef|]. intros j Hj. destruct (G j Hj) as [X|[_ X]]; exact X.
  Qed.

  (** the size register *)
  Lemma size_busy s i : e_busy s = true -> osize_step c s i =
    match lastof c (fun k => match R k with Narrow lp => if ohere c s k 1 then Some (Z.shiftl (e_size s) lp) else None | _ => None end) with
    | Some n => n mod 2 ^ lw c | None => if any c (odec c s i) then (e_size s - 1) mod 2 ^ lw c else e_size s end.
  Proof using.
    clear. intros H. unfold osize_step. rewrite last_none; [reflexivity|]. intros k _. rewrite obusy_dispatch by exact H. reflexivity.
  Qed.
  Lemma size_two s i k : oactive s k 2 -> osize_step c s i = if odec c s i k then (e_size s - 1) mod 2 ^ lw c else e_size s.
  Proof using Hc.
    intros H. rewrite size_busy by apply (oc_busy _ _ _ H). rewrite last_none; [rewrite (dec_any s i k 2 H); reflexivity|].
    intros j Hj. destruct (R j) as [|lp|lp] eqn:E; try reflexivity. rewrite here0 by exact Hj. rewrite E.
    destruct (same_class (R j) (R k)) eqn:S.
    - rewrite E in S. rewrite (osame_class_fsm s _ _ S), (oc_fsm _ _ _ H). reflexivity.
    - rewrite E in S. rewrite (oc_oth _ _ _ H _ S). reflexivity.
  Qed.
  Lemma size_one s i k : oactive s k 1 -> oquiet s k ->
    osize_step c s i = match R k with Narrow lp => Z.shiftl (e_size s) lp mod 2 ^ lw c | _ => e_size s end.
  Proof using Hc.
    intros H Q. pose proof (oc_k _ _ _ H) as Hk. rewrite size_busy by apply (oc_busy _ _ _ H).
    assert (Nd : any c (odec c s i) = false).
    { rewrite (dec_any s i k 1 H). apply (quiet_no s i k Hk Q). right. right. left. rewrite (oc_fsm _ _ _ H). lia. }
    destruct (R k) as [|lp|lp] eqn:E.
    2: { rewrite (last_some c _ (Z.shiftl (e_size s) lp) k); [reflexivity|exact Hk| |].
         - rewrite E, here0 by exact Hk. rewrite (oc_fsm _ _ _ H). reflexivity.
         - intros j Hj. destruct (R j) as [|l|l] eqn:Ej; auto. rewrite here0 by exact Hj. destruct (_ =? 1); auto. right.
           destruct Hc as (_ & _ & _ & _ & _ & U). specialize (U j k Hj Hk). rewrite Ej, E in U. subst. reflexivity. }
    all: rewrite last_none; [rewrite Nd; reflexivity|]; intros j Hj; destruct (R j) as [|l|l] eqn:Ej; try reflexivity; rewrite here0 by exact Hj;
      rewrite Ej; rewrite (oc_oth _ _ _ H (Narrow l)); [reflexivity|rewrite E; reflexivity].
  Qed.

  (** ** A step of an operation in data state 2 is a step of the data machine *)
  Lemma proj_wcond s i k : oactive s k 2 -> 0 < e_size s -> wr_wcond (R k) (oproj s k) (wi i) = owcond c s i k.
  Proof using Hc.
    intros H Hs. pose proof (oactive_sel s k 2 k H) as Es. rewrite Nat.eqb_refl in Es.
    unfold wr_wcond, owcond, orv, orready, wr_rready, wr_ack, oack, oproj, wi. cbn [y_fsm y_size y_count y_rb y_wvalid yi_ready].
    rewrite here0 by apply (oc_k _ _ _ H). rewrite Es, (oc_fsm _ _ _ H). replace (0 <? e_size s) with true by lia. unfold pk.
    destruct (R k); cbn [Z.eqb Pos.eqb andb]; rewrite ?andb_true_r; [reflexivity..|]. rewrite andb_assoc. reflexivity.
  Qed.
  Lemma proj_rready s i k : 0 < e_size s -> wr_rready (R k) (oproj s k) (wi i) = orready c s i k.
  Proof using.
    clear. intros Hs. unfold orready, wr_rready, wr_ack, oack, oproj, wi. cbn [y_size y_count y_wvalid yi_ready].
    replace (0 <? e_size s) with true by lia. rewrite andb_true_r. reflexivity.
  Qed.
  Lemma proj_data s k : wr_data (R k) (W k) (oproj s k) = odata c s k.
  Proof using. clear. unfold wr_data, odata, oproj, wr_wide_data, owide, pk. cbn [y_rb y_wdata y_count]. destruct (R k); reflexivity. Qed.

  Lemma active_two s i k : oactive s k 2 -> 0 < e_size s ->
    oproj (step s i) k = wr_step (R k) (W k) (A k) (lw c) (M k) (oproj s k) (wi i) /\
    let x' := y_fsm (oproj (step s i) k) in
    (x' = 2 /\ oactive (step s i) k 2 \/
     x' = 0 /\ oall0 (step s i) /\ e_busy (step s i) = false /\ (e_thr (step s i) = 0 \/ e_thr (step s i) = 1) /\
       (forall j, (j < nops c)%nat -> j <> k -> oquiet (step s i) j)).
  Proof using Hc.
    intros H Hs. pose proof (oc_busy _ _ _ H) as Hb. pose proof (obusy_no s Hb) as Hd. pose proof (oc_k _ _ _ H) as Hk.
    pose proof (thr_not2 s k 2 H) as Hthr.
    assert (Hthr' : e_thr (step s i) = 0 \/ e_thr (step s i) = 1).
    { cbn [ostep e_thr]. unfold othr_step. rewrite (oidle_busy s Hb). destruct (oc_thr _ _ _ H) as [E|E]; rewrite E; cbn [Z.eqb Pos.eqb].
      - destruct (w_write i); auto.
      - auto. }
    assert (Hsel : e_sel (step s i) = e_sel s) by (cbn [ostep e_sel]; rewrite Hd; reflexivity).
    assert (Eoth : forall r, same_class r (R k) = false -> ofsm (step s i) r = 0).
    { intros r Hr. apply fsm_idle; [apply (oc_oth _ _ _ H r Hr)|]. intros j _ _. apply obusy_dispatch, Hb. }
    assert (Ek : forall r, same_class r (R k) = true -> ofsm (step s i) r = if ofin c s i k then 0 else 2)
      by (intros r Hr; apply fsm_two; [exact H|exact Hr]).
    assert (Ex' : y_fsm (oproj (step s i) k) = if ofin c s i k then 0 else 2).
    { unfold oproj. cbn [y_fsm]. unfold osel. rewrite Hsel. change (e_sel s =? opid k) with (osel s k).
      rewrite (oactive_sel s k 2 k H), Nat.eqb_refl. apply Ek, class_refl. }
    assert (Hqu : forall j, (j < nops c)%nat -> j <> k -> oquiet (step s i) j).
    { intros j Hj Hn. apply quiet_step; [exact Hj| |apply (oc_quiet _ _ _ H); assumption].
      rewrite (oactive_sel s k 2 j H). apply Nat.eqb_neq in Hn. rewrite Hn. apply andb_false_r. }
    split.
    - unfold oproj at 1. rewrite ounit_eq. unfold oproj in Ex'. cbn [y_fsm] in Ex'. rewrite Ex'. cbn [ostep e_addr e_stride e_size e_tvalid].
      rewrite Hd, (size_two s i k H), (word_active s i k 2 H). clear Ex' Ek Eoth Hsel Hthr' Hthr Hqu.
      pose proof (oactive_sel s k 2 k H) as Es. rewrite Nat.eqb_refl in Es.
      pose proof (proj_wcond s i k H Hs) as Ewc. pose proof (proj_rready s i k Hs) as Err.
      unfold wr_step, wr_ram. rewrite Ewc, Err.
      assert (Ea : wr_ack (oproj s k) (wi i) = oack s i) by reflexivity. rewrite Ea.
      unfold ofin, odec, onit_step. cbv zeta. rewrite !here0 by assumption. rewrite Es, (oc_fsm _ _ _ H).
      unfold wr_wide_data, owide, orv, oproj, wi. cbn [y_fsm y_addr y_stride y_size y_count y_wdata y_wlast y_wvalid y_rb y_queue yi_ready].
      rewrite Es, (oc_fsm _ _ _ H). cbn [Z.eqb Pos.eqb andb]. replace (e_size s =? 0) with false by lia. unfold pk.
      destruct (R k) as [|lp|lp] eqn:Ek; cbn [n_count n_wdata n_wlast n_rb].
      + assert (Ew : owcond c s i k = rb_rvalid (n_rb (e_unit s k)) && orready c s i k) by (unfold owcond, orv; rewrite Ek, Es; reflexivity).
        rewrite Ew. f_equal. destruct (_ && oack s i); reflexivity.
      + f_equal. destruct (_ && oack s i); reflexivity.
      + f_equal. destruct (_ && oack s i); reflexivity.
    - cbv zeta. rewrite Ex'. destruct (ofin c s i k) eqn:Ef.
      + right. split; [reflexivity|]. split; [|split; [|split; [exact Hthr'|exact Hqu]]].
        * intros r. destruct (same_class r (R k)) eqn:Er; [apply Ek, Er|apply Eoth, Er].
        * cbn [ostep e_busy]. rewrite (fin_any s i k 2 H), Ef. reflexivity.
      + left. split; [reflexivity|]. constructor; auto.
        * rewrite Hsel. apply (oc_sel _ _ _ H).
        * apply Ek, class_refl.
        * cbn [ostep e_busy]. rewrite (fin_any s i k 2 H), Ef, Hthr, Hd, (oidle_busy s Hb), andb_false_r. exact Hb.
  Qed.

  (** ** Requests *)
  Definition oreq := (nat * rrequest)%type.
  Definition oreq_job (x : oreq) : ojob := ODma (fst x) (snd x).
  Definition oreq_word (x : oreq) : Z :=
    pack_rreq c (opid (fst x)) (fst (fst (snd x))) (snd (fst (snd x))) (snd (snd x)).
  Definition olegal_rq (x : oreq) : Prop :=
    (fst x < nops c)%nat /\ 0 <= fst (fst (snd x)) < 2 ^ g_aw c /\ 0 <= snd (fst (snd x)) < 2 ^ g_aw c /\
    olegal_size c (fst x) (snd (snd x)).
  Definition wj (k : nat) (q : rrequest) : wjob :=
    mkJob (fst (fst q)) (snd (fst q)) (snd q) [Z.of_nat (bus_words (R k) (nwords q))].
  Notation T k q := (bus_words (R k) (nwords q)).
  Lemma wj_ok k q : (k < nops c)%nat -> olegal_size c k (snd q) -> wjob_ok (R k) (lw c) (wj k q).
  Proof using Hc.
    intros Hk [H1 H2]. cbv zeta in H2. unfold wjob_ok, job_ok, wj. cbn [j_n j_bursts fold_right]. split; [exact H1|]. split; [exact H2|].
    assert (0 < T k q)%nat.
    { unfold bus_words, nwords. pose proof (pack_P (R k) (op_r k Hk)) as HP. unfold packz in HP. destruct (R k) as [|lp|lp]; [lia|destruct HP; nia|].
      apply Nat.div_str_pos. destruct HP. lia. }
    split; [repeat constructor; lia|]. unfold nwords. lia.
  Qed.
  Lemma total_wj k q : total (R k) (wj k q) = T k q. Proof using. reflexivity. Qed.
  Lemma wrest_words k q m : forall e, (e + m = T k q)%nat ->
    wrest (R k) (W k) (A k) (M k) (wj k q) e (Z.of_nat m) [] =
    map (fun t => (bus_word (R k) (W k) (A k) (M k) (fst (fst q)) (snd (fst q)) t, Nat.eqb (S t) (T k q))) (seq e m).
  Proof using.
    clear. induction m as [|m IH]; intros e E.
    - unfold wrest. rewrite total_wj. replace (T k q - e)%nat with 0%nat by lia. reflexivity.
    - rewrite wrest_step by (rewrite ?total_wj; lia). cbn [seq map]. f_equal.
      + f_equal. destruct (Nat.eqb_spec (S e) (T k q)); lia.
      + replace (Z.of_nat (S m) - 1) with (Z.of_nat m) by lia. apply IH. lia.
  Qed.
  Lemma entries_nil jobs : jobs_entries jobs = [] -> jobs = [].
  Proof using. clear. destruct jobs; [reflexivity|discriminate]. Qed.
  (** what the data machine's invariant says about an operation in data state 2 *)
  Lemma winv_two s k rest : (k < nops c)%nat -> winv (R k) (W k) (A k) (lw c) (M k) (oproj s k) rest -> y_fsm (oproj s k) = 2 ->
    0 < e_size s /\ (R k = Same -> rb_rvalid (n_rb (e_unit s k)) = true -> rb_rlast (n_rb (e_unit s k)) || (e_size s =? 1) = rb_rlast (n_rb (e_unit s k))).
  Proof using Hc HM.
    intros Hk (_ & jobs & _ & H) E. rewrite E in H. cbn [Z.eqb Pos.eqb] in H.
    destruct H as (j & Hj & _ & kk & e & b & ls & HR & He & Hb & Hls & Hsum & Hq & _ & Hsh).
    unfold oproj in Hq. cbn [y_queue] in Hq. symmetry in Hq. apply app_eq_nil in Hq. destruct Hq as [Hq _]. apply map_eq_nil in Hq. subst ls.
    cbn [fold_right] in Hsum. rewrite Z.add_0_r in Hsum. pose proof (pack_P (R k) (op_r k Hk)) as HP.
    destruct (local_is (R k) (W k) (lw c) (op_w k Hk) (op_r k Hk) (M k) (HM k Hk) j Hj) as (_ & L2 & _).
    unfold wshape, oproj in Hsh. cbn [y_size y_count y_wdata y_wlast y_wvalid] in Hsh.
    unfold oproj in HR. cbn [y_rb] in HR. split.
    - clear - Hsh Hsum He HP. destruct (R k); [lia|lia|]. destruct HP, Hsh as (Z1 & Z2 & _). nia.
    - intros Er Ev. unfold total, ram_total in *. rewrite Er in *. destruct Hsh as [-> Es].
      assert (X : rb_rlast (n_rb (e_unit s k)) = Nat.eqb (S e) (Z.to_nat (j_n j))).
      { inversion HR; [rewrite Ev in *; discriminate|assumption|rewrite Ev in *; discriminate]. }
      rewrite X. cbn [bus_words] in *. destruct (Nat.eqb_spec (S e) (Z.to_nat (j_n j))); [reflexivity|].
      cbn [orb]. lia.
  Qed.
  Lemma winv_zero s k rest : winv (R k) (W k) (A k) (lw c) (M k) (oproj s k) rest -> y_fsm (oproj s k) = 0 ->
    rest = [] /\ oquiet s k.
  Proof using.
    clear. intros (_ & jobs & _ & H) E. rewrite E in H. cbn [Z.eqb] in H. destruct H as (Hid & _ & Hq & ->). split; [|exact Hid].
    symmetry in Hq. apply entries_nil in Hq. subst. reflexivity.
  Qed.

  Definition owok (s : ost) (k : nat) : Prop :=
    match R k with Wide _ => 0 <= n_wdata (e_unit s k) < 2 ^ (W k * packz (R k)) | _ => True end.
  Lemma owok_step s i k : (k < nops c)%nat -> owok s k -> owok (step s i) k.
  Proof using Hc.
    intros Hk H. unfold owok in *. rewrite ounit_eq. unfold onit_step. pose proof (op_w k Hk) as Hw. pose proof (pack_P (R k) (op_r k Hk)) as HP.
    destruct (R k) as [|lp|lp]; auto. destruct (ohere c s k 1); [exact H|]. destruct (ohere c s k 2); [|exact H].
    cbn [n_wdata]. destruct (orv c s i k); [|exact H]. unfold owide, pk.
    pose proof (cat_bound [(W k, rb_rdata (n_rb (e_unit s k))); (W k * (2 ^ lp - 1), Z.shiftr (n_wdata (e_unit s k)) (W k))]) as Hb.
    cbn [total_width fold_right fst] in Hb. destruct HP as [HP1 HP2]. rewrite HP1 in *.
    replace (W k * 2 ^ lp) with (W k + (W k * (2 ^ lp - 1) + 0)) by ring. apply Hb. repeat constructor; cbn [fst]; nia.
  Qed.

  (** data state 1 starts the burst *)
  Lemma active_one s i k q : oactive s k 1 -> oquiet s k -> owok s k -> olegal_size c k (snd q) ->
    e_addr s = fst (fst q) -> e_stride s = snd (fst q) -> e_size s = wr_local (R k) (snd q) mod 2 ^ lw c ->
    oactive (step s i) k 2 /\ winv (R k) (W k) (A k) (lw c) (M k) (oproj (step s i) k) (odma_words c M k q) /\ ofired c s i = [] /\
    e_size (step s i) = Z.of_nat (T k q) * match R k with Wide _ => packz (R k) | _ => 1 end.
  Proof using Hc HM.
    intros H Q Hwo Hl Ea Est Esz. pose proof (oc_busy _ _ _ H) as Hb. pose proof (obusy_no s Hb) as Hd. pose proof (oc_k _ _ _ H) as Hk.
    pose proof (thr_not2 s k 1 H) as Hthr. pose proof (op_r k Hk) as Hr. pose proof (pack_P (R k) Hr) as HP.
    pose proof (wj_ok k q Hk Hl) as Hj. destruct (local_is (R k) (W k) (lw c) (op_w k Hk) Hr (M k) (HM k Hk) (wj k q) Hj) as (L1 & L2 & L3). cbn [wj j_n] in L1. rewrite <- Esz in L1.
    assert (Hsel : e_sel (step s i) = e_sel s) by (cbn [ostep e_sel]; rewrite Hd; reflexivity).
    pose proof (oactive_sel s k 1 k H) as Es. rewrite Nat.eqb_refl in Es.
    assert (Hno : owcond c s i k = false /\ odec c s i k = false /\ ofin c s i k = false).
    { apply (quiet_no s i k Hk Q). right. right. left. rewrite (oc_fsm _ _ _ H). lia. }
    destruct Hno as (N1 & N2 & N3).
    assert (Ew : oword c s i = None) by (rewrite (word_active s i k 1 H), N1; reflexivity).
    assert (Hthr' : e_thr (step s i) = 0 \/ e_thr (step s i) = 1).
    { cbn [ostep e_thr]. unfold othr_step. rewrite (oidle_busy s Hb). destruct (oc_thr _ _ _ H) as [E|E]; rewrite E; cbn [Z.eqb Pos.eqb].
      - destruct (w_write i); auto.
      - auto. }
    assert (Hact : oactive (step s i) k 2).
    { constructor; auto.
      - rewrite Hsel. apply (oc_sel _ _ _ H).
      - apply (fsm_one s i k); [exact Hk|apply class_refl|apply (oc_fsm _ _ _ H)].
      - intros r Hr'. apply fsm_idle; [apply (oc_oth _ _ _ H r Hr')|]. intros j _ _. apply obusy_dispatch, Hb.
      - cbn [ostep e_busy]. rewrite (fin_any s i k 1 H), N3, Hthr, Hd, (oidle_busy s Hb), andb_false_r. exact Hb.
      - intros j Hj' Hn. apply quiet_step; [exact Hj'| |apply (oc_quiet _ _ _ H); assumption].
        rewrite (oactive_sel s k 1 j H). apply Nat.eqb_neq in Hn. rewrite Hn. apply andb_false_r. }
    split; [exact Hact|].
    assert (Ssz : e_size (step s i) = Z.of_nat (T k q) * match R k with Wide _ => packz (R k) | _ => 1 end).
    { change (e_size (step s i)) with (osize_step c s i). rewrite (size_one s i k H Q), L1. unfold ram_total. rewrite total_wj. cbn [wj j_n]. destruct Hl as [Hl1 Hl2]. cbv zeta in Hl2.
      unfold nwords in *. destruct (R k) as [|lp|lp] eqn:Ek.
      - cbn [bus_words]. lia.
      - destruct HP as [HP1 HP2]. rewrite Z.shiftl_mul_pow2, <- HP1 by lia. unfold bus_words in *. rewrite Nat2Z.inj_mul in *. fold (packz (Narrow lp)) in *.
        rewrite Z.mod_small; lia.
      - rewrite Nat2Z.inj_mul. reflexivity. }
    split; [|split; [unfold ofired; rewrite Ew; reflexivity|exact Ssz]].
    assert (Hu : e_unit (step s i) k = mkOnit (match R k with Same => n_count (e_unit s k) | _ => 0 end) (n_wdata (e_unit s k)) (n_wlast (e_unit s k))
       (rb_step (A k) (lw c) (M k) (n_rb (e_unit s k)) (start_in (fst (fst q)) (snd (fst q)) (Z.of_nat (ram_total (R k) (wj k q))) (orready c s i k)))).
    { rewrite ounit_eq. unfold onit_step, start_in. rewrite !here0 by exact Hk. rewrite (oc_fsm _ _ _ H), Es, Ea, Est, L1. cbn [Z.eqb Pos.eqb andb].
      destruct (R k); reflexivity. }
    split.
    - pose proof (owok_step s i k Hk Hwo) as X. unfold owok in X. unfold wrange', oproj. cbn [y_wdata]. destruct (R k); exact X || exact I.
    - exists []. split; [constructor|].
      assert (Ef : y_fsm (oproj (step s i) k) = 2).
      { unfold oproj. cbn [y_fsm]. rewrite (oactive_sel _ k 2 k Hact), Nat.eqb_refl. apply (oc_fsm _ _ _ Hact). }
      rewrite Ef. cbn [Z.eqb Pos.eqb]. exists (wj k q). split; [exact Hj|]. split; [reflexivity|].
      exists 0%nat, 0%nat, (Z.of_nat (T k q)), []. rewrite total_wj in *.
      unfold oproj. cbn [y_rb y_queue]. rewrite Hu. cbn [n_rb].
      split; [apply rburst_start; [apply op_raw, Hk|exact L2|apply Q]|]. split; [exact L3|]. split; [lia|]. split; [constructor|].
      split; [cbn [fold_right]; lia|]. split; [reflexivity|]. split.
      + unfold jobs_beats. cbn [flat_map]. rewrite app_nil_r. rewrite (wrest_words k q (T k q) 0) by lia. reflexivity.
      + unfold wshape. cbn [y_size y_count y_wdata y_wlast y_wvalid n_count n_wdata n_wlast]. rewrite Ssz. unfold owok in Hwo.
        clear - HP Hwo. destruct (R k) as [|lp|lp].
        * split; [reflexivity|lia].
        * destruct HP. split; [lia|]. split; [lia|]. split; [cbn [Z.eqb]; lia|]. intros X; exfalso; apply X; reflexivity.
        * destruct HP. split; [lia|]. split; [lia|]. split; [intros X; exfalso; apply X; reflexivity|]. split; [lia|]. split; [exact Hwo|].
          rewrite Z.sub_0_r. apply Z.div_small, Hwo.
  Qed.
  Lemma two_step s i k rest : oactive s k 2 -> winv (R k) (W k) (A k) (lw c) (M k) (oproj s k) rest ->
    exists rest', rest = ofired c s i ++ rest' /\ winv (R k) (W k) (A k) (lw c) (M k) (oproj (step s i) k) rest' /\ 0 < e_size s.
  Proof using Hc HM.
    intros H Hw. pose proof (oc_k _ _ _ H) as Hk.
    assert (Ef : y_fsm (oproj s k) = 2).
    { unfold oproj. cbn [y_fsm]. rewrite (oactive_sel _ k 2 k H), Nat.eqb_refl. apply (oc_fsm _ _ _ H). }
    destruct (winv_two s k rest Hk Hw Ef) as [Hs Hlast].
    destruct (winv_step (R k) (W k) (A k) (lw c) (op_raw k Hk) (op_w k Hk) (op_r k Hk) (M k) (HM k Hk) (oproj s k) (wi i) rest Hw) as (rest' & -> & Hw').
    destruct (active_two s i k H Hs) as [E _]. exists rest'. rewrite E. split; [|split; [exact Hw'|exact Hs]]. f_equal.
    unfold ofired. rewrite (word_active s i k 2 H). unfold wr_beat. rewrite (proj_wcond s i k H Hs), proj_data.
    change (wr_ack (oproj s k) (wi i)) with (oack s i). destruct (owcond c s i k) eqn:Ew; [|reflexivity]. cbn [andb].
    destruct (oack s i); [|reflexivity]. do 2 f_equal. unfold wr_last, olast, oproj. cbn [y_size y_rb].
    destruct (R k) as [|lp|lp] eqn:Er; [|reflexivity|].
    - apply Hlast; [reflexivity|]. unfold owcond, orv in Ew. rewrite Er in Ew. apply andb_prop in Ew. destruct Ew as [_ Ew]. apply andb_prop in Ew. apply Ew.
    - f_equal. clear - Hs. lia.
  Qed.

  (** ** The invariant: [B] are the words registered by the channel so far *)
  Inductive ophase (s : ost) (js : list ojob) (B : list (Z * bool)) : Prop :=
  | O_idle : B = owords c M js -> oall0 s -> e_busy s = false -> e_thr s = 0 \/ e_thr s = 1 ->
      (forall k, (k < nops c)%nat -> oquiet s k) -> ophase s js B
  | O_write J : js = J ++ [OWrite (fst (e_val s)) (snd (e_val s))] -> B = owords c M J ->
      oall0 s -> e_busy s = true -> e_thr s = 2 -> (forall k, (k < nops c)%nat -> oquiet s k) -> ophase s js B
  | O_start J k q : js = J ++ [ODma k q] -> B = owords c M J -> oactive s k 1 -> olegal_size c k (snd q) -> oquiet s k ->
      e_addr s = fst (fst q) -> e_stride s = snd (fst q) -> e_size s = wr_local (R k) (snd q) mod 2 ^ lw c -> ophase s js B
  | O_run J k q rest : js = J ++ [ODma k q] -> B ++ rest = owords c M js -> oactive s k 2 -> olegal_size c k (snd q) ->
      winv (R k) (W k) (A k) (lw c) (M k) (oproj s k) rest -> (length rest <= T k q)%nat -> ophase s js B.
  Record oinv (s : ost) (D : list ojob) (P : list oreq) (B : list (Z * bool)) : Prop := mkOinv {
    ov_q : Inv (2 ^ g_fa c) (e_q s) (map oreq_word P);
    ov_legal : Forall olegal_rq P;
    ov_wok : forall k, (k < nops c)%nat -> owok s k;
    ov_ph : ophase s D B }.

  (** ** The queue *)
  Definition oacc (s : ost) (i : oinp) : list oreq :=
    match w_req i with Some (k, a, d, n) => if oaccepts c s then [(k, (a, d, n))] else [] | None => [] end.
  Lemma oissued_acc s i : oissued c s i =
    (if (e_thr s =? 1) && oidle s then [OWrite (fst (e_val s)) (snd (e_val s))] else []) ++ map oreq_job (oacc s i).
  Proof using.
    clear. unfold oissued, oacc. f_equal. destruct (w_req i) as [[[[k a] d] n]|]; [|reflexivity]. destruct (oaccepts c s); reflexivity.
  Qed.
  Lemma oacc_legal s i : olegal_in c i -> Forall olegal_rq (oacc s i).
  Proof using.
    clear. intros H. unfold oacc, olegal_in in *. destruct (w_req i) as [[[[k a] d] n]|]; [|constructor].
    destruct (oaccepts c s); constructor; [exact H|constructor].
  Qed.
  Lemma oq_step s i P : Inv (2 ^ g_fa c) (e_q s) (map oreq_word P) ->
    (any c (odispatch c s) = true -> P <> []) ->
    Inv (2 ^ g_fa c) (e_q (step s i)) (map oreq_word ((if any c (odispatch c s) then tl P else P) ++ oacc s i)).
  Proof using Hc.
    intros HI HD. cbn [ostep e_q]. unfold oq_in. set (dq := any c (odispatch c s)) in *.
    assert (Ed : deq_rtl (e_q s) dq = dq).
    { unfold deq_rtl, deq_ready. rewrite (empty_list (g_fa c) _ _ fa1 HI). destruct dq; [|reflexivity].
      destruct P; [exfalso; apply HD; reflexivity|reflexivity]. }
    rewrite Ed. rewrite map_app. replace (map oreq_word (if dq then tl P else P)) with (if dq then tl (map oreq_word P) else map oreq_word P)
      by (destruct dq; [destruct P; reflexivity|reflexivity]).
    assert (HD' : dq = true -> map oreq_word P <> []).
    { intros E. specialize (HD E). destruct P; [exfalso; apply HD; reflexivity|discriminate]. }
    assert (Hn : Inv (2 ^ g_fa c) (fifo_step false (g_fa c) (e_q s) (mkFifoIn false 0 dq)) ((if dq then tl (map oreq_word P) else map oreq_word P) ++ [])).
    { pose proof (fstep_list (g_fa c) _ _ false 0 dq fa1 HI HD') as X. exact X. }
    unfold oacc. destruct (w_req i) as [[[[k a] d] n]|]; [|exact Hn].
    pose proof (fstep_list (g_fa c) _ _ (oaccepts c s) (pack_rreq c (opid k) a d n) dq fa1 HI HD') as X.
    unfold oaccepts in *. rewrite andb_diag in X. destruct (negb (p_almost_full (g_fa c) (e_q s))); exact X.
  Qed.
  Lemma ounpack_req x : olegal_rq x ->
    rq_op c (oreq_word x) = opid (fst x) /\ (rq_addr c (oreq_word x), rq_stride c (oreq_word x), rq_size c (oreq_word x)) = snd x.
  Proof using Hc.
    intros (X1 & X2 & X3 & [X4 _]). assert (X4' : 0 <= snd (snd x) < 2 ^ lw c) by (clear - X4; lia).
    assert (Hs : 1 <= g_sw c) by apply Hc.
    destruct (unpack_pack c (opid (fst x)) _ _ _ aw1 Hs (op_id _ X1) X2 X3 X4') as (E1 & E2 & E3 & E4).
    unfold oreq_word. split; [exact E1|]. rewrite E2, E3, E4. destruct x as [? [[? ?] ?]]. reflexivity.
  Qed.
  Lemma oidle_dispatch s x P k : oall0 s -> e_busy s = false -> Inv (2 ^ g_fa c) (e_q s) (map oreq_word (x :: P)) -> olegal_rq x ->
    (k < nops c)%nat -> odispatch c s k = Nat.eqb k (fst x).
  Proof using Hc.
    intros H0 Hb HI Hx Hk. unfold odispatch. rewrite here0 by exact Hk. rewrite H0, Hb, (empty_list (g_fa c) _ _ fa1 HI). cbn [map Z.eqb negb andb].
    unfold ohead. rewrite (rdata_list (g_fa c) _ _ _ fa1 HI).
    destruct (ounpack_req x Hx) as (E & _). rewrite E.
    destruct (Nat.eqb k (fst x)) eqn:En.
    - apply Nat.eqb_eq in En. subst. apply Z.eqb_refl.
    - apply Nat.eqb_neq in En. apply Z.eqb_neq. intros Y. apply En. symmetry. apply opid_inj. exact Y.
  Qed.
  Lemma oempty_dispatch s k : Inv (2 ^ g_fa c) (e_q s) [] -> odispatch c s k = false.
  Proof using Hc. intros HI. unfold odispatch. rewrite (empty_list (g_fa c) _ _ fa1 HI). rewrite andb_false_r. cbn. apply andb_false_r. Qed.
  Lemma all0_no s i : oall0 s -> (forall k, (k < nops c)%nat -> oquiet s k) ->
    any c (odec c s i) = false /\ any c (ofin c s i) = false /\ forall k, (k < nops c)%nat -> owcond c s i k = false.
  Proof using Hc.
    intros H Q. assert (G : forall k, (k < nops c)%nat -> owcond c s i k = false /\ odec c s i k = false /\ ofin c s i k = false).
    { intros k Hk. apply (quiet_no s i k Hk (Q k Hk)). right. right. left. rewrite H. lia. }
    split; [|split]; [apply any_false; intros; apply G; assumption|apply any_false; intros; apply G; assumption|]. intros k Hk. apply G, Hk.
  Qed.
  Lemma all0_quiet s i k : oall0 s -> (k < nops c)%nat -> oquiet s k -> oquiet (step s i) k.
  Proof using Hc. intros H Hk Q. apply quiet_step; [exact Hk| |exact Q]. rewrite here0 by exact Hk. rewrite H. reflexivity. Qed.
  Lemma all0_word s i : oall0 s -> (forall k, (k < nops c)%nat -> oquiet s k) -> e_thr s <> 2 -> ofired c s i = [].
  Proof using Hc.
    intros H Q Ht. unfold ofired, oword. replace (e_thr s =? 2) with false by lia. cbn [andb]. rewrite last_none; [reflexivity|].
    intros k Hk. destruct (all0_no s i H Q) as (_ & _ & G). rewrite G by exact Hk. reflexivity.
  Qed.
  Lemma all0_step s i : oall0 s -> (forall k, (k < nops c)%nat -> odispatch c s k = false) -> oall0 (step s i).
  Proof using Hc. intros H D r. apply fsm_idle; [apply H|]. intros k Hk _. apply D, Hk. Qed.

  Definition onextP (s : ost) (i : oinp) (P : list oreq) : list oreq := (if any c (odispatch c s) then tl P else P) ++ oacc s i.
  Theorem oinv_step s i D P B : oinv s D P B -> olegal_in c i ->
    exists D', oinv (step s i) D' (onextP s i P) (B ++ ofired c s i) /\
      D' ++ map oreq_job (onextP s i P) = D ++ map oreq_job P ++ oissued c s i.
  Proof using Hc HM.
    intros [HQ HL HW HP] Hi. rewrite oissued_acc. unfold onextP.
    assert (HW' : forall k, (k < nops c)%nat -> owok (step s i) k) by (intros k Hk; apply owok_step; auto).
    destruct HP as [-> H0 Hb Ht Hu | J -> -> H0 Hb Ht Hu | J k q -> -> Ha Hq Hk Ea Es En | J k q rest -> HB Ha Hq Hw Hlr].
    - (* idle *)
      assert (Et2 : e_thr s =? 2 = false) by (destruct Ht as [E|E]; rewrite E; reflexivity).
      assert (Ewd : ofired c s i = []) by (apply all0_word; [exact H0|exact Hu|lia]).
      rewrite Ewd, app_nil_r.
      assert (Hqu : forall k, (k < nops c)%nat -> oquiet (step s i) k) by (intros k Hk; apply all0_quiet; auto).
      destruct (all0_no s i H0 Hu) as (Nd & Nf & _).
      destruct P as [|x P].
      + cbn [map] in HQ. assert (Hd : forall k, (k < nops c)%nat -> odispatch c s k = false) by (intros; apply oempty_dispatch, HQ).
        assert (Ed : any c (odispatch c s) = false) by (apply any_false, Hd).
        assert (Ei : oidle s = true) by (unfold oidle; rewrite (empty_list (g_fa c) _ _ fa1 HQ), Hb; reflexivity).
        pose proof (oq_step s i [] HQ ltac:(rewrite Ed; discriminate)) as HQ'. rewrite Ed in HQ'. cbn [app] in HQ'.
        rewrite Ei, andb_true_r. pose proof (oacc_legal s i Hi) as HL'.
        assert (H0' : oall0 (step s i)) by (apply all0_step; assumption).
        destruct Ht as [Ht|Ht]; rewrite Ht; cbn [Z.eqb Pos.eqb app].
        * exists D. rewrite Ed. cbn [app]. split; [|reflexivity]. constructor; auto.
          apply O_idle; auto.
          -- cbn [ostep e_busy]. rewrite Nf, Ed, Ht. cbn. exact Hb.
          -- cbn [ostep e_thr]. unfold othr_step. rewrite Ht. cbn [Z.eqb]. destruct (w_write i); auto.
        * exists (D ++ [OWrite (fst (e_val s)) (snd (e_val s))]). rewrite Ed. cbn [app]. split; [|rewrite <- app_assoc; reflexivity]. constructor; auto.
          apply (O_write _ _ _ D); auto.
          -- cbn [ostep e_val]. rewrite Ht. reflexivity.
          -- cbn [ostep e_busy]. rewrite Nf, Ed, Ht, Ei. reflexivity.
          -- cbn [ostep e_thr]. unfold othr_step. rewrite Ht, Ei. reflexivity.
      + (* a request is dispatched *)
        pose proof (Forall_inv HL) as Hx. pose proof (Forall_inv_tail HL) as HL2.
        pose proof (fun k => oidle_dispatch s x P k H0 Hb HQ Hx) as Hd.
        assert (Ed : any c (odispatch c s) = true).
        { apply (any_intro c _ (fst x)); [apply Hx|]. rewrite Hd by apply Hx. apply Nat.eqb_refl. }
        assert (Ei : oidle s = false) by (unfold oidle; rewrite (empty_list (g_fa c) _ _ fa1 HQ); reflexivity).
        pose proof (oq_step s i (x :: P) HQ ltac:(discriminate)) as HQ'. rewrite Ed in HQ'. cbn [tl] in HQ'.
        rewrite Ei, andb_false_r. cbn [app]. exists (D ++ [oreq_job x]). rewrite Ed. cbn [tl].
        split; [|rewrite <- app_assoc, map_app; reflexivity].
        destruct (ounpack_req x Hx) as [U1 U2]. assert (Eh : ohead s = oreq_word x) by (unfold ohead; apply (rdata_list (g_fa c) _ _ _ fa1 HQ)).
        constructor; auto.
        * apply Forall_app. split; [exact HL2|]. apply oacc_legal, Hi.
        * apply (O_start _ _ _ D (fst x) (snd x)); auto.
          -- constructor; auto.
             ++ apply Hx.
             ++ cbn [ostep e_sel]. rewrite Ed, Eh. exact U1.
             ++ rewrite ofsm_of_step. unfold ofsm_step. rewrite (last_some c _ 1 (fst x)); [reflexivity|apply Hx| |].
                ** rewrite class_refl, jump0 by apply Hx. rewrite H0, Hd by apply Hx. rewrite Nat.eqb_refl. reflexivity.
                ** intros j Hj. destruct (same_class _ _); [|left; reflexivity]. rewrite jump0 by exact Hj. rewrite H0. cbn [Z.eqb].
                   destruct (odispatch c s j); auto.
             ++ intros r Hr. apply fsm_idle; [apply H0|]. intros j Hj Hc'. rewrite Hd by exact Hj.
                destruct (Nat.eqb j (fst x)) eqn:E; [|reflexivity]. apply Nat.eqb_eq in E. subst j. congruence.
             ++ cbn [ostep e_busy]. rewrite Nf, Ed, Et2. reflexivity.
             ++ cbn [ostep e_thr]. unfold othr_step. rewrite Ei. destruct Ht as [E|E]; rewrite E; cbn [Z.eqb Pos.eqb]; [destruct (w_write i); auto|auto].
          -- apply Hx.
          -- apply Hqu, Hx.
          -- cbn [ostep e_addr]. rewrite Ed, Eh, <- U2. reflexivity.
          -- cbn [ostep e_stride]. rewrite Ed, Eh, <- U2. reflexivity.
          -- cbn [ostep e_size]. unfold osize_step. rewrite Eh.
             rewrite (last_some c _ (wr_local (R (fst x)) (snd (snd x))) (fst x)); [reflexivity|apply Hx| |].
             ++ rewrite Hd by apply Hx. rewrite Nat.eqb_refl, <- U2. reflexivity.
             ++ intros j Hj. rewrite Hd by exact Hj. destruct (Nat.eqb j (fst x)) eqn:E; [|left; reflexivity]. apply Nat.eqb_eq in E. subst j.
                right. rewrite <- U2. reflexivity.
    - (* a thread writes *)
      pose proof (obusy_no s Hb) as Ed. pose proof (oidle_busy s Hb) as Ei.
      pose proof (oq_step s i P HQ ltac:(rewrite Ed; discriminate)) as HQ'. rewrite Ed in HQ'.
      rewrite Ei, andb_false_r. cbn [app].
      exists (J ++ [OWrite (fst (e_val s)) (snd (e_val s))]). rewrite Ed. split; [|rewrite map_app; reflexivity].
      destruct (all0_no s i H0 Hu) as (Nd & Nf & Nw).
      assert (H0' : oall0 (step s i)) by (apply all0_step; [exact H0|intros; apply obusy_dispatch, Hb]).
      assert (Hqu : forall k, (k < nops c)%nat -> oquiet (step s i) k) by (intros k Hk; apply all0_quiet; auto).
      constructor; auto; [apply Forall_app; split; [exact HL|apply oacc_legal, Hi]|].
      unfold ofired, oword. rewrite Ht. cbn [Z.eqb Pos.eqb andb]. destruct (oack s i) eqn:Ev.
      + apply O_idle; auto.
        * rewrite owords_app. cbn [owords flat_map ojob_words]. rewrite app_nil_r. destruct (e_val s). reflexivity.
        * cbn [ostep e_busy]. rewrite Nf, Ht, Ev. reflexivity.
        * cbn [ostep e_thr]. unfold othr_step. rewrite Ht, Ev. auto.
      + rewrite last_none by (intros k Hk; rewrite Nw by exact Hk; reflexivity). rewrite app_nil_r. apply (O_write _ _ _ J); auto.
        * cbn [ostep e_val]. rewrite Ht. reflexivity.
        * cbn [ostep e_busy]. rewrite Nf, Ht, Ev, Ed, Ei. exact Hb.
        * cbn [ostep e_thr]. unfold othr_step. rewrite Ht, Ev. reflexivity.
    - (* data state 1 *)
      pose proof (oc_busy _ _ _ Ha) as Hb. pose proof (oc_k _ _ _ Ha) as Hkk.
      pose proof (obusy_no s Hb) as Ed. pose proof (oidle_busy s Hb) as Ei.
      pose proof (oq_step s i P HQ ltac:(rewrite Ed; discriminate)) as HQ'. rewrite Ed in HQ'.
      rewrite Ei, andb_false_r. cbn [app].
      exists (J ++ [ODma k q]). rewrite Ed. split; [|rewrite map_app; reflexivity].
      destruct (active_one s i k q Ha Hk (HW k Hkk) Hq Ea Es En) as (N1 & N2 & N3 & _).
      constructor; auto; [apply Forall_app; split; [exact HL|apply oacc_legal, Hi]|].
      rewrite N3, app_nil_r. apply (O_run _ _ _ J k q (odma_words c M k q)); auto; [|unfold odma_words; rewrite map_length, seq_length; reflexivity].
      rewrite owords_app. cbn [owords flat_map ojob_words]. rewrite app_nil_r. reflexivity.
    - (* data state 2 *)
      pose proof (oc_busy _ _ _ Ha) as Hb. pose proof (oc_k _ _ _ Ha) as Hkk.
      pose proof (obusy_no s Hb) as Ed. pose proof (oidle_busy s Hb) as Ei.
      pose proof (oq_step s i P HQ ltac:(rewrite Ed; discriminate)) as HQ'. rewrite Ed in HQ'.
      rewrite Ei, andb_false_r. cbn [app].
      exists (J ++ [ODma k q]). rewrite Ed. split; [|rewrite map_app; reflexivity].
      destruct (two_step s i k rest Ha Hw) as (rest' & -> & Hw' & Hs).
      constructor; auto; [apply Forall_app; split; [exact HL|apply oacc_legal, Hi]|].
      destruct (active_two s i k Ha Hs) as [_ Hn]. cbv zeta in Hn. rewrite app_assoc in HB.
      destruct Hn as [[Ef Hn]|(Ef & N1 & N2 & N3 & N4)].
      + apply (O_run _ _ _ J k q rest'); auto. rewrite app_length in Hlr. lia.
      + destruct (winv_zero _ _ _ Hw' Ef) as [-> Qk]. rewrite app_nil_r in HB. apply O_idle; auto.
        intros j Hj. destruct (Nat.eq_dec j k) as [->|Hn]; [exact Qk|apply N4; assumption].
  Qed.

  (** ** Runs *)
  Variable fm : Z -> Z.
  Lemma oinv_init : oinv (oinit fm) [] [] [].
  Proof using Hc.
    constructor.
    - apply init_inv, fa1.
    - constructor.
    - intros k Hk. unfold owok. pose proof (op_w k Hk) as Hw. destruct (R k); auto. cbn [oinit e_unit n_wdata]. split; [lia|].
      unfold packz. apply Z.pow_pos_nonneg; nia.
    - apply O_idle; auto.
      + intros r. destruct r; reflexivity.
      + intros k Hk. split; reflexivity.
  Qed.
  Lemma oinv_run ins : forall s D P B, oinv s D P (B ++ opending s) -> Forall (olegal_in c) ins ->
    exists D' P', oinv (orun c M s ins) D' P' (B ++ osents c M s ins ++ opending (orun c M s ins)) /\
      D' ++ map oreq_job P' = D ++ map oreq_job P ++ ojobs c M s ins.
  Proof using Hc HM.
    induction ins as [|i ins IH]; intros s D P B HI HL.
    - exists D, P. unfold osents, ojobs. cbn. rewrite !app_nil_r. split; [exact HI|reflexivity].
    - destruct (oinv_step s i D P _ HI (Forall_inv HL)) as (D1 & HI1 & E1). rewrite <- app_assoc, (chan_step c M), app_assoc in HI1.
      destruct (IH (step s i) D1 (onextP s i P) _ HI1 (Forall_inv_tail HL)) as (D' & P' & HI' & E').
      exists D', P'. unfold osents, ojobs, orun, final in *. cbn [outs concat fold_left]. rewrite <- !app_assoc in *. split; [exact HI'|].
      rewrite E'. rewrite app_assoc, E1, <- !app_assoc. reflexivity.
  Qed.
  Lemma oreached ins : Forall (olegal_in c) ins ->
    exists D P, oinv (orun c M (oinit fm) ins) D P (osents c M (oinit fm) ins ++ opending (orun c M (oinit fm) ins)) /\
      ojobs c M (oinit fm) ins = D ++ map oreq_job P.
  Proof using Hc HM.
    intros H. destruct (oinv_run ins (oinit fm) [] [] [] oinv_init H) as (D & P & A1 & A2). exists D, P. split; [exact A1|symmetry; exact A2].
  Qed.
  Lemma phase_prefix s D B : ophase s D B -> exists rest, owords c M D = B ++ rest.
  Proof using.
    clear. intros [-> _ _ _ _|J -> -> _ _ _ _|J k q -> -> _ _ _ _ _ _|J k q rest -> HB _ _ _ _].
    - exists []. rewrite app_nil_r. reflexivity.
    - rewrite owords_app. eauto.
    - rewrite owords_app. eauto.
    - exists rest. symmetry. exact HB.
  Qed.
  Theorem oalways ins : Forall (olegal_in c) ins ->
    exists rest, owords c M (ojobs c M (oinit fm) ins) = osents c M (oinit fm) ins ++ opending (orun c M (oinit fm) ins) ++ rest.
  Proof using Hc HM.
    intros H. destruct (oreached ins H) as (D & P & [_ _ _ HP] & E). rewrite E, owords_app. destruct (phase_prefix _ _ _ HP) as [rest Er].
    rewrite Er. exists (rest ++ owords c M (map oreq_job P)). rewrite <- !app_assoc. reflexivity.
  Qed.
  Lemma oinv_idle s D P B : oinv s D P B -> oidle s = true -> P = [] /\ B = owords c M D /\ oall0 s /\ (forall k, (k < nops c)%nat -> oquiet s k).
  Proof using Hc.
    intros [HQ HL HW HP] Hi. unfold oidle in Hi. rewrite (empty_list (g_fa c) _ _ fa1 HQ) in Hi. split; [destruct P; [reflexivity|discriminate]|].
    destruct (map oreq_word P); [|discriminate]. cbn [andb] in Hi.
    destruct HP as [-> H0 Hb Ht Hu | J -> -> H0 Hb Ht Hu | J k q -> -> Ha Hq Hk Ea Es En | J k q rest -> HB Ha Hq Hw Hlr].
    - auto.
    - rewrite Hb in Hi. discriminate.
    - rewrite (oc_busy _ _ _ Ha) in Hi. discriminate.
    - rewrite (oc_busy _ _ _ Ha) in Hi. discriminate.
  Qed.
  Theorem oidle_done ins : Forall (olegal_in c) ins -> let s := orun c M (oinit fm) ins in oidle s = true ->
    osents c M (oinit fm) ins ++ opending s = owords c M (ojobs c M (oinit fm) ins).
  Proof using Hc HM.
    intros H s Hid. destruct (oreached ins H) as (D & P & HI & E). fold s in HI.
    destruct (oinv_idle s D P _ HI Hid) as (-> & E1 & _). rewrite E. cbn [map]. rewrite app_nil_r. exact E1.
  Qed.

  (** ** Progress *)
  Definition ou (k : nat) : Z := match R k with Wide _ => packz (R k) | _ => 1 end.
  Definition oact (s : ost) : Z :=
    let k := Z.to_nat (e_sel s - 1) in let p := oproj s k in
    if y_fsm p =? 0 then 0 else if y_fsm p =? 1 then 2 + y_size p * match R k with Narrow _ => packz (R k) | _ => 1 end
    else y_size p + lat (y_rb p).
  Definition owaiting (s : ost) : Z := if e_thr s =? 1 then 2 else if e_thr s =? 2 then 1 else 0.
  Definition odue (P : list oreq) : Z := fold_right (fun x t => ojob_cost c (oreq_job x) + t) 0 P.
  Definition omu (s : ost) (P : list oreq) : Z := odue P + owaiting s + oact s.

  Lemma proj_fsm s k x : oactive s k x -> y_fsm (oproj s k) = x /\ Z.to_nat (e_sel s - 1) = k.
  Proof using.
    clear. intros H. rewrite (oc_sel _ _ _ H). split; [|unfold opid; lia]. unfold oproj. cbn [y_fsm].
    rewrite (oactive_sel s k x k H), Nat.eqb_refl. apply (oc_fsm _ _ _ H).
  Qed.
  Lemma oact_all0 s : oall0 s -> oact s = 0.
  Proof using. clear. intros H. unfold oact, oproj. cbn [y_fsm]. rewrite H. destruct (osel s _); reflexivity. Qed.
  Lemma oact_two s k : oactive s k 2 -> oact s = wm (R k) (oproj s k).
  Proof using. clear. intros H. destruct (proj_fsm s k 2 H) as [E1 E2]. unfold oact, wm. rewrite E2, E1. reflexivity. Qed.
  Lemma oact_one s k q : oactive s k 1 -> olegal_size c k (snd q) -> e_size s = wr_local (R k) (snd q) mod 2 ^ lw c ->
    oact s = 2 + Z.of_nat (T k q) * ou k.
  Proof using Hc HM.
    clear fm. intros H Hl En. pose proof (oc_k _ _ _ H) as Hk. destruct (proj_fsm s k 1 H) as [E1 E2]. unfold oact. rewrite E2, E1. cbn [Z.eqb Pos.eqb].
    destruct (local_is (R k) (W k) (lw c) (op_w k Hk) (op_r k Hk) (M k) (HM k Hk) (wj k q) (wj_ok k q Hk Hl)) as (L1 & _). cbn [wj j_n] in L1.
    unfold oproj. cbn [y_size]. rewrite En, L1. unfold ram_total, ou. rewrite total_wj. cbn [wj j_n]. unfold nwords, packz.
    destruct (R k); cbn [bus_words]; lia.
  Qed.
  Lemma olegal_cost x : olegal_rq x -> 1 <= ojob_cost c (oreq_job x).
  Proof using. clear. intros _. unfold ojob_cost, oreq_job. destruct (R (fst x)); nia. Qed.
  Lemma odue_nonneg P : Forall olegal_rq P -> 0 <= odue P.
  Proof using.
    clear. induction 1 as [|x P H _ IH]; [cbn; lia|]. change (odue (x :: P)) with (ojob_cost c (oreq_job x) + odue P).
    pose proof (olegal_cost x H). lia.
  Qed.
  Lemma wm_two s k rest : oactive s k 2 -> winv (R k) (W k) (A k) (lw c) (M k) (oproj s k) rest -> 1 <= wm (R k) (oproj s k).
  Proof using Hc HM.
    clear fm. intros H Hw. destruct (proj_fsm s k 2 H) as [E1 _]. destruct (winv_two s k rest (oc_k _ _ _ H) Hw E1) as [Hs _].
    unfold wm. rewrite E1. cbn [Z.eqb Pos.eqb]. unfold oproj. cbn [y_size y_rb y_queue qcost fold_right]. pose proof (lat_pos (n_rb (e_unit s k))). lia.
  Qed.
  Lemma waiting_nonneg s : 0 <= owaiting s <= 2.
  Proof using. clear. unfold owaiting. destruct (e_thr s =? 1), (e_thr s =? 2); lia. Qed.
  Lemma waiting_keep s i k x : oactive s k x -> w_write i = None -> owaiting (step s i) = owaiting s.
  Proof using.
    clear. intros Ha Hn. unfold owaiting. cbn [ostep e_thr]. unfold othr_step. rewrite (oidle_busy s (oc_busy _ _ _ Ha)), Hn.
    destruct (oc_thr _ _ _ Ha) as [E|E]; rewrite E; reflexivity.
  Qed.
  Lemma omu_step s i D P B : oinv s D P B -> olegal_in c i -> oquiet_in i ->
    omu (step s i) (onextP s i P) <= Z.max 0 (omu s P - b2z (w_ready i)).
  Proof using Hc HM.
    clear fm. intros HI Hi [Hn1 Hn2]. destruct (oinv_step s i D P B HI Hi) as (D' & HI' & _). revert HI'. unfold onextP.
    assert (Ea : oacc s i = []) by (unfold oacc; rewrite Hn1; reflexivity). rewrite Ea, app_nil_r. intros HI'.
    destruct HI as [HQ HL HW HP].
    pose proof (odue_nonneg P HL) as Hdue. assert (Hv : 0 <= b2z (w_ready i) <= 1) by (destruct (w_ready i); cbn; lia).
    pose proof (waiting_nonneg s) as Hwt.
    destruct HP as [-> H0 Hb Ht Hu | J -> -> H0 Hb Ht Hu | J k q -> -> Ha Hq Hk Eq1 Eq2 En | J k q rest -> HB Ha Hq Hw Hlr].
    - destruct P as [|x P].
      + assert (Hd : forall k, (k < nops c)%nat -> odispatch c s k = false) by (intros; apply oempty_dispatch, HQ).
        assert (Ed : any c (odispatch c s) = false) by (apply any_false, Hd). rewrite Ed.
        assert (Ei : oidle s = true) by (unfold oidle; rewrite (empty_list (g_fa c) _ _ fa1 HQ), Hb; reflexivity).
        unfold omu. rewrite (oact_all0 _ H0), (oact_all0 (step s i)) by (apply all0_step; assumption).
        unfold owaiting. cbn [ostep e_thr]. unfold othr_step. rewrite Ei, Hn2. destruct Ht as [E|E]; rewrite E; cbn [Z.eqb Pos.eqb odue fold_right]; lia.
      + pose proof (Forall_inv HL) as Hx. pose proof (fun k => oidle_dispatch s x P k H0 Hb HQ Hx) as Hd.
        assert (Ed : any c (odispatch c s) = true).
        { apply (any_intro c _ (fst x)); [apply Hx|]. rewrite Hd by apply Hx. apply Nat.eqb_refl. }
        rewrite Ed in *. cbn [tl] in *.
        assert (Ei : oidle s = false) by (unfold oidle; rewrite (empty_list (g_fa c) _ _ fa1 HQ); reflexivity).
        assert (Ew : owaiting (step s i) = owaiting s).
        { unfold owaiting. cbn [ostep e_thr]. unfold othr_step. rewrite Ei, Hn2. destruct Ht as [E|E]; rewrite E; reflexivity. }
        destruct (ounpack_req x Hx) as [U1 U2]. assert (Eh : ohead s = oreq_word x) by (unfold ohead; apply (rdata_list (g_fa c) _ _ _ fa1 HQ)).
        assert (Ha' : oact (step s i) = 2 + Z.of_nat (T (fst x) (snd x)) * ou (fst x)).
        { unfold oact. assert (Es : e_sel (step s i) = opid (fst x)) by (cbn [ostep e_sel]; rewrite Ed, Eh; exact U1).
          rewrite Es. replace (Z.to_nat (opid (fst x) - 1)) with (fst x) by (clear; unfold opid; lia).
          assert (Ef : y_fsm (oproj (step s i) (fst x)) = 1).
          { unfold oproj. cbn [y_fsm]. unfold osel. rewrite Es, Z.eqb_refl. rewrite ofsm_of_step. unfold ofsm_step. rewrite (last_some c _ 1 (fst x)); [reflexivity|apply Hx| |].
            - rewrite class_refl, jump0 by apply Hx. rewrite H0, Hd by apply Hx. rewrite Nat.eqb_refl. reflexivity.
            - intros j Hj. destruct (same_class _ _); [|left; reflexivity]. rewrite jump0 by exact Hj. rewrite H0. cbn [Z.eqb].
              destruct (odispatch c s j); auto. }
          rewrite Ef. cbn [Z.eqb Pos.eqb]. unfold oproj. cbn [y_size ostep e_size]. unfold osize_step. rewrite Eh.
          rewrite (last_some c _ (wr_local (R (fst x)) (snd (snd x))) (fst x)); [|apply Hx| |].
          - destruct Hx as (Hk & _ & _ & Hl).
            destruct (local_is (R (fst x)) (W (fst x)) (lw c) (op_w _ Hk) (op_r _ Hk) (M (fst x)) (HM _ Hk) (wj (fst x) (snd x)) (wj_ok _ _ Hk Hl)) as (L1 & _).
            cbn [wj j_n] in L1. rewrite L1. unfold ram_total, ou. rewrite total_wj. cbn [wj j_n]. unfold nwords, packz. clear.
            destruct (R (fst x)); cbn [bus_words]; lia.
          - rewrite Hd by apply Hx. rewrite Nat.eqb_refl, <- U2. reflexivity.
          - intros j Hj. rewrite Hd by exact Hj. destruct (Nat.eqb j (fst x)) eqn:E; [|left; reflexivity]. apply Nat.eqb_eq in E. subst j.
            right. rewrite <- U2. reflexivity. }
        unfold omu. rewrite Ew, Ha', (oact_all0 s H0). change (odue (x :: P)) with (ojob_cost c (oreq_job x) + odue P) in *.
        unfold ojob_cost, oreq_job, ou, packz in *. cbv zeta in *. clear - Hv Hdue Hwt. lia.
    - pose proof (obusy_no s Hb) as Ed. rewrite Ed.
      unfold omu. rewrite (oact_all0 _ H0), (oact_all0 (step s i)) by (apply all0_step; [exact H0|intros; apply obusy_dispatch, Hb]).
      unfold owaiting. cbn [ostep e_thr]. unfold othr_step. rewrite Ht. cbn [Z.eqb Pos.eqb]. unfold oack.
      destruct (w_ready i), (e_tvalid s); cbn [Z.eqb Pos.eqb orb negb b2z]; lia.
    - pose proof (obusy_no s (oc_busy _ _ _ Ha)) as Ed. rewrite Ed. pose proof (oc_k _ _ _ Ha) as Hkk.
      destruct (active_one s i k q Ha Hk (HW k Hkk) Hq Eq1 Eq2 En) as (N1 & N2 & _ & N4).
      unfold omu. rewrite (waiting_keep s i k 1 Ha Hn2), (oact_one s k q Ha Hq En), (oact_two _ k N1).
      destruct (proj_fsm _ k 2 N1) as [E1 _]. unfold wm. rewrite E1. cbn [Z.eqb Pos.eqb]. unfold oproj. cbn [y_queue qcost fold_right y_size y_rb].
      rewrite N4. fold (ou k).
      assert (Hl : lat (n_rb (e_unit (step s i) k)) <= 1) by (unfold lat; destruct (_ && _); lia).
      assert (0 <= Z.of_nat (T k q) * ou k) by (unfold ou, packz; clear; destruct (R k); nia). clear - Hl Hdue Hwt Hv H. lia.
    - pose proof (obusy_no s (oc_busy _ _ _ Ha)) as Ed. rewrite Ed. pose proof (oc_k _ _ _ Ha) as Hkk.
      destruct (two_step s i k rest Ha Hw) as (rest' & -> & Hw' & Hs).
      pose proof (wm_step (R k) (W k) (A k) (lw c) (op_w k Hkk) (op_r k Hkk) (M k) (HM k Hkk) (oproj s k) (wi i) _ Hw) as Hm.
      destruct (active_two s i k Ha Hs) as [Ep Hn]. rewrite <- Ep in Hm. cbn [wr_good wi yi_avail yi_ready andb] in Hm.
      pose proof (wm_two s k _ Ha Hw) as H1. unfold omu. rewrite (waiting_keep s i k 2 Ha Hn2), (oact_two s k Ha). cbv zeta in Hn.
      change (wr_good (wi i)) with (w_ready i) in Hm.
      destruct Hn as [[_ Hn]|(_ & N1 & _)].
      + rewrite (oact_two _ k Hn). pose proof (wm_two _ k _ Hn Hw'). clear - Hm H Hdue Hwt Hv H1. lia.
      + rewrite (oact_all0 _ N1). clear - Hdue Hwt Hv H1. lia.
  Qed.
  Lemma omu_zero s D P B : oinv s D P B -> omu s P <= 0 -> oidle s = true /\ e_thr s = 0.
  Proof using Hc HM.
    clear fm. intros [HQ HL HW HP] Hm. pose proof (odue_nonneg P HL) as Hdue. unfold omu in Hm. pose proof (waiting_nonneg s) as Hwt.
    destruct HP as [-> H0 Hb Ht Hu | J -> -> H0 Hb Ht Hu | J k q -> -> Ha Hq Hk Eq1 Eq2 En | J k q rest -> HB Ha Hq Hw Hlr].
    - rewrite (oact_all0 s H0) in Hm. unfold owaiting in *. destruct P as [|x P].
      + unfold oidle. rewrite (empty_list (g_fa c) _ _ fa1 HQ), Hb. split; [reflexivity|]. destruct Ht as [E|E]; [exact E|]. rewrite E in Hm. cbn in Hm. lia.
      + pose proof (olegal_cost x (Forall_inv HL)). pose proof (odue_nonneg P (Forall_inv_tail HL)).
        change (odue (x :: P)) with (ojob_cost c (oreq_job x) + odue P) in *. lia.
    - rewrite (oact_all0 s H0) in Hm. unfold owaiting in *. rewrite Ht in *. cbn in *. lia.
    - rewrite (oact_one s k q Ha Hq En) in Hm. assert (0 <= Z.of_nat (T k q) * ou k) by (unfold ou, packz; clear; destruct (R k); nia). lia.
    - rewrite (oact_two s k Ha) in Hm. pose proof (wm_two s k _ Ha Hw). lia.
  Qed.
  Lemma ocost_app a b : ocost c (a ++ b) = ocost c a + ocost c b - 3.
  Proof using. clear. unfold ocost. induction a as [|j a IH]; cbn [app fold_right]; lia. Qed.
  Lemma ocost_due P : ocost c (map oreq_job P) = odue P + 3.
  Proof using. clear. unfold ocost, odue. induction P as [|j a IH]; cbn [map fold_right]; lia. Qed.
  Lemma ojob_cost_nonneg j : 0 <= ojob_cost c j.
  Proof using. clear. unfold ojob_cost. destruct j; [lia|]. cbv zeta. destruct (R k); nia. Qed.
  Lemma ocost_ge js : 3 <= ocost c js.
  Proof using. clear. induction js as [|j js IH]; [cbn; lia|]. change (ocost c (j :: js)) with (ojob_cost c j + ocost c js). pose proof (ojob_cost_nonneg j). lia. Qed.
  Lemma wm_le s k q : oactive s k 2 -> olegal_size c k (snd q) -> forall rest,
    winv (R k) (W k) (A k) (lw c) (M k) (oproj s k) rest -> (length rest <= T k q)%nat -> wm (R k) (oproj s k) <= 1 + Z.of_nat (T k q) * ou k.
  Proof using Hc HM.
    clear fm. intros H Hl rest Hw Hlen. destruct (proj_fsm s k 2 H) as [E1 _]. unfold wm. rewrite E1. cbn [Z.eqb Pos.eqb]. cbn [oproj y_queue qcost fold_right y_size y_rb].
    assert (lat (n_rb (e_unit s k)) <= 1) by (unfold lat; destruct (_ && _); lia).
    destruct Hw as (_ & jobs & _ & Hw). rewrite E1 in Hw. cbn [Z.eqb Pos.eqb] in Hw.
    destruct Hw as (j & Hj & _ & kk & e & b & ls & HR & He & Hb & Hls & Hsum & Hq & Er & Hsh).
    unfold oproj in Hq. cbn [y_queue] in Hq. symmetry in Hq. apply app_eq_nil in Hq. destruct Hq as [Hq Hjn]. apply map_eq_nil in Hq. subst ls.
    apply entries_nil in Hjn. subst jobs. cbn [fold_right jobs_beats flat_map] in *. rewrite app_nil_r in Er. rewrite Z.add_0_r in Hsum.
    assert (Hr : length rest = Z.to_nat b).
    { rewrite Er. unfold wrest. rewrite combine_length, map_length, seq_length, app_length. cbn [flat_map length]. unfold cur_flags, burst_flags.
      destruct (Z.eqb_spec b 0); [lia|]. rewrite app_length, repeat_length. cbn [length]. lia. }
    unfold wshape, oproj in Hsh. cbn [y_size y_count y_wdata y_wlast y_wvalid] in Hsh. pose proof (pack_P (R k) (op_r k (oc_k _ _ _ H))) as HP.
    unfold ou. clear - H0 Hsh Hlen Hr HP Hb. destruct (R k); [lia|lia|]. destruct HP, Hsh as (Z1 & Z2 & _). nia.
  Qed.

  Lemma omu_cost s D P B : oinv s D P B -> omu s P <= ocost c (D ++ map oreq_job P) - 1.
  Proof using Hc HM.
    clear fm. intros [HQ HL HW HP]. rewrite ocost_app, ocost_due. unfold omu. pose proof (waiting_nonneg s) as Hwt.
    destruct HP as [-> H0 Hb Ht Hu | J -> -> H0 Hb Ht Hu | J k q -> -> Ha Hq Hk Eq1 Eq2 En | J k q rest -> HB Ha Hq Hw Hlr].
    - rewrite (oact_all0 s H0). pose proof (ocost_ge D). lia.
    - rewrite (oact_all0 s H0). pose proof (ocost_ge (J ++ [OWrite (fst (e_val s)) (snd (e_val s))])). lia.
    - rewrite (oact_one s k q Ha Hq En), ocost_app. pose proof (ocost_ge J). change (ocost c [ODma k q]) with (ojob_cost c (ODma k q) + 3).
      unfold ojob_cost, ou, packz. cbv zeta. lia.
    - rewrite (oact_two s k Ha), ocost_app. pose proof (ocost_ge J). change (ocost c [ODma k q]) with (ojob_cost c (ODma k q) + 3).
      pose proof (wm_le s k q Ha Hq rest Hw Hlr) as Hm. unfold ojob_cost. unfold ou, packz in Hm. cbv zeta. lia.
  Qed.
  (** with the word in the channel *)
  Definition opm (s : ost) (P : list oreq) : Z := if omu s P <=? 0 then b2z (e_tvalid s) else omu s P + 1.
  Lemma opm_step s i D P B : oinv s D P B -> olegal_in c i -> oquiet_in i ->
    opm (step s i) (onextP s i P) <= Z.max 0 (opm s P - b2z (w_ready i)).
  Proof using Hc HM.
    clear fm. intros HI Hi Hq. pose proof (omu_step s i D P B HI Hi Hq) as Hm. unfold opm.
    assert (Hb : b2z (e_tvalid (step s i)) <= 1) by (destruct (e_tvalid (step s i)); cbn; lia).
    destruct (Z.leb_spec (omu s P) 0) as [H0|H0].
    - replace (omu (step s i) (onextP s i P) <=? 0) with true by (destruct (w_ready i); cbn [b2z] in Hm; lia).
      destruct (omu_zero s D P B HI H0) as [Hid Ht]. destruct (oinv_idle s D P B HI Hid) as (_ & _ & Ha & Hu).
      pose proof (all0_word s i Ha Hu ltac:(lia)) as Hf. unfold ofired in Hf. cbn [ostep e_tvalid]. destruct (oword c s i); [discriminate|].
      destruct (e_tvalid s), (w_ready i); cbn; lia.
    - destruct (Z.leb_spec (omu (step s i) (onextP s i P)) 0); destruct (w_ready i); cbn [b2z] in *; lia.
  Qed.
  Lemma opm_run more : forall s D P B, oinv s D P B -> Forall (olegal_in c) more -> Forall oquiet_in more ->
    exists D' P' B', oinv (orun c M s more) D' P' B' /\ opm (orun c M s more) P' <= Z.max 0 (opm s P - oreadies more).
  Proof using Hc HM.
    clear fm. induction more as [|i more IH]; intros s D P B HI HL HN.
    - exists D, P, B. split; [exact HI|]. cbn. clear. lia.
    - destruct (oinv_step s i D P B HI (Forall_inv HL)) as (D1 & HI1 & _).
      pose proof (opm_step s i D P B HI (Forall_inv HL) (Forall_inv HN)) as Hm.
      destruct (IH (step s i) D1 _ _ HI1 (Forall_inv_tail HL) (Forall_inv_tail HN)) as (D' & P' & B' & HI' & Hm').
      exists D', P', B'. unfold orun, final in *. cbn [fold_left]. split; [exact HI'|].
      change (oreadies (i :: more)) with (b2z (w_ready i) + oreadies more).
      assert (0 <= oreadies more) by (clear; induction more as [|j l IH]; [cbn; lia|]; change (oreadies (j :: l)) with (b2z (w_ready j) + oreadies l); destruct (w_ready j); cbn [b2z]; lia).
      clear - Hm Hm' H. lia.
  Qed.
  Theorem ofinishes ins more : Forall (olegal_in c) (ins ++ more) -> Forall oquiet_in more ->
    ocost c (ojobs c M (oinit fm) ins) <= oreadies more ->
    let s := orun c M (oinit fm) (ins ++ more) in
    oidle s = true /\ e_thr s = 0 /\ osents c M (oinit fm) (ins ++ more) = owords c M (ojobs c M (oinit fm) (ins ++ more)).
  Proof using Hc HM.
    intros HLa HN Hv s. pose proof HLa as HLb. apply Forall_app in HLb. destruct HLb as [HL1 HL2].
    destruct (oreached ins HL1) as (D & P & HI & E). rewrite E in Hv. pose proof (omu_cost _ D P _ HI) as Hm.
    destruct (opm_run more _ D P _ HI HL2 HN) as (D' & P' & B' & HI' & Hm').
    assert (Er : s = orun c M (orun c M (oinit fm) ins) more) by (unfold s, orun, final; apply fold_left_app).
    rewrite <- Er in *. pose proof (ocost_ge (D ++ map oreq_job P)) as Hg.
    assert (Hz : opm s P' <= 0).
    { assert (opm (orun c M (oinit fm) ins) P <= ocost c (D ++ map oreq_job P)); [|lia]. unfold opm.
      destruct (_ <=? 0); [destruct (e_tvalid _); cbn [b2z]; lia|lia]. }
    unfold opm in Hz. destruct (Z.leb_spec (omu s P') 0) as [H0|H0]; [|lia].
    destruct (omu_zero s D' P' B' HI' H0) as [Hid Ht]. split; [exact Hid|]. split; [exact Ht|].
    rewrite <- (oidle_done (ins ++ more) HLa Hid). unfold opending. fold s. destruct (e_tvalid s); [cbn in Hz; lia|]. rewrite app_nil_r. reflexivity.
  Qed.
  (** setting and clearing [write_data_busy] never meet *)
  Lemma ono_clash ins i : Forall (olegal_in c) ins -> let s := orun c M (oinit fm) ins in
    (any c (ofin c s i) || (e_thr s =? 2) && oack s i) && (any c (odispatch c s) || (e_thr s =? 1) && oidle s) = false.
  Proof using Hc HM.
    intros HL. cbv zeta. destruct (oreached ins HL) as (D & P & HI & _). set (s := orun c M (oinit fm) ins) in *.
    destruct (e_busy s) eqn:Hb.
    - rewrite (obusy_no s Hb), (oidle_busy s Hb), andb_false_r. apply andb_false_r.
    - destruct HI as [HQ _ _ HP].
      destruct HP as [_ H0 _ Ht Hu | J _ _ H0 Hb' Ht Hu | J k q _ _ Ha Hq Hk Eq1 Eq2 En | J k q rest _ HB Ha Hq Hw Hlr].
      + destruct (all0_no s i H0 Hu) as (_ & Nf & _). rewrite Nf. destruct Ht as [E|E]; rewrite E; reflexivity.
      + congruence.
      + rewrite (oc_busy _ _ _ Ha) in Hb. discriminate.
      + rewrite (oc_busy _ _ _ Ha) in Hb. discriminate.
  Qed.
End Eng.
(** a word that was not taken stays *)
Lemma ohold c M s i : e_tvalid s = true -> w_ready i = false ->
  e_tvalid (ostep c M s i) = true /\ e_tdata (ostep c M s i) = e_tdata s /\ e_tlast (ostep c M s i) = e_tlast s.
Proof.
  intros Hv Hr. pose proof (oword_ack c s i) as H. cbn [ostep e_tvalid e_tdata e_tlast].
  destruct (oword c s i) as [x|]; [specialize (H _ eq_refl); unfold oack in H; rewrite Hv, Hr in H; discriminate|].
  rewrite Hv, Hr. auto.
Qed.

(** ** Two or more RAMs, all of the stream's width: a DMA transfer never ends *)
Definition is_dma (j : ojob) : bool := match j with ODma _ _ => true | _ => false end.
Section Dead.
  Variable c : cfg.
  Hypothesis Hf : 1 <= g_aw c /\ 1 <= g_sw c /\ 1 <= g_fa c /\ Z.of_nat (nops c) < 2 ^ g_sw c.
  Hypothesis Hs : Forall (fun o => o_ratio o = Same) (g_ops c).
  Hypothesis Hn : (2 <= nops c)%nat.
  Variable M : nat -> Z -> Z.
  Notation step := (ostep c M).

  Lemma dsame k : (k < nops c)%nat -> o_ratio (opk c k) = Same.
  Proof. intros H. rewrite Forall_forall in Hs. apply (Hs (opk c k)). apply nth_In. exact H. Qed.
  Lemma dbase k : (k < nops c)%nat -> base c k = if Nat.eqb k 0 then 0 else 1.
  Proof.
    intros H. unfold base. rewrite (dsame k H). destruct (Nat.eqb_spec k 0) as [->|Hk]; [reflexivity|].
    assert (E : existsb (fun j => same_class Same (o_ratio (opk c j))) (seq 0 k) = true).
    { apply existsb_exists. exists 0%nat. split; [apply in_seq; lia|]. rewrite dsame by lia. reflexivity. }
    rewrite E. reflexivity.
  Qed.
  Lemma dhere s k x : (k < nops c)%nat -> ohere c s k x = (e_same s =? (if Nat.eqb k 0 then 0 else 1) + x).
  Proof. intros H. unfold ohere. rewrite (dbase k H), (dsame k H). reflexivity. Qed.
  Lemma dq_step s i P : Inv (2 ^ g_fa c) (e_q s) (map (oreq_word c) P) ->
    (any c (odispatch c s) = true -> P <> []) ->
    Inv (2 ^ g_fa c) (e_q (step s i)) (map (oreq_word c) ((if any c (odispatch c s) then tl P else P) ++ oacc c s i)).
  Proof.
    intros HI HD. cbn [ostep e_q]. unfold oq_in. set (dq := any c (odispatch c s)) in *. destruct Hf as (_ & _ & fa1 & _).
    assert (Ed : deq_rtl (e_q s) dq = dq).
    { unfold deq_rtl, deq_ready. rewrite (empty_list (g_fa c) _ _ fa1 HI). destruct dq; [|reflexivity].
      destruct P; [exfalso; apply HD; reflexivity|reflexivity]. }
    rewrite Ed. rewrite map_app. replace (map (oreq_word c) (if dq then tl P else P)) with (if dq then tl (map (oreq_word c) P) else map (oreq_word c) P)
      by (destruct dq; [destruct P; reflexivity|reflexivity]).
    assert (HD' : dq = true -> map (oreq_word c) P <> []).
    { intros E. specialize (HD E). destruct P; [exfalso; apply HD; reflexivity|discriminate]. }
    assert (X0 : Inv (2 ^ g_fa c) (fifo_step false (g_fa c) (e_q s) (mkFifoIn false 0 dq)) ((if dq then tl (map (oreq_word c) P) else map (oreq_word c) P) ++ [])).
    { pose proof (fstep_list (g_fa c) _ _ false 0 dq fa1 HI HD') as X. exact X. }
    unfold oacc. destruct (w_req i) as [[[[k a] d] n]|]; [|exact X0].
    pose proof (fstep_list (g_fa c) _ _ (oaccepts c s) (pack_rreq c (opid k) a d n) dq fa1 HI HD') as X.
    unfold oaccepts in *. rewrite andb_diag in X. destruct (negb (p_almost_full (g_fa c) (e_q s))); exact X.
  Qed.

  Inductive dph (s : ost) (P : list oreq) (js : list ojob) : Prop :=
  | D_idle : e_same s = 0 -> (forall k, (k < nops c)%nat -> rb_run (n_rb (e_unit s k)) = false) ->
      (e_busy s = false /\ (e_thr s = 0 \/ e_thr s = 1) \/ e_busy s = true /\ e_thr s = 2) ->
      (P = [] -> existsb is_dma js = false) -> dph s P js
  | D_dead : e_busy s = true -> e_thr s = 0 \/ e_thr s = 1 -> e_sel s = 1 ->
      (e_same s = 1 /\ rb_run (n_rb (e_unit s 0)) = false) \/ (e_same s = 2 /\ rb_rvalid (n_rb (e_unit s 0)) = false) \/ e_same s = 3 ->
      dph s P js.
  Definition dinv (s : ost) (js : list ojob) : Prop :=
    exists P, Inv (2 ^ g_fa c) (e_q s) (map (oreq_word c) P) /\ dph s P js.

  Lemma drb s i k : (k < nops c)%nat -> n_rb (e_unit (step s i) k) =
    rb_step (o_raw (opk c k)) (lw c) (M k) (n_rb (e_unit s k)) (mkRBIn (ohere c s k 1 && osel s k) (e_addr s) (e_stride s) (e_size s) (orready c s i k) false).
  Proof. intros H. cbn [ostep e_unit]. rewrite tab_ok by exact H. unfold onit_step. rewrite (dsame k H). reflexivity. Qed.
  Lemma dstop s i k : (k < nops c)%nat -> ohere c s k 1 = false -> rb_run (n_rb (e_unit s k)) = false -> rb_run (n_rb (e_unit (step s i) k)) = false.
  Proof. intros H H1 H2. rewrite (drb s i k H), H1. unfold rb_step. rewrite H2. reflexivity. Qed.
  Lemma dwait s i k : (k < nops c)%nat -> rb_run (n_rb (e_unit s k)) = false -> rb_rvalid (n_rb (e_unit (step s i) k)) = false.
  Proof. intros H H2. rewrite (drb s i k H). unfold rb_step. rewrite H2. reflexivity. Qed.
  Lemma dfsm s i : e_same (step s i) = match lastof c (ojump c s i) with Some x => x | None => e_same s end.
  Proof.
    cbn [ostep e_same]. unfold ofsm_step. rewrite (last_ext c _ (ojump c s i)); [reflexivity|]. intros k Hk. rewrite (dsame k Hk). reflexivity.
  Qed.
  Lemma djump s i k : (k < nops c)%nat -> let b := if Nat.eqb k 0 then 0 else 1 in ojump c s i k =
    if e_same s =? b + 0 then (if odispatch c s k then Some (b + 1) else None)
    else if e_same s =? b + 1 then Some (b + 2) else if ofin c s i k then Some 0 else None.
  Proof. intros H b. unfold ojump. rewrite !dhere by exact H. rewrite (dbase k H). reflexivity. Qed.
  Lemma dfin s i k : (k < nops c)%nat -> ofin c s i k =
    ((e_same s =? (if Nat.eqb k 0 then 0 else 1) + 2) && (osel s k && orv c s i k && rb_rlast (n_rb (e_unit s k))))%bool.
  Proof. intros H. unfold ofin, owcond. rewrite (dsame k H), dhere by exact H. reflexivity. Qed.

  Lemma dempty s P : Inv (2 ^ g_fa c) (e_q s) (map (oreq_word c) P) -> p_empty (e_q s) = match P with [] => true | _ => false end.
  Proof. intros H. rewrite (empty_list (g_fa c) _ _ ltac:(apply Hf) H). destruct P; reflexivity. Qed.
  Lemma dinv_step s i js : dinv s js -> dinv (step s i) (js ++ oissued c s i).
  Proof.
    intros (P & HQ & HP). exists ((if any c (odispatch c s) then tl P else P) ++ oacc c s i).
    pose proof (dempty s P HQ) as He.
    assert (HD : any c (odispatch c s) = true -> P <> []).
    { intros H ->. apply any_true in H. destruct H as (k & _ & H). unfold odispatch in H. rewrite He in H. cbn [negb andb] in H. rewrite !andb_false_r in H. discriminate. }
    split; [apply dq_step; assumption|].
    destruct HP as [H0 Hr Hb Hj | Hb Ht Hsel Hph].
    - assert (Hfin : any c (ofin c s i) = false).
      { apply any_false. intros k Hk. rewrite dfin by exact Hk. rewrite H0. destruct (Nat.eqb k 0); reflexivity. }
      assert (Hd : forall k, (k < nops c)%nat -> odispatch c s k = true -> k = 0%nat).
      { intros k Hk H. unfold odispatch in H. rewrite dhere, H0 in H by exact Hk. destruct (Nat.eqb_spec k 0); [assumption|discriminate]. }
      assert (Hr' : forall k, (k < nops c)%nat -> rb_run (n_rb (e_unit (step s i) k)) = false).
      { intros k Hk. apply dstop; [exact Hk| |apply Hr, Hk]. rewrite dhere, H0 by exact Hk. destruct (Nat.eqb k 0); reflexivity. }
      destruct (any c (odispatch c s)) eqn:Ed.
      + apply any_true in Ed. destruct Ed as (k & Hk & Ed'). pose proof (Hd k Hk Ed') as E0. subst k.
        assert (Ed : any c (odispatch c s) = true) by (apply (any_intro c _ 0%nat); assumption).
        unfold odispatch in Ed'. rewrite dhere in Ed' by exact Hk. apply andb_prop in Ed'. destruct Ed' as [_ Ed']. apply andb_prop in Ed'. destruct Ed' as [Ed1 Ed2].
        apply andb_prop in Ed1. destruct Ed1 as [Ed1 _]. apply negb_true_iff in Ed1.
        destruct Hb as [[_ Ht]|[Hb _]]; [|congruence].
        assert (Et : e_thr s =? 2 = false) by (destruct Ht as [E|E]; rewrite E; reflexivity).
        assert (Ei : oidle s = false) by (unfold oidle; rewrite He; destruct P; [exfalso; apply HD; auto|reflexivity]).
        apply D_dead.
        * cbn [ostep e_busy]. rewrite Hfin, Et, Ed. reflexivity.
        * cbn [ostep e_thr]. unfold othr_step. rewrite Ei. destruct Ht as [E|E]; rewrite E; cbn; [destruct (w_write i)|]; auto.
        * cbn [ostep e_sel]. rewrite Ed. apply Z.eqb_eq in Ed2. exact Ed2.
        * left. split; [|apply Hr', Hk]. rewrite dfsm, (last_some c _ 1 0%nat Hk); [reflexivity| |].
          -- rewrite djump by exact Hk. cbn [Nat.eqb]. rewrite H0. cbn [Z.eqb Z.add]. unfold odispatch. rewrite dhere, H0, Ed1, He by exact Hk. cbn [Nat.eqb Z.eqb Z.add andb negb].
             rewrite Ed2. destruct P; [exfalso; apply HD; auto|reflexivity].
          -- intros j Hjn. rewrite djump by exact Hjn. rewrite H0. destruct (Nat.eqb_spec j 0) as [->|Hne]; cbn [Z.add Z.eqb Pos.eqb Pos.add].
             ++ destruct (odispatch c s 0); auto.
             ++ rewrite dfin by exact Hjn. rewrite H0. rewrite (proj2 (Nat.eqb_neq j 0) Hne). auto.
      + apply D_idle.
        * rewrite dfsm, last_none; [exact H0|]. intros k Hk. rewrite djump, H0, dfin, H0 by exact Hk.
          assert (E : odispatch c s k = false).
          { destruct (odispatch c s k) eqn:E; [|reflexivity]. rewrite (any_intro c _ k Hk E) in Ed. discriminate. }
          rewrite E. destruct (Nat.eqb k 0); reflexivity.
        * exact Hr'.
        * cbn [ostep e_busy e_thr]. rewrite Hfin, Ed. unfold othr_step.
          destruct Hb as [[Hb [E|E]]|[Hb E]]; rewrite E; cbn [Z.eqb Pos.eqb andb orb].
          -- left. rewrite Hb. destruct (w_write i); auto.
          -- destruct (oidle s); [right|left]; auto.
          -- destruct (oack s i); [left|right]; auto.
        * intros EP. apply app_eq_nil in EP. destruct EP as [-> EA]. rewrite existsb_app, (Hj eq_refl), oissued_acc, EA. cbn [map orb].
          destruct (_ && _); reflexivity.
    - pose proof (oidle_busy s Hb) as Ei. pose proof (obusy_no c s Hb) as Ed.
      assert (Et : e_thr s =? 2 = false) by (destruct Ht as [E|E]; rewrite E; reflexivity).
      assert (H0n : (0 < nops c)%nat) by lia.
      assert (Hfin : forall k, (k < nops c)%nat -> ofin c s i k = false).
      { intros k Hk. rewrite dfin by exact Hk. destruct (Nat.eqb_spec k 0) as [->|Hne].
        - destruct Hph as [[E _]|[[E Hv]|E]]; rewrite E; cbn [Z.add Z.eqb Pos.eqb Pos.add andb]; try reflexivity.
          unfold orv. rewrite Hv. cbn [andb]. rewrite andb_false_r. reflexivity.
        - unfold osel. rewrite Hsel. replace (1 =? opid k) with false by (unfold opid; lia). cbn [andb]. apply andb_false_r. }
      assert (Hd : forall k, odispatch c s k = false) by (intros k; apply obusy_dispatch, Hb).
      apply D_dead.
      + cbn [ostep e_busy]. rewrite Et, Ed, (any_false c _ Hfin), Ei, andb_false_r. exact Hb.
      + cbn [ostep e_thr]. unfold othr_step. rewrite Ei. destruct Ht as [E|E]; rewrite E; cbn; [destruct (w_write i)|]; auto.
      + cbn [ostep e_sel]. rewrite Ed. exact Hsel.
      + destruct Hph as [[E Hrun]|[[E Hv]|E]].
        * right. left. split; [|apply dwait; [exact H0n|exact Hrun]]. rewrite dfsm, (last_some c _ 2 0%nat H0n); [reflexivity| |].
          -- rewrite djump, E by exact H0n. reflexivity.
          -- intros j Hjn. rewrite djump, E by exact Hjn. rewrite Hd. destruct (Nat.eqb j 0); auto.
        * right. right. rewrite dfsm, (last_some c _ 3 1%nat ltac:(lia)); [reflexivity| |].
          -- rewrite djump, E by lia. reflexivity.
          -- intros j Hjn. rewrite djump, E by exact Hjn. rewrite Hfin by exact Hjn. destruct (Nat.eqb j 0); auto.
        * right. right. rewrite dfsm, last_none; [exact E|]. intros j Hjn. rewrite djump, E by exact Hjn. rewrite Hfin by exact Hjn. destruct (Nat.eqb j 0); auto.
  Qed.
  Lemma dead fm ins : existsb is_dma (ojobs c M (oinit fm) ins) = true -> oidle (orun c M (oinit fm) ins) = false.
  Proof.
    assert (H : forall l s js, dinv s js -> dinv (orun c M s l) (js ++ ojobs c M s l)).
    { clear - Hf Hs Hn. induction l as [|i l IH]; intros s js H; unfold ojobs; cbn [outs concat orun final fold_left]; [rewrite app_nil_r; exact H|].
      rewrite app_assoc. apply IH, dinv_step, H. }
    destruct (H ins (oinit fm) []) as (P & HQ & HP).
    { exists []. split; [apply init_inv, Hf|]. apply D_idle; auto. }
    cbn [app] in HP. intros Hj. destruct HP as [_ _ _ HP|Hb _ _ _].
    - unfold oidle. rewrite (dempty _ P HQ). destruct P; [rewrite HP in Hj by reflexivity; discriminate|reflexivity].
    - apply oidle_busy, Hb.
  Qed.
End Dead.
