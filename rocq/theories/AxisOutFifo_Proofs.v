(** Proofs about the AXI stream output with FIFOs. *)
From Verif Require Import Base Pack Fifo_Model Fifo_Spec Fifo_Proofs AxiDma_Model AxiDma_Proofs AxiData_Model AxiData_Spec
  AxiData_Proofs AxiMem_Proofs AxiPorts_Model AxiPorts_Proofs AxisIn_Model AxisIn_Proofs AxisOut_Model AxisOut_Proofs AxisInFifo_Model AxisInFifo_Spec AxisInFifo_Proofs
  AxisOutFifo_Model AxisOutFifo_Spec.
Open Scope Z_scope.

Lemma vclass_fsm s r r' : same_class r r' = true -> vfsm s r = vfsm s r'.
Proof. destruct r, r'; try discriminate; reflexivity. Qed.
Lemma vfsm_step_class c sy s i r r' : same_class r r' = true -> vfsm_step c sy s i r = vfsm_step c sy s i r'.
Proof.
  intros H. unfold vfsm_step. rewrite (vclass_fsm s r r' H).
  assert (E : forall k, same_class r (o_ratio (opk c k)) = same_class r' (o_ratio (opk c k)))
    by (intros k; destruct r, r'; try discriminate; reflexivity).
  assert (G : lastof c (fun k => if same_class r (o_ratio (opk c k)) then vjump c sy s i k else None)
            = lastof c (fun k => if same_class r' (o_ratio (opk c k)) then vjump c sy s i k else None)).
  { apply last_ext. intros k _. rewrite E. reflexivity. }
  rewrite G. reflexivity.
Qed.
Lemma vfsm_of_step c sy s i r : vfsm (vstep c sy s i) r = vfsm_step c sy s i r.
Proof. destruct r; cbn [vfsm vstep v_same v_narrow v_wide]; [reflexivity| |]; apply vfsm_step_class; reflexivity. Qed.

(** ** The channel *)
Definition vfired (c : cfg) (sy : bool) (s : vst) (i : vinp) : list (Z * bool) := match vword c sy s i with Some x => [x] | None => [] end.
Lemma vword_ack c sy s i x : vword c sy s i = Some x -> vack s i = true.
Proof.
  unfold vword. destruct (vack s i) eqn:E; [reflexivity|]. rewrite andb_false_r. intros H. apply last_in in H. destruct H as (k & _ & H).
  rewrite andb_false_r in H. discriminate.
Qed.
Lemma vchan_step c sy s i : vpending s ++ vfired c sy s i = vsent s i ++ vpending (vstep c sy s i).
Proof.
  unfold vpending, vfired, vsent. cbn [vstep v_tvalid v_tdata v_tlast]. pose proof (vword_ack c sy s i) as H.
  destruct (vword c sy s i) as [[v l]|].
  - specialize (H _ eq_refl). unfold vack in H. destruct (v_tvalid s), (d_ready i); cbn in *; try reflexivity; discriminate.
  - destruct (v_tvalid s), (d_ready i); reflexivity.
Qed.

(** ** Repacking *)
Lemma vmarked_snoc l x : vmarked (l ++ [x]) = vunmarked l ++ [(x, true)].
Proof. unfold vmarked. rewrite rev_app_distr. cbn [rev app]. rewrite rev_involutive. reflexivity. Qed.
Lemma vsplit_len w lp x : length (vsplit w lp x) = Z.to_nat (2 ^ lp).
Proof. unfold vsplit. rewrite map_length, seq_length. reflexivity. Qed.
Lemma vsplit_nth w lp x j : (j < Z.to_nat (2 ^ lp))%nat -> firstn (S j) (vsplit w lp x) = firstn j (vsplit w lp x) ++ [(x / 2 ^ (w * Z.of_nat j)) mod 2 ^ w].
Proof.
  intros H. unfold vsplit. set (f := fun j => _). change ((x / 2 ^ (w * Z.of_nat j)) mod 2 ^ w) with (f j). clearbody f.
  rewrite !firstn_map.
  assert (E : firstn (S j) (seq 0 (Z.to_nat (2 ^ lp))) = firstn j (seq 0 (Z.to_nat (2 ^ lp))) ++ [j]).
  { replace (Z.to_nat (2 ^ lp)) with (j + S (Z.to_nat (2 ^ lp) - S j))%nat by lia. rewrite seq_app.
    rewrite !firstn_app, seq_length, Nat.sub_diag. replace (S j - j)%nat with 1%nat by lia.
    rewrite (firstn_all2 (n := S j) (seq 0 j)), (firstn_all2 (n := j) (seq 0 j)) by (rewrite seq_length; lia). rewrite firstn_O, app_nil_r. reflexivity. }
  rewrite E, map_app. reflexivity.
Qed.
Lemma vgroups_nil p n l : (length l < p)%nat -> vgroups p l n = [].
Proof. intros H. destruct n; cbn [vgroups]; [reflexivity|]. destruct (Nat.leb_spec p (length l)); [lia|reflexivity]. Qed.
Lemma vgroups_concat p gs : forall g n, (0 < p)%nat -> Forall (fun x => length x = p) gs -> (length g < p)%nat -> (length gs <= n)%nat ->
  vgroups p (concat gs ++ g) n = gs.
Proof.
  induction gs as [|x gs IH]; intros g n Hp HF Hg Hn.
  - apply vgroups_nil, Hg.
  - pose proof (Forall_inv HF) as Hx. cbn beta in Hx. cbn [length] in Hn. destruct n as [|n]; [lia|]. cbn [concat vgroups].
    rewrite <- app_assoc. replace (p <=? length (x ++ concat gs ++ g))%nat with true by (symmetry; apply Nat.leb_le; rewrite app_length; lia).
    rewrite firstn_app, skipn_app. rewrite <- Hx, Nat.sub_diag, firstn_all, skipn_all. cbn [firstn skipn app]. rewrite app_nil_r. rewrite Hx.
    f_equal. apply IH; [exact Hp|exact (Forall_inv_tail HF)|exact Hg|lia].
Qed.
Lemma concat_len (p : nat) (gs : list (list Z)) : Forall (fun x => length x = p) gs -> length (concat gs) = (length gs * p)%nat.
Proof. induction 1 as [|x gs H _ IH]; [reflexivity|]. cbn [concat length]. rewrite app_length, IH, H. lia. Qed.
Lemma vpack_wide w lp gs g : 0 < lp -> Forall (fun x => length x = Z.to_nat (2 ^ lp)) gs -> (length g < Z.to_nat (2 ^ lp))%nat ->
  vpack (Wide lp) w (concat gs ++ g) = map (vjoin w) gs.
Proof.
  intros Hl HF Hg. cbn [vpack]. f_equal. apply vgroups_concat; auto; [lia|]. rewrite app_length, (concat_len _ _ HF). nia.
Qed.
Lemma vjoin_snoc w l x : 0 <= w -> vjoin w (l ++ [x]) = vjoin w l + 2 ^ (w * Z.of_nat (length l)) * (x mod 2 ^ w).
Proof.
  intros Hw. induction l as [|y l IH].
  - cbn [app vjoin length]. change (Z.of_nat 0) with 0. rewrite !Z.mul_0_r, Z.pow_0_r. lia.
  - cbn [app vjoin length]. rewrite IH. replace (w * Z.of_nat (S (length l))) with (w + w * Z.of_nat (length l)) by lia.
    rewrite Z.pow_add_r by lia. ring.
Qed.

Section Eng.
  Variable c : cfg.
  Hypothesis Hc : vlegal_cfg c.
  Notation R k := (o_ratio (opk c k)).
  Notation W k := (o_w (opk c k)).
  Notation A k := (o_raw (opk c k)).
  Notation step := (vstep c true).

  Lemma aw1 : 1 <= g_aw c. Proof using Hc. apply Hc. Qed.
  Lemma fa1 : 1 <= g_fa c. Proof using Hc. apply Hc. Qed.
  Lemma op_ok k : (k < nops c)%nat -> 0 <= W k /\ 1 <= A k /\ match R k with Same => True | Narrow lp | Wide lp => 0 < lp end.
  Proof using Hc.
    intros H. destruct Hc as (_ & _ & _ & _ & F & _). refine (proj1 (Forall_forall _ (g_ops c)) F (opk c k) _). apply nth_In. exact H.
  Qed.
  Lemma op_w k : (k < nops c)%nat -> 0 <= W k. Proof using Hc. intros H. apply (op_ok k H). Qed.
  Lemma op_raw k : (k < nops c)%nat -> 1 <= A k. Proof using Hc. intros H. apply (op_ok k H). Qed.
  Lemma op_r k : (k < nops c)%nat -> match R k with Same => True | Narrow lp | Wide lp => 0 < lp end.
  Proof using Hc. intros H. apply (op_ok k H). Qed.
  Lemma op_id k : (k < nops c)%nat -> 0 <= opid k < 2 ^ g_sw c.
  Proof using Hc. intros H. destruct Hc as (_ & _ & _ & X & _). unfold opid. lia. Qed.
  Lemma base0 k : (k < nops c)%nat -> base c k = 0.
  Proof using Hc.
    intros H. unfold base. destruct (R k) eqn:E; try reflexivity.
    destruct (existsb _ _) eqn:X; [|reflexivity]. exfalso. apply existsb_exists in X. destruct X as (j & J & X). apply in_seq in J.
    destruct Hc as (_ & _ & _ & _ & _ & U). assert (j = k); [|lia]. apply U; [lia|exact H| |exact E]. destruct (R j); try discriminate. reflexivity.
  Qed.
  Lemma here0 s k x : (k < nops c)%nat -> vhere c s k x = (vfsm s (R k) =? x).
  Proof using Hc. intros H. unfold vhere. rewrite (base0 k H). reflexivity. Qed.
  Lemma jump0 s i k : (k < nops c)%nat -> vjump c true s i k =
    if vfsm s (R k) =? 0 then (if vdispatch c s k then Some 1 else None) else if vfin c true s i k then Some 0 else None.
  Proof using Hc. intros H. unfold vjump. rewrite !here0 by exact H. rewrite (base0 k H). reflexivity. Qed.

  (** ** Control *)
  Definition vothers (s : vst) (k : nat) : Prop := forall r, same_class r (R k) = false -> vfsm s r = 0.
  Definition vall0 (s : vst) : Prop := forall r, vfsm s r = 0.
  Definition vheld (s : vst) (k : nat) : bool := v_rv (v_unit s k) || v_rep (v_unit s k).
  Definition vquiet (s : vst) (k : nat) : Prop := vheld s k = false.
  Record vactive (s : vst) (k : nat) : Prop := mkVactive {
    va_k : (k < nops c)%nat; va_sel : v_sel s = opid k; va_fsm : vfsm s (R k) = 1;
    va_oth : vothers s k; va_busy : v_busy s = true; va_thr : v_thr s = 0 \/ v_thr s = 1;
    va_quiet : forall j, (j < nops c)%nat -> j <> k -> vquiet s j }.

  Lemma vactive_sel s k j : vactive s k -> vsel s j = Nat.eqb j k.
  Proof using.
    clear. intros H. unfold vsel. rewrite (va_sel _ _ H). destruct (Nat.eqb j k) eqn:E.
    - apply Nat.eqb_eq in E. subst. apply Z.eqb_refl.
    - apply Nat.eqb_neq in E. apply Z.eqb_neq. intros X. apply E. symmetry. apply opid_inj. exact X.
  Qed.
  Lemma vbusy_dispatch s k : v_busy s = true -> vdispatch c s k = false.
  Proof using. clear. intros H. unfold vdispatch. rewrite H. cbn. apply andb_false_r. Qed.
  Lemma vbusy_no s : v_busy s = true -> any c (vdispatch c s) = false.
  Proof using. clear. intros H. apply any_false. intros k _. apply vbusy_dispatch, H. Qed.
  Lemma vidle_busy s : v_busy s = true -> vidle s = false.
  Proof using. clear. intros H. unfold vidle. rewrite H. apply andb_false_r. Qed.
  Lemma vunit_eq s i k : v_unit (step s i) k = vunit_step c true s i k.
  Proof using. clear. cbn [vstep v_unit]. apply tab_ok. Qed.
  Lemma cur_eq s i k : vcur c true s i k = vheld s k.
  Proof using. clear. unfold vcur, vrvalid, vheld. destruct (R k); reflexivity. Qed.

  (** a quiet operation does nothing *)
  Lemma quiet_no s i k : (k < nops c)%nat -> vquiet s k -> vsel s k = false \/ vfsm s (R k) <> 1 ->
    vwcond c true s i k = false /\ vdeq c s i k = false /\ vfin c true s i k = false.
  Proof using Hc.
    intros Hk Q H.
    assert (E0 : vhere c s k 1 && vsel s k = false).
    { rewrite here0 by exact Hk. destruct H as [H|H]; [rewrite H; apply andb_false_r|]. apply Z.eqb_neq in H. rewrite H. reflexivity. }
    assert (E : vwcond c true s i k = false).
    { unfold vwcond. rewrite cur_eq, Q. destruct (R k) as [|lp|lp].
      - rewrite andb_false_r. reflexivity.
      - rewrite E0. reflexivity.
      - rewrite andb_false_r. reflexivity. }
    split; [exact E|]. split.
    - unfold vdeq. destruct (vhere c s k 1), (vsel s k); try discriminate; cbn [andb]; rewrite ?andb_false_r; reflexivity.
    - unfold vfin. rewrite E, cur_eq, Q. destruct (R k); rewrite ?andb_false_r; reflexivity.
  Qed.
  Lemma unit_flags s i k : v_rv (v_unit (step s i) k) = vdeq c s i k /\ v_rep (v_unit (step s i) k) = vheld s k && negb (vready c s i k).
  Proof using.
    clear. rewrite vunit_eq. unfold vunit_step. rewrite cur_eq.
    destruct (vhere c s k 0); [split; reflexivity|]. destruct (vhere c s k 1); [|split; reflexivity]. destruct (R k); split; reflexivity.
  Qed.
  Lemma held_step s i k : vheld (step s i) k = vdeq c s i k || vheld s k && negb (vready c s i k).
  Proof using. clear. unfold vheld at 1. destruct (unit_flags s i k) as [-> ->]. reflexivity. Qed.
  Lemma quiet_step s i k : vdeq c s i k = false -> vquiet s k -> vquiet (step s i) k.
  Proof using. clear. intros E Q. unfold vquiet. rewrite held_step, E, Q. reflexivity. Qed.
  Lemma active_others s k j : vactive s k -> (j < nops c)%nat -> j <> k -> forall i,
    vwcond c true s i j = false /\ vdeq c s i j = false /\ vfin c true s i j = false.
  Proof using Hc.
    intros H Hj Hn i. apply quiet_no; [exact Hj|apply (va_quiet _ _ H); assumption|].
    left. rewrite (vactive_sel s k j H). apply Nat.eqb_neq, Hn.
  Qed.
  Lemma deq_any s i k : vactive s k -> any c (vdeq c s i) = vdeq c s i k.
  Proof using Hc.
    intros H. apply any_one; [apply (va_k _ _ H)|]. intros j Hj E. destruct (Nat.eq_dec j k) as [->|Hn]; [exact E|].
    destruct (active_others s k j H Hj Hn i) as (_ & X & _). rewrite X in E. discriminate.
  Qed.
  Lemma fin_any s i k : vactive s k -> any c (vfin c true s i) = vfin c true s i k.
  Proof using Hc.
    intros H. apply any_one; [apply (va_k _ _ H)|]. intros j Hj E. destruct (Nat.eq_dec j k) as [->|Hn]; [exact E|].
    destruct (active_others s k j H Hj Hn i) as (_ & _ & X). rewrite X in E. discriminate.
  Qed.
  Lemma thr_not2 s k : vactive s k -> (v_thr s =? 2) = false.
  Proof using. clear. intros H. destruct (va_thr _ _ H) as [E|E]; rewrite E; reflexivity. Qed.
  Lemma fired_active s i k : vactive s k ->
    vword c true s i = if vwcond c true s i k && vack s i then Some (vdata c true s k, vlast c s k) else None.
  Proof using Hc.
    intros H. unfold vword. rewrite (thr_not2 s k H). cbn [andb].
    assert (G : forall j, (j < nops c)%nat -> j <> k -> vwcond c true s i j = false) by (intros j Hj Hn; apply (active_others s k j H Hj Hn)).
    destruct (vwcond c true s i k && vack s i) eqn:E.
    - apply (last_some c _ _ k); [apply (va_k _ _ H)|rewrite E; reflexivity|]. intros j Hj.
      destruct (Nat.eq_dec j k) as [->|Hn]; [rewrite E; right; reflexivity|rewrite (G j Hj Hn); left; reflexivity].
    - apply last_none. intros j Hj. destruct (Nat.eq_dec j k) as [->|Hn]; [rewrite E; reflexivity|rewrite (G j Hj Hn); reflexivity].
  Qed.
  Lemma class_refl r : same_class r r = true. Proof using. clear. destruct r; reflexivity. Qed.

  (** FSM steps *)
  Lemma fsm_idle s i r : vfsm s r = 0 -> (forall k, (k < nops c)%nat -> same_class r (R k) = true -> vdispatch c s k = false) ->
    vfsm (step s i) r = 0.
  Proof using Hc.
    intros H D. rewrite vfsm_of_step. unfold vfsm_step. rewrite last_none; [exact H|]. intros k Hk.
    destruct (same_class r (R k)) eqn:E; [|reflexivity]. rewrite jump0 by exact Hk. rewrite <- (vclass_fsm s r (R k) E), H. cbn [Z.eqb].
    rewrite (D k Hk E). reflexivity.
  Qed.
  Lemma fsm_one s i k r : vactive s k -> same_class r (R k) = true -> vfsm (step s i) r = if vfin c true s i k then 0 else 1.
  Proof using Hc.
    intros H E. pose proof (va_k _ _ H) as Hk. assert (Ef : vfsm s r = 1) by (rewrite (vclass_fsm s r (R k) E); apply (va_fsm _ _ H)).
    rewrite vfsm_of_step. unfold vfsm_step.
    assert (G : forall j, (j < nops c)%nat -> (if same_class r (R j) then vjump c true s i j else None) = None \/
      j = k /\ (if same_class r (R j) then vjump c true s i j else None) = if vfin c true s i k then Some 0 else None).
    { intros j Hj. destruct (same_class r (R j)) eqn:Ej; [|left; reflexivity]. rewrite jump0 by exact Hj.
      rewrite <- (vclass_fsm s r (R j) Ej), Ef. cbn [Z.eqb].
      destruct (Nat.eq_dec j k) as [->|Hn]; [right; auto|]. left. destruct (active_others s k j H Hj Hn i) as (_ & _ & X). rewrite X. reflexivity. }
    destruct (vfin c true s i k) eqn:Fk.
    - rewrite (last_some c _ 0 k); [reflexivity|exact Hk| |].
      + rewrite E, jump0 by exact Hk. rewrite (va_fsm _ _ H), Fk. reflexivity.
      + intros j Hj. destruct (G j Hj) as [X|[_ X]]; rewrite X; auto.
    - rewrite last_none; [exact Ef|]. intros j Hj. destruct (G j Hj) as [X|[_ X]]; exact X.
  Qed.
  Lemma size_busy s i : v_busy s = true -> vsize_step c s i = if any c (vdeq c s i) then (v_size s - 1) mod 2 ^ lw c else v_size s.
  Proof using. clear. intros H. unfold vsize_step. rewrite last_none; [reflexivity|]. intros k _. rewrite vbusy_dispatch by exact H. reflexivity. Qed.

  Lemma active_step s i k : vactive s k ->
    if vfin c true s i k
    then vall0 (step s i) /\ v_busy (step s i) = false /\ (v_thr (step s i) = 0 \/ v_thr (step s i) = 1) /\
         (forall j, (j < nops c)%nat -> j <> k -> vquiet (step s i) j)
    else vactive (step s i) k.
  Proof using Hc.
    intros H. pose proof (va_busy _ _ H) as Hb. pose proof (vbusy_no s Hb) as Hd. pose proof (thr_not2 s k H) as Hthr.
    assert (Hthr' : v_thr (step s i) = 0 \/ v_thr (step s i) = 1).
    { cbn [vstep v_thr]. unfold vthr_step. rewrite (vidle_busy s Hb). destruct (va_thr _ _ H) as [E|E]; rewrite E; cbn [Z.eqb Pos.eqb].
      - destruct (d_write i); auto.
      - auto. }
    assert (Eoth : forall r, same_class r (R k) = false -> vfsm (step s i) r = 0).
    { intros r Hr. apply fsm_idle; [apply (va_oth _ _ H r Hr)|]. intros j _ _. apply vbusy_dispatch, Hb. }
    assert (Hqu : forall j, (j < nops c)%nat -> j <> k -> vquiet (step s i) j).
    { intros j Hj Hn. apply quiet_step; [apply (active_others s k j H Hj Hn i)|apply (va_quiet _ _ H); assumption]. }
    pose proof (fun r => fsm_one s i k r H) as Ek.
    destruct (vfin c true s i k) eqn:E.
    - split; [|split; [|split; [exact Hthr'|exact Hqu]]].
      + intros r. destruct (same_class r (R k)) eqn:Er; [apply Ek, Er|apply Eoth, Er].
      + cbn [vstep v_busy]. rewrite (fin_any s i k H), E. reflexivity.
    - constructor; auto.
      + apply (va_k _ _ H).
      + cbn [vstep v_sel]. rewrite Hd. apply (va_sel _ _ H).
      + apply Ek, class_refl.
      + cbn [vstep v_busy]. rewrite (fin_any s i k H), E, Hthr, Hd, (vidle_busy s Hb), andb_false_r. exact Hb.
  Qed.

  (** ** The data *)
  Definition vhead_word (s : vst) (k : nat) : Z := p_rdata false (v_f (v_unit s k)).
  Definition vreg (s : vst) (k : nat) : Z := f_rdata (v_f (v_unit s k)).
  Lemma here01 s k : vactive s k -> vhere c s k 0 = false /\ vhere c s k 1 = true /\ vsel s k = true.
  Proof using Hc.
    intros H. rewrite !here0 by apply (va_k _ _ H). rewrite (va_fsm _ _ H), (vactive_sel s k k H), Nat.eqb_refl. split; [reflexivity|split; reflexivity].
  Qed.
  Lemma unit_f s i k : v_f (v_unit (step s i) k) = fifo_step true (A k) (v_f (v_unit s k)) (vf_in c s i k).
  Proof using.
    clear. rewrite vunit_eq. unfold vunit_step. destruct (vhere c s k 0); [reflexivity|]. destruct (vhere c s k 1); [|reflexivity]. destruct (R k); reflexivity.
  Qed.
  Lemma deq_some s i k : vdeq c s i k = true -> p_empty (v_f (v_unit s k)) = false /\ 0 < v_size s /\ vready c s i k = true.
  Proof using.
    clear. unfold vdeq. intros E. apply andb_prop in E. destruct E as [E _]. apply andb_prop in E. destruct E as [E E1]. apply andb_prop in E. destruct E as [E E2].
    apply andb_prop in E. destruct E as [E _]. apply andb_prop in E. destruct E as [_ E]. split; [|split; [lia|exact E1]]. destruct (p_empty _); [discriminate|reflexivity].
  Qed.
  Lemma reg_step s i k : vreg (step s i) k = if vdeq c s i k then vhead_word s k else vreg s k.
  Proof using.
    clear. unfold vreg, vhead_word. rewrite unit_f. unfold fifo_step, fifo_deq_stmt, vf_in, deq_rtl, deq_ready, fifo_enq_stmt. cbn [i_deq i_enq i_wdata].
    fold (p_empty (v_f (v_unit s k))). destruct (vdeq c s i k) eqn:E.
    - destruct (deq_some s i k E) as [-> _]. cbn [negb andb]. reflexivity.
    - cbn [andb]. destruct (_ && _); reflexivity.
  Qed.
  Lemma pop_eq s i k : vpop c k s i = if vdeq c s i k then [vhead_word s k] else [].
  Proof using. clear. reflexivity. Qed.
  Lemma size_active s i k n : vactive s k -> 0 <= n < 2 ^ lw c -> v_size s <= n -> v_size (step s i) = if vdeq c s i k then v_size s - 1 else v_size s.
  Proof using Hc.
    intros H Hn Hs. cbn [vstep v_size]. rewrite size_busy by apply (va_busy _ _ H). rewrite (deq_any s i k H).
    destruct (vdeq c s i k) eqn:E; [|reflexivity]. destruct (deq_some s i k E) as (_ & X & _). apply Z.mod_small. lia.
  Qed.

  (** [cur]: the words the running transfer took; [E]: the words it handed to the channel *)
  Definition ushape (s : vst) (k : nat) (cur E : list Z) : Prop :=
    let u := v_unit s k in
    match R k with
    | Same => cur = E ++ (if vheld s k then [vreg s k] else []) /\ (vheld s k = false -> 0 < v_size s)
    | Narrow lp =>
        if vheld s k then v_count u = 0 /\ exists ws, cur = ws ++ [vreg s k] /\ E = flat_map (vsplit (W k) lp) ws
        else if v_count u =? 0 then E = flat_map (vsplit (W k) lp) cur /\ 0 < v_size s
        else exists ws x, cur = ws ++ [x] /\ E = flat_map (vsplit (W k) lp) ws ++ firstn (Z.to_nat (v_count u)) (vsplit (W k) lp x) /\
               v_wdata u = Z.shiftr x (W k * v_count u) /\ 0 < v_count u < 2 ^ lp /\ v_wlast u = (v_size s =? 0)
    | Wide lp =>
        exists gs g, cur = concat gs ++ g ++ (if vheld s k then [vreg s k] else []) /\ Forall (fun x => length x = Z.to_nat (2 ^ lp)) gs /\
          E = map (vjoin (W k)) gs /\ Z.of_nat (length g) = v_count u /\ v_count u < 2 ^ lp /\
          v_wdata u / 2 ^ (W k * (2 ^ lp - v_count u)) = vjoin (W k) g /\ (0 < v_count u -> v_tvalid s = false) /\
          (vheld s k = false -> 0 < v_size s)
    end.
  Definition uinv (s : vst) (k : nat) (n : Z) (cur E : list Z) : Prop :=
    Z.of_nat (length cur) <= n /\ v_size s = n - Z.of_nat (length cur) /\ v_rlast (v_unit s k) = (v_size s =? 0) /\ ushape s k cur E.
  Definition vwok (s : vst) (k : nat) : Prop :=
    match R k with Wide lp => 0 <= v_wdata (v_unit s k) < 2 ^ (W k * 2 ^ lp) | _ => True end.
  Definition outcome (s : vst) (i : vinp) (k : nat) (n : Z) (cur E : list Z) : Prop :=
    let cur' := cur ++ vpop c k s i in
    if vfin c true s i k
    then exists x, vfired c true s i = [(x, true)] /\ vpack (R k) (W k) cur' = E ++ [x] /\ Z.of_nat (length cur') = n /\ vquiet (step s i) k
    else exists E', vfired c true s i = vunmarked E' /\ uinv (step s i) k n cur' (E ++ E').

  Lemma ready_ack s i k : match R k with Wide _ => True | _ => vready c s i k = vack s i end.
  Proof using. clear. unfold vready. destruct (R k); auto. Qed.
  Lemma rlast_step s i k : vactive s k -> v_rlast (v_unit (step s i) k) = if vdeq c s i k then v_size s <=? 1 else v_rlast (v_unit s k).
  Proof using Hc.
    intros H. rewrite vunit_eq. unfold vunit_step. destruct (here01 s k H) as (-> & -> & _). destruct (R k); reflexivity.
  Qed.
  (** the parts of the invariant that do not depend on the widths *)
  Lemma common_step s i k n cur E : vactive s k -> 0 <= n < 2 ^ lw c -> uinv s k n cur E ->
    Z.of_nat (length (cur ++ vpop c k s i)) <= n /\ v_size (step s i) = n - Z.of_nat (length (cur ++ vpop c k s i)) /\
    v_rlast (v_unit (step s i) k) = (v_size (step s i) =? 0).
  Proof using Hc.
    intros H Hn (H1 & H2 & H3 & _). rewrite (rlast_step s i k H), (size_active s i k n H Hn ltac:(lia)), pop_eq, app_length.
    destruct (vdeq c s i k) eqn:D; cbn [length].
    - destruct (deq_some s i k D) as (_ & X & _). lia.
    - rewrite H3. lia.
  Qed.

  Lemma same_step s i k n cur E : R k = Same -> vactive s k -> 0 <= n < 2 ^ lw c -> uinv s k n cur E -> outcome s i k n cur E.
  Proof using Hc.
    intros HR H Hn HU. pose proof (common_step s i k n cur E H Hn HU) as HC. destruct HU as (H1 & H2 & H3 & H4).
    assert (Hsn : v_size s <= n) by (clear - H2; lia). pose proof (size_active s i k n H Hn Hsn) as Es.
    unfold outcome. cbv zeta. unfold ushape in H4. cbv zeta in H4. rewrite HR in H4. destruct H4 as [H4 H5].
    pose proof (ready_ack s i k) as Hr. rewrite HR in Hr.
    assert (Ew : vwcond c true s i k = vheld s k && vack s i) by (unfold vwcond; rewrite HR, cur_eq; destruct (here01 s k H) as (_ & _ & ->); reflexivity).
    assert (Ef : vfin c true s i k = vheld s k && vack s i && v_rlast (v_unit s k)) by (unfold vfin; rewrite HR, Ew; destruct (here01 s k H) as (_ & -> & _); reflexivity).
    assert (Ewd : vfired c true s i = if vheld s k && vack s i then [(vreg s k, v_rlast (v_unit s k))] else []).
    { unfold vfired. rewrite (fired_active s i k H), Ew. unfold vdata, vlast, vrdata. rewrite HR. rewrite <- andb_assoc, andb_diag. destruct (_ && _); reflexivity. }
    rewrite Ef, Ewd. rewrite H3.
    assert (Eh : vheld (step s i) k = vdeq c s i k || vheld s k && negb (vack s i)) by (rewrite held_step, Hr; reflexivity).
    destruct (vheld s k && vack s i) eqn:Eg; cbn [andb].
    - apply andb_prop in Eg. destruct Eg as [Eg Ea]. rewrite Eg in *. rewrite Ea in Eh. cbn [negb andb] in Eh. rewrite orb_false_r in Eh.
      destruct (Z.eqb_spec (v_size s) 0) as [Ez|Ez].
      + assert (D : vdeq c s i k = false). { destruct (vdeq c s i k) eqn:D; [|reflexivity]. destruct (deq_some s i k D) as (_ & X & _). clear - X Ez; lia. }
        exists (vreg s k). rewrite pop_eq, D, app_nil_r. split; [reflexivity|]. rewrite HR. cbn [vpack]. split; [exact H4|]. split; [clear - H2 Ez; lia|].
        unfold vquiet. rewrite Eh. exact D.
      + exists [vreg s k]. split; [reflexivity|]. destruct HC as (C1 & C2 & C3). unfold uinv. do 3 (split; [assumption|]).
        unfold ushape. cbv zeta. rewrite HR, reg_step, pop_eq, Eh. rewrite H4. split.
        * destruct (vdeq c s i k); [|rewrite !app_nil_r; reflexivity]. reflexivity.
        * intros D. rewrite Es, D. clear - H1 H2 Ez; lia.
    - exists []. split; [reflexivity|]. destruct HC as (C1 & C2 & C3). unfold uinv. do 3 (split; [assumption|]).
      unfold ushape. cbv zeta. rewrite HR, reg_step, pop_eq, Eh, app_nil_r. rewrite H4.
      destruct (vheld s k) eqn:Ev; cbn [andb] in Eg.
      + rewrite Eg. cbn [negb andb]. rewrite orb_true_r.
        assert (D : vdeq c s i k = false). { destruct (vdeq c s i k) eqn:D; [|reflexivity]. destruct (deq_some s i k D) as (_ & _ & X). rewrite Hr, Eg in X. discriminate. }
        rewrite D, app_nil_r. split; [reflexivity|discriminate].
      + cbn [andb]. rewrite orb_false_r. split; [rewrite app_nil_r; destruct (vdeq c s i k); reflexivity|].
        intros D. rewrite Es, D. apply H5. reflexivity.
  Qed.

  Lemma narrow_step s i k n cur E lp : R k = Narrow lp -> vactive s k -> 0 <= n < 2 ^ lw c -> uinv s k n cur E -> outcome s i k n cur E.
  Proof using Hc.
    intros HR H Hn HU. pose proof (common_step s i k n cur E H Hn HU) as HC. destruct HU as (H1 & H2 & H3 & H4).
    pose proof (op_w k (va_k _ _ H)) as Hw. pose proof (op_r k (va_k _ _ H)) as Hlp. rewrite HR in Hlp.
    assert (HP : 2 <= 2 ^ lp) by (clear - Hlp; change 2 with (2 ^ 1) at 1; apply Z.pow_le_mono_r; lia).
    unfold outcome. cbv zeta. unfold ushape in H4. cbv zeta in H4. rewrite HR in H4.
    pose proof (ready_ack s i k) as Hr. rewrite HR in Hr. destruct (here01 s k H) as (X0 & X1 & X2).
    set (u := v_unit s k) in *.
    assert (Ew : vwcond c true s i k = vack s i && ((0 <? v_count u) || vheld s k)) by (unfold vwcond; rewrite HR, cur_eq, X1, X2; reflexivity).
    assert (Ef : vfin c true s i k = vack s i && ((0 <? v_count u) || vheld s k) && (v_count u =? pk lp) && v_wlast u)
      by (unfold vfin; rewrite HR, Ew, X1; reflexivity).
    assert (Ewd : vfired c true s i = if vack s i && ((0 <? v_count u) || vheld s k)
      then [((if v_count u =? 0 then vreg s k else v_wdata u) mod 2 ^ W k, (v_size s =? 0) && (v_count u =? pk lp))] else []).
    { unfold vfired. rewrite (fired_active s i k H), Ew. unfold vdata, vlast, vrdata. rewrite HR. fold u.
      destruct (vack s i); cbn [andb]; [rewrite andb_true_r|reflexivity]. destruct (_ || vheld s k); reflexivity. }
    assert (Ed : vdeq c s i k = negb (p_empty (v_f u)) && (0 <? v_size s) && vack s i && (negb (vheld s k) && ((v_count u =? 0) || (v_count u =? pk lp)))).
    { unfold vdeq. rewrite X1, X2, Hr, HR. fold u. cbn [andb]. rewrite andb_true_r. reflexivity. }
    assert (Eh : vheld (step s i) k = vdeq c s i k || vheld s k && negb (vack s i)) by (rewrite held_step, Hr; reflexivity).
    assert (Eu : let u' := v_unit (step s i) k in let wc := vack s i && ((0 <? v_count u) || vheld s k) in
       v_count u' = (if wc && (v_count u =? pk lp) then 0 else if wc then (v_count u + 1) mod 2 ^ lp else v_count u) /\
       v_wdata u' = (if wc && (0 <? v_count u) then Z.shiftr (v_wdata u) (W k) else if wc && (v_count u =? 0) then Z.shiftr (vreg s k) (W k) else v_wdata u) /\
       v_wlast u' = (if wc && (v_count u =? 0) then v_rlast u else v_wlast u)).
    { rewrite vunit_eq. unfold vunit_step. rewrite X0, X1, HR, Ew. cbv zeta. fold u. cbn [v_count v_wdata v_wlast]. split; [reflexivity|split; reflexivity]. }
    cbv zeta in Eu. destruct Eu as (U1 & U2 & U3). unfold pk in *.
    assert (Fin : forall E', vfired c true s i = vunmarked E' -> ushape (step s i) k (cur ++ vpop c k s i) (E ++ E') ->
      exists E', vfired c true s i = vunmarked E' /\ uinv (step s i) k n (cur ++ vpop c k s i) (E ++ E')).
    { intros E' Q1 Q2. exists E'. split; [exact Q1|]. destruct HC as (C1 & C2 & C3). unfold uinv. do 3 (split; [assumption|]). exact Q2. }
    assert (Hsn : v_size s <= n) by (clear - H2; lia). pose proof (size_active s i k n H Hn Hsn) as Es.
    destruct (vack s i) eqn:Ea; cbn [andb] in *.
    2: { (* the channel does not move *)
      rewrite Ef. rewrite !andb_false_r in Ed. cbn [andb] in Ed. rewrite Ed in *. cbn [orb negb] in Eh. rewrite andb_true_r in Eh.
      rewrite pop_eq, Ed, app_nil_r in *. apply (Fin []); [exact Ewd|]. rewrite app_nil_r. unfold ushape. cbv zeta.
      rewrite HR, reg_step, Ed, Eh, U1, U2, U3, Es. exact H4. }
    destruct (vheld s k) eqn:Ev.
    - (* the first part of the word just read *)
      destruct H4 as (Z0 & ws & -> & ->). rewrite Z0 in *. change (0 =? 0) with true in *. change (0 <? 0) with false in *. cbn [orb] in *.
      assert (Q0 : (0 =? 2 ^ lp - 1) = false) by (clear - HP; lia). rewrite Q0 in *. cbn [andb orb negb] in *. rewrite !andb_false_r in Ed. rewrite Ed in *. cbn [orb] in Eh. rewrite Ef.
      rewrite pop_eq, Ed, app_nil_r in *. apply (Fin [vreg s k mod 2 ^ W k]); [rewrite Ewd, andb_false_r; reflexivity|].
      unfold ushape. cbv zeta. rewrite HR, Eh, U1, U2, U3, Es. rewrite Z.mod_small by (clear - HP; lia). cbn [Z.add Z.eqb].
      exists ws, (vreg s k). split; [reflexivity|]. split; [|rewrite Z.mul_1_r; split; [reflexivity|split; [clear - HP; lia|exact H3]]].
      f_equal. change (Z.to_nat 1) with 1%nat. rewrite (vsplit_nth (W k) lp (vreg s k) 0) by (clear - HP; lia). cbn [firstn app]. change (Z.of_nat 0) with 0.
      rewrite Z.mul_0_r, Z.pow_0_r, Z.div_1_r. reflexivity.
    - destruct (Z.eqb_spec (v_count u) 0) as [Z0|Z0].
      + (* waiting for a word *)
        destruct H4 as [-> H5]. rewrite Z0 in *. change (0 =? 0) with true in *. change (0 <? 0) with false in *. cbn [orb andb negb] in *. rewrite Ef. cbn [andb]. rewrite andb_true_r in Ed. rewrite orb_false_r in Eh.
        apply (Fin []); [exact Ewd|]. rewrite app_nil_r. unfold ushape. cbv zeta. rewrite HR, reg_step, Eh, U1, Es, pop_eq. cbn [Z.eqb].
        destruct (vdeq c s i k) eqn:D.
        * split; [reflexivity|]. exists cur. split; reflexivity.
        * rewrite app_nil_r. split; [reflexivity|exact H5].
      + destruct H4 as (ws & x & -> & -> & Hwd & Hcnt & Hwl).
        assert (Q1 : (0 <? v_count u) = true) by (clear - Hcnt; lia). rewrite Q1 in *. cbn [orb andb negb] in *. rewrite orb_false_r in Eh.
        assert (Epiece : v_wdata u mod 2 ^ W k = (x / 2 ^ (W k * Z.of_nat (Z.to_nat (v_count u)))) mod 2 ^ W k)
          by (rewrite Hwd, Z.shiftr_div_pow2 by (clear - Hw Hcnt; nia); rewrite Z2Nat.id by (clear - Hcnt; lia); reflexivity).
        destruct (Z.eqb_spec (v_count u) (2 ^ lp - 1)) as [Zl|Zl].
        * (* the last part *)
          rewrite Ef. cbn [andb]. rewrite Hwl. rewrite andb_true_r in *.
          assert (Eall : flat_map (vsplit (W k) lp) (ws ++ [x]) =
            (flat_map (vsplit (W k) lp) ws ++ firstn (Z.to_nat (v_count u)) (vsplit (W k) lp x)) ++ [v_wdata u mod 2 ^ W k]).
          { rewrite flat_map_app. cbn [flat_map]. rewrite app_nil_r, <- app_assoc. f_equal. rewrite Epiece, <- vsplit_nth by (clear - Hcnt; lia).
            symmetry. apply firstn_all2. rewrite vsplit_len. clear - Hcnt Zl; lia. }
          destruct (Z.eqb_spec (v_size s) 0) as [Ez|Ez].
          -- assert (Q2 : (0 <? v_size s) = false) by (clear - Ez; lia). rewrite Q2 in Ed. rewrite andb_false_r in Ed. cbn [andb] in Ed. rewrite Ed in *.
             exists (v_wdata u mod 2 ^ W k). split; [exact Ewd|]. rewrite pop_eq, Ed, app_nil_r, HR. split; [exact Eall|]. split; [clear - H2 Ez; lia|exact Eh].
          -- apply (Fin [v_wdata u mod 2 ^ W k]); [exact Ewd|]. unfold ushape. cbv zeta. rewrite HR, reg_step, Eh, U1, Es, pop_eq. cbn [Z.eqb].
             destruct (vdeq c s i k) eqn:D.
             ++ split; [reflexivity|]. exists (ws ++ [x]). split; [reflexivity|]. symmetry. exact Eall.
             ++ rewrite app_nil_r. split; [symmetry; exact Eall|clear - H1 H2 Ez; lia].
        * rewrite Ef. cbn [andb]. rewrite !andb_false_r in *. rewrite Ed in *. rewrite pop_eq, Ed, app_nil_r in *.
          apply (Fin [v_wdata u mod 2 ^ W k]); [exact Ewd|]. unfold ushape. cbv zeta. rewrite HR, Eh, U1, U2, U3, Es.
          replace (v_count u =? 0) with false by (clear - Hcnt; lia). rewrite Z.mod_small by (clear - Hcnt Zl; lia). replace (v_count u + 1 =? 0) with false by (clear - Hcnt; lia).
          exists ws, x. split; [reflexivity|]. split; [|split; [|split; [clear - Hcnt Zl; lia|exact Hwl]]].
          -- rewrite <- app_assoc. f_equal. rewrite Epiece, <- vsplit_nth by (clear - Hcnt; lia). f_equal. clear - Hcnt; lia.
          -- rewrite Hwd, Z.shiftr_shiftr by (clear - Hw; lia). f_equal. clear; lia.
  Qed.

  (** ** Narrow FIFOs: words are collected *)
  Lemma wide_in k lp cnt d x : (k < nops c)%nat -> R k = Wide lp -> 0 <= cnt < 2 ^ lp -> 0 <= d < 2 ^ (W k * 2 ^ lp) ->
    let d' := cat [(W k, x); (W k * pk lp, Z.shiftr d (W k))] in
    0 <= d' < 2 ^ (W k * 2 ^ lp) /\ d' / 2 ^ (W k * (2 ^ lp - (cnt + 1))) = d / 2 ^ (W k * (2 ^ lp - cnt)) + 2 ^ (W k * cnt) * (x mod 2 ^ W k).
  Proof using Hc.
    intros Hk HR Hcnt Hd. pose proof (op_w k Hk) as Hw. cbv zeta. unfold pk.
    assert (E : cat [(W k, x); (W k * (2 ^ lp - 1), Z.shiftr d (W k))] = cat [(W k, x mod 2 ^ W k); (W k * (2 ^ lp - 1), Z.shiftr d (W k))]).
    { rewrite !cat2 by (clear - Hw Hcnt; nia). rewrite Z.mod_mod by (apply Z.pow_nonzero; [lia|exact Hw]). reflexivity. }
    rewrite E. apply shift_in; auto. apply Z.mod_pos_bound, Z.pow_pos_nonneg; [lia|exact Hw].
  Qed.
  Lemma wok_step s i k : (k < nops c)%nat -> vwok s k -> vwok (step s i) k.
  Proof using Hc.
    intros Hk H. unfold vwok in *. rewrite vunit_eq. unfold vunit_step. destruct (R k) as [|lp|lp] eqn:HR; auto.
    destruct (vhere c s k 0); [exact H|]. destruct (vhere c s k 1); [|exact H]. cbv zeta. cbn [v_wdata].
    destruct (_ && _); [|exact H]. unfold vwide. pose proof (op_r k Hk) as Hlp. rewrite HR in Hlp.
    apply (wide_in k lp 0); auto. assert (0 < 2 ^ lp) by (apply Z.pow_pos_nonneg; lia). lia.
  Qed.
  Lemma tvalid_step s i : vfired c true s i = [] -> v_tvalid (step s i) = v_tvalid s && negb (d_ready i).
  Proof using. clear. unfold vfired. cbn [vstep v_tvalid]. destruct (vword c true s i); [discriminate|reflexivity]. Qed.

  Lemma wide_step s i k n cur E lp : R k = Wide lp -> vactive s k -> 0 <= n < 2 ^ lw c -> n mod 2 ^ lp = 0 -> vwok s k -> uinv s k n cur E -> outcome s i k n cur E.
  Proof using Hc.
    intros HR H Hn Hm Hok HU. pose proof (common_step s i k n cur E H Hn HU) as HC. destruct HU as (H1 & H2 & H3 & H4).
    pose proof (va_k _ _ H) as Hk. pose proof (op_w k Hk) as Hw. pose proof (op_r k Hk) as Hlp. rewrite HR in Hlp.
    assert (HP : 2 <= 2 ^ lp) by (clear - Hlp; change 2 with (2 ^ 1) at 1; apply Z.pow_le_mono_r; lia).
    unfold vwok in Hok. rewrite HR in Hok.
    unfold outcome. cbv zeta. unfold ushape in H4. cbv zeta in H4. rewrite HR in H4. destruct (here01 s k H) as (X0 & X1 & X2).
    destruct H4 as (gs & g & Hcur & HF & HE & Hg & Hcnt & Hwd & Htv & Hsz).
    set (u := v_unit s k) in *.
    assert (C0 : 0 <= v_count u) by (clear - Hg; lia).
    assert (Er : vready c s i k = vack s i || (0 <? v_count u)) by (unfold vready; rewrite HR; reflexivity).
    assert (Ea : vready c s i k = true -> vack s i = true).
    { intros X. rewrite Er in X. destruct (vack s i) eqn:Y; [reflexivity|]. cbn [orb] in X. apply Z.ltb_lt in X.
      unfold vack in Y. rewrite (Htv X) in Y. cbn in Y. rewrite orb_true_r in Y. discriminate. }
    assert (Ew : vwcond c true s i k = (v_count u =? pk lp) && vheld s k && vready c s i k).
    { unfold vwcond. rewrite HR, cur_eq, X1, X2. reflexivity. }
    assert (Ef : vfin c true s i k = (v_count u =? pk lp) && vheld s k && vready c s i k && v_rlast u).
    { unfold vfin. rewrite HR, cur_eq, X1. reflexivity. }
    assert (Ewd : vfired c true s i = if (v_count u =? pk lp) && vheld s k && vready c s i k then [(vwide true (W k) lp u, v_rlast u)] else []).
    { unfold vfired. rewrite (fired_active s i k H), Ew. unfold vdata, vlast. rewrite HR. fold u.
      destruct (vready c s i k) eqn:Y; [rewrite (Ea eq_refl), andb_true_r; destruct (_ && true); reflexivity|]. rewrite andb_false_r. reflexivity. }
    assert (Eh : vheld (step s i) k = vdeq c s i k || vheld s k && negb (vready c s i k)) by apply held_step.
    assert (Eu : let u' := v_unit (step s i) k in let go := vheld s k && vready c s i k in
       v_count u' = (if go && (v_count u =? pk lp) then 0 else if go then (v_count u + 1) mod 2 ^ lp else v_count u) /\
       v_wdata u' = (if go then vwide true (W k) lp u else v_wdata u)).
    { rewrite vunit_eq. unfold vunit_step. rewrite X0, X1, HR, cur_eq. cbv zeta. fold u. cbn [v_count v_wdata]. split; reflexivity. }
    cbv zeta in Eu. destruct Eu as (U1 & U2). unfold pk in *.
    assert (Fin : forall E', vfired c true s i = vunmarked E' -> ushape (step s i) k (cur ++ vpop c k s i) (E ++ E') ->
      exists E', vfired c true s i = vunmarked E' /\ uinv (step s i) k n (cur ++ vpop c k s i) (E ++ E')).
    { intros E' Q1 Q2. exists E'. split; [exact Q1|]. destruct HC as (C1 & C2 & C3). unfold uinv. do 3 (split; [assumption|]). exact Q2. }
    assert (Hsn : v_size s <= n) by (clear - H2; lia). pose proof (size_active s i k n H Hn Hsn) as Es.
    assert (Dz : v_size s = 0 -> vdeq c s i k = false).
    { intros Ez. destruct (vdeq c s i k) eqn:D; [|reflexivity]. destruct (deq_some s i k D) as (_ & X & _). clear - X Ez; lia. }
    assert (Ewide : vwide true (W k) lp u = cat [(W k, vreg s k); (W k * pk lp, Z.shiftr (v_wdata u) (W k))]) by reflexivity.
    destruct (wide_in k lp (v_count u) (v_wdata u) (vreg s k) Hk HR (conj C0 Hcnt) Hok) as [W1 W2]. rewrite <- Ewide in W1, W2.
    assert (Ejoin : vwide true (W k) lp u / 2 ^ (W k * (2 ^ lp - (v_count u + 1))) = vjoin (W k) (g ++ [vreg s k])).
    { rewrite W2, Hwd, vjoin_snoc by exact Hw. rewrite Hg. reflexivity. }
    assert (Hlen : (length g + 1 <= Z.to_nat (2 ^ lp))%nat) by (clear - Hg Hcnt; lia).
    destruct (vheld s k) eqn:Ev; [destruct (vready c s i k) eqn:Ey|].
    - (* a word is added *)
      pose proof (Ea eq_refl) as Eack. cbn [andb negb] in *. rewrite orb_false_r in Eh. rewrite !andb_true_r in *.
      destruct (Z.eqb_spec (v_count u) (2 ^ lp - 1)) as [Zl|Zl]; cbn [andb] in *.
      + assert (Ex : vwide true (W k) lp u = vjoin (W k) (g ++ [vreg s k])).
        { rewrite <- Ejoin. replace (2 ^ lp - (v_count u + 1)) with 0 by (clear - Zl; lia). rewrite Z.mul_0_r, Z.pow_0_r, Z.div_1_r. reflexivity. }
        assert (Hl' : length (g ++ [vreg s k]) = Z.to_nat (2 ^ lp)) by (rewrite app_length; cbn [length]; clear - Hg Zl; lia).
        assert (HF' : Forall (fun x => length x = Z.to_nat (2 ^ lp)) (gs ++ [g ++ [vreg s k]])) by (apply Forall_app; split; [exact HF|constructor; [exact Hl'|constructor]]).
        assert (Ecur : cur = concat (gs ++ [g ++ [vreg s k]])) by (rewrite concat_app; cbn [concat]; rewrite app_nil_r; exact Hcur).
        rewrite Ef. destruct (v_rlast u) eqn:Erl.
        * assert (Ez : v_size s = 0) by (clear - H3; lia). specialize (Dz Ez). rewrite Dz in *.
          exists (vwide true (W k) lp u). split; [exact Ewd|]. rewrite pop_eq, Dz, app_nil_r, HR. split; [|split; [clear - H2 Ez; lia|exact Eh]].
          rewrite Ecur, <- (app_nil_r (concat _)), vpack_wide; auto; [|cbn [length]; clear - HP; lia]. rewrite map_app, HE, Ex. reflexivity.
        * apply (Fin [vwide true (W k) lp u]); [exact Ewd|]. unfold ushape. cbv zeta. rewrite HR, reg_step, Eh, U1, U2, Es, pop_eq.
          exists (gs ++ [g ++ [vreg s k]]), []. cbn [app length]. split; [rewrite Ecur; destruct (vdeq c s i k); reflexivity|].
          split; [exact HF'|]. split; [rewrite map_app, HE, Ex; reflexivity|]. split; [reflexivity|]. split; [clear - HP; lia|].
          split; [|split; [clear; lia|]].
          -- cbn [vjoin]. rewrite Z.sub_0_r. apply Z.div_small. exact W1.
          -- intros D. rewrite D. clear - H1 H2 H3. lia.
      + rewrite Ef. cbn [andb]. apply (Fin []); [exact Ewd|]. unfold ushape. cbv zeta. rewrite HR, reg_step, Eh, U1, U2, Es, pop_eq, app_nil_r.
        rewrite Z.mod_small by (clear - C0 Hcnt Zl; lia).
        exists gs, (g ++ [vreg s k]). split; [rewrite Hcur, <- !app_assoc; destruct (vdeq c s i k); reflexivity|].
        split; [exact HF|]. split; [exact HE|]. split; [rewrite app_length; cbn [length]; clear - Hg; lia|]. split; [clear - Hcnt Zl; lia|].
        split; [exact Ejoin|]. split.
        * intros _. rewrite tvalid_step by exact Ewd. unfold vack in Eack. clear - Eack. destruct (v_tvalid s), (d_ready i); cbn in *; congruence.
        * intros D. rewrite D. assert (Hne : v_size s <> 0).
          { intros Ez. rewrite Hcur, !app_length, (concat_len _ _ HF) in H2. cbn [length] in H2.
            assert (Hq : n = Z.of_nat (length gs) * 2 ^ lp + (v_count u + 1)) by (clear - H2 Ez Hg HP; nia).
            rewrite Hq, Z.add_comm, Z.mod_add, Z.mod_small in Hm by (clear - Hcnt C0 Zl HP; lia). clear - Hm C0. lia. }
          clear - H1 H2 Hne. lia.
    - (* held back *)
      assert (D : vdeq c s i k = false).
      { destruct (vdeq c s i k) eqn:D; [|reflexivity]. destruct (deq_some s i k D) as (_ & _ & X). rewrite Ey in X. discriminate. }
      rewrite D in *. cbn [andb orb negb] in *. rewrite !andb_false_r in *. rewrite Ef. cbn [andb]. rewrite pop_eq, D, app_nil_r in *.
      apply (Fin []); [exact Ewd|]. unfold ushape. cbv zeta. rewrite HR, reg_step, D, Eh, U1, U2, Es, app_nil_r.
      exists gs, g. do 6 (split; [assumption|]). split; [|discriminate]. intros X. rewrite tvalid_step by exact Ewd. rewrite (Htv X). reflexivity.
    - cbn [andb] in *. rewrite orb_false_r in Eh. rewrite !andb_false_r in *. cbn [andb] in *. rewrite Ef.
      apply (Fin []); [exact Ewd|]. unfold ushape. cbv zeta. rewrite HR, reg_step, Eh, U1, U2, Es, pop_eq, app_nil_r.
      exists gs, g. split; [rewrite Hcur, app_nil_r, <- app_assoc; destruct (vdeq c s i k); reflexivity|]. do 5 (split; [assumption|]). split.
      + intros X. rewrite tvalid_step by exact Ewd. rewrite (Htv X). reflexivity.
      + intros D. rewrite D. apply Hsz. reflexivity.
  Qed.
  Theorem run_step s i k n cur E : vactive s k -> blegal_size c k n -> vwok s k -> uinv s k n cur E -> outcome s i k n cur E.
  Proof using Hc.
    intros H HL Hok HU. destruct HL as [HL1 HL2]. assert (Hn : 0 <= n < 2 ^ lw c) by (clear - HL1; lia).
    destruct (R k) as [|lp|lp] eqn:HR; [eapply same_step|eapply narrow_step|eapply wide_step]; eauto.
  Qed.

  (** ** The jobs *)
  Notation vreq := (nat * Z)%type.
  Definition vreq_word (x : vreq) : Z := pack_breq c (opid (fst x)) (snd x).
  Definition vreq_job (x : vreq) : vjob := VDma (fst x) (snd x).
  Definition vlegal_rq (x : vreq) : Prop := (fst x < nops c)%nat /\ blegal_size c (fst x) (snd x).
  Lemma sendall_app a wa b wb : length a = length wa -> vsendall c (a ++ b) (wa ++ wb) = vsendall c a wa ++ vsendall c b wb.
  Proof using.
    clear. revert wa. unfold vsendall. induction a as [|x a IH]; intros [|y wa] H; try discriminate; [reflexivity|].
    cbn [app combine flat_map]. rewrite IH by (injection H; auto). rewrite app_assoc. reflexivity.
  Qed.
  Lemma takes_app k a wa b wb : length a = length wa -> vtakes k (a ++ b) (wa ++ wb) = vtakes k a wa ++ vtakes k b wb.
  Proof using.
    clear. revert wa. unfold vtakes. induction a as [|x a IH]; intros [|y wa] H; try discriminate; [reflexivity|].
    cbn [app combine flat_map]. rewrite IH by (injection H; auto). rewrite app_assoc. reflexivity.
  Qed.
  Lemma own_len js wss : Forall2 vown js wss -> length js = length wss.
  Proof using. clear. induction 1; cbn [length]; congruence. Qed.

  Inductive vphase (s : vst) (js : list vjob) (B : list (Z * bool)) (T : nat -> list Z) : Prop :=
  | V_idle wss : Forall2 vown js wss -> B = vsendall c js wss -> (forall j, (j < nops c)%nat -> T j = vtakes j js wss) ->
      vall0 s -> v_busy s = false -> v_thr s = 0 \/ v_thr s = 1 -> (forall k, (k < nops c)%nat -> vquiet s k) -> vphase s js B T
  | V_write J wss : js = J ++ [VWrite (fst (v_val s)) (snd (v_val s))] -> Forall2 vown J wss -> B = vsendall c J wss ->
      (forall j, (j < nops c)%nat -> T j = vtakes j J wss) ->
      vall0 s -> v_busy s = true -> v_thr s = 2 -> (forall k, (k < nops c)%nat -> vquiet s k) -> vphase s js B T
  | V_run J wss k n cur E : js = J ++ [VDma k n] -> Forall2 vown J wss -> B = vsendall c J wss ++ vunmarked E ->
      (forall j, (j < nops c)%nat -> T j = vtakes j J wss ++ vfrom j (VDma k n) cur) ->
      vactive s k -> blegal_size c k n -> uinv s k n cur E -> vphase s js B T.
  Record vinv (s : vst) (D : list vjob) (P : list vreq) (B : list (Z * bool)) (T : nat -> list Z) : Prop := mkVinv {
    vv_q : Inv (2 ^ g_fa c) (v_q s) (map vreq_word P);
    vv_legal : Forall vlegal_rq P;
    vv_wok : forall k, (k < nops c)%nat -> vwok s k;
    vv_ph : vphase s D B T }.

  (** ** The queue *)
  Definition vacc (s : vst) (i : vinp) : list vreq :=
    match d_req i with Some (k, n) => if vaccepts c s then [(k, n)] else [] | None => [] end.
  Lemma vissued_acc s i : vissued c s i =
    (if (v_thr s =? 1) && vidle s then [VWrite (fst (v_val s)) (snd (v_val s))] else []) ++ map vreq_job (vacc s i).
  Proof using.
    clear. unfold vissued, vacc. f_equal. destruct (d_req i) as [[k n]|]; [|reflexivity]. destruct (vaccepts c s); reflexivity.
  Qed.
  Lemma vacc_legal s i : vlegal_in c i -> Forall vlegal_rq (vacc s i).
  Proof using.
    clear. intros H. unfold vacc, vlegal_in in *. destruct (d_req i) as [[k n]|]; [|constructor].
    destruct (vaccepts c s); constructor; [exact H|constructor].
  Qed.
  Lemma vq_step s i P : Inv (2 ^ g_fa c) (v_q s) (map vreq_word P) ->
    (any c (vdispatch c s) = true -> P <> []) ->
    Inv (2 ^ g_fa c) (v_q (step s i)) (map vreq_word ((if any c (vdispatch c s) then tl P else P) ++ vacc s i)).
  Proof using Hc.
    intros HI HD. cbn [vstep v_q]. unfold vq_in. set (dq := any c (vdispatch c s)) in *.
    assert (Ed : deq_rtl (v_q s) dq = dq).
    { unfold deq_rtl, deq_ready. rewrite (empty_list (g_fa c) _ _ fa1 HI). destruct dq; [|reflexivity].
      destruct P; [exfalso; apply HD; reflexivity|reflexivity]. }
    rewrite Ed. rewrite map_app. replace (map vreq_word (if dq then tl P else P)) with (if dq then tl (map vreq_word P) else map vreq_word P)
      by (destruct dq; [destruct P; reflexivity|reflexivity]).
    assert (HD' : dq = true -> map vreq_word P <> []).
    { intros E. specialize (HD E). destruct P; [exfalso; apply HD; reflexivity|discriminate]. }
    assert (Hn : Inv (2 ^ g_fa c) (fifo_step false (g_fa c) (v_q s) (mkFifoIn false 0 dq)) ((if dq then tl (map vreq_word P) else map vreq_word P) ++ [])).
    { pose proof (fstep_list (g_fa c) _ _ false 0 dq fa1 HI HD') as X. exact X. }
    unfold vacc. destruct (d_req i) as [[k n]|]; [|exact Hn].
    pose proof (fstep_list (g_fa c) _ _ (vaccepts c s) (pack_breq c (opid k) n) dq fa1 HI HD') as X.
    unfold vaccepts in *. rewrite andb_diag in X. destruct (negb (p_almost_full (g_fa c) (v_q s))); exact X.
  Qed.
  Lemma vunpack_req x : vlegal_rq x -> bq_op c (vreq_word x) = opid (fst x) /\ bq_size c (vreq_word x) = snd x.
  Proof using Hc.
    intros (X1 & [X4 _]). assert (X4' : 0 <= snd x < 2 ^ lw c) by (clear - X4; lia). assert (Hs : 1 <= g_sw c) by apply Hc.
    exact (unpack_breq c (opid (fst x)) (snd x) aw1 Hs (op_id _ X1) X4').
  Qed.
  Lemma vidle_dispatch s x P k : vall0 s -> v_busy s = false -> Inv (2 ^ g_fa c) (v_q s) (map vreq_word (x :: P)) -> vlegal_rq x ->
    (k < nops c)%nat -> vdispatch c s k = Nat.eqb k (fst x).
  Proof using Hc.
    intros H0 Hb HI Hx Hk. unfold vdispatch. rewrite here0 by exact Hk. rewrite H0, Hb, (empty_list (g_fa c) _ _ fa1 HI). cbn [map Z.eqb negb andb].
    unfold vhead. rewrite (rdata_list (g_fa c) _ _ _ fa1 HI).
    destruct (vunpack_req x Hx) as (E & _). rewrite E.
    destruct (Nat.eqb k (fst x)) eqn:En.
    - apply Nat.eqb_eq in En. subst. apply Z.eqb_refl.
    - apply Nat.eqb_neq in En. apply Z.eqb_neq. intros Y. apply En. symmetry. apply opid_inj. exact Y.
  Qed.
  Lemma vempty_dispatch s k : Inv (2 ^ g_fa c) (v_q s) [] -> vdispatch c s k = false.
  Proof using Hc. intros HI. unfold vdispatch. rewrite (empty_list (g_fa c) _ _ fa1 HI). rewrite andb_false_r. cbn. apply andb_false_r. Qed.
  Lemma all0_no s i : vall0 s -> (forall k, (k < nops c)%nat -> vquiet s k) ->
    any c (vfin c true s i) = false /\ forall k, (k < nops c)%nat -> vwcond c true s i k = false /\ vdeq c s i k = false.
  Proof using Hc.
    intros H Q. assert (G : forall k, (k < nops c)%nat -> vwcond c true s i k = false /\ vdeq c s i k = false /\ vfin c true s i k = false).
    { intros k Hk. apply (quiet_no s i k Hk (Q k Hk)). right. rewrite H. lia. }
    split; [apply any_false; intros; apply G; assumption|]. intros k Hk. split; apply (G k Hk).
  Qed.
  Lemma all0_word s i : vall0 s -> (forall k, (k < nops c)%nat -> vquiet s k) -> v_thr s <> 2 -> vfired c true s i = [].
  Proof using Hc.
    intros H Q Ht. unfold vfired, vword. replace (v_thr s =? 2) with false by lia. cbn [andb]. rewrite last_none; [reflexivity|].
    intros k Hk. destruct (all0_no s i H Q) as (_ & G). destruct (G k Hk) as [-> _]. reflexivity.
  Qed.
  Lemma all0_step s i : vall0 s -> (forall k, (k < nops c)%nat -> vdispatch c s k = false) -> vall0 (step s i).
  Proof using Hc. intros H D r. apply fsm_idle; [apply H|]. intros k Hk _. apply D, Hk. Qed.

  (** dispatch *)
  Lemma local_size k n : (k < nops c)%nat -> blegal_size c k n -> wr_local (R k) n mod 2 ^ lw c = n.
  Proof using Hc.
    intros Hk [H1 H2]. assert (E : wr_local (R k) n = n); [|rewrite E; apply Z.mod_small; lia].
    pose proof (op_r k Hk) as Hlp. unfold wr_local, global_size. destruct (R k) as [|lp|lp]; auto.
    assert (0 < 2 ^ lp) by (apply Z.pow_pos_nonneg; lia). replace (2 ^ lp - 1) with (Z.ones lp) by (rewrite Z.ones_equiv; lia).
    rewrite Z.land_ones, H2 by lia. change (0 <? 0) with false. cbv iota. rewrite Z.add_0_r, Z.shiftl_mul_pow2, Z.shiftr_div_pow2 by lia.
    rewrite Z.mul_comm. symmetry. apply Z_div_exact_full_2; lia.
  Qed.
  Lemma dispatch_step s i x P : vall0 s -> v_busy s = false -> v_thr s = 0 \/ v_thr s = 1 -> (forall k, (k < nops c)%nat -> vquiet s k) ->
    Inv (2 ^ g_fa c) (v_q s) (map vreq_word (x :: P)) -> vlegal_rq x -> vwok s (fst x) ->
    any c (vdispatch c s) = true /\ vidle s = false /\ vactive (step s i) (fst x) /\ v_size (step s i) = snd x /\ uinv (step s i) (fst x) (snd x) [] [].
  Proof using Hc.
    intros H0 Hb Ht Hu HQ Hx Hwk. pose proof (fun k => vidle_dispatch s x P k H0 Hb HQ Hx) as Hd. destruct Hx as [Hk Hl]. pose proof (conj Hk Hl : vlegal_rq x) as Hx.
    assert (Ed : any c (vdispatch c s) = true).
    { apply (any_intro c _ (fst x)); [exact Hk|]. rewrite Hd by exact Hk. apply Nat.eqb_refl. }
    assert (Ei : vidle s = false) by (unfold vidle; rewrite (empty_list (g_fa c) _ _ fa1 HQ); reflexivity).
    destruct (vunpack_req x Hx) as [U1 U2]. assert (Eh : vhead s = vreq_word x) by (unfold vhead; apply (rdata_list (g_fa c) _ _ _ fa1 HQ)).
    destruct (all0_no s i H0 Hu) as (Nf & Nd).
    assert (Hqu : forall k, (k < nops c)%nat -> vquiet (step s i) k) by (intros k Hk'; apply quiet_step; [apply (Nd k Hk')|apply Hu, Hk']).
    assert (Et2 : v_thr s =? 2 = false) by (destruct Ht as [E|E]; rewrite E; reflexivity).
    assert (Es : v_size (step s i) = snd x).
    { cbn [vstep v_size]. unfold vsize_step. rewrite Eh, U2. rewrite (last_some c _ (wr_local (R (fst x)) (snd x)) (fst x)); [apply local_size; assumption|exact Hk| |].
      - rewrite Hd by exact Hk. rewrite Nat.eqb_refl. reflexivity.
      - intros j Hj. rewrite Hd by exact Hj. destruct (Nat.eqb j (fst x)) eqn:E; [|left; reflexivity]. apply Nat.eqb_eq in E. subst j. right. reflexivity. }
    split; [exact Ed|]. split; [exact Ei|]. split; [|split; [exact Es|]].
    - constructor; auto.
      + cbn [vstep v_sel]. rewrite Ed, Eh. exact U1.
      + rewrite vfsm_of_step. unfold vfsm_step. rewrite (last_some c _ 1 (fst x)); [reflexivity|exact Hk| |].
        * rewrite class_refl, jump0 by exact Hk. rewrite H0, Hd by exact Hk. rewrite Nat.eqb_refl. reflexivity.
        * intros j Hj. destruct (same_class _ _); [|left; reflexivity]. rewrite jump0 by exact Hj. rewrite H0. cbn [Z.eqb].
          destruct (vdispatch c s j); auto.
      + intros r Hr. apply fsm_idle; [apply H0|]. intros j Hj Hc'. rewrite Hd by exact Hj.
        destruct (Nat.eqb j (fst x)) eqn:E; [|reflexivity]. apply Nat.eqb_eq in E. subst j. congruence.
      + cbn [vstep v_busy]. rewrite Nf, Ed, Et2. reflexivity.
      + cbn [vstep v_thr]. unfold vthr_step. rewrite Ei. destruct Ht as [E|E]; rewrite E; cbn [Z.eqb Pos.eqb]; [destruct (d_write i); auto|auto].
    - destruct Hl as [Hl1 Hl2]. assert (Hh : vhere c s (fst x) 0 = true) by (rewrite here0 by exact Hk; rewrite H0; reflexivity).
      unfold uinv. rewrite Es. cbn [length]. change (Z.of_nat 0) with 0. split; [clear - Hl1; lia|]. split; [clear; lia|].
      assert (Eu : v_rlast (v_unit (step s i) (fst x)) = false /\ match R (fst x) with Same => True | _ => v_count (v_unit (step s i) (fst x)) = 0 end).
      { rewrite vunit_eq. unfold vunit_step. rewrite Hh. cbn [v_rlast v_count]. split; [reflexivity|]. destruct (R (fst x)); auto. }
      destruct Eu as [-> Ec]. split; [symmetry; apply Z.eqb_neq; clear - Hl1; lia|]. pose proof (Hqu (fst x) Hk) as Hq. unfold vquiet in Hq.
      pose proof (wok_step s i (fst x) Hk Hwk) as Hw'. unfold vwok in Hw'. pose proof (op_r (fst x) Hk) as Hlp.
      unfold ushape. cbv zeta. rewrite Hq, Es. destruct (R (fst x)) as [|lp|lp].
      + split; [reflexivity|]. intros _. clear - Hl1. lia.
      + rewrite Ec. split; [reflexivity|]. clear - Hl1. lia.
      + exists [], []. rewrite Ec. cbn [concat app map length vjoin]. rewrite Z.sub_0_r. split; [reflexivity|]. split; [constructor|]. split; [reflexivity|].
        split; [reflexivity|]. split; [apply Z.pow_pos_nonneg; lia|]. split; [apply Z.div_small; exact Hw'|]. split; [clear; lia|]. intros _. clear - Hl1. lia.
  Qed.

  Lemma vunmarked_app a b : vunmarked (a ++ b) = vunmarked a ++ vunmarked b.
  Proof using. clear. unfold vunmarked. apply map_app. Qed.
  Definition vnextP (s : vst) (i : vinp) (P : list vreq) : list vreq := (if any c (vdispatch c s) then tl P else P) ++ vacc s i.
  Theorem vinv_step s i D P B T : vinv s D P B T -> vlegal_in c i ->
    exists D', vinv (step s i) D' (vnextP s i P) (B ++ vfired c true s i) (fun j => T j ++ vpop c j s i) /\
      D' ++ map vreq_job (vnextP s i P) = D ++ map vreq_job P ++ vissued c s i.
  Proof using Hc.
    intros [HQ HL HW HP] Hi. rewrite vissued_acc. unfold vnextP.
    assert (HW' : forall k, (k < nops c)%nat -> vwok (step s i) k) by (intros k Hk; apply wok_step; auto).
    destruct HP as [wss Ho -> HT H0 Hb Ht Hu | J wss -> Ho -> HT H0 Hb Ht Hu | J wss k n cur E -> Ho -> HT Ha Hq Hw].
    - (* idle *)
      assert (Et2 : v_thr s =? 2 = false) by (destruct Ht as [E|E]; rewrite E; reflexivity).
      assert (Ewd : vfired c true s i = []) by (apply all0_word; [exact H0|exact Hu|lia]).
      rewrite Ewd, app_nil_r.
      destruct (all0_no s i H0 Hu) as (Nf & Nd).
      assert (Hqu : forall k, (k < nops c)%nat -> vquiet (step s i) k) by (intros k Hk; apply quiet_step; [apply (Nd k Hk)|apply Hu, Hk]).
      assert (HT' : forall j, (j < nops c)%nat -> T j ++ vpop c j s i = vtakes j D wss).
      { intros j Hj. rewrite pop_eq. destruct (Nd j Hj) as [_ ->]. rewrite app_nil_r. apply HT, Hj. }
      destruct P as [|x P].
      + cbn [map] in HQ. assert (Hd : forall k, (k < nops c)%nat -> vdispatch c s k = false) by (intros; apply vempty_dispatch, HQ).
        assert (Ed : any c (vdispatch c s) = false) by (apply any_false, Hd).
        assert (Ei : vidle s = true) by (unfold vidle; rewrite (empty_list (g_fa c) _ _ fa1 HQ), Hb; reflexivity).
        pose proof (vq_step s i [] HQ ltac:(rewrite Ed; discriminate)) as HQ'. rewrite Ed in HQ'. cbn [app] in HQ'.
        rewrite Ei, andb_true_r. pose proof (vacc_legal s i Hi) as HL'.
        assert (H0' : vall0 (step s i)) by (apply all0_step; assumption).
        destruct Ht as [Ht|Ht]; rewrite Ht; cbn [Z.eqb Pos.eqb app].
        * exists D. rewrite Ed. cbn [app]. split; [|reflexivity]. constructor; auto.
          apply (V_idle _ _ _ _ wss); auto.
          -- cbn [vstep v_busy]. rewrite Nf, Ed, Ht. cbn. exact Hb.
          -- cbn [vstep v_thr]. unfold vthr_step. rewrite Ht. cbn [Z.eqb]. destruct (d_write i); auto.
        * exists (D ++ [VWrite (fst (v_val s)) (snd (v_val s))]). rewrite Ed. cbn [app]. split; [|rewrite <- app_assoc; reflexivity]. constructor; auto.
          apply (V_write _ _ _ _ D wss); auto.
          -- cbn [vstep v_val]. rewrite Ht. reflexivity.
          -- cbn [vstep v_busy]. rewrite Nf, Ed, Ht, Ei. reflexivity.
          -- cbn [vstep v_thr]. unfold vthr_step. rewrite Ht, Ei. reflexivity.
      + (* a request is dispatched *)
        pose proof (Forall_inv HL) as Hx. pose proof (Forall_inv_tail HL) as HL2.
        destruct (dispatch_step s i x P H0 Hb Ht Hu HQ Hx (HW _ (proj1 Hx))) as (Ed & Ei & Ha & _ & HU).
        pose proof (vq_step s i (x :: P) HQ ltac:(discriminate)) as HQ'. rewrite Ed in HQ'. cbn [tl] in HQ'.
        rewrite Ei, andb_false_r. cbn [app]. exists (D ++ [vreq_job x]). rewrite Ed. cbn [tl].
        split; [|rewrite <- app_assoc, map_app; reflexivity].
        constructor; auto.
        * apply Forall_app. split; [exact HL2|]. apply vacc_legal, Hi.
        * apply (V_run _ _ _ _ D wss (fst x) (snd x) [] []); auto.
          -- rewrite app_nil_r. reflexivity.
          -- intros j Hj. rewrite HT' by exact Hj. cbn [vfrom]. destruct (Nat.eqb _ _); rewrite app_nil_r; reflexivity.
          -- apply Hx.
    - (* a thread writes *)
      pose proof (vbusy_no s Hb) as Ed. pose proof (vidle_busy s Hb) as Ei.
      pose proof (vq_step s i P HQ ltac:(rewrite Ed; discriminate)) as HQ'. rewrite Ed in HQ'.
      rewrite Ei, andb_false_r. cbn [app].
      exists (J ++ [VWrite (fst (v_val s)) (snd (v_val s))]). rewrite Ed. split; [|rewrite map_app; reflexivity].
      destruct (all0_no s i H0 Hu) as (Nf & Nd).
      assert (H0' : vall0 (step s i)) by (apply all0_step; [exact H0|intros; apply vbusy_dispatch, Hb]).
      assert (Hqu : forall k, (k < nops c)%nat -> vquiet (step s i) k) by (intros k Hk; apply quiet_step; [apply (Nd k Hk)|apply Hu, Hk]).
      assert (HT' : forall j, (j < nops c)%nat -> T j ++ vpop c j s i = vtakes j J wss).
      { intros j Hj. rewrite pop_eq. destruct (Nd j Hj) as [_ ->]. rewrite app_nil_r. apply HT, Hj. }
      constructor; auto; [apply Forall_app; split; [exact HL|apply vacc_legal, Hi]|].
      unfold vfired, vword. rewrite Ht. cbn [Z.eqb Pos.eqb andb]. destruct (vack s i) eqn:Ev.
      + apply (V_idle _ _ _ _ (wss ++ [[]])); auto.
        * apply Forall2_app; [exact Ho|]. constructor; [reflexivity|constructor].
        * rewrite sendall_app by apply own_len, Ho. cbn. destruct (v_val s). reflexivity.
        * intros j Hj. rewrite HT' by exact Hj. rewrite takes_app by apply own_len, Ho. cbn. rewrite app_nil_r. reflexivity.
        * cbn [vstep v_busy]. rewrite Nf, Ht, Ev. reflexivity.
        * cbn [vstep v_thr]. unfold vthr_step. rewrite Ht, Ev. auto.
      + rewrite last_none by (intros k Hk; destruct (Nd k Hk) as [-> _]; reflexivity). rewrite app_nil_r. apply (V_write _ _ _ _ J wss); auto.
        * cbn [vstep v_val]. rewrite Ht. reflexivity.
        * cbn [vstep v_busy]. rewrite Nf, Ht, Ev, Ed, Ei. exact Hb.
        * cbn [vstep v_thr]. unfold vthr_step. rewrite Ht, Ev. reflexivity.
    - (* a transfer runs *)
      pose proof (va_busy _ _ Ha) as Hb. pose proof (va_k _ _ Ha) as Hkk.
      pose proof (vbusy_no s Hb) as Ed. pose proof (vidle_busy s Hb) as Ei.
      pose proof (vq_step s i P HQ ltac:(rewrite Ed; discriminate)) as HQ'. rewrite Ed in HQ'.
      rewrite Ei, andb_false_r. cbn [app].
      exists (J ++ [VDma k n]). rewrite Ed. split; [|rewrite map_app; reflexivity].
      constructor; auto; [apply Forall_app; split; [exact HL|apply vacc_legal, Hi]|].
      pose proof (run_step s i k n cur E Ha Hq (HW k Hkk) Hw) as HO. pose proof (active_step s i k Ha) as HA. unfold outcome in HO. cbv zeta in HO.
      assert (HT' : forall j, (j < nops c)%nat -> T j ++ vpop c j s i = vtakes j J wss ++ vfrom j (VDma k n) (cur ++ vpop c k s i)).
      { intros j Hj. rewrite HT by exact Hj. cbn [vfrom]. destruct (Nat.eqb_spec k j) as [->|Hn]; [rewrite app_assoc; reflexivity|].
        rewrite app_nil_r, pop_eq. destruct (active_others s k j Ha Hj (not_eq_sym Hn) i) as (_ & -> & _). rewrite app_nil_r. reflexivity. }
      destruct (vfin c true s i k).
      + destruct HO as (x & -> & Ex & El & Hqk). destruct HA as (A1 & A2 & A3 & A4). apply (V_idle _ _ _ _ (wss ++ [cur ++ vpop c k s i])); auto.
        * apply Forall2_app; [exact Ho|]. constructor; [unfold vown; clear - El; lia|constructor].
        * rewrite sendall_app by apply own_len, Ho. cbn [vsendall combine flat_map fst snd vsends]. rewrite Ex, vmarked_snoc, app_nil_r, app_assoc. reflexivity.
        * intros j Hj. rewrite HT' by exact Hj. rewrite takes_app by apply own_len, Ho. cbn [vtakes combine flat_map fst snd]. rewrite app_nil_r. reflexivity.
        * intros j Hj. destruct (Nat.eq_dec j k) as [->|Hn]; [exact Hqk|apply A4; assumption].
      + destruct HO as (E' & -> & HU). apply (V_run _ _ _ _ J wss k n (cur ++ vpop c k s i) (E ++ E')); auto.
        rewrite vunmarked_app, app_assoc. reflexivity.
  Qed.

  (** ** Runs *)
  Variable m : nat -> Z -> Z.
  Variable fm : Z -> Z.
  Notation ini := (vinit m fm).
  Lemma vinv_init : vinv ini [] [] [] (fun _ => []).
  Proof using Hc.
    constructor.
    - apply init_inv, fa1.
    - constructor.
    - intros k Hk. unfold vwok. pose proof (op_w k Hk) as Hw. destruct (R k); auto. cbn [vinit v_unit v_wdata]. split; [lia|].
      apply Z.pow_pos_nonneg; nia.
    - apply (V_idle _ _ _ _ []); auto; try (intros; reflexivity); try constructor. intros r. destruct r; reflexivity.
  Qed.
  Lemma vphase_ext s D B T T' : (forall j, T j = T' j) -> vphase s D B T -> vphase s D B T'.
  Proof using.
    clear. intros HE [wss Ho HB HT H0 Hb Ht Hu | J wss HJ Ho HB HT H0 Hb Ht Hu | J wss k n cur E HJ Ho HB HT Ha Hq Hw].
    - apply (V_idle _ _ _ _ wss); auto. intros j Hj. rewrite <- HE. auto.
    - apply (V_write _ _ _ _ J wss); auto. intros j Hj. rewrite <- HE. auto.
    - apply (V_run _ _ _ _ J wss k n cur E); auto. intros j Hj. rewrite <- HE. auto.
  Qed.
  Lemma vinv_run ins : forall s D P B T, vinv s D P (B ++ vpending s) T -> Forall (vlegal_in c) ins ->
    exists D' P', vinv (vrun c true s ins) D' P' (B ++ vsents c true s ins ++ vpending (vrun c true s ins)) (fun j => T j ++ vpops c true j s ins) /\
      D' ++ map vreq_job P' = D ++ map vreq_job P ++ vjobs c true s ins.
  Proof using Hc.
    clear m fm. induction ins as [|i ins IH]; intros s D P B T HI HL.
    - exists D, P. unfold vsents, vjobs, vpops. cbn. rewrite !app_nil_r. split; [|reflexivity]. destruct HI as [H1 H2 H3 H4]. constructor; auto.
      eapply vphase_ext; [|exact H4]. intros j. cbn. rewrite app_nil_r. reflexivity.
    - destruct (vinv_step s i D P _ _ HI (Forall_inv HL)) as (D1 & HI1 & E1). rewrite <- app_assoc, (vchan_step c true), app_assoc in HI1.
      destruct (IH (step s i) D1 (vnextP s i P) _ _ HI1 (Forall_inv_tail HL)) as (D' & P' & HI' & E').
      exists D', P'. unfold vsents, vjobs, vpops, vrun, final in *. cbn [outs concat fold_left]. rewrite <- !app_assoc in *. split.
      + destruct HI' as [H1 H2 H3 H4]. constructor; auto. eapply vphase_ext; [|exact H4]. intros j. cbn beta. rewrite <- app_assoc. reflexivity.
      + rewrite E'. rewrite app_assoc, E1, <- !app_assoc. reflexivity.
  Qed.
  Lemma vreached ins : Forall (vlegal_in c) ins ->
    exists D P, vinv (vrun c true ini ins) D P (vsents c true ini ins ++ vpending (vrun c true ini ins)) (fun j => vpops c true j ini ins) /\
      vjobs c true ini ins = D ++ map vreq_job P.
  Proof using Hc.
    intros H. destruct (vinv_run ins ini [] [] [] _ vinv_init H) as (D & P & A1 & A2). exists D, P. split; [exact A1|symmetry; exact A2].
  Qed.
  Lemma cur_sent s k n cur E rest : vactive s k -> blegal_size c k n -> uinv s k n cur E -> vcursent c (VDma k n :: rest) cur E.
  Proof using Hc.
    clear m fm. intros Ha HL (H1 & H2 & H3 & H4). unfold vcursent. cbv zeta. split; [clear - H1; lia|]. pose proof (op_r k (va_k _ _ Ha)) as Hlp.
    unfold ushape in H4. cbv zeta in H4. destruct (R k) as [|lp|lp].
    - destruct H4 as [-> _]. cbn [vpack]. eexists. split; [reflexivity|]. destruct (vheld s k); cbn; lia.
    - cbn [vpack]. destruct (vheld s k).
      + destruct H4 as (_ & ws & -> & ->). rewrite flat_map_app. eexists. split; [reflexivity|]. cbn [flat_map]. rewrite app_nil_r, vsplit_len. lia.
      + destruct (v_count (v_unit s k) =? 0).
        * destruct H4 as [-> _]. exists []. rewrite app_nil_r. split; [reflexivity|cbn; lia].
        * destruct H4 as (ws & x & -> & -> & _). rewrite flat_map_app. cbn [flat_map]. rewrite app_nil_r.
          exists (skipn (Z.to_nat (v_count (v_unit s k))) (vsplit (W k) lp x)). rewrite <- app_assoc, firstn_skipn. split; [reflexivity|].
          rewrite skipn_length, vsplit_len. lia.
    - destruct H4 as (gs & g & -> & HF & -> & Hg & Hcnt & _). rewrite app_assoc. rewrite <- app_assoc. set (g' := g ++ _).
      assert (Hl : (length g' <= Z.to_nat (2 ^ lp))%nat) by (unfold g'; rewrite app_length; destruct (vheld s k); cbn [length]; clear - Hg Hcnt; lia).
      assert (0 < 2 ^ lp) by (apply Z.pow_pos_nonneg; lia).
      destruct (Nat.eq_dec (length g') (Z.to_nat (2 ^ lp))) as [El|El].
      + exists [vjoin (W k) g']. split; [|cbn; lia]. replace (concat gs ++ g') with (concat (gs ++ [g']) ++ [])
          by (rewrite concat_app; cbn [concat]; rewrite !app_nil_r; reflexivity).
        rewrite vpack_wide; auto; [rewrite map_app; reflexivity| |cbn [length]; clear - H; lia].
        apply Forall_app. split; [exact HF|constructor; [exact El|constructor]].
      + exists []. split; [|cbn; lia]. rewrite vpack_wide by (auto; lia). rewrite app_nil_r. reflexivity.
  Qed.
  Theorem valways ins : Forall (vlegal_in c) ins -> let s := vrun c true ini ins in
    exists D rest wss cur sent, vjobs c true ini ins = D ++ rest /\ Forall2 vown D wss /\ vcursent c rest cur sent /\
      vsents c true ini ins ++ vpending s = vsendall c D wss ++ vunmarked sent /\
      forall k, (k < nops c)%nat -> vpops c true k ini ins = vtakes k D wss ++ vcurtake k rest cur.
  Proof using Hc.
    intros H s. destruct (vreached ins H) as (D & P & [_ _ _ HP] & E). fold s in HP. rewrite E. clear E.
    destruct HP as [wss Ho HB HT H0 Hb Ht Hu | J wss -> Ho HB HT H0 Hb Ht Hu | J wss k n cur E -> Ho HB HT Ha Hq Hw].
    - exists D, (map vreq_job P), wss, [], []. rewrite HB, app_nil_r. split; [reflexivity|]. split; [exact Ho|]. split; [|split; [reflexivity|]].
      + destruct P as [|x P]; cbn [map vcursent vreq_job]; [auto|]. cbv zeta. split; [cbn; lia|]. exists [].
        split; [|cbn; destruct (R (fst x)); lia]. destruct (R (fst x)); reflexivity.
      + intros k Hk. rewrite HT by exact Hk. destruct P as [|x P]; cbn [map vcurtake vreq_job vfrom]; [rewrite app_nil_r; reflexivity|].
        destruct (Nat.eqb _ _); rewrite app_nil_r; reflexivity.
    - exists J, ([VWrite (fst (v_val s)) (snd (v_val s))] ++ map vreq_job P), wss, [], []. rewrite HB, <- app_assoc, app_nil_r.
      split; [reflexivity|]. split; [exact Ho|]. split; [cbn; auto|]. split; [reflexivity|]. intros k Hk. cbn [app vcurtake vfrom]. rewrite app_nil_r. apply HT, Hk.
    - exists J, ([VDma k n] ++ map vreq_job P), wss, cur, E. rewrite HB, <- app_assoc.
      split; [reflexivity|]. split; [exact Ho|]. split; [apply (cur_sent s k n cur E _ Ha Hq Hw)|]. split; [reflexivity|]. intros j Hj. apply HT, Hj.
  Qed.
  Lemma vinv_idle s D P B T : vinv s D P B T -> vidle s = true ->
    P = [] /\ (exists wss, Forall2 vown D wss /\ B = vsendall c D wss /\ (forall j, (j < nops c)%nat -> T j = vtakes j D wss)) /\
    vall0 s /\ (forall k, (k < nops c)%nat -> vquiet s k).
  Proof using Hc.
    clear m fm. intros [HQ HL HW HP] Hi. unfold vidle in Hi. rewrite (empty_list (g_fa c) _ _ fa1 HQ) in Hi. split; [destruct P; [reflexivity|discriminate]|].
    destruct (map vreq_word P); [|discriminate]. cbn [andb] in Hi.
    destruct HP as [wss Ho HB HT H0 Hb Ht Hu | J wss -> Ho HB HT H0 Hb Ht Hu | J wss k n cur E -> Ho HB HT Ha Hq Hw].
    - split; [exists wss; auto|auto].
    - rewrite Hb in Hi. discriminate.
    - rewrite (va_busy _ _ Ha) in Hi. discriminate.
  Qed.
  Theorem vidle_done ins : Forall (vlegal_in c) ins -> let s := vrun c true ini ins in vidle s = true ->
    exists wss, Forall2 vown (vjobs c true ini ins) wss /\ vsents c true ini ins ++ vpending s = vsendall c (vjobs c true ini ins) wss /\
      forall k, (k < nops c)%nat -> vpops c true k ini ins = vtakes k (vjobs c true ini ins) wss.
  Proof using Hc.
    intros H s Hid. destruct (vreached ins H) as (D & P & HI & E). fold s in HI.
    destruct (vinv_idle s D P _ _ HI Hid) as (-> & E1 & _). rewrite E. cbn [map]. rewrite app_nil_r. exact E1.
  Qed.

  (** setting and clearing [write_data_busy] never meet *)
  Lemma vno_clash ins i : Forall (vlegal_in c) ins -> let s := vrun c true ini ins in
    (any c (vfin c true s i) || (v_thr s =? 2) && vack s i) && (any c (vdispatch c s) || (v_thr s =? 1) && vidle s) = false.
  Proof using Hc.
    intros HL. cbv zeta. destruct (vreached ins HL) as (D & P & HI & _). set (s := vrun c true ini ins) in *.
    destruct (v_busy s) eqn:Hb.
    - rewrite (vbusy_no s Hb), (vidle_busy s Hb), andb_false_r. apply andb_false_r.
    - destruct HI as [HQ _ _ HP].
      destruct HP as [wss Ho HB HT H0 _ Ht Hu | J wss _ Ho HB HT H0 Hb' Ht Hu | J wss k n cur E _ Ho HB HT Ha Hq Hw].
      + destruct (all0_no s i H0 Hu) as (Nf & _). rewrite Nf. destruct Ht as [E|E]; rewrite E; reflexivity.
      + congruence.
      + rewrite (va_busy _ _ Ha) in Hb. discriminate.
  Qed.

  (** ** Progress *)
  Definition vunitcost (k : nat) : Z := match R k with Narrow lp => 2 ^ lp + 1 | _ => 2 end.
  Definition vbody (s : vst) (k : nat) : Z :=
    v_size s * vunitcost k + match R k with
      | Narrow lp => if vheld s k then 2 ^ lp else if 0 <? v_count (v_unit s k) then 2 ^ lp - v_count (v_unit s k) else 0
      | _ => b2z (vheld s k)
      end.
  Lemma body_step s i k n cur E : vactive s k -> blegal_size c k n -> uinv s k n cur E -> vfin c true s i k = false ->
    vbody (step s i) k <= vbody s k - vgood s i.
  Proof using Hc.
    clear m fm. intros Ha [Hl _] (H1 & H2 & H3 & H4) Hf. assert (Hn : 0 <= n < 2 ^ lw c) by (clear - Hl; lia).
    assert (Hsn : v_size s <= n) by (clear - H2; lia). pose proof (size_active s i k n Ha Hn Hsn) as Es. destruct (here01 s k Ha) as (X0 & X1 & X2).
    pose proof (op_r k (va_k _ _ Ha)) as Hlp. pose proof (held_step s i k) as Eh.
    assert (Eg : vgood s i = b2z (d_ready i && negb ((0 <? v_size s) && p_empty (v_f (v_unit s k))))).
    { unfold vgood, vstarved. rewrite (va_sel _ _ Ha). replace (Z.to_nat (opid k - 1)) with k by (clear; unfold opid; lia). reflexivity. }
    assert (Hs0 : 0 <= v_size s) by (clear - H1 H2; lia).
    unfold ushape in H4. cbv zeta in H4. unfold vbody, vunitcost. rewrite Eg. destruct (R k) as [|lp|lp] eqn:HR.
    1, 3: assert (Ed : vdeq c s i k = negb (p_empty (v_f (v_unit s k))) && (0 <? v_size s) && vready c s i k)
        by (unfold vdeq; rewrite X1, X2, HR; cbn [andb]; rewrite !andb_true_r; reflexivity);
      assert (Hsz : vheld s k = false -> 0 < v_size s) by (first [apply H4|destruct H4 as (gs & g & X); apply X]);
      assert (Hr : d_ready i = true -> vready c s i k = true) by (intros Y; unfold vready, vack; rewrite HR, Y; reflexivity);
      rewrite Es, Eh, Ed; clear - Hsz Hr Hs0; destruct (vheld s k), (p_empty _), (Z.ltb_spec 0 (v_size s)), (vready c s i k), (d_ready i); cbn; try lia;
      (specialize (Hr eq_refl); discriminate) || (specialize (Hsz eq_refl); lia) || lia.
    assert (HP : 2 <= 2 ^ lp) by (clear - Hlp; change 2 with (2 ^ 1) at 1; apply Z.pow_le_mono_r; lia).
    set (u := v_unit s k) in *.
    assert (Ew : vwcond c true s i k = vack s i && ((0 <? v_count u) || vheld s k)) by (unfold vwcond; rewrite HR, cur_eq, X1, X2; reflexivity).
    assert (Er : vready c s i k = vack s i) by (unfold vready; rewrite HR; reflexivity).
    assert (Ed : vdeq c s i k = negb (p_empty (v_f u)) && (0 <? v_size s) && vack s i && (negb (vheld s k) && ((v_count u =? 0) || (v_count u =? 2 ^ lp - 1)))).
    { unfold vdeq. rewrite X1, X2, Er, HR. fold u. cbn [andb]. rewrite andb_true_r. reflexivity. }
    assert (U1 : v_count (v_unit (step s i) k) = (if vack s i && ((0 <? v_count u) || vheld s k) && (v_count u =? 2 ^ lp - 1) then 0
      else if vack s i && ((0 <? v_count u) || vheld s k) then (v_count u + 1) mod 2 ^ lp else v_count u)).
    { rewrite vunit_eq. unfold vunit_step. rewrite X0, X1, HR, Ew. reflexivity. }
    assert (Hr : d_ready i = true -> vack s i = true) by (intros Y; unfold vack; rewrite Y; reflexivity).
    assert (Hsh : vheld s k = true /\ v_count u = 0 \/ vheld s k = false /\ v_count u = 0 /\ 0 < v_size s \/ vheld s k = false /\ 0 < v_count u < 2 ^ lp).
    { clear - H4. destruct (vheld s k); [left; split; [reflexivity|apply H4]|]. right. destruct (Z.eqb_spec (v_count u) 0) as [E0|E0]; [left|right].
      - split; [reflexivity|]. split; [exact E0|apply H4].
      - destruct H4 as (ws & x & _ & _ & _ & Y & _). split; [reflexivity|exact Y]. }
    rewrite Es, Eh, Er, Ed, U1. clear - Hsh Hr Hs0 HP. set (z := v_size s) in *. clearbody z. set (cnt := v_count u) in *. clearbody cnt.
    destruct Hsh as [[-> ->]|[(-> & -> & Hz)|[-> Hcn]]].
    - change (0 <? 0) with false. change (0 =? 0) with true. replace (0 =? 2 ^ lp - 1) with false by lia. cbn [orb andb negb]. rewrite !andb_false_r. rewrite !andb_true_r. cbn [orb].
      destruct (vack s i); cbn [negb andb].
      + rewrite Z.mod_small by lia. change (0 <? 0 + 1) with true. destruct (d_ready i && _); cbn [b2z]; lia.
      + destruct (d_ready i); [specialize (Hr eq_refl); discriminate|]. cbn [andb b2z]. lia.
    - change (0 <? 0) with false. change (0 =? 0) with true. replace (0 <? z) with true by lia. cbn [orb andb negb]. rewrite !andb_false_r, !andb_true_r. cbn [orb andb].
      rewrite !orb_false_r. destruct (vack s i).
      + rewrite !andb_true_r. destruct (p_empty (v_f u)); cbn [negb]; [rewrite andb_false_r; cbn [b2z]; change (0 <? 0) with false; lia|].
        destruct (d_ready i); cbn [b2z andb]; lia.
      + rewrite !andb_false_r. destruct (d_ready i); [specialize (Hr eq_refl); discriminate|]. cbn [andb b2z]. change (0 <? 0) with false. cbv iota. lia.
    - replace (0 <? cnt) with true by lia. replace (cnt =? 0) with false by lia. cbn [orb andb negb]. rewrite !orb_false_r, !andb_true_r.
      destruct (vack s i); cbn [andb].
      + rewrite !andb_true_r. destruct (Z.eqb_spec cnt (2 ^ lp - 1)) as [Ec|Ec].
        * rewrite !andb_true_r. change (0 <? 0) with false. destruct (Z.ltb_spec 0 z); cbn [andb].
          -- rewrite !andb_true_r. destruct (p_empty (v_f u)); cbn [negb]; [rewrite andb_false_r; cbn [b2z]; lia|]. destruct (d_ready i); cbn [andb b2z]; lia.
          -- rewrite !andb_false_r. destruct (d_ready i); cbn [andb negb b2z]; lia.
        * rewrite !andb_false_r. rewrite Z.mod_small by lia. replace (0 <? cnt + 1) with true by lia. destruct (d_ready i && _); cbn [b2z]; lia.
      + destruct (d_ready i); [specialize (Hr eq_refl); discriminate|]. rewrite !andb_false_r. cbn [andb b2z]. replace (0 <? cnt) with true by lia. lia.
  Qed.
  Lemma body_bound s k n cur E : vactive s k -> blegal_size c k n -> uinv s k n cur E -> 0 <= vbody s k <= n * vunitcost k.
  Proof using Hc.
    clear m fm. intros Ha _ (H1 & H2 & _ & H4). pose proof (op_r k (va_k _ _ Ha)) as Hlp. unfold ushape in H4. cbv zeta in H4. unfold vbody, vunitcost.
    destruct (R k) as [|lp|lp].
    - destruct H4 as [-> _]. rewrite app_length in *. clear - H1 H2. destruct (vheld s k); cbn [length b2z] in *; lia.
    - assert (HP : 2 <= 2 ^ lp) by (clear - Hlp; change 2 with (2 ^ 1) at 1; apply Z.pow_le_mono_r; lia). destruct (vheld s k).
      + destruct H4 as (_ & ws & -> & _). rewrite app_length in *. cbn [length] in *. clear - H1 H2 HP. nia.
      + destruct (Z.eqb_spec (v_count (v_unit s k)) 0) as [E0|E0].
        * rewrite E0. change (0 <? 0) with false. clear - H1 H2 HP. nia.
        * destruct H4 as (ws & x & -> & _ & _ & Hx & _). rewrite app_length in *. cbn [length] in *.
          replace (0 <? v_count (v_unit s k)) with true by (clear - Hx; lia). clear - H1 H2 HP Hx. nia.
    - destruct H4 as (gs & g & -> & _). rewrite !app_length in *. clear - H1 H2. destruct (vheld s k); cbn [length b2z] in *; lia.
  Qed.
  Definition vact (s : vst) : Z := let k := Z.to_nat (v_sel s - 1) in if vfsm s (R k) =? 1 then 1 + vbody s k else 0.
  Definition vwaiting (s : vst) : Z := if v_thr s =? 1 then 2 else if v_thr s =? 2 then 1 else 0.
  Definition vdue (P : list vreq) : Z := fold_right (fun x t => vjob_cost c (vreq_job x) + t) 0 P.
  Definition vmu (s : vst) (P : list vreq) : Z := vdue P + vwaiting s + vact s.
  Lemma vact_all0 s : vall0 s -> vact s = 0.
  Proof using. clear. intros H. unfold vact. rewrite H. reflexivity. Qed.
  Lemma vact_active s k : vactive s k -> vact s = 1 + vbody s k.
  Proof using.
    clear. intros H. unfold vact. rewrite (va_sel _ _ H). replace (Z.to_nat (opid k - 1)) with k by (clear; unfold opid; lia).
    rewrite (va_fsm _ _ H). reflexivity.
  Qed.
  Lemma vcost_job x : vlegal_rq x -> vjob_cost c (vreq_job x) = 2 + snd x * vunitcost (fst x) /\ 2 <= vjob_cost c (vreq_job x).
  Proof using Hc.
    clear m fm. intros [Hk [Hl _]]. unfold vjob_cost, vreq_job, vunitcost. pose proof (op_r (fst x) Hk) as Hlp.
    destruct (R (fst x)) as [|lp|lp]; (split; [reflexivity|]); [clear - Hl; lia| |clear - Hl; lia].
    assert (0 < 2 ^ lp) by (apply Z.pow_pos_nonneg; lia). clear - H Hl. nia.
  Qed.
  Lemma vdue_nonneg P : Forall vlegal_rq P -> 0 <= vdue P.
  Proof using Hc.
    clear m fm. induction 1 as [|x P H _ IH]; [cbn; lia|]. change (vdue (x :: P)) with (vjob_cost c (vreq_job x) + vdue P).
    destruct (vcost_job x H). lia.
  Qed.
  Lemma vwaiting_nonneg s : 0 <= vwaiting s <= 2.
  Proof using. clear. unfold vwaiting. destruct (v_thr s =? 1), (v_thr s =? 2); lia. Qed.
  Lemma vwaiting_keep s i k : vactive s k -> d_write i = None -> vwaiting (step s i) = vwaiting s.
  Proof using.
    clear. intros Ha Hn. unfold vwaiting. cbn [vstep v_thr]. unfold vthr_step. rewrite (vidle_busy s (va_busy _ _ Ha)), Hn.
    destruct (va_thr _ _ Ha) as [E|E]; rewrite E; reflexivity.
  Qed.
  Lemma vgood_le s i : 0 <= vgood s i <= b2z (d_ready i).
  Proof using. clear. unfold vgood. destruct (d_ready i), (negb (vstarved s)); cbn; lia. Qed.
  Lemma vmu_step s i D P B T : vinv s D P B T -> vlegal_in c i -> vquiet_in i ->
    vmu (step s i) (vnextP s i P) <= Z.max 0 (vmu s P - vgood s i).
  Proof using Hc.
    clear m fm. intros HI Hi [Hn1 Hn2]. unfold vnextP.
    assert (Ea : vacc s i = []) by (unfold vacc; rewrite Hn1; reflexivity). rewrite Ea, app_nil_r.
    destruct HI as [HQ HL HW HP].
    pose proof (vdue_nonneg P HL) as Hdue. pose proof (vgood_le s i) as Hv. assert (Hr : b2z (d_ready i) <= 1) by (destruct (d_ready i); cbn; lia).
    pose proof (vwaiting_nonneg s) as Hwt.
    destruct HP as [wss Ho HB HT H0 Hb Ht Hu | J wss -> Ho HB HT H0 Hb Ht Hu | J wss k n cur E -> Ho HB HT Ha Hq Hw].
    - destruct P as [|x P].
      + assert (Hd : forall k, (k < nops c)%nat -> vdispatch c s k = false) by (intros; apply vempty_dispatch, HQ).
        assert (Ed : any c (vdispatch c s) = false) by (apply any_false, Hd). rewrite Ed.
        assert (Ei : vidle s = true) by (unfold vidle; rewrite (empty_list (g_fa c) _ _ fa1 HQ), Hb; reflexivity).
        unfold vmu. rewrite (vact_all0 _ H0), (vact_all0 (step s i)) by (apply all0_step; assumption).
        unfold vwaiting. cbn [vstep v_thr]. unfold vthr_step. rewrite Ei, Hn2. destruct Ht as [E|E]; rewrite E; cbn [Z.eqb Pos.eqb vdue fold_right]; clear - Hv Hr; lia.
      + pose proof (Forall_inv HL) as Hx.
        destruct (dispatch_step s i x P H0 Hb Ht Hu HQ Hx (HW _ (proj1 Hx))) as (Ed & Ei & Ha & _ & HU). rewrite Ed. cbn [tl].
        assert (Ew : vwaiting (step s i) = vwaiting s).
        { unfold vwaiting. cbn [vstep v_thr]. unfold vthr_step. rewrite Ei, Hn2. destruct Ht as [E|E]; rewrite E; reflexivity. }
        pose proof (body_bound _ _ _ _ _ Ha (proj2 Hx) HU) as Hbd. destruct (vcost_job x Hx) as [Ec _].
        unfold vmu. rewrite Ew, (vact_active _ _ Ha), (vact_all0 s H0). change (vdue (x :: P)) with (vjob_cost c (vreq_job x) + vdue P) in *.
        clear - Hv Hr Hdue Hwt Hbd Ec. lia.
    - pose proof (vbusy_no s Hb) as Ed. rewrite Ed.
      unfold vmu. rewrite (vact_all0 _ H0), (vact_all0 (step s i)) by (apply all0_step; [exact H0|intros; apply vbusy_dispatch, Hb]).
      unfold vwaiting. cbn [vstep v_thr]. unfold vthr_step. rewrite Ht. cbn [Z.eqb Pos.eqb]. unfold vack.
      clear - Hv Hdue. destruct (d_ready i), (v_tvalid s); cbn [Z.eqb Pos.eqb orb negb b2z] in *; lia.
    - pose proof (vbusy_no s (va_busy _ _ Ha)) as Ed. rewrite Ed. pose proof (va_k _ _ Ha) as Hkk.
      pose proof (body_bound _ _ _ _ _ Ha Hq Hw) as Hbd. unfold vmu. rewrite (vwaiting_keep s i k Ha Hn2), (vact_active s k Ha).
      pose proof (active_step s i k Ha) as HA. pose proof (body_step s i k n cur E Ha Hq Hw) as Hbs. destruct (vfin c true s i k).
      + destruct HA as (A1 & _). rewrite (vact_all0 _ A1). clear - Hdue Hwt Hbd Hv Hr. lia.
      + rewrite (vact_active _ _ HA). specialize (Hbs eq_refl). clear - Hdue Hwt Hbd Hv Hr Hbs. lia.
  Qed.
  Lemma vmu_zero s D P B T : vinv s D P B T -> vmu s P <= 0 -> vidle s = true /\ v_thr s = 0.
  Proof using Hc.
    clear m fm. intros [HQ HL HW HP] Hm. pose proof (vdue_nonneg P HL) as Hdue. unfold vmu in Hm. pose proof (vwaiting_nonneg s) as Hwt.
    destruct HP as [wss Ho HB HT H0 Hb Ht Hu | J wss -> Ho HB HT H0 Hb Ht Hu | J wss k n cur E -> Ho HB HT Ha Hq Hw].
    - rewrite (vact_all0 s H0) in Hm. unfold vwaiting in *. destruct P as [|x P].
      + unfold vidle. rewrite (empty_list (g_fa c) _ _ fa1 HQ), Hb. split; [reflexivity|]. destruct Ht as [E|E]; [exact E|]. rewrite E in Hm. cbn in Hm. lia.
      + destruct (vcost_job x (Forall_inv HL)) as [_ X]. pose proof (vdue_nonneg P (Forall_inv_tail HL)).
        change (vdue (x :: P)) with (vjob_cost c (vreq_job x) + vdue P) in *. clear - X H Hm Hwt. lia.
    - rewrite (vact_all0 s H0) in Hm. unfold vwaiting in *. rewrite Ht in *. cbn in *. lia.
    - rewrite (vact_active s k Ha) in Hm. pose proof (body_bound _ _ _ _ _ Ha Hq Hw). lia.
  Qed.
  Lemma vcost_app a b : vcost c (a ++ b) = vcost c a + vcost c b - 3.
  Proof using. clear. unfold vcost. induction a as [|j a IH]; cbn [app fold_right]; lia. Qed.
  Lemma vcost_due P : vcost c (map vreq_job P) = vdue P + 3.
  Proof using. clear. unfold vcost, vdue. induction P as [|j a IH]; cbn [map fold_right]; lia. Qed.
  Definition vjob_ok (j : vjob) : Prop := match j with VDma k n => vlegal_rq (k, n) | VWrite _ _ => True end.
  Lemma vcost_ge js : Forall vjob_ok js -> 3 <= vcost c js.
  Proof using Hc.
    clear m fm. induction 1 as [|j js Hj _ IH]; [cbn; lia|]. change (vcost c (j :: js)) with (vjob_cost c j + vcost c js).
    assert (0 <= vjob_cost c j); [|lia]. destruct j as [v l|k n]; [cbn; lia|]. destruct (vcost_job (k, n) Hj) as [_ X]. unfold vreq_job in X. cbn [fst snd] in X. lia.
  Qed.
  Lemma vmu_cost s D P B T : vinv s D P B T -> Forall vjob_ok D -> vmu s P <= vcost c (D ++ map vreq_job P) - 1.
  Proof using Hc.
    clear m fm. intros [HQ HL HW HP] HD. rewrite vcost_app, vcost_due. unfold vmu. pose proof (vwaiting_nonneg s) as Hwt. pose proof (vcost_ge D HD) as Hg.
    destruct HP as [wss Ho HB HT H0 Hb Ht Hu | J wss -> Ho HB HT H0 Hb Ht Hu | J wss k n cur E -> Ho HB HT Ha Hq Hw].
    - rewrite (vact_all0 s H0). lia.
    - rewrite (vact_all0 s H0). lia.
    - rewrite (vact_active s k Ha), vcost_app. apply Forall_app in HD. destruct HD as [HJ _]. pose proof (vcost_ge J HJ).
      change (vcost c [VDma k n]) with (vjob_cost c (VDma k n) + 3). pose proof (body_bound _ _ _ _ _ Ha Hq Hw) as Hbd.
      destruct (vcost_job (k, n) (conj (va_k _ _ Ha) Hq)) as [Ec _]. unfold vreq_job in Ec. cbn [fst snd] in Ec. clear - Ec Hbd H Hwt. lia.
  Qed.
  Lemma jobs_ok ins s : Forall (vlegal_in c) ins -> Forall vjob_ok (vjobs c true s ins).
  Proof using.
    clear. revert s. induction ins as [|i ins IH]; intros s HL; [constructor|]. unfold vjobs. cbn [outs concat]. apply Forall_app. split; [|apply IH, (Forall_inv_tail HL)].
    rewrite vissued_acc. apply Forall_app. split; [destruct (_ && _); repeat constructor|].
    pose proof (vacc_legal s i (Forall_inv HL)) as H. apply Forall_map. eapply Forall_impl; [|exact H]. intros [k n] X. exact X.
  Qed.
  (** with the word in the channel *)
  Definition vpm (s : vst) (P : list vreq) : Z := if vmu s P <=? 0 then b2z (v_tvalid s) else vmu s P + 1.
  Lemma vpm_step s i D P B T : vinv s D P B T -> vlegal_in c i -> vquiet_in i ->
    vpm (step s i) (vnextP s i P) <= Z.max 0 (vpm s P - vgood s i).
  Proof using Hc.
    clear m fm. intros HI Hi Hq. pose proof (vmu_step s i D P B T HI Hi Hq) as Hm. unfold vpm. pose proof (vgood_le s i) as Hv.
    assert (Hb : b2z (v_tvalid (step s i)) <= 1) by (destruct (v_tvalid (step s i)); cbn; lia).
    assert (Hr : b2z (d_ready i) <= 1) by (destruct (d_ready i); cbn; lia).
    destruct (Z.leb_spec (vmu s P) 0) as [H0|H0].
    - replace (vmu (step s i) (vnextP s i P) <=? 0) with true by (clear - Hm Hv H0; lia).
      destruct (vmu_zero s D P B T HI H0) as [Hid Ht]. destruct (vinv_idle s D P B T HI Hid) as (_ & _ & Ha & Hu).
      rewrite (tvalid_step s i (all0_word s i Ha Hu ltac:(lia))).
      clear - Hv. destruct (v_tvalid s), (d_ready i); cbn [andb negb b2z] in *; lia.
    - destruct (Z.leb_spec (vmu (step s i) (vnextP s i P)) 0); clear - Hm H0 H Hv Hr Hb; lia.
  Qed.
  Lemma vpm_run more : forall s D P B T, vinv s D P B T -> Forall (vlegal_in c) more -> Forall vquiet_in more ->
    exists D' P' B' T', vinv (vrun c true s more) D' P' B' T' /\ vpm (vrun c true s more) P' <= Z.max 0 (vpm s P - vgoods c true s more).
  Proof using Hc.
    clear m fm. induction more as [|i more IH]; intros s D P B T HI HL HN.
    - exists D, P, B, T. split; [exact HI|]. cbn. clear. lia.
    - destruct (vinv_step s i D P B T HI (Forall_inv HL)) as (D1 & HI1 & _).
      pose proof (vpm_step s i D P B T HI (Forall_inv HL) (Forall_inv HN)) as Hm.
      destruct (IH (step s i) D1 _ _ _ HI1 (Forall_inv_tail HL) (Forall_inv_tail HN)) as (D' & P' & B' & T' & HI' & Hm').
      exists D', P', B', T'. unfold vrun, final in *. cbn [fold_left]. split; [exact HI'|].
      change (vgoods c true s (i :: more)) with (vgood s i + vgoods c true (step s i) more).
      assert (0 <= vgoods c true (step s i) more).
      { clear. generalize (step s i). induction more as [|j l IH]; intros t; [cbn; lia|]. change (vgoods c true t (j :: l)) with (vgood t j + vgoods c true (step t j) l).
        pose proof (vgood_le t j). specialize (IH (step t j)). lia. }
      clear - Hm Hm' H. lia.
  Qed.
  Theorem vfinishes ins more : Forall (vlegal_in c) (ins ++ more) -> Forall vquiet_in more ->
    vcost c (vjobs c true ini ins) <= vgoods c true (vrun c true ini ins) more ->
    let s := vrun c true ini (ins ++ more) in vidle s = true /\ v_thr s = 0 /\ v_tvalid s = false.
  Proof using Hc.
    intros HLa HN Hv s. apply Forall_app in HLa. destruct HLa as [HL1 HL2].
    destruct (vreached ins HL1) as (D & P & HI & E). pose proof (jobs_ok ins ini HL1) as HJ. rewrite E in Hv, HJ. pose proof (vcost_ge _ HJ) as Hg.
    apply Forall_app in HJ. destruct HJ as [HJ _]. pose proof (vmu_cost _ D P _ _ HI HJ) as Hm.
    destruct (vpm_run more _ D P _ _ HI HL2 HN) as (D' & P' & B' & T' & HI' & Hm').
    assert (Er : s = vrun c true (vrun c true ini ins) more) by (unfold s, vrun, final; apply fold_left_app).
    rewrite <- Er in *.
    assert (Hz : vpm s P' <= 0).
    { assert (vpm (vrun c true ini ins) P <= vcost c (D ++ map vreq_job P)); [|lia]. unfold vpm.
      destruct (_ <=? 0); [destruct (v_tvalid _); cbn [b2z]; lia|lia]. }
    unfold vpm in Hz. destruct (Z.leb_spec (vmu s P') 0) as [H0|H0]; [|lia].
    destruct (vmu_zero s D' P' B' T' HI' H0) as [Hid Ht]. split; [exact Hid|]. split; [exact Ht|]. destruct (v_tvalid s); [cbn in Hz; lia|reflexivity].
  Qed.
End Eng.

(** a word that was not taken stays *)
Lemma vhold c sy s i : v_tvalid s = true -> d_ready i = false ->
  v_tvalid (vstep c sy s i) = true /\ v_tdata (vstep c sy s i) = v_tdata s /\ v_tlast (vstep c sy s i) = v_tlast s.
Proof.
  intros Hv Hr. pose proof (vword_ack c sy s i) as H. cbn [vstep v_tvalid v_tdata v_tlast].
  destruct (vword c sy s i) as [x|]; [specialize (H _ eq_refl); unfold vack in H; rewrite Hv, Hr in H; discriminate|].
  rewrite Hv, Hr. auto.
Qed.

(** ** What the engine takes from the FIFOs *)
Lemma vunit_f c sy s i k : v_f (v_unit (vstep c sy s i) k) = fifo_step sy (o_raw (opk c k)) (v_f (v_unit s k)) (vf_in c s i k).
Proof.
  cbn [vstep v_unit]. rewrite tab_ok. unfold vunit_step. destruct (vhere c s k 0); [reflexivity|]. destruct (vhere c s k 1); [|reflexivity].
  destruct (o_ratio (opk c k)); reflexivity.
Qed.
Lemma vpop_step c sy s i k l : 1 <= o_raw (opk c k) -> Inv (2 ^ o_raw (opk c k)) (v_f (v_unit s k)) l ->
  exists l', Inv (2 ^ o_raw (opk c k)) (v_f (v_unit (vstep c sy s i) k)) l' /\ l ++ vpush c k s i = vpop c k s i ++ l'.
Proof.
  intros HA HI. exists (step_list (o_raw (opk c k)) l (vf_in c s i k)).
  pose proof (step_inv _ HA sy _ _ (vf_in c s i k) HI) as HI'. rewrite vunit_f. split; [exact HI'|].
  pose proof (full_iff _ HA _ _ HI) as Hfu. pose proof (empty_iff _ HA _ _ HI) as Hem.
  destruct (step_list_shape _ HA l (vf_in c s i k)) as [E|E]; [|exfalso; apply E; destruct HI; lia].
  rewrite E. unfold vf_in, deq_rtl, deq_ready. cbn [i_deq i_enq i_wdata]. unfold vpush, vpop. rewrite Hfu, Hem.
  assert (X : vdeq c s i k = true -> l <> []).
  { intros Y. destruct (deq_some c s i k Y) as (Z1 & _). rewrite Hem in Z1. destruct l; [discriminate|discriminate]. }
  destruct (vdeq c s i k).
  - specialize (X eq_refl). destruct l as [|x r]; [contradiction|]. rewrite (rdata_list _ _ _ _ HA HI).
    replace (Z.of_nat (length (x :: r)) =? 0) with false by (cbn [length]; lia). cbn [negb andb tl app]. f_equal. f_equal.
    destruct (d_enq i k); [|reflexivity]. cbn [andb]. destruct (_ =? _); reflexivity.
  - cbn [andb app]. f_equal. destruct (d_enq i k); [|reflexivity]. cbn [andb]. destruct (_ =? _); reflexivity.
Qed.
Theorem vpops_in_order c sy m fm ins k : 1 <= o_raw (opk c k) -> let s0 := vinit m fm in
  exists l, vpushes c sy k s0 ins = vpops c sy k s0 ins ++ l /\ Z.of_nat (length l) < 2 ^ o_raw (opk c k) /\
    (p_empty (v_f (v_unit (vrun c sy s0 ins) k)) = true <-> l = []).
Proof.
  intros HA. cbv zeta.
  assert (G : forall ins s l0, Inv (2 ^ o_raw (opk c k)) (v_f (v_unit s k)) l0 -> exists l, Inv (2 ^ o_raw (opk c k)) (v_f (v_unit (vrun c sy s ins) k)) l /\
      l0 ++ vpushes c sy k s ins = vpops c sy k s ins ++ l).
  { clear ins m fm. induction ins as [|i ins IH]; intros s l0 HI.
    - exists l0. split; [exact HI|]. unfold vpushes, vpops. cbn. apply app_nil_r.
    - destruct (vpop_step c sy s i k l0 HA HI) as (l1 & HI1 & E1). destruct (IH _ _ HI1) as (l & HI2 & E2).
      exists l. split; [exact HI2|]. unfold vpushes, vpops in *. cbn [outs concat]. rewrite app_assoc, E1, <- !app_assoc. f_equal. exact E2. }
  destruct (G ins (vinit m fm) []) as (l & HI & E); [apply init_inv, HA|]. exists l. split; [exact E|].
  split; [destruct HI; lia|]. rewrite (empty_list _ _ _ HA HI). destruct l; split; congruence.
Qed.

(** ** Two or more FIFOs, all of the stream's width: a request for the second one is never served *)
Section Dead.
  Variable c : cfg.
  Hypothesis Hf : 1 <= g_aw c /\ 1 <= g_sw c /\ 1 <= g_fa c /\ Z.of_nat (nops c) < 2 ^ g_sw c.
  Hypothesis Hs : Forall (fun o => o_ratio o = Same) (g_ops c).
  Variable sy : bool.
  Notation step := (vstep c sy).

  Lemma vd_same k : (k < nops c)%nat -> o_ratio (opk c k) = Same.
  Proof using Hs. intros H. rewrite Forall_forall in Hs. apply (Hs (opk c k)). apply nth_In. exact H. Qed.
  Lemma vd_base k : (k < nops c)%nat -> base c k = if Nat.eqb k 0 then 0 else 1.
  Proof using Hs.
    intros H. unfold base. rewrite (vd_same k H). destruct (Nat.eqb_spec k 0) as [->|Hk]; [reflexivity|].
    assert (E : existsb (fun j => same_class Same (o_ratio (opk c j))) (seq 0 k) = true).
    { apply existsb_exists. exists 0%nat. split; [apply in_seq; clear - Hk; lia|]. rewrite vd_same by (clear - H Hk; lia). reflexivity. }
    rewrite E. reflexivity.
  Qed.
  Lemma vd_here s k x : (k < nops c)%nat -> vhere c s k x = (v_same s =? (if Nat.eqb k 0 then 0 else 1) + x).
  Proof using Hs. intros H. unfold vhere. rewrite (vd_base k H), (vd_same k H). reflexivity. Qed.
  Notation legal := (fun x => (fst x < nops c)%nat /\ 0 <= snd x < 2 ^ lw c).
  Record dinv (s : vst) (P : list (nat * Z)) : Prop := mkDinv {
    dv_q : Inv (2 ^ g_fa c) (v_q s) (map (vreq_word c) P);
    dv_l : Forall legal P;
    dv_f : v_same s = 0 \/ v_same s = 1 /\ v_busy s = true /\ v_thr s <> 2;
    dv_t : v_thr s = 0 \/ v_thr s = 1 \/ v_thr s = 2 /\ v_busy s = true }.
  Lemma vd_fa : 1 <= g_fa c. Proof using Hf. apply Hf. Qed.
  Lemma vd_unpack x : legal x -> bq_op c (vreq_word c x) = opid (fst x).
  Proof using Hf.
    intros [H1 H2]. destruct Hf as (A1 & A2 & _ & A3). apply unpack_breq; auto. unfold opid. lia.
  Qed.
  (** only requests for the first FIFO leave the queue *)
  Lemma vd_dispatch s P k : dinv s P -> (k < nops c)%nat -> vdispatch c s k = true ->
    k = 0%nat /\ v_same s = 0 /\ v_busy s = false /\ exists x P', P = x :: P' /\ fst x = 0%nat.
  Proof using Hf Hs.
    intros [HQ HL HF HT] Hk E. unfold vdispatch in E. apply andb_prop in E. destruct E as [E1 E]. apply andb_prop in E. destruct E as [E E4].
    apply andb_prop in E. destruct E as [E2 E3]. apply negb_true_iff in E2, E3. rewrite (vd_here s k 0 Hk) in E1.
    assert (Ev : v_same s = 0) by (destruct HF as [X|(_ & X & _)]; [exact X|congruence]). rewrite Ev in E1.
    destruct (Nat.eqb_spec k 0) as [->|Hn]; [|discriminate]. split; [reflexivity|]. split; [exact Ev|]. split; [exact E2|].
    rewrite (empty_list (g_fa c) _ _ vd_fa HQ) in E3. destruct P as [|x P]; [discriminate|]. exists x, P. split; [reflexivity|].
    unfold vhead in E4. cbn [map] in HQ. rewrite (rdata_list (g_fa c) _ _ _ vd_fa HQ), (vd_unpack x (Forall_inv HL)) in E4.
    apply Z.eqb_eq in E4. apply opid_inj in E4. exact E4.
  Qed.
  Definition dlater (P : list (nat * Z)) : bool := existsb (fun x => negb (Nat.eqb (fst x) 0)) P.
  Definition dlegal (i : vinp) : Prop := match d_req i with Some (k, n) => (k < nops c)%nat /\ 0 <= n < 2 ^ lw c | None => True end.
  Lemma dinv_step s P i : dinv s P -> dlegal i ->
    exists P', dinv (step s i) (P' ++ vacc c s i) /\ dlater P' = dlater P.
  Proof using Hf Hs.
    intros HI Hi. pose proof (fun k => vd_dispatch s P k HI) as Hd. destruct HI as [HQ HL HF HT].
    set (dq := any c (vdispatch c s)).
    assert (Hq : dq = true -> v_same s = 0 /\ v_busy s = false /\ (exists x P', P = x :: P' /\ fst x = 0%nat) /\ vdispatch c s 0 = true).
    { intros E. apply any_true in E. destruct E as (k & Hk & E). destruct (Hd k Hk E) as (-> & H1 & H2 & H3). auto. }
    assert (Hid : dq = true -> vidle s = false).
    { intros E. destruct (Hq E) as (_ & _ & (x & P' & -> & _) & _). unfold vidle. rewrite (empty_list (g_fa c) _ _ vd_fa HQ). reflexivity. }
    exists (if dq then tl P else P). split; [constructor|].
    - cbn [vstep v_q]. unfold vq_in. fold dq.
      assert (HD : dq = true -> P <> []) by (intros E; destruct (Hq E) as (_ & _ & (x & P' & -> & _) & _); discriminate).
      assert (Ed : deq_rtl (v_q s) dq = dq).
      { unfold deq_rtl, deq_ready. rewrite (empty_list (g_fa c) _ _ vd_fa HQ). destruct dq; [|reflexivity].
        destruct P; [exfalso; apply HD; reflexivity|reflexivity]. }
      rewrite Ed. rewrite map_app. replace (map (vreq_word c) (if dq then tl P else P)) with (if dq then tl (map (vreq_word c) P) else map (vreq_word c) P)
        by (destruct dq; [destruct P; reflexivity|reflexivity]).
      assert (HD' : dq = true -> map (vreq_word c) P <> []).
      { intros E. specialize (HD E). destruct P; [exfalso; apply HD; reflexivity|discriminate]. }
      pose proof (fstep_list (g_fa c) _ _ false 0 dq vd_fa HQ HD') as Hn.
      unfold vacc. destruct (d_req i) as [[k n]|]; [|exact Hn].
      pose proof (fstep_list (g_fa c) _ _ (vaccepts c s) (pack_breq c (opid k) n) dq vd_fa HQ HD') as X.
      unfold vaccepts in *. rewrite andb_diag in X. destruct (negb (p_almost_full (g_fa c) (v_q s))); exact X.
    - apply Forall_app. split; [destruct dq; [destruct P; [exact HL|exact (Forall_inv_tail HL)]|exact HL]|].
      unfold vacc, dlegal in *. destruct (d_req i) as [[k n]|]; [|constructor]. destruct (vaccepts c s); constructor; [exact Hi|constructor].
    - destruct HF as [H0|(H1 & Hb & Ht)].
      + assert (Nf : any c (vfin c sy s i) = false).
        { apply any_false. intros k Hk. unfold vfin. rewrite (vd_here s k 1 Hk), H0. destruct (Nat.eqb k 0); reflexivity. }
        destruct dq eqn:E.
        * destruct (Hq eq_refl) as (_ & Hb & _ & H2). right. split; [|split].
          -- cbn [vstep v_same]. unfold vfsm_step.
             assert (Hk0 : (0 < nops c)%nat) by (apply any_true in E; destruct E as (k & Hk & E'); destruct (Hd k Hk E') as (-> & _); exact Hk).
             rewrite (last_some c _ 1 0%nat Hk0); [reflexivity| |].
             ++ rewrite (vd_same 0 Hk0). cbn [same_class]. unfold vjump. rewrite (vd_here s 0 0 Hk0), (vd_base 0 Hk0), H0, H2. reflexivity.
             ++ intros j Hj. destruct (same_class _ _); [|left; reflexivity]. unfold vjump, vfin. rewrite !vd_here, vd_base, H0 by exact Hj.
                destruct (Nat.eqb_spec j 0) as [->|Hn]; [rewrite H2; right; reflexivity|left; reflexivity].
          -- cbn [vstep v_busy]. rewrite Nf. fold dq. rewrite E. destruct HT as [X|[X|[_ X]]]; [rewrite X; reflexivity|rewrite X; reflexivity|congruence].
          -- cbn [vstep v_thr]. unfold vthr_step. rewrite (Hid eq_refl). destruct HT as [X|[X|[_ X]]]; [| |congruence]; rewrite X; cbn [Z.eqb Pos.eqb].
             ++ destruct (d_write i); discriminate.
             ++ discriminate.
        * left. cbn [vstep v_same]. unfold vfsm_step. rewrite last_none; [exact H0|]. intros j Hj. destruct (same_class _ _); [|reflexivity].
          unfold vjump, vfin. rewrite !vd_here by exact Hj. rewrite H0. destruct (Nat.eqb_spec j 0) as [->|Hn]; [|reflexivity]. cbn [Z.add Z.eqb].
          destruct (vdispatch c s 0) eqn:Y; [|reflexivity]. unfold dq in E. rewrite (any_intro c _ 0%nat Hj Y) in E. discriminate.
      + assert (Edq : dq = false) by (destruct dq eqn:E; [destruct (Hq eq_refl) as (_ & X & _); congruence|reflexivity]).
        assert (Hj : forall j, (j < nops c)%nat -> vjump c sy s i j = if Nat.eqb j 0 then (if vfin c sy s i 0 then Some 0 else None) else None).
        { intros j Hj. unfold vjump. rewrite vd_here by exact Hj. rewrite H1. destruct (Nat.eqb_spec j 0) as [->|Hn]; [reflexivity|]. cbn [Z.add Z.eqb Pos.eqb].
          rewrite (vbusy_dispatch c s j Hb). reflexivity. }
        assert (Hfn : any c (vfin c sy s i) = true -> vfin c sy s i 0 = true /\ (0 < nops c)%nat).
        { intros E. apply any_true in E. destruct E as (k & Hk & E). destruct (Nat.eqb_spec k 0) as [->|Hn]; [auto|]. exfalso. unfold vfin in E.
          rewrite vd_here, H1 in E by exact Hk. apply Nat.eqb_neq in Hn. rewrite Hn in E. discriminate. }
        destruct (any c (vfin c sy s i)) eqn:Ef.
        * left. destruct (Hfn eq_refl) as [F0 Hk0]. cbn [vstep v_same]. unfold vfsm_step. rewrite (last_some c _ 0 0%nat Hk0); [reflexivity| |].
          -- rewrite (vd_same 0 Hk0). cbn [same_class]. rewrite (Hj 0%nat Hk0), F0. reflexivity.
          -- intros j Hjj. destruct (same_class _ _); [|left; reflexivity]. rewrite (Hj j Hjj), F0. destruct (Nat.eqb j 0); auto.
        * right. split; [|split].
          -- cbn [vstep v_same]. unfold vfsm_step. rewrite last_none; [exact H1|]. intros j Hjj. destruct (same_class _ _); [|reflexivity].
             rewrite (Hj j Hjj). destruct (Nat.eqb_spec j 0) as [->|Hn]; [|reflexivity]. destruct (vfin c sy s i 0) eqn:F0; [|reflexivity].
             rewrite (any_intro c _ 0%nat Hjj F0) in Ef. discriminate.
          -- cbn [vstep v_busy]. rewrite Ef. fold dq. rewrite Edq, (vidle_busy s Hb), andb_false_r. replace (v_thr s =? 2) with false by lia. exact Hb.
          -- cbn [vstep v_thr]. unfold vthr_step. rewrite (vidle_busy s Hb). destruct HT as [X|[X|[X _]]]; [| |contradiction]; rewrite X; cbn [Z.eqb Pos.eqb].
             ++ destruct (d_write i); discriminate.
             ++ discriminate.
    - cbn [vstep v_thr v_busy]. unfold vthr_step. fold dq. destruct HT as [X|[X|[X Hb]]]; rewrite X; cbn [Z.eqb Pos.eqb andb].
      + destruct (d_write i); auto.
      + destruct (vidle s) eqn:Ei; [|auto]. right. right. split; [reflexivity|].
        assert (Nf : any c (vfin c sy s i) = false).
        { apply any_false. intros k Hk. unfold vfin. rewrite (vd_here s k 1 Hk). destruct HF as [->|(_ & Hb & _)]; [destruct (Nat.eqb k 0); reflexivity|].
          unfold vidle in Ei. rewrite Hb, andb_false_r in Ei. discriminate. }
        rewrite Nf, orb_true_r. reflexivity.
      + destruct (vack s i); [auto|]. right. right. split; [reflexivity|].
        assert (Nf : any c (vfin c sy s i) = false).
        { apply any_false. intros k Hk. unfold vfin. rewrite (vd_here s k 1 Hk). destruct HF as [->|(_ & _ & Y)]; [destruct (Nat.eqb k 0); reflexivity|contradiction]. }
        rewrite Nf. cbn [orb]. destruct (_ || _); [reflexivity|exact Hb].
    - destruct dq eqn:E; [|reflexivity]. destruct (Hq eq_refl) as (_ & _ & (x & P' & -> & Ex) & _). cbn [tl dlater existsb]. rewrite Ex. reflexivity.
  Qed.
  Definition vfor_later (j : vjob) : bool := match j with VDma k _ => negb (Nat.eqb k 0) | VWrite _ _ => false end.
  Theorem vdead m fm ins : Forall dlegal ins -> let s0 := vinit m fm in
    existsb vfor_later (vjobs c sy s0 ins) = true -> vidle (vrun c sy s0 ins) = false.
  Proof using Hf Hs.
    intros HL s0.
    assert (G : forall ins s P, dinv s P -> Forall dlegal ins -> exists P', dinv (vrun c sy s ins) P' /\
      dlater P' = dlater P || existsb vfor_later (vjobs c sy s ins)).
    { clear ins HL s0. induction ins as [|i ins IH]; intros s P HI HL.
      - exists P. split; [exact HI|]. cbn. rewrite orb_false_r. reflexivity.
      - destruct (dinv_step s P i HI (Forall_inv HL)) as (P1 & HI1 & E1). destruct (IH _ _ HI1 (Forall_inv_tail HL)) as (P' & HI' & E').
        exists P'. split; [exact HI'|]. rewrite E'. unfold vjobs. cbn [outs concat]. rewrite existsb_app, orb_assoc. f_equal.
        unfold dlater in *. rewrite existsb_app, E1. f_equal. rewrite vissued_acc, existsb_app.
        assert (Ew : existsb vfor_later (if (v_thr s =? 1) && vidle s then [VWrite (fst (v_val s)) (snd (v_val s))] else []) = false) by (destruct (_ && _); reflexivity).
        rewrite Ew. cbn [orb]. clear. induction (vacc c s i) as [|x l IH]; [reflexivity|]. cbn [map existsb]. rewrite IH. reflexivity. }
    intros H. destruct (G ins s0 []) as (P & HI & E).
    - constructor; cbn; auto. apply init_inv, vd_fa.
    - exact HL.
    - rewrite H in E. cbn [dlater existsb orb] in E. unfold vidle. rewrite (empty_list (g_fa c) _ _ vd_fa (dv_q _ _ HI)). destruct P; [discriminate|reflexivity].
  Qed.
End Dead.
