From Verif Require Import Base AxiSlave_Model AxisLite_Model AxisLite_Spec.
Open Scope Z_scope.

Section Lite.
  Variables (len mw sh xz : Z) (xb : bool).
  Hypothesis Hmw : 0 <= mw.
  Hypothesis Hsh : 0 <= sh.
  Notation step := (lite_step len mw sh xz xb).
  Notation run := (final (lite_step len mw sh xz xb)).

  Definition quiet (s : lite) : Prop := l_rd s = false /\ l_wr s = false.
  Definition rel (s : lite) (t : txn) : Prop :=
    match t with
    | TNone => l_fsm s = 0 /\ l_rd s = false /\ l_wr s = false /\ l_rvalid s = false /\ l_bvalid s = false
    | TRead j (S O) => l_fsm s = 0 /\ l_rd s = true /\ l_wr s = false /\ l_rvalid s = false /\ l_bvalid s = false /\
                   regno mw sh (l_addr s) = j
    | TRead j O => l_fsm s = 1 /\ l_rd s = false /\ l_wr s = false /\ l_rvalid s = false /\ l_bvalid s = false /\
                   l_mask s = j
    | TRead _ _ => False
    | TData d => l_fsm s = 2 /\ l_rd s = false /\ l_wr s = false /\ l_rvalid s = true /\ l_bvalid s = false /\
                 l_rdata s = d
    | TWrite j => (l_fsm s = 0 /\ l_rd s = false /\ l_wr s = true /\ l_rvalid s = false /\ l_bvalid s = false /\
                   regno mw sh (l_addr s) = j) \/
                  (l_fsm s = 3 /\ l_rd s = false /\ l_wr s = false /\ l_rvalid s = false /\ l_bvalid s = false /\
                   l_mask s = j)
    | TResp => l_fsm s = 4 /\ l_rd s = false /\ l_wr s = false /\ l_rvalid s = false /\ l_bvalid s = true
    end.
  Definition bank_of (s : lite) : bank := mkBank (l_reg s) (l_flag s) (l_reset s).

  Lemma mask_regno a : Z.land (Z.shiftr a sh) (2 ^ mw - 1) = regno mw sh a.
  Proof using Hmw Hsh.
    unfold regno. replace (2 ^ mw - 1) with (Z.ones mw) by (rewrite Z.ones_equiv; lia).
    rewrite Z.land_ones, Z.shiftr_div_pow2 by assumption. reflexivity.
  Qed.
  Lemma put_range {A} (f : Z -> A) j v : put len f j v = if in_range len j then upd f j v else f.
  Proof. reflexivity. Qed.
  Lemma top_bank s i reg flag :
    mkBank
      (match li_top i with Some t => put len reg (y_idx t) (y_val t) | None => reg end)
      (match li_top i with
       | Some t => match y_flag t with Some b => put len flag (y_idx t) b | None => flag end
       | None => flag end)
      (match li_top i with
       | Some t => match y_reset t with Some v => put len (l_reset s) (y_idx t) v | None => l_reset s end
       | None => l_reset s end) =
    match li_top i with Some x => b_top len (mkBank reg flag (l_reset s)) x | None => mkBank reg flag (l_reset s) end.
  Proof.
    destruct (li_top i) as [t|]; [|reflexivity]. unfold b_top. rewrite !put_range.
    destruct (y_flag t), (y_reset t); rewrite ?put_range; destruct (in_range len (y_idx t)); reflexivity.
  Qed.

  Ltac opn := unfold lite_step, lite_out, l_arack, l_awack, l_arready, l_awready, l_wready, l_whs, l_push, l_rack, l_awack, l_arack, bank_of,
                l_awready, l_arready, l_wready.

  (** ** The slave follows the rules *)
  Lemma sim s t i : rel s t ->
    exists t', bus_cycle len mw sh xz (t, bank_of s) (lite_out s i) = Some (t', bank_of (step s i)) /\ rel (step s i) t'.
  Proof using Hmw Hsh.
    intros R. destruct s as [fsm addr rd wr paw par mask rv rd0 bv reg flag reset].
    unfold bus_cycle. destruct t as [|j [|[|k]]|d|j|]; cbn [rel] in R; cbn in R.
    - destruct R as (-> & -> & -> & -> & ->). opn. cbn [l_fsm l_rd l_wr l_paw l_par l_mask l_rvalid l_rdata l_bvalid l_addr l_reg l_flag l_reset e_ar e_r e_aw e_w e_b e_top Z.eqb negb andb orb].
      rewrite (top_bank (mkLite 0 addr false false paw par mask false rd0 false reg flag reset) i).
      destruct paw; cbn [negb andb].
      + rewrite andb_false_r. destruct (li_aw i) as [a|]; cbn [is_some andb negb orb].
        * eexists. split; [reflexivity|]. left. cbn; repeat split; auto.
        * eexists. split; [reflexivity|]. cbn; repeat split; auto.
      + rewrite andb_true_r. destruct par; cbn [andb].
        * destruct (li_ar i) as [a|]; cbn [is_some andb negb orb].
          -- eexists. split; [reflexivity|]. cbn; repeat split; auto.
          -- eexists. split; [reflexivity|]. cbn; repeat split; auto.
        * eexists. split; [reflexivity|]. cbn; repeat split; auto.
    - destruct R as (-> & -> & -> & -> & -> & <-). opn. cbn [l_fsm l_rd l_wr l_paw l_par l_mask l_rvalid l_rdata l_bvalid l_addr l_reg l_flag l_reset e_ar e_r e_aw e_w e_b e_top Z.eqb Pos.eqb negb andb orb].
      rewrite (top_bank (mkLite 1 addr false false paw par mask false rd0 false reg flag reset) i).
      rewrite orb_true_r. cbn [andb].
      unfold b_read. cbn [b_reg b_flag b_clear l_reset]. unfold pick. fold (in_range len mask). rewrite !put_range.
      destruct (in_range len mask) eqn:E; cbn [andb].
      + destruct (flag mask); (eexists; split; [reflexivity|]; cbn; repeat split; auto).
      + eexists. split; [destruct xb; reflexivity|]. cbn. repeat split; auto.
    - destruct R as (-> & -> & -> & -> & -> & <-). opn. cbn [l_fsm l_rd l_wr l_paw l_par l_mask l_rvalid l_rdata l_bvalid l_addr l_reg l_flag l_reset e_ar e_r e_aw e_w e_b e_top Z.eqb Pos.eqb negb andb orb].
      rewrite (top_bank (mkLite 0 addr true false paw par mask false rd0 false reg flag reset) i).
      eexists. split; [reflexivity|]. cbn. rewrite mask_regno. repeat split; auto.
    - contradiction.
    - destruct R as (-> & -> & -> & -> & -> & <-). opn. cbn [l_fsm l_rd l_wr l_paw l_par l_mask l_rvalid l_rdata l_bvalid l_addr l_reg l_flag l_reset e_ar e_r e_aw e_w e_b e_top Z.eqb Pos.eqb negb andb orb].
      rewrite (top_bank (mkLite 2 addr false false paw par mask true rd0 false reg flag reset) i).
      rewrite andb_true_r. destruct (li_rready i); cbn [negb orb andb].
      + rewrite Z.eqb_refl. eexists. split; [reflexivity|]. cbn; repeat split; auto.
      + eexists. split; [reflexivity|]. cbn; repeat split; auto.
    - destruct R as [(-> & -> & -> & -> & -> & <-)|(-> & -> & -> & -> & -> & <-)]; opn; cbn [l_fsm l_rd l_wr l_paw l_par l_mask l_rvalid l_rdata l_bvalid l_addr l_reg l_flag l_reset e_ar e_r e_aw e_w e_b e_top Z.eqb Pos.eqb negb andb orb].
      + rewrite (top_bank (mkLite 0 addr false true paw par mask false rd0 false reg flag reset) i).
        eexists. split; [reflexivity|]. right. cbn. rewrite mask_regno. repeat split; auto.
      + rewrite (top_bank (mkLite 3 addr false false paw par mask false rd0 false reg flag reset) i).
        destruct (li_w i) as [d|]; cbn [is_some].
        * exists TResp. split; [|cbn; repeat split; auto]. unfold b_write. rewrite put_range. cbn [l_reset b_reg b_flag b_clear].
          destruct (in_range len mask); reflexivity.
        * eexists. split; [reflexivity|]. right. cbn; repeat split; auto.
    - destruct R as (-> & -> & -> & -> & ->). opn. cbn [l_fsm l_rd l_wr l_paw l_par l_mask l_rvalid l_rdata l_bvalid l_addr l_reg l_flag l_reset e_ar e_r e_aw e_w e_b e_top Z.eqb Pos.eqb negb andb orb].
      rewrite (top_bank (mkLite 4 addr false false paw par mask false rd0 true reg flag reset) i).
      rewrite andb_true_r. destruct (li_bready i); (eexists; split; [reflexivity|]; cbn; repeat split; auto).
  Qed.

  Lemma sim_run : forall ins s t, rel s t ->
    exists t', bus_run len mw sh xz (t, bank_of s) (outs step lite_out s ins) = Some (t', bank_of (run s ins)) /\
      rel (run s ins) t'.
  Proof using Hmw Hsh.
    induction ins as [|i ins IH]; intros s t R.
    - exists t. split; [reflexivity|exact R].
    - destruct (sim s t i R) as (t1 & E & R1). destruct (IH _ _ R1) as (t' & E' & R').
      exists t'. split; [|exact R']. cbn [outs bus_run]. rewrite E. exact E'.
  Qed.
  Lemma rel_init : rel lite_init TNone.
  Proof. cbn; repeat split; auto. Qed.
  Theorem follows ins : exists t,
    bus_run len mw sh xz (TNone, bank0) (outs step lite_out lite_init ins) = Some (t, bank_of (run lite_init ins)).
  Proof using Hmw Hsh. destruct (sim_run ins lite_init TNone rel_init) as (t & E & _). exists t. exact E. Qed.
  Lemma reach ins : exists t, rel (run lite_init ins) t.
  Proof using Hmw Hsh. destruct (sim_run ins lite_init TNone rel_init) as (t & _ & R). exists t. exact R. Qed.

  (** ** Timing *)
  Lemma final_snoc s (ins : list lite_in) i : run s (ins ++ [i]) = step (run s ins) i.
  Proof. unfold final. rewrite fold_left_app. reflexivity. Qed.
  Lemma final_app s (a b : list lite_in) : run s (a ++ b) = run (run s a) b.
  Proof. unfold final. apply fold_left_app. Qed.

  Lemma rel_fun s i t : rel s t -> exists t', rel (step s i) t' /\
    bus_cycle len mw sh xz (t, bank_of s) (lite_out s i) = Some (t', bank_of (step s i)).
  Proof using Hmw Hsh. intros R. destruct (sim s t i R) as (t' & E & R'). eauto. Qed.

  Lemma hold ins i :
    let s := run lite_init ins in
    (l_rvalid s = true -> li_rready i = false -> l_rvalid (step s i) = true /\ l_rdata (step s i) = l_rdata s) /\
    (l_bvalid s = true -> li_bready i = false -> l_bvalid (step s i) = true).
  Proof using Hmw Hsh.
    intros s. destruct (reach ins) as (t & R). fold s in R. split.
    - intros V N. assert (P : l_push s i = false).
      { unfold l_push, l_rack. rewrite V, N. apply andb_false_r. }
      unfold lite_step. cbn [l_rvalid l_rdata]. rewrite P, V, N. split; reflexivity.
    - intros V N. unfold lite_step. cbn [l_bvalid]. rewrite N, andb_false_r, V. destruct (l_whs s i); reflexivity.
  Qed.

  Lemma read_latency ins i i1 i2 a : let s := run lite_init ins in
    e_ar (lite_out s i) = Some a -> l_rvalid (run s [i; i1; i2]) = true.
  Proof using Hmw Hsh.
    intros s H. destruct (reach ins) as (t & R). fold s in R.
    assert (T : exists j, rel (step s i) (TRead j 1)).
    { destruct (sim s t i R) as (t1 & E & R1). unfold bus_cycle in E. rewrite H in E.
      destruct (e_r (lite_out s i)); [discriminate|]. destruct (e_aw (lite_out s i)); [discriminate|].
      destruct (e_w (lite_out s i)); [discriminate|]. destruct (e_b (lite_out s i)); [discriminate|].
      destruct t; try discriminate. injection E as <- _. eauto. }
    destruct T as (j & T). cbn [final fold_left]. set (s1 := step s i) in *. clearbody s1. clear - T.
    destruct s1 as [fsm addr rd wr paw par mask rv rd0 bv reg flag reset]. cbn in T.
    destruct T as (-> & -> & -> & -> & -> & _). cbn. unfold l_push, l_rack. cbn. rewrite orb_true_r. reflexivity.
  Qed.
  Lemma write_latency ins i i1 a : let s := run lite_init ins in
    e_aw (lite_out s i) = Some a ->
    l_wready (run s [i; i1]) = true /\
    (forall more, Forall (fun x => li_w x = None) more -> l_wready (run s ([i; i1] ++ more)) = true) /\
    (forall more x d, Forall (fun x => li_w x = None) more -> li_w x = Some d ->
       l_bvalid (run s ([i; i1] ++ more ++ [x])) = true).
  Proof using Hmw Hsh.
    intros s H. destruct (reach ins) as (t & R). fold s in R.
    assert (T : exists j, rel (step s i) (TWrite j) /\ l_fsm (step s i) = 0).
    { destruct (sim s t i R) as (t1 & E & R1). unfold bus_cycle in E. rewrite H in E.
      destruct (e_ar (lite_out s i)), (e_r (lite_out s i)); try discriminate.
      destruct (e_w (lite_out s i)); [discriminate|]. destruct (e_b (lite_out s i)); [discriminate|].
      destruct t; try discriminate. injection E as <- _. exists (regno mw sh a). split; [exact R1|].
      cbn in R. destruct R as (F & RD & WR & _). unfold lite_step. cbn [l_fsm]. rewrite F, RD, WR. reflexivity. }
    destruct T as (j & T & F). set (s1 := step s i) in *.
    assert (W : l_fsm (step s1 i1) = 3).
    { clear - T F. destruct T as [(_ & RD & WR & _)|(X & _)]; [|congruence].
      unfold lite_step. cbn [l_fsm]. rewrite F, RD, WR. reflexivity. }
    assert (M : forall more, Forall (fun x => li_w x = None) more -> l_fsm (run (step s1 i1) more) = 3).
    { induction more as [|x more IH] using rev_ind; intros N; [exact W|]. apply Forall_app in N as [N1 N2].
      apply Forall_cons_iff in N2 as [N2 _]. rewrite final_snoc. specialize (IH N1).
      unfold lite_step at 1. cbn [l_fsm]. rewrite IH, N2. reflexivity. }
    split; [|split].
    - cbn [final fold_left]. fold s1. unfold l_wready. rewrite W. reflexivity.
    - intros more N. rewrite final_app. cbn [final fold_left]. fold s1. unfold l_wready. fold (run (step s1 i1) more).
      rewrite (M more N). reflexivity.
    - intros more x d N X. rewrite final_app. cbn [final fold_left]. fold s1.
      change (l_bvalid (run (step s1 i1) (more ++ [x])) = true). rewrite final_snoc.
      unfold lite_step at 1. cbn [l_bvalid]. unfold l_whs, l_wready. rewrite (M more N), X. reflexivity.
  Qed.

  (** ** Requests are accepted *)
  Lemma accepts ins i1 i2 b : let s := run lite_init (ins ++ [i1]) in
    bus_run len mw sh xz (TNone, bank0) (outs step lite_out lite_init (ins ++ [i1])) = Some (TNone, b) ->
    (li_aw i1 <> None -> e_aw (lite_out s i2) = li_aw i2) /\
    (li_aw i1 = None -> li_ar i1 <> None -> e_ar (lite_out s i2) = li_ar i2).
  Proof using Hmw Hsh.
    intros s H. destruct (sim_run (ins ++ [i1]) lite_init TNone rel_init) as (t & E & R).
    change (bank_of lite_init) with bank0 in E. rewrite H in E. injection E as <- _. fold s in R.
    assert (PW : l_paw s = is_some (li_aw i1)) by (unfold s; rewrite final_snoc; reflexivity).
    assert (PR : l_par s = is_some (li_ar i1)) by (unfold s; rewrite final_snoc; reflexivity).
    destruct R as (F & RD & WR & RV & BV). unfold lite_out, l_awready, l_arready. cbn [e_aw e_ar].
    rewrite F, RD, WR, BV, PW, PR. split.
    - intros N. destruct (li_aw i1); [reflexivity|congruence].
    - intros -> N. destruct (li_ar i1); [reflexivity|congruence].
  Qed.

  (** a master that keeps a write address on the bus is never served a read *)
  Lemma starved ins : Forall (fun i => li_aw i <> None) ins -> forall s,
    l_paw s = true \/ l_par s = false ->
    Forall (fun e => e_ar e = None) (outs step lite_out s ins).
  Proof using.
    induction 1 as [|i ins N F IH]; intros s H; [constructor|]. cbn [outs]. constructor.
    - unfold lite_out, l_arready. cbn [e_ar]. destruct H as [-> | ->]; rewrite ?andb_false_r; reflexivity.
    - apply IH. left. unfold lite_step. cbn [l_paw]. destruct (li_aw i); [reflexivity|congruence].
  Qed.

  (** ** Transactions end *)
  Definition mu (s : lite) : nat :=
    if l_fsm s =? 0 then (if l_rd s || l_wr s then 3 else 0)%nat
    else if (l_fsm s =? 1) || (l_fsm s =? 3) then 2%nat else 1%nat.
  Lemma mu_step s t i : rel s t -> li_ar i = None -> li_aw i = None -> li_w i <> None ->
    li_rready i = true -> li_bready i = true -> (mu (step s i) <= mu s - 1)%nat.
  Proof using.
    intros R A W D RR BR. destruct (li_w i) as [d|] eqn:DW; [|congruence]. clear D.
    assert (K1 : l_arack s i = false) by (unfold l_arack; rewrite A; cbn [is_some]; rewrite !andb_false_r; reflexivity).
    assert (K2 : l_awack s i = false) by (unfold l_awack; rewrite W; cbn [is_some]; rewrite !andb_false_r; reflexivity).
    unfold mu, lite_step. cbn [l_fsm l_rd l_wr]. rewrite K1, K2. unfold l_push, l_rack. rewrite RR, BR, DW.
    destruct t as [|j [|[|k]]|x|j|]; cbn [rel] in R.
    - destruct R as (-> & -> & -> & _). cbn. lia.
    - destruct R as (-> & -> & -> & _). cbn. lia.
    - destruct R as (-> & -> & -> & _). cbn. lia.
    - contradiction.
    - destruct R as (-> & -> & -> & -> & _). cbn. lia.
    - destruct R as [(-> & -> & -> & _)|(-> & -> & -> & _)]; cbn; lia.
    - destruct R as (-> & -> & -> & _ & ->). cbn. lia.
  Qed.
  Lemma mu_run : forall more s t, rel s t ->
    Forall (fun i => li_ar i = None /\ li_aw i = None /\ li_w i <> None /\ li_rready i = true /\ li_bready i = true) more ->
    (mu (run s more) <= mu s - length more)%nat.
  Proof using Hmw Hsh.
    induction more as [|i more IH]; intros s t R F; [cbn; lia|].
    apply Forall_cons_iff in F as [(A & B & C & D & E) F].
    pose proof (mu_step s t i R A B C D E) as M. destruct (sim s t i R) as (t1 & _ & R1).
    specialize (IH (step s i) t1 R1 F). cbn [final fold_left length]. fold (run (step s i) more). unfold final in IH. unfold final. lia.
  Qed.
  Lemma finishes ins more : (3 <= length more)%nat ->
    Forall (fun i => li_ar i = None /\ li_aw i = None /\ li_w i <> None /\ li_rready i = true /\ li_bready i = true) more ->
    exists b, bus_run len mw sh xz (TNone, bank0) (outs step lite_out lite_init (ins ++ more)) = Some (TNone, b).
  Proof using Hmw Hsh.
    intros L F. destruct (reach ins) as (t & R).
    pose proof (mu_run more _ t R F) as M.
    destruct (sim_run (ins ++ more) lite_init TNone rel_init) as (t' & E & R'). change (bank_of lite_init) with bank0 in E.
    exists (bank_of (run lite_init (ins ++ more))). rewrite E. f_equal. f_equal.
    assert (B : (mu (run lite_init ins) <= 3)%nat).
    { unfold mu. destruct (l_fsm _ =? 0); [destruct (_ || _); lia|]. destruct (_ || _); lia. }
    assert (Z0 : mu (run lite_init (ins ++ more)) = 0%nat) by (rewrite final_app; lia).
    clear - R' Z0. set (s := run lite_init (ins ++ more)) in *. clearbody s. unfold mu in Z0.
    destruct t' as [|j [|[|k]]|x|j|]; cbn [rel] in R'; [reflexivity| | | | | |]; exfalso.
    - destruct R' as (X & _). rewrite X in Z0. discriminate.
    - destruct R' as (X & Y & _). rewrite X, Y in Z0. discriminate.
    - contradiction.
    - destruct R' as (X & _). rewrite X in Z0. discriminate.
    - destruct R' as [(X & Y & W & _)|(X & _)]; rewrite X in Z0; [rewrite Y, W in Z0|]; discriminate.
    - destruct R' as (X & _). rewrite X in Z0. discriminate.
  Qed.
End Lite.
