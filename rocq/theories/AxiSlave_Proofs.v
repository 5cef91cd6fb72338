From Verif Require Import Base AxiSlave_Model AxiSlave_Spec.
Open Scope Z_scope.

(** every address taken at the port is acknowledged inside *)
Lemma aw_port s i : aw_ack s i = awready s && is_some (vi_aw i).
Proof. unfold aw_ack, awready. destruct (v_bvalid s); destruct (is_some (vi_aw i)); rewrite ?andb_false_r, ?andb_true_r, ?andb_false_l; reflexivity. Qed.
Lemma ar_port s i : ar_ack s i = arready s && is_some (vi_ar i).
Proof.
  unfold ar_ack. rewrite aw_port. unfold awready, arready. destruct (v_paw s); rewrite ?andb_false_r, ?andb_true_r, ?andb_false_l; reflexivity.
Qed.
Lemma ar_taken_ack s i : ar_taken s i = if ar_ack s i then match vi_ar i with Some (a, l) => [(a, l + 1)] | None => [] end else [].
Proof. rewrite ar_port. unfold ar_taken. destruct (vi_ar i) as [[a l]|]; cbn; destruct (arready s); reflexivity. Qed.
Lemma w_events_ack s i : w_events s i =
  (if v_bvalid s && vi_bready i then [WResp] else []) ++
  (if w_hs s i then match vi_w i with Some (d, l) => [WBeat d l] | None => [] end else []) ++
  (if aw_ack s i then match vi_aw i with Some (a, _) => [WAddr a] | None => [] end else []).
Proof. rewrite aw_port. unfold w_events. f_equal. f_equal. destruct (vi_aw i) as [[a l]|]; cbn; destruct (awready s); reflexivity. Qed.

Section Slave.
  Variables (len mw sh xz : Z) (xb : bool).
  Hypothesis Hmw : 0 <= mw.
  Hypothesis Hsh : 0 <= sh.
  Notation step := (slv_step len mw sh xz xb).

  Lemma pow9 : 2 ^ 9 = 512. Proof. reflexivity. Qed.
  Lemma pmw : 0 < 2 ^ mw. Proof. apply Z.pow_pos_nonneg; lia. Qed.

  (** ** Fields after a step *)
  Ltac open_step := unfold slv_step; match goal with |- context [match vi_aw ?i with _ => _ end] =>
      destruct (match vi_aw i with Some x => x | None => (0, 0) end) as [awa awl];
      destruct (match vi_ar i with Some x => x | None => (0, 0) end) as [ara arl];
      destruct (match vi_w i with Some x => x | None => (0, false) end) as [wd wl] end.

  Definition okS (s : slv) : Prop :=
    (v_fsm s = 0 \/ v_fsm s = 1 \/ v_fsm s = 2) /\ (v_fsm s <> 0 -> v_rd s = false /\ v_wr s = false) /\
    (v_rd s = true -> v_wr s = false) /\ (v_fsm s = 1 -> v_last s = true \/ 1 <= v_count s < 512) /\
    0 <= v_mask s < 2 ^ mw /\ (v_rd s = true -> 1 <= v_len s <= 256) /\
    (v_fsm s = 2 \/ v_wr s = true -> v_bvalid s = false).

  Lemma okS_init : okS slv_init.
  Proof. pose proof pmw. repeat split; cbn; intros; try lia; try discriminate; auto. Qed.

  Lemma okS_step s i : okS s -> ar_legal i -> okS (step s i).
  Proof.
    intros (H1 & H2 & H3 & H4 & H5 & H6 & H7) Hl. pose proof pmw as Hp.
    assert (HL : ar_ack s i = true -> match vi_ar i with Some (_, l) => 1 <= (l + 1) mod 2 ^ 9 <= 256 | None => False end).
    { unfold ar_ack. intros H. apply andb_prop in H. destruct H as [_ H]. apply andb_prop in H. destruct H as [_ H].
      unfold ar_legal in Hl. destruct (vi_ar i) as [[a l]|]; [|discriminate]. rewrite pow9, Z.mod_small by lia. lia. }
    unfold slv_step. destruct (match vi_aw i with Some x => x | None => (0, 0) end) as [awa awl].
    destruct (match vi_w i with Some x => x | None => (0, false) end) as [wd wl].
    assert (HL' : ar_ack s i = true -> let '(ara, arl) := match vi_ar i with Some x => x | None => (0, 0) end in 1 <= (arl + 1) mod 2 ^ 9 <= 256)
      by (intros H; specialize (HL H); destruct (vi_ar i) as [[a l]|]; [exact HL|destruct HL]).
    destruct (match vi_ar i with Some x => x | None => (0, 0) end) as [ara arl].
    assert (Haa : aw_ack s i = true -> v_fsm s = 0 /\ v_rd s = false /\ v_wr s = false /\ v_bvalid s = false).
    { unfold aw_ack, awready. clear. intros H. repeat (apply andb_prop in H as [H ?]). rewrite !negb_true_iff in *. apply Z.eqb_eq in H. auto. }
    assert (Har : ar_ack s i = true -> v_fsm s = 0 /\ v_rd s = false /\ v_wr s = false /\ aw_ack s i = false).
    { unfold ar_ack, arready. clear. intros H. apply andb_prop in H. destruct H as [H H']. repeat (apply andb_prop in H' as [H' ?]). rewrite !negb_true_iff in *. apply Z.eqb_eq in H'. auto. }
    unfold okS. cbn [v_fsm v_rd v_wr v_last v_count v_mask v_len v_bvalid].
    assert (Hwh : w_hs s i = true -> v_fsm s = 2) by (unfold w_hs; intros H; apply andb_prop in H; lia).
    assert (Hpu : r_push s i = true -> v_fsm s = 1) by (unfold r_push; intros H; apply andb_prop in H; lia).
    assert (Hland : 0 <= Z.land (Z.shiftr (v_addr s) sh) (2 ^ mw - 1) < 2 ^ mw).
    { replace (2 ^ mw - 1) with (Z.ones mw) by (rewrite Z.ones_equiv; lia). rewrite Z.land_ones by assumption. apply Z.mod_pos_bound; exact Hp. }
    assert (Hnext : 0 <= (v_mask s + 1) mod 2 ^ mw < 2 ^ mw) by (apply Z.mod_pos_bound; exact Hp).
    repeat split.
    - clear - H1 H3. destruct (Z.eqb_spec (v_fsm s) 0); [destruct (v_wr s), (v_rd s); auto|].
      destruct (Z.eqb_spec (v_fsm s) 1); [destruct (_ && _); auto|]. destruct (_ && _); [auto|]. lia.
    - destruct (ar_ack s i) eqn:E; [|reflexivity]. exfalso. destruct (Har eq_refl) as (A & B & C & _). rewrite A in H. cbn [Z.eqb] in H. rewrite B, C in H. lia.
    - destruct (aw_ack s i) eqn:E; [|reflexivity]. exfalso. destruct (Haa eq_refl) as (A & B & C & _). rewrite A in H. cbn [Z.eqb] in H. rewrite B, C in H. lia.
    - intros H. apply (Har H).
    - clear - H1 H2 H3 H4 H6 Hpu Hwh. rewrite pow9.
      destruct (Z.eqb_spec (v_fsm s) 0) as [E|E].
      + destruct (v_wr s) eqn:Ew; [lia|]. destruct (v_rd s) eqn:Er; [|lia]. intros _. specialize (H6 eq_refl).
        destruct (r_push s i); [specialize (Hpu eq_refl); lia|]. cbn [andb]. right. lia.
      + destruct (Z.eqb_spec (v_fsm s) 1) as [E1|E1].
        * destruct (r_push s i) eqn:Ep; cbn [andb].
          -- destruct (v_last s); [lia|]. intros _. destruct (H4 E1) as [X|X]; [discriminate|].
             destruct (Z.leb_spec (v_count s) 1); [auto|]. right. rewrite Z.mod_small by lia. lia.
          -- intros _. destruct (H4 E1) as [X|X]; auto.
        * destruct (_ && wl); lia.
    - destruct (r_push s i || w_hs s i); [apply Hnext|]. destruct (_ && _); [apply Hland|apply H5].
    - destruct (r_push s i || w_hs s i); [apply Hnext|]. destruct (_ && _); [apply Hland|apply H5].
    - destruct (ar_ack s i) eqn:E; [|discriminate]. destruct (Har eq_refl) as (_ & _ & _ & ->). apply (HL' eq_refl).
    - destruct (ar_ack s i) eqn:E; [|discriminate]. destruct (Har eq_refl) as (_ & _ & _ & ->). apply (HL' eq_refl).
    - intros H. assert (Hb : v_bvalid s = false /\ w_hs s i && wl = false).
      { destruct H as [H|H].
        - destruct (Z.eqb_spec (v_fsm s) 0) as [E|E].
          + destruct (v_wr s) eqn:Ew; [|destruct (v_rd s); lia]. split; [auto|]. unfold w_hs. rewrite E. reflexivity.
          + destruct (Z.eqb_spec (v_fsm s) 1) as [E1|E1]; [destruct (_ && _); lia|].
            destruct (w_hs s i && wl); [lia|]. auto.
        - destruct (Haa H) as (A & _ & _ & B). split; [exact B|]. unfold w_hs. rewrite A. reflexivity. }
      destruct Hb as [-> ->]. reflexivity.
  Qed.

  (** ** Reads *)
  Definition code_beats (n : Z) : Z := if n <=? 1 then 1 else n + 1.
  Definition idxs (m : Z) (n : nat) : list (Z * bool) :=
    combine (map (fun k => (m + Z.of_nat k) mod 2 ^ mw) (seq 0 n)) (repeat false (n - 1) ++ [true]).
  Lemma idxs_1 m : idxs m 1 = [(m mod 2 ^ mw, true)].
  Proof. cbn. rewrite Z.add_0_r. reflexivity. Qed.
  Lemma seq_shift_map {A} (f : nat -> A) n a : map f (seq (S a) n) = map (fun k => f (S k)) (seq a n).
  Proof. rewrite <- seq_shift, map_map. reflexivity. Qed.
  Lemma idxs_S m n : idxs m (S (S n)) = (m mod 2 ^ mw, false) :: idxs ((m + 1) mod 2 ^ mw) (S n).
  Proof.
    unfold idxs. change (seq 0 (S (S n))) with (0%nat :: seq 1 (S n)). cbn [map]. rewrite seq_shift_map.
    replace (S (S n) - 1)%nat with (S n) by lia. replace (S n - 1)%nat with n by lia. cbn [repeat app combine]. f_equal.
    - f_equal. f_equal. lia.
    - f_equal. apply map_ext. intros k. rewrite Zplus_mod_idemp_l. f_equal. lia.
  Qed.
  Definition base (a : Z) : Z := a / 2 ^ sh mod 2 ^ mw.
  Definition left_beats (s : slv) : nat := if v_last s then 1 else Z.to_nat (v_count s + 1).
  Definition rest (s : slv) : list (Z * bool) :=
    if v_fsm s =? 1 then idxs (v_mask s) (left_beats s)
    else if v_rd s then idxs (base (v_addr s)) (Z.to_nat (code_beats (v_len s))) else [].
  (** a word enters the channel: index and flag *)
  Definition pushed (s : slv) (i : slv_in) : list (Z * bool) := if r_push s i then [(v_mask s, v_last s)] else [].
  Definition req_idxs (q : Z * Z) : list (Z * bool) := idxs (base (fst q)) (Z.to_nat (code_beats (snd q))).

  Lemma rest_step s i : okS s -> ar_legal i ->
    rest s ++ flat_map req_idxs (ar_taken s i) = pushed s i ++ rest (step s i).
  Proof.
    intros (H1 & H2 & H3 & H4 & H5 & H6 & H7) Hl.
    rewrite ar_taken_ack. unfold pushed, rest, slv_step.
    destruct (match vi_aw i with Some x => x | None => (0, 0) end) as [awa awl] eqn:Eaw.
    destruct (match vi_w i with Some x => x | None => (0, false) end) as [wd wl].
    destruct (match vi_ar i with Some x => x | None => (0, 0) end) as [ara arl] eqn:Ear.
    cbn [v_fsm v_rd v_wr v_last v_count v_mask v_len v_addr].
    assert (Har : ar_ack s i = true -> v_fsm s = 0 /\ v_rd s = false /\ v_wr s = false /\ aw_ack s i = false /\ vi_ar i = Some (ara, arl)).
    { unfold ar_ack, arready. revert Ear. clear. intros Ear H. apply andb_prop in H. destruct H as [H H']. apply andb_prop in H' as [H' Hi].
      repeat (apply andb_prop in H' as [H' ?]). rewrite !negb_true_iff in *. apply Z.eqb_eq in H'.
      destruct (vi_ar i); [subst p; auto 8|discriminate]. }
    destruct (Z.eqb_spec (v_fsm s) 0) as [E0|E0].
    - rewrite E0. cbn [Z.eqb]. assert (Ep : r_push s i = false) by (unfold r_push; rewrite E0; reflexivity). rewrite Ep. cbn [app].
      assert (Ew : w_hs s i = false) by (unfold w_hs; rewrite E0; reflexivity). rewrite Ew. cbn [orb andb].
      destruct (ar_ack s i) eqn:Ea.
      + destruct (Har eq_refl) as (_ & A & B & C & D). rewrite A, B, C, D. cbn [Z.eqb Pos.eqb app flat_map].
        rewrite app_nil_r. unfold req_idxs. cbn [fst snd]. unfold ar_legal in Hl. rewrite D in Hl. rewrite pow9, Z.mod_small by lia. reflexivity.
      + rewrite app_nil_r. destruct (v_wr s) eqn:Ewr; cbn [Z.eqb Pos.eqb].
        * destruct (v_rd s); [specialize (H3 eq_refl); discriminate|reflexivity].
        * destruct (v_rd s) eqn:Er; cbn [Z.eqb Pos.eqb]; [|reflexivity].
          f_equal; [|unfold left_beats, code_beats; cbn [v_last v_count]; destruct (v_len s <=? 1); reflexivity].
          replace (2 ^ mw - 1) with (Z.ones mw) by (rewrite Z.ones_equiv; lia). rewrite Z.land_ones, Z.shiftr_div_pow2 by assumption. reflexivity.
    - assert (Ea : ar_ack s i = false) by (destruct (ar_ack s i); [destruct (Har eq_refl); contradiction|reflexivity]).
      rewrite Ea. cbn [flat_map]. rewrite app_nil_r. destruct (H2 E0) as [Hrd Hwr]. rewrite Hrd.
      destruct (Z.eqb_spec (v_fsm s) 1) as [E1|E1].
      + assert (Ew : w_hs s i = false) by (unfold w_hs; rewrite E1; reflexivity). rewrite Ew. rewrite orb_false_r. cbn [andb].
        unfold left_beats. cbn [v_last v_count].
        destruct (r_push s i) eqn:Ep; cbn [andb]; [|reflexivity].
        destruct (v_last s) eqn:El; cbn [Z.eqb Pos.eqb].
        * rewrite idxs_1. rewrite Z.mod_small by exact H5. reflexivity.
        * destruct (H4 E1) as [X|X]; [discriminate|]. replace (Z.to_nat (v_count s + 1)) with (S (S (Z.to_nat (v_count s - 1)))) by lia.
          rewrite idxs_S. rewrite (Z.mod_small (v_mask s)) by exact H5. cbn [app]. f_equal. f_equal.
          rewrite pow9, Z.mod_small by lia. destruct (Z.leb_spec (v_count s) 1); lia.
      + assert (Ep : r_push s i = false) by (unfold r_push; destruct (Z.eqb_spec (v_fsm s) 1); [contradiction|reflexivity]). rewrite Ep. cbn [app].
        destruct (w_hs s i && wl); [reflexivity|]. destruct (Z.eqb_spec (v_fsm s) 1); [contradiction|reflexivity].
  Qed.

  (** the read data channel register *)
  Definition offer (s : slv) : list (Z * bool) := if v_rvalid s then [(v_rdata s, v_rlast s)] else [].
  Definition pushed_data (s : slv) (i : slv_in) : list (Z * bool) := if r_push s i then [(r_data len xz s, v_last s)] else [].
  Lemma offer_step s i : offer s ++ pushed_data s i = r_beat s i ++ offer (step s i).
  Proof.
    unfold offer, pushed_data, r_beat, slv_step.
    destruct (match vi_aw i with Some x => x | None => (0, 0) end) as [awa awl].
    destruct (match vi_w i with Some x => x | None => (0, false) end) as [wd wl].
    destruct (match vi_ar i with Some x => x | None => (0, 0) end) as [ara arl].
    cbn [v_rvalid v_rdata v_rlast]. destruct (r_push s i) eqn:Ep; cbn [orb].
    - unfold r_push, r_ack in Ep. apply andb_prop in Ep. destruct Ep as [_ Ep].
      destruct (v_rvalid s), (vi_rready i); try discriminate; reflexivity.
    - rewrite app_nil_r. destruct (v_rvalid s), (vi_rready i); reflexivity.
  Qed.

  Lemma okS_run ins : forall s, okS s -> Forall ar_legal ins -> okS (slv_run len mw sh xz xb s ins).
  Proof.
    induction ins as [|i ins IH]; intros s H HF; [exact H|]. unfold slv_run, final in *. cbn [fold_left].
    apply IH; [apply okS_step; [exact H|exact (Forall_inv HF)]|exact (Forall_inv_tail HF)].
  Qed.
  Definition all_pushed s ins := concat (outs step pushed s ins).
  Definition all_data s ins := concat (outs step pushed_data s ins).
  Lemma rest_run ins : forall s, okS s -> Forall ar_legal ins ->
    rest s ++ flat_map req_idxs (bursts len mw sh xz xb s ins) = all_pushed s ins ++ rest (slv_run len mw sh xz xb s ins).
  Proof.
    induction ins as [|i ins IH]; intros s H HF; [cbn; rewrite app_nil_r; reflexivity|].
    unfold bursts, all_pushed, slv_run, final in *. cbn [outs concat fold_left]. rewrite flat_map_app, app_assoc.
    rewrite (rest_step s i H (Forall_inv HF)). rewrite <- !app_assoc. f_equal.
    apply IH; [apply okS_step; [exact H|exact (Forall_inv HF)]|exact (Forall_inv_tail HF)].
  Qed.
  Lemma offer_run ins : forall s, offer s ++ all_data s ins = beats len mw sh xz xb s ins ++ offer (slv_run len mw sh xz xb s ins).
  Proof.
    induction ins as [|i ins IH]; intros s; [cbn; rewrite app_nil_r; reflexivity|].
    unfold beats, all_data, slv_run, final in *. cbn [outs concat fold_left]. rewrite app_assoc, offer_step, <- !app_assoc. f_equal. apply IH.
  Qed.
  Lemma snd_pushed ins : forall s, map snd (all_data s ins) = map snd (all_pushed s ins).
  Proof.
    induction ins as [|i ins IH]; intros s; [reflexivity|]. unfold all_data, all_pushed in *. cbn [outs concat]. rewrite !map_app, IH.
    f_equal. unfold pushed, pushed_data. destruct (r_push s i); reflexivity.
  Qed.
  Lemma snd_combine {A B} (a : list A) (b : list B) : length a = length b -> map snd (combine a b) = b.
  Proof. revert b. induction a as [|x a IH]; intros [|y b]; cbn; intros H; try discriminate; [reflexivity|]. f_equal. apply IH. lia. Qed.
  Lemma snd_idxs m n : (0 < n)%nat -> map snd (idxs m n) = repeat false (n - 1) ++ [true].
  Proof. intros H. unfold idxs. apply snd_combine. rewrite map_length, seq_length, app_length, repeat_length. cbn. lia. Qed.
  Lemma code_beats_pos n : 1 <= code_beats n.
  Proof. unfold code_beats. destruct (Z.leb_spec n 1); lia. Qed.
  Lemma snd_req q : map snd (req_idxs q) = answer_flags (code_beats (snd q)).
  Proof. unfold req_idxs, answer_flags. apply snd_idxs. pose proof (code_beats_pos (snd q)). lia. Qed.

  Lemma flags_of ins : Forall ar_legal ins ->
    exists more, flat_map (fun q => answer_flags (code_beats (snd q))) (bursts len mw sh xz xb slv_init ins) =
                 map snd (beats len mw sh xz xb slv_init ins) ++ more /\
    (read_idle (slv_run len mw sh xz xb slv_init ins) -> more = []).
  Proof.
    intros HF. pose proof (rest_run ins slv_init okS_init HF) as H1. pose proof (offer_run ins slv_init) as H2. cbn [rest slv_init v_fsm v_rd Z.eqb app] in H1.
    change (rest slv_init) with (@nil (Z * bool)) in H1. change (offer slv_init) with (@nil (Z * bool)) in H2. cbn [app] in H1, H2.
    set (s' := slv_run len mw sh xz xb slv_init ins) in *.
    exists (map snd (offer s') ++ map snd (rest s')). split.
    - assert (E : flat_map (fun q => answer_flags (code_beats (snd q))) (bursts len mw sh xz xb slv_init ins) =
                  map snd (flat_map req_idxs (bursts len mw sh xz xb slv_init ins))).
      { clear. induction (bursts len mw sh xz xb slv_init ins) as [|q l IH]; [reflexivity|]. cbn [flat_map]. rewrite map_app, IH, snd_req. reflexivity. }
      rewrite E, H1, map_app, <- snd_pushed, H2, map_app, <- app_assoc. reflexivity.
    - intros (A & B & C). unfold offer, rest. rewrite C, B. destruct (Z.eqb_spec (v_fsm s') 1); [contradiction|reflexivity].
  Qed.

  (** with registers that nobody changes *)
  Definition quiet (reg : Z -> Z) (s : slv) : Prop :=
    v_reg s = reg /\ v_flag s = (fun _ => false) /\ v_wr s = false /\ v_fsm s <> 2.
  Lemma quiet_step reg s i : okS s -> quiet reg s -> no_update i -> quiet reg (step s i).
  Proof.
    intros (H1 & _) (A & B & C & D) [E F]. unfold quiet, slv_step. rewrite E, F, A, B, C.
    assert (Ea : aw_ack s i = false) by (unfold aw_ack; rewrite E; cbn; rewrite andb_false_r; reflexivity).
    assert (Ew : w_hs s i = false) by (unfold w_hs; destruct (Z.eqb_spec (v_fsm s) 2); [contradiction|reflexivity]).
    rewrite Ea, Ew.
    destruct (match vi_w i with Some x => x | None => (0, false) end) as [wd wl].
    destruct (match vi_ar i with Some x => x | None => (0, 0) end) as [ara arl].
    cbn [v_reg v_flag v_wr v_fsm andb]. unfold pick, put. destruct ((0 <=? v_mask s) && (v_mask s <? len)); rewrite ?andb_false_r; (split; [destruct (r_push s i), xb; reflexivity|split; [destruct (r_push s i), xb; reflexivity|split; [reflexivity|]]]);
      (destruct (v_fsm s =? 0); [destruct (v_rd s); lia|]; destruct (Z.eqb_spec (v_fsm s) 1); [destruct (r_push s i && v_last s); lia|exact D]).
  Qed.
  Lemma data_run reg ins : forall s, okS s -> quiet reg s -> Forall ar_legal ins -> Forall no_update ins ->
    all_data s ins = map (fun p => (if fst p <? len then reg (fst p) else xz, snd p)) (all_pushed s ins).
  Proof.
    induction ins as [|i ins IH]; intros s H Hq HF HU; [reflexivity|].
    unfold all_data, all_pushed in *. cbn [outs concat]. rewrite map_app. rewrite IH; [|apply okS_step|apply quiet_step| |]; try assumption;
      try exact (Forall_inv HF); try exact (Forall_inv HU); try exact (Forall_inv_tail HF); try exact (Forall_inv_tail HU).
    f_equal. unfold pushed, pushed_data. destruct (r_push s i); [|reflexivity]. cbn [map fst snd]. unfold r_data, pick.
    destruct Hq as (-> & _). destruct H as (_ & _ & _ & _ & H5 & _). replace (0 <=? v_mask s) with true by lia. reflexivity.
  Qed.
  Lemma answer_of reg q : map (fun p => (if fst p <? len then reg (fst p) else xz, snd p)) (req_idxs q) =
    answer len mw sh xz reg (fst q) (code_beats (snd q)).
  Proof.
    unfold req_idxs, answer, idxs, answer_flags. set (n := Z.to_nat (code_beats (snd q))). generalize (repeat false (n - 1) ++ [true]).
    generalize (seq 0 n). induction l as [|k l IH]; intros fl; [reflexivity|]. destruct fl as [|b fl]; [reflexivity|].
    cbn [map combine fst snd]. rewrite IH. do 2 f_equal; unfold base, reg_index; rewrite Zplus_mod_idemp_l; reflexivity.
  Qed.
  Lemma answers_from reg s0 ins : okS s0 -> quiet reg s0 -> rest s0 = [] -> offer s0 = [] ->
    Forall ar_legal ins -> Forall no_update ins ->
    exists more, flat_map (fun q => answer len mw sh xz reg (fst q) (code_beats (snd q))) (bursts len mw sh xz xb s0 ins) =
                 beats len mw sh xz xb s0 ins ++ more /\
    (read_idle (slv_run len mw sh xz xb s0 ins) -> more = []).
  Proof.
    intros Hok Hq Hr Ho HF HU. pose proof (rest_run ins s0 Hok HF) as H1. pose proof (offer_run ins s0) as H2.
    rewrite Hr in H1. rewrite Ho in H2. cbn [app] in H1, H2.
    set (f := fun p : Z * bool => (if fst p <? len then reg (fst p) else xz, snd p)).
    set (s' := slv_run len mw sh xz xb s0 ins) in *.
    exists (offer s' ++ map f (rest s')). split.
    - assert (E : flat_map (fun q => answer len mw sh xz reg (fst q) (code_beats (snd q))) (bursts len mw sh xz xb s0 ins) =
                  map f (flat_map req_idxs (bursts len mw sh xz xb s0 ins))).
      { clear - Hmw Hsh. induction (bursts len mw sh xz xb s0 ins) as [|q l IH]; [reflexivity|]. cbn [flat_map]. rewrite map_app, IH. unfold f at 2. rewrite answer_of. reflexivity. }
      rewrite E, H1, map_app. unfold f at 1. rewrite <- (data_run reg ins s0 Hok Hq HF HU), H2, <- app_assoc. reflexivity.
    - intros (A & B & C). unfold offer, rest. rewrite C, B. destruct (Z.eqb_spec (v_fsm s') 1); [contradiction|reflexivity].
  Qed.

  (** progress *)
  Definition rm (s : slv) : Z :=
    if v_fsm s =? 1 then Z.of_nat (left_beats s) + 1
    else if v_rd s then code_beats (v_len s) + 2 else b2z (v_rvalid s).
  Lemma rm_step s i : okS s -> no_read_request i -> rm (step s i) <= Z.max 0 (rm s - b2z (vi_rready i)).
  Proof.
    intros (H1 & H2 & H3 & H4 & H5 & H6 & H7) Hn.
    assert (Ea : ar_ack s i = false) by (unfold ar_ack; rewrite Hn; cbn; rewrite !andb_false_r; reflexivity).
    unfold rm, slv_step. rewrite Ea.
    destruct (match vi_aw i with Some x => x | None => (0, 0) end) as [awa awl] eqn:Eaw.
    destruct (match vi_w i with Some x => x | None => (0, false) end) as [wd wl].
    destruct (match vi_ar i with Some x => x | None => (0, 0) end) as [ara arl].
    unfold left_beats. cbn [v_fsm v_rd v_wr v_last v_count v_mask v_len v_rvalid].
    destruct (Z.eqb_spec (v_fsm s) 0) as [E0|E0].
    - rewrite E0. cbn [Z.eqb]. assert (Ep : r_push s i = false) by (unfold r_push; rewrite E0; reflexivity). rewrite Ep. cbn [orb andb].
      destruct (v_wr s) eqn:Ewr; cbn [Z.eqb Pos.eqb].
      + destruct (v_rd s); [specialize (H3 eq_refl); discriminate|]. destruct (v_rvalid s), (vi_rready i); cbn; lia.
      + destruct (v_rd s) eqn:Er; cbn [Z.eqb Pos.eqb]; [|destruct (v_rvalid s), (vi_rready i); cbn; lia].
        specialize (H6 eq_refl). unfold code_beats. destruct (v_len s <=? 1), (vi_rready i); cbn [b2z]; lia.
    - destruct (H2 E0) as [Hrd Hwr]. rewrite Hrd. destruct (Z.eqb_spec (v_fsm s) 1) as [E1|E1].
      + destruct (r_push s i) eqn:Ep; cbn [andb orb].
        * destruct (v_last s) eqn:El; cbn [Z.eqb Pos.eqb b2z]; [destruct (vi_rready i); cbn; lia|].
          destruct (H4 E1) as [X|X]; [discriminate|]. rewrite pow9, Z.mod_small by lia.
          destruct (Z.leb_spec (v_count s) 1), (vi_rready i); cbn [b2z]; lia.
        * cbn [Z.eqb Pos.eqb]. assert (Erd : vi_rready i = false).
          { unfold r_push, r_ack in Ep. rewrite E1 in Ep. destruct (vi_rready i); [discriminate|reflexivity]. }
          rewrite Erd. cbn [b2z]. destruct (v_last s); lia.
      + assert (Ep : r_push s i = false) by (unfold r_push; destruct (Z.eqb_spec (v_fsm s) 1); [contradiction|reflexivity]). rewrite Ep. cbn [orb].
        assert (En : ((if w_hs s i && wl then 0 else v_fsm s) =? 1) = false) by (destruct (_ && _); [reflexivity|lia]).
        rewrite En. destruct (v_rvalid s), (vi_rready i); cbn; lia.
  Qed.
  Lemma no_ar i : no_read_request i -> ar_legal i.
  Proof. unfold no_read_request, ar_legal. intros ->. exact I. Qed.
  Lemma rm_run ins : forall s, okS s -> Forall no_read_request ins ->
    rm (slv_run len mw sh xz xb s ins) <= Z.max 0 (rm s - ready_cycles ins).
  Proof.
    induction ins as [|i ins IH]; intros s H HF; [cbn; lia|].
    unfold slv_run, final in *. cbn [fold_left ready_cycles fold_right]. fold (ready_cycles ins).
    specialize (IH (step s i) (okS_step s i H (no_ar i (Forall_inv HF))) (Forall_inv_tail HF)).
    pose proof (rm_step s i H (Forall_inv HF)) as Hs.
    assert (0 <= ready_cycles ins) by (clear; induction ins as [|x l IH]; [cbn; lia|]; unfold ready_cycles in *; cbn [fold_right]; destruct (vi_rready x); cbn [b2z]; lia).
    lia.
  Qed.
  Lemma rm_bound s : okS s -> rm s <= 515.
  Proof.
    intros (H1 & H2 & H3 & H4 & H5 & H6 & H7). unfold rm, left_beats, code_beats. destruct (Z.eqb_spec (v_fsm s) 1) as [E|E].
    - destruct (H4 E) as [->|X]; [lia|]. destruct (v_last s); lia.
    - destruct (v_rd s); [specialize (H6 eq_refl); destruct (v_len s <=? 1); lia|]. destruct (v_rvalid s); cbn; lia.
  Qed.
  Lemma rm_idle s : okS s -> rm s <= 0 -> read_idle s.
  Proof.
    intros (H1 & H2 & H3 & H4 & H5 & H6 & H7) H. unfold rm, left_beats in H. unfold read_idle. pose proof (code_beats_pos (v_len s)).
    destruct (Z.eqb_spec (v_fsm s) 1); [lia|]. destruct (v_rd s); [lia|]. destruct (v_rvalid s); [cbn in H; lia|]. auto.
  Qed.
  Theorem read_finishes ins more : Forall ar_legal ins -> Forall no_read_request more -> 515 <= ready_cycles more ->
    read_idle (slv_run len mw sh xz xb slv_init (ins ++ more)).
  Proof.
    intros HF HN Hc. pose proof (okS_run ins slv_init okS_init HF) as Hok.
    unfold slv_run, final in *. rewrite fold_left_app.
    pose proof (rm_run more _ Hok HN) as Hm. pose proof (rm_bound _ Hok) as Hb. apply rm_idle.
    - apply okS_run; [exact Hok|]. eapply Forall_impl; [|exact HN]. intros; apply no_ar; assumption.
    - unfold slv_run, final in Hm. lia.
  Qed.

  (** ** Writes *)
  Definition wphase (s : slv) : Z := if (v_fsm s =? 2) || v_wr s then 1 else if v_bvalid s then 2 else 0.
  Lemma worder_app p a b : worder p (a ++ b) = match worder p a with Some q => worder q b | None => None end.
  Proof.
    revert p. induction a as [|e a IH]; intros p; [reflexivity|]. cbn [app worder].
    destruct e; match goal with |- (if ?c then _ else _) = _ => destruct c; [apply IH|reflexivity] end.
  Qed.
  Lemma worder_step s i : okS s -> ar_legal i -> worder (wphase s) (w_events s i) = Some (wphase (step s i)).
  Proof.
    intros (H1 & H2 & H3 & H4 & H5 & H6 & H7) Hl. rewrite w_events_ack. unfold wphase, slv_step.
    destruct (match vi_aw i with Some x => x | None => (0, 0) end) as [awa awl] eqn:Eaw.
    destruct (match vi_w i with Some x => x | None => (0, false) end) as [wd wl] eqn:Ew.
    destruct (match vi_ar i with Some x => x | None => (0, 0) end) as [ara arl].
    cbn [v_fsm v_wr v_bvalid]. rewrite !worder_app.
    destruct (Z.eqb_spec (v_fsm s) 2) as [E2|E2].
    - assert (Hb : v_bvalid s = false) by (apply H7; auto). rewrite Hb.
      assert (Ha : aw_ack s i = false) by (unfold aw_ack, awready; rewrite E2; reflexivity). rewrite Ha.
      unfold w_hs. rewrite E2. cbn [Z.eqb Pos.eqb andb orb worder]. destruct (vi_w i) as [[d l]|]; cbn [is_some].
      + injection Ew as -> ->. destruct wl; reflexivity.
      + reflexivity.
    - assert (Hw : w_hs s i = false) by (unfold w_hs; destruct (Z.eqb_spec (v_fsm s) 2); [contradiction|reflexivity]). rewrite Hw. cbn [orb andb].
      assert (Hf : ((if v_fsm s =? 0 then if v_wr s then 2 else if v_rd s then 1 else 0
          else if v_fsm s =? 1 then if r_push s i && v_last s then 0 else 1 else v_fsm s) =? 2) = v_wr s).
      { destruct (Z.eqb_spec (v_fsm s) 0) as [E0|E0]; [destruct (v_wr s), (v_rd s); reflexivity|].
        destruct (H2 E0) as [_ ->]. destruct (Z.eqb_spec (v_fsm s) 1); [destruct (_ && _); reflexivity|lia]. }
      rewrite Hf. destruct (v_wr s) eqn:Ewr.
      + rewrite (H7 (or_intror eq_refl)). cbn [andb worder].
        assert (Ha : aw_ack s i = false) by (unfold aw_ack, awready; rewrite Ewr; cbn; rewrite !andb_false_r; reflexivity). rewrite Ha. reflexivity.
      + cbn [orb]. destruct (v_bvalid s) eqn:Eb.
        * assert (Ha : aw_ack s i = false) by (unfold aw_ack; rewrite Eb; rewrite !andb_false_r; reflexivity). rewrite Ha.
          destruct (vi_bready i); reflexivity.
        * cbn [andb worder]. destruct (aw_ack s i) eqn:Ea; [|reflexivity].
          unfold aw_ack in Ea. destruct (vi_aw i) as [[a l]|]; [reflexivity|cbn in Ea; rewrite !andb_false_r in Ea; discriminate].
  Qed.
  Theorem worder_run ins : forall s, okS s -> Forall ar_legal ins ->
    worder (wphase s) (wevents len mw sh xz xb s ins) = Some (wphase (slv_run len mw sh xz xb s ins)).
  Proof.
    induction ins as [|i ins IH]; intros s H HF; [reflexivity|].
    unfold wevents, slv_run, final in *. cbn [outs concat fold_left].
    rewrite worder_app, (worder_step s i H (Forall_inv HF)).
    apply IH; [apply okS_step; [exact H|exact (Forall_inv HF)]|exact (Forall_inv_tail HF)].
  Qed.

  Definition wstate (s : slv) (st : Z * (Z -> Z)) : Prop :=
    v_flag s = (fun _ => false) /\ snd st = v_reg s /\
    (v_fsm s = 2 -> fst st = v_mask s) /\ (v_wr s = true -> fst st = base (v_addr s)).
  Lemma wreplay_step s i st : okS s -> no_thread_update i -> wstate s st ->
    wstate (step s i) (wreplay len mw sh (w_events s i) st).
  Proof.
    intros (H1 & H2 & H3 & H4 & H5 & H6 & H7) Hn (A & B & C & D). rewrite w_events_ack. unfold slv_step. rewrite Hn.
    destruct (match vi_aw i with Some x => x | None => (0, 0) end) as [awa awl] eqn:Eaw.
    destruct (match vi_w i with Some x => x | None => (0, false) end) as [wd wl] eqn:Ew.
    destruct (match vi_ar i with Some x => x | None => (0, 0) end) as [ara arl].
    set (rst := r_push s i && pick len xb (v_flag s) (v_mask s)).
    assert (Er : (if rst then put len (v_reg s) (v_mask s) (pick len xz (v_reset s) (v_mask s)) else v_reg s) = v_reg s /\
                 (if rst then put len (v_flag s) (v_mask s) false else v_flag s) = (fun _ => false)).
    { unfold rst, put, pick. rewrite A. destruct (_ && (v_mask s <? len)); rewrite ?andb_false_r; [auto|]. destruct (_ && xb); auto. }
    destruct Er as [-> ->]. clear rst.
    unfold wreplay. rewrite !fold_left_app.
    assert (X : forall b, fold_left (fun (st : Z * (Z -> Z)) (e : wevent) => match e with
        | WAddr a => (a / 2 ^ sh mod 2 ^ mw, snd st)
        | WBeat d _ => ((fst st + 1) mod 2 ^ mw, if fst st <? len then upd (snd st) (fst st) d else snd st)
        | WResp => st end) (if b : bool then [WResp] else []) st = st) by (intros []; reflexivity).
    rewrite X. clear X. unfold wstate. cbn [v_flag v_reg v_fsm v_mask v_wr v_addr]. split; [reflexivity|].
    destruct (Z.eqb_spec (v_fsm s) 2) as [E2|E2].
    - assert (Ha : aw_ack s i = false) by (unfold aw_ack, awready; rewrite E2; reflexivity). rewrite Ha.
      rewrite E2. cbn [Z.eqb Pos.eqb]. assert (Hp : r_push s i = false) by (unfold r_push; rewrite E2; reflexivity). rewrite Hp. cbn [orb].
      unfold w_hs. rewrite E2. cbn [Z.eqb Pos.eqb andb]. destruct (vi_w i) as [[d l]|]; cbn [is_some].
      + injection Ew as -> ->. cbn [fold_left fst snd]. rewrite B, (C E2). unfold put. replace (0 <=? v_mask s) with true by lia. cbn [andb].
        split; [reflexivity|]. split; [reflexivity|discriminate].
      + cbn [fold_left]. split; [exact B|]. split; [intros _; exact (C E2)|discriminate].
    - assert (Hw : w_hs s i = false) by (unfold w_hs; destruct (Z.eqb_spec (v_fsm s) 2); [contradiction|reflexivity]). rewrite Hw. cbn [fold_left andb].
      rewrite orb_false_r.
      assert (Hf : (if v_fsm s =? 0 then if v_wr s then 2 else if v_rd s then 1 else 0
          else if v_fsm s =? 1 then if r_push s i && v_last s then 0 else 1 else v_fsm s) = 2 -> v_fsm s = 0 /\ v_wr s = true).
      { destruct (Z.eqb_spec (v_fsm s) 0) as [E0|E0]; [destruct (v_wr s), (v_rd s); auto; lia|].
        destruct (Z.eqb_spec (v_fsm s) 1); [destruct (_ && _); lia|]. intros; contradiction. }
      assert (Hm : v_fsm s = 0 -> v_wr s = true -> (if r_push s i then (v_mask s + 1) mod 2 ^ mw
         else if (v_fsm s =? 0) && (v_rd s || v_wr s) then Z.land (Z.shiftr (v_addr s) sh) (2 ^ mw - 1) else v_mask s) = base (v_addr s)).
      { intros E0 W. unfold r_push. rewrite E0, W. cbn [Z.eqb andb]. rewrite orb_true_r.
        replace (2 ^ mw - 1) with (Z.ones mw) by (rewrite Z.ones_equiv; lia). rewrite Z.land_ones, Z.shiftr_div_pow2 by assumption. reflexivity. }
      destruct (aw_ack s i) eqn:Ea.
      + assert (Hi : vi_aw i = Some (awa, awl) /\ v_wr s = false).
        { unfold aw_ack, awready in Ea. destruct (vi_aw i) as [p|]; [|cbn in Ea; rewrite andb_false_r in Ea; discriminate]. subst p.
          split; [reflexivity|]. destruct (v_wr s); [cbn in Ea; rewrite andb_false_r in Ea; discriminate|reflexivity]. }
        destruct Hi as [-> Hw0]. cbn [fold_left fst snd]. split; [exact B|]. split; [|reflexivity].
        intros H. destruct (Hf H) as [_ X]. congruence.
      + cbn [fold_left]. split; [exact B|]. split; [|discriminate]. intros H. destruct (Hf H) as [E0 W]. rewrite (Hm E0 W). apply (D W).
  Qed.
  Lemma wreplay_run ins : forall s st, okS s -> Forall ar_legal ins -> Forall no_thread_update ins -> wstate s st ->
    wstate (slv_run len mw sh xz xb s ins) (wreplay len mw sh (wevents len mw sh xz xb s ins) st).
  Proof.
    induction ins as [|i ins IH]; intros s st H HF HN Hst; [exact Hst|].
    unfold wevents, slv_run, final in *. cbn [outs concat fold_left]. unfold wreplay. rewrite fold_left_app.
    apply IH; [apply okS_step; [exact H|exact (Forall_inv HF)]|exact (Forall_inv_tail HF)|exact (Forall_inv_tail HN)|].
    apply wreplay_step; [exact H|exact (Forall_inv HN)|exact Hst].
  Qed.
End Slave.
