From Verif Require Import Base Fifo_Model Fifo_Spec AxiMem_Model AxiMem_Spec AxiMem_Proofs AxiMem_Live AxiMem_Main AxiPorts_Model AxiPorts_Spec.
Open Scope Z_scope.

(** ** A port is a memory of its own, as far as handshakes go *)
Definition erase (r : rside) : rside :=
  mkR (r_afsm r) (r_arready r) (r_rq r) (r_dfsm r) (r_d1 r) (r_cond r) (r_addr r) (r_count r) (r_valid r) 0 (r_last r) (r_rid r).
Lemma erase_step p r r' i a m m' : erase r = erase r' -> erase (r_step p r i a m) = erase (r_step p r' i a m').
Proof.
  destruct r as [a1 a2 a3 a4 a5 a6 a7 a8 a9 a10 a11 a12], r' as [b1 b2 b3 b4 b5 b6 b7 b8 b9 b10 b11 b12]. unfold erase. cbn [r_afsm r_arready r_rq r_dfsm r_d1 r_cond r_addr r_count r_valid r_data r_last r_rid].
  intros E. injection E as -> -> -> -> -> -> -> -> -> -> ->. reflexivity.
Qed.
Record same (s : axim) (t : axim) : Prop := {
  sm_w : a_w s = a_w t; sm_r : erase (a_r s) = erase (a_r t); sm_s : a_s s = a_s t }.
Lemma same_step p s t i : same s t -> same (am_step p s i) (am_step p t i).
Proof.
  intros [W R H]. constructor; cbn [am_step a_w a_r a_s]; rewrite ?W, ?H; try reflexivity. apply erase_step. exact R.
Qed.
Lemma same_ar s t : same s t -> r_afsm (a_r s) = r_afsm (a_r t) /\ r_arready (a_r s) = r_arready (a_r t) /\
  r_valid (a_r s) = r_valid (a_r t) /\ r_last (a_r s) = r_last (a_r t) /\ r_rid (a_r s) = r_rid (a_r t).
Proof.
  intros [_ R _]. repeat split; [change (r_afsm (erase (a_r s)) = r_afsm (erase (a_r t)))|change (r_arready (erase (a_r s)) = r_arready (erase (a_r t)))
   |change (r_valid (erase (a_r s)) = r_valid (erase (a_r t)))|change (r_last (erase (a_r s)) = r_last (erase (a_r t)))
   |change (r_rid (erase (a_r s)) = r_rid (erase (a_r t)))]; rewrite R; reflexivity.
Qed.
Record obs_same (p : mp) (s t : axim) (i : axi_in) : Prop := {
  os_aw : aw_taken s i = aw_taken t i; os_w : w_taken p s i = w_taken p t i;
  os_b : b_shown s i = b_shown t i; os_bt : b_taken s i = b_taken t i;
  os_ar : ar_taken s i = ar_taken t i; os_r : r_shape s i = r_shape t i }.
Lemma same_obs p s t i : same s t -> obs_same p s t i.
Proof.
  intros H. destruct (same_ar _ _ H) as (E1 & E2 & E3 & E4 & E5). destruct H as [W _ _].
  constructor; unfold aw_taken, w_taken, b_shown, b_taken, ar_taken, r_shape, r_taken; rewrite ?W, ?E2, ?E3; try reflexivity.
  destruct (r_valid (a_r t) && i_rready i); [|reflexivity]. cbn. rewrite E4, E5. reflexivity.
Qed.

Lemma tab_ok {A} n (f : nat -> A) j : tab n f j = f j.
Proof.
  unfold tab. destruct (nth_error (map f (seq 0 n)) j) eqn:E; [|reflexivity].
  rewrite nth_error_map in E. destruct (nth_error (seq 0 n) j) as [k|] eqn:K; [|discriminate].
  injection E as <-. f_equal.
  assert (L : (j < n)%nat) by (rewrite <- (seq_length n 0); apply nth_error_Some; rewrite K; discriminate).
  apply (nth_error_nth _ _ 0%nat) in K. rewrite seq_nth in K by exact L. lia.
Qed.

Section N.
  Variable p : mp.
  Variable n : nat.

  Lemma view_step s i j : let t := am_step p (view s j) (i j) in
    a_w (view (ports_step p n s i) j) = a_w t /\ a_r (view (ports_step p n s i) j) = a_r t /\ a_s (view (ports_step p n s i) j) = a_s t.
  Proof.
    intros t. assert (E : o_port (ports_step p n s i) j = mkPort (a_w t) (a_r t) (a_s t)).
    { unfold ports_step. cbn [o_port]. rewrite tab_ok. reflexivity. }
    unfold view at 1 2 3. rewrite E. cbn [a_w a_r a_s q_w q_r q_s]. repeat split.
  Qed.
  Lemma same_view s i j t : same (am_step p (view s j) (i j)) t -> same (view (ports_step p n s i) j) t.
  Proof. destruct (view_step s i j) as (E1 & E2 & E3). intros [W R H]. constructor; rewrite ?E1, ?E2, ?E3; assumption. Qed.

  Lemma po_snoc s ins i : po_run p n s (ins ++ [i]) = ports_step p n (po_run p n s ins) i.
  Proof. unfold po_run, final. rewrite fold_left_app. reflexivity. Qed.
  Lemma po_app s a b : po_run p n s (a ++ b) = po_run p n (po_run p n s a) b.
  Proof. unfold po_run, final. apply fold_left_app. Qed.
  Lemma po_outs_app {A} (o : axim -> axi_in -> A) j s a b :
    po_outs p n o j s (a ++ b) = po_outs p n o j s a ++ po_outs p n o j (po_run p n s a) b.
  Proof. unfold po_outs. rewrite outs_app. reflexivity. Qed.
  Lemma po_seen_snoc {A} (o : axim -> axi_in -> list A) j s ins i :
    po_seen p n o j s (ins ++ [i]) = po_seen p n o j s ins ++ o (view (po_run p n s ins) j) (i j).
  Proof. unfold po_seen. rewrite po_outs_app, concat_app. cbn. rewrite app_nil_r. reflexivity. Qed.
  Lemma po_seen_app {A} (o : axim -> axi_in -> list A) j s a b :
    po_seen p n o j s (a ++ b) = po_seen p n o j s a ++ po_seen p n o j (po_run p n s a) b.
  Proof. unfold po_seen. rewrite po_outs_app, concat_app. reflexivity. Qed.

  Lemma proj j ins : forall S s, same (view S j) s -> same (view (po_run p n S ins) j) (am_run p s (col j ins)).
  Proof.
    induction ins as [|i ins IH]; intros S s H; [exact H|].
    change (po_run p n S (i :: ins)) with (po_run p n (ports_step p n S i) ins).
    change (am_run p s (col j (i :: ins))) with (am_run p (am_step p s (i j)) (col j ins)).
    apply IH. apply same_view. apply same_step. exact H.
  Qed.
  Lemma proj_outs {A} (o : axim -> axi_in -> A) (O : forall s t i, same s t -> o s i = o t i) j ins : forall S s, same (view S j) s ->
    po_outs p n o j S ins = outs (am_step p) o s (col j ins).
  Proof.
    induction ins as [|i ins IH]; intros S s H; [reflexivity|].
    cbn [po_outs outs col map]. unfold po_outs in *. cbn [outs]. f_equal; [apply O; exact H|].
    apply IH. apply same_view. apply same_step. exact H.
  Qed.
  Lemma proj_seen {A} (o : axim -> axi_in -> list A) (O : forall s t i, same s t -> o s i = o t i) j S s ins : same (view S j) s ->
    po_seen p n o j S ins = seen p o s (col j ins).
  Proof. intros H. unfold po_seen, seen. f_equal. apply proj_outs; assumption. Qed.
  Lemma proj_held {A} valid (o : axim -> axi_in -> list A) (O : forall s t i, same s t -> o s i = o t i) j S s ins : same (view S j) s ->
    po_held p n valid o j S ins ->
    forall ins1 i i' ins2, col j ins = ins1 ++ i :: i' :: ins2 ->
      valid i = true -> o (am_run p s ins1) i = [] -> valid i' = true.
  Proof.
    intros H HH ins1 i i' ins2 E V T. unfold col in E.
    apply map_eq_app in E. destruct E as (a & b & -> & <- & E).
    apply map_eq_cons in E. destruct E as (x & b1 & -> & <- & E).
    apply map_eq_cons in E. destruct E as (y & b2 & -> & <- & _).
    apply (HH a x y b2 eq_refl V). rewrite <- T. apply O. apply proj. exact H.
  Qed.
End N.

Lemma same_refl_init m1 m2 m3 m0 m0' j : same (view (ports_init m1 m2 m3 m0) j) (am_init (m1 j) (m2 j) (m3 j) m0').
Proof. constructor; reflexivity. Qed.

Definition O_aw s t i (H : same s t) := os_aw (mkMp 0 0 0 0 0 0 0 0 0 0 0 0 0 (fun _ => 0) 0) s t i (same_obs _ s t i H).
Definition O_b s t i (H : same s t) := os_b (mkMp 0 0 0 0 0 0 0 0 0 0 0 0 0 (fun _ => 0) 0) s t i (same_obs _ s t i H).
Definition O_bt s t i (H : same s t) := os_bt (mkMp 0 0 0 0 0 0 0 0 0 0 0 0 0 (fun _ => 0) 0) s t i (same_obs _ s t i H).
Definition O_ar s t i (H : same s t) := os_ar (mkMp 0 0 0 0 0 0 0 0 0 0 0 0 0 (fun _ => 0) 0) s t i (same_obs _ s t i H).
Definition O_r s t i (H : same s t) := os_r (mkMp 0 0 0 0 0 0 0 0 0 0 0 0 0 (fun _ => 0) 0) s t i (same_obs _ s t i H).
Definition O_w p s t i (H : same s t) := os_w p s t i (same_obs p s t i H).

(** ** Memory *)
Section Mem.
  Variable p : mp.
  Hypothesis G : good_mp p.
  Variable n : nat.
  Variables m1 m2 m3 : nat -> Z -> Z.
  Variable m0 : Z -> Z.
  Variable B : nat -> list wburst.
  Hypothesis LB : forall j, (j < n)%nat -> Forall (legal_burst p) (B j).
  Let s0 := ports_init m1 m2 m3 m0.
  (** the memory of port [j] alone *)
  Let g0 j := am_init (m1 j) (m2 j) (m3 j) m0.

  Lemma same0 j : same (view s0 j) (g0 j).
  Proof. apply same_refl_init. Qed.

  Definition wgood (ins : list (nat -> axi_in)) (j : nat) : Prop :=
    po_held p n has_aw aw_taken j s0 ins /\
    prefix (po_seen p n aw_taken j s0 ins) (headers (B j)) /\ prefix (po_seen p n (w_taken p) j s0 ins) (beats (B j)).
  Lemma wgood_app a b j : wgood (a ++ b) j -> wgood a j.
  Proof.
    intros (H1 & H2 & H3). repeat split.
    - intros x i i' y E. apply (H1 x i i' (y ++ b)). rewrite E, <- app_assoc. reflexivity.
    - rewrite po_seen_app in H2. exact (prefix_app _ _ _ H2).
    - rewrite po_seen_app in H3. exact (prefix_app _ _ _ H3).
  Qed.
  Lemma wgood_single ins j : wgood ins j ->
    aw_held p (g0 j) (col j ins) /\ prefix (seen p aw_taken (g0 j) (col j ins)) (headers (B j)) /\
    prefix (seen p (w_taken p) (g0 j) (col j ins)) (beats (B j)).
  Proof.
    intros (H1 & H2 & H3). rewrite (proj_seen p n _ O_aw j _ _ ins (same0 j)) in H2.
    rewrite (proj_seen p n _ (O_w p) j _ _ ins (same0 j)) in H3. split; [|auto].
    exact (proj_held p n has_aw _ O_aw j _ _ ins (same0 j) H1).
  Qed.

  (** a store at an address outside of the bursts of the port *)
  Lemma store_else ins j m x : (j < n)%nat -> wgood ins j -> (forall b, In b (B j) -> ~ covers (nbytes p) b x) ->
    port_store p (po_run p n s0 ins) m j x = m x.
  Proof using G LB.
    intros J W NC. destruct (wgood_single ins j W) as (H1 & H2 & H3).
    destruct (wrun_ok p G m0 (B j) (LB j J) (m1 j) (m2 j) (m3 j) (col j ins) H1 H2 H3) as [[_ _ (D & rest & A & Wl & _ & _ & PH)] _].
    fold (g0 j) in PH. pose proof (proj p n j ins s0 (g0 j) (same0 j)) as SM. destruct SM as [SW _ SS].
    cbn [view a_w a_s] in SW, SS. unfold port_store. rewrite SW, SS. set (g := am_run p (g0 j) (col j ins)) in *.
    unfold w_mem. destruct (w_take p (a_w g) (awake_w p (a_s g))) eqn:TK; [|reflexivity].
    destruct PH as [P1 P2 P3 P4 P5 P6 | b pre post P1 P2 P3 P4 P5 P6 P7 P8 P9 P10 P11 P12].
    - unfold w_take in TK. rewrite P1 in TK. discriminate.
    - assert (IB : In b (B j)) by (rewrite P2; apply in_or_app; right; left; reflexivity).
      pose proof (proj1 (Forall_forall _ _) (LB j J) b IB) as (L1 & L2 & L3 & _).
      destruct (nb_facts p G) as [NB _].
      assert (LE : zlen (b_beats b) = Z.of_nat (length pre) + Z.of_nat (length post)) by (unfold zlen; rewrite P3, app_length; lia).
      assert (1 <= Z.of_nat (length post)) by (destruct post; [contradiction|cbn [length]; lia]).
      unfold zlen in LE.
      unfold data_of, strb_of. rewrite store_ok; [|exact G|rewrite P12; nia|rewrite P12; nia].
      unfold put_beat. specialize (NC b IB). unfold covers, zlen in NC. rewrite P12.
      replace ((b_addr b + nbytes p * Z.of_nat (length pre) <=? x) && (x <? b_addr b + nbytes p * Z.of_nat (length pre) + nbytes p)) with false by nia.
      reflexivity.
  Qed.
  (** a store depends on the memory at its address only *)
  Lemma store_local p' g aw m m' x : m x = m' x -> w_mem p' g aw m x = w_mem p' g aw m' x.
  Proof.
    intros E. unfold w_mem. destruct (w_take p' g aw); [|exact E]. unfold mem_store.
    generalize (seq 0 (Z.to_nat (nbytes p'))). intros l. revert m m' E.
    induction l as [|k l IH]; intros m m' E; [exact E|]. cbn [fold_left]. apply IH.
    cbv zeta. destruct (Z.testbit _ _); [|exact E]. unfold mem_put, upd. destruct (_ <? _); [|exact E].
    destruct (x =? _); [reflexivity|exact E].
  Qed.

  Lemma stores ins j x l : forall m, (forall k, In k l -> (k < n)%nat /\ wgood ins k) -> NoDup l -> only_port (nbytes p) n B j x ->
    fold_left (port_store p (po_run p n s0 ins)) l m x =
    if in_dec Nat.eq_dec j l then port_store p (po_run p n s0 ins) m j x else m x.
  Proof using G LB.
    induction l as [|k l IH]; intros m W ND OP; [reflexivity|]. inversion ND as [|k' l' N1 N2]; subst.
    cbn [fold_left]. rewrite IH by (auto; intros k' I'; apply W; right; exact I').
    destruct (Nat.eq_dec k j) as [->|NE].
    - destruct (in_dec Nat.eq_dec j l) as [I1|_]; [contradiction|].
      destruct (in_dec Nat.eq_dec j (j :: l)) as [_|N3]; [reflexivity|]. exfalso. apply N3. left. reflexivity.
    - assert (E : port_store p (po_run p n s0 ins) m k x = m x).
      { destruct (W k (or_introl eq_refl)) as [K1 K2]. apply store_else; auto. intros b IB. apply (OP k b K1 NE IB). }
      destruct (in_dec Nat.eq_dec j l) as [I1|I1]; destruct (in_dec Nat.eq_dec j (k :: l)) as [I2|I2].
      + apply store_local. exact E.
      + exfalso. apply I2. right. exact I1.
      + destruct I2; [contradiction|contradiction].
      + exact E.
  Qed.

  Lemma mem_is ins j x : (j < n)%nat -> (forall k, (k < n)%nat -> wgood ins k) -> only_port (nbytes p) n B j x ->
    o_mem (po_run p n s0 ins) x = a_mem (am_run p (g0 j) (col j ins)) x.
  Proof using G LB.
    intros J W OP. induction ins as [|i ins IH] using rev_ind; [reflexivity|].
    assert (W' : forall k, (k < n)%nat -> wgood ins k) by (intros k K; apply (wgood_app ins [i]); auto).
    specialize (IH W'). rewrite po_snoc. unfold col. rewrite map_app. cbn [map]. rewrite run_snoc.
    cbn [ports_step o_mem am_step a_mem]. rewrite stores with (j := j).
    - destruct (in_dec Nat.eq_dec j (seq 0 n)) as [_|N1]; [|exfalso; apply N1; apply in_seq; lia].
      unfold port_store. destruct (proj p n j ins s0 (g0 j) (same0 j)) as [SW _ SS]. cbn [view a_w a_s] in SW, SS.
      rewrite SW, SS. apply store_local. exact IH.
    - intros k K. apply in_seq in K. split; [lia|]. apply W'. lia.
    - apply seq_NoDup.
    - exact OP.
  Qed.

  Lemma po_writes_land ins i j : (j < n)%nat -> (forall k, (k < n)%nat -> wgood ins k) ->
    exists c k,
      (forall x, only_port (nbytes p) n B j x -> o_mem (po_run p n s0 ins) x = put_part (nbytes p) (B j) c k m0 x) /\
      po_seen p n b_shown j s0 ins ++ b_shown (view (po_run p n s0 ins) j) i = map b_id (firstn c (B j)) /\
      (c <= length (B j))%nat /\
      (c + Nat.min 1 k <= length (po_seen p n aw_taken j s0 ins))%nat /\
      (length (beats (firstn c (B j))) + k <= length (po_seen p n (w_taken p) j s0 ins))%nat /\
      (k = 0%nat \/ exists b, nth_error (B j) c = Some b /\ (k < length (b_beats b))%nat).
  Proof using G LB.
    intros J W. destruct (wgood_single ins j (W j J)) as (H1 & H2 & H3).
    destruct (writes_land p G m0 (m1 j) (m2 j) (m3 j) (B j) (LB j J) (col j ins) i H1 H2 H3) as (c & k & E1 & E2 & E3 & E4 & E5 & E6).
    exists c, k. fold (g0 j) in *.
    rewrite (proj_seen p n _ O_aw j _ _ ins (same0 j)), (proj_seen p n _ (O_w p) j _ _ ins (same0 j)), (proj_seen p n _ O_b j _ _ ins (same0 j)).
    rewrite (O_b _ _ i (proj p n j ins s0 (g0 j) (same0 j))).
    split; [|auto 10]. intros x OP. rewrite (mem_is ins j x J W OP). apply E1.
  Qed.

  (** ** Reads *)
  Lemma RInv_ext q ms s t ars taken : a_r s = a_r t -> RInv q ms s ars taken -> RInv q ms t ars taken.
  Proof.
    destruct s as [sw sr ss sm], t as [tw tr ts tm]. cbn [a_r]. intros <- [F1 F2 F3 F4 (D & A & IQ & PH)].
    constructor; auto. exists D, A. split; [exact IQ|].
    destruct PH as [P1 P2 P3 P4 | a l id k P1 P2 P3 P4 P5 P6 P7 P8 P9 P10].
    - apply rp_idle; assumption.
    - apply (rp_busy _ _ _ _ _ _ _ a l id k); assumption.
  Qed.

  Lemma po_rrun j ins1 ins2 : let s1 := po_run p n s0 ins1 in
    po_held p n has_ar ar_taken j s0 (ins1 ++ ins2) -> RInv p [] (view s1 j) [] [] ->
    Forall (legal_req p (p_arid p)) (po_seen p n ar_taken j s1 ins2) ->
    RInv p (po_mems p n s1 ins2) (view (po_run p n s1 ins2) j) (po_seen p n ar_taken j s1 ins2) (po_seen p n r_taken j s1 ins2).
  Proof using G.
    intros s1 H R0. induction ins2 as [|i ins2 IH] using rev_ind; intros LQ; [exact R0|].
    assert (H' : po_held p n has_ar ar_taken j s0 (ins1 ++ ins2)).
    { intros x y y' z E. apply (H x y y' (z ++ [i])). rewrite app_assoc, E, <- app_assoc. reflexivity. }
    rewrite !po_seen_snoc in *. rewrite po_snoc. unfold po_mems. rewrite outs_app. cbn [outs].
    apply (RInv_ext p _ (am_step p (view (po_run p n s1 ins2) j) (i j)));
      [symmetry; apply view_step|].
    apply (rstep_ok p G (po_mems p n s1 ins2) (view (po_run p n s1 ins2) j)); [| |exact LQ].
    - apply IH; [exact H'|]. apply Forall_app in LQ. exact (proj1 LQ).
    - intros X. pose proof (proj p n j (ins1 ++ ins2) s0 (g0 j) (same0 j)) as SM. rewrite po_app in SM. fold s1 in SM.
      destruct (same_ar _ _ SM) as (E & _). rewrite E in X.
      rewrite app_assoc in H.
      pose proof (proj_held p n has_ar _ O_ar j _ _ _ (same0 j) H) as HS. unfold col in HS. rewrite map_app in HS. cbn [map] in HS.
      apply (ar_next p (m1 j) (m2 j) (m3 j) m0 (col j (ins1 ++ ins2)) (i j) HS X).
  Qed.

  Lemma po_reads_answered j ins1 ins2 : let s1 := po_run p n s0 ins1 in
    po_held p n has_ar ar_taken j s0 (ins1 ++ ins2) ->
    Forall (legal_req p (p_arid p)) (po_seen p n ar_taken j s0 ins1) ->
    length (po_seen p n r_taken j s0 ins1) = length (asked (nbytes p) (po_seen p n ar_taken j s0 ins1)) ->
    Forall (legal_req p (p_arid p)) (po_seen p n ar_taken j s1 ins2) ->
    let taken := po_seen p n r_taken j s1 ins2 in
    Forall2 (answered (nbytes p) (po_mems p n s1 ins2)) (firstn (length taken) (asked (nbytes p) (po_seen p n ar_taken j s1 ins2))) taken.
  Proof using G.
    intros s1 H L1 E1 L2 taken.
    assert (R0 : RInv p [] (view s0 j) [] []).
    { apply (RInv_ext p [] (g0 j)); [reflexivity|]. apply r_init_ok. exact G. }
    assert (R1 : RInv p [] (view s1 j) [] []).
    { apply (r_fresh p (po_mems p n s0 ins1) (view s1 j) (po_seen p n ar_taken j s0 ins1) (po_seen p n r_taken j s0 ins1)); auto.
      apply (po_rrun j [] ins1); [|exact R0|exact L1].
      intros x y y' z E. cbn [app] in E. apply (H x y y' (z ++ ins2)). rewrite E, <- app_assoc. reflexivity. }
    pose proof (po_rrun j ins1 ins2 H R1 L2) as R. fold s1 in R.
    destruct R as [_ _ _ _ (D & A & _ & PH)]. fold taken in PH.
    destruct PH as [P1 P2 P3 P4 | a l id k P1 P2 P3 P4 P5 P6 P7 P8 P9 P10].
    - pose proof (Forall2_len _ _ _ P4) as E. rewrite P3, asked_app, <- E, firstn_mid. exact P4.
    - rewrite P3, asked_app. change (asked (nbytes p) ((a, l, id) :: A)) with (asked1 (nbytes p) (a, l, id) ++ asked (nbytes p) A).
      apply Forall2_app_inv_r in P10. destruct P10 as (q1 & q2 & F1 & F2 & E).
      pose proof (Forall2_len _ _ _ F1) as EL.
      assert (X : exists r, asked (nbytes p) D ++ asked1 (nbytes p) (a, l, id) ++ asked (nbytes p) A = q1 ++ r).
      { exists (q2 ++ skipn k (asked1 (nbytes p) (a, l, id)) ++ asked (nbytes p) A).
        rewrite (app_assoc q1), <- E, <- app_assoc. f_equal. rewrite app_assoc, firstn_skipn. reflexivity. }
      destruct X as [r ->]. rewrite <- EL, firstn_mid. exact F1.
  Qed.

  (** ** Eager masters *)
  Lemma offer_next s t q : same s t -> t_next p s q = t_next p t q.
  Proof.
    intros H. unfold t_next. rewrite (O_aw _ _ (offer q) H), (O_w p _ _ (offer q) H), (O_ar _ _ (offer q) H). reflexivity.
  Qed.
  Lemma eagers_col c : forall S t j s, same (view S j) s -> col j (eagers p n c S t) = eager p c s (t j).
  Proof.
    induction c as [|c IH]; intros S t j s H; [reflexivity|].
    cbn [eagers col map eager]. f_equal. rewrite <- (offer_next _ _ (t j) H). unfold col in IH.
    rewrite <- (tab_ok n (fun j => t_next p (view S j) (t j)) j). apply IH.
    apply same_view. apply same_step. exact H.
  Qed.

  Lemma eager_seen_w c : forall s t, prefix (seen p aw_taken s (eager p c s t)) (t_aw t) /\ prefix (seen p (w_taken p) s (eager p c s t)) (t_w t).
  Proof.
    induction c as [|c IH]; intros s t.
    - split; [exists (t_aw t)|exists (t_w t)]; reflexivity.
    - cbn [eager]. change (seen p aw_taken s (offer t :: eager p c (am_step p s (offer t)) (t_next p s t)))
        with (aw_taken s (offer t) ++ seen p aw_taken (am_step p s (offer t)) (eager p c (am_step p s (offer t)) (t_next p s t))).
      change (seen p (w_taken p) s (offer t :: eager p c (am_step p s (offer t)) (t_next p s t)))
        with (w_taken p s (offer t) ++ seen p (w_taken p) (am_step p s (offer t)) (eager p c (am_step p s (offer t)) (t_next p s t))).
      destruct (IH (am_step p s (offer t)) (t_next p s t)) as [[r1 E1] [r2 E2]].
      destruct (after_taken _ _ _ (aw_off s t)) as (A1 & _). destruct (after_taken _ _ _ (w_off p s t)) as (A2 & _).
      split; [exists r1|exists r2]; rewrite <- app_assoc.
      + rewrite <- E1. symmetry. exact A1.
      + rewrite <- E2. symmetry. exact A2.
  Qed.
  Lemma some_next {X} (l : list X) (r : bool) : some (hd_error l) = true ->
    match hd_error l with Some x => if r then [x] else [] | None => [] end = [] -> r = false.
  Proof. destruct l; cbn; [discriminate|]. destruct r; [discriminate|reflexivity]. Qed.
  Lemma eager_held_aw c : forall s t ins1 i i' ins2, eager p c s t = ins1 ++ i :: i' :: ins2 ->
    some (i_aw i) = true -> aw_taken (am_run p s ins1) i = [] -> some (i_aw i') = true.
  Proof.
    induction c as [|c IH]; intros s t ins1 i i' ins2 E V T; [destruct ins1; discriminate|].
    cbn [eager] in E. destruct ins1 as [|x ins1].
    - injection E as E1 E2. subst i. destruct c as [|c]; [discriminate|]. cbn [eager] in E2. injection E2 as E2 _. subst i'.
      cbn [offer i_aw t_next t_aw]. change (am_run p s []) with s in T. rewrite T. unfold after. cbn [length skipn]. exact V.
    - injection E as E1 E2. subst x. exact (IH _ _ _ _ _ _ E2 V T).
  Qed.

  Lemma JR_ext ms Q s s' t ars taken : a_r s = a_r s' -> JR p ms Q s t ars taken -> JR p ms Q s' t ars taken.
  Proof. intros E [I1 I2 I3]. constructor; [exact (RInv_ext p _ _ _ _ _ E I1)|exact I2|rewrite <- E; exact I3]. Qed.

  Hypothesis WK : wakes p.

  Lemma po_live_r Q j (LQ : Forall (legal_req p (p_arid p)) Q) c : forall ms S t ars taken, JR p ms Q (view S j) (t j) ars taken -> SInv p (q_s (o_port S j)) ->
    mu_r p Q (view S j) (t j) taken <= 0 \/ (nap p + 1) * mu_r p Q (view S j) (t j) taken + zz p (q_s (o_port S j)) <= Z.of_nat c ->
    let ins := eagers p n c S t in
    exists t', JR p (ms ++ po_mems p n S ins) Q (view (po_run p n S ins) j) t' (ars ++ po_seen p n ar_taken j S ins) (taken ++ po_seen p n r_taken j S ins)
      /\ mu_r p Q (view (po_run p n S ins) j) t' (taken ++ po_seen p n r_taken j S ins) <= 0.
  Proof using G LB WK m1 m2 m3 m0.
    assert (AW : 0 <= p_aw p) by (pose proof (g_aw p G); lia).
    assert (N1 : 1 <= nap p) by (unfold nap; lia).
    induction c as [|c IH]; intros ms S t ars taken J SI H ins.
    - exists (t j). unfold ins. cbn [eagers po_run final fold_left]. unfold po_seen, po_mems, po_outs. cbn [outs concat]. rewrite !app_nil_r.
      split; [exact J|]. destruct H as [H|H]; [exact H|].
      pose proof (zz_range p (q_s (o_port S j)) SI). clear - H H0 N1. nia.
    - destruct (mur_step p G Q LQ ms (view S j) (t j) ars taken J) as [M1 M2].
      destruct (s_step_ok p AW WK (q_s (o_port S j)) SI) as [SI' ZS].
      pose proof (zz_range p (q_s (o_port S j)) SI) as Z1. pose proof (zz_range p (sleep_step p (q_s (o_port S j))) SI') as Z2.
      set (i := fun k => offer (t k)).
      set (S' := ports_step p n S i).
      assert (J2 : JR p (ms ++ [o_mem S]) Q (view S' j) (t_next p (view S j) (t j))
                 (ars ++ ar_taken (view S j) (offer (t j))) (taken ++ r_taken (view S j) (offer (t j)))).
      { apply (JR_ext _ _ (am_step p (view S j) (offer (t j)))); [symmetry; apply (view_step p n S i j)|]. apply (jr_step p G Q LQ ms (view S j)). exact J. }
      assert (ME : forall tk, mu_r p Q (view S' j) (t_next p (view S j) (t j)) tk = mu_r p Q (am_step p (view S j) (offer (t j))) (t_next p (view S j) (t j)) tk).
      { intros tk. unfold mu_r. destruct (view_step p n S i j) as (_ & E & _). fold S' in E. rewrite E. reflexivity. }
      assert (QS : q_s (o_port S' j) = sleep_step p (q_s (o_port S j))) by exact (proj2 (proj2 (view_step p n S i j))).
      destruct (IH (ms ++ [o_mem S]) S' (tab n (fun k => t_next p (view S k) (t k))) (ars ++ ar_taken (view S j) (offer (t j)))
          (taken ++ r_taken (view S j) (offer (t j)))) as (t' & J' & M').
      { rewrite tab_ok. exact J2. }
      { rewrite QS. exact SI'. }
      { rewrite tab_ok, ME, QS. clear IH J2 J. cbn [view a_s] in M2.
        destruct (Z_le_gt_dec (mu_r p Q (view S j) (t j) taken) 0) as [L|L]; [left; lia|]. destruct H as [H|H]; [lia|].
        right.
        destruct (awake_w p (q_s (o_port S j))) eqn:E.
        - rewrite awake_same in M2 by exact SI. specialize (M2 E ltac:(lia)). clear - M2 H Z1 Z2 N1. nia.
        - specialize (ZS eq_refl). clear - ZS H M1 N1. nia. }
      exists t'. repeat rewrite <- app_assoc in J'. rewrite <- app_assoc in M'. split; [exact J'|exact M'].
  Qed.

  Lemma po_served Q c j : (j < n)%nat -> (forall k, (k < n)%nat -> Forall (legal_req p (p_arid p)) (Q k)) ->
    w_time p (B j) <= Z.of_nat c -> r_time p (Q j) <= Z.of_nat c ->
    let ins := eagers p n c s0 (fun k => mkMaster (headers (B k)) (beats (B k)) (Q k)) in
    (forall x, only_port (nbytes p) n B j x -> o_mem (po_run p n s0 ins) x = put_bursts (nbytes p) (B j) m0 x) /\
    po_seen p n aw_taken j s0 ins = headers (B j) /\ po_seen p n (w_taken p) j s0 ins = beats (B j) /\
    po_seen p n b_taken j s0 ins = map b_id (B j) /\
    Forall2 (answered (nbytes p) (po_mems p n s0 ins)) (asked (nbytes p) (Q j)) (po_seen p n r_taken j s0 ins).
  Proof using G LB WK.
    intros J LQ T1 T2 ins. set (t0 := fun k => mkMaster (headers (B k)) (beats (B k)) (Q k)).
    assert (EC : forall k, col k ins = eager p c (g0 k) (t0 k)) by (intros k; apply eagers_col; apply same0).
    assert (W : forall k, (k < n)%nat -> wgood ins k).
    { intros k K. unfold wgood. rewrite (proj_seen p n _ O_aw k _ _ ins (same0 k)), (proj_seen p n _ (O_w p) k _ _ ins (same0 k)), EC.
      destruct (eager_seen_w c (g0 k) (t0 k)) as [E1 E2]. split; [|auto].
      intros a x y b E V T. pose proof (EC k) as E3. rewrite E in E3. unfold col in E3. rewrite map_app in E3. cbn [map] in E3.
      apply (eager_held_aw c (g0 k) (t0 k) (col k a) (x k) (y k) (col k b) (eq_sym E3) V).
      rewrite <- T. symmetry. apply O_aw. apply proj. apply same0. }
    destruct (w_served p G m0 (B j) (LB j J) WK (m1 j) (m2 j) (m3 j) (Q j) c T1) as (E1 & E2 & E3 & E4).
    fold (g0 j) in E1, E2, E3, E4. change (mkMaster (headers (B j)) (beats (B j)) (Q j)) with (t0 j) in *. rewrite <- EC in *.
    split; [|split; [|split; [|split]]].
    - intros x OP. rewrite (mem_is ins j x J W OP). apply E1.
    - rewrite (proj_seen p n _ O_aw j _ _ ins (same0 j)). exact E3.
    - rewrite (proj_seen p n _ (O_w p) j _ _ ins (same0 j)). exact E4.
    - rewrite (proj_seen p n _ O_bt j _ _ ins (same0 j)), EC, eager_ready, <- EC. exact E2.
    - assert (N1 : 1 <= nap p) by (unfold nap; lia).
      assert (J0 : JR p [] (Q j) (view s0 j) (t0 j) [] []).
      { apply (JR_ext _ _ (g0 j)); [reflexivity|]. constructor; [apply r_init_ok; exact G|reflexivity|]. intros X. exfalso. apply X. reflexivity. }
      destruct (po_live_r (Q j) j (LQ j J) c [] s0 t0 [] [] J0 (s_init_ok p WK)) as (t' & JJ & M).
      { right. apply (r_start p G (Q j) (LQ j J) WK (m1 j) (m2 j) (m3 j) m0 (headers (B j)) (beats (B j))) in T2. exact T2. }
      cbv zeta in JJ, M. change (eagers p n c s0 t0) with ins in JJ, M. cbn [app] in JJ, M.
      exact (r_done p G (Q j) (LQ j J) _ _ _ _ _ JJ M).
  Qed.
End Mem.
