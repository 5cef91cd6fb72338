(** C60: the simulated AXI memory stores what is written and returns what it stores. *)
From Verif Require Import Base Fifo_Model AxiMem_Model AxiMem_Spec AxiMem_Proofs AxiMem_Live AxiMem_Main.
Open Scope Z_scope.

(** ** Writes.  At every time the memory holds the first [n] bursts and [k] beats of the next one;
    all of these have been accepted; the responses shown so far, with the one shown now, are those of
    the first [n] bursts. *)
Theorem C60_writes_land_partial : forall p m0 m1 m2 m3 B ins i,
  let s0 := am_init m1 m2 m3 m0 in
  good_mp p -> Forall (legal_burst p) B -> aw_held p s0 ins ->
  prefix (seen p aw_taken s0 ins) (headers B) -> prefix (seen p (w_taken p) s0 ins) (beats B) ->
  exists n k,
    same_mem (a_mem (am_run p s0 ins)) (put_part (nbytes p) B n k m0) /\
    seen p b_shown s0 ins ++ b_shown (am_run p s0 ins) i = map b_id (firstn n B) /\
    (n <= length B)%nat /\
    (n + Nat.min 1 k <= length (seen p aw_taken s0 ins))%nat /\
    (length (beats (firstn n B)) + k <= length (seen p (w_taken p) s0 ins))%nat /\
    (k = 0%nat \/ exists b, nth_error B n = Some b /\ (k < length (b_beats b))%nat).
Proof. intros p m0 m1 m2 m3 B ins i s0 G LB. exact (writes_land p G m0 m1 m2 m3 B LB ins i). Qed.
Print Assumptions C60_writes_land_partial.

(** ** Reads.  From any time at which all reads have been answered: the beats returned are, in order,
    those asked for, each with its id, its last flag, and the contents of the memory at some time in
    between. *)
Theorem C60_reads_answered_partial : forall p m0 m1 m2 m3 ins1 ins2,
  let s0 := am_init m1 m2 m3 m0 in let s1 := am_run p s0 ins1 in
  good_mp p -> ar_held p s0 (ins1 ++ ins2) ->
  Forall (legal_req p (p_arid p)) (seen p ar_taken s0 ins1) ->
  length (seen p r_taken s0 ins1) = length (asked (nbytes p) (seen p ar_taken s0 ins1)) ->
  Forall (legal_req p (p_arid p)) (seen p ar_taken s1 ins2) ->
  let taken := seen p r_taken s1 ins2 in
  Forall2 (answered (nbytes p) (mems p s1 ins2)) (firstn (length taken) (asked (nbytes p) (seen p ar_taken s1 ins2))) taken.
Proof. intros p m0 m1 m2 m3 ins1 ins2 s0 s1 G. exact (reads_answered p G m0 m1 m2 m3 ins1 ins2). Qed.
Print Assumptions C60_reads_answered_partial.

(** ** After all responses, reads return what was written. *)
Theorem C60_write_then_read_partial : forall p m0 m1 m2 m3 B ins1 ins2,
  let s0 := am_init m1 m2 m3 m0 in let s1 := am_run p s0 ins1 in let ins := ins1 ++ ins2 in
  good_mp p -> Forall (legal_burst p) B -> aw_held p s0 ins -> ar_held p s0 ins ->
  prefix (seen p aw_taken s0 ins) (headers B) -> prefix (seen p (w_taken p) s0 ins) (beats B) ->
  seen p b_shown s0 ins1 = map b_id B ->
  Forall (legal_req p (p_arid p)) (seen p ar_taken s0 ins) ->
  length (seen p r_taken s0 ins1) = length (asked (nbytes p) (seen p ar_taken s0 ins1)) ->
  seen p r_taken s1 ins2 =
    map (answer (nbytes p) (put_bursts (nbytes p) B m0))
        (firstn (length (seen p r_taken s1 ins2)) (asked (nbytes p) (seen p ar_taken s1 ins2))).
Proof. intros p m0 m1 m2 m3 B ins1 ins2 s0 s1 ins G LB. exact (write_then_read p G m0 m1 m2 m3 B LB ins1 ins2). Qed.
Print Assumptions C60_write_then_read_partial.

(** ** Nothing waits for ever: with a master that is always ready everything is done in bounded time. *)
Theorem C60_everything_served_partial : forall p m0 m1 m2 m3 B Q n,
  let s0 := am_init m1 m2 m3 m0 in
  good_mp p -> wakes p -> Forall (legal_burst p) B -> Forall (legal_req p (p_arid p)) Q ->
  w_time p B <= Z.of_nat n -> r_time p Q <= Z.of_nat n ->
  let ins := eager p n s0 (mkMaster (headers B) (beats B) Q) in
  same_mem (a_mem (am_run p s0 ins)) (put_bursts (nbytes p) B m0) /\
  seen p aw_taken s0 ins = headers B /\ seen p (w_taken p) s0 ins = beats B /\
  seen p b_taken s0 ins = map b_id B /\
  Forall2 (answered (nbytes p) (mems p s0 ins)) (asked (nbytes p) Q) (seen p r_taken s0 ins).
Proof. intros p m0 m1 m2 m3 B Q n s0 G WK LB. exact (everything_served p G m0 m1 m2 m3 B LB WK Q n). Qed.
Print Assumptions C60_everything_served_partial.

(** ** Cases *)
Definition zero (_ : Z) : Z := 0.
Definition pA : mp := mkMp 16 8 8 1 2 4 2 2 2 2 2 2 2 zero 0.
Definition sA : axim := am_init zero zero zero (fun a => a).
Definition BA : list wburst := [mkB 4 1 [(513, 3); (1027, 2); (1541, 1)]; mkB 200 2 [(65535, 3)]].
Definition QA : list (Z * Z * Z) := [(4, 2, 3); (198, 1, 0)].

Lemma pA_good : good_mp pA.
Proof. constructor; cbn; try lia. exists 2. lia. Qed.
Lemma BA_legal : Forall (legal_burst pA) BA.
Proof. repeat constructor; cbn; try lia; try discriminate. Qed.
Lemma QA_legal : Forall (legal_req pA (p_arid pA)) QA.
Proof. repeat constructor; cbn; try lia; try discriminate. Qed.

(** all bursts stored, all responses and answers received *)
Example C60_served_case : good_mp pA /\ wakes pA /\ Forall (legal_burst pA) BA /\ Forall (legal_req pA (p_arid pA)) QA /\
  w_time pA BA = 81 /\ r_time pA QA = 65 /\
  let ins := eager pA 81 sA (mkMaster (headers BA) (beats BA) QA) in
  map (a_mem (am_run pA sA ins)) [3; 4; 5; 6; 7; 8; 9; 10; 199; 200; 201; 202]
    = [3; 1; 2; 6; 4; 5; 9; 10; 199; 255; 255; 202] /\
  seen pA b_taken sA ins = [1; 2] /\
  map (fun x => snd (fst x)) (seen pA r_taken sA ins) = [false; false; true; false; true].
Proof.
  split; [exact pA_good|]. split; [right; cbn; lia|]. split; [exact BA_legal|]. split; [exact QA_legal|].
  vm_compute. auto 10.
Qed.

(** writes first, reads afterwards *)
Definition insW : list axi_in := eager pA 40 sA (mkMaster (headers BA) (beats BA) []).
Definition sW : axim := am_run pA sA insW.
Definition insR : list axi_in := eager pA 30 sW (mkMaster [] [] QA).
Example C60_write_then_read_case :
  seen pA b_shown sA insW = map b_id BA /\ seen pA ar_taken sW insR = QA /\
  seen pA r_taken sW insR = [(513, false, 3); (1030, false, 3); (2309, true, 3); (199 * 256 + 198, false, 0); (65535, true, 0)] /\
  seen pA aw_taken sA (insW ++ insR) = headers BA /\ seen pA (w_taken pA) sA (insW ++ insR) = beats BA.
Proof. vm_compute. auto 10. Qed.

(** the hypotheses about held requests are met by these runs *)
Definition held_b (f : axi_in -> bool) (tk : axim -> axi_in -> bool) (p : mp) : axim -> list axi_in -> bool :=
  fix go s ins := match ins with
  | i :: ((i' :: _) as r) => implb (f i && negb (tk s i)) (f i') && go (am_step p s i) r
  | _ => true
  end.
Lemma held_b_ok {A} f (tk : axim -> axi_in -> list A) p : forall ins s,
  held_b f (fun s i => match tk s i with [] => false | _ => true end) p s ins = true ->
  forall ins1 i i' ins2, ins = ins1 ++ i :: i' :: ins2 -> f i = true -> tk (am_run p s ins1) i = [] -> f i' = true.
Proof.
  induction ins as [|j ins IH]; intros s H ins1 i i' ins2 E F T; [destruct ins1; discriminate|].
  destruct ins1 as [|j1 ins1].
  - injection E as -> ->. cbn in H, T. apply andb_prop in H. destruct H as [H _]. rewrite F in H. cbn in T.
    change (final (am_step p) s []) with s in T. rewrite T in H. exact H.
  - injection E as -> E. destruct ins as [|k ins]; [destruct ins1; discriminate|].
    cbn [held_b] in H. apply andb_prop in H. destruct H as [_ H].
    apply (IH (am_step p s j1) H ins1 i i' ins2 E F T).
Qed.
Example C60_held_case : aw_held pA sA (insW ++ insR) /\ ar_held pA sA (insW ++ insR).
Proof.
  split.
  - exact (held_b_ok (fun i => some (i_aw i)) aw_taken pA (insW ++ insR) sA ltac:(vm_compute; reflexivity)).
  - exact (held_b_ok (fun i => some (i_ar i)) ar_taken pA (insW ++ insR) sA ltac:(vm_compute; reflexivity)).
Qed.

(** ** Defects *)
(** A response is shown for one cycle only, whether or not the master is ready.  Here the master is
    not ready in that cycle, and never receives the response although it is ready ever after. *)
Definition pB : mp := mkMp 8 8 8 0 0 0 0 1 1 1 1 2 2 zero 0.
Definition insB : list axi_in :=
  repeat (mkIn (Some (5, 0, 1)) (Some (7, 1, true)) false None false) 1 ++
  repeat (mkIn (Some (5, 0, 1)) None false None false) 2 ++
  [mkIn None None true None false; mkIn None None true None false; mkIn None None false None false].
Theorem C60_response_kept_refuted : exists p ins, let s0 := am_init zero zero zero zero in
  good_mp p /\ wakes p /\ seen p aw_taken s0 ins = [(5, 0, 1)] /\ a_mem (am_run p s0 ins) 5 = 7 /\
  seen p b_shown s0 ins = [1] /\ seen p b_taken s0 ins = [] /\
  (forall n, seen p b_shown (am_run p s0 ins) (repeat (mkIn None None true None true) n) = []).
Proof.
  exists pB, insB. cbv zeta.
  split; [constructor; cbn; try lia; exists 1; lia|]. split; [left; cbn; lia|].
  split; [vm_compute; reflexivity|]. split; [vm_compute; reflexivity|].
  split; [vm_compute; reflexivity|]. split; [vm_compute; reflexivity|].
  assert (X : forall n s, w_bvalid (a_w s) = false -> w_dfsm (a_w s) = 0 -> f_head (w_rq (a_w s)) = f_tail (w_rq (a_w s)) ->
     w_afsm (a_w s) = 0 ->
     seen pB b_shown s (repeat (mkIn None None true None true) n) = []).
  { induction n as [|n IH]; intros s E1 E2 E3 E4; [reflexivity|]. cbn [repeat].
    change (seen pB b_shown s (mkIn None None true None true :: repeat (mkIn None None true None true) n))
      with (b_shown s (mkIn None None true None true) ++ seen pB b_shown (am_step pB s (mkIn None None true None true)) (repeat (mkIn None None true None true) n)).
    assert (PE : p_empty (w_rq (a_w s)) = true) by (unfold p_empty, f_is_empty; rewrite E3; apply Z.eqb_refl).
    rewrite IH.
    - unfold b_shown. rewrite E1. reflexivity.
    - cbn [am_step a_w w_step w_bvalid]. rewrite E2. reflexivity.
    - cbn [am_step a_w w_step w_dfsm]. rewrite E2, PE. reflexivity.
    - cbn [am_step a_w w_step w_rq]. unfold wrq_in, enq_rtl, deq_rtl, aw_hs. cbn [i_aw some andb]. rewrite andb_false_r, E2, PE.
      cbn. exact E3.
    - cbn [am_step a_w w_step w_afsm]. rewrite E4. reflexivity. }
  intros n. apply X; vm_compute; reflexivity.
Qed.
Print Assumptions C60_response_kept_refuted.

(** With a sleep interval of one cycle the memory sleeps for ever: nothing is stored or returned. *)
Theorem C60_short_sleep_refuted : forall p m0 m1 m2 m3 ins, p_sleep p = 1 ->
  let s0 := am_init m1 m2 m3 m0 in
  a_mem (am_run p s0 ins) = m0 /\ seen p b_shown s0 ins = [] /\ seen p r_taken s0 ins = [].
Proof. intros p m0 m1 m2 m3 ins H s0. apply (never_awake p ins H s0); reflexivity. Qed.
Print Assumptions C60_short_sleep_refuted.

(** Read requests are stored with the id width of writes: if ids of reads are wider, bits of the
    address are lost, and different addresses get the same answers. *)
Definition pC (x : Z) : mp := mkMp 8 8 8 0 0 0 0 0 0 1 1 2 2 zero x.
Definition ask (a : Z) : list axi_in := repeat (mkIn None None false (Some (a, 0, 1)) true) 3.
Theorem C60_wide_read_id_refuted : forall x ins, let s0 := am_init zero zero zero (fun a => a) in
  legal_req (pC x) (p_arid (pC x)) (0, 0, 1) /\ legal_req (pC x) (p_arid (pC x)) (128, 0, 1) /\
  seen (pC x) ar_taken s0 (ask 0) = [(0, 0, 1)] /\ seen (pC x) ar_taken s0 (ask 128) = [(128, 0, 1)] /\
  seen (pC x) r_taken s0 (ask 0 ++ ins) = seen (pC x) r_taken s0 (ask 128 ++ ins) /\
  answer 1 (fun a => a) (0, true, 1) <> answer 1 (fun a => a) (128, true, 1).
Proof.
  intros x ins s0. split; [cbn; lia|]. split; [cbn; lia|]. split; [reflexivity|]. split; [reflexivity|].
  split; [|discriminate].
  rewrite !seen_app.
  assert (E : am_run (pC x) s0 (ask 0) = am_run (pC x) s0 (ask 128)) by (vm_compute; reflexivity).
  rewrite E. reflexivity.
Qed.
Print Assumptions C60_wide_read_id_refuted.
