(** C49: the handshake of pipeline stages. *)
From Verif Require Import Base Pipe_Model Pipe_Spec Pipe_Proofs.
Open Scope nat_scope.

(** The premises of the theorems: a proper program, with outputs, and its net. *)
Definition built (cs : list cmd) (outs : list (nat * option nat)) (ids os : list nat) (s : pl) : Prop :=
  proper 0 cs /\ Forall (fun o => fst o < length cs) outs /\ whole cs outs = (ids, os, s).
Definition handshake (cs : list cmd) : Prop := inputs_are (fun v => v = true) (fun r => r = true) cs.
Lemma built_wf cs outs ids os s : built cs outs ids os s -> handshake cs -> wfn hs true s.
Proof.
  intros (P & O & W) H. exact (proj1 (whole_ok hs true cs outs ids os s (proper_ok hs true 0 cs P H (or_introl eq_refl)) O W
    (fun _ (_ : list Z) => 0%Z) (fun _ z => z) int_const (fun _ _ => 0%Z))).
Qed.

(** Every cycle has exactly one solution of the ready wires: they have no combinational loop. *)
Theorem C49_wires cs outs ids os s x i : built cs outs ids os s -> handshake cs ->
  (exists rd, wires s x i rd) /\ forall rd rd', wires s x i rd -> wires s x i rd' -> forall v, rd v = rd' v.
Proof.
  intros B H. pose proof (built_wf _ _ _ _ _ B H) as W. split; [exact (wires_exist hs true s W x i)|exact (wires_unique hs true s W x i)].
Qed.
Print Assumptions C49_wires.

(** Along any run in which the variables read by one register are ready together: if the inputs have
    accepted the first elements of [ins], then every variable of the program and every output has
    passed on the first elements of the stream it stands for. *)
Theorem C49_lossless_partial sem semu cs outs ids os s tr (ins : nat -> stream Z) : built cs outs ids os s -> handshake cs ->
  legal sem semu s (start s) tr -> always sem semu s (fun _ _ rd => together s rd) (start s) tr ->
  (forall v, v < length (nodes s) -> is_input s v = true -> first_of (ins v) (passed sem semu s v (start s) tr)) ->
  let ms := meaning sem semu int_const cs (fun u => ins (nth u ids 0)) [] in
  (forall u, u < length cs -> first_of (fun k => element int_const ms k u) (passed sem semu s (nth u ids 0) (start s) tr)) /\
  Forall2 (fun o v => first_of (fun k => element int_const ms k (fst o)) (passed sem semu s v (start s) tr)) outs os.
Proof.
  intros (P & O & W) H L T F ms.
  destruct (whole_ok hs true cs outs ids os s (proper_ok hs true 0 cs P H (or_introl eq_refl)) O W sem semu int_const ins) as (WF & LI & R & FO).
  destruct (run_inv true s WF sem semu ins tr (start s) (fun _ => 0) L T (inv_start _ _ _ _)) as [_ D].
  { intros u UL UN. apply F; [exact UL|]. unfold is_input. rewrite UN. reflexivity. }
  destruct R as (_ & _ & LT & ST). fold ms in ST, FO. split.
  - intros u UL. rewrite <- LI in UL. unfold first_of. rewrite (D (nth u ids 0)) at 1 by (apply LT, nth_In, UL).
    apply map_ext. intros k. apply ST, UL.
  - clear - D FO. induction FO as [|o v outs os [[VL _] Q] _ IH]; constructor; [|exact IH].
    unfold first_of. rewrite (D v VL) at 1. apply map_ext. exact Q.
Qed.
Print Assumptions C49_lossless_partial.

(** A register holds what its sources have passed on and it has not; so no element is lost or doubled,
    and between [u] and [v] there are at most as many elements as stages. *)
Theorem C49_counts_partial sem semu cs outs ids os s tr : built cs outs ids os s -> handshake cs ->
  legal sem semu s (start s) tr -> always sem semu s (fun _ _ rd => together s rd) (start s) tr ->
  (forall j r v, nreg (get s j) = Some r -> In v (vars (rdata r)) ->
    length (passed sem semu s v (start s) tr) = length (passed sem semu s j (start s) tr) + Nat.b2n (vld (after sem semu s (start s) tr) j)) /\
  (forall u v a b, feeds s u v -> nstage (get s u) = Some a -> nstage (get s v) = Some b ->
    length (passed sem semu s v (start s) tr) <= length (passed sem semu s u (start s) tr) <= length (passed sem semu s v (start s) tr) + (b - a)).
Proof.
  intros B H L T. pose proof (built_wf _ _ _ _ _ B H) as W. split.
  - intros j r v. exact (count_reg sem semu true s W tr L T j r v).
  - intros u v a b F SA SB. destruct (count_feeds sem semu true s W tr L T u v a b F SA SB) as (_ & X). exact X.
Qed.
Print Assumptions C49_counts_partial.

(** The condition holds in any environment if no expression has two different variables. *)
Theorem C49_single sem semu cs outs ids os s tr : built cs outs ids os s -> handshake cs -> single_program cs ->
  legal sem semu s (start s) tr -> always sem semu s (fun _ _ rd => together s rd) (start s) tr.
Proof.
  intros B H SP. pose proof (built_wf _ _ _ _ _ B H) as WF.
  assert (U : uniform s).
  { apply (single_uniform true s WF). destruct B as (P & O & W). unfold whole, build in W. pose proof (proper_ok hs true 0 cs P H (or_introl eq_refl)) as CO.
    assert (S0 : single new_pl) by (intros [|j] r E; discriminate).
    pose proof (build_single true (fun _ (_ : list Z) => 0%Z) (fun _ z => z) int_const (fun _ _ => 0%Z) cs [] new_pl [] [] (empty_wf hs true) (empty_rel _ _ _ _) CO SP S0) as S1.
    destruct (fold_left (fun p c => exec c p) cs ([], new_pl)) as [ids' s1]. pose proof (outputs_single ids' outs s1 [] S1) as S2. unfold make_outputs in W.
    destruct (fold_left _ outs ([], s1)) as [os' s2]. injection W as _ _ <-. exact S2. }
  generalize (start s). induction tr as [|[i rd] tr IH]; intros x; cbn [legal always]; [auto|]. intros [A L]. split; [exact (uniform_together s x i rd U A)|apply IH, L].
Qed.
Print Assumptions C49_single.

(** It holds if all inputs are valid together, all outputs are ready together and the net has no
    dead ends; then every valid variable moves on as soon as the outputs are ready. *)
Theorem C49_in_step sem semu cs outs ids os s M tr : built cs outs ids os s -> handshake cs -> tight s M ->
  legal sem semu s (start s) tr -> always sem semu s (fun _ i _ => in_step s i) (start s) tr ->
  always sem semu s (fun _ _ rd => together s rd) (start s) tr /\
  forall i rd v, wires s (after sem semu s (start s) tr) i rd -> in_step s i -> (forall k, ordy i k = true) -> v < length (nodes s) ->
    valid s (after sem semu s (start s) tr) i v = true -> rd v = true.
Proof.
  intros B H T L A. pose proof (built_wf _ _ _ _ _ B H) as W. split.
  - exact (proj1 (in_step_together sem semu true s W M T tr (start s) _ (start_staged s) L A)).
  - intros i rd v WI ST O VL V. exact (progress sem semu true s W M T tr i rd v L A WI ST O VL V).
Qed.
Print Assumptions C49_in_step.

(** Programs whose nets have no dead ends: each argument of an operator is of one stage, every variable
    is used, and there are no accumulators. *)
Theorem C49_no_dead_ends cs outs ids os s : built cs outs ids os s -> handshake cs -> no_acc cs -> flat_program cs -> used cs outs ->
  Forall (fun o => snd o <> None) outs -> exists M, tight s M.
Proof.
  intros (P & O & W) H NA FL US ON. exists (maxst s). apply (flat_tight cs outs ids os s P H NA FL US); [|exact W].
  rewrite Forall_forall in *. intros o I. auto.
Qed.
Print Assumptions C49_no_dead_ends.

(** Without ready a variable of stage [m] shows in cycle [t + m] what it stands for in cycle [t]
    (nothing, if a valid signal was 0), and all outputs have the same delay. *)
Theorem C49_delay sem semu cs outs ids os s e : built cs outs ids os s -> inputs_are (fun _ => True) (fun r => r = false) cs -> no_acc cs ->
  let sees t v := shows s (at_cycle sem semu s e t) (fst (e t)) v in
  let ms := meaning (lift sem) (liftu semu) Some cs (fun u t => sees t (nth u ids 0)) [] in
  (forall t u, u < length cs -> sees (t + nth u (levels cs []) 0) (nth u ids 0) = element Some ms t u) /\
  exists M, forall t, Forall2 (fun o v => sees (t + M) v = element Some ms t (fst o)) outs os.
Proof.
  intros (P & O & W) H NA sees ms.
  assert (H' : Forall (fun c => match c with Input v r => no_rdy v r | _ => True end) cs).
  { unfold inputs_are in H. rewrite Forall_forall in *. intros c I. specialize (H c I). destruct c; [exact (proj2 H)|exact Logic.I|exact Logic.I]. }
  destruct (whole_ok no_rdy false cs outs ids os s (proper_ok no_rdy false 0 cs P H' (or_intror NA)) O W (lift sem) (liftu semu) Some (fun v t => sees t v)) as (WF & LI & R & FO).
  destruct R as ((_ & SG) & _ & LT & ST). fold ms in ST, FO. split.
  - intros t u UL. rewrite <- LI in UL. rewrite <- (ST u t UL). apply (sees_stage sem semu s WF e); [apply LT, nth_In, UL|apply SG, UL].
  - exists (maxst s). intros t.
    assert (LM : Forall (fun o => nth (fst o) (levels cs []) 0 <= maxst s) outs).
    { rewrite Forall_forall in *. intros o I. specialize (O o I). rewrite <- LI in O. exact (wf_max _ _ _ WF eq_refl _ _ (SG _ O)). }
    clear - FO WF LM. induction FO as [|o v outs os [[VL K] Q] _ IH]; constructor.
    + rewrite <- Q. apply (sees_stage sem semu s WF e); [exact VL|]. rewrite K. f_equal. apply Forall_cons_iff in LM as [A _]. lia.
    + apply IH. apply Forall_cons_iff in LM as [_ B]. exact B.
Qed.
Print Assumptions C49_delay.

(** ** Examples *)
Definition add (o : nat) (l : list Z) : Z := fold_right Z.add 0%Z l.
Definition neg (o : nat) (z : Z) : Z := Z.opp z.
Definition xin := Input true true.
(** two inputs, their sum, the sum and a delayed input, everything in step *)
Definition cs1 := [xin; xin; Stage (POp 0 [PVar 0; PVar 1]) 0; Stage (POp 0 [PVar 2; PVar 0; PInt 100]) 0].
Definition outs1 := [(3, Some 0); (2, Some 0)].
Definition s1 := Eval vm_compute in snd (whole cs1 outs1).
Definition drv (x y : Z) (v r : bool) : drive := mkD (fun u => if u =? 0 then x else y) (fun _ => v) (fun _ => r).
Definition ds1 := [drv 1 10 true true; drv 2 20 true true; drv 0 0 false true; drv 3 30 true false; drv 4 40 true false;
                   drv 4 40 true true; drv 5 50 true true; drv 6 60 true true; drv 0 0 false true].
Lemma built1 : exists ids os, built cs1 outs1 ids os s1 /\ os = [4; 5].
Proof.
  exists [0; 1; 2; 4], [4; 5]. split; [|reflexivity]. split; [|split; [|vm_compute; reflexivity]].
  - cbn. repeat split; try discriminate; repeat (apply Forall_cons; [cbn; lia|]); apply Forall_nil.
  - repeat (apply Forall_cons; [cbn; lia|]); apply Forall_nil.
Qed.
Lemma hand1 : handshake cs1.
Proof. repeat constructor. Qed.
Example ex_flat : no_acc cs1 /\ flat_program cs1 /\ used cs1 outs1.
Proof.
  split; [repeat constructor|]. split.
  - repeat constructor; cbn; intros a I; repeat (destruct I as [<-|I]); try contradiction; intros u w; cbn; intros A B; repeat (destruct A as [<-|A]); repeat (destruct B as [<-|B]); try contradiction; reflexivity.
  - intros u L. cbn in L. destruct u as [|[|[|[|u]]]]; [left|left|left|right|lia].
    + exists (Stage (POp 0 [PVar 0; PVar 1]) 0). cbn. tauto.
    + exists (Stage (POp 0 [PVar 0; PVar 1]) 0). cbn. tauto.
    + exists (Stage (POp 0 [PVar 2; PVar 0; PInt 100]) 0). cbn. tauto.
    + exists 0. cbn. tauto.
Qed.
Example ex_run : legal add neg s1 (start s1) (sim add neg s1 (start s1) ds1) /\
  always add neg s1 (fun _ i _ => in_step s1 i) (start s1) (sim add neg s1 (start s1) ds1) /\
  passed add neg s1 4 (start s1) (sim add neg s1 (start s1) ds1) = [112; 124; 136; 148; 160]%Z /\
  passed add neg s1 5 (start s1) (sim add neg s1 (start s1) ds1) = [11; 22; 33; 44; 55]%Z /\
  passed add neg s1 0 (start s1) (sim add neg s1 (start s1) ds1) = [1; 2; 3; 4; 5; 6]%Z.
Proof.
  destruct built1 as (ids & os & B & _). pose proof (built_wf _ _ _ _ _ B hand1) as W. pose proof (start_small s1) as SM.
  split; [exact (sim_legal add neg s1 hs true W ds1 _ SM)|]. split; [|split; [|split]].
  - apply sim_always. repeat constructor.
  - rewrite sim_passed_eq by exact SM. vm_compute. reflexivity.
  - rewrite sim_passed_eq by exact SM. vm_compute. reflexivity.
  - rewrite sim_passed_eq by exact SM. vm_compute. reflexivity.
Qed.

(** an accumulator before the last stage; accumulating and doubling *)
Definition cs2 := [xin; Acc (PVar 0) [ABin 0] 7; Stage (POp 0 [PVar 1; PVar 1]) 0].
Definition s2 := Eval vm_compute in snd (whole cs2 [(2, Some 0)]).
Lemma built2 : built cs2 [(2, Some 0)] [0; 1; 2] [2] s2.
Proof.
  split; [|split; [|vm_compute; reflexivity]].
  - cbn. repeat split; try discriminate; repeat (apply Forall_cons; [cbn; lia|]); apply Forall_nil.
  - repeat (apply Forall_cons; [cbn; lia|]); apply Forall_nil.
Qed.
Lemma hand2 : handshake cs2.
Proof. repeat constructor. Qed.
Example ex_acc : single_program cs2 /\ tight s2 2 /\ legal add neg s2 (start s2) (sim add neg s2 (start s2) ds1) /\
  passed add neg s2 2 (start s2) (sim add neg s2 (start s2) ds1) = [16; 20; 26; 34; 44]%Z.
Proof.
  pose proof (built_wf _ _ _ _ _ built2 hand2) as W. pose proof (start_small s2) as SM. split; [|split; [|split]].
  - repeat constructor; intros u w A B; cbn in A, B; intuition congruence.
  - apply tightb_ok; [exact (wf_lt _ _ _ W)|vm_compute; reflexivity].
  - exact (sim_legal add neg s2 hs true W ds1 _ SM).
  - rewrite sim_passed_eq by exact SM. vm_compute. reflexivity.
Qed.
(** without ready: one input with a valid signal, one without *)
Definition cs3 := [Input true false; Input false false; Stage (POp 0 [PVar 0; PVar 1]) 0; Stage (POp 0 [PVar 2; PVar 1]) 0].
Definition s3 := Eval vm_compute in snd (whole cs3 [(2, None); (3, None)]).
Lemma built3 : built cs3 [(2, None); (3, None)] [0; 1; 2; 4] [5; 4] s3.
Proof.
  split; [|split; [|vm_compute; reflexivity]].
  - cbn. repeat split; try discriminate; repeat (apply Forall_cons; [cbn; lia|]); apply Forall_nil.
  - repeat (apply Forall_cons; [cbn; lia|]); apply Forall_nil.
Qed.
Definition e3 (t : nat) : drive * (nat -> bool) :=
  (mkD (fun u => if u =? 0 then Z.of_nat t else 10%Z) (fun _ => negb (t =? 1)) (fun _ => false), fun _ => true).
Example ex_delay : inputs_are (fun _ => True) (fun r => r = false) cs3 /\ no_acc cs3 /\
  map (fun t => shows s3 (at_cycle add neg s3 e3 t) (fst (e3 t)) 4) [0; 1; 2; 3; 4] = [None; None; Some 20; None; Some 22]%Z /\
  map (fun t => shows s3 (at_cycle add neg s3 e3 t) (fst (e3 t)) 5) [0; 1; 2; 3; 4] = [None; None; Some 10; None; Some 12]%Z.
Proof. split; [repeat constructor|]. split; [repeat constructor|]. vm_compute. auto. Qed.

(** ** Where the property fails *)
(** A join and a fork: [p] is the sum of [x] and [y], [q] a copy of [y].  While [q]'s output is not
    ready, [y] waits but [x] does not: its element is accepted and lost. *)
Definition cs4 := [xin; xin; Stage (POp 0 [PVar 0; PVar 1]) 0; Stage (PVar 1) 0].
Definition outs4 := [(2, Some 0); (3, Some 1)].
Definition s4 := Eval vm_compute in snd (whole cs4 outs4).
Lemma built4 : built cs4 outs4 [0; 1; 2; 3] [2; 3] s4.
Proof.
  split; [|split; [|vm_compute; reflexivity]].
  - cbn. repeat split; try discriminate; repeat (apply Forall_cons; [cbn; lia|]); apply Forall_nil.
  - repeat (apply Forall_cons; [cbn; lia|]); apply Forall_nil.
Qed.
Lemma hand4 : handshake cs4.
Proof. repeat constructor. Qed.
Definition drv4 (x y : Z) (r0 r1 : bool) : drive := mkD (fun u => if u =? 0 then x else y) (fun _ => true) (fun k => if k =? 0 then r0 else r1).
Definition ds4 := [drv4 1 10 true true; drv4 2 20 true false; drv4 3 20 true true; drv4 4 30 true true].
Theorem C49_join_fork_refuted : exists cs outs ids os s tr, built cs outs ids os s /\ handshake cs /\ legal add neg s (start s) tr /\
  passed add neg s 0 (start s) tr = [1; 2; 3; 4]%Z /\ passed add neg s 1 (start s) tr = [10; 20; 30]%Z /\
  nth 2 cs xin = Stage (POp 0 [PVar 0; PVar 1]) 0 /\ passed add neg s (nth 2 ids 0) (start s) tr = [11; 23]%Z.
Proof.
  pose proof (built_wf _ _ _ _ _ built4 hand4) as W. pose proof (start_small s4) as SM.
  exists cs4, outs4, [0; 1; 2; 3], [2; 3], s4, (sim add neg s4 (start s4) ds4).
  split; [exact built4|]. split; [exact hand4|]. split; [exact (sim_legal add neg s4 hs true W ds4 _ SM)|].
  cbn [nth]. rewrite !sim_passed_eq by exact SM. vm_compute. auto.
Qed.
Print Assumptions C49_join_fork_refuted.

(** Nested expressions over several stages: [pack] visits the arguments twice and leaves unused
    registers behind.  With one input and one output, all in step, one cycle in which the output is
    not ready stops the pipeline for ever: the input is never ready again. *)
Definition cs5 := [xin; Stage (PVar 0) 0; Stage (PVar 1) 0; Stage (POp 0 [POp 0 [POp 0 [PVar 0; PVar 1]; PVar 2]; PVar 2]) 0].
Definition s5 := Eval vm_compute in snd (whole cs5 [(3, Some 0)]).
Lemma built5 : built cs5 [(3, Some 0)] [0; 1; 2; 9] [9] s5.
Proof.
  split; [|split; [|vm_compute; reflexivity]].
  - cbn. repeat split; try discriminate; repeat (apply Forall_cons; [cbn; lia|]); apply Forall_nil.
  - repeat (apply Forall_cons; [cbn; lia|]); apply Forall_nil.
Qed.
Lemma hand5 : handshake cs5.
Proof. repeat constructor. Qed.
Lemma stuck5 tr : forall x, vld x 1 = true -> vld x 4 = false -> legal add neg s5 x tr -> passed add neg s5 0 x tr = [].
Proof.
  induction tr as [|[i rd] tr IH]; intros x A B; cbn [legal passed]; [reflexivity|]. intros [W L].
  assert (R1 : rd 1 = false).
  { rewrite (W 1). destruct (forallb _ _) eqn:F; [|reflexivity]. rewrite forallb_forall in F. specialize (F (COrdy 5) ltac:(vm_compute; tauto)).
    cbn [holds] in F. apply andb_true_iff in F as [_ F]. change (nreg (get s5 5)) with (Some (mkR (POp 0 [PVar 4; PVar 1]) [4; 1] [4; 1] 0 [])) in F.
    cbn [vin rvalid forallb] in F. unfold vin in F. cbn [rvalid forallb] in F. change (valid s5 x i 4) with (vld x 4) in F. rewrite B in F. discriminate. }
  assert (R0 : rd 0 = false).
  { rewrite (W 0). destruct (forallb _ _) eqn:F; [|reflexivity]. rewrite forallb_forall in F. specialize (F (COrdy 1) ltac:(vm_compute; tauto)).
    cbn [holds] in F. apply andb_true_iff in F as [F _]. unfold free in F. rewrite R1, A in F. discriminate. }
  rewrite R0, andb_false_r. cbn [app]. apply IH.
  - unfold next. cbn [vld]. change (nreg (get s5 1)) with (Some (mkR (PVar 0) [0] [0] 0 [])). change (nvalid (get s5 1)) with true. change (nready (get s5 1)) with true.
    cbn [all_ready rready forallb]. unfold all_ready. cbn [rready forallb]. rewrite R0, R1, A. reflexivity.
  - unfold next. cbn [vld]. change (nreg (get s5 4)) with (Some (mkR (PVar 0) [0] [0] 0 [])). change (nvalid (get s5 4)) with true. change (nready (get s5 4)) with true.
    unfold all_ready. cbn [rready forallb]. rewrite R0, B. reflexivity.
  - exact L.
Qed.
Definition ds5 := [drv 1 1 true true; drv 2 2 true true; drv 3 3 true true; drv 4 4 true true; drv 5 5 true false].
Lemma app_legal s tr : forall x tr', legal add neg s x (tr ++ tr') -> legal add neg s (after add neg s x tr) tr'.
Proof. induction tr as [|[i rd] tr IH]; intros x tr'; cbn [app legal after]; [auto|]. intros [_ L]. apply IH, L. Qed.
Lemma app_passed s v tr : forall x tr', passed add neg s v x (tr ++ tr') = passed add neg s v x tr ++ passed add neg s v (after add neg s x tr) tr'.
Proof. induction tr as [|[i rd] tr IH]; intros x tr'; cbn [app passed after]; [reflexivity|]. rewrite IH. apply app_assoc. Qed.
Theorem C49_nested_refuted : exists cs outs ids os s tr, built cs outs ids os s /\ handshake cs /\
  legal add neg s (start s) tr /\ always add neg s (fun _ i _ => in_step s i) (start s) tr /\
  forall tr', legal add neg s (start s) (tr ++ tr') -> passed add neg s (nth 0 ids 0) (start s) (tr ++ tr') = [1; 2; 3; 4]%Z.
Proof.
  pose proof (built_wf _ _ _ _ _ built5 hand5) as W. pose proof (start_small s5) as SM.
  exists cs5, [(3, Some 0)], [0; 1; 2; 9], [9], s5, (sim add neg s5 (start s5) ds5).
  split; [exact built5|]. split; [exact hand5|]. split; [exact (sim_legal add neg s5 hs true W ds5 _ SM)|]. split; [apply sim_always; repeat constructor|].
  intros tr' L. cbn [nth]. rewrite app_passed, (stuck5 tr').
  - rewrite app_nil_r, sim_passed_eq by exact SM. vm_compute. reflexivity.
  - rewrite (proj2 (sim_state_eq add neg s5 ds5 (start s5) SM 1)). vm_compute. reflexivity.
  - rewrite (proj2 (sim_state_eq add neg s5 ds5 (start s5) SM 4)). vm_compute. reflexivity.
  - apply app_legal, L.
Qed.
Print Assumptions C49_nested_refuted.

(** Unary operators are dropped: the stage of [-x] passes on [x]. *)
Theorem C49_unary_refuted : exists s tr, whole [xin; Stage (PUn 0 (PVar 0)) 0] [(1, Some 0)] = ([0; 1], [1], s) /\ legal add neg s (start s) tr /\
  passed add neg s 0 (start s) tr = [5; 6]%Z /\ passed add neg s 1 (start s) tr = [5]%Z.
Proof.
  assert (B : built [xin; Stage (PVar 0) 0] [(1, Some 0)] [0; 1] [1] (snd (whole [xin; Stage (PVar 0) 0] [(1, Some 0)]))).
  { split; [|split; [|vm_compute; reflexivity]].
    - cbn. repeat split; try discriminate; repeat (apply Forall_cons; [cbn; lia|]); apply Forall_nil.
    - repeat (apply Forall_cons; [cbn; lia|]); apply Forall_nil. }
  assert (H : handshake [xin; Stage (PVar 0) 0]) by repeat constructor. pose proof (built_wf _ _ _ _ _ B H) as W.
  set (s := snd _) in *. pose proof (start_small s) as SM. exists s, (sim add neg s (start s) [drv 5 0 true true; drv 6 0 true true]).
  split; [vm_compute; reflexivity|]. split; [exact (sim_legal add neg s hs true W _ _ SM)|].
  rewrite !sim_passed_eq by exact SM. vm_compute. auto.
Qed.
Print Assumptions C49_unary_refuted.
