(** C66: the scheduler of the dataflow library. *)
From Verif Require Import Base Dflow_Model Dflow_Spec Dflow_Proofs Dsched_Model Dsched_Spec Dsched_Proofs.
Open Scope nat_scope.

(** Scheduling keeps the streams of the outputs. *)
Theorem C66_streams : forall g I I' j k, legal g -> same_inputs g (renum g) I I' -> j < length (d_out g) ->
  den (schedule g) I' (nth j (d_out (schedule g)) 0) k = den g I (nth j (d_out g) 0) k.
Proof. intros. apply schedule_den; assumption. Qed.
Print Assumptions C66_streams.
(** The inputs of the schedule are the old ones, renumbered, and it has as many outputs. *)
Theorem C66_ports : forall g, legal g ->
  (forall t, t < size (schedule g) -> (node (schedule g) t = NIn <-> exists n, n < size g /\ node g n = NIn /\ t = renum g n)) /\
  (forall a b, a < size g -> b < size g -> renum g a = renum g b -> a = b) /\
  length (d_out (schedule g)) = length (d_out g).
Proof. intros g Hg. split; [intros; apply schedule_inputs; assumption|]. split; [apply renum_inj, Hg|apply schedule_outs, Hg]. Qed.
Print Assumptions C66_ports.
(** All paths from the inputs to a node take the same time, to the outputs exactly the pipeline depth. *)
Theorem C66_balanced : forall g, legal g ->
  (forall t k1 k2, path (schedule g) t k1 -> path (schedule g) t k2 -> k1 = k2) /\
  (forall t k, In t (d_out (schedule g)) -> path (schedule g) t k -> k = depth g).
Proof. intros g Hg. split; [apply schedule_path, Hg|apply schedule_out_path, Hg]. Qed.
Print Assumptions C66_balanced.
(** The pipeline depth is the latency of the longest path to an output. *)
Theorem C66_depth : forall g, legal g -> driven g -> d_out g <> [] ->
  (exists n, In n (d_out g) /\ path g n (depth g)) /\ (forall n k, In n (d_out g) -> path g n k -> k <= depth g).
Proof. exact depth_longest. Qed.
Print Assumptions C66_depth.
(** One-stage operators: the schedule has the stages that C65 needs, *)
Theorem C66_levelled : forall g, legal g -> driven g -> used g -> single g ->
  legal (schedule g) /\ driven (schedule g) /\ exists lev, levelled (schedule g) lev (depth g).
Proof. intros g Hg HD HU HS. split; [apply schedule_legal, Hg|]. split; [apply schedule_driven; assumption|apply schedule_levelled; assumption]. Qed.
Print Assumptions C66_levelled.
(** so that the circuit delivers the streams of the graph the user wrote, *)
Theorem C66_pipeline : forall g I j ins, legal g -> driven g -> used g -> single g -> j < length (d_out g) ->
  Forall (synchronous (schedule g)) ins ->
  (forall n k x, n < size g -> node g n = NIn -> nth_error (words (schedule g) (renum g n) (dinit (schedule g)) ins) k = Some x -> I n k = x) ->
  let R := received (schedule g) (nth j (d_out (schedule g)) 0) (dinit (schedule g)) ins in
  R = map (den g I (nth j (d_out g) 0)) (seq 0 (length R)).
Proof. intros g I j ins Hg. intros. apply pipeline_ok; assumption. Qed.
Print Assumptions C66_pipeline.
(** a word per cycle, the length of the longest path after the first. *)
Theorem C66_live : forall g t pre flow, legal g -> driven g -> used g -> single g -> In t (d_out (schedule g)) ->
  Forall (synchronous (schedule g)) pre -> Forall (synchronous (schedule g)) flow -> Forall (flowing (schedule g)) flow ->
  length (received (schedule g) t (dinit (schedule g)) pre) + length flow <= length (received (schedule g) t (dinit (schedule g)) (pre ++ flow)) + depth g.
Proof.
  intros g t pre flow Hg HD HU HS. destruct (C66_levelled g Hg HD HU HS) as (H1 & H2 & lev & H3). intros. eapply lock_live; eassumption.
Qed.
Print Assumptions C66_live.

(** ** A graph at work: z = (x + y) + (y + 1).prev(1) + x, and - x *)
Definition oadd : opsem := mkOp 0 [] (fun st l => (st, fold_right Z.add 0%Z l)).
Definition oneg : opsem := mkOp 0 [] (fun st l => (st, - nth 0 l 0)%Z).
Definition omul : opsem := mkOp 5 [] (fun st l => (st, nth 0 l 0 * nth 1 l 0)%Z).
Definition gx : graph := mkGraph [NIn; NIn; NConst 1; NOp oadd [0; 1]; NOp oadd [1; 2]; NPrev 4 4; NOp oadd [3; 5]; NOp oadd [6; 0]; NOp oneg [0]] [7; 8].
Definition usedb (g : graph) : bool :=
  forallb (fun n => match root g n with None => true | Some _ => existsb (Nat.eqb n) (d_out g) ||
    existsb (fun w => match node g w with NOp _ l => existsb (Nat.eqb n) l | NPrev a _ => a =? n | _ => false end) (seq 0 (size g)) end) (seq 0 (size g)).
Lemma usedb_ok g : usedb g = true -> used g.
Proof.
  intros H n Hn [u Hu]. pose proof (forallb_seq _ _ H n Hn) as G. cbv beta in G. rewrite Hu in G. apply orb_prop in G. destruct G as [G|G]; apply existsb_exists in G; destruct G as (w & W1 & W2).
  - left. apply Nat.eqb_eq in W2. subst. exact W1.
  - right. exists w. apply in_seq in W1. split; [lia|]. destruct (node g w); try discriminate.
    + apply existsb_exists in W2. destruct W2 as (x & X1 & X2). apply Nat.eqb_eq in X2. subst. exact X1.
    + apply Nat.eqb_eq in W2. exact W2.
Qed.
Example gx_ok : legal gx /\ driven gx /\ used gx /\ single gx.
Proof.
  split; [apply legalb_ok; reflexivity|]. split; [apply drivenb_ok; reflexivity|]. split; [apply usedb_ok; reflexivity|].
  intros n o l Hn E. change (n < 9) in Hn. do 9 (destruct n as [|n]; [try discriminate E; injection E as <- <-; reflexivity|]). lia.
Qed.
(** two delays of x for the last sum, two of the negation for its output *)
Example gx_schedule : depth gx = 3 /\ d_out (schedule gx) = [9; 12] /\ size (schedule gx) = 13 /\
  map (args (schedule gx)) [3; 4; 6; 7; 8; 9; 10; 11; 12] = [[0; 1]; [1; 2]; [3; 5]; [0]; [7]; [6; 8]; [0]; [10]; [11]].
Proof. vm_compute. repeat split; reflexivity. Qed.
Definition feed (x y : Z) (b : bool) : din :=
  mkDin (fun n => n <? 2) (fun n => if n =? 0 then x else y) (fun _ => b).
Definition quiet (b : bool) : din := mkDin (fun _ => false) (fun _ => 0%Z) (fun _ => b).
Definition ins_x : list din := [feed 1 10 true; quiet true; feed 2 20 false; feed 3 30 true; feed 4 40 false; feed 4 40 true; quiet true; quiet true; quiet true].
Example gx_runs : received (schedule gx) 9 (dinit (schedule gx)) ins_x = [12; 35; 57; 79; 89]%Z /\
  received (schedule gx) 12 (dinit (schedule gx)) ins_x = [-1; -2; -3; -4; -4]%Z.
Proof. vm_compute. split; reflexivity. Qed.
Example gx_sync : Forall (synchronous (schedule gx)) ins_x.
Proof. apply synchronousb_ok. vm_compute. reflexivity. Qed.
(** a multiplier of six stages beside an adder *)
Definition gm : graph := mkGraph [NIn; NIn; NOp omul [0; 1]; NOp oadd [0; 1]; NOp oadd [2; 3]] [4].
Example gm_schedule : legal gm /\ driven gm /\ depth gm = 7 /\ size (schedule gm) = 10.
Proof. split; [apply legalb_ok; reflexivity|]. split; [apply drivenb_ok; reflexivity|]. vm_compute. auto. Qed.
