(** C62: the ports of the simulated memory do not disturb each other. *)
From Verif Require Import Base AxiMem_Model AxiMem_Spec AxiMem_Proofs AxiMem_Live AxiMem_Main AxiPorts_Model AxiPorts_Spec AxiPorts_Proofs.
Open Scope Z_scope.

(** ** In every cycle the handshakes at a port, the ids and last flags are those of a memory with this
    port alone, whatever its contents. *)
Theorem C62_ports_independent : forall p n m1 m2 m3 m0 m ins j,
  let s0 := ports_init m1 m2 m3 m0 in let g0 := am_init (m1 j) (m2 j) (m3 j) m in
  po_outs p n aw_taken j s0 ins = outs (am_step p) aw_taken g0 (col j ins) /\
  po_outs p n (w_taken p) j s0 ins = outs (am_step p) (w_taken p) g0 (col j ins) /\
  po_outs p n b_shown j s0 ins = outs (am_step p) b_shown g0 (col j ins) /\
  po_outs p n b_taken j s0 ins = outs (am_step p) b_taken g0 (col j ins) /\
  po_outs p n ar_taken j s0 ins = outs (am_step p) ar_taken g0 (col j ins) /\
  po_outs p n r_shape j s0 ins = outs (am_step p) r_shape g0 (col j ins).
Proof.
  intros p n m1 m2 m3 m0 m ins j s0 g0. pose proof (same_refl_init m1 m2 m3 m0 m j) as H.
  repeat split; (apply proj_outs; [|exact H]); [exact O_aw|exact (O_w p)|exact O_b|exact O_bt|exact O_ar|exact O_r].
Qed.
Print Assumptions C62_ports_independent.

(** ** Writes: at addresses that no other port writes, the memory holds the first [c] bursts of the
    port and [k] beats of the next one; responses as in C60. *)
Theorem C62_writes_land_partial : forall p n m1 m2 m3 m0 B ins i j,
  let s0 := ports_init m1 m2 m3 m0 in
  good_mp p -> (forall k, (k < n)%nat -> Forall (legal_burst p) (B k)) -> (j < n)%nat ->
  (forall k, (k < n)%nat ->
     po_held p n has_aw aw_taken k s0 ins /\
     prefix (po_seen p n aw_taken k s0 ins) (headers (B k)) /\ prefix (po_seen p n (w_taken p) k s0 ins) (beats (B k))) ->
  exists c k,
    (forall x, only_port (nbytes p) n B j x -> o_mem (po_run p n s0 ins) x = put_part (nbytes p) (B j) c k m0 x) /\
    po_seen p n b_shown j s0 ins ++ b_shown (view (po_run p n s0 ins) j) i = map b_id (firstn c (B j)) /\
    (c <= length (B j))%nat /\
    (c + Nat.min 1 k <= length (po_seen p n aw_taken j s0 ins))%nat /\
    (length (beats (firstn c (B j))) + k <= length (po_seen p n (w_taken p) j s0 ins))%nat /\
    (k = 0%nat \/ exists b, nth_error (B j) c = Some b /\ (k < length (b_beats b))%nat).
Proof. intros p n m1 m2 m3 m0 B ins i j s0 G LB J W. exact (po_writes_land p G n m1 m2 m3 m0 B LB ins i j J W). Qed.
Print Assumptions C62_writes_land_partial.

(** ** Reads: as in C60, with the contents of the shared memory. *)
Theorem C62_reads_answered_partial : forall p n m1 m2 m3 m0 ins1 ins2 j,
  let s0 := ports_init m1 m2 m3 m0 in let s1 := po_run p n s0 ins1 in
  good_mp p -> po_held p n has_ar ar_taken j s0 (ins1 ++ ins2) ->
  Forall (legal_req p (p_arid p)) (po_seen p n ar_taken j s0 ins1) ->
  length (po_seen p n r_taken j s0 ins1) = length (asked (nbytes p) (po_seen p n ar_taken j s0 ins1)) ->
  Forall (legal_req p (p_arid p)) (po_seen p n ar_taken j s1 ins2) ->
  let taken := po_seen p n r_taken j s1 ins2 in
  Forall2 (answered (nbytes p) (po_mems p n s1 ins2)) (firstn (length taken) (asked (nbytes p) (po_seen p n ar_taken j s1 ins2))) taken.
Proof. intros p n m1 m2 m3 m0 ins1 ins2 j s0 s1 G. exact (po_reads_answered p G n m1 m2 m3 m0 j ins1 ins2). Qed.
Print Assumptions C62_reads_answered_partial.

(** ** Every port is served in bounded time, however busy the others are. *)
Theorem C62_everything_served_partial : forall p n m1 m2 m3 m0 B Q c j,
  let s0 := ports_init m1 m2 m3 m0 in
  good_mp p -> wakes p -> (forall k, (k < n)%nat -> Forall (legal_burst p) (B k)) ->
  (forall k, (k < n)%nat -> Forall (legal_req p (p_arid p)) (Q k)) -> (j < n)%nat ->
  w_time p (B j) <= Z.of_nat c -> r_time p (Q j) <= Z.of_nat c ->
  let ins := eagers p n c s0 (fun k => mkMaster (headers (B k)) (beats (B k)) (Q k)) in
  (forall x, only_port (nbytes p) n B j x -> o_mem (po_run p n s0 ins) x = put_bursts (nbytes p) (B j) m0 x) /\
  po_seen p n aw_taken j s0 ins = headers (B j) /\ po_seen p n (w_taken p) j s0 ins = beats (B j) /\
  po_seen p n b_taken j s0 ins = map b_id (B j) /\
  Forall2 (answered (nbytes p) (po_mems p n s0 ins)) (asked (nbytes p) (Q j)) (po_seen p n r_taken j s0 ins).
Proof. intros p n m1 m2 m3 m0 B Q c j s0 G WK LB LQ J. exact (po_served p G n m1 m2 m3 m0 B LB WK Q c j J LQ). Qed.
Print Assumptions C62_everything_served_partial.

(** ** A case: two ports, bursts side by side, each port reads what the other one wrote *)
Definition zero (_ : Z) : Z := 0.
Definition pP : mp := mkMp 16 8 8 0 8 0 0 2 2 2 2 2 2 zero 0.
Definition BP (j : nat) : list wburst :=
  match j with O => [mkB 4 1 [(513, 3); (1027, 2)]] | _ => [mkB 8 2 [(65535, 3)]; mkB 0 3 [(257, 1)]] end.
Definition QP (j : nat) : list (Z * Z * Z) := match j with O => [(8, 0, 1)] | _ => [(4, 1, 2)] end.
Definition sP : ports := ports_init (fun _ => zero) (fun _ => zero) (fun _ => zero) (fun a => a).
Definition insP : list (nat -> axi_in) := eagers pP 2 40 sP (fun k => mkMaster (headers (BP k)) (beats (BP k)) (QP k)).
Lemma pP_good : good_mp pP.
Proof. constructor; cbn; try lia. exists 2. lia. Qed.
Lemma BP_legal k : (k < 2)%nat -> Forall (legal_burst pP) (BP k).
Proof. intros H. destruct k as [|[|k]]; [| |lia]; repeat constructor; cbn; try lia; discriminate. Qed.
Lemma QP_legal k : (k < 2)%nat -> Forall (legal_req pP (p_arid pP)) (QP k).
Proof. intros H. destruct k as [|[|k]]; [| |lia]; repeat constructor; cbn; try lia; discriminate. Qed.
Lemma P_apart : only_port (nbytes pP) 2 BP 0 4 /\ only_port (nbytes pP) 2 BP 0 7 /\ only_port (nbytes pP) 2 BP 1 8.
Proof.
  repeat split; intros k b H1 H2 I; (destruct k as [|[|k]]; [| |lia]);
    try (exfalso; apply H2; reflexivity); cbn in I; unfold covers; cbn; destruct I as [<-|I]; cbn; try lia;
    destruct I as [<-|I]; cbn; try lia; contradiction.
Qed.
Example C62_case : good_mp pP /\ wakes pP /\ (forall k, (k < 2)%nat -> Forall (legal_burst pP) (BP k)) /\
  (forall k, (k < 2)%nat -> Forall (legal_req pP (p_arid pP)) (QP k)) /\
  map (w_time pP) [BP 0; BP 1] = [28; 36] /\ map (r_time pP) [QP 0; QP 1] = [33; 35] /\
  only_port (nbytes pP) 2 BP 0 4 /\ only_port (nbytes pP) 2 BP 1 8 /\
  map (o_mem (po_run pP 2 sP insP)) [0; 1; 2; 3; 4; 5; 6; 7; 8; 9; 10] = [1; 1; 2; 3; 1; 2; 6; 4; 255; 255; 10] /\
  po_seen pP 2 b_taken 0 sP insP = [1] /\ po_seen pP 2 b_taken 1 sP insP = [2; 3] /\
  po_seen pP 2 r_taken 0 sP insP = [(65535, true, 1)] /\
  po_seen pP 2 r_taken 1 sP insP = [(513, false, 2); (1030, true, 2)].
Proof.
  split; [exact pP_good|]. split; [left; cbn; lia|]. split; [exact BP_legal|]. split; [exact QP_legal|].
  split; [vm_compute; reflexivity|]. split; [vm_compute; reflexivity|].
  split; [exact (proj1 P_apart)|]. split; [exact (proj2 (proj2 P_apart))|]. vm_compute. auto 10.
Qed.
