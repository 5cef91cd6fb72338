(** C83: the serial memory carries out one burst after the other. *)
From Verif Require Import Base AxiMem_Model AxiMem_Spec AxiMem_Proofs Smem_Model Smem_Spec Smem_Proofs.
Open Scope Z_scope.

(** Between bursts, what was taken, answered and stored is what a memory does that carries out the bursts
    one by one; what is carried out later is added at the end.  Missing for the full property: masters
    that let a response wait while they offer the next write address (see below). *)
Theorem C83_serial_partial : forall p m0 B Q ins1 ins2,
  sm_ok p -> Forall (legal_burst p) B -> Forall (legal_req p (p_arid p)) Q ->
  behaves p (mkMaster (headers B) (beats B) Q) false false (sm_init m0) (ins1 ++ ins2) ->
  m_ph (sm_run p (sm_init m0) ins1) = PIdle -> m_ph (sm_run p (sm_init m0) (ins1 ++ ins2)) = PIdle ->
  exists ops more, carried p m0 B Q ins1 ops /\ carried p m0 B Q (ins1 ++ ins2) (ops ++ more).
Proof. exact serial. Qed.
Print Assumptions C83_serial_partial.

(** At any time: a response comes only for a burst of which all beats were taken, in order, and the beats
    read are the answers to the reads carried out and the first answers to the next one. *)
Theorem C83_any_time_partial : forall p m0 B Q ins,
  sm_ok p -> Forall (legal_burst p) B -> Forall (legal_req p (p_arid p)) Q ->
  behaves p (mkMaster (headers B) (beats B) Q) false false (sm_init m0) ins ->
  let s0 := sm_init m0 in let s := sm_run p s0 ins in
  exists ops Br Qr more, B = writes ops ++ Br /\ Q = reads ops ++ Qr /\
    (exists u, sseen p s_w s0 ins = beats (writes ops) ++ u) /\ (exists u, sseen p s_ar s0 ins = reads ops ++ u) /\
    sseen p s_b s0 ins ++ (if m_bvalid s then [m_bid s] else []) = map b_id (writes ops) /\
    sseen p s_r s0 ins = snd (do_ops (nbytes p) m0 ops) ++ more /\
    (more = [] \/ exists q Qr' z, Qr = q :: Qr' /\ map (answer (nbytes p) (fst (do_ops (nbytes p) m0 ops))) (asked1 (nbytes p) q) = more ++ z).
Proof. exact any_time. Qed.
Print Assumptions C83_any_time_partial.

(** A master that offers all it has and is always ready gets everything done, with sleeps of any kind but
    a sleep interval of one cycle. *)
Theorem C83_ends_partial : forall p m0 B Q, sm_ok p -> Forall (legal_burst p) B -> Forall (legal_req p (p_arid p)) Q -> wakes p ->
  exists n ops, m_ph (sm_run p (sm_init m0) (eager_ins p n (mkMaster (headers B) (beats B) Q) (sm_init m0))) = PIdle /\
    carried p m0 B Q (eager_ins p n (mkMaster (headers B) (beats B) Q) (sm_init m0)) ops /\ writes ops = B /\ reads ops = Q.
Proof. exact ends. Qed.
Print Assumptions C83_ends_partial.

(** two writes and, after the first one, two reads, with delays and sleeps *)
Definition pS : mp := mkMp 32 10 8 2 1 4 3 2 3 2 2 0 0 (fun _ => 0) 0.
Definition bS : list wburst := [mkB 4 2 [(0x11223344, 15); (0x55667788, 5)]; mkB 8 1 [(0xAABBCCDD, 8)]].
Definition qS : list (Z * Z * Z) := [(4, 1, 3); (8, 0, 1)].
Definition mS (a : Z) : Z := a mod 256.
Definition tS : master := mkMaster (headers bS) (beats bS) qS.
Definition later (t : master) : axi_in := mkIn (hd_error (t_aw t)) (hd_error (t_w t)) true (if (length (t_w t) <=? 1)%nat then hd_error (t_ar t) else None) true.
Fixpoint later_ins (p : mp) (n : nat) (t : master) (s : sm) : list axi_in :=
  match n with
  | O => []
  | S n => later t :: later_ins p n (s_next s (later t) t) (sm_step p s (later t))
  end.
Definition insS : list axi_in := later_ins pS 70 tS (sm_init mS).
Example C83_case : sm_ok pS /\ wakes pS /\ Forall (legal_burst pS) bS /\ Forall (legal_req pS (p_arid pS)) qS /\
  behaves pS tS false false (sm_init mS) insS /\ m_ph (sm_run pS (sm_init mS) insS) = PIdle /\
  sseen pS s_r (sm_init mS) insS = [(0x11223344, false, 3); (0x0B660988, true, 3); (0x0B660988, true, 1)] /\
  sseen pS s_b (sm_init mS) insS = [2; 1] /\ map (m_mem (sm_run pS (sm_init mS) insS)) [4; 5; 7; 8; 9; 10; 11; 12] = [0x44; 0x33; 0x11; 0x88; 9; 0x66; 0xAA; 12].
Proof.
  split. { constructor; cbn; try lia. exists 4. lia. }
  split. { right. cbn. lia. }
  split. { repeat constructor; cbn; lia. }
  split. { repeat constructor; cbn; lia. }
  split. { vm_compute. intuition. }
  vm_compute. repeat split.
Qed.

(** The write state goes on without taking the address while a response waits: a master that is slow to
    take responses sees its next data stored where the last burst ended, and the address is never taken. *)
Definition pT : mp := mkMp 8 10 8 0 0 0 0 0 0 0 0 0 0 (fun _ => 0) 0.
Definition bT : list wburst := [mkB 0 0 [(0x11, 1)]; mkB 8 0 [(0x22, 1)]].
Definition slow (i : axi_in) : axi_in := mkIn (i_aw i) (i_w i) false (i_ar i) (i_rready i).
Fixpoint slow_ins (p : mp) (n : nat) (t : master) (s : sm) : list axi_in :=
  match n with
  | O => []
  | S n => slow (eager t) :: slow_ins p n (s_next s (slow (eager t)) t) (sm_step p s (slow (eager t)))
  end.
Definition tT : master := mkMaster (headers bT) (beats bT) [].
Definition insT : list axi_in := slow_ins pT 9 tT (sm_init (fun _ => 0)).
Theorem C83_slow_response_refuted :
  sm_ok pT /\ Forall (legal_burst pT) bT /\ behaves_slow pT tT false false (sm_init (fun _ => 0)) insT /\
  sseen pT s_w (sm_init (fun _ => 0)) insT = beats bT /\ sseen pT s_aw (sm_init (fun _ => 0)) insT = headers (firstn 1 bT) /\
  let m := m_mem (sm_run pT (sm_init (fun _ => 0)) insT) in
  m 1 = 0x22 /\ m 8 = 0 /\ forall ops, writes ops = bT -> fst (do_ops 1 (fun _ => 0) ops) 1 = 0 /\ fst (do_ops 1 (fun _ => 0) ops) 8 = 0x22.
Proof.
  split. { constructor; cbn; try lia. exists 1. lia. }
  split. { repeat constructor; cbn; lia. }
  split. { vm_compute. intuition. }
  split; [vm_compute; reflexivity|]. split; [vm_compute; reflexivity|]. split; [vm_compute; reflexivity|]. split; [vm_compute; reflexivity|].
  assert (G : forall ops x, fst (fold_left (do_op 1) ops x) = fold_left (put_burst 1) (writes ops) (fst x)).
  { induction ops as [|[b|q] ops IH]; intros x; [reflexivity| |]; cbn [fold_left]; rewrite IH; reflexivity. }
  intros ops E. unfold do_ops. rewrite G, E. split; reflexivity.
Qed.
Print Assumptions C83_slow_response_refuted.

(** With a sleep interval of one cycle no read is ever answered. *)
Theorem C83_short_sleep_refuted : forall p m0 ins, p_sleep p = 1 -> sseen p s_r (sm_init m0) ins = [].
Proof. intros p m0 ins H. apply (never_awake p ins H); reflexivity. Qed.
Print Assumptions C83_short_sleep_refuted.
