(** C75: the AXI-Lite master of a thread makes one transaction per call, and with the register slave every
    call returns the right word in bounded time. *)
From Verif Require Import Base AxiSlave_Model Skid_Model AxisLite_Model AxisLite_Spec AximLite_Model AximLite_Spec AximLite_Proofs.
Open Scope Z_scope.

(** The bus carries one transaction after the other, one for each call, in the order of the calls, with
    the addresses and words of the calls; a call returns after its transaction; nothing is left when the
    thread is outside of calls. *)
Theorem C75_transactions :
  forall n ins, (1 <= n)%nat -> all_legal (m_init n) (GNone, []) ins ->
  let m := final m_step (m_init n) ins in
  exists g pre pend, order_run (GNone, []) (outs m_step m_events (m_init n) ins) = Some (g, pre ++ pend) /\
    Forall2 call_is (p_log m) pre /\ (length pend <= 1)%nat /\ (~ in_call m -> g = GNone /\ pend = []).
Proof.
  intros n ins N L m. destruct (tied_run ins _ _ (tied_init n N) L) as ([g done] & E & T).
  destruct (tied_cases _ _ T) as (pre & pend & E2 & F & K & H). cbn [fst snd] in *. subst done.
  exists g, pre, pend. auto.
Qed.
Print Assumptions C75_transactions.

(** Addresses and data stay on the bus until they are taken, whatever the slave does. *)
Theorem C75_hold :
  forall n ins i, (1 <= n)%nat ->
  held_back (final m_step (m_init n) ins) i (final m_step (m_init n) (ins ++ [i])).
Proof.
  intros n ins i N. unfold final. rewrite fold_left_app. cbn [fold_left]. apply hold_step.
  apply (shape_run ins (m_init n)). exact (proj1 (tied_init n N)).
Qed.
Print Assumptions C75_hold.

(** On the register slave, with threads that leave the registers alone, every read returns what was
    written last. *)
Theorem C75_end_to_end_partial :
  forall len mw sh xz xb n ins, 0 <= mw -> 0 <= sh -> (1 <= n)%nat -> Forall (fun i => q_top i = None) ins ->
  exists xs, Forall2 call_is (p_log (s_m (final (ms_step len mw sh xz xb) (ms_init n) ins))) xs /\
    plays len mw sh xz (fun _ => 0) xs.
Proof. intros len mw sh xz xb n ins H1 H2. exact (end_to_end len mw sh xz xb H1 H2 n ins). Qed.
Print Assumptions C75_end_to_end_partial.

(** On the register slave every call returns within a fixed number of cycles, whatever the threads on the
    other side do. *)
Theorem C75_returns_partial :
  forall len mw sh xz xb n ins i more c, 0 <= mw -> 0 <= sh -> (1 <= n)%nat ->
  let run := fun l => s_m (final (ms_step len mw sh xz xb) (ms_init n) l) in
  ~ in_call (run ins) -> q_go i = Some c -> (bound n c <= length more)%nat ->
  exists j r, (j <= bound n c)%nat /\ p_log (run (ins ++ [i] ++ firstn j more)) = p_log (run ins) ++ [(c, r)].
Proof.
  intros len mw sh xz xb n ins i more c H1 H2 N run O. apply (returns len mw sh xz xb n H1 H2 ins i more c N).
  fold (run ins). unfold in_call in O. destruct (p_ph (run ins)); [reflexivity|..]; exfalso; apply O; discriminate.
Qed.
Print Assumptions C75_returns_partial.

(** Finding: the data is put on the bus only after the address was taken, which AXI forbids.  On a slave
    that waits for the data before it takes the address no write call returns, ever. *)
Theorem C75_data_after_address_refuted :
  forall n ins, (1 <= n)%nat -> data_first (m_init n) ins ->
  Forall (fun cr => match fst cr with CWr _ _ _ => False | CRd _ _ => True end)
         (p_log (final m_step (m_init n) ins)).
Proof.
  intros n ins N D. destruct (no_write_run ins (m_init n)) as (_ & _ & _ & _ & L); [|exact D|exact L].
  destruct (tied_init n N) as (SH & _). split; [exact SH|]. unfold m_init. cbn.
  rewrite Skid_Proofs.cheld_init. repeat split; auto.
Qed.
Print Assumptions C75_data_after_address_refuted.

(** Non-vacuity: a write, a read of the same register and a delayed read of another one on the register
    slave with two skid buffers. *)
Definition ex_prog : list msys_in :=
  [mkMSIn (Some (CWr 8 77 None)) None] ++ repeat (mkMSIn None None) 11 ++
  [mkMSIn (Some (CRd 8 None)) None] ++ repeat (mkMSIn None None) 9 ++
  [mkMSIn (Some (CRd 4 (Some 3%nat))) None] ++ repeat (mkMSIn None None) 12.
Example C75_ex_system :
  p_log (s_m (final (ms_step 4 2 2 0 false) (ms_init 2) ex_prog)) =
  [(CWr 8 77 None, 0); (CRd 8 None, 77); (CRd 4 (Some 3%nat), 0)].
Proof. vm_compute. reflexivity. Qed.
(** the slave behaviour of that run is legal, and its transactions *)
Example C75_ex_bus :
  let ins := [mkMIn false false false None false (Some (CWr 8 77 None)); mkMIn false false false None false None;
              mkMIn false true false None false None; mkMIn false false false None false None;
              mkMIn false false false None false None; mkMIn false false true None false None;
              mkMIn false false true None true None; mkMIn false false false None false None;
              mkMIn false false false None false (Some (CRd 4 None)); mkMIn true false false None false None;
              mkMIn true false false None false None; mkMIn true false false (Some 5) false None;
              mkMIn false false false None false None] in
  all_legal (m_init 1) (GNone, []) ins /\
  order_run (GNone, []) (outs m_step m_events (m_init 1) ins) = Some (GNone, [XWrite 8 77; XRead 4 5]) /\
  p_log (final m_step (m_init 1) ins) = [(CWr 8 77 None, 0); (CRd 4 None, 5)].
Proof.
  cbv zeta. split; [|split; vm_compute; reflexivity].
  assert (K : forall m st i r st', slave_legal (fst st) i -> order_cycle st (m_events m i) = Some st' ->
    all_legal (m_step m i) st' r -> all_legal m st (i :: r)).
  { intros m st i r st' H1 H2 H3. cbn [all_legal]. rewrite H2. split; assumption. }
  repeat (eapply K; [split; cbn; [intros H; try congruence; eauto|intros H; try discriminate H; eauto]|vm_compute; reflexivity|]).
  exact I.
Qed.
(** a slave that waits for the data *)
Example C75_ex_data_first :
  let ins := mkMIn false false false None false (Some (CWr 8 77 None)) :: repeat (mkMIn true false true None false None) 20 in
  data_first (m_init 1) ins /\ p_awv (final m_step (m_init 1) ins) = true.
Proof.
  cbv zeta. split; [|vm_compute; reflexivity].
  cbn [repeat data_first]. repeat (split; [cbn [n_awready]; discriminate|]). exact I.
Qed.
