(** C24 (read bursts) and C53 (write bursts) of the AXI register slave. *)
From Verif Require Import Base AxiSlave_Model AxiSlave_Spec AxiSlave_Proofs.
Open Scope Z_scope.

(** ** C24 *)
(** What the slave really answers: a burst of one word gets one beat, a burst of n >= 2 words
    gets n+1 beats; the last and only the last beat carries rlast.  At every moment the beats
    transferred are a prefix of these answers, and all of them once the slave is idle. *)
Theorem C24_read_flags_partial :
  forall len mw sh xz xb ins, 0 <= mw -> 0 <= sh -> Forall ar_legal ins ->
    let served := fun n => if n <=? 1 then 1 else n + 1 in
    exists more,
      flat_map (fun q => answer_flags (served (burst_len q))) (bursts len mw sh xz xb slv_init ins) =
        map snd (beats len mw sh xz xb slv_init ins) ++ more /\
      (read_idle (slv_run len mw sh xz xb slv_init ins) -> more = []).
Proof. intros len mw sh xz xb ins H1 H2. exact (flags_of len mw sh xz xb H1 H2 ins). Qed.
Print Assumptions C24_read_flags_partial.

(** Bursts of one word are answered as they should be, for every schedule. *)
Theorem C24_single_reads_partial :
  forall len mw sh xz xb ins, 0 <= mw -> 0 <= sh -> Forall ar_legal ins ->
    Forall (fun q => burst_len q = 1) (bursts len mw sh xz xb slv_init ins) ->
    exists more,
      flat_map (fun q => answer_flags (burst_len q)) (bursts len mw sh xz xb slv_init ins) =
        map snd (beats len mw sh xz xb slv_init ins) ++ more /\
      (read_idle (slv_run len mw sh xz xb slv_init ins) -> more = []).
Proof.
  intros len mw sh xz xb ins H1 H2 HF Hone.
  destruct (C24_read_flags_partial len mw sh xz xb ins H1 H2 HF) as (more & E & Hm). exists more. split; [|exact Hm].
  rewrite <- E. clear - Hone. induction Hone as [|q l Hq _ IH]; [reflexivity|]. cbn [flat_map]. rewrite IH, Hq. reflexivity.
Qed.
Print Assumptions C24_single_reads_partial.

(** The data: beat k of a burst at byte address a shows register (a >> shift + k) mod 2^maskwidth,
    as long as nothing changes the registers. *)
Theorem C24_read_data_partial :
  forall len mw sh xz xb s0 ins, 0 <= mw -> 0 <= sh -> okS mw s0 -> read_idle s0 ->
    v_fsm s0 = 0 -> v_wr s0 = false -> v_flag s0 = (fun _ => false) ->
    Forall ar_legal ins -> Forall no_update ins ->
    let served := fun n => if n <=? 1 then 1 else n + 1 in
    exists more,
      flat_map (fun q => answer len mw sh xz (v_reg s0) (fst q) (served (burst_len q))) (bursts len mw sh xz xb s0 ins) =
        beats len mw sh xz xb s0 ins ++ more /\
      (read_idle (slv_run len mw sh xz xb s0 ins) -> more = []).
Proof.
  intros len mw sh xz xb s0 ins H1 H2 Hok (I1 & I2 & I3) Hf Hw Hfl HF HU.
  apply (answers_from len mw sh xz xb H1 H2 (v_reg s0) s0 ins Hok); try assumption.
  - repeat split; auto. lia.
  - unfold rest. rewrite I2, Hf. reflexivity.
  - unfold offer. rewrite I3. reflexivity.
Qed.
Print Assumptions C24_read_data_partial.

(** Every burst is finished: after 515 cycles with rready and without a new request the slave is
    idle. *)
Theorem C24_read_finishes :
  forall len mw sh xz xb ins more, 0 <= mw -> 0 <= sh -> Forall ar_legal ins -> Forall no_read_request more ->
    515 <= ready_cycles more -> read_idle (slv_run len mw sh xz xb slv_init (ins ++ more)).
Proof. intros len mw sh xz xb ins more H1 H2. exact (read_finishes len mw sh xz xb H1 ins more). Qed.
Print Assumptions C24_read_finishes.

(** Finding: the stated property fails.  A read burst of two words (arlen 1) gets three beats. *)
Definition rdq (ar : option (Z * Z)) : slv_in := mkSlvIn ar None None true true None.
Definition ex_read : list slv_in := [rdq (Some (4, 1)); rdq (Some (4, 1))] ++ repeat (rdq None) 8.
Theorem C24_read_burst_refuted :
  ~ (forall len mw sh xz xb ins, 0 <= mw -> 0 <= sh -> Forall ar_legal ins ->
       read_idle (slv_run len mw sh xz xb slv_init ins) ->
       map snd (beats len mw sh xz xb slv_init ins) =
       flat_map (fun q => answer_flags (burst_len q)) (bursts len mw sh xz xb slv_init ins)).
Proof.
  intros H. specialize (H 4 2 2 0 false ex_read).
  assert (E : map snd (beats 4 2 2 0 false slv_init ex_read) =
              flat_map (fun q => answer_flags (burst_len q)) (bursts 4 2 2 0 false slv_init ex_read)).
  { apply H; [lia|lia| |].
    - repeat constructor; cbn; lia.
    - vm_compute. repeat split; discriminate. }
  vm_compute in E. discriminate.
Qed.
Print Assumptions C24_read_burst_refuted.
Example ex_read_beats :
  bursts 4 2 2 0 false slv_init ex_read = [(4, 2)] /\
  beats 4 2 2 0 false slv_init ex_read = [(0, false); (0, false); (0, true)].
Proof. vm_compute. split; reflexivity. Qed.

(** Non-vacuity: registers written over the bus, then two single reads with stalls. *)
Definition wq aw w := mkSlvIn None aw w true true None.
Definition ex_write : list slv_in :=
  [wq (Some (8, 1)) None; wq (Some (8, 1)) None; wq None None; wq None (Some (77, false)); wq None None; wq None (Some (88, true)); wq None None].
Definition ex_regs : slv := slv_run 4 2 2 0 false slv_init ex_write.
Definition rdq' (ar : option (Z * Z)) (b : bool) : slv_in := mkSlvIn ar None None b true None.
Definition ex_singles : list slv_in :=
  [rdq' (Some (8, 0)) true; rdq' (Some (8, 0)) true; rdq' None false; rdq' None false; rdq' None false; rdq' (Some (12, 0)) true;
   rdq' (Some (12, 0)) true; rdq' (Some (12, 0)) true; rdq' None true; rdq' None true; rdq' None true; rdq' None true].
Example ex_singles_ok :
  read_idle ex_regs /\ v_fsm ex_regs = 0 /\ v_wr ex_regs = false /\
  bursts 4 2 2 0 false ex_regs ex_singles = [(8, 1); (12, 1)] /\
  beats 4 2 2 0 false ex_regs ex_singles = [(77, true); (88, true)] /\
  read_idle (slv_run 4 2 2 0 false ex_regs ex_singles).
Proof. vm_compute. repeat split; discriminate || reflexivity. Qed.

(** ** C53 *)
(** Addresses, data and responses of write bursts alternate strictly: every burst has one address
    first and one response after its flagged word, and nothing is accepted in between. *)
Theorem C53_write_order :
  forall len mw sh xz xb ins, 0 <= mw -> 0 <= sh -> Forall ar_legal ins ->
    exists p, worder 0 (wevents len mw sh xz xb slv_init ins) = Some p.
Proof.
  intros len mw sh xz xb ins H1 H2 HF.
  pose proof (worder_run len mw sh xz xb H1 ins slv_init (okS_init mw H1) HF) as H. eexists. exact H.
Qed.
Print Assumptions C53_write_order.

(** The registers hold what the replay of the write events stores, whatever reads and stalls
    happen in between. *)
Theorem C53_write_data :
  forall len mw sh xz xb ins, 0 <= mw -> 0 <= sh -> Forall ar_legal ins -> Forall no_thread_update ins ->
    v_reg (slv_run len mw sh xz xb slv_init ins) =
    snd (wreplay len mw sh (wevents len mw sh xz xb slv_init ins) (0, fun _ => 0)).
Proof.
  intros len mw sh xz xb ins H1 H2 HF HN.
  destruct (wreplay_run len mw sh xz xb H1 H2 ins slv_init (0, fun _ => 0) (okS_init mw H1) HF HN) as (_ & E & _).
  - repeat split; cbn; intros; lia || discriminate.
  - symmetry. exact E.
Qed.
Print Assumptions C53_write_data.

Example ex_write_events :
  wevents 4 2 2 0 false slv_init ex_write = [WAddr 8; WBeat 77 false; WBeat 88 true; WResp] /\
  map (v_reg ex_regs) [0; 1; 2; 3] = [0; 0; 77; 88] /\ Forall no_thread_update ex_write.
Proof. split; [vm_compute; reflexivity|]. split; [vm_compute; reflexivity|repeat constructor]. Qed.
