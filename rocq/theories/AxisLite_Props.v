(** C74: the AXI-Lite register slave carries out one transaction at a time on its registers. *)
From Verif Require Import Base AxiSlave_Model AxisLite_Model AxisLite_Spec AxisLite_Proofs.
Open Scope Z_scope.

Section Bus.
  Variables (len mw sh xz : Z) (xb : bool).
  (** the events of a run, and the state behind it *)
  Definition lite_events (ins : list lite_in) : list bus := outs (lite_step len mw sh xz xb) lite_out lite_init ins.
  Definition lite_after (ins : list lite_in) : lite := final (lite_step len mw sh xz xb) lite_init ins.
End Bus.

(** Whatever the master and the threads do, the events follow the rules of [bus_cycle] (one transaction at
    a time, every read gets the word the register held two cycles after the request was accepted, flagged
    registers are cleared by the read, one response per write) and the registers are those of the bank. *)
Theorem C74_transactions :
  forall len mw sh xz xb ins, 0 <= mw -> 0 <= sh ->
  exists t, bus_run len mw sh xz (TNone, bank0) (lite_events len mw sh xz xb ins) =
    Some (t, mkBank (l_reg (lite_after len mw sh xz xb ins)) (l_flag (lite_after len mw sh xz xb ins))
                    (l_reset (lite_after len mw sh xz xb ins))).
Proof. intros len mw sh xz xb ins H1 H2. exact (follows len mw sh xz xb H1 H2 ins). Qed.
Print Assumptions C74_transactions.

(** A word and a response stay until they are taken. *)
Theorem C74_hold :
  forall len mw sh xz xb ins i, 0 <= mw -> 0 <= sh ->
  let s := lite_after len mw sh xz xb ins in let s' := lite_after len mw sh xz xb (ins ++ [i]) in
  (l_rvalid s = true -> li_rready i = false -> l_rvalid s' = true /\ l_rdata s' = l_rdata s) /\
  (l_bvalid s = true -> li_bready i = false -> l_bvalid s' = true).
Proof.
  intros len mw sh xz xb ins i H1 H2. cbv zeta. unfold lite_after. rewrite final_snoc.
  exact (hold len mw sh xz xb H1 H2 ins i).
Qed.
Print Assumptions C74_hold.

(** A word is offered three cycles after the acceptance of a read; write data are taken from the second
    cycle after the acceptance of a write on, and the response is offered in the cycle after the data. *)
Theorem C74_latency :
  forall len mw sh xz xb ins i, 0 <= mw -> 0 <= sh ->
  let s := lite_after len mw sh xz xb ins in
  (forall a i1 i2, e_ar (lite_out s i) = Some a -> l_rvalid (lite_after len mw sh xz xb (ins ++ [i; i1; i2])) = true) /\
  (forall a i1 more, e_aw (lite_out s i) = Some a -> Forall (fun x => li_w x = None) more ->
     l_wready (lite_after len mw sh xz xb (ins ++ [i; i1] ++ more)) = true /\
     forall x d, li_w x = Some d -> l_bvalid (lite_after len mw sh xz xb (ins ++ [i; i1] ++ more ++ [x])) = true).
Proof.
  intros len mw sh xz xb ins i H1 H2. cbv zeta. unfold lite_after. split.
  - intros a i1 i2 A. rewrite final_app. exact (read_latency len mw sh xz xb H1 H2 ins i i1 i2 a A).
  - intros a i1 more A F. rewrite final_app.
    destruct (write_latency len mw sh xz xb H1 H2 ins i i1 a A) as (_ & W & B). split; [exact (W more F)|].
    intros x d X. rewrite final_app. exact (B more x d F X).
Qed.
Print Assumptions C74_latency.

(** When nothing is going on, a write request in its second cycle is accepted, and so is a read request
    that did not stand beside a write request in the cycle before. *)
Theorem C74_accepts_partial :
  forall len mw sh xz xb ins i1 i2 b, 0 <= mw -> 0 <= sh ->
  bus_run len mw sh xz (TNone, bank0) (lite_events len mw sh xz xb (ins ++ [i1])) = Some (TNone, b) ->
  let s := lite_after len mw sh xz xb (ins ++ [i1]) in
  (li_aw i1 <> None -> e_aw (lite_out s i2) = li_aw i2) /\
  (li_aw i1 = None -> li_ar i1 <> None -> e_ar (lite_out s i2) = li_ar i2).
Proof. intros len mw sh xz xb ins i1 i2 b H1 H2. exact (accepts len mw sh xz xb H1 H2 ins i1 i2 b). Qed.
Print Assumptions C74_accepts_partial.

(** A transaction is over after three cycles in which the master does its part. *)
Theorem C74_finishes :
  forall len mw sh xz xb ins more, 0 <= mw -> 0 <= sh -> (3 <= length more)%nat ->
  Forall (fun i => li_ar i = None /\ li_aw i = None /\ li_w i <> None /\ li_rready i = true /\ li_bready i = true) more ->
  exists b, bus_run len mw sh xz (TNone, bank0) (lite_events len mw sh xz xb (ins ++ more)) = Some (TNone, b).
Proof. intros len mw sh xz xb ins more H1 H2. exact (finishes len mw sh xz xb H1 H2 ins more). Qed.
Print Assumptions C74_finishes.

(** Finding: a master that always has a write address on the bus (it takes all responses and provides all
    data) never gets a read request accepted, however long it waits. *)
Theorem C74_reads_starve_refuted :
  forall len mw sh xz xb n a b d,
  let ins := repeat (mkLiteIn (Some a) (Some b) (Some d) true true None) n in
  Forall (fun e => e_ar e = None) (lite_events len mw sh xz xb ins).
Proof.
  intros len mw sh xz xb n a b d ins. apply starved; [|right; reflexivity].
  apply Forall_forall. intros x X. apply repeat_spec in X. subst x. discriminate.
Qed.
Print Assumptions C74_reads_starve_refuted.

(** ** The hypotheses are met by non-trivial runs *)
Definition li ar aw w := mkLiteIn ar aw w true true None.
Definition stall ar aw w := mkLiteIn ar aw w false false None.
(** a write of 77 to register 2, the thread flags register 2 with 55 (cleared to 9), two reads of it *)
Definition lite_ex : list lite_in :=
  [li None (Some 8) None; li None (Some 8) None; li None None None; li None None (Some 77); stall None None None; li None None None;
   mkLiteIn (Some 8) None None true true None; li (Some 8) None None; li None None None; li None None None; li None None None;
   mkLiteIn (Some 8) None None true true (Some (th_write_flag 2 55 9)); li (Some 8) None None; li None None None; li None None None;
   stall None None None; li None None None;
   li (Some 8) None None; li (Some 8) None None; li None None None; li None None None; li None None None].
Example C74_ex_events :
  map (fun e => (e_ar e, e_r e, e_aw e, e_w e, e_b e)) (lite_events 4 2 2 0 false lite_ex) =
  let n := @None Z in
  [(n, n, n, n, false); (n, n, Some 8, n, false); (n, n, n, n, false); (n, n, n, Some 77, false); (n, n, n, n, false);
   (n, n, n, n, true); (n, n, n, n, false); (Some 8, n, n, n, false); (n, n, n, n, false); (n, n, n, n, false);
   (n, Some 77, n, n, false); (n, n, n, n, false); (Some 8, n, n, n, false); (n, n, n, n, false); (n, n, n, n, false);
   (n, n, n, n, false); (n, Some 55, n, n, false); (n, n, n, n, false); (Some 8, n, n, n, false); (n, n, n, n, false);
   (n, n, n, n, false); (n, Some 9, n, n, false)].
Proof. vm_compute. reflexivity. Qed.
Example C74_ex_idle :
  exists b, bus_run 4 2 2 0 (TNone, bank0) (lite_events 4 2 2 0 false lite_ex) = Some (TNone, b) /\ b_reg b 2 = 9.
Proof. eexists. split; [vm_compute; reflexivity|]. vm_compute. reflexivity. Qed.
