(** Property theorems C20: AXI master channels hold valid and payload until ready and transfer
    every accepted request exactly once. *)
From Verif Require Import Base Vlog Seq_Model Skid_Model Skid_Spec Skid_Proofs
  AxiChan_Model AxiChan_Spec AxiChan_Proofs.
Open Scope Z_scope.

(** *** From the generic lemmas to a channel *)
Section Lift.
  Variable w : var -> Z.
  Hypothesis Hw : widths w.
  Variables P C : list var.
  Hypothesis HCP : incl C P.
  Hypothesis HP : forall v, In v P -> own v = true /\ v <> vld /\ forall k i, v <> CondR k i.
  Variable A : Type.
  Variable site : A -> gsite.
  Variable msg : A -> env -> option (list Z).
  Variable ack : expr.
  Hypothesis Hack : forall a, g_ack (site a) = ack.
  Hypothesis Hok : forall a, pay_ok P (site a).
  Hypothesis Hmsg : forall a e, msg a e = if is_zero e (site a) then None else Some (map (pval w e (site a)) P).
  Definition cl (a : A) : caller := mkCaller (g_cond (site a)) (msg a).

  Let HvP : ~ In vld P. Proof. intros H. apply HP in H. tauto. Qed.
  Let HcP : forall k i, ~ In (CondR k i) P. Proof. intros k i H. apply HP in H. destruct H as (_ & _ & H). exact (H k i eq_refl). Qed.
  Let HPown : forall v, In v P -> own v = true. Proof. intros v H. apply HP, H. Qed.
  Let Hok' cs : Forall (pay_ok P) (map site cs).
  Proof. apply Forall_forall. intros x Hx. apply in_map_iff in Hx. destruct Hx as (a & <- & _). apply Hok. Qed.

  Lemma lift_acc cs e : flat_map (acc1 w P e) (map site cs) =
    flat_map (fun c => if wants e c && truth (eval e ack)
                       then match cl_msg c e with Some m => [m] | None => [] end else []) (map cl cs).
  Proof.
    induction cs as [|a cs IH]; [reflexivity|]. cbn [map flat_map]. rewrite IH. f_equal.
    unfold acc1, wants, cl. cbn [cl_cond cl_msg]. rewrite Hack, Hmsg.
    generalize (match g_cond (site a) with Some c => truth (eval e c) | None => true end). intros x.
    destruct x, (truth (eval e ack)), (is_zero e (site a)); reflexivity.
  Qed.
  Lemma lift_one cs t : exclusive (map cl cs) t -> Forall (one_caller (map site cs)) t.
  Proof.
    intros H. eapply Forall_impl; [|exact H]. clear H. intros e H. unfold one_caller.
    etransitivity; [|exact H]. clear H. induction cs as [|a cs IH]; [apply le_n|].
    cbn [map filter]. unfold wants at 1, active at 1. cbn [cl_cond cl].
    destruct (match g_cond (site a) with Some c => truth (eval e c) | None => true end); cbn [andb].
    - destruct (match g_acc (site a) with Some c => truth (eval e c) | None => true end); cbn [length]; lia.
    - exact IH.
  Qed.
  Lemma lift_held cs ins :
    held_until_ready P (chan_trace w (chan_code (map (fun a => gcall C (site a)) cs)) chan_reset ins).
  Proof.
    destruct Hw as [H1 H2].
    pose proof (run_held w H2 P C HCP HvP HcP HPown (map site cs) ins (Hok' cs) chan_reset
                  (armed_reset w C _)) as H.
    unfold gcode in H. rewrite map_map in H.
    revert H. generalize (chan_trace w (chan_code (map (fun a => gcall C (site a)) cs)) chan_reset ins).
    induction l as [|e l IH]; [auto|]. destruct l as [|e' l]; [auto|]. intros [Ha Hb]. split; [|exact (IH Hb)].
    intros Hv Hr. destruct (Ha Hv Hr) as [X Y]. split; [exact X|]. apply map_ext_in. exact Y.
  Qed.
  Lemma lift_once cs ins :
    let t := chan_trace w (chan_code (map (fun a => gcall C (site a)) cs)) chan_reset ins in
    exclusive (map cl cs) t ->
    accepted ack (map cl cs) t =
    transfers P t ++ on_offer P (chan_final w (chan_code (map (fun a => gcall C (site a)) cs)) chan_reset ins).
  Proof.
    intros t Hx. destruct Hw as [H1 H2].
    pose proof (run_once w H1 H2 P C HCP HvP HcP HPown (map site cs) ins (Hok' cs) chan_reset
                  (armed_reset w C _)) as H.
    unfold gcode in H. rewrite map_map in H. specialize (H (lift_one _ _ Hx)).
    change (pend P chan_reset) with (@nil (list Z)) in H. cbn [app] in H.
    etransitivity; [|exact H]. unfold accepted. fold t.
    apply flat_map_ext. intros e. symmetry. apply lift_acc.
  Qed.
  Lemma lift_wsb cs n ins : 
    let code := chan_code (map (fun a => gcall C (site a)) cs) in
    let st0 := (chan_reset, repeat (sb_init (map (fun _ => 0) P)) n) in
    let t := outs (wsb_next w code P) (wsb_out P) st0 ins in
    (n <> 0%nat -> stable (map snd t)) /\
    (exclusive (map cl cs) (map fst t) ->
     exists inside, accepted ack (map cl cs) (map fst t) = given (map snd t) ++ inside
                    /\ (length inside <= 2 * n + 1)%nat).
  Proof.
    intros code st0 t. destruct Hw as [H1 H2].
    assert (Et : t = wsb_trace w P C (map site cs) st0 ins).
    { unfold t, wsb_trace, gcode, code. rewrite map_map. reflexivity. }
    pose proof (wsb_history w P C (map site cs) ins st0) as Hh. rewrite <- Et in Hh.
    split.
    - intros Hn. rewrite Hh. apply stable_gen; [destruct n; [contradiction|discriminate]|apply init_ok].
    - intros Hx.
      pose proof (wsb_once w H1 H2 P C HCP HvP HcP HPown (map site cs) ins (Hok' cs) st0
                  (armed_reset w C _)) as H.
      rewrite <- Et in H. specialize (H (lift_one _ _ Hx)).
      pose proof (wsb_taken w P C (map site cs) ins st0) as Ht. rewrite <- Et in Ht. rewrite <- Ht in H.
      rewrite Hh in H. cbn [snd st0] in H.
      destruct (lossless (map (fun _ => 0) P) n (map (fun x => fst (snd x)) t)) as (rest & E & L).
      rewrite E in H. unfold accepted.
      exists (rest ++ pend P (fst (wsb_final w P C (map site cs) st0 ins))). split.
      + change (pend P (fst st0)) with (@nil (list Z)) in H. cbn [app] in H.
        rewrite app_assoc, Hh. cbn [snd st0]. rewrite <- H. apply flat_map_ext. intros e. symmetry. apply lift_acc.
      + rewrite app_length. unfold pend. destruct (truth _); cbn [length]; lia.
  Qed.
End Lift.

(** *** Read address channel *)
Definition rq := (option expr * expr * expr)%type.   (* condition, address, length *)
Definition rq_cond (c : rq) := fst (fst c).
Definition rq_addr (c : rq) := snd (fst c).
Definition rq_len (c : rq) := snd c.
(** What the caller asks to be put on the bus: the address and the length minus one, cut to the
    widths of araddr and arlen. *)
Definition addr_msg (w : var -> Z) (c : rq) (e : env) : list Z :=
  [eval e (rq_addr c) mod 2 ^ w adr; (eval e (rq_len c) - 1) mod 2 ^ w len].
Definition ar_caller (w : var -> Z) (c : rq) : caller :=
  mkCaller (rq_cond c) (fun e => Some (addr_msg w c e)).
Definition ar_code (cs : list rq) : list stmt :=
  chan_code (map (fun c => ar_request (rq_cond c) (rq_addr c) (rq_len c)) cs).

Definition ar_site (c : rq) : gsite :=
  mkG (rq_cond c) None [(adr, rq_addr c); (len, EBin Minus (rq_len c) (EInt 1))] [] None.

Lemma own_P (P : list var) : forallb (fun v => own v && negb (veqb v vld)
    && match v with CondR _ _ => false | _ => true end) P = true ->
  forall v, In v P -> own v = true /\ v <> vld /\ forall k i, v <> CondR k i.
Proof.
  intros H v Hv. rewrite forallb_forall in H. specialize (H v Hv). rewrite !andb_true_iff, negb_true_iff in H.
  destruct H as [[H1 H2] H3]. apply veqb_false in H2. repeat split; auto. intros k i ->. discriminate.
Qed.
Ltac pay_tac :=
  split; [repeat constructor; cbn; intuition discriminate|intros v; cbn; tauto].

Lemma ar_code_eq cs : ar_code cs = chan_code (map (fun a => gcall [] (ar_site a)) cs).
Proof. unfold ar_code. apply (f_equal chan_code), map_ext. intros a. unfold ar_request, gcall. f_equal. Qed.

(** C20, read address: whatever the callers' conditions, addresses and lengths do, arvalid with
    araddr/arlen is held until arready. *)
Theorem C20_read_address_held :
  forall w cs ins, widths w ->
    held_until_ready [adr; len] (chan_trace w (ar_code cs) chan_reset ins).
Proof.
  intros w cs ins Hw. rewrite ar_code_eq.
  exact (lift_held w Hw [adr; len] [] (fun v H => match H with end) (own_P [adr; len] eq_refl) rq ar_site
           ltac:(intros a; pay_tac) cs ins).
Qed.
Print Assumptions C20_read_address_held.

(** ... and every accepted request is transferred exactly once, in order; at most the last one
    is still on offer. *)
Theorem C20_read_address_once :
  forall w cs ins, widths w ->
    let t := chan_trace w (ar_code cs) chan_reset ins in
    exclusive (map (ar_caller w) cs) t ->
    accepted free (map (ar_caller w) cs) t =
    transfers [adr; len] t ++ on_offer [adr; len] (chan_final w (ar_code cs) chan_reset ins).
Proof.
  intros w cs ins Hw. rewrite ar_code_eq.
  exact (lift_once w Hw [adr; len] [] (fun v H => match H with end) (own_P [adr; len] eq_refl) rq ar_site
           (fun c e => Some (addr_msg w c e)) free ltac:(reflexivity) ltac:(intros a; pay_tac)
           ltac:(reflexivity) cs ins).
Qed.
Print Assumptions C20_read_address_once.

(** *** Write address channel: a request of length 0 is acknowledged but not sent. *)
Definition aw_caller (w : var -> Z) (c : rq) : caller :=
  mkCaller (rq_cond c) (fun e => if eval e (rq_len c) =? 0 then None else Some (addr_msg w c e)).
Definition aw_code (acceptable : expr) (cs : list rq) : list stmt :=
  chan_code (map (fun c => aw_request acceptable (rq_cond c) (rq_addr c) (rq_len c)) cs).
Definition aw_site (acceptable : expr) (c : rq) : gsite :=
  mkG (rq_cond c) (Some acceptable) [(adr, rq_addr c); (len, EBin Minus (rq_len c) (EInt 1))] []
      (Some (EBin Eq (rq_len c) (EInt 0))).

Lemma aw_code_eq acc cs : aw_code acc cs = chan_code (map (fun a => gcall [] (aw_site acc a)) cs).
Proof. unfold aw_code. apply (f_equal chan_code), map_ext. intros a. unfold aw_request, gcall. f_equal. Qed.

Theorem C20_write_address_held :
  forall w acceptable cs ins, widths w ->
    held_until_ready [adr; len] (chan_trace w (aw_code acceptable cs) chan_reset ins).
Proof.
  intros w acc cs ins Hw. rewrite aw_code_eq.
  exact (lift_held w Hw [adr; len] [] (fun v H => match H with end) (own_P [adr; len] eq_refl) rq (aw_site acc)
           ltac:(intros a; pay_tac) cs ins).
Qed.
Print Assumptions C20_write_address_held.

Theorem C20_write_address_once :
  forall w acceptable cs ins, widths w ->
    let t := chan_trace w (aw_code acceptable cs) chan_reset ins in
    exclusive (map (aw_caller w) cs) t ->
    accepted (aw_ack acceptable) (map (aw_caller w) cs) t =
    transfers [adr; len] t ++ on_offer [adr; len] (chan_final w (aw_code acceptable cs) chan_reset ins).
Proof.
  intros w acc cs ins Hw. rewrite aw_code_eq.
  refine (lift_once w Hw [adr; len] [] (fun v H => match H with end) (own_P [adr; len] eq_refl) rq (aw_site acc)
           (fun c e => if eval e (rq_len c) =? 0 then None else Some (addr_msg w c e)) (aw_ack acc)
           ltac:(reflexivity) ltac:(intros a; pay_tac) _ cs ins).
  intros a e. unfold is_zero. cbn [g_zero aw_site eval sem_bin]. rewrite truth_b2z.
  destruct (eval e (rq_len a) =? 0); reflexivity.
Qed.
Print Assumptions C20_write_address_once.

(** *** Write data channel, through any number (>= 1) of skid buffers to the AXI port *)
Definition w_msg (w : var -> Z) (strb : Z) (c : rq) (e : env) : list Z :=
  [eval e (rq_addr c) mod 2 ^ w dat; eval e (rq_len c) mod 2 ^ w lst; (2 ^ strb - 1) mod 2 ^ w stb].
(** here a call is (condition, data, last) *)
Definition w_caller (w : var -> Z) (strb : Z) (c : rq) : caller :=
  mkCaller (rq_cond c) (fun e => Some (w_msg w strb c e)).
Definition w_code (strb : Z) (cs : list rq) : list stmt :=
  chan_code (map (fun c => w_data strb (rq_cond c) (rq_addr c) (rq_len c)) cs).
Definition w_site (strb : Z) (c : rq) : gsite :=
  mkG (rq_cond c) None [(dat, rq_addr c)] [(lst, rq_len c); (stb, EInt (2 ^ strb - 1))] None.
(** The signals of the whole channel in each cycle: the register side and the port side. *)
Definition w_trace (w : var -> Z) (code : list stmt) (P : list var) (n : nat) (ins : list env) :=
  outs (wsb_next w code P) (wsb_out P) (chan_reset, repeat (sb_init (map (fun _ => 0) P)) n) ins.

Lemma w_code_eq strb cs : w_code strb cs = chan_code (map (fun a => gcall [lst] (w_site strb a)) cs).
Proof. unfold w_code. apply (f_equal chan_code), map_ext. intros a. unfold w_data, gcall. f_equal. Qed.

(** At the AXI port wvalid/wdata/wlast/wstrb are held until wready, and the beats accepted from
    the callers come out of the port once each, in order, at most [2n+1] being under way. *)
Theorem C20_write_data :
  forall w strb cs n ins, widths w -> n <> 0%nat ->
    let t := w_trace w (w_code strb cs) [dat; lst; stb] n ins in
    stable (map snd t) /\
    (exclusive (map (w_caller w strb) cs) (map fst t) ->
     exists inside, accepted free (map (w_caller w strb) cs) (map fst t) = given (map snd t) ++ inside
                    /\ (length inside <= 2 * n + 1)%nat).
Proof.
  intros w strb cs n ins Hw Hn. rewrite w_code_eq.
  destruct (lift_wsb w Hw [dat; lst; stb] [lst] ltac:(intros v [<-|[]]; cbn; auto) (own_P [dat; lst; stb] eq_refl) rq (w_site strb)
           (fun c e => Some (w_msg w strb c e)) free ltac:(reflexivity) ltac:(intros a; pay_tac)
           ltac:(reflexivity) cs n ins) as [H1 H2].
  split; [exact (H1 Hn)|exact H2].
Qed.
Print Assumptions C20_write_data.

(** *** AXI4-Lite *)
Definition lr := (option expr * expr)%type.
Definition lite_msg (w : var -> Z) (c : lr) (e : env) : list Z := [eval e (snd c) mod 2 ^ w adr].
Definition lite_caller (w : var -> Z) (c : lr) : caller := mkCaller (fst c) (fun e => Some (lite_msg w c e)).
Definition lite_ar_code (cs : list lr) : list stmt := chan_code (map (fun c => lite_ar_request (fst c) (snd c)) cs).
Definition lite_aw_code (acc : expr) (cs : list lr) : list stmt :=
  chan_code (map (fun c => lite_aw_request acc (fst c) (snd c)) cs).

Definition lite_site (acc : option expr) (c : lr) : gsite := mkG (fst c) acc [(adr, snd c)] [] None.
Lemma lite_ar_code_eq cs : lite_ar_code cs = chan_code (map (fun a => gcall [] (lite_site None a)) cs).
Proof. unfold lite_ar_code. apply (f_equal chan_code), map_ext. intros a. unfold lite_ar_request, gcall. f_equal. Qed.
Lemma lite_aw_code_eq acc cs : lite_aw_code acc cs = chan_code (map (fun a => gcall [] (lite_site (Some acc) a)) cs).
Proof. unfold lite_aw_code. apply (f_equal chan_code), map_ext. intros a. unfold lite_aw_request, gcall. f_equal. Qed.

Theorem C20_lite_read_address :
  forall w cs ins, widths w ->
    let t := chan_trace w (lite_ar_code cs) chan_reset ins in
    held_until_ready [adr] t /\
    (exclusive (map (lite_caller w) cs) t ->
     accepted free (map (lite_caller w) cs) t =
     transfers [adr] t ++ on_offer [adr] (chan_final w (lite_ar_code cs) chan_reset ins)).
Proof.
  intros w cs ins Hw. rewrite lite_ar_code_eq. split.
  - exact (lift_held w Hw [adr] [] (fun v H => match H with end) (own_P [adr] eq_refl)  lr (lite_site None)
           ltac:(intros a; pay_tac) cs ins).
  - exact (lift_once w Hw [adr] [] (fun v H => match H with end) (own_P [adr] eq_refl)  lr (lite_site None)
           (fun c e => Some (lite_msg w c e)) free ltac:(reflexivity) ltac:(intros a; pay_tac)
           ltac:(reflexivity) cs ins).
Qed.
Print Assumptions C20_lite_read_address.

Theorem C20_lite_write_address :
  forall w acceptable cs ins, widths w ->
    let t := chan_trace w (lite_aw_code acceptable cs) chan_reset ins in
    held_until_ready [adr] t /\
    (exclusive (map (lite_caller w) cs) t ->
     accepted (aw_ack acceptable) (map (lite_caller w) cs) t =
     transfers [adr] t ++ on_offer [adr] (chan_final w (lite_aw_code acceptable cs) chan_reset ins)).
Proof.
  intros w acc cs ins Hw. rewrite lite_aw_code_eq. split.
  - exact (lift_held w Hw [adr] [] (fun v H => match H with end) (own_P [adr] eq_refl)  lr (lite_site (Some acc))
           ltac:(intros a; pay_tac) cs ins).
  - exact (lift_once w Hw [adr] [] (fun v H => match H with end) (own_P [adr] eq_refl)  lr (lite_site (Some acc))
           (fun c e => Some (lite_msg w c e)) (aw_ack acc) ltac:(reflexivity) ltac:(intros a; pay_tac)
           ltac:(reflexivity) cs ins).
Qed.
Print Assumptions C20_lite_write_address.

Definition lite_w_msg (w : var -> Z) (strb : Z) (c : lr) (e : env) : list Z :=
  [eval e (snd c) mod 2 ^ w dat; (2 ^ strb - 1) mod 2 ^ w stb].
Definition lite_w_caller (w : var -> Z) (strb : Z) (c : lr) : caller :=
  mkCaller (fst c) (fun e => Some (lite_w_msg w strb c e)).
Definition lite_w_code (strb : Z) (cs : list lr) : list stmt :=
  chan_code (map (fun c => lite_w_data strb (fst c) (snd c)) cs).

Definition lite_w_site (strb : Z) (c : lr) : gsite :=
  mkG (fst c) None [(dat, snd c)] [(stb, EInt (2 ^ strb - 1))] None.
Lemma lite_w_code_eq strb cs : lite_w_code strb cs = chan_code (map (fun a => gcall [] (lite_w_site strb a)) cs).
Proof. unfold lite_w_code. apply (f_equal chan_code), map_ext. intros a. unfold lite_w_data, gcall. f_equal. Qed.

Theorem C20_lite_write_data :
  forall w strb cs n ins, widths w -> n <> 0%nat ->
    let t := w_trace w (lite_w_code strb cs) [dat; stb] n ins in
    stable (map snd t) /\
    (exclusive (map (lite_w_caller w strb) cs) (map fst t) ->
     exists inside, accepted free (map (lite_w_caller w strb) cs) (map fst t) = given (map snd t) ++ inside
                    /\ (length inside <= 2 * n + 1)%nat).
Proof.
  intros w strb cs n ins Hw Hn.
  rewrite lite_w_code_eq.
  destruct (lift_wsb w Hw [dat; stb] [] (fun v H => match H with end) (own_P [dat; stb] eq_refl)  lr (lite_w_site strb)
           (fun c e => Some (lite_w_msg w strb c e)) free ltac:(reflexivity) ltac:(intros a; pay_tac)
           ltac:(reflexivity) cs n ins) as [H1 H2].
  split; [exact (H1 Hn)|exact H2].
Qed.
Print Assumptions C20_lite_write_data.

(** Non-vacuity: two call sites, a stalled bus, back-to-back requests. *)
Definition ex_w (v : var) : Z :=
  match v with User 2 => 32 | User 3 => 8 | User 4 => 32 | User 6 => 4 | _ => 1 end.
Lemma ex_w_ok : widths ex_w. Proof. split; reflexivity. Qed.
Definition ex_cs : list rq :=
  [(Some (EVar (User 10)), EVar (User 11), EVar (User 12)); (Some (EVar (User 20)), EVar (User 21), EInt 4)].
(** ready, condition 1, address 1, length 1, condition 2, address 2 *)
Definition ex_env (r c1 a1 l1 c2 a2 : Z) : env := fun v =>
  match v with
  | User 1 => r | User 10 => c1 | User 11 => a1 | User 12 => l1 | User 20 => c2 | User 21 => a2
  | _ => 0
  end.
Definition ex_ins : list env :=
  [ex_env 0 1 100 2 0 0; ex_env 0 0 0 0 1 200; ex_env 0 0 0 0 1 200; ex_env 1 0 0 0 1 200;
   ex_env 1 1 300 0 0 0; ex_env 0 0 0 0 0 0; ex_env 1 0 0 0 0 0].
Example ex_ar_exclusive : exclusive (map (ar_caller ex_w) ex_cs) (chan_trace ex_w (ar_code ex_cs) chan_reset ex_ins).
Proof. repeat constructor. Qed.
Example ex_ar_transfers :
  transfers [adr; len] (chan_trace ex_w (ar_code ex_cs) chan_reset ex_ins) = [[100; 1]; [200; 3]; [300; 255]].
Proof. vm_compute. reflexivity. Qed.
(** the write address channel drops the request of length 0 *)
Example ex_aw_transfers :
  transfers [adr; len] (chan_trace ex_w (aw_code (EInt 1) ex_cs) chan_reset ex_ins) = [[100; 1]; [200; 3]].
Proof. vm_compute. reflexivity. Qed.
Example ex_aw_accepted :
  accepted (aw_ack (EInt 1)) (map (aw_caller ex_w) ex_cs) (chan_trace ex_w (aw_code (EInt 1) ex_cs) chan_reset ex_ins)
  = [[100; 1]; [200; 3]].
Proof. vm_compute. reflexivity. Qed.
Example ex_w_given :
  given (map snd (w_trace ex_w (w_code 4 ex_cs) [dat; lst; stb] 2 (ex_ins ++ repeat (ex_env 1 0 0 0 0 0) 6)))
  = [[100; 0; 15]; [200; 0; 15]; [200; 0; 15]; [200; 0; 15]; [300; 0; 15]].
Proof. vm_compute. reflexivity. Qed.
