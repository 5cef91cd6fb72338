(** Statements of an FSM without delays: exactly the requested effects. *)
From Verif Require Import Base Vlog Seq_Model Seq_Spec Seq_Proofs SeqAny_Proofs Fsm_Model Fsm_Spec Fsm_Proofs.
From Coq Require Import Permutation.
Open Scope Z_scope.

Section S.
  Variable fit : var -> Z -> Z.

  Definition body_code (body : list (nat * item)) (i : nat) : list stmt :=
    flat_map (fun p => if Nat.eqb (fst p) i then item_stmts (snd p) else []) body.
  Lemma body_code_app a c i : body_code (a ++ c) i = body_code a i ++ body_code c i.
  Proof. apply flat_map_app. Qed.

  (** what a builder did so far, as an effect *)
  Definition does (body : list (nat * item)) (f : env -> env -> env) : Prop :=
    forall q now nxt, now FState = Z.of_nat q -> execs fit now nxt (body_code body q) = f now nxt.

  Record J (b : fsmb) (cur : nat) (pend : bool) (f : env -> env -> env) (q : seqb) : Prop := {
    j_next : f_next b = kw_empty;
    j_idx : f_next_index b = None;
    j_cur : f_count b = cur;
    j_kw : kw_delay (f_last_kw b) = None;
    j_pend : pend = false -> f_next_else b = false;
    j_del : f_delayed b = [];
    j_amt : f_delay_amount b = O;
    j_seq : f_seq b = q;
    j_does : does (f_body b) f }.

  Lemma does_item body f i it g : does body f ->
    (forall now nxt, execs fit now nxt (item_stmts it) = g now nxt) ->
    does (body ++ [(i, it)]) (fun now nxt => if now FState =? Z.of_nat i then g now (f now nxt) else f now nxt).
  Proof.
    intros D G q now nxt Hq. rewrite body_code_app, execs_app, (D q now nxt Hq). cbn [body_code flat_map fst snd].
    replace (now FState =? Z.of_nat i) with (Nat.eqb i q) by lia.
    destruct (Nat.eqb i q); [rewrite app_nil_r; apply G|reflexivity].
  Qed.
  Lemma does_ext body f g : does body f -> (forall now nxt, (exists q, now FState = Z.of_nat q) -> f now nxt = g now nxt) -> does body g.
  Proof. intros D E q now nxt Hq. rewrite <- E by eauto. apply D, Hq. Qed.
  Lemma does_plain body f i ss : does body f ->
    does (body ++ map (fun s => (i, IPlain s)) ss)
         (fun now nxt => if now FState =? Z.of_nat i then execs fit now (f now nxt) ss else f now nxt).
  Proof.
    intros D q now nxt Hq. rewrite body_code_app, execs_app, (D q now nxt Hq).
    replace (now FState =? Z.of_nat i) with (Nat.eqb i q) by lia.
    replace (body_code (map (fun s => (i, IPlain s)) ss) q) with (if Nat.eqb i q then ss else []).
    - destruct (Nat.eqb i q); reflexivity.
    - unfold body_code. induction ss as [|s ss IH]; cbn [map flat_map fst snd]; [destruct (Nat.eqb i q); reflexivity|].
      rewrite <- IH. destruct (Nat.eqb i q); reflexivity.
  Qed.

  (** the call part of FSM.If/.../call without pending Else *)
  Lemma fcall_J b cs i ss b0 q f lz eg :
    f_elif b = None -> f_next_else b = false ->
    f_next b = mkKw (make_condition cs) None None lz eg ->
    f_body b = f_body b0 -> f_delayed b = [] -> f_delay_amount b = O -> f_seq b = q -> does (f_body b0) f ->
    match f_next_index b with Some j => j | None => f_count b end = i ->
    exists b', fop_call b ss = Some b' /\
      J b' (f_count b) false (fun now nxt => if (now FState =? Z.of_nat i) && all_true now cs then execs fit now (f now nxt) ss else f now nxt) q.
  Proof.
    intros El Ne Nx Eb Ed Ea Es D Hi. unfold fop_call. cbn [clear_next g_last_kw g_next g_next_index f_elif f_next_else]. rewrite El, Ne. cbn [andb].
    eexists. split; [reflexivity|].
    unfold fadd_statement. rewrite Nx. cbn [kw_keep kw_delay kw_cond].
    cbn [g_next_else g_last_if clear_next g_last_kw g_next g_next_index f_count]. rewrite Hi.
    unfold fadd_statement1. destruct (make_condition cs) as [c|] eqn:Ec.
    - constructor; try reflexivity; try assumption.
      + cbn [f_body fadd_dst g_dst g_body g_last_if]. cbn. rewrite Eb.
        eapply does_ext; [apply (does_item _ _ i (IIf [(c, ss)] None) (fun now nxt => if all_true now cs then execs fit now nxt ss else nxt) D)|].
        * intros now nxt. cbn [item_stmts chain_stmts opt_list]. rewrite execs_cons, exec_if, (make_condition_true _ _ _ Ec).
          destruct (all_true now cs); reflexivity.
        * intros now nxt _. cbv beta. destruct (now FState =? Z.of_nat i), (all_true now cs); reflexivity.
    - assert (cs = []) by (destruct cs; [reflexivity|discriminate]). subst cs.
      constructor; try reflexivity; try assumption.
      + cbn. rewrite Eb. eapply does_ext; [apply does_plain, D|]. intros now nxt _. cbn. rewrite andb_true_r. reflexivity.
  Qed.

  Lemma if_fields b cs : f_next b = kw_empty ->
    f_elif (fop_if b cs) = None /\ f_next_else (fop_if b cs) = f_next_else b /\
    f_next (fop_if b cs) = mkKw (make_condition cs) None None None None /\ f_body (fop_if b cs) = f_body b /\
    f_delayed (fop_if b cs) = f_delayed b /\ f_delay_amount (fop_if b cs) = f_delay_amount b /\ f_seq (fop_if b cs) = f_seq b /\
    f_next_index (fop_if b cs) = f_next_index b /\ f_count (fop_if b cs) = f_count b /\ f_last_kw (fop_if b cs) = f_last_kw b /\
    f_last_cond (fop_if b cs) = match make_condition cs with Some c => [c] | None => f_last_cond b end.
  Proof.
    intros H. unfold fop_if. destruct (make_condition cs); cbn; rewrite ?H; cbn; repeat split; try assumption.
  Qed.

  (** chain under construction: [b0] is the builder before the chain *)
  Record CH (b0 b : fsmb) (cur : nat) (q : seqb) (br : list (list expr * list stmt)) : Prop := {
    c_next : f_next b = kw_empty; c_idx : f_next_index b = None; c_cur : f_count b = cur;
    c_kw : kw_delay (f_last_kw b) = None; c_else : f_next_else b = false;
    c_del : f_delayed b = []; c_amt : f_delay_amount b = O; c_seq : f_seq b = q;
    c_body : f_body b = f_body b0 ++ [(cur, IIf (map mk_branch br) None)];
    c_if : f_last_if b = Some (length (f_body b0));
    c_cond : f_last_cond b <> [] }.

  Lemma elif_CH b0 b cur q br p : CH b0 b cur q br -> fst p <> [] ->
    exists b', do_fops b [FElif (fst p); FCall (snd p)] = Some b' /\ CH b0 b' cur q (br ++ [p]).
  Proof.
    intros [N I Cu Kw El Dl Am Sq Bo Li Lc] Hp. destruct p as [cs ss]. cbn [fst snd] in *.
    destruct (negate_last_some _ Lc) as (lc & En & Hlc).
    destruct (make_cond_some _ Hp) as (c & Ec). unfold make_cond in Ec.
    destruct (make_cond_some (lc ++ [c]) ltac:(destruct lc; discriminate)) as (cc & Ecc).
    cbn [do_fops do_fop]. unfold fop_elif. rewrite En, Ec.
    replace (fdelayed_last (g_last_cond b (lc ++ [c]))) with false by (unfold fdelayed_last; cbn; rewrite Kw; reflexivity).
    cbn [g_last_cond f_last_if]. rewrite Li, Ecc. unfold fop_call. cbn.
    rewrite N. cbn. rewrite Li, Bo.
    rewrite (update_nth_last (f_body b0) (cur, IIf (map mk_branch br) None) (fitem (item_elif c ss))
               (cur, IIf (map mk_branch br ++ [(c, ss)]) None) eq_refl).
    eexists. split; [reflexivity|]. constructor; cbn; auto.
    - rewrite map_app. cbn. unfold mk_branch at 3. cbn. rewrite Ec. reflexivity.
    - destruct lc; discriminate.
  Qed.
  Lemma elifs_CH b0 cur q elifs : forall b br, CH b0 b cur q br -> Forall (fun p => fst p <> []) elifs ->
    exists b', do_fops b (flat_map (fun p => [FElif (fst p); FCall (snd p)]) elifs) = Some b' /\ CH b0 b' cur q (br ++ elifs).
  Proof.
    induction elifs as [|p elifs IH]; intros b br Hc Hf.
    - exists b. rewrite app_nil_r. auto.
    - destruct (elif_CH b0 b cur q br p Hc (Forall_inv Hf)) as (b1 & E1 & C1).
      destruct (IH b1 _ C1 (Forall_inv_tail Hf)) as (b2 & E2 & C2). exists b2. rewrite <- app_assoc in C2. split; [|exact C2].
      cbn [flat_map]. rewrite do_fops_app, E1. exact E2.
  Qed.
  Lemma else_CH b0 b cur q br els f : CH b0 b cur q br -> does (f_body b0) f -> Forall (fun p => fst p <> []) br ->
    exists b', do_fops b (match els with Some e => [FElse; FCall e] | None => [] end) = Some b' /\
      J b' cur false (fun now nxt => if now FState =? Z.of_nat cur then execs fit now (f now nxt) (first_branch now br els) else f now nxt) q.
  Proof.
    intros [N I Cu Kw El Dl Am Sq Bo Li Lc] D HF. destruct els as [e|].
    - destruct (negate_last_some _ Lc) as (lc & En & Hlc). destruct (make_cond_some lc Hlc) as (cc & Ecc).
      cbn [do_fops do_fop]. unfold fop_else. cbn [g_elif f_last_cond]. rewrite En.
      replace (fdelayed_last (g_last_cond (g_elif b None) lc)) with false by (unfold fdelayed_last; cbn; rewrite Kw; reflexivity).
      cbn [g_last_cond g_elif f_last_if]. rewrite Li, Ecc. unfold fop_call. cbn. rewrite N. cbn. rewrite Li, Bo.
      rewrite (update_nth_last (f_body b0) (cur, IIf (map mk_branch br) None) (fitem (item_else e))
               (cur, IIf (map mk_branch br) (Some e)) eq_refl).
      eexists. split; [reflexivity|]. constructor; cbn; auto.
      apply (does_item _ _ cur (IIf (map mk_branch br) (Some e)) (fun now nxt => execs fit now nxt (first_branch now br (Some e))) D).
      intros now nxt. cbn [item_stmts]. apply chain_exec, HF.
    - exists b. split; [reflexivity|]. constructor; auto. rewrite Bo.
      apply (does_item _ _ cur (IIf (map mk_branch br) None) (fun now nxt => execs fit now nxt (first_branch now br None)) D).
      intros now nxt. cbn [item_stmts]. apply chain_exec, HF.
  Qed.

  Definition pend_after (pend : bool) (r : freq) : bool :=
    match r with
    | QAssign _ _ _ _ _ _ _ | QChain _ _ _ _ | QGotoNext _ | QInc | QSetIndex _ => false
    | QGotoChain _ _ _ (Some _) => true
    | _ => pend
    end.
  Lemma clean_cons pend r rs : clean pend (r :: rs) -> clean (pend_after pend r) rs /\
    match r with
    | QAssign _ _ d k _ _ _ => d = None /\ k = None /\ pend = false
    | QChain c _ elifs _ => pend = false /\ c <> [] /\ Forall (fun p => fst p <> []) elifs
    | QGotoChain c _ elifs els => c <> [] /\ Forall (fun p => fst p <> []) elifs
    | _ => True end.
  Proof.
    destruct r as [cs a [|] [|] lz eg ss|c ss elifs els|cs a dst els|cs|cs|cs src dst els|c dst elifs [|]| |i|o]; cbn; tauto.
  Qed.

  (** gotos: builder fields *)
  Record G (b b' : fsmb) (cur : nat) (pend : bool) : Prop := {
    g1 : f_next b' = kw_empty; g2 : f_next_index b' = None; g3 : f_count b' = cur;
    g4 : f_last_kw b' = f_last_kw b; g5 : pend = false -> f_next_else b' = f_next_else b;
    g6 : f_delayed b' = f_delayed b; g7 : f_delay_amount b' = f_delay_amount b; g8 : f_seq b' = f_seq b; g9 : f_body b' = f_body b }.
  Lemma G_J b b' cur cur' p p' f q : J b cur p f q -> G b b' cur' p' -> (p' = false -> p = false) -> J b' cur' p' f q.
  Proof.
    intros [A1 A2 A3 A4 A5 A6 A7 A8 A9] [B1 B2 B3 B4 B5 B6 B7 B8 B9] H. constructor; auto.
    - rewrite B4; exact A4.
    - intros Hp. rewrite B5 by exact Hp. apply A5, H, Hp.
    - congruence.
    - congruence.
    - congruence.
    - rewrite B9; exact A9.
  Qed.

  Lemma goto_elifs cur elifs : forall b0 b, G b0 b cur true -> f_last_cond b <> [] -> kw_delay (f_last_kw b) = None ->
    Forall (fun p => fst p <> []) elifs ->
    f_next_else b = f_next_else b0 ->
    exists b', do_fops b (flat_map (fun p => [FElif (fst p); FGoto (snd p) None None]) elifs) = Some b' /\
      G b0 b' cur true /\ f_next_else b' = f_next_else b0 /\ f_last_cond b' <> [] /\ kw_delay (f_last_kw b') = None.
  Proof.
    induction elifs as [|[cs d] elifs IH]; intros b0 b Hg Hl Hk HF Hn; [exists b; auto|].
    cbn [flat_map fst snd]. destruct (negate_last_some _ Hl) as (lc & En & Hlc). pose proof (Forall_inv HF) as Hp. cbn [fst] in Hp.
    destruct (make_cond_some _ Hp) as (c & Ec). unfold make_cond in Ec.
    destruct (make_cond_some (lc ++ [c]) ltac:(destruct lc; discriminate)) as (cc & Ecc).
    rewrite do_fops_app. cbn [do_fops do_fop]. unfold fop_elif. rewrite En, Ec.
    replace (fdelayed_last (g_last_cond b (lc ++ [c]))) with false by (unfold fdelayed_last; cbn; rewrite Hk; reflexivity).
    rewrite Ecc. destruct Hg as [A1 A2 A3 A4 A5 A6 A7 A8 A9].
    apply IH; cbn [g_last_cond f_last_if]; destruct (f_last_if b); cbn; try assumption; try (destruct lc; discriminate);
      try exact (Forall_inv_tail HF); try (constructor; cbn; auto; discriminate).
  Qed.
  Lemma goto_else cur d b0 b : G b0 b cur true -> f_last_cond b <> [] -> kw_delay (f_last_kw b) = None ->
    exists b', do_fops b [FElse; FGoto d None None] = Some b' /\ G b0 b' cur true.
  Proof.
    intros Hg Hl Hk. destruct (negate_last_some _ Hl) as (lc & En & Hlc). destruct (make_cond_some lc Hlc) as (cc & Ecc).
    cbn [do_fops do_fop]. unfold fop_else. cbn [g_elif f_last_cond]. rewrite En.
    replace (fdelayed_last (g_last_cond (g_elif b None) lc)) with false by (unfold fdelayed_last; cbn; rewrite Hk; reflexivity).
    rewrite Ecc. eexists. split; [reflexivity|]. destruct Hg as [A1 A2 A3 A4 A5 A6 A7 A8 A9].
    cbn [g_last_cond g_elif f_last_if]. destruct (f_last_if b); constructor; cbn; auto; discriminate.
  Qed.

  Definition seq_after (q : seqb) (r : freq) : option seqb :=
    match r with QAlways o => do_op q o | _ => Some q end.

  Lemma req_J b cur pend f q r q' : J b cur pend f q -> clean pend [r] -> seq_after q r = Some q' ->
    exists b', do_fops b (fops_of r) = Some b' /\
      J b' (next_cur cur r) (pend_after pend r) (fun now nxt => freq_effect fit cur r now (f now nxt)) q'.
  Proof.
    intros HJ Hcl Hq. apply clean_cons in Hcl. destruct Hcl as [_ Hcl]. pose proof HJ as [A1 A2 A3 A4 A5 A6 A7 A8 A9].
    destruct r as [cs a d k lz eg ss|c ss elifs els|cs a dst els|cs|cs|cs src dst els|c dst elifs els| |i|o];
      cbn [seq_after] in Hq; try (injection Hq as <-); cbn [next_cur pend_after fops_of freq_effect].
    - destruct Hcl as (-> & -> & ->). rewrite !do_fops_app.
      change (opt_op FDelay None) with (@nil fop). change (opt_op FKeep None) with (@nil fop). cbn [do_fops do_fop].
      destruct (if_fields b cs A1) as (F1 & F2 & F3 & F4 & F5 & F6 & F7 & F8 & F9 & _).
      rewrite (A5 eq_refl) in F2. rewrite A6 in F5. rewrite A7 in F6. rewrite A2 in F8. rewrite A8 in F7. rewrite A3 in F9.
      remember (fop_if b cs) as b1 eqn:Eb1. clear Eb1.
      assert (Hm : exists b2, do_fops b1 (opt_op FWhen a) = Some b2 /\ f_elif b2 = None /\ f_next_else b2 = false /\
        f_next b2 = mkKw (make_condition cs) None None None None /\ f_body b2 = f_body b /\ f_delayed b2 = [] /\ f_delay_amount b2 = O /\
        f_seq b2 = q /\ match f_next_index b2 with Some j => j | None => f_count b2 end = match a with Some i => i | None => cur end /\ f_count b2 = cur).
      { destruct a as [i|]; cbn [opt_op do_fops do_fop]; eexists; (split; [reflexivity|]); cbn; rewrite ?F8; repeat split; assumption. }
      rewrite do_fops_app. destruct Hm as (b2 & -> & H1 & H2 & H3 & H4 & H5 & H6 & H7 & H8 & H9). clear b1 F1 F2 F3 F4 F5 F6 F7 F8 F9.
      cbn [app]. rewrite do_fops_app.
      assert (Hm : forall lz eg, exists b3, do_fops b2 (if lz : bool then [FLazy] else []) = Some b3 /\
        exists b4 l e, do_fops b3 (if eg : bool then [FEager] else []) = Some b4 /\ f_elif b4 = None /\ f_next_else b4 = false /\
        f_next b4 = mkKw (make_condition cs) None None l e /\ f_body b4 = f_body b /\ f_delayed b4 = [] /\ f_delay_amount b4 = O /\
        f_seq b4 = q /\ match f_next_index b4 with Some j => j | None => f_count b4 end = match a with Some i => i | None => cur end /\ f_count b4 = cur).
      { intros l e. destruct l, e; cbn [do_fops do_fop]; eexists; (split; [reflexivity|]); eexists; eexists; eexists; (split; [reflexivity|]);
          cbn; rewrite ?H3; cbn; repeat split; try assumption; reflexivity. }
      destruct (Hm lz eg) as (b3 & -> & b4 & l & e & E4 & K1 & K2 & K3 & K4 & K5 & K6 & K7 & K8 & K9).
      destruct (fcall_J b4 cs _ ss b q f l e K1 K2 K3 K4 K5 K6 K7 A9 K8) as (b' & E & HJ'). rewrite K9 in HJ'.
      exists b'. rewrite do_fops_app, E4. cbn [do_fops do_fop]. rewrite E. split; [reflexivity|exact HJ'].
    - destruct Hcl as (-> & Hc & Hel). destruct (if_fields b c A1) as (F1 & F2 & F3 & F4 & F5 & F6 & F7 & F8 & F9 & F10 & F11).
      rewrite do_fops_app. cbn [do_fops do_fop].
      assert (E : exists b1, fop_call (fop_if b c) ss = Some b1 /\ CH b b1 cur q [(c, ss)]).
      { unfold fop_call. cbn [clear_next g_last_kw g_next g_next_index f_elif f_next_else]. rewrite F1, F2, (A5 eq_refl). cbn [andb].
        eexists. split; [reflexivity|]. unfold fadd_statement. rewrite F3. cbn [kw_keep kw_delay kw_cond fadd_statement1].
        destruct (make_condition c) as [cc|] eqn:Ec; [|destruct c; [congruence|discriminate]].
        constructor; cbn; auto.
        - congruence.
        - congruence.
        - congruence.
        - congruence.
        - rewrite F8, F9, F4, A2, A3. unfold mk_branch. cbn. rewrite Ec. reflexivity.
        - rewrite F4. reflexivity.
        - rewrite F11. discriminate. }
      destruct E as (b1 & -> & C1). rewrite do_fops_app.
      destruct (elifs_CH b cur q elifs b1 _ C1 Hel) as (b2 & -> & C2).
      apply (else_CH b b2 cur q _ els f C2 A9). constructor; assumption.
    - destruct (if_fields b cs A1) as (F1 & F2 & F3 & F4 & F5 & F6 & F7 & F8 & F9 & F10 & _).
      rewrite !do_fops_app. cbn [do_fops do_fop].
      destruct a as [i|]; cbn [opt_op do_fops do_fop]; eexists; (split; [reflexivity|]);
        (eapply (G_J b _ cur cur pend pend); [exact HJ| |auto]); constructor; cbn; try reflexivity; congruence.
    - destruct (if_fields b cs A1) as (F1 & F2 & F3 & F4 & F5 & F6 & F7 & F8 & F9 & F10 & _).
      cbn [do_fops do_fop]. eexists; (split; [reflexivity|]);
        (eapply (G_J b _ cur cur pend pend); [exact HJ| |auto]); constructor; cbn; try reflexivity; congruence.
    - destruct (if_fields b cs A1) as (F1 & F2 & F3 & F4 & F5 & F6 & F7 & F8 & F9 & F10 & _).
      cbn [do_fops do_fop]. eexists; (split; [reflexivity|]). constructor; cbn; try reflexivity; try congruence. rewrite F4. exact A9.
    - destruct (if_fields b cs A1) as (F1 & F2 & F3 & F4 & F5 & F6 & F7 & F8 & F9 & F10 & _).
      cbn [do_fops do_fop]. eexists; (split; [reflexivity|]);
        (eapply (G_J b _ cur cur pend pend); [exact HJ| |auto]); constructor; cbn; try reflexivity; congruence.
    - destruct Hcl as (Hc & Hel).
      destruct (if_fields b c A1) as (F1 & F2 & F3 & F4 & F5 & F6 & F7 & F8 & F9 & F10 & F11).
      rewrite do_fops_app. cbn [do_fops do_fop]. rewrite do_fops_app.
      destruct (goto_elifs cur elifs b (fop_goto (fop_if b c) dst None None)) as (b2 & -> & G2 & N2 & L2 & K2).
      + constructor; cbn; try reflexivity; congruence.
      + cbn. rewrite F11. destruct (make_condition c) eqn:Ec; [discriminate|]. destruct c; [congruence|discriminate].
      + cbn. rewrite F10. exact A4.
      + exact Hel.
      + cbn. exact F2.
      + destruct els as [d|].
        * destruct (goto_else cur d b b2 G2 L2 K2) as (b3 & E3 & G3). exists b3. split; [exact E3|].
          eapply G_J; [exact HJ|exact G3|discriminate].
        * exists b2. split; [reflexivity|]. eapply (G_J b b2 cur cur pend pend); [exact HJ| |auto].
          destruct G2 as [B1 B2 B3 B4 B5 B6 B7 B8 B9]. constructor; auto.
    - eexists; split; [reflexivity|]. constructor; cbn; auto. 
    - eexists; split; [reflexivity|]. constructor; cbn; auto.
    - cbn [do_fops do_fop]. rewrite A8, Hq. eexists. split; [reflexivity|]. constructor; cbn; auto.
  Qed.

  Lemma reqs_J rs : forall b cur pend f q q', J b cur pend f q -> clean pend rs -> do_ops q (always_ops rs) = Some q' ->
    exists b' cur' pend', do_fops b (flat_map fops_of rs) = Some b' /\
      J b' cur' pend' (fun now nxt => freq_effects fit cur rs now (f now nxt)) q'.
  Proof.
    induction rs as [|r rs IH]; intros b cur pend f q q' HJ Hc Hq.
    - inversion Hq; subst. exists b, cur, pend. split; [reflexivity|]. exact HJ.
    - assert (Hs : exists q1, seq_after q r = Some q1 /\ do_ops q1 (always_ops rs) = Some q').
      { unfold always_ops in Hq. cbn [flat_map] in Hq. destruct r; try (exists q; split; [reflexivity|exact Hq]).
        cbn [app do_ops] in Hq. destruct (do_op q o) as [q1|] eqn:Eo; [|discriminate]. exists q1. split; [exact Eo|exact Hq]. }
      destruct Hs as (q1 & Hs & Hq1).
      assert (Hc1 : clean pend [r]).
      { destruct r as [cs a [|] [|] lz eg ss|c ss elifs els|cs a dst els|cs|cs|cs src dst els|c dst elifs [|]| |i|o]; cbn in *; tauto. }
      destruct (req_J b cur pend f q r q1 HJ Hc1 Hs) as (b1 & E1 & J1).
      destruct (IH b1 _ _ _ _ q' J1 (proj1 (clean_cons _ _ _ Hc)) Hq1) as (b2 & cur2 & pend2 & E2 & J2).
      exists b2, cur2, pend2. cbn [flat_map]. rewrite do_fops_app, E1. split; [exact E2|exact J2].
  Qed.

  Lemma fsm_statements rs q : clean false rs -> do_ops seq_new (always_ops rs) = Some q ->
    exists b, do_fops fsm_new (flat_map fops_of rs) = Some b /\
      forall s v, is_user v -> (exists i, s FState = Z.of_nat i) ->
        tick fit (make_case b) s v = freq_effects fit 0 rs s (tick fit (make_code q) s) v.
  Proof.
    intros Hc Hq.
    destruct (reqs_J rs fsm_new 0%nat false (fun now nxt => nxt) seq_new q) as (b & cur & pend & E & HJ).
    - constructor; auto. intros i now nxt _. reflexivity.
    - exact Hc.
    - exact Hq.
    - exists b. split; [exact E|]. intros s v Hv [i Hi]. destruct HJ as [A1 A2 A3 A4 A5 A6 A7 A8 A9].
      assert (Ed1 : delayed_substs b = []) by (unfold delayed_substs; rewrite A7; reflexivity).
      assert (Ed2 : delays b = []) by (unfold delays; rewrite A6; reflexivity).
      unfold tick, make_case. rewrite A8, Ed1, Ed2, !execs_app.
      set (n0 := execs fit s s (make_code q)).
      change (execs fit s (execs fit s n0 []) (map _ [])) with n0.
      rewrite <- (A9 i s n0 Hi).
      assert (Hj : forall nxt, execs fit s nxt (map (fun p => state_assign (snd p)) (filter (fun p => Nat.eqb (fst p) i) (f_jump b))) v = nxt v).
      { intros nxt. apply execs_frame. intros H. apply in_flat_map in H. destruct H as (st & Hst & H). apply in_map_iff in Hst.
        destruct Hst as ([src [[d c] e]] & <- & _). cbn [snd state_assign] in H. destruct c; [cbn in H; destruct e|]; cbn in H;
          intuition (subst v; destruct Hv). }
      destruct (in_dec Nat.eq_dec i (indexes b)) as [Hin|Hin].
      + assert (EC : match indexes b with [] => [] | l => [SCase (EVar FState) (map (fun i => (Z.of_nat i, state_code b i)) l)] end =
                     [SCase (EVar FState) (map (fun i => (Z.of_nat i, state_code b i)) (indexes b))])
          by (destruct (indexes b); [destruct Hin|reflexivity]).
        rewrite EC, execs_cons. cbn [execs fold_left].
        rewrite (case_pick fit s n0 FState (state_code b) (indexes b) i Hin Hi). unfold state_code. rewrite execs_app, Hj. reflexivity.
      + assert (Hb : body_code (f_body b) i = []).
        { unfold indexes in Hin. rewrite in_sorted, in_app_iff in Hin. unfold body_code.
          clear - Hin. revert Hin. generalize (f_body b). induction l as [|[k it] l IH]; intros Hin; [reflexivity|].
          cbn [flat_map fst snd map In] in *.
          destruct (Nat.eqb k i) eqn:Ek; [exfalso; apply Hin; left; left; lia|]. apply IH. tauto. }
        rewrite Hb.
        assert (EC : match indexes b with [] => [] | l => [SCase (EVar FState) (map (fun i => (Z.of_nat i, state_code b i)) l)] end = [] \/
                     match indexes b with [] => [] | l => [SCase (EVar FState) (map (fun i => (Z.of_nat i, state_code b i)) l)] end =
                     [SCase (EVar FState) (map (fun i => (Z.of_nat i, state_code b i)) (indexes b))])
          by (destruct (indexes b); auto).
        destruct EC as [-> | ->]; [reflexivity|]. rewrite execs_cons. cbn [execs fold_left].
        rewrite case_none; [reflexivity|]. intros k body Hk Hz. apply in_map_iff in Hk. destruct Hk as (j & Ej & Hj').
        inversion Ej as [[Ek Eb]]. cbn [eval] in Hz. apply Hin. assert (i = j) by lia. subst j. exact Hj'.
  Qed.
End S.

Lemma stacked_ifs_same cs : forall b a rest, f_next b = kw_empty ->
  do_fops b (FIf [a] :: map (fun c => FIf [c]) cs ++ rest) = do_fops b (FIf (a :: cs) :: rest).
Proof.
  intros b a rest Hn. cbn [do_fops do_fop].
  assert (H : forall cs a b1, b1 = g_last_cond (g_next (g_elif b None) (set_cond kw_empty a)) [a] ->
     do_fops b1 (map (fun c => FIf [c]) cs ++ rest)
     = do_fops (g_last_cond (g_next (g_elif b None) (set_cond kw_empty (fold_left ands cs a))) [fold_left ands cs a]) rest).
  { clear. induction cs as [|c cs IH]; intros a b1 ->; [reflexivity|]. cbn [map app do_fops do_fop fold_left].
    apply IH. reflexivity. }
  assert (E : forall cs, fop_if b (a :: cs) = g_last_cond (g_next (g_elif b None) (set_cond kw_empty (fold_left ands cs a))) [fold_left ands cs a]).
  { intros l. unfold fop_if. cbn [make_condition]. change (f_next (g_elif b None)) with (f_next b). rewrite Hn. reflexivity. }
  rewrite (E cs), (E []). apply H. reflexivity.
Qed.
