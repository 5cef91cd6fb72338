From Verif Require Import Base Vlog Seq_Model Seq_Spec Seq_Proofs SeqAny_Proofs Fsm_Model Fsm_Spec.
From Coq Require Import Permutation.
Open Scope Z_scope.

(** ** Case form and if form *)
Lemma case_none fit old nxt e ws : (forall k b, In (k, b) ws -> eval old e <> k) ->
  exec fit old nxt (SCase e ws) = nxt.
Proof.
  cbn [exec]. induction ws as [|[k b] ws IH]; intros H; [reflexivity|].
  destruct (eval old e =? k) eqn:E; [|apply IH; intros; eapply H; right; eauto].
  exfalso. apply (H k b); [left; reflexivity|lia].
Qed.
Lemma case_pick fit old nxt v (body : nat -> list stmt) l i : In i l -> old v = Z.of_nat i ->
  exec fit old nxt (SCase (EVar v) (map (fun i => (Z.of_nat i, body i)) l)) = execs fit old nxt (body i).
Proof.
  intros Hi Hv. cbn [exec]. induction l as [|j l IH]; [destruct Hi|]. cbn [map eval]. rewrite Hv.
  destruct (Z.of_nat i =? Z.of_nat j) eqn:E.
  - assert (i = j) by lia. subst. reflexivity.
  - destruct Hi as [->|Hi]; [lia|]. specialize (IH Hi). cbn [eval] in IH. rewrite Hv in IH. exact IH.
Qed.
Lemma ifs_none fit old nxt v (body : nat -> list stmt) l : (forall i, In i l -> old v <> Z.of_nat i) ->
  execs fit old nxt (map (fun i => SIf (is_state v i) (body i) []) l) = nxt.
Proof.
  revert nxt; induction l as [|i l IH]; intros nxt H; [reflexivity|].
  cbn [map]. rewrite execs_cons, exec_if. unfold is_state at 1. cbn [eval sem_bin]. rewrite truth_b2z.
  destruct (old v =? Z.of_nat i) eqn:E; [exfalso; apply (H i); [left; reflexivity|lia]|].
  apply IH. intros; apply H; right; assumption.
Qed.
Lemma case_ifs fit old nxt v (body : nat -> list stmt) l : NoDup l ->
  execs fit old nxt (map (fun i => SIf (is_state v i) (body i) []) l) =
  exec fit old nxt (SCase (EVar v) (map (fun i => (Z.of_nat i, body i)) l)).
Proof.
  revert nxt; induction l as [|i l IH]; intros nxt Hn; [reflexivity|].
  inversion Hn as [|? ? H1 H2]; subst. cbn [map]. rewrite execs_cons, exec_if. unfold is_state at 1.
  cbn [exec eval sem_bin]. rewrite truth_b2z. destruct (old v =? Z.of_nat i) eqn:E.
  - rewrite ifs_none; [reflexivity|]. intros j Hj Hv. assert (i = j) by lia. subst. contradiction.
  - exact (IH nxt H2).
Qed.

Lemma sorted_nodup l : NoDup (sorted_indexes l).
Proof. apply NoDup_filter, seq_NoDup. Qed.
Lemma in_sorted l i : In i (sorted_indexes l) <-> In i l.
Proof.
  unfold sorted_indexes. rewrite filter_In, in_seq. split.
  - intros [_ H]. apply existsb_exists in H. destruct H as [j [Hj E]]. assert (i = j) by lia. subst; exact Hj.
  - intros H. split.
    + pose proof (proj1 (list_max_le l (list_max l)) (le_n _)) as HF. rewrite Forall_forall in HF.
      specialize (HF i H). lia.
    + apply existsb_exists. exists i. split; [exact H|apply Nat.eqb_refl].
Qed.

Lemma case_if_same fit b s nxt : execs fit s nxt (make_case b) = execs fit s nxt (make_if b).
Proof.
  unfold make_case, make_if. rewrite !execs_app.
  set (n0 := execs fit s (execs fit s nxt (make_code (f_seq b))) (delayed_substs b)). clearbody n0.
  assert (E : forall ds n, execs fit s n (map (fun d => SCase (EVar (delayed_var d))
                     (map (fun i => (Z.of_nat i, delayed_code b d i)) (delayed_indexes b d))) ds) =
              execs fit s n (flat_map (fun d => map (fun i => SIf (is_state (delayed_var d) i) (delayed_code b d i) [])
                            (delayed_indexes b d)) ds)).
  { induction ds as [|d ds IH]; intros n; [reflexivity|]. cbn [map flat_map]. rewrite execs_cons, execs_app.
    rewrite IH. f_equal. symmetry. apply case_ifs, sorted_nodup. }
  rewrite E. set (n1 := execs fit s n0 _). clearbody n1.
  rewrite case_ifs by apply sorted_nodup. unfold indexes.
  destruct (sorted_indexes _); reflexivity.
Qed.

Lemma always_same fit b ui rst s :
  tick fit (fmake_always b ui rst true) s = tick fit (fmake_always b ui rst false) s.
Proof.
  unfold fmake_always, tick. rewrite !execs_cons, !exec_if. destruct (truth (eval s rst)); [reflexivity|].
  cbn [execs fold_left]. rewrite case_if_same. reflexivity.
Qed.
Lemma trace_ext fit c1 c2 : (forall s, tick fit c1 s = tick fit c2 s) -> forall ins s,
  code_trace fit c1 s ins = code_trace fit c2 s ins.
Proof.
  intros H. induction ins as [|i ins IH]; intros s; [reflexivity|]. cbn [code_trace]. rewrite H, IH. reflexivity.
Qed.

(** ** The state register is written by jumps only *)
Definition not_state (v : var) : Prop := match v with FState | DState _ => False | _ => True end.
Definition nofs (l : list var) : Prop := Forall not_state l.
Definition body_writes (b : fsmb) : list var := flat_map (fun p => flat_map writes (item_stmts (snd p))) (f_body b).
Definition delayed_writes (b : fsmb) : list var := flat_map (fun p => writes (snd p)) (f_delayed b).
Record NF (b : fsmb) : Prop := {
  nf_body : nofs (body_writes b);
  nf_delayed : nofs (delayed_writes b);
  nf_seq : W (f_seq b);
  nf_dst : nofs (map lhs_var (f_dst b)) }.

Lemma user_nofs l : (forall v, In v l -> is_user v) -> nofs l.
Proof. intros H. apply Forall_forall. intros v Hv. specialize (H v Hv). destruct v; try contradiction; exact I. Qed.
Lemma nofs_app a b : nofs (a ++ b) <-> nofs a /\ nofs b.
Proof. apply Forall_app. Qed.
Lemma NF_new : NF fsm_new.
Proof. constructor; try constructor. apply W_new. apply W_new. Qed.
Lemma add_dst_nofs ls : forall ds, nofs (map lhs_var ds) -> nofs (map lhs_var ls) ->
  nofs (map lhs_var (fold_left add_dst1 ls ds)).
Proof.
  induction ls as [|l ls IH]; intros ds Hd Hl; [exact Hd|]. cbn [fold_left]. apply IH; [|exact (Forall_inv_tail Hl)].
  unfold add_dst1. destruct (in_dec _ _ _); [exact Hd|]. rewrite map_app. apply nofs_app. split; [exact Hd|].
  constructor; [exact (Forall_inv Hl)|constructor].
Qed.
Lemma add_dsts_nofs ss ds : nofs (map lhs_var ds) -> nofs (flat_map writes ss) ->
  nofs (map lhs_var (fold_left add_dst1 (flat_map dsts ss) ds)).
Proof. intros A B. apply add_dst_nofs; [exact A|]. rewrite <- writes_dsts_all. exact B. Qed.

(** NF depends on these fields only *)
Definition fcore (b : fsmb) := (f_body b, f_delayed b, f_seq b, f_dst b).
Lemma NF_core b b' : fcore b' = fcore b -> NF b -> NF b'.
Proof.
  unfold fcore. intros E [A B C D0]. injection E as E1 E2 E3 E4.
  constructor; unfold body_writes, delayed_writes; rewrite ?E1, ?E2, ?E3, ?E4; assumption.
Qed.

Lemma NF_inits b x : NF b -> NF (g_inits b x).
Proof. apply NF_core. reflexivity. Qed.
Lemma NF_amount b d : NF b -> NF (add_delayed_state b d).
Proof. apply NF_core. reflexivity. Qed.
Lemma NF_tmp b x : NF b -> NF (g_tmp b x).
Proof. apply NF_core. reflexivity. Qed.

Lemma push_NF b d i ss : NF b -> nofs (flat_map writes ss) -> NF (fpush_plain b d i ss).
Proof.
  intros [A B C D0] H. destruct d; constructor; try assumption; try (apply add_dsts_nofs; assumption).
  - unfold body_writes, fpush_plain. cbn [f_body fadd_dst g_dst g_body]. rewrite flat_map_app. apply nofs_app. split; [exact A|].
    replace (flat_map _ (map (fun s => (i, IPlain s)) ss)) with (flat_map writes ss); [exact H|].
    clear. induction ss as [|s ss IH]; [reflexivity|]. cbn. rewrite IH, app_nil_r. reflexivity.
  - unfold delayed_writes, fpush_plain. cbn [f_delayed fadd_dst g_dst g_delayed]. rewrite flat_map_app. apply nofs_app. split; [exact B|].
    replace (flat_map _ (map _ ss)) with (flat_map writes ss); [exact H|].
    clear. induction ss as [|s ss IH]; [reflexivity|]. cbn. rewrite IH. reflexivity.
Qed.

Lemma fcond_chain_NF k n : forall i prev b b' q, NF b -> fcond_chain k n i prev b = (b', q) -> NF b'.
Proof.
  induction n as [|n IH]; intros i prev b b' q H E; cbn [fcond_chain] in E; [inversion E; subst; exact H|].
  eapply IH; [|exact E]. apply NF_inits, push_NF; [apply NF_amount, H|].
  repeat constructor.
Qed.
Lemma fval_chain_NF l k n : forall i prev b b' q, NF b -> fval_chain l k n i prev b = (b', q) -> NF b'.
Proof.
  induction n as [|n IH]; intros i prev b b' q H E; cbn [fval_chain] in E; [inversion E; subst; exact H|].
  eapply IH; [|exact E]. apply NF_inits, push_NF; [apply NF_amount, H|].
  constructor; [|constructor]. destruct l as [[]|? ?|? ? ?]; exact I.
Qed.
Lemma fadd_delayed_subst_NF b s d b' s' : NF b -> fadd_delayed_subst b s d = (b', s') ->
  NF b' /\ writes s' = writes s.
Proof.
  intros H E. unfold fadd_delayed_subst in E. destruct s as [l e|c t f|e ws]; try (inversion E; subst; auto; fail).
  destruct (is_const e); [inversion E; subst; auto|].
  destruct (fval_chain _ _ _ _ _ _) as [b1 e1] eqn:E1. inversion E; subst. split; [|reflexivity].
  eapply fval_chain_NF; [|exact E1]. apply NF_tmp, H.
Qed.
Lemma fadd_delayed_substs_NF ss : forall b d b' ss', NF b -> fadd_delayed_substs b ss d = (b', ss') ->
  NF b' /\ flat_map writes ss' = flat_map writes ss.
Proof.
  induction ss as [|s ss IH]; intros b d b' ss' H E; cbn [fadd_delayed_substs] in E; [inversion E; subst; auto|].
  destruct (fadd_delayed_subst b s d) as [b1 s1] eqn:E1. destruct (fadd_delayed_substs b1 ss d) as [b2 ss2] eqn:E2.
  inversion E; subst. destruct (fadd_delayed_subst_NF _ _ _ _ _ H E1) as [H1 H2].
  destruct (IH _ _ _ _ H1 E2) as [H3 H4]. split; [exact H3|]. cbn [flat_map]. congruence.
Qed.

Lemma add1_NF b ss idx d c lz eg : NF b -> nofs (flat_map writes ss) -> NF (fadd_statement1 b ss idx d c lz eg).
Proof.
  intros H Hw. destruct d as [|d].
  - cbn [fadd_statement1]. destruct c as [c|]; [|apply push_NF; assumption].
    destruct H as [A B C D0]. constructor; try assumption; try (apply add_dsts_nofs; assumption).
    unfold body_writes. cbn [f_body fadd_dst g_dst g_body g_last_if]. rewrite flat_map_app. apply nofs_app. split; [exact A|].
    cbn. rewrite !app_nil_r. exact Hw.
  - unfold fadd_statement1.
    assert (H0 : NF (add_delayed_state b (S d))) by (apply NF_amount, H).
    destruct (if eg then fadd_delayed_substs (add_delayed_state b (S d)) ss (S d) else (add_delayed_state b (S d), ss)) as [b1 ss1] eqn:E1.
    assert (H1 : NF b1 /\ flat_map writes ss1 = flat_map writes ss).
    { destruct eg; [eapply fadd_delayed_substs_NF; eauto|inversion E1; subst; auto]. }
    destruct H1 as [H1 Hw1].
    set (c0 := match c with None => EInt 1 | Some c => c end).
    destruct (if lz then _ else _) as [b2 c1] eqn:E2.
    assert (H2 : NF b2).
    { destruct lz.
      - unfold fadd_delayed_cond in E2. destruct (fcond_chain _ _ _ _ _) as [b3 t] eqn:E3. inversion E2; subst.
        eapply fcond_chain_NF; [|exact E3]. apply NF_tmp, H1.
      - unfold fadd_delayed_cond in E2. eapply fcond_chain_NF; [|exact E2]. apply NF_tmp, H1. }
    apply push_NF; [exact H2|]. cbn. rewrite !app_nil_r, Hw1. exact Hw.
Qed.
Lemma add_NF b ss k idx : NF b -> nofs (flat_map writes ss) -> NF (fadd_statement b ss k idx).
Proof.
  intros H Hw. unfold fadd_statement. destruct (kw_keep k) as [n|]; [|apply add1_NF; assumption].
  revert b H. induction (seq 0 n) as [|i l IH]; intros b H; [exact H|]. cbn [fold_left].
  set (i0 := match idx with Some i => i | None => f_count b end) in *.
  assert (G : forall l b', NF b' -> NF (fold_left (fun b1 i => fadd_statement1 b1 ss i0 (match kw_delay k with Some d => d | None => O end + i) (kw_cond k)
     (match kw_lazy k with Some x => x | None => false end) (match kw_eager k with Some x => x | None => false end)) l b')).
  { clear -Hw. induction l as [|i l IH]; intros b' H'; [exact H'|]. cbn [fold_left]. apply IH, add1_NF; assumption. }
  apply G, add1_NF; assumption.
Qed.

Lemma item_ext_writes ss x y : item_ext ss x y -> forall v, In v (flat_map writes (item_stmts y)) ->
  In v (flat_map writes (item_stmts x)) \/ In v (flat_map writes ss).
Proof.
  intros (br & els & br' & els' & _ & _ & Hd) v Hv.
  rewrite writes_dsts_all, Hd, map_app in Hv. rewrite !writes_dsts_all. apply in_app_iff in Hv. exact Hv.
Qed.

Definition fop_user (o : fop) : Prop :=
  match o with
  | FCall ss => forall v, In v (flat_map writes ss) -> is_user v
  | FSeq o => op_user o
  | _ => True
  end.

Lemma update_body_NF b p f ss body : NF b -> (forall x y, f x = Some y -> item_ext ss x y) ->
  nofs (flat_map writes ss) -> update_nth p (fitem f) (f_body b) = Some body -> NF (fadd_dst (g_body b body) ss).
Proof.
  intros [A B C D0] Hf Hw E. constructor; try assumption; try (apply add_dsts_nofs; assumption).
  unfold body_writes. cbn [fadd_dst g_dst g_body f_body].
  destruct (update_nth_split (fitem f) (f_body b) p body E) as (l1 & [i x] & [j y] & l2 & E1 & E2 & E3).
  unfold body_writes in A. rewrite E1, flat_map_app in A. apply nofs_app in A. destruct A as [A1 A2].
  cbn [flat_map snd] in A2. apply nofs_app in A2. destruct A2 as [A2 A3].
  unfold fitem in E3. cbn [snd fst] in E3. destruct (f x) as [y'|] eqn:Ey; [|discriminate]. inversion E3; subst y' j.
  rewrite E2, flat_map_app. apply nofs_app. split; [exact A1|]. cbn [flat_map snd]. apply nofs_app. split; [|exact A3].
  apply Forall_forall. intros v Hv. destruct (item_ext_writes ss x y (Hf _ _ Ey) v Hv) as [H|H].
  - unfold nofs in A2. rewrite Forall_forall in A2. auto.
  - unfold nofs in Hw. rewrite Forall_forall in Hw. auto.
Qed.

Lemma fop_call_NF b ss b' : NF b -> nofs (flat_map writes ss) -> fop_call b ss = Some b' -> NF b'.
Proof.
  intros H Hw E. unfold fop_call in E. set (b1 := clear_next (g_last_kw b (f_next b))) in *.
  assert (H1 : NF b1) by (revert H; apply NF_core; reflexivity).
  assert (Hlast : forall ha, (if f_next_else b1 && negb ha then
        match f_last_if b1 with
        | None => None
        | Some p =>
            match update_nth p (fitem (item_else ss)) (f_body b1) with
            | None => None
            | Some body =>
                Some (g_elif (g_next_else (g_last_if (fadd_dst (g_body b1 body) ss) None) false) None)
            end
        end
      else Some (fadd_statement (g_next_else (g_last_if b1 None) false) ss (f_next b) (f_next_index b))) = Some b' -> NF b').
  { intros ha E'. destruct (f_next_else b1 && negb ha).
    - destruct (f_last_if b1) as [p|]; [|discriminate]. destruct (update_nth p _ _) as [body|] eqn:Eu; [|discriminate].
      inversion E'; subst. apply (NF_core (fadd_dst (g_body b1 body) ss)); [reflexivity|].
      eapply update_body_NF; [exact H1|apply item_else_ext|exact Hw|exact Eu].
    - inversion E'; subst. apply add_NF; [|exact Hw]. revert H1; apply NF_core; reflexivity. }
  destruct (f_elif b1) as [ec|]; [|eapply Hlast; exact E].
  destruct (has_args (f_next b)); [eapply Hlast; exact E|].
  destruct (f_last_if b1) as [p|]; [|discriminate]. destruct (update_nth p _ _) as [body|] eqn:Eu; [|discriminate].
  inversion E; subst. apply (NF_core (fadd_dst (g_body b1 body) ss)); [reflexivity|].
  eapply update_body_NF; [exact H1|apply item_elif_ext|exact Hw|exact Eu].
Qed.

Lemma fop_if_core b cs : fcore (fop_if b cs) = fcore b.
Proof. unfold fop_if. destruct (make_condition cs); reflexivity. Qed.
Lemma fop_then_core b : fcore (fop_then b) = fcore b.
Proof. unfold fop_then. destruct (make_cond _); rewrite fop_if_core; reflexivity. Qed.

Lemma do_fop_NF b o b' : NF b -> fop_user o -> do_fop b o = Some b' -> NF b'.
Proof.
  intros H Hu E.
  destruct o; cbn [do_fop] in E; try (inversion E; subst; revert H; apply NF_core; reflexivity).
  - inversion E; subst. revert H; apply NF_core, fop_if_core.
  - unfold fop_else in E. destruct (negate_last _) as [lc|]; [|discriminate].
    destruct (fdelayed_last _).
    + inversion E; subst. revert H. apply NF_core. apply (fop_then_core (g_last_cond (g_elif b None) lc)).
    + destruct (make_cond lc); [|discriminate]. inversion E; subst. revert H; apply NF_core. destruct (f_last_if _); reflexivity.
  - unfold fop_elif in E. destruct (negate_last _) as [lc|]; [|discriminate]. destruct (make_condition cs) as [c|]; [|discriminate].
    destruct (fdelayed_last _).
    + inversion E; subst. revert H. apply NF_core. apply (fop_then_core (g_last_cond b (lc ++ [c]))).
    + destruct (make_cond _); [|discriminate]. inversion E; subst. revert H; apply NF_core. destruct (f_last_if _); reflexivity.
  - inversion E; subst. revert H; apply NF_core, fop_then_core.
  - eapply fop_call_NF; eauto. apply user_nofs, Hu.
  - destruct (do_op (f_seq b) o) as [q|] eqn:Eq; [|discriminate]. inversion E; subst.
    destruct H as [A B C D0]. constructor; try assumption. cbn. eapply do_op_W; [exact C|exact Hu|exact Eq].
Qed.
Lemma do_fops_NF os : forall b b', NF b -> Forall fop_user os -> do_fops b os = Some b' -> NF b'.
Proof.
  induction os as [|o os IH]; intros b b' H Hu E; cbn [do_fops] in E; [inversion E; subst; exact H|].
  destruct (do_fop b o) as [b1|] eqn:E1; [|discriminate].
  eapply IH; [eapply do_fop_NF; [exact H|exact (Forall_inv Hu)|exact E1]|exact (Forall_inv_tail Hu)|exact E].
Qed.

(** ** The state register after a clock edge *)
Definition jrule (p : nat * (nat * option expr * option nat)) : rule :=
  let '(src, (dst, c, els)) := p in
  (src, fun e => match c with None => Some dst | Some c => if truth (eval e c) then Some dst else els end).

Lemma decide_app a b z e : decide_last (a ++ b) z e =
  match decide_last b z e with Some d => Some d | None => decide_last a z e end.
Proof.
  induction a as [|[src f] a IH]; cbn [app decide_last]; [destruct (decide_last b z e); reflexivity|].
  rewrite IH. destruct (decide_last b z e); reflexivity.
Qed.

Lemma jumps_exec fit old js q : forall nxt, old FState = Z.of_nat q ->
  execs fit old nxt (map (fun p => state_assign (snd p)) (filter (fun p => Nat.eqb (fst p) q) js)) FState =
  match decide_last (map jrule js) (Z.of_nat q) old with Some d => fit FState (Z.of_nat d) | None => nxt FState end.
Proof.
  induction js as [|[src [[dst c] els]] js IH]; intros nxt Hq; [reflexivity|].
  cbn [filter fst map decide_last jrule].
  assert (Eb : (Z.of_nat q =? Z.of_nat src) = Nat.eqb src q) by lia. rewrite Eb.
  destruct (Nat.eqb src q).
  - cbn [map snd]. rewrite execs_cons, IH by exact Hq.
    destruct (decide_last (map jrule js) (Z.of_nat q) old); [reflexivity|].
    unfold state_assign. destruct c as [c|].
    + rewrite exec_if. destruct (truth (eval old c)); [apply vset_same|]. destruct els; [apply vset_same|reflexivity].
    + apply vset_same.
  - rewrite IH by exact Hq. destruct (decide_last _ _ _); reflexivity.
Qed.

Lemma decide_none js z e : (forall src x, In (src, x) js -> z <> Z.of_nat src) -> decide_last (map jrule js) z e = None.
Proof.
  induction js as [|[src [[dst c] els]] js IH]; intros H; [reflexivity|]. cbn [map decide_last jrule].
  rewrite IH by (intros; eapply H; right; eauto).
  destruct (z =? Z.of_nat src) eqn:E; [|reflexivity]. exfalso. apply (H src (dst, c, els)); [left; reflexivity|lia].
Qed.

Lemma nofs_not_in l v : nofs l -> ~ not_state v -> ~ In v l.
Proof. unfold nofs. rewrite Forall_forall. intros H Hn Hi. exact (Hn (H v Hi)). Qed.

Lemma seq_nofs q : W q -> nofs (flat_map writes (make_code q)).
Proof.
  intros [[G _ _ _] _]. apply Forall_forall. intros v Hv.
  destruct (is_userb v) eqn:Eu; [destruct v; try discriminate; exact I|].
  assert (Hg : In v (gens (all_stmts q))).
  { apply in_gens. split; [|intros Hu; apply is_userb_spec in Hu; congruence].
    destruct G as [_ _ Gd]. eapply Permutation_in; [apply Permutation_flat_map, make_code_perm; exact Gd|exact Hv]. }
  destruct G as [_ Gf _]. specialize (Gf v Hg). destruct v; try exact I; destruct Gf.
Qed.

Lemma make_case_state fit b s : NF b ->
  tick fit (make_case b) s FState =
  match decide_last (map jrule (f_jump b)) (s FState) s with Some d => fit FState (Z.of_nat d) | None => s FState end.
Proof.
  intros [A B C _]. unfold tick, make_case. rewrite !execs_app.
  set (n1 := execs fit s (execs fit s (execs fit s s (make_code (f_seq b))) (delayed_substs b)) _).
  assert (E1 : n1 FState = s FState).
  { unfold n1. rewrite !execs_frame; [reflexivity| | |].
    - apply nofs_not_in; [apply seq_nofs, C|exact (fun x => x)].
    - unfold delayed_substs. intros H. apply in_flat_map in H. destruct H as [st [Hs H]].
      apply in_map_iff in Hs. destruct Hs as [d [<- _]]. cbn in H. destruct H as [H|[]]; discriminate.
    - apply nofs_not_in; [|exact (fun x => x)]. apply Forall_forall. intros v Hv. unfold nofs in B. rewrite Forall_forall in B.
      apply B. apply in_flat_map in Hv. destruct Hv as [st [Hs Hv]]. apply in_map_iff in Hs. destruct Hs as [d [<- _]].
      cbn [writes] in Hv. apply in_flat_map in Hv. destruct Hv as [[k body] [Hk Hv]]. apply in_map_iff in Hk.
      destruct Hk as [i [Ei _]]. inversion Ei; subst. cbn [snd] in Hv. apply in_flat_map in Hv. destruct Hv as [s0 [Hs0 Hv]].
      unfold delayed_code in Hs0. apply in_map_iff in Hs0. destruct Hs0 as [p [<- Hp]]. apply filter_In in Hp.
      unfold delayed_writes. apply in_flat_map. exists p. split; [apply Hp|exact Hv]. }
  clearbody n1. rewrite <- E1.
  assert (Hidx : forall i, In i (indexes b) <-> In i (map fst (f_body b) ++ map fst (f_jump b))) by (intros; apply in_sorted).
  assert (E2 : match indexes b with [] => [] | l => [SCase (EVar FState) (map (fun i => (Z.of_nat i, state_code b i)) l)] end = [] /\ indexes b = [] \/
               match indexes b with [] => [] | l => [SCase (EVar FState) (map (fun i => (Z.of_nat i, state_code b i)) l)] end =
                 [SCase (EVar FState) (map (fun i => (Z.of_nat i, state_code b i)) (indexes b))]).
  { destruct (indexes b); auto. }
  destruct E2 as [[-> E2]| ->].
  - cbn [execs fold_left]. rewrite decide_none; [reflexivity|].
    intros src x Hx. exfalso. assert (Hin : In src (indexes b)).
    { apply Hidx, in_or_app. right. apply in_map_iff. exists (src, x). auto. }
    rewrite E2 in Hin. destruct Hin.
  - rewrite execs_cons. cbn [execs fold_left].
    destruct (in_dec Z.eq_dec (s FState) (map Z.of_nat (indexes b))) as [Hi|Hi].
    + apply in_map_iff in Hi. destruct Hi as [q [Hq Hi]].
      rewrite (case_pick fit s n1 FState (state_code b) (indexes b) q Hi (eq_sym Hq)).
      unfold state_code. rewrite execs_app. rewrite jumps_exec by (symmetry; exact Hq). rewrite E1, <- Hq.
      destruct (decide_last _ _ _); [reflexivity|].
      rewrite execs_frame; [rewrite E1; symmetry; exact Hq|].
      apply nofs_not_in; [|exact (fun x => x)]. apply Forall_forall. intros v Hv. unfold nofs in A. rewrite Forall_forall in A. apply A.
      apply in_flat_map in Hv. destruct Hv as [st [Hs Hv]]. apply in_flat_map in Hs. destruct Hs as [p [Hp Hs]].
      unfold body_writes. apply in_flat_map. exists p. split; [exact Hp|]. destruct (Nat.eqb (fst p) q); [|destruct Hs].
      apply in_flat_map. eauto.
    + rewrite case_none.
      * rewrite decide_none; [reflexivity|]. rewrite E1. intros src x Hx Hz. apply Hi. apply in_map_iff. exists src. split; [auto|].
        apply Hidx, in_or_app. right. apply in_map_iff. exists (src, x). auto.
      * intros k body Hk Hz. apply in_map_iff in Hk. destruct Hk as [i [Ei Hin]]. inversion Ei as [[Ek Eb]]. cbn [eval] in Hz.
        apply Hi. rewrite Hz, <- Ek. apply in_map. exact Hin.
Qed.

(** ** The jump table built by a program *)
Definition tracks (b : fsmb) (cur : nat) (rl : list rule) : Prop :=
  f_next b = kw_empty /\ f_next_index b = None /\ f_count b = cur /\
  forall z e, decide_last (map jrule (f_jump b)) z e = decide_last rl z e.

Lemma do_fops_app a c b : do_fops b (a ++ c) = match do_fops b a with Some b' => do_fops b' c | None => None end.
Proof. revert b; induction a as [|o a IH]; intros b; cbn; [reflexivity|]. destruct (do_fop b o); auto. Qed.

(** fields that matter for transitions *)
Definition tcore (b : fsmb) := (f_jump b, f_count b).
Lemma push_tcore b d i ss : tcore (fpush_plain b d i ss) = tcore b /\ f_next (fpush_plain b d i ss) = f_next b
  /\ f_next_index (fpush_plain b d i ss) = f_next_index b.
Proof. destruct d; repeat split. Qed.
Definition ncore (b : fsmb) := (f_jump b, f_count b, f_next b, f_next_index b).
Lemma push_ncore b d i ss : ncore (fpush_plain b d i ss) = ncore b.
Proof. destruct d; reflexivity. Qed.
Lemma fcond_chain_ncore k n : forall i prev b b' q, fcond_chain k n i prev b = (b', q) -> ncore b' = ncore b.
Proof.
  induction n as [|n IH]; intros i prev b b' q E; cbn [fcond_chain] in E; [inversion E; reflexivity|].
  apply IH in E. rewrite E. transitivity (ncore (fpush_plain (add_delayed_state b i) i (f_count b) [SSub (LVar (FCondR k (S i))) prev])); [reflexivity|].
  rewrite push_ncore. reflexivity.
Qed.
Lemma fval_chain_ncore l k n : forall i prev b b' q, fval_chain l k n i prev b = (b', q) -> ncore b' = ncore b.
Proof.
  induction n as [|n IH]; intros i prev b b' q E; cbn [fval_chain] in E; [inversion E; reflexivity|].
  apply IH in E. rewrite E. transitivity (ncore (fpush_plain (add_delayed_state b i) i (f_count b) [SSub (LVar (fsbst_reg l k (S i))) prev])); [reflexivity|].
  rewrite push_ncore. reflexivity.
Qed.
Lemma fadd_delayed_substs_ncore ss : forall b d b' ss', fadd_delayed_substs b ss d = (b', ss') -> ncore b' = ncore b.
Proof.
  induction ss as [|s ss IH]; intros b d b' ss' E; cbn [fadd_delayed_substs] in E; [inversion E; reflexivity|].
  destruct (fadd_delayed_subst b s d) as [b1 s1] eqn:E1. destruct (fadd_delayed_substs b1 ss d) as [b2 ss2] eqn:E2.
  inversion E; subst. rewrite (IH _ _ _ _ E2). unfold fadd_delayed_subst in E1. destruct s as [l e|c t f|e ws]; try (inversion E1; reflexivity).
  destruct (is_const e); [inversion E1; reflexivity|].
  destruct (fval_chain _ _ _ _ _ _) as [b3 e3] eqn:E3. inversion E1; subst. rewrite (fval_chain_ncore _ _ _ _ _ _ _ _ E3). reflexivity.
Qed.
Lemma add1_ncore b ss idx d c lz eg : ncore (fadd_statement1 b ss idx d c lz eg) = ncore b.
Proof.
  destruct d as [|d].
  - cbn [fadd_statement1]. destruct c; [reflexivity|apply push_ncore].
  - unfold fadd_statement1. destruct (if eg then _ else _) as [b1 ss1] eqn:E1.
    assert (H1 : ncore b1 = ncore b).
    { destruct eg; [rewrite (fadd_delayed_substs_ncore _ _ _ _ _ E1); reflexivity|inversion E1; reflexivity]. }
    destruct (if lz then _ else _) as [b2 c1] eqn:E2. rewrite push_ncore, <- H1.
    unfold fadd_delayed_cond in E2. destruct lz.
    + destruct (fcond_chain _ _ _ _ _) as [b3 t] eqn:E3. inversion E2; subst. rewrite (fcond_chain_ncore _ _ _ _ _ _ _ E3). reflexivity.
    + rewrite (fcond_chain_ncore _ _ _ _ _ _ _ E2). reflexivity.
Qed.
Lemma add_ncore b ss k idx : ncore (fadd_statement b ss k idx) = ncore b.
Proof.
  unfold fadd_statement. destruct (kw_keep k) as [n|]; [|apply add1_ncore].
  generalize (match idx with Some i => i | None => f_count b end). intros i0.
  revert b. induction (seq 0 n) as [|i l IH]; intros b; [reflexivity|]. cbn [fold_left]. rewrite IH. apply add1_ncore.
Qed.
Lemma call_ncore b ss b' : fop_call b ss = Some b' -> ncore b' = (f_jump b, f_count b, kw_empty, None).
Proof.
  unfold fop_call. set (b1 := clear_next (g_last_kw b (f_next b))).
  assert (H1 : ncore b1 = (f_jump b, f_count b, kw_empty, None)) by reflexivity. intros E.
  assert (Hlast : forall ha, (if f_next_else b1 && negb ha then
        match f_last_if b1 with
        | None => None
        | Some p =>
            match update_nth p (fitem (item_else ss)) (f_body b1) with
            | None => None
            | Some body =>
                Some (g_elif (g_next_else (g_last_if (fadd_dst (g_body b1 body) ss) None) false) None)
            end
        end
      else Some (fadd_statement (g_next_else (g_last_if b1 None) false) ss (f_next b) (f_next_index b))) = Some b' ->
      ncore b' = (f_jump b, f_count b, kw_empty, None)).
  { intros ha E'. destruct (f_next_else b1 && negb ha).
    - destruct (f_last_if b1) as [p|]; [|discriminate]. destruct (update_nth p _ _) as [body|]; [|discriminate].
      inversion E'; subst. exact H1.
    - inversion E'; subst. rewrite add_ncore. exact H1. }
  destruct (f_elif b1) as [ec|]; [|eapply Hlast; exact E].
  destruct (has_args (f_next b)); [eapply Hlast; exact E|].
  destruct (f_last_if b1) as [p|]; [|discriminate]. destruct (update_nth p _ _) as [body|]; [|discriminate].
  inversion E; subst. exact H1.
Qed.

(** rules, one request at a time *)
Definition rules1 (cur : nat) (r : freq) : list rule := rules cur [r].
Lemma rules_cons cur r rs : rules cur (r :: rs) = rules1 cur r ++ rules (next_cur cur r) rs.
Proof. destruct r; reflexivity. Qed.

Definition tracking (b : fsmb) (cur : nat) (rl : list rule) : Prop :=
  ncore b = (f_jump b, cur, kw_empty, None) /\
  forall z e, decide_last (map jrule (f_jump b)) z e = decide_last rl z e.

Lemma if_next b cs : f_next b = kw_empty ->
  f_jump (fop_if b cs) = f_jump b /\ f_count (fop_if b cs) = f_count b /\ f_next_index (fop_if b cs) = f_next_index b /\
  (forall e, match kw_cond (f_next (fop_if b cs)) with Some c => truth (eval e c) | None => true end = all_true e cs) /\
  (cs <> [] -> exists c, f_last_cond (fop_if b cs) = [c] /\ forall e, truth (eval e c) = all_true e cs).
Proof.
  intros H. unfold fop_if. destruct (make_condition cs) as [c|] eqn:Ec.
  - cbn [g_elif f_next]. rewrite H. cbn. repeat split; try (intros e; apply make_condition_true; exact Ec).
    intros _. exists c. split; [reflexivity|]. intros e; apply make_condition_true; exact Ec.
  - assert (cs = []) by (destruct cs; [reflexivity|discriminate]). subst. cbn. rewrite H. repeat split. congruence.
Qed.

Lemma tracking_jump b cur rl b' cur' src dst c els f :
  tracking b cur rl -> ncore b' = (f_jump b ++ [(src, (dst, c, els))], cur', kw_empty, None) ->
  (forall e, f e = match c with None => Some dst | Some c => if truth (eval e c) then Some dst else els end) ->
  tracking b' cur' (rl ++ [(src, f)]).
Proof.
  intros [_ T] N F. unfold ncore in N. injection N as N1 N2 N3 N4. unfold tracking, ncore. rewrite N1, N2, N3, N4.
  split; [reflexivity|]. intros z e. rewrite map_app, !decide_app, T. cbn [map decide_last jrule].
  rewrite F. destruct c; reflexivity.
Qed.

Lemma tracking_keep b cur rl b' cur' : tracking b cur rl -> ncore b' = (f_jump b, cur', kw_empty, None) -> tracking b' cur' (rl ++ []).
Proof.
  intros [_ T] N. unfold ncore in N. injection N as N1 N2 N3 N4. unfold tracking, ncore. rewrite N1, N2, N3, N4, app_nil_r.
  split; [reflexivity|exact T].
Qed.


Definition mods (o : fop) : Prop :=
  match o with FWhen _ | FDelay _ | FKeep _ | FLazy | FEager => True | _ => False end.
Lemma mods_core os : forall b b', Forall mods os -> do_fops b os = Some b' -> f_jump b' = f_jump b /\ f_count b' = f_count b.
Proof.
  induction os as [|o os IH]; intros b b' Hm E; cbn [do_fops] in E; [inversion E; subst; auto|].
  destruct (do_fop b o) as [b1|] eqn:E1; [|discriminate]. apply IH in E; [|exact (Forall_inv_tail Hm)].
  pose proof (Forall_inv Hm) as Ho. destruct E as [-> ->].
  destruct o; try destruct Ho; inversion E1; subst; auto.
Qed.

Lemma truth_enot e x : truth (eval e (enot x)) = negb (truth (eval e x)).
Proof. unfold enot. cbn. destruct (truth (eval e x)); reflexivity. Qed.
Lemma all_true_app e a c : all_true e (a ++ c) = all_true e a && all_true e c.
Proof. apply forallb_app. Qed.
Lemma all_true_one e c : all_true e [c] = truth (eval e c).
Proof. apply andb_true_r. Qed.

(** a goto chain under construction: branches [br] so far *)
Definition chained (js0 : list (nat * (nat * option expr * option nat))) (cur : nat) (br : list (list expr * nat)) (b : fsmb) : Prop :=
  f_next b = kw_empty /\ f_next_index b = None /\ f_count b = cur /\
  (exists L x, f_last_cond b = L ++ [x] /\
     forall e, negb (all_true e (L ++ [enot x])) = existsb (fun p => all_true e (fst p)) br) /\
  (forall z e, decide_last (map jrule (f_jump b)) z e =
     match (if z =? Z.of_nat cur then first_dst e br None else None) with
     | Some d => Some d | None => decide_last (map jrule js0) z e end).

Lemma first_dst_app e a c els : first_dst e (a ++ c) els = 
  if existsb (fun p => all_true e (fst p)) a then first_dst e a None else first_dst e c els.
Proof.
  induction a as [|[cs d] a IH]; cbn [app first_dst existsb fst]; [reflexivity|].
  destruct (all_true e cs); [reflexivity|exact IH].
Qed.
Lemma first_dst_els e br els : first_dst e br els = if existsb (fun p => all_true e (fst p)) br then first_dst e br None else els.
Proof. rewrite <- (app_nil_r br) at 1. rewrite first_dst_app. reflexivity. Qed.
Lemma first_dst_no e br : existsb (fun p => all_true e (fst p)) br = false -> first_dst e br None = None.
Proof.
  induction br as [|[cs d] br IH]; cbn [first_dst existsb fst]; [reflexivity|].
  intros H. apply orb_false_iff in H. destruct H as [-> H]. auto.
Qed.

Lemma negate_last_app L x : negate_last (L ++ [x]) = Some (L ++ [enot x]).
Proof. unfold negate_last. rewrite rev_app_distr. cbn. rewrite rev_involutive. reflexivity. Qed.

Lemma then_next b : f_next b = kw_empty -> f_last_cond b <> [] ->
  f_jump (fop_then b) = f_jump b /\ f_count (fop_then b) = f_count b /\ f_next_index (fop_then b) = f_next_index b /\
  exists c, make_cond (f_last_cond b) = Some c /\ kw_cond (f_next (fop_then b)) = Some c.
Proof.
  intros H Hl. destruct (f_last_cond b) as [|x l] eqn:E; [congruence|]. clear Hl.
  destruct (make_cond (x :: l)) as [c|] eqn:Ec; [|discriminate].
  unfold fop_then. rewrite E, Ec. unfold fop_if. cbn [make_condition fold_left g_last_cond g_elif f_next].
  rewrite H. cbn. eauto 10.
Qed.

Lemma goto_chained js0 cur br b d c (b0 : fsmb) cs :
  chained js0 cur br b0 -> f_jump b = f_jump b0 -> f_count b = cur -> f_next_index b = None ->
  kw_cond (f_next b) = Some c ->
  (exists L x, f_last_cond b = L ++ [x] /\
     forall e, negb (all_true e (L ++ [enot x])) = existsb (fun p => all_true e (fst p)) (br ++ [(cs, d)])) ->
  (forall e, truth (eval e c) = negb (existsb (fun p => all_true e (fst p)) br) && all_true e cs) ->
  chained js0 cur (br ++ [(cs, d)]) (fop_goto b d None None).
Proof.
  intros (_ & _ & _ & _ & T) J N I K L C. unfold fop_goto, pick_src, pick_cond. rewrite K, I, N.
  split; [reflexivity|]. split; [reflexivity|]. split; [exact N|]. split; [exact L|].
  intros z e. cbn [add_jump clear_next g_jump g_next_index g_next f_jump]. rewrite map_app, decide_app, J, T.
  cbn [map decide_last jrule]. rewrite C, first_dst_app. cbn [first_dst].
  destruct (z =? Z.of_nat cur); [|reflexivity].
  destruct (existsb (fun p => all_true e (fst p)) br) eqn:Eb; cbn [negb andb]; [reflexivity|].
  rewrite (first_dst_no _ _ Eb). destruct (all_true e cs); reflexivity.
Qed.

Lemma elif_chained js0 cur br b p b' : chained js0 cur br b -> fst p <> [] ->
  do_fops b [FElif (fst p); FGoto (snd p) None None] = Some b' -> chained js0 cur (br ++ [p]) b'.
Proof.
  intros Hc Hp E. destruct p as [cs d]. cbn [fst snd] in *. cbn [do_fops do_fop] in E.
  destruct (fop_elif b cs) as [b1|] eqn:E1; [|discriminate]. inversion E; subst b'. clear E.
  pose proof Hc as (N & I & Q & (L & x & Hl & Hx) & T).
  unfold fop_elif in E1. rewrite Hl, negate_last_app in E1. destruct (make_condition cs) as [c|] eqn:Ec; [|discriminate].
  set (lc := (L ++ [enot x]) ++ [c]) in *.
  assert (Hlc : lc <> []) by (unfold lc; destruct (L ++ [enot x]); discriminate).
  assert (Hcs : forall e, truth (eval e c) = all_true e cs) by (intros; apply make_condition_true; exact Ec).
  assert (Hxx : forall e, all_true e (L ++ [enot x]) = negb (existsb (fun p => all_true e (fst p)) br)).
  { intros e. rewrite <- Hx, negb_involutive. reflexivity. }
  assert (HL : exists L0 x0, lc = L0 ++ [x0] /\ forall e, negb (all_true e (L0 ++ [enot x0])) =
     existsb (fun p => all_true e (fst p)) (br ++ [(cs, d)])).
  { exists (L ++ [enot x]), c. split; [reflexivity|]. intros e. rewrite all_true_app, Hxx, existsb_app.
    cbn [existsb fst]. rewrite all_true_one, truth_enot, Hcs, orb_false_r.
    destruct (existsb _ br), (all_true e cs); reflexivity. }
  assert (HC : forall cc, make_cond lc = Some cc -> forall e, truth (eval e cc) =
     negb (existsb (fun p => all_true e (fst p)) br) && all_true e cs).
  { intros cc Hcc e. rewrite (make_condition_true e _ _ Hcc). unfold lc. rewrite all_true_app, Hxx.
    rewrite all_true_one, Hcs. reflexivity. }
  destruct (fdelayed_last _).
  - inversion E1; subst b1. clear E1.
    destruct (then_next (g_last_cond b lc) N Hlc) as (A1 & A2 & A3 & cc & A4 & A5).
    eapply goto_chained; [exact Hc| | | | |exact HL|exact (HC cc A4)]; cbn [g_last_cond f_jump f_count f_next_index f_next f_last_cond].
    + exact A1.
    + rewrite A2; exact Q.
    + rewrite A3; exact I.
    + exact A5.
  - destruct (make_cond lc) as [cc|] eqn:Ecc; [|discriminate]. inversion E1; subst b1. clear E1.
    eapply goto_chained; [exact Hc| | | | | |exact (HC cc eq_refl)]; cbn [g_last_cond f_last_if g_next f_jump f_count f_next_index f_next f_last_cond];
      destruct (f_last_if b); cbn; auto.
Qed.

Lemma elifs_chained js0 cur elifs : forall br b b', chained js0 cur br b -> Forall (fun p => fst p <> []) elifs ->
  do_fops b (flat_map (fun p => [FElif (fst p); FGoto (snd p) None None]) elifs) = Some b' -> chained js0 cur (br ++ elifs) b'.
Proof.
  induction elifs as [|p elifs IH]; intros br b b' Hc Hf E; cbn [flat_map] in E.
  - inversion E; subst. rewrite app_nil_r. exact Hc.
  - rewrite do_fops_app in E. destruct (do_fops b [FElif (fst p); FGoto (snd p) None None]) as [b1|] eqn:E1; [|discriminate].
    change (br ++ p :: elifs) with (br ++ [p] ++ elifs). rewrite app_assoc.
    eapply IH; [eapply elif_chained; [exact Hc|exact (Forall_inv Hf)|exact E1]|exact (Forall_inv_tail Hf)|exact E].
Qed.

Lemma else_chained js0 cur br b d b' : chained js0 cur br b ->
  do_fops b [FElse; FGoto d None None] = Some b' ->
  ncore b' = (f_jump b', cur, kw_empty, None) /\
  forall z e, decide_last (map jrule (f_jump b')) z e =
    match (if z =? Z.of_nat cur then first_dst e br (Some d) else None) with
    | Some d => Some d | None => decide_last (map jrule js0) z e end.
Proof.
  intros Hc E. cbn [do_fops do_fop] in E.
  destruct (fop_else b) as [b1|] eqn:E1; [|discriminate]. inversion E; subst b'. clear E.
  destruct Hc as (N & I & Q & (L & x & Hl & Hx) & T).
  unfold fop_else in E1. cbn [g_elif f_last_cond] in E1. rewrite Hl, negate_last_app in E1.
  set (lc := L ++ [enot x]) in *.
  assert (Hlc : lc <> []) by (unfold lc; destruct L; discriminate).
  assert (G : exists c, make_cond lc = Some c /\ f_jump b1 = f_jump b /\ f_count b1 = cur /\ f_next_index b1 = None /\ kw_cond (f_next b1) = Some c).
  { destruct (fdelayed_last _).
    - inversion E1; subst b1. destruct (then_next (g_last_cond (g_elif b None) lc) N Hlc) as (A1 & A2 & A3 & cc & A4 & A5).
      exists cc. split; [exact A4|]. cbn [g_last_cond f_jump f_count f_next_index f_next].
      split; [exact A1|]. split; [rewrite A2; exact Q|]. split; [rewrite A3; exact I|exact A5].
    - destruct (make_cond lc) as [cc|] eqn:Ecc; [|discriminate]. inversion E1; subst b1. exists cc. split; [reflexivity|].
      cbn [g_last_cond f_last_if g_elif]. destruct (f_last_if b); cbn; auto. }
  destruct G as (c & Gc & G1 & G2 & G3 & G4).
  assert (HC : forall e, truth (eval e c) = negb (existsb (fun p => all_true e (fst p)) br)).
  { intros e. rewrite (make_condition_true e _ _ Gc), <- Hx, negb_involutive. reflexivity. }
  unfold fop_goto, pick_src, pick_cond. rewrite G3, G4, G2.
  split; [unfold ncore; cbn; rewrite G2; reflexivity|].
  intros z e. cbn [add_jump clear_next g_jump g_next_index g_next f_jump]. rewrite map_app, decide_app, G1, T.
  cbn [map decide_last jrule]. rewrite HC, (first_dst_els e br (Some d)).
  destruct (z =? Z.of_nat cur); [|reflexivity].
  destruct (existsb (fun p => all_true e (fst p)) br) eqn:Eb; cbn [negb]; [reflexivity|].
  reflexivity.
Qed.

Lemma req_tracking r b cur rl b' : freq_ok r -> tracking b cur rl -> do_fops b (fops_of r) = Some b' ->
  tracking b' (next_cur cur r) (rl ++ rules1 cur r).
Proof.
  intros Hok HT E. pose proof HT as [HN HD]. unfold ncore in HN. injection HN as N2 N3 N4.
  destruct r as [cs a d k lz eg ss|c ss elifs els|cs a dst els|cs|cs|cs src dst els|c dst elifs els| |i|o];
    unfold rules1; cbn [next_cur rules fops_of] in *.
  - rewrite do_fops_app in E. cbn [do_fops do_fop] in E. rewrite !app_assoc, do_fops_app in E.
    destruct (do_fops (fop_if b cs) _) as [b1|] eqn:E1; [|discriminate].
    destruct (if_next b cs N3) as (A1 & A2 & _).
    assert (Hm : Forall mods ((((opt_op FWhen a ++ opt_op FDelay d) ++ opt_op FKeep k) ++ (if lz then [FLazy] else [])) ++ (if eg then [FEager] else []))).
    { apply Forall_forall. intros o Ho. rewrite !in_app_iff in Ho.
      destruct Ho as [[[[Ho|Ho]|Ho]|Ho]|Ho];
        [destruct a|destruct d|destruct k|destruct lz|destruct eg]; destruct Ho as [<-|[]] || destruct Ho; exact Logic.I. }
    destruct (mods_core _ _ _ Hm E1) as [B1 B2]. cbn [do_fops do_fop] in E.
    destruct (fop_call b1 ss) as [b2|] eqn:E2; [|discriminate]. inversion E; subst b2.
    eapply tracking_keep; [exact HT|]. rewrite (call_ncore _ _ _ E2), B1, B2, A1, A2, N2. reflexivity.
  - rewrite do_fops_app in E. destruct (do_fops b [FIf c; FCall ss]) as [b1|] eqn:E1; [|discriminate].
    assert (H1 : ncore b1 = (f_jump b, cur, kw_empty, None)).
    { cbn [do_fops do_fop] in E1. destruct (fop_call (fop_if b c) ss) as [b2|] eqn:E2; [|discriminate]. inversion E1; subst b2.
      rewrite (call_ncore _ _ _ E2). destruct (if_next b c N3) as (A1 & A2 & _). rewrite A1, A2, N2. reflexivity. }
    clear E1. revert b1 H1 E. induction elifs as [|[ec es] elifs IH]; intros b1 H1 E.
    + cbn [flat_map app] in E. destruct els as [es|].
      * cbn [do_fops do_fop] in E. destruct (fop_else b1) as [b2|] eqn:E2; [|discriminate].
        destruct (fop_call b2 es) as [b3|] eqn:E3; [|discriminate]. inversion E; subst b3.
        eapply tracking_keep; [exact HT|]. rewrite (call_ncore _ _ _ E3).
        assert (Hj : f_jump b2 = f_jump b1 /\ f_count b2 = f_count b1).
        { unfold fop_else in E2. destruct (negate_last _) as [lc|]; [|discriminate]. destruct (fdelayed_last _).
          - inversion E2; subst. unfold fop_then. cbn. destruct (make_cond lc); unfold fop_if; cbn; auto.
          - destruct (make_cond lc); [|discriminate]. inversion E2; subst. cbn. destruct (f_last_if b1); auto. }
        destruct Hj as [-> ->]. unfold ncore in H1. injection H1 as -> -> _ _. reflexivity.
      * inversion E; subst. eapply tracking_keep; [exact HT|exact H1].
    + cbn [flat_map fst snd] in E. rewrite <- app_assoc, do_fops_app in E.
      destruct (do_fops b1 [FElif ec; FCall es]) as [b2|] eqn:E2; [|discriminate].
      apply (IH ltac:(destruct Hok as (U1 & U2 & U3); split; [exact U1|split; [exact (Forall_inv_tail U2)|exact U3]]) b2); [|exact E].
      cbn [do_fops do_fop] in E2. destruct (fop_elif b1 ec) as [b3|] eqn:E3; [|discriminate].
      destruct (fop_call b3 es) as [b4|] eqn:E4; [|discriminate]. inversion E2; subst b4. rewrite (call_ncore _ _ _ E4).
      assert (Hj : f_jump b3 = f_jump b1 /\ f_count b3 = f_count b1).
      { unfold fop_elif in E3. destruct (negate_last _) as [lc|]; [|discriminate]. destruct (make_condition ec) as [c0|]; [|discriminate].
        destruct (fdelayed_last _).
        - inversion E3; subst. unfold fop_then. cbn [f_last_cond g_last_cond]. destruct (make_cond (lc ++ [c0])); unfold fop_if; cbn; auto.
        - destruct (make_cond (lc ++ [c0])); [|discriminate]. inversion E3; subst. cbn. destruct (f_last_if b1); auto. }
      destruct Hj as [-> ->]. unfold ncore in H1. injection H1 as -> -> _ _. reflexivity.
  - destruct (if_next b cs N3) as (A1 & A2 & A3 & A4 & _). rewrite N4 in A3.
    destruct a as [i|]; cbn [opt_op app do_fops do_fop] in E; inversion E; subst b'; clear E.
    + eapply tracking_jump; [exact HT| |].
      * unfold ncore, fop_goto, add_jump, clear_next, fop_when. cbn [g_jump g_next_index g_next f_jump f_count f_next f_next_index].
        rewrite A1, A2, N2. unfold pick_src. cbn [g_next_index f_next_index]. reflexivity.
      * intros e. specialize (A4 e). unfold pick_cond. cbn [g_next_index f_next].
        destruct (kw_cond _); rewrite <- A4; reflexivity.
    + eapply tracking_jump; [exact HT| |].
      * unfold ncore, fop_goto, add_jump, clear_next. cbn [g_jump g_next_index g_next f_jump f_count f_next f_next_index].
        unfold pick_src. rewrite A3, A1, A2, N2. reflexivity.
      * intros e. specialize (A4 e). unfold pick_cond. destruct (kw_cond _); rewrite <- A4; reflexivity.
  - destruct (if_next b cs N3) as (A1 & A2 & A3 & A4 & _). rewrite N4 in A3. cbn [do_fops do_fop] in E. inversion E; subst b'; clear E.
    eapply tracking_jump; [exact HT| |].
    + unfold ncore, fop_goto, add_jump, clear_next. cbn [g_jump g_next_index g_next f_jump f_count f_next f_next_index].
      unfold pick_src. rewrite A3, A1, A2, N2. reflexivity.
    + intros e. specialize (A4 e). unfold pick_cond. destruct (kw_cond _); rewrite <- A4; reflexivity.
  - destruct (if_next b cs N3) as (A1 & A2 & A3 & A4 & _). rewrite N4 in A3. cbn [do_fops do_fop] in E. inversion E; subst b'; clear E.
    eapply tracking_jump; [exact HT| |].
    + unfold ncore, fop_goto_next, set_index, add_jump, clear_next. cbn.
      unfold pick_src. rewrite A3, A1, A2, N2. reflexivity.
    + intros e. specialize (A4 e). unfold pick_cond. destruct (kw_cond _); rewrite <- A4; reflexivity.
  - destruct (if_next b cs N3) as (A1 & A2 & A3 & A4 & _). cbn [do_fops do_fop] in E. inversion E; subst b'; clear E.
    eapply tracking_jump; [exact HT| |].
    + unfold ncore, fop_goto_from, add_jump, clear_next. cbn [g_jump g_next_index g_next f_jump f_count f_next f_next_index].
      rewrite A1, A2, N2. reflexivity.
    + intros e. specialize (A4 e). unfold pick_cond. destruct (kw_cond _); rewrite <- A4; reflexivity.
  - destruct Hok as [Hc Hel]. destruct (if_next b c N3) as (A1 & A2 & A3 & A4 & A5). rewrite N4 in A3.
    destruct (A5 Hc) as (x & X1 & X2).
    rewrite do_fops_app in E. cbn [do_fops do_fop] in E. rewrite do_fops_app in E.
    assert (C0 : chained (f_jump b) cur [(c, dst)] (fop_goto (fop_if b c) dst None None)).
    { unfold fop_goto, pick_src. rewrite A3, A2, N2. split; [reflexivity|]. split; [reflexivity|]. split; [cbn; rewrite A2; exact N2|].
      split.
      - exists [], x. split; [exact X1|]. intros e. cbn [app existsb fst]. rewrite all_true_one, truth_enot, X2, orb_false_r, negb_involutive. reflexivity.
      - intros z e. cbn [add_jump clear_next g_jump g_next_index g_next f_jump]. rewrite map_app, decide_app, A1.
        specialize (A4 e). cbn [map decide_last jrule first_dst]. unfold pick_cond.
        destruct (z =? Z.of_nat cur); [|reflexivity]. destruct (kw_cond _); rewrite <- A4; reflexivity. }
    destruct (do_fops _ _) as [b1|] eqn:E1 in E; [|discriminate].
    pose proof (elifs_chained _ _ _ _ _ _ C0 Hel E1) as C1. cbn [app] in C1.
    destruct els as [d|].
    + destruct (else_chained _ _ _ _ _ _ C1 E) as [D1 D2]. split; [exact D1|]. intros z e. rewrite D2, decide_app, HD. reflexivity.
    + inversion E; subst b1. destruct C1 as (Q1 & Q2 & Q3 & _ & Q5). split; [unfold ncore; rewrite Q1, Q2, Q3; reflexivity|].
      intros z e. rewrite Q5, decide_app, HD. reflexivity.
  - inversion E; subst b'. eapply tracking_keep; [exact HT|]. unfold ncore, set_index. cbn. rewrite N2. reflexivity.
  - inversion E; subst b'. eapply tracking_keep; [exact HT|]. reflexivity.
  - cbn [do_fops do_fop] in E. destruct (do_op (f_seq b) o) as [q|]; [|discriminate]. inversion E; subst b'.
    eapply tracking_keep; [exact HT|]. unfold ncore. cbn. rewrite N2, N3, N4. reflexivity.
Qed.

Lemma reqs_tracking rs : forall b cur rl b', Forall freq_ok rs -> tracking b cur rl ->
  do_fops b (flat_map fops_of rs) = Some b' -> exists cur', tracking b' cur' (rl ++ rules cur rs).
Proof.
  induction rs as [|r rs IH]; intros b cur rl b' Hok HT E; cbn [flat_map] in E.
  - inversion E; subst. exists cur. cbn [rules]. rewrite app_nil_r. exact HT.
  - rewrite do_fops_app in E. destruct (do_fops b (fops_of r)) as [b1|] eqn:E1; [|discriminate].
    rewrite rules_cons, app_assoc.
    eapply IH; [exact (Forall_inv_tail Hok)|eapply req_tracking; [exact (Forall_inv Hok)|exact HT|exact E1]|exact E].
Qed.

Lemma req_user r : freq_ok r -> Forall fop_user (fops_of r).
Proof.
  intros H. apply Forall_forall. intros o Ho.
  destruct r as [cs a d k lz eg ss|c ss elifs els|cs a dst els|cs|cs|cs src dst els|c dst elifs els| |i|o']; cbn [fops_of] in Ho.
  - rewrite !in_app_iff in Ho. cbn [In] in Ho.
    destruct Ho as [[<-|[]]|[Ho|[Ho|[Ho|[Ho|[Ho|[<-|[]]]]]]]]; [exact I| | | | | |exact H];
      [destruct a|destruct d|destruct k|destruct lz|destruct eg]; destruct Ho as [<-|[]] || destruct Ho; exact I.
  - destruct H as (U1 & U2 & U3). rewrite !in_app_iff in Ho. destruct Ho as [[<-|[<-|[]]]|[Ho|Ho]]; [exact I|exact U1| |].
    + apply in_flat_map in Ho. destruct Ho as [p [Hp [<-|[<-|[]]]]]; [exact I|]. rewrite Forall_forall in U2. exact (U2 p Hp).
    + destruct els; [|destruct Ho]. destruct Ho as [<-|[<-|[]]]; [exact I|exact U3].
  - rewrite !in_app_iff in Ho. destruct Ho as [[<-|[]]|[Ho|[<-|[]]]]; try exact I. destruct a; [destruct Ho as [<-|[]]; exact I|destruct Ho].
  - destruct Ho as [<-|[<-|[]]]; exact I.
  - destruct Ho as [<-|[<-|[]]]; exact I.
  - destruct Ho as [<-|[<-|[]]]; exact I.
  - rewrite !in_app_iff in Ho. destruct Ho as [[<-|[<-|[]]]|[Ho|Ho]]; try exact I.
    + apply in_flat_map in Ho. destruct Ho as [p [Hp [<-|[<-|[]]]]]; exact I.
    + destruct els; [|destruct Ho]. destruct Ho as [<-|[<-|[]]]; exact I.
  - destruct Ho as [<-|[]]; exact I.
  - destruct Ho as [<-|[]]; exact I.
  - destruct Ho as [<-|[]]; exact H.
Qed.

Lemma program_state fit rs b : Forall freq_ok rs -> do_fops fsm_new (flat_map fops_of rs) = Some b -> forall s,
  tick fit (make_case b) s FState =
  match decide_last (rules 0 rs) (s FState) s with Some d => fit FState (Z.of_nat d) | None => s FState end.
Proof.
  intros Hok E s. rewrite make_case_state.
  - destruct (reqs_tracking rs fsm_new 0%nat [] b Hok) as [cur' [_ T]]; [split; reflexivity|exact E|]. rewrite T. reflexivity.
  - eapply do_fops_NF; [exact NF_new| |exact E]. apply Forall_forall. intros o Ho. apply in_flat_map in Ho.
    destruct Ho as [r [Hr Ho]]. rewrite Forall_forall in Hok. pose proof (req_user r (Hok r Hr)) as Hq.
    rewrite Forall_forall in Hq. auto.
Qed.

(** ** Reset *)
Definition resets (iv : var -> option Z) (ls : list lhs) : list stmt :=
  flat_map (fun l => match reset_of iv l with Some s => [s] | None => [] end) ls.
Lemma reset_key iv l s : reset_of iv l = Some s -> stmt_key s = Some l.
Proof. unfold reset_of. destruct (iv (lhs_var l)); [|discriminate]. destruct l; intros E; inversion E; reflexivity. Qed.
Lemma add_reset_head ss : forall k x acc, stmt_key x = Some k ->
  exists r, fold_left add_reset1 ss (x :: acc) = x :: r /\     forall s, In s r -> In s acc \/ In s ss /\ stmt_key s <> Some k.
Proof.
  induction ss as [|s ss IH]; intros k x acc Hk; cbn [fold_left]; [exists acc; split; [reflexivity|tauto]|].
  unfold add_reset1 at 2. destruct (stmt_key s) as [l|] eqn:El.
  - destruct (in_dec _ _ _) as [Hi|Hi].
    + destruct (IH k x acc Hk) as (r & E & H). exists r. split; [exact E|]. intros s0 Hs. destruct (H s0 Hs) as [|[? ?]]; cbn; auto.
    + destruct (IH k x (acc ++ [s]) Hk) as (r & E & H). exists r. split; [exact E|]. intros s0 Hs.
      destruct (H s0 Hs) as [Ha|[? ?]]; [|cbn; auto]. apply in_app_iff in Ha. destruct Ha as [Ha|[<-|[]]]; [auto|].
      right. split; [left; reflexivity|]. rewrite El. intros Ex; inversion Ex; subst. apply Hi. cbn [flat_map]. rewrite Hk. left; reflexivity.
  - destruct (IH k x acc Hk) as (r & E & H). exists r. split; [exact E|]. intros s0 Hs. destruct (H s0 Hs) as [|[? ?]]; cbn; auto.
Qed.

Lemma reset_state fit b ui s nxt : NF b -> execs fit s nxt (fmake_reset b ui) FState = fit FState 0.
Proof.
  intros HN. set (r := fun l => match reset_of (fall_inits b ui) l with Some s => [s] | None => [] end).
  set (rest := flat_map (fun d => r (LVar (DState (S d)))) (seq 0 (f_delay_amount b)) ++ flat_map r (f_dst b) ++ make_reset (f_seq b) ui).
  assert (E0 : fmake_reset b ui = fold_left add_reset1 rest [SSub (LVar FState) (EInt 0)]) by reflexivity.
  rewrite E0. clear E0.
  destruct (add_reset_head rest (LVar FState) (SSub (LVar FState) (EInt 0)) [] eq_refl) as (q & E & H). rewrite E.
  rewrite execs_cons, execs_frame; [apply vset_same|].
  intros Hv. apply in_flat_map in Hv. destruct Hv as [st [Hs Hv]]. destruct (H st Hs) as [[]|[Hin _]].
  assert (Hr : forall iv l x, reset_of iv l = Some x -> In FState (writes x) -> lhs_var l = FState).
  { intros iv l x. unfold reset_of. destruct (iv (lhs_var l)); [|discriminate]. destruct l; intros Ex; inversion Ex; subst; cbn; intros [<-|[]]; reflexivity. }
  unfold rest in Hin. rewrite !in_app_iff in Hin. destruct Hin as [Hin|[Hin|Hin]].
  - apply in_flat_map in Hin. destruct Hin as [d [_ Hin]]. unfold r in Hin. destruct (reset_of _ _) as [x|] eqn:Ex; [|destruct Hin].
    destruct Hin as [<-|[]]. specialize (Hr _ _ _ Ex Hv). discriminate.
  - apply in_flat_map in Hin. destruct Hin as [l [Hl Hin]]. unfold r in Hin. destruct (reset_of _ _) as [x|] eqn:Ex; [|destruct Hin].
    destruct Hin as [<-|[]]. specialize (Hr _ _ _ Ex Hv). pose proof (nf_dst b HN) as Hd. unfold nofs in Hd. rewrite Forall_forall in Hd.
    apply (Hd FState). rewrite <- Hr. apply in_map, Hl.
  - assert (Hl : exists l, In l (s_dst (f_seq b)) /\ lhs_var l = FState).
    { unfold make_reset in Hin. revert Hin. generalize (s_dst (f_seq b)). induction l as [|l0 l IH]; [intros []|].
      cbn [fold_right]. intros Hin. destruct (reset_of (all_inits (f_seq b) ui) l0) as [x|] eqn:Ex; cbn [opt_cons] in Hin.
      - destruct Hin as [<-|Hin]; [exists l0; split; [left; reflexivity|eapply Hr; eauto]|].
        destruct (IH Hin) as (l1 & ? & ?). exists l1. split; [right|]; assumption.
      - destruct (IH Hin) as (l1 & ? & ?). exists l1. split; [right|]; assumption. }
    destruct Hl as (l & Hl & Hf). pose proof (nf_seq b HN) as [W1 _]. apply (w0_dst _ W1) in Hl.
    pose proof (seq_nofs (f_seq b) (nf_seq b HN)) as Hns. unfold nofs in Hns. rewrite Forall_forall in Hns.
    apply (Hns FState). rewrite <- Hf. 
    assert (In (lhs_var l) (flat_map writes (all_stmts (f_seq b)))) by (rewrite writes_dsts_all; apply in_map, Hl).
    eapply Permutation_in; [|eassumption]. apply Permutation_flat_map, Permutation_sym, make_code_perm. exact (gi_delay _ (w0_g _ W1)).
Qed.

Lemma reqs_NF rs b : Forall freq_ok rs -> do_fops fsm_new (flat_map fops_of rs) = Some b -> NF b.
Proof.
  intros Hok E. eapply do_fops_NF; [exact NF_new| |exact E]. apply Forall_forall. intros o Ho. apply in_flat_map in Ho.
  destruct Ho as [r [Hr Ho]]. rewrite Forall_forall in Hok. pose proof (req_user r (Hok r Hr)) as Hq.
  rewrite Forall_forall in Hq. auto.
Qed.

Lemma always_state fit rs b ui rst cs s : Forall freq_ok rs -> do_fops fsm_new (flat_map fops_of rs) = Some b ->
  tick fit (fmake_always b ui rst cs) s FState =
  if truth (eval s rst) then fit FState 0
  else match decide_last (rules 0 rs) (s FState) s with Some d => fit FState (Z.of_nat d) | None => s FState end.
Proof.
  intros Hok E. replace (tick fit (fmake_always b ui rst cs) s) with (tick fit (fmake_always b ui rst true) s)
    by (destruct cs; [reflexivity|apply always_same]).
  unfold fmake_always, tick. rewrite execs_cons, exec_if. cbn [execs fold_left]. destruct (truth (eval s rst)).
  - apply reset_state, (reqs_NF rs b Hok E).
  - exact (program_state fit rs b Hok E s).
Qed.

Lemma decide_named rs : forall cur z e d, decide_last (rules cur rs) z e = Some d -> In d (named cur rs).
Proof.
  induction rs as [|r rs IH]; intros cur z e d E; [discriminate|].
  rewrite rules_cons, decide_app in E.
  assert (Hn : incl (named (next_cur cur r) rs) (named cur (r :: rs))).
  { intros x Hx. destruct r; cbn [next_cur named] in *; rewrite ?in_app_iff; cbn [In]; rewrite ?in_app_iff; auto. }
  destruct (decide_last (rules (next_cur cur r) rs) z e) as [d'|] eqn:E1; [inversion E; subst; apply Hn; eapply IH; exact E1|].
  assert (Hf : forall br els, first_dst e br els = Some d -> In d (map snd br) \/ els = Some d).
  { induction br as [|[c x] br IHb]; intros els; cbn [first_dst map snd In]; [auto|].
    destruct (all_true e c); [intros H; inversion H; auto|]. intros H. destruct (IHb _ H); auto. }
  destruct r as [cs a dl k lz eg ss|c ss elifs els|cs a dst els|cs|cs|cs src dst els|c dst elifs els| |i|o];
    unfold rules1 in E; cbn [rules decide_last named In] in *; try discriminate.
  - destruct (z =? _); [|discriminate]. destruct (all_true e cs); [inversion E; auto|]. subst els. right. left. reflexivity.
  - destruct (z =? _); [|discriminate]. destruct (all_true e cs); inversion E; auto.
  - destruct (z =? _); [|discriminate]. destruct (all_true e cs); inversion E; auto.
  - destruct (z =? _); [|discriminate]. destruct (all_true e cs); [inversion E; auto|]. subst els. right. left. reflexivity.
  - destruct (z =? _); [|discriminate]. destruct (Hf _ _ E) as [[<-|H]| ->]; [auto| |].
    + right. apply in_or_app. auto.
    + right. apply in_or_app. right. left. reflexivity.
Qed.

Lemma state_named fit rs b ui rst cs : Forall freq_ok rs -> do_fops fsm_new (flat_map fops_of rs) = Some b ->
  fit FState 0 = 0 -> (forall d, In d (named 0 rs) -> fit FState (Z.of_nat d) = Z.of_nat d) ->
  forall ins s, (exists d, In d (0%nat :: named 0 rs) /\ s FState = Z.of_nat d) ->
  Forall (fun e => exists d, In d (0%nat :: named 0 rs) /\ e FState = Z.of_nat d)
         (code_trace fit (fmake_always b ui rst cs) s ins).
Proof.
  intros Hok E F0 Fd. induction ins as [|i ins IH]; intros s Hs; [constructor|]. cbn [code_trace].
  constructor; [exact Hs|]. apply IH. rewrite (always_state fit rs b ui rst cs _ Hok E).
  destruct (truth _); [exists 0%nat; split; [left; reflexivity|exact F0]|].
  destruct (decide_last _ _ _) as [d|] eqn:Ed; [|exact Hs].
  apply decide_named in Ed. exists d. split; [right; exact Ed|apply Fd, Ed].
Qed.
