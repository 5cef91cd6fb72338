From Verif Require Import Base Vlog Seq_Model Skid_Model Skid_Spec Skid_Proofs AxiChan_Model.
Open Scope Z_scope.

(** ** Generic request calls *)
Record gsite := mkG { g_cond : option expr; g_acc : option expr;
                      g_pre : list (var * expr); g_post : list (var * expr);
                      g_zero : option expr }.
Definition subs (l : list (var * expr)) : list stmt := map (fun p => sub (fst p) (snd p)) l.
Definition g_ack (s : gsite) : expr := match g_acc s with Some a => aw_ack a | None => free end.
Definition clrs (C : list var) : list stmt := map (fun v => sub v (EInt 0)) (vld :: C).
Definition holds (C : list var) : list stmt := map (fun v => sub v (EVar v)) (vld :: C).
Definition gsets (s : gsite) : list stmt := subs (g_pre s) ++ [sub vld (EInt 1)] ++ subs (g_post s).
Definition gcall (C : list var) (s : gsite) : seqb -> option seqb :=
  request (g_cond s) (g_ack s) (gsets s)
    (option_map (fun z => (z, [sub vld (EInt 0)])) (g_zero s))
    (clrs C) stalled (holds C).

Definition full_cond (s : gsite) : expr :=
  match g_cond s with Some c => ands c (g_ack s) | None => g_ack s end.
Definition gbody (C : list var) (k : nat) (s : gsite) : list item :=
  IIf [(full_cond s, gsets s)] None ::
  match g_zero s with
  | Some z => [IIf [(ands (full_cond s) z, [sub vld (EInt 0)])] None]
  | None => []
  end ++
  [IPlain (sub (CondR k 1) (EInt 1)); IIf [(stalled, holds C)] None].
Definition clean (b : seqb) : Prop := s_next b = kw_empty /\ s_elif b = None /\ s_next_else b = false.

(** What one call on the builder leaves unchanged or changes. *)
Definition after (b b' : seqb) (its : list item) (dl : list (nat * stmt)) (t : nat) : Prop :=
  clean b' /\ s_body b' = s_body b ++ its /\ s_delayed b' = s_delayed b ++ dl /\ s_tmp b' = (s_tmp b + t)%nat.

Lemma add_dst_fields b ss : let b' := add_dst b ss in
  s_body b' = s_body b /\ s_delayed b' = s_delayed b /\ s_tmp b' = s_tmp b /\ s_next b' = s_next b /\
  s_elif b' = s_elif b /\ s_next_else b' = s_next_else b /\ s_last_cond b' = s_last_cond b.
Proof. unfold add_dst, w_dst. generalize (fold_left add_dst1 (flat_map dsts ss) (s_dst b)). intros l. auto 10. Qed.

Lemma op_call_plain b k ss : s_elif b = None -> s_next_else b = false -> s_next b = k ->
  op_call b ss = Some (add_statement (w_next_else (w_last_if (w_next (w_last_kw b k) kw_empty) None) false) ss k).
Proof.
  intros H1 H2 H3. unfold op_call. rewrite H3. cbn [s_elif s_next_else w_next w_last_kw]. rewrite H1, H2. reflexivity.
Qed.
Lemma add_statement_if b c ss :
  add_statement b ss (mkKw (Some c) None None None None) =
  add_dst (w_body (w_last_if b (Some (length (s_body b)))) (s_body b ++ [IIf [(c, ss)] None])) ss.
Proof. reflexivity. Qed.

Lemma call_if b c0 c ss : s_elif b = None -> s_next_else b = false ->
  s_next b = mkKw c0 None None None None ->
  let cc := match c0 with Some x => ands x c | None => c end in
  exists b', op_call (op_if b [c]) ss = Some b' /\ after b b' [IIf [(cc, ss)] None] [] 0 /\ s_last_cond b' = [cc].
Proof.
  intros H1 H2 H3 cc.
  set (b0 := w_next_else (w_last_if (w_next (w_last_kw (op_if b [c]) (mkKw (Some cc) None None None None)) kw_empty) None) false).
  set (b1 := w_last_if b0 (Some (length (s_body b0)))).
  exists (add_dst (w_body b1 (s_body b0 ++ [IIf [(cc, ss)] None])) ss).
  assert (E : op_call (op_if b [c]) ss = Some (add_dst (w_body b1 (s_body b0 ++ [IIf [(cc, ss)] None])) ss)).
  { rewrite (op_call_plain _ (mkKw (Some cc) None None None None)).
    - rewrite add_statement_if. reflexivity.
    - destruct b. cbn in *. subst. reflexivity.
    - destruct b. cbn in *. subst. reflexivity.
    - unfold cc. destruct b. cbn in *. subst. destruct c0; reflexivity. }
  split; [exact E|]. clear E.
  assert (EB : s_body b0 = s_body b1) by reflexivity. rewrite EB. clear EB.
  set (b2 := w_body b1 (s_body b1 ++ [IIf [(cc, ss)] None])).
  assert (F : after b b2 [IIf [(cc, ss)] None] [] 0 /\ s_last_cond b2 = [cc]).
  { unfold b2, b1, b0, cc, after, clean. destruct b as [bd dl pv tm mt ds ini lc lk li ne el nx]. cbn in H1, H2, H3. subst.
    destruct c0; cbn; rewrite app_nil_r, Nat.add_0_r; auto 10. }
  clearbody b2. clear b1 b0. destruct F as [((Fn & Fe & Fl) & F1 & F2 & F3) F4].
  destruct (add_dst_fields b2 ss) as (A1 & A2 & A3 & A4 & A5 & A6 & A7).
  unfold after, clean. rewrite A1, A2, A3, A4, A5, A6, A7. auto 10.
Qed.
Lemma call_delay b ss : clean b ->
  exists b', op_call (op_delay b 1) ss = Some b' /\
    after b b' [IPlain (sub (CondR (s_tmp b) 1) (EInt 1))]
      [(1%nat, SIf (EVar (CondR (s_tmp b) 1)) ss [])] 1.
Proof.
  intros (H1 & H2 & H3).
  set (r := CondR (s_tmp b) 1).
  set (b0 := w_tmp (w_next_else (w_last_if (w_next (w_last_kw (op_delay b 1) (mkKw None (Some 1%nat) None None None)) kw_empty) None) false) (S (s_tmp b))).
  set (b1 := add_dst (w_body b0 (s_body b0 ++ [IPlain (sub r (EInt 1))])) [sub r (EInt 1)]).
  set (b2 := w_inits b1 (s_inits b1 ++ [(r, 0)])).
  set (b3 := w_delayed b2 (s_delayed b2 ++ [(1%nat, SIf (EVar r) ss [])])).
  exists (add_dst b3 [SIf (EVar r) ss []]).
  assert (E : op_call (op_delay b 1) ss = Some (add_dst b3 [SIf (EVar r) ss []])).
  { unfold b3, b2, b1, b0, r. destruct b as [bd dl pv tm mt ds ini lc lk li ne el nx]. cbn in H1, H2, H3. subst.
    reflexivity. }
  split; [exact E|]. clear E.
  assert (F0 : s_next b0 = kw_empty /\ s_elif b0 = None /\ s_next_else b0 = false /\ s_body b0 = s_body b
               /\ s_delayed b0 = s_delayed b /\ s_tmp b0 = S (s_tmp b)).
  { unfold b0. destruct b. cbn in *. subst. auto 10. }
  clearbody b0. destruct F0 as (F1 & F2 & F3 & F4 & F5 & F6).
  destruct (add_dst_fields (w_body b0 (s_body b0 ++ [IPlain (sub r (EInt 1))])) [sub r (EInt 1)])
    as (A1 & A2 & A3 & A4 & A5 & A6 & _). fold b1 in A1, A2, A3, A4, A5, A6. clearbody b1.
  destruct (add_dst_fields b3 [SIf (EVar r) ss []]) as (B1 & B2 & B3 & B4 & B5 & B6 & _).
  unfold after, clean. rewrite B1, B2, B3, B4, B5, B6. unfold b3, b2.
  cbn [s_next s_elif s_next_else s_body s_delayed s_tmp w_delayed w_inits].
  rewrite A1, A2, A3, A4, A5, A6. 
  cbn [s_next s_elif s_next_else s_body s_delayed s_tmp w_body].
  rewrite F1, F2, F3, F4, F5, F6, Nat.add_1_r. auto 10.
Qed.
Lemma op_if_kw b c0 c : s_elif b = None -> s_next b = mkKw c0 None None None None ->
  let b' := op_if b [c] in
  s_elif b' = None /\ s_next_else b' = s_next_else b /\ s_body b' = s_body b /\ s_delayed b' = s_delayed b /\
  s_tmp b' = s_tmp b /\ s_next b' = mkKw (Some (match c0 with Some x => ands x c | None => c end)) None None None None.
Proof.
  intros H1 H2. destruct b. cbn in *. subst. destruct c0; repeat split.
Qed.
Lemma after_trans b b1 b2 i1 d1 t1 i2 d2 t2 :
  after b b1 i1 d1 t1 -> after b1 b2 i2 d2 t2 -> after b b2 (i1 ++ i2) (d1 ++ d2) (t1 + t2).
Proof.
  intros (_ & A2 & A3 & A4) (B1 & B2 & B3 & B4). unfold after.
  rewrite B2, B3, B4, A2, A3, A4, !app_assoc. repeat split; auto; try lia; apply B1.
Qed.

Lemma gcall_closed C s b : clean b ->
  exists b', gcall C s b = Some b' /\
    after b b' (gbody C (s_tmp b) s) [(1%nat, SIf (EVar (CondR (s_tmp b) 1)) (clrs C) [])] 1.
Proof.
  intros Hc. unfold gcall, request.
  set (b0 := match g_cond s with Some c => op_if b [c] | None => b end).
  assert (H0 : s_elif b0 = None /\ s_next_else b0 = false /\ s_body b0 = s_body b /\ s_delayed b0 = s_delayed b
               /\ s_tmp b0 = s_tmp b /\ s_next b0 = mkKw (g_cond s) None None None None).
  { unfold b0. destruct Hc as (H1 & H2 & H3). destruct (g_cond s) as [c|].
    - destruct (op_if_kw b None c H2 H1) as (A1 & A2 & A3 & A4 & A5 & A6). rewrite A2, H3. auto 10.
    - auto 10. }
  destruct H0 as (A1 & A2 & A3 & A4 & A5 & A6). clearbody b0.
  destruct (call_if b0 (g_cond s) (g_ack s) (gsets s) A1 A2 A6) as (b1 & E1 & F1 & L1).
  rewrite E1. cbn [bind].
  change (match g_cond s with Some x => ands x (g_ack s) | None => g_ack s end) with (full_cond s) in *.
  assert (H2 : exists b2, match option_map (fun z => (z, [sub vld (EInt 0)])) (g_zero s) with
                 | Some (c, ss) => op_call (op_if (op_then b1) [c]) ss
                 | None => Some b1 end = Some b2 /\
               after b1 b2 (match g_zero s with
                            | Some z => [IIf [(ands (full_cond s) z, [sub vld (EInt 0)])] None]
                            | None => [] end) [] 0).
  { destruct F1 as ((N1 & N2 & N3) & _). destruct (g_zero s) as [z|]; cbn [option_map].
    - unfold op_then. rewrite L1. cbn [make_cond make_condition fold_left].
      set (b1' := w_last_cond b1 []).
      assert (B : s_elif b1' = None /\ s_next b1' = kw_empty /\ s_next_else b1' = false /\
                  s_body b1' = s_body b1 /\ s_delayed b1' = s_delayed b1 /\ s_tmp b1' = s_tmp b1)
        by (destruct b1; cbn in *; auto 10).
      destruct B as (B1 & B2 & B3 & B4 & B5 & B6). clearbody b1'.
      destruct (op_if_kw b1' None (full_cond s) B1 B2) as (C1 & C2 & C3 & C4 & C5 & C6). rewrite B3 in C2.
      destruct (call_if _ _ z [sub vld (EInt 0)] C1 C2 C6) as (b2 & E2 & (F2a & F2b & F2c & F2d) & _).
      exists b2. split; [exact E2|]. unfold after. rewrite F2b, F2c, F2d, C3, C4, C5, B4, B5, B6. auto.
    - exists b1. split; [reflexivity|]. unfold after, clean. rewrite !app_nil_r, Nat.add_0_r. auto 10. }
  destruct H2 as (b2 & E2 & F2). rewrite E2. cbn [bind].
  destruct (call_delay b2 (clrs C) (proj1 F2)) as (b3 & E3 & F3). rewrite E3. cbn [bind].
  destruct (proj1 F3) as (N1 & N2 & N3).
  destruct (call_if b3 None stalled (holds C) N2 N3 N1) as (b4 & E4 & F4 & _).
  exists b4. split; [exact E4|].
  assert (T2 : s_tmp b2 = s_tmp b).
  { destruct F1 as (_ & _ & _ & T1), F2 as (_ & _ & _ & T2). lia. }
  rewrite T2 in F3.
  pose proof (after_trans _ _ _ _ _ _ _ _ _ F1 (after_trans _ _ _ _ _ _ _ _ _ F2 (after_trans _ _ _ _ _ _ _ _ _ F3 F4))) as F.
  destruct F as (Fa & Fb & Fc & Fd). unfold after. rewrite A3 in Fb. rewrite A4 in Fc. rewrite A5 in Fd.
  split; [exact Fa|]. split; [exact Fb|]. split; [exact Fc|]. exact Fd.
Qed.

Fixpoint gbodies (C : list var) (k : nat) (ss : list gsite) : list item :=
  match ss with [] => [] | s :: r => gbody C k s ++ gbodies C (S k) r end.
Fixpoint gdelays (C : list var) (k : nat) (ss : list gsite) : list stmt :=
  match ss with
  | [] => []
  | s :: r => SIf (EVar (CondR k 1)) (clrs C) [] :: gdelays C (S k) r
  end.

Lemma calls_closed C ss : forall b, clean b ->
  exists b', calls (map (gcall C) ss) b = Some b' /\
    s_body b' = s_body b ++ gbodies C (s_tmp b) ss /\
    s_delayed b' = s_delayed b ++ map (fun x => (1%nat, x)) (gdelays C (s_tmp b) ss).
Proof.
  induction ss as [|s ss IH]; intros b Hb.
  - exists b. cbn. rewrite !app_nil_r. auto.
  - destruct (gcall_closed C s b Hb) as (b1 & E1 & H1 & B1 & D1 & T1).
    destruct (IH b1 H1) as (b2 & E2 & B2 & D2).
    exists b2. cbn [map calls]. unfold bind. rewrite E1. split; [exact E2|].
    rewrite B2, D2, B1, D1, T1, Nat.add_1_r. cbn [gbodies gdelays map]. rewrite <- !app_assoc. split; reflexivity.
Qed.

Lemma delayed_ones l : 
  flat_map (delayed_at (map (fun x => (1%nat, x)) l)) (rev (seq 1 (max_delay (map (fun x => (1%nat, x)) l)))) = l.
Proof.
  assert (E : delayed_at (map (fun x => (1%nat, x)) l) 1 = l).
  { unfold delayed_at. induction l as [|x l IH]; [reflexivity|]. cbn. f_equal. exact IH. }
  destruct l as [|x l]; [reflexivity|].
  assert (M : max_delay (map (fun x => (1%nat, x)) (x :: l)) = 1%nat).
  { clear E. unfold max_delay. revert x. induction l as [|y l IH]; intros x; [reflexivity|].
    change (Nat.max 1 (fold_right (fun p m => Nat.max (fst p) m) 0%nat (map (fun x => (1%nat, x)) (y :: l))) = 1%nat).
    rewrite IH. reflexivity. }
  rewrite M. cbn [seq rev app flat_map]. rewrite E, app_nil_r. reflexivity.
Qed.

Lemma chan_code_closed C ss :
  chan_code (map (gcall C) ss) = gdelays C 0 ss ++ flat_map item_stmts (gbodies C 0 ss).
Proof.
  unfold chan_code. destruct (calls_closed C ss seq_new) as (b & E & B & D); [repeat split|].
  rewrite E. unfold make_code. rewrite B, D. cbn [s_body s_delayed s_tmp seq_new app].
  rewrite delayed_ones. reflexivity.
Qed.

(** ** One cycle *)
Section Cycle.
  Variable w : var -> Z.
  Hypothesis Hw1 : w vld = 1.
  Hypothesis Hwc : forall k i, w (CondR k i) = 1.
  Variables P C : list var.
  Hypothesis HCP : incl C P.
  Hypothesis HvP : ~ In vld P.
  Hypothesis HcP : forall k i, ~ In (CondR k i) P.
  Notation fit := (fitw w).

  Definition pay (s : gsite) : list (var * expr) := g_pre s ++ g_post s.
  Definition pay_ok (s : gsite) : Prop :=
    NoDup (map fst (pay s)) /\ (forall v, In v (map fst (pay s)) <-> In v P).
  Definition pval (e : env) (s : gsite) (v : var) : Z :=
    match find (fun p => veqb (fst p) v) (pay s) with Some p => fit v (eval e (snd p)) | None => 0 end.

  Definition active (e : env) (s : gsite) : bool :=
    (match g_cond s with Some c => truth (eval e c) | None => true end)
    && (match g_acc s with Some a => truth (eval e a) | None => true end).
  Definition is_zero (e : env) (s : gsite) : bool :=
    match g_zero s with Some z => truth (eval e z) | None => false end.
  Fixpoint last_active (e : env) (ss : list gsite) : option gsite :=
    match ss with
    | [] => None
    | s :: r => match last_active e r with
                | Some x => Some x
                | None => if active e s then Some s else None
                end
    end.

  Lemma truth_b2z b : truth (b2z b) = b.
  Proof. destruct b; reflexivity. Qed.
  Lemma fit1 v : w v = 1 -> fit v 1 = 1.
  Proof. intros H. unfold fitw. rewrite H. reflexivity. Qed.
  Lemma fit0 v : fit v 0 = 0.
  Proof. unfold fitw. apply Zmod_0_l. Qed.

  Lemma eval_free e : truth (eval e free) = truth (e rdy) || negb (truth (e vld)).
  Proof. cbn. rewrite !truth_b2z. reflexivity. Qed.
  Lemma eval_stalled e : truth (eval e stalled) = truth (e vld) && negb (truth (e rdy)).
  Proof. cbn. rewrite !truth_b2z. reflexivity. Qed.
  Lemma eval_ands e a b : truth (eval e (ands a b)) = truth (eval e a) && truth (eval e b).
  Proof. cbn. apply truth_b2z. Qed.

  Lemma eval_full e s : truth (eval e (full_cond s)) = active e s && (truth (e rdy) || negb (truth (e vld))).
  Proof.
    unfold full_cond, active, g_ack, aw_ack.
    destruct (g_cond s), (g_acc s); rewrite ?eval_ands, ?eval_free; cbn [andb];
      rewrite <- ?andb_assoc; reflexivity.
  Qed.

  (** Executing a list of whole-register assignments. *)
  Lemma execs_subs_other l v : ~ In v (map fst l) ->
    forall e n, execs fit e n (subs l) v = n v.
  Proof.
    induction l as [|[u x] l IH]; intros Hv e n; [reflexivity|].
    cbn [subs map fst snd sub]. rewrite execs_cons. cbn in Hv.
    fold (subs l). rewrite IH by tauto. cbn [exec assign]. apply vset_other. intros ->. tauto.
  Qed.
  Lemma execs_subs_in l v : NoDup (map fst l) -> In v (map fst l) ->
    forall e n, execs fit e n (subs l) v =
      match find (fun p => veqb (fst p) v) l with Some p => fit v (eval e (snd p)) | None => 0 end.
  Proof.
    induction l as [|[u x] l IH]; intros Hd Hv e n; [destruct Hv|].
    cbn [subs map fst snd sub]. rewrite execs_cons. fold (subs l). cbn [find fst snd].
    cbn [map fst] in Hd, Hv. pose proof (NoDup_cons_iff u (map fst l)) as [HN _]. specialize (HN Hd).
    destruct (veqb u v) eqn:Eu.
    - apply veqb_true in Eu. subst u. rewrite execs_subs_other by tauto.
      cbn [exec assign]. apply vset_same.
    - apply veqb_false in Eu. apply IH; [tauto|]. destruct Hv; [contradiction|assumption].
  Qed.

  Lemma gsets_subs s : gsets s = subs (g_pre s ++ (vld, EInt 1) :: g_post s).
  Proof. unfold gsets, subs. rewrite map_app. reflexivity. Qed.
  Lemma gsets_vld s e n : pay_ok s -> execs fit e n (gsets s) vld = 1.
  Proof.
    intros [Hd Hin]. unfold gsets. rewrite !execs_app.
    assert (~ In vld (map fst (g_post s))).
    { intros H. apply HvP. apply Hin. unfold pay. rewrite map_app, in_app_iff. auto. }
    rewrite execs_subs_other by assumption.
    cbn [execs fold_left exec sub assign eval]. rewrite vset_same. apply fit1, Hw1.
  Qed.
  Lemma find_app {A} (f : A -> bool) l m : find f (l ++ m) = match find f l with Some x => Some x | None => find f m end.
  Proof. induction l as [|x l IH]; [reflexivity|]. cbn. destruct (f x); auto. Qed.
  Lemma gsets_pay s e n v : pay_ok s -> In v P -> execs fit e n (gsets s) v = pval e s v.
  Proof.
    intros [Hd Hin] Hv. rewrite gsets_subs.
    assert (Hne : v <> vld) by (intros ->; contradiction).
    rewrite execs_subs_in.
    - unfold pval, pay. rewrite !find_app. cbn [find fst snd]. rewrite (veqb_neq vld v) by congruence. reflexivity.
    - rewrite map_app. cbn [map fst]. apply NoDup_Add with (a := vld) (l := map fst (pay s)).
      + unfold pay. rewrite map_app. apply Add_app.
      + split; [exact Hd|]. intros H. apply Hin in H. contradiction.
    - rewrite map_app. cbn [map fst]. apply Hin in Hv. unfold pay in Hv. rewrite map_app in Hv.
      rewrite !in_app_iff in *. cbn. tauto.
  Qed.
  Lemma gsets_other s e n v : pay_ok s -> v <> vld -> ~ In v P -> execs fit e n (gsets s) v = n v.
  Proof.
    intros [Hd Hin] Hne Hv. rewrite gsets_subs. apply execs_subs_other.
    rewrite map_app. cbn [map fst]. intros H. apply in_app_iff in H. cbn in H.
    apply Hv, Hin. unfold pay. rewrite map_app, in_app_iff. destruct H as [H|[H|H]]; auto. congruence.
  Qed.

  Lemma holds_subs : holds C = subs (map (fun v => (v, EVar v)) (vld :: C)).
  Proof. unfold holds, subs. rewrite map_map. reflexivity. Qed.

  Lemma holds_in e n v : In v (vld :: C) -> execs fit e n (holds C) v = fit v (e v).
  Proof.
    unfold holds. generalize (vld :: C). intros l. revert n. induction l as [|u l IH]; intros n Hv; [destruct Hv|].
    cbn [map]. rewrite execs_cons. destruct (in_dec var_eq_dec v l) as [Hi|Hi].
    - apply IH; assumption.
    - destruct Hv as [->|Hv]; [|contradiction].
      rewrite execs_frame.
      + cbn [exec sub assign]. rewrite vset_same. reflexivity.
      + intros H. apply in_flat_map in H. destruct H as (s & Hs & Hv).
        apply in_map_iff in Hs. destruct Hs as (x & <- & Hx). cbn in Hv. destruct Hv as [->|[]]. contradiction.
  Qed.
  Lemma holds_other e n v : ~ In v (vld :: C) -> execs fit e n (holds C) v = n v.
  Proof.
    intros Hv. apply execs_frame. intros H. apply in_flat_map in H. destruct H as (s & Hs & Hi).
    apply in_map_iff in Hs. destruct Hs as (x & <- & Hx). cbn in Hi. destruct Hi as [->|[]]. contradiction.
  Qed.

  Definition site_stmts (k : nat) (s : gsite) : list stmt := flat_map item_stmts (gbody C k s).
  Definition zero_stmts (s : gsite) : list stmt :=
    match g_zero s with Some z => [SIf (ands (full_cond s) z) [sub vld (EInt 0)] []] | None => [] end.
  Lemma site_stmts_eq k s :
    site_stmts k s = [SIf (full_cond s) (gsets s) []] ++ zero_stmts s
                     ++ [sub (CondR k 1) (EInt 1)] ++ [SIf stalled (holds C) []].
  Proof. unfold site_stmts, gbody, zero_stmts. destruct (g_zero s); reflexivity. Qed.

  Lemma zero_exec e n s v :
    execs fit e n (zero_stmts s) v =
      if veqb v vld && (truth (eval e (full_cond s)) && is_zero e s) then 0 else n v.
  Proof.
    unfold zero_stmts, is_zero. destruct (g_zero s) as [z|].
    - cbn [execs fold_left exec]. rewrite eval_ands.
      destruct (truth (eval e (full_cond s)) && truth (eval e z)); cbn [fold_left exec sub assign].
      + rewrite andb_true_r. unfold vset. destruct (veqb v vld); cbn [eval]; [rewrite fit0|]; reflexivity.
      + rewrite andb_false_r. reflexivity.
    - cbn. rewrite !andb_false_r. reflexivity.
  Qed.

  (** Values held by registers are reduced. *)
  Definition reduced (e : env) : Prop := e vld = fit vld (e vld) /\ forall v, In v C -> e v = fit v (e v).

  (** Effect of one call's statements. *)
  Lemma site_stalled e n k s : reduced e -> truth (e vld) && negb (truth (e rdy)) = true ->
    (forall v, In v P -> ~ In v C -> n v = e v) ->
    let n' := execs fit e n (site_stmts k s) in
    n' vld = e vld /\ (forall v, In v P -> n' v = e v).
  Proof.
    intros [Hr1 Hr2] Hs Hn n'.
    assert (Hfull : truth (eval e (full_cond s)) = false).
    { rewrite eval_full. destruct (truth (e vld)), (truth (e rdy)); try discriminate. apply andb_false_r. }
    assert (Hn' : forall v, n' v = if in_dec var_eq_dec v (vld :: C) then fit v (e v)
                                   else execs fit e n [sub (CondR k 1) (EInt 1)] v).
    { intros v. unfold n'. rewrite site_stmts_eq, !execs_app.
      cbn [execs fold_left exec]. rewrite Hfull. cbn [fold_left].
      fold (execs fit e n (zero_stmts s)).
      rewrite eval_stalled, Hs. destruct (in_dec var_eq_dec v (vld :: C)) as [Hi|Hi].
      - apply holds_in; assumption.
      - change (fold_left (exec fit e) (holds C)) with (fun x => execs fit e x (holds C)). cbn beta.
        rewrite holds_other by assumption. cbn [exec sub assign].
        unfold vset. destruct (veqb v (CondR k 1)); [reflexivity|].
        rewrite zero_exec, Hfull. rewrite andb_false_r. reflexivity. }
    split.
    - rewrite Hn'. destruct (in_dec var_eq_dec vld (vld :: C)) as [_|H]; [|exfalso; apply H; left; reflexivity].
      congruence.
    - intros v Hv. rewrite Hn'. destruct (in_dec var_eq_dec v (vld :: C)) as [[<-|Hi]|Hi].
      + congruence.
      + rewrite Hr2 at 2 by assumption. reflexivity.
      + cbn. unfold vset. destruct (veqb v (CondR k 1)) eqn:E.
        * apply veqb_true in E. subst v. exfalso. exact (HcP _ _ Hv).
        * apply Hn; [assumption|]. intros H. apply Hi. right. exact H.
  Qed.

  Lemma site_free e n k s : pay_ok s -> truth (e vld) && negb (truth (e rdy)) = false ->
    let n' := execs fit e n (site_stmts k s) in
    n' vld = (if active e s then b2z (negb (is_zero e s)) else n vld) /\
    (forall v, In v P -> n' v = if active e s then pval e s v else n v).
  Proof.
    intros Hp Hs n'.
    assert (Hfull : truth (eval e (full_cond s)) = active e s).
    { rewrite eval_full. destruct (truth (e vld)), (truth (e rdy)); try discriminate; apply andb_true_r. }
    assert (Hn' : forall v, v <> CondR k 1 -> n' v = execs fit e
        (if active e s then execs fit e n (gsets s) else n) (zero_stmts s) v).
    { intros v Hv. unfold n'. rewrite site_stmts_eq, !execs_app.
      cbn [execs fold_left exec]. rewrite eval_stalled, Hs. cbn [fold_left exec sub assign].
      rewrite vset_other by assumption. rewrite Hfull. reflexivity. }
    split.
    - rewrite Hn' by discriminate. rewrite zero_exec, Hfull, veqb_refl. cbn [andb].
      destruct (active e s); cbn [andb]; [|reflexivity].
      rewrite gsets_vld by assumption. destruct (is_zero e s); reflexivity.
    - intros v Hv. rewrite Hn' by (intros ->; exact (HcP _ _ Hv)).
      rewrite zero_exec. rewrite (veqb_neq v vld) by (intros ->; contradiction). cbn [andb].
      destruct (active e s); [apply gsets_pay; assumption|reflexivity].
  Qed.

  Lemma site_cond e n k s : pay_ok s -> execs fit e n (site_stmts k s) (CondR k 1) = 1.
  Proof.
    intros Hp. rewrite site_stmts_eq, !execs_app. cbn [execs fold_left exec].
    assert (H : vset (execs fit e (if truth (eval e (full_cond s)) then fold_left (exec fit e) (gsets s) n else n)
                        (zero_stmts s)) (CondR k 1) (fit (CondR k 1) 1) (CondR k 1) = 1)
      by (rewrite vset_same; apply fit1, Hwc).
    destruct (truth (eval e stalled)); [|exact H].
    change (fold_left (exec fit e) (holds C)) with (fun x => execs fit e x (holds C)). cbn beta.
    rewrite holds_other; [exact H|]. intros [H1|H1]; [discriminate|]. exact (HcP _ _ (HCP _ H1)).
  Qed.

  Lemma site_cond_other e n k j s : pay_ok s -> j <> k -> execs fit e n (site_stmts k s) (CondR j 1) = n (CondR j 1).
  Proof.
    intros Hp Hjk. rewrite site_stmts_eq, !execs_app. cbn [execs fold_left exec].
    assert (H : vset (execs fit e (if truth (eval e (full_cond s)) then fold_left (exec fit e) (gsets s) n else n)
                        (zero_stmts s)) (CondR k 1) (fit (CondR k 1) 1) (CondR j 1) = n (CondR j 1)).
    { rewrite vset_other by congruence. rewrite zero_exec. rewrite veqb_neq by discriminate. cbn [andb].
      destruct (truth _); [|reflexivity].
      change (fold_left (exec fit e) (gsets s) n) with (execs fit e n (gsets s)).
      apply gsets_other; [assumption|discriminate|apply HcP]. }
    destruct (truth (eval e stalled)); [|exact H].
    change (fold_left (exec fit e) (holds C)) with (fun x => execs fit e x (holds C)). cbn beta.
    rewrite holds_other; [exact H|]. intros [H1|H1]; [discriminate|]. exact (HcP _ _ (HCP _ H1)).
  Qed.

  (** All calls. *)
  Fixpoint all_stmts (k : nat) (ss : list gsite) : list stmt :=
    match ss with [] => [] | s :: r => site_stmts k s ++ all_stmts (S k) r end.
  Lemma all_stmts_eq ss : forall k, flat_map item_stmts (gbodies C k ss) = all_stmts k ss.
  Proof. induction ss as [|s ss IH]; intros k; [reflexivity|]. cbn [gbodies all_stmts]. rewrite flat_map_app, IH. reflexivity. Qed.

  Lemma all_stalled e ss : reduced e -> truth (e vld) && negb (truth (e rdy)) = true -> ss <> [] ->
    forall k n, (forall v, In v P -> ~ In v C -> n v = e v) ->
    let n' := execs fit e n (all_stmts k ss) in
    n' vld = e vld /\ (forall v, In v P -> n' v = e v).
  Proof.
    intros Hr Hs. induction ss as [|s ss IH]; intros Hne k n Hn; [contradiction|].
    cbn [all_stmts]. rewrite execs_app.
    pose proof (site_stalled e n k s Hr Hs Hn) as H1. cbv zeta in H1.
    destruct ss as [|s2 ss]; [exact H1|].
    apply IH; [discriminate|]. intros v Hv _. apply H1. exact Hv.
  Qed.

  Lemma all_free e ss : Forall pay_ok ss -> truth (e vld) && negb (truth (e rdy)) = false ->
    forall k n,
    let n' := execs fit e n (all_stmts k ss) in
    n' vld = match last_active e ss with Some s => b2z (negb (is_zero e s)) | None => n vld end /\
    (forall v, In v P -> n' v = match last_active e ss with Some s => pval e s v | None => n v end).
  Proof.
    intros HF Hs. induction ss as [|s ss IH]; intros k n; [split; reflexivity|].
    cbn [all_stmts last_active]. rewrite execs_app.
    destruct (site_free e n k s (Forall_inv HF) Hs) as [A1 A2].
    destruct (IH (Forall_inv_tail HF) (S k) (execs fit e n (site_stmts k s))) as [B1 B2].
    destruct (last_active e ss).
    - split; assumption.
    - split; [|intros v Hv]; rewrite ?B1, ?B2 by assumption;
        rewrite ?A1, ?A2 by assumption; destruct (active e s); reflexivity.
  Qed.

  Lemma all_cond e ss : Forall pay_ok ss -> forall k n j, (k <= j < k + length ss)%nat ->
    execs fit e n (all_stmts k ss) (CondR j 1) = 1.
  Proof.
    induction ss as [|s ss IH]; intros HF k n j Hj; [cbn in Hj; lia|].
    cbn [all_stmts length] in *. rewrite execs_app.
    destruct (Nat.eq_dec j k) as [->|Hne].
    - clear IH. assert (E : forall k' n', (k < k')%nat -> execs fit e n' (all_stmts k' ss) (CondR k 1) = n' (CondR k 1)).
      { pose proof (Forall_inv_tail HF) as HF'. clear HF Hj. induction ss as [|s' ss IH]; intros k' n' Hk; [reflexivity|].
        cbn [all_stmts]. rewrite execs_app, IH by (try exact (Forall_inv_tail HF'); lia).
        apply site_cond_other; [exact (Forall_inv HF')|lia]. }
      rewrite E by lia. apply site_cond. exact (Forall_inv HF).
    - apply IH; [exact (Forall_inv_tail HF)|lia].
  Qed.

  (** The delayed statements. *)
  Lemma clrs_vld e n : execs fit e n (clrs C) vld = 0.
  Proof.
    unfold clrs. cbn [map]. rewrite execs_cons, execs_frame; [cbn [exec sub assign eval]; rewrite vset_same; apply fit0|].
    intros H. apply in_flat_map in H. destruct H as (s & Hs & Hi). apply in_map_iff in Hs.
    destruct Hs as (x & <- & Hx). cbn in Hi. destruct Hi as [->|[]]. apply HvP, HCP, Hx.
  Qed.
  Lemma clrs_other e n v : v <> vld -> ~ In v C -> execs fit e n (clrs C) v = n v.
  Proof.
    intros H1 H2. apply execs_frame. intros H. apply in_flat_map in H. destruct H as (s & Hs & Hi).
    apply in_map_iff in Hs. destruct Hs as (x & <- & Hx). cbn in Hi. destruct Hi as [->|[]].
    destruct Hx as [Hx|Hx]; [symmetry in Hx|]; contradiction.
  Qed.
  Lemma delays_other e v ss : v <> vld -> ~ In v C -> forall k n, execs fit e n (gdelays C k ss) v = n v.
  Proof.
    intros H1 H2. induction ss as [|s ss IH]; intros k n; [reflexivity|].
    cbn [gdelays]. rewrite execs_cons, IH, exec_if. destruct (truth _); [apply clrs_other; assumption|reflexivity].
  Qed.
  Lemma delays_vld e ss : forall k n,
    (forall j, (k <= j < k + length ss)%nat -> e (CondR j 1) = 1) -> ss <> [] ->
    execs fit e n (gdelays C k ss) vld = 0.
  Proof.
    induction ss as [|s ss IH]; intros k n Hc Hne; [contradiction|].
    cbn [gdelays length] in *. rewrite execs_cons.
    destruct ss as [|s2 ss].
    - rewrite exec_if. cbn [eval]. rewrite Hc by lia. cbn [execs fold_left gdelays]. apply clrs_vld.
    - apply IH; [|discriminate]. intros j Hj. apply Hc. lia.
  Qed.
  Lemma delays_vld_keep0 e ss : forall k n, n vld = 0 -> execs fit e n (gdelays C k ss) vld = 0.
  Proof.
    induction ss as [|s ss IH]; intros k n H; [exact H|].
    cbn [gdelays]. rewrite execs_cons. apply IH. rewrite exec_if. destruct (truth _); [apply clrs_vld|exact H].
  Qed.

  Definition gcode (ss : list gsite) : list stmt := chan_code (map (gcall C) ss).

  (** The state between cycles: the delay registers are up once a request may be pending. *)
  Definition armed (ss : list gsite) (s : env) : Prop :=
    reduced s /\ (truth (s vld) = true -> ss <> [] /\ forall j, (j < length ss)%nat -> s (CondR j 1) = 1).

  Lemma step_stalled ss e : armed ss e -> truth (e vld) = true -> truth (e rdy) = false ->
    let n := tick fit (gcode ss) e in
    n vld = e vld /\ (forall v, In v P -> n v = e v).
  Proof.
    intros [Hr Ha] Hv Hd. unfold tick, gcode. rewrite chan_code_closed, execs_app, all_stmts_eq.
    destruct (Ha Hv) as [Hne _].
    apply all_stalled; auto. { rewrite Hv, Hd. reflexivity. }
    intros v HvP' Hc. apply delays_other; [intros ->; contradiction|assumption].
  Qed.

  Lemma step_free ss e : Forall pay_ok ss -> armed ss e -> truth (e vld) && negb (truth (e rdy)) = false ->
    let n := tick fit (gcode ss) e in
    match last_active e ss with
    | Some s => n vld = b2z (negb (is_zero e s)) /\ (forall v, In v P -> n v = pval e s v)
    | None => n vld = 0
    end.
  Proof.
    intros HF [[Hr1 Hr2] Ha] Hs n.
    pose proof (all_free e ss HF Hs 0%nat (execs fit e e (gdelays C 0 ss))) as [A1 A2].
    assert (En : n = execs fit e (execs fit e e (gdelays C 0 ss)) (all_stmts 0 ss)).
    { unfold n, tick, gcode. rewrite chan_code_closed, execs_app, all_stmts_eq. reflexivity. }
    rewrite <- En in A1, A2. clearbody n.
    destruct (last_active e ss) as [s|]; [split; assumption|].
    rewrite A1. destruct (truth (e vld)) eqn:Ev.
    - destruct (Ha eq_refl) as [Hne Hc]. apply delays_vld; [|assumption]. intros j Hj. apply Hc. lia.
    - apply delays_vld_keep0. unfold truth in Ev. lia.
  Qed.

  Lemma fit_idem v x : fit v (fit v x) = fit v x.
  Proof.
    unfold fitw. apply Zmod_mod.
  Qed.
  Lemma assign_reduced e n l x v : lhs_var l = v -> (forall u, u = v -> assign fit l x e n u = fit u (assign fit l x e n u)).
  Proof. intros <- u ->. destruct l; cbn; rewrite !vset_same, fit_idem; reflexivity. Qed.
  Lemma exec_reduced e v s : forall n, n v = fit v (n v) -> exec fit e n s v = fit v (exec fit e n s v).
  Proof.
    assert (HL : forall ss, Forall (fun s => forall n, n v = fit v (n v) -> exec fit e n s v = fit v (exec fit e n s v)) ss ->
      forall n, n v = fit v (n v) -> fold_left (exec fit e) ss n v = fit v (fold_left (exec fit e) ss n v)).
    { induction ss as [|s0 ss IH]; intros HF n Hn; [exact Hn|].
      cbn [fold_left]. apply IH; [exact (Forall_inv_tail HF)|]. apply (Forall_inv HF). exact Hn. }
    induction s using stmt_ind'; intros n Hn.
    - destruct (var_eq_dec v (lhs_var l)) as [->|Hne].
      + cbn [exec]. apply (assign_reduced e n l (eval e e0) (lhs_var l)); reflexivity.
      + cbn [exec]. rewrite assign_other by assumption. exact Hn.
    - rewrite exec_if. destruct (truth _); apply HL; assumption.
    - cbn [exec]. induction ws as [|[k b] ws IHw]; [exact Hn|].
      destruct (eval e e0 =? k); [apply HL; [exact (Forall_inv H)|exact Hn]|].
      apply IHw. exact (Forall_inv_tail H).
  Qed.
  Lemma tick_reduced code e : reduced e -> reduced (tick fit code e).
  Proof.
    assert (G : forall v, e v = fit v (e v) -> tick fit code e v = fit v (tick fit code e v)).
    { assert (Q : forall o v n, n v = fit v (n v) ->
                fold_left (exec fit o) code n v = fit v (fold_left (exec fit o) code n v)).
      { intros o v. induction code as [|s code' IH]; intros n Hn; [exact Hn|]. cbn [fold_left]. apply IH.
        apply exec_reduced. exact Hn. }
      intros v Hv. unfold tick, execs. apply Q. exact Hv. }
    intros [H1 H2]. split; [apply G; exact H1|]. intros v Hv. apply G, H2, Hv.
  Qed.

  Lemma step_armed ss e : Forall pay_ok ss -> armed ss e -> armed ss (tick fit (gcode ss) e).
  Proof.
    intros HF Ha. split; [apply tick_reduced, Ha|]. intros Hv.
    destruct ss as [|s0 ss0] eqn:Es.
    - exfalso. destruct Ha as [_ Ha].
      change (tick fit (gcode []) e vld) with (e vld) in Hv. destruct (Ha Hv) as [H _]. apply H; reflexivity.
    - split; [discriminate|]. intros j Hj. unfold tick, gcode. rewrite chan_code_closed, execs_app, all_stmts_eq.
      apply all_cond; [assumption|lia].
  Qed.

  Hypothesis HPown : forall v, In v P -> own v = true.
  Lemma drive_own s i v : own v = true -> drive s i v = s v.
  Proof. intros H. unfold drive. rewrite H. reflexivity. Qed.
  Lemma armed_drive ss s i : armed ss s -> armed ss (drive s i).
  Proof.
    intros [[H1 H2] H3]. split; [split|].
    - rewrite drive_own by reflexivity. exact H1.
    - intros v Hv. rewrite drive_own by (apply HPown, HCP, Hv). auto.
    - rewrite drive_own by reflexivity. intros H. destruct (H3 H) as [Hn Hc]. split; [exact Hn|].
      intros j Hj. rewrite drive_own by reflexivity. auto.
  Qed.
  Lemma armed_reset ss : armed ss chan_reset.
  Proof. split; [split|]; unfold chan_reset; intros; rewrite ?fit0; auto. discriminate. Qed.

  (** ** Runs *)
  (** Words transferred at the bus side and requests accepted at the user side, per cycle. *)
  Definition hs1 (e : env) : list (list Z) :=
    if truth (e vld) && truth (e rdy) then [map e P] else [].
  Definition acc1 (e : env) (s : gsite) : list (list Z) :=
    if (match g_cond s with Some c => truth (eval e c) | None => true end)
       && truth (eval e (g_ack s)) && negb (is_zero e s)
    then [map (pval e s) P] else [].
  Definition pend (s : env) : list (list Z) := if truth (s vld) then [map s P] else [].
  Definition one_caller (ss : list gsite) (e : env) : Prop :=
    (length (filter (active e) ss) <= 1)%nat.

  Lemma accept_active e s : (match g_cond s with Some c => truth (eval e c) | None => true end)
       && truth (eval e (g_ack s)) = active e s && (truth (e rdy) || negb (truth (e vld))).
  Proof.
    unfold active, g_ack, aw_ack. destruct (g_acc s).
    - rewrite eval_ands, eval_free. rewrite andb_assoc. reflexivity.
    - rewrite eval_free, andb_true_r. reflexivity.
  Qed.

  Lemma one_last e ss : one_caller ss e ->
    flat_map (acc1 e) ss =
    match last_active e ss with
    | Some s => acc1 e s
    | None => []
    end.
  Proof.
    unfold one_caller. induction ss as [|s ss IH]; intros H; [reflexivity|].
    cbn [flat_map last_active filter] in *.
    destruct (active e s) eqn:Ea.
    - cbn [length] in H.
      assert (E : forall l, (length (filter (active e) l) <= 0)%nat -> flat_map (acc1 e) l = [] /\ last_active e l = None).
      { induction l as [|x l IHl]; intros Hl; [split; reflexivity|]. cbn [filter flat_map last_active] in *.
        destruct (active e x) eqn:Ex; [cbn in Hl; lia|]. destruct (IHl Hl) as [E1 E2]. rewrite E1, E2.
        unfold acc1. rewrite accept_active, Ex. split; reflexivity. }
      destruct (E ss ltac:(lia)) as [E1 E2]. rewrite E1, E2, app_nil_r. reflexivity.
    - rewrite IH by exact H. unfold acc1 at 1. rewrite accept_active, Ea. cbn [andb app].
      destruct (last_active e ss); reflexivity.
  Qed.
  Lemma last_active_spec e ss s : last_active e ss = Some s -> In s ss /\ active e s = true.
  Proof.
    induction ss as [|x ss IH]; [discriminate|]. cbn.
    destruct (last_active e ss) as [y|]; [intros [= ->]; destruct (IH eq_refl); auto|].
    destruct (active e x) eqn:E; [|discriminate]. intros [= ->]. auto.
  Qed.

  (** One cycle: what was pending plus what is accepted = what is transferred plus what is pending. *)
  Lemma step_once ss e : Forall pay_ok ss -> armed ss e -> one_caller ss e ->
    pend e ++ flat_map (acc1 e) ss = hs1 e ++ pend (tick fit (gcode ss) e).
  Proof.
    intros HF Ha Ho. rewrite one_last by exact Ho.
    destruct (truth (e vld)) eqn:Ev; destruct (truth (e rdy)) eqn:Er.
    - pose proof (step_free ss e HF Ha) as H. rewrite Ev, Er in H. specialize (H eq_refl). cbv zeta in H.
      unfold pend, hs1. rewrite Ev, Er. cbn [andb]. f_equal.
      destruct (last_active e ss) as [s|] eqn:El.
      + destruct H as [H1 H2]. unfold acc1. rewrite accept_active. destruct (last_active_spec _ _ _ El) as [_ ->].
        rewrite Ev, Er, H1. cbn [andb orb]. destruct (is_zero e s); cbn [negb b2z]; [reflexivity|].
        change (truth 1) with true. cbn match. f_equal. apply map_ext_in. intros v Hv. rewrite H2 by exact Hv. reflexivity.
      + rewrite H. reflexivity.
    - destruct (step_stalled ss e Ha Ev Er) as [H1 H2].
      unfold pend, hs1. rewrite H1, Ev, Er. cbn [andb app].
      assert (E : match last_active e ss with Some s => acc1 e s | None => [] end = []).
      { destruct (last_active e ss) as [s|]; [|reflexivity]. unfold acc1. rewrite accept_active, Ev, Er.
        cbn [orb negb]. rewrite andb_false_r. reflexivity. }
      rewrite E. cbn [app]. f_equal. apply map_ext_in. intros v Hv. symmetry. apply H2, Hv.
    - pose proof (step_free ss e HF Ha) as H. rewrite Ev, Er in H. specialize (H eq_refl). cbv zeta in H.
      unfold pend, hs1. rewrite Ev, Er. cbn [andb app].
      destruct (last_active e ss) as [s|] eqn:El.
      + destruct H as [H1 H2]. unfold acc1. rewrite accept_active. destruct (last_active_spec _ _ _ El) as [_ ->].
        rewrite Ev, Er, H1. cbn [andb orb]. destruct (is_zero e s); cbn [negb b2z]; [reflexivity|].
        change (truth 1) with true. cbn match. f_equal. apply map_ext_in. intros v Hv. rewrite H2 by exact Hv. reflexivity.
      + rewrite H. reflexivity.
    - pose proof (step_free ss e HF Ha) as H. rewrite Ev, Er in H. specialize (H eq_refl). cbv zeta in H.
      unfold pend, hs1. rewrite Ev, Er. cbn [andb app].
      destruct (last_active e ss) as [s|] eqn:El.
      + destruct H as [H1 H2]. unfold acc1. rewrite accept_active. destruct (last_active_spec _ _ _ El) as [_ ->].
        rewrite Ev, Er, H1. cbn [andb orb negb]. destruct (is_zero e s); cbn [negb b2z]; [reflexivity|].
        change (truth 1) with true. cbn match. f_equal. apply map_ext_in. intros v Hv. rewrite H2 by exact Hv. reflexivity.
      + rewrite H. reflexivity.
  Qed.

  Lemma pend_drive s i : pend (drive s i) = pend s.
  Proof.
    unfold pend. rewrite drive_own by reflexivity. destruct (truth (s vld)); [|reflexivity].
    f_equal. apply map_ext_in. intros v Hv. apply drive_own, HPown, Hv.
  Qed.

  Lemma run_once ss ins : Forall pay_ok ss -> forall s, armed ss s ->
    Forall (one_caller ss) (chan_trace w (gcode ss) s ins) ->
    pend s ++ flat_map (fun e => flat_map (acc1 e) ss) (chan_trace w (gcode ss) s ins) =
    flat_map hs1 (chan_trace w (gcode ss) s ins) ++ pend (chan_final w (gcode ss) s ins).
  Proof.
    intros HF. unfold chan_trace, chan_final, final.
    induction ins as [|i ins IH]; intros s Ha Ho; [cbn; rewrite app_nil_r; reflexivity|].
    cbn [outs flat_map fold_left] in *.
    pose proof (armed_drive ss s i Ha) as Hd.
    pose proof (step_once ss (drive s i) HF Hd (Forall_inv Ho)) as H1. rewrite pend_drive in H1.
    rewrite app_assoc, H1, <- !app_assoc. f_equal. apply IH; [|exact (Forall_inv_tail Ho)].
    apply step_armed; assumption.
  Qed.

  (** valid with its payload is held until ready. *)
  Fixpoint held (t : list env) : Prop :=
    match t with
    | e :: ((e' :: _) as r) =>
        (truth (e vld) = true -> truth (e rdy) = false ->
         truth (e' vld) = true /\ forall v, In v P -> e' v = e v) /\ held r
    | _ => True
    end.
  Lemma run_held ss ins : Forall pay_ok ss -> forall s, armed ss s -> held (chan_trace w (gcode ss) s ins).
  Proof.
    intros HF. unfold chan_trace. induction ins as [|i ins IH]; intros s Ha; [exact I|].
    pose proof (armed_drive ss s i Ha) as Hd. pose proof (step_armed ss _ HF Hd) as Hn.
    destruct ins as [|j ins]; [exact I|]. cbn [outs]. split; [|exact (IH _ Hn)].
    intros Hv Hr. destruct (step_stalled ss _ Hd Hv Hr) as [H1 H2].
    change (chan_next w (gcode ss) s i) with (tick fit (gcode ss) (drive s i)).
    split; [rewrite drive_own by reflexivity; rewrite H1; exact Hv|].
    intros v HvP'. rewrite drive_own by (apply HPown, HvP'). apply H2, HvP'.
  Qed.

  (** *** With skid buffers between the registers and the port *)
  Lemma sb_drive_own st i v : own v = true -> sb_drive st i v = fst st v.
  Proof.
    intros H. unfold sb_drive. rewrite vset_other by (intros ->; discriminate). apply drive_own, H.
  Qed.
  Lemma armed_sb ss st i : armed ss (fst st) -> armed ss (sb_drive st i).
  Proof.
    intros [[H1 H2] H3]. split; [split|].
    - rewrite sb_drive_own by reflexivity. exact H1.
    - intros v Hv. rewrite sb_drive_own by (apply HPown, HCP, Hv). auto.
    - rewrite sb_drive_own by reflexivity. intros H. destruct (H3 H) as [Hn Hc]. split; [exact Hn|].
      intros j Hj. rewrite sb_drive_own by reflexivity. auto.
  Qed.
  Lemma pend_sb st i : pend (sb_drive st i) = pend (fst st).
  Proof.
    unfold pend. rewrite sb_drive_own by reflexivity. destruct (truth (fst st vld)); [|reflexivity].
    f_equal. apply map_ext_in. intros v Hv. apply sb_drive_own, HPown, Hv.
  Qed.
  Definition wsb_trace ss st ins := outs (wsb_next w (gcode ss) P) (wsb_out P) st ins.
  Definition wsb_final ss st ins := final (wsb_next w (gcode ss) P) st ins.

  Lemma wsb_history ss ins : forall st,
    map snd (wsb_trace ss st ins) = history (snd st) (map (fun x => fst (snd x)) (wsb_trace ss st ins)).
  Proof.
    unfold wsb_trace, history. induction ins as [|i ins IH]; intros st; [reflexivity|].
    cbn [outs map combine]. rewrite IH. reflexivity.
  Qed.
  Lemma wsb_taken ss ins : forall st,
    taken (map snd (wsb_trace ss st ins)) = flat_map hs1 (map fst (wsb_trace ss st ins)).
  Proof.
    unfold wsb_trace. induction ins as [|i ins IH]; intros st; [reflexivity|].
    cbn [outs map flat_map wsb_out snd fst taken]. rewrite IH. f_equal.
    unfold hs1, sb_in_of, chain_obs. cbn [in_valid in_data].
    destruct (chain_out _ _ _) as [v d]. cbn [out_ready].
    replace (truth (sb_drive st i rdy)) with (chain_ready (snd st) (port_ready i)); [reflexivity|].
    unfold sb_drive. rewrite vset_same, truth_b2z. reflexivity.
  Qed.
  Lemma wsb_once ss ins : Forall pay_ok ss -> forall st, armed ss (fst st) ->
    Forall (one_caller ss) (map fst (wsb_trace ss st ins)) ->
    pend (fst st) ++ flat_map (fun e => flat_map (acc1 e) ss) (map fst (wsb_trace ss st ins)) =
    flat_map hs1 (map fst (wsb_trace ss st ins)) ++ pend (fst (wsb_final ss st ins)).
  Proof.
    intros HF. unfold wsb_trace, wsb_final, final.
    induction ins as [|i ins IH]; intros st Ha Ho; [cbn; rewrite app_nil_r; reflexivity|].
    cbn [outs flat_map fold_left map] in *. cbn [wsb_out fst] in *.
    pose proof (armed_sb ss st i Ha) as Hd.
    pose proof (step_once ss _ HF Hd (Forall_inv Ho)) as H1. rewrite pend_sb in H1.
    rewrite app_assoc, H1, <- !app_assoc. f_equal.
    refine (IH (wsb_next w (gcode ss) P st i) _ (Forall_inv_tail Ho)).
    cbn [wsb_next fst]. apply step_armed; assumption.
  Qed.
End Cycle.
