(** Properties C05, C06 and C52: state machines built with FSM. *)
From Verif Require Import Base Vlog Seq_Model Seq_Spec Fsm_Model Fsm_Spec Fsm_Proofs FsmStmt_Proofs.
Open Scope Z_scope.

(** ** C05 *)

(** One clock edge: both forms compute the same next value of every register, whatever the
    builder contains. *)
Theorem C05_case_if_same_step fit b ui rst s v :
  tick fit (fmake_always b ui rst true) s v = tick fit (fmake_always b ui rst false) s v.
Proof. rewrite always_same. reflexivity. Qed.
Print Assumptions C05_case_if_same_step.

(** Over any input sequence the two forms show the same values of every signal. *)
Theorem C05_case_if_same_trace fit b ui rst ins s :
  code_trace fit (fmake_always b ui rst true) s ins = code_trace fit (fmake_always b ui rst false) s ins.
Proof. apply trace_ext. intros. apply always_same. Qed.
Print Assumptions C05_case_if_same_trace.

(** ** C06 *)

(** The next state, for every program of assignments, chains and gotos, in both forms. *)
Theorem C06_next_state fit rs b ui rst case s : Forall freq_ok rs ->
  do_fops fsm_new (flat_map fops_of rs) = Some b ->
  tick fit (fmake_always b ui rst case) s FState =
  if truth (eval s rst) then fit FState 0
  else match decide_last (rules 0 rs) (s FState) s with
       | Some d => fit FState (Z.of_nat d)
       | None => s FState
       end.
Proof. intros H E. exact (always_state fit rs b ui rst case s H E). Qed.
Print Assumptions C06_next_state.

(** Only 0 and the states named as a destination are ever entered (the state register being
    wide enough for them). *)
Theorem C06_only_named_states fit rs b ui rst case ins s : Forall freq_ok rs ->
  do_fops fsm_new (flat_map fops_of rs) = Some b ->
  (forall d, In d (0%nat :: named 0 rs) -> fit FState (Z.of_nat d) = Z.of_nat d) ->
  s FState = 0 ->
  Forall (fun e => exists d, In d (0%nat :: named 0 rs) /\ e FState = Z.of_nat d)
         (code_trace fit (fmake_always b ui rst case) s ins).
Proof.
  intros H E F Hs. apply (state_named fit rs b ui rst case H E).
  - apply (F 0%nat). left; reflexivity.
  - intros d Hd. apply F. right; exact Hd.
  - exists 0%nat. split; [left; reflexivity|exact Hs].
Qed.
Print Assumptions C06_only_named_states.

(** ** C52 *)

(** Statements without delays: the calls succeed, and in each cycle the user registers get
    exactly the effects of the requests of the current state whose conditions hold, in program
    order, on top of what fsm.Always does. *)
Theorem C52_statements_of_current_state fit rs q : clean false rs ->
  do_ops seq_new (always_ops rs) = Some q ->
  exists b, do_fops fsm_new (flat_map fops_of rs) = Some b /\
    forall s v, is_user v -> (exists i, s FState = Z.of_nat i) ->
      tick fit (make_case b) s v = freq_effects fit 0 rs s (tick fit (make_code q) s) v.
Proof. exact (fsm_statements fit rs q). Qed.
Print Assumptions C52_statements_of_current_state.

(** If(a).If(b)... is If(a, b, ...), whatever statement, goto or modifier follows. *)
Theorem C52_stacked_ifs cs b a rest : f_next b = kw_empty ->
  do_fops b (FIf [a] :: map (fun c => FIf [c]) cs ++ rest) = do_fops b (FIf (a :: cs) :: rest).
Proof. exact (stacked_ifs_same cs b a rest). Qed.
Print Assumptions C52_stacked_ifs.

(** ** Instances and findings *)
Definition ev (n : nat) := EVar (User n).
Definition fset n z := SSub (LVar (User n)) (EInt z).
Definition fitw : var -> Z -> Z := fun v x => x mod 2 ^ 32.
Definition fenv (st : Z) (l : list Z) : env :=
  fun v => match v with User n => nth n l 0 | FState => st | _ => 0 end.
Definition fbuilt (os : list fop) (P : fsmb -> Prop) : Prop :=
  match do_fops fsm_new os with Some b => P b | None => False end.

(** A machine with overlapping conditions, an else destination, a goto chain, goto_from. *)
Definition demo : list freq :=
  [ QAssign [ev 0] None None None false false [fset 5 1];
    QChain [ev 0] [fset 6 1] [([ev 1], [fset 6 2])] (Some [fset 6 3]);
    QGoto [ev 0] None 2 None; QGoto [ev 1] None 3 (Some 1%nat); QInc;
    QGotoChain [ev 0] 2 [([ev 1], 3%nat)] (Some 0%nat); QSetIndex 2;
    QGotoNext [ev 0; ev 1]; QGotoInit []; QGotoFrom [ev 2] 3 1 None ].
Example C06_demo_ok : Forall freq_ok demo /\ clean false demo.
Proof.
  unfold demo. split.
  - repeat constructor; cbn; try discriminate; intuition (subst; exact I).
  - cbn. repeat split; try discriminate; repeat constructor; discriminate.
Qed.
Example C06_demo_states : fbuilt (flat_map fops_of demo) (fun b =>
  map (fun p => tick fitw (make_case b) (fenv (fst p) (snd p)) FState)
    [(0, [0;0]); (0, [1;0]); (0, [1;1]); (1, [1;1]); (1, [0;1]); (1, [0;0]); (2, [1;1]); (2, [0;1]); (3, [0;0;1]); (3, [0;0;0])]
  = [1; 1; 3; 2; 3; 0; 3; 2; 1; 0]).
Proof. vm_compute. reflexivity. Qed.
Example C52_demo_stmts : fbuilt (flat_map fops_of demo) (fun b =>
  map (fun p => map (fun v => tick fitw (make_case b) (fenv (fst p) (snd p)) (User v)) [5; 6]%nat)
    [(0, [0;0]); (0, [1;0]); (0, [0;1]); (1, [1;1])] = [[0;3]; [1;1]; [0;2]; [0;0]]).
Proof. vm_compute. reflexivity. Qed.
Example C05_demo : fbuilt (flat_map fops_of demo) (fun b =>
  Nat.ltb 1 (length (indexes b)) = true /\
  tick fitw (make_if b) (fenv 1 [1; 1]) FState = 2 /\ tick fitw (make_case b) (fenv 1 [1; 1]) FState = 2).
Proof. vm_compute. auto. Qed.

(** Finding: an If(..).goto between If(a)(s1) and Else(s2) does not close the open If:
    s2 runs when a is false, not when the goto's condition b is false. *)
Theorem C52_else_after_goto_refuted :
  fbuilt [FIf [ev 0]; FCall [fset 5 1]; FIf [ev 1]; FGoto 1 None None; FElse; FCall [fset 6 1]] (fun b =>
    (* a = 1, b = 0: the Else of If(b) is expected to run but does not *)
    tick fitw (make_case b) (fenv 0 [1; 0]) (User 6) = 0 /\
    (* a = 0, b = 1: it runs although b holds *)
    tick fitw (make_case b) (fenv 0 [0; 1]) (User 6) = 1).
Proof. vm_compute. auto. Qed.
Print Assumptions C52_else_after_goto_refuted.

(** Finding: after If(a)(s1); Else.goto(d) the next call in the state is taken as the Else of
    If(a), even an unconditional one, and the condition of a conditional one is dropped. *)
Theorem C52_call_after_else_goto_refuted :
  fbuilt [FIf [ev 0]; FCall [fset 5 1]; FElse; FGoto 1 None None; FCall [fset 6 1]] (fun b =>
    tick fitw (make_case b) (fenv 0 [1]) (User 6) = 0) /\
  fbuilt [FIf [ev 0]; FCall [fset 5 1]; FElse; FGoto 1 None None; FIf [ev 1]; FCall [fset 6 1]] (fun b =>
    tick fitw (make_case b) (fenv 0 [0; 0]) (User 6) = 1).
Proof. vm_compute. auto. Qed.
Print Assumptions C52_call_after_else_goto_refuted.

(** Finding: a delayed conditional statement placed in another state with When(i) keeps its
    condition registers in the current state, so in state i the condition is not sampled. *)
Definition when_delay := [FSetIndex 1; FIf [ev 0]; FWhen 2; FDelay 1; FCall [fset 5 1]].
Theorem C52_when_delay_refuted : fbuilt when_delay (fun b =>
  (* in state 2 with the condition true in both cycles: the statement never runs *)
  map (fun e => e (User 5)) (code_trace fitw (make_case b) (fenv 2 [1]) (repeat (fun _ => None) 6))
  = [0; 0; 0; 0; 0; 0]).
Proof. vm_compute. reflexivity. Qed.
Print Assumptions C52_when_delay_refuted.
