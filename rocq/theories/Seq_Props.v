(** Properties C07-C10: Seq (If/Elif/Else, Delay/Keep/LazyCond/EagerVal, Prev, reset). *)
From Verif Require Import Base Vlog Seq_Model Seq_Spec Seq_Proofs SeqAny_Proofs SeqTime_Proofs.
Open Scope Z_scope.

(** ** C07 *)

(** The calls of a chain succeed and in every cycle the block executes exactly the first
    branch whose conditions all hold (the Else branch if none does). *)
Theorem C07_first_true_branch fit c ss elifs els : c <> [] -> Forall (fun p => fst p <> []) elifs ->
  exists b, do_ops seq_new (ops_of (RChain c ss elifs els)) = Some b /\
    forall s, tick fit (make_code b) s = execs fit s s (first_branch s ((c, ss) :: elifs) els).
Proof. exact (single_chain fit c ss elifs els). Qed.
Print Assumptions C07_first_true_branch.

(** Chains keep that meaning in a block together with any other requests, in any order, over
    any run: see C08_requests_refine, of which this is the instance for chains only. *)
Theorem C07_chains_in_sequence fit (chains : list request) : fit_ok fit ->
  Forall request_ok chains -> Forall (fun r => match r with RChain _ _ _ _ => True | _ => False end) chains ->
  exists b, do_ops seq_new (flat_map ops_of chains) = Some b /\
    forall s ins, (forall v, ~ is_user v -> s v = 0) ->
      Forall2 user_agree (code_trace fit (make_code b) s ins)
                         (spec_trace (flat_map (effects_of fit) chains) [] s ins).
Proof. intros Hf Hr _. exact (seq_refines fit Hf chains Hr). Qed.
Print Assumptions C07_chains_in_sequence.

(** Several If calls before one statement: all their conditions must hold. *)
Theorem C07_stacked_ifs fit gs ss : exists b, do_ops seq_new (map OIf gs ++ [OCall ss]) = Some b /\
  forall s, tick fit (make_code b) s = if all_true s (concat gs) then execs fit s s ss else s.
Proof. exact (stacked_if_call fit gs ss). Qed.
Print Assumptions C07_stacked_ifs.

Definition fit8 : var -> Z -> Z := fun v x =>
  match v with CondR _ _ => x mod 2 | SbstG w _ _ => x mod 2 ^ Z.of_nat w | _ => x mod 256 end.
Lemma fit8_ok : fit_ok fit8.
Proof.
  unfold fit_ok, fit8. repeat split; intros; try reflexivity. apply Z.mod_mod. lia.
Qed.
Definition env_of (l : list Z) : env := fun v => match v with User n => nth n l 0 | _ => 0 end.
Definition x0 := EVar (User 0). Definition x1 := EVar (User 1). Definition x2 := EVar (User 2).
Definition set_ n e := SSub (LVar (User n)) e.
Definition no_in : input := fun _ => None.
Definition in_ (n : nat) (z : Z) : input := fun m => if Nat.eqb m n then Some z else None.

Example C07_instance :
  let r := RChain [x0] [set_ 2 (EInt 1)] [([x1], [set_ 2 (EInt 2)])] (Some [set_ 2 (EInt 3)]) in
  match do_ops seq_new (ops_of r) with
  | Some b => map (fun s => tick fit8 (make_code b) s (User 2)) [env_of [1;1;0]; env_of [0;1;0]; env_of [0;0;0]]
  | None => []
  end = [1; 2; 3].
Proof. vm_compute. reflexivity. Qed.
Example C07_instance_ok :
  request_ok (RChain [x0] [set_ 2 (EInt 1)] [([x1], [set_ 2 (EInt 2)])] (Some [set_ 2 (EInt 3)])).
Proof.
  cbn. unfold user_expr, user_stmt. repeat split; try discriminate; repeat constructor; cbn; intuition (subst; exact I) || (try discriminate).
Qed.

(** The calls succeed and the resulting builder satisfies P. *)
Definition built (os : list op) (P : seqb -> Prop) : Prop :=
  match do_ops seq_new os with Some b => P b | None => False end.

(** Finding: [seq.If(a)(s1); seq.Else.If(b)(s2)] runs s2 whenever a is false, even if b is
    false: the condition b is dropped [seq/seq.py:117-124]. *)
Theorem C07_else_if_drops_condition_refuted :
  built [OIf [x0]; OCall [set_ 2 (EInt 1)]; OElse; OIf [x1]; OCall [set_ 2 (EInt 7)]] (fun b =>
    forall s, s (User 0) = 0 -> s (User 1) = 0 -> tick fit8 (make_code b) s (User 2) = 7).
Proof. vm_compute. intros s H0 H1. rewrite H0. reflexivity. Qed.
Print Assumptions C07_else_if_drops_condition_refuted.

(** Finding: [seq.If(a)(s1); seq.Elif(b).Delay(1)(s2)] leaves the pending Elif condition
    behind, and the next call [seq(s3)] raises (AttributeError on None). *)
Theorem C07_elif_delay_breaks_next_call_refuted :
  let os := [OIf [x0]; OCall [set_ 2 (EInt 1)]; OElif [x1]; ODelay 1; OCall [set_ 2 (EInt 2)]] in
  do_ops seq_new os <> None /\ do_ops seq_new (os ++ [OCall [set_ 2 (EInt 3)]]) = None.
Proof. split; [discriminate|reflexivity]. Qed.
Print Assumptions C07_elif_delay_breaks_next_call_refuted.

(** Finding: a conditional Prev between If and Else captures the Else: the else branch then
    complements the Prev's condition instead of the If's. *)
Theorem C07_prev_captures_else_refuted :
  built [OIf [x0]; OCall [set_ 2 (EInt 1)]; OPrev 1 1 0 (Some x1); OElse; OCall [set_ 2 (EInt 7)]] (fun b =>
    forall s, s (User 0) = 1 -> s (User 1) = 0 -> tick fit8 (make_code b) s (User 2) = 7).
Proof. vm_compute. intros s H0 H1. rewrite H0, H1. reflexivity. Qed.
Print Assumptions C07_prev_captures_else_refuted.

(** ** C08 *)

(** Every program of requests - conditional assignments with any combination of Delay, Keep,
    LazyCond, EagerVal, and If/Elif/Else chains, over bits, slices and whole registers, nested
    ifs and cases - is accepted and its always block shows, on every user signal in every
    cycle of every run, exactly the values of the specification. *)
Theorem C08_requests_refine fit rs : fit_ok fit -> Forall request_ok rs ->
  exists b, do_ops seq_new (flat_map ops_of rs) = Some b /\
    forall s ins, (forall v, ~ is_user v -> s v = 0) ->
      Forall2 user_agree (code_trace fit (make_code b) s ins)
                         (spec_trace (flat_map (effects_of fit) rs) [] s ins).
Proof. intros Hf. exact (seq_refines fit Hf rs). Qed.
Print Assumptions C08_requests_refine.

(** Read off for one delayed assignment: register [n] changes at cycle t+1 exactly when the
    conditions held at cycle t-d, to the right-hand side's value at execution time (eager: at
    request time). *)
Theorem C08_delay_exact fit n e cs d lz eg : fit_ok fit -> user_expr e -> Forall user_expr cs ->
  (lz = false -> match cs with [c] => one_bit c | _ => True end) ->
  exists b, do_ops seq_new (ops_of (RAssign cs (Some d) None lz eg [SSub (LVar (User n)) e])) = Some b /\
    forall s ins, (forall v, ~ is_user v -> s v = 0) ->
    let tr := code_trace fit (make_code b) s ins in
    forall t now nx i, nth_error tr t = Some now -> nth_error tr (S t) = Some nx ->
      nth_error ins (S t) = Some i -> i n = None ->
      nx (User n) =
        match (if Nat.leb d t then nth_error tr (t - d) else None) with
        | Some p => if all_true (if lz then now else p) cs
                    then fit (User n) (eval (if eg then p else now) e) else now (User n)
        | None => now (User n)
        end.
Proof. exact (delay_single fit n e cs d lz eg). Qed.
Print Assumptions C08_delay_exact.

(** x2 <= x1, 2 cycles after x0 = 1; x0 pulses in cycle 1; x1 counts 10,11,12,... *)
Definition pulse_ins : list input :=
  map (fun t m => match m with 0%nat => Some (b2z (t =? 1)) | 1%nat => Some (10 + t) | _ => None end) [0;1;2;3;4;5].
Definition show (r : request) (ins : list input) (n : nat) : list Z :=
  match do_ops seq_new (ops_of r) with
  | Some b => map (fun e => e (User n)) (code_trace fit8 (make_code b) (fun _ => 0) ins)
  | None => []
  end.
Example C08_instance_late : show (RAssign [EBin Eq x0 (EInt 1)] (Some 2%nat) None false false [set_ 2 x1]) pulse_ins 2
  = [0; 0; 0; 0; 13; 13].
Proof. vm_compute. reflexivity. Qed.
Example C08_instance_eager : show (RAssign [EBin Eq x0 (EInt 1)] (Some 2%nat) None false true [set_ 2 x1]) pulse_ins 2
  = [0; 0; 0; 0; 11; 11].
Proof. vm_compute. reflexivity. Qed.
Example C08_instance_keep : show (RAssign [EBin Eq x0 (EInt 1)] (Some 1%nat) (Some 2%nat) false false [set_ 2 x1]) pulse_ins 2
  = [0; 0; 0; 12; 13; 13].
Proof. vm_compute. reflexivity. Qed.
Example C08_instance_ok : request_ok (RAssign [EBin Eq x0 (EInt 1)] (Some 2%nat) (Some 2%nat) false true
    [set_ 2 x1; SSub (LSlice (User 3) 3 1) x1; SSub (LBit (User 3) x0) x1]).
Proof.
  assert (U : forall e, Forall is_user (expr_vars e) -> user_expr e) by (intros e H; exact (proj1 (Forall_forall _ _) H)).
  assert (V : forall s, Forall is_user (writes s) -> Forall is_user (reads s) -> user_stmt s)
    by (intros s H1 H2; split; [exact (proj1 (Forall_forall _ _) H1)|exact (proj1 (Forall_forall _ _) H2)]).
  split; [repeat constructor; apply U; repeat constructor|]. split; [|split].
  - repeat constructor; apply V; repeat constructor.
  - intros _ _ e. cbn. destruct (_ =? _); auto.
  - intros _. repeat constructor; cbn; lia.
Qed.

(** Finding: a delayed condition is stored in a one-bit register [seq/seq.py:685], so a
    multi-bit condition whose low bit is 0 is lost: [seq.If(x).Delay(1)(y(1))] with x = 2. *)
Theorem C08_wide_condition_refuted :
  let r := RAssign [x0] (Some 1%nat) None false false [set_ 2 (EInt 1)] in
  let ins := [in_ 0 2; in_ 0 0; in_ 0 0] in
  built (ops_of r) (fun b =>
    map (fun e => e (User 2)) (code_trace fit8 (make_code b) (fun _ => 0) ins) = [0; 0; 0] /\
    map (fun e => e (User 2)) (spec_trace (effects_of fit8 r) [] (fun _ => 0) ins) = [0; 0; 1]).
Proof. vm_compute. auto. Qed.
Print Assumptions C08_wide_condition_refuted.

(** Finding: EagerVal has no effect on assignments nested in an If statement; they use the
    value at execution time [seq/seq.py:693-694]. *)
Theorem C08_eager_nested_refuted :
  show (RAssign [EBin Eq x0 (EInt 1)] (Some 2%nat) None false true [SIf (EInt 1) [set_ 2 x1] []]) pulse_ins 2
  = [0; 0; 0; 0; 13; 13].
Proof. vm_compute. reflexivity. Qed.
Print Assumptions C08_eager_nested_refuted.

(** ** C09 *)

(** Whatever is called before and after, the signal returned by [Prev(x, d, iv)] shows in
    every cycle the value x had d cycles earlier, [iv] in the first d cycles (all Prevs of x
    using the same initval). *)
Theorem C09_prev_is_delay fit os1 os2 n d iv b1 b2 q b3 s ins :
  Forall op_user os1 -> Forall op_user os2 -> Forall (op_iv n iv) os1 -> Forall (op_iv n iv) os2 ->
  do_ops seq_new os1 = Some b1 -> op_prev b1 n d iv None = (b2, q) -> do_ops b2 os2 = Some b3 ->
  (forall i x, fit (PrevR n i) x = fit (User n) x) -> fit (User n) iv = iv ->
  (forall v z, In (v, z) (s_inits b3) -> s v = z) ->
  (forall e, In e (code_trace fit (make_code b3) s ins) -> fit (User n) (e (User n)) = e (User n)) ->
  forall t, (t < length ins)%nat ->
    val_at (code_trace fit (make_code b3) s ins) t q =
      if Nat.ltb t d then Some iv else val_at (code_trace fit (make_code b3) s ins) (t - d) (EVar (User n)).
Proof. exact (prev_ok fit os1 os2 n d iv b1 b2 q b3 s ins). Qed.
Print Assumptions C09_prev_is_delay.

(** With a condition: the value x had in the d-th most recent cycle in which the condition
    held (provided no unconditional Prev of x with that delay was made before). *)
Theorem C09_conditional_prev fit os1 os2 n d iv c b1 b2 q b3 s ins :
  Forall op_user os1 -> Forall op_user os2 ->
  do_ops seq_new os1 = Some b1 -> prev_lookup b1 n (S d) = None ->
  op_prev b1 n (S d) iv (Some c) = (b2, q) -> do_ops b2 os2 = Some b3 ->
  (forall k x, (s_mod_tmp b1 <= k <= s_mod_tmp b1 + d)%nat -> fit (TmpR k) x = fit (User n) x) -> fit (User n) iv = iv ->
  (forall v z, In (v, z) (s_inits b3) -> s v = z) ->
  (forall e, In e (code_trace fit (make_code b3) s ins) -> fit (User n) (e (User n)) = e (User n)) ->
  forall t, (t < length ins)%nat ->
    val_at (code_trace fit (make_code b3) s ins) t q =
      Some (match nth_error (enabled_past (code_trace fit (make_code b3) s ins) c t) d with
            | Some p => p (User n) | None => iv end).
Proof. exact (prev_cond_ok fit os1 os2 n d iv c b1 b2 q b3 s ins). Qed.
Print Assumptions C09_conditional_prev.

Definition count_ins : list input := map (fun t => fun m => match m with 0%nat => Some (t mod 2) | 1%nat => Some (10 + t) | _ => None end) [0;1;2;3;4;5].
Definition init_env (b : seqb) : env := fun v =>
  match find (fun p => veqb (fst p) v) (s_inits b) with Some p => snd p | None => 0 end.
Example C09_instance :
  let '(b, q) := op_prev seq_new 1 2 9 None in
  map (fun e => eval e q) (code_trace fit8 (make_code b) (init_env b) count_ins) = [9; 9; 10; 11; 12; 13].
Proof. vm_compute. reflexivity. Qed.
Example C09_instance_cond :
  let '(b, q) := op_prev seq_new 1 2 9 (Some x0) in
  map (fun e => eval e q) (code_trace fit8 (make_code b) (init_env b) count_ins) = [9; 9; 9; 9; 11; 11].
Proof. vm_compute. reflexivity. Qed.

(** Finding: the cache key ignores [cond] and [initval] [seq/seq.py:169-172]: after an
    unconditional Prev(x,1), a conditional one returns the unconditional register. *)
Theorem C09_cache_ignores_condition_refuted :
  let b := fst (op_prev seq_new 1 1 0 None) in
  snd (op_prev b 1 1 5 (Some x0)) = snd (op_prev seq_new 1 1 0 None) /\
  (let '(b2, q) := op_prev b 1 1 0 (Some x0) in
   map (fun e => eval e q) (code_trace fit8 (make_code b2) (init_env b2) count_ins) = [0; 10; 11; 12; 13; 14]) /\
  (let '(b2, q) := op_prev seq_new 1 1 0 (Some x0) in
   map (fun e => eval e q) (code_trace fit8 (make_code b2) (init_env b2) count_ins) = [0; 0; 11; 11; 13; 13]).
Proof. vm_compute. auto. Qed.
Print Assumptions C09_cache_ignores_condition_refuted.

(** ** C10 *)

(** For a block built by any calls: in a cycle with reset asserted, a register that the block
    never assigns keeps its value; of a register that it assigns and that has an initval,
    every bit some assignment in the block denotes takes the initval's bit (for a negative
    initval: the bits below 32, see the finding below), every other bit keeps its value. *)
Theorem C10_reset width fit os b ui rst s :
  keeps_bits width fit -> Forall op_user os -> do_ops seq_new os = Some b ->
  truth (eval s rst) = true ->
  (forall l, drives (make_code b) l -> lhs_wf s l) ->
  forall v,
    ((forall l, drives (make_code b) l -> lhs_var l <> v) -> tick fit (make_always b ui rst) s v = s v) /\
    (forall l iv j, drives (make_code b) l -> lhs_var l = v -> all_inits b ui v = Some iv -> 0 <= j < width v ->
       covers s l j -> 0 <= iv \/ j < 32 -> Z.testbit (tick fit (make_always b ui rst) s v) j = Z.testbit iv j) /\
    (forall iv j, all_inits b ui v = Some iv -> 0 <= j < width v -> (exists l, drives (make_code b) l /\ lhs_var l = v) ->
       (forall l, drives (make_code b) l -> lhs_var l = v -> ~ covers s l j) ->
       Z.testbit (tick fit (make_always b ui rst) s v) j = Z.testbit (s v) j).
Proof. exact (reset_ok width fit os b ui rst s). Qed.
Print Assumptions C10_reset.

(** Finding: a part of a register that is written separately is reset by a logical right shift
    of the initval, so for a negative initval the bits from 32 up are reset to 0: here bits
    39..32 of a 40-bit register with initval -1. *)
Theorem C10_negative_initval_refuted :
  exists b, do_ops seq_new [OCall [SSub (LSlice (User 2) 39 32) x1]] = Some b /\
    all_inits b (fun _ => Some (-1)) (User 2) = Some (-1) /\
    tick (fun _ x => x mod 2 ^ 40) (make_always b (fun _ => Some (-1)) (EInt 1)) (env_of [0; 0; 2 ^ 40 - 1]) (User 2)
    = 2 ^ 32 - 1.
Proof. eexists. split; [reflexivity|]. vm_compute. auto. Qed.
Print Assumptions C10_negative_initval_refuted.

(** Without reset the block does what its code does. *)
Theorem C10_no_reset fit b ui rst s : truth (eval s rst) = false ->
  tick fit (make_always b ui rst) s = tick fit (make_code b) s.
Proof.
  intros H. unfold make_always. destruct (make_reset b ui); [reflexivity|].
  unfold tick. rewrite execs_cons, exec_if, H. reflexivity.
Qed.
Print Assumptions C10_no_reset.

(** x2 (initval 0xA5) driven as bits 4..1 and bit 7, x3 (initval 7) as a whole. *)
Definition ui5 : nat -> option Z := fun n => match n with 2%nat => Some 165 | 3%nat => Some 7 | _ => None end.
Example C10_instance :
  match do_ops seq_new [OCall [SSub (LSlice (User 2) 4 1) x1; SSub (LBit (User 2) (EInt 7)) x1; set_ 3 x1]] with
  | Some b => let s := tick fit8 (make_always b ui5 x0) (env_of [1; 1; 0; 0]) in (s (User 1), s (User 2), s (User 3))
  | None => (0, 0, 0)
  end = (1, 132, 7).
Proof. vm_compute. reflexivity. Qed.
Lemma fit8_bits : keeps_bits (fun v => match v with CondR _ _ => 1 | SbstG w _ _ => Z.of_nat w | _ => 8 end) fit8.
Proof.
  intros v x j H. destruct v; cbn in *; try (change 256 with (2 ^ 8); apply Z.mod_pow2_bits_low; lia);
    try (change 2 with (2 ^ 1) at 1; apply Z.mod_pow2_bits_low; lia); apply Z.mod_pow2_bits_low; lia.
Qed.

(** Finding: a register driven only through a computed bit index is not initialised as a
    whole: reset clears the currently indexed bit only. *)
Theorem C10_dynamic_bit_refuted :
  built [OCall [SSub (LBit (User 2) x1) x0]] (fun b =>
    let s := env_of [0; 3; 255] in
    tick fit8 (make_always b (fun _ => Some 0) (EInt 1)) s (User 2) = 247).
Proof. vm_compute. reflexivity. Qed.
Print Assumptions C10_dynamic_bit_refuted.
