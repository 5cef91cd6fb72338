(** What a user of FSM expects of transitions, stated on requests (groups of calls) and
    independent of body/jump tables. *)
From Verif Require Import Base Vlog Seq_Model Seq_Spec Fsm_Model.
Open Scope Z_scope.

Inductive freq :=
| QAssign (conds : list expr) (at_ : option nat) (delay keep : option nat) (lazy eager : bool) (ss : list stmt)
    (* fsm.If( *conds).When(at_).Delay(delay).Keep(keep)[.LazyCond()][.EagerVal()]( *ss) *)
| QChain (c : list expr) (ss : list stmt) (elifs : list (list expr * list stmt)) (els : option (list stmt))
| QGoto (conds : list expr) (at_ : option nat) (dst : nat) (els : option nat)
    (* fsm.If( *conds).When(at_).goto(dst, else_dst=els) *)
| QGotoInit (conds : list expr)
| QGotoNext (conds : list expr)
| QGotoFrom (conds : list expr) (src dst : nat) (els : option nat)
| QGotoChain (c : list expr) (dst : nat) (elifs : list (list expr * nat)) (els : option nat)
    (* fsm.If( *c).goto(dst); fsm.Elif( *c').goto(dst'); ...; fsm.Else.goto(els) *)
| QInc | QSetIndex (i : nat)
| QAlways (o : op).     (* a call on fsm.Always, or fsm.Prev *)

Definition opt_op {A} (f : A -> fop) (o : option A) : list fop := match o with Some x => [f x] | None => [] end.
Definition fops_of (r : freq) : list fop :=
  match r with
  | QAssign cs a d k lz eg ss =>
      [FIf cs] ++ opt_op FWhen a ++ opt_op FDelay d ++ opt_op FKeep k
      ++ (if lz then [FLazy] else []) ++ (if eg then [FEager] else []) ++ [FCall ss]
  | QChain c ss elifs els =>
      [FIf c; FCall ss] ++ flat_map (fun p => [FElif (fst p); FCall (snd p)]) elifs
                        ++ match els with Some e => [FElse; FCall e] | None => [] end
  | QGoto cs a dst els => [FIf cs] ++ opt_op FWhen a ++ [FGoto dst None els]
  | QGotoInit cs => [FIf cs; FGotoInit None]
  | QGotoNext cs => [FIf cs; FGotoNext None]
  | QGotoFrom cs src dst els => [FIf cs; FGotoFrom src dst None els]
  | QGotoChain c dst elifs els =>
      [FIf c; FGoto dst None None] ++ flat_map (fun p => [FElif (fst p); FGoto (snd p) None None]) elifs
                                  ++ match els with Some e => [FElse; FGoto e None None] | None => [] end
  | QInc => [FInc]
  | QSetIndex i => [FSetIndex i]
  | QAlways o => [FSeq o]
  end.

(** A transition rule: in state [fst], where (if anywhere) to go in a given cycle. *)
Definition rule := (nat * (env -> option nat))%type.
Fixpoint first_dst (e : env) (br : list (list expr * nat)) (els : option nat) : option nat :=
  match br with
  | [] => els
  | (c, d) :: r => if all_true e c then Some d else first_dst e r els
  end.
(** The rules of a program written from state [cur] on. *)
Fixpoint rules (cur : nat) (rs : list freq) : list rule :=
  match rs with
  | [] => []
  | r :: rest =>
      match r with
      | QAssign _ _ _ _ _ _ _ | QChain _ _ _ _ | QAlways _ => rules cur rest
      | QGoto cs a dst els =>
          (match a with Some i => i | None => cur end, fun e => if all_true e cs then Some dst else els) :: rules cur rest
      | QGotoInit cs => (cur, fun e => if all_true e cs then Some 0%nat else None) :: rules cur rest
      | QGotoNext cs => (cur, fun e => if all_true e cs then Some (S cur) else None) :: rules (S cur) rest
      | QGotoFrom cs src dst els => (src, fun e => if all_true e cs then Some dst else els) :: rules cur rest
      | QGotoChain c dst elifs els => (cur, fun e => first_dst e ((c, dst) :: elifs) els) :: rules cur rest
      | QInc => rules (S cur) rest
      | QSetIndex i => rules i rest
      end
  end.

(** The state the next request is written in. *)
Definition next_cur (cur : nat) (r : freq) : nat :=
  match r with QGotoNext _ | QInc => S cur | QSetIndex i => i | _ => cur end.

(** The last applicable rule decides; no applicable rule: stay. *)
Fixpoint decide_last (rl : list rule) (state : Z) (e : env) : option nat :=
  match rl with
  | [] => None
  | (src, f) :: r =>
      match decide_last r state e with
      | Some d => Some d
      | None => if state =? Z.of_nat src then f e else None
      end
  end.

(** States a program names as a destination. *)
Fixpoint named (cur : nat) (rs : list freq) : list nat :=
  match rs with
  | [] => []
  | r :: rest =>
      match r with
      | QAssign _ _ _ _ _ _ _ | QChain _ _ _ _ | QAlways _ => named cur rest
      | QGoto _ _ dst els | QGotoFrom _ _ dst els =>
          dst :: match els with Some e => [e] | None => [] end ++ named cur rest
      | QGotoInit _ => 0%nat :: named cur rest
      | QGotoNext _ => S cur :: named (S cur) rest
      | QGotoChain _ dst elifs els =>
          dst :: map snd elifs ++ match els with Some e => [e] | None => [] end ++ named cur rest
      | QInc => named (S cur) rest
      | QSetIndex i => named i rest
      end
  end.

(** Requests covered: assigned registers are the user's; chains have real conditions. *)
Definition freq_ok (r : freq) : Prop :=
  let user ss := forall v, In v (flat_map writes ss) -> is_user v in
  match r with
  | QAssign _ _ _ _ _ _ ss => user ss
  | QChain _ ss elifs els => user ss /\ Forall (fun p => user (snd p)) elifs /\ match els with Some e => user e | None => True end
  | QGotoChain c _ elifs _ => c <> [] /\ Forall (fun p => fst p <> []) elifs
  | QAlways o => op_user o
  | _ => True
  end.

(** What the statements of a program do in one cycle (no Delay/Keep): an assignment acts in
    its state when its conditions hold, a chain executes its first branch that holds. *)
Definition freq_effect (fit : var -> Z -> Z) (cur : nat) (r : freq) (now nxt : env) : env :=
  match r with
  | QAssign cs a _ _ _ _ ss =>
      if (now FState =? Z.of_nat (match a with Some i => i | None => cur end)) && all_true now cs
      then execs fit now nxt ss else nxt
  | QChain c ss elifs els =>
      if now FState =? Z.of_nat cur then execs fit now nxt (first_branch now ((c, ss) :: elifs) els) else nxt
  | _ => nxt
  end.
Fixpoint freq_effects (fit : var -> Z -> Z) (cur : nat) (rs : list freq) (now nxt : env) : env :=
  match rs with
  | [] => nxt
  | r :: rest => freq_effects fit (next_cur cur r) rest now (freq_effect fit cur r now nxt)
  end.
Definition always_ops (rs : list freq) : list op :=
  flat_map (fun r => match r with QAlways o => [o] | _ => [] end) rs.

(** Programs without Delay/Keep in which no statement follows an [Else.goto] of the same
    state ([pend]: such a goto was just made, see the findings). *)
Fixpoint clean (pend : bool) (rs : list freq) : Prop :=
  match rs with
  | [] => True
  | r :: rest =>
      match r with
      | QAssign _ _ None None _ _ _ => pend = false /\ clean false rest
      | QAssign _ _ _ _ _ _ _ => False
      | QChain c _ elifs _ => pend = false /\ c <> [] /\ Forall (fun p => fst p <> []) elifs /\ clean false rest
      | QGotoChain c _ elifs els =>
          c <> [] /\ Forall (fun p => fst p <> []) elifs /\ clean (match els with Some _ => true | None => pend end) rest
      | QGotoNext _ | QInc | QSetIndex _ => clean false rest
      | _ => clean pend rest
      end
  end.
