(** The scheduler of the dataflow library: stages, delays, balanced outputs.
    Modelled code: [dataflow/scheduler.py] (all of [ASAPScheduler]), [dtypes._max] [2799-2809],
    [_Delay] [2003-2039] as an operator, [Dataflow.implement] [dataflow.py:118-130].

    Simplified: the nodes are those the outputs need, and are visited in an order in which operands come
    first (the recursion of [visit] with its cache gives such an order); variables have no
    [input_data] that is itself a node; [_Delay] nodes do not occur before scheduling.  The new nodes are
    numbered in the order of their creation. *)
From Verif Require Import Base Dflow_Model.
Open Scope nat_scope.

(** [_Delay]: one stage that passes its operand [2003-2039] *)
Definition op_delay : opsem := mkOp 0 [] (fun st l => (st, nth 0 l 0%Z)).

(** the graph so far, [end_stage] of its nodes, the new number of every old node, and [delayed_value]:
    (node, stage, delayed node) *)
Record sch := mkSch { q_nodes : list dnode; q_end : list (option nat); q_map : list nat; q_del : list (nat * nat * nat) }.
Definition q0 : sch := mkSch [] [] [] [].
Definition endof (q : sch) (t : nat) : option nat := nth t (q_end q) None.
Definition mapped (q : sch) (n : nat) : nat := nth n (q_map q) 0.
Definition emit (q : sch) (nd : dnode) (e : option nat) : sch := mkSch (q_nodes q ++ [nd]) (q_end q ++ [e]) (q_map q) (q_del q).
Definition place (q : sch) (t : nat) : sch := mkSch (q_nodes q) (q_end q) (q_map q ++ [t]) (q_del q).
(** [_get_delayed_value], [_add_delayed_value] [dtypes.py:338-346] *)
Definition delayed (q : sch) (u e : nat) : option nat :=
  option_map snd (find (fun x => (fst (fst x) =? u) && (snd (fst x) =? e)) (q_del q)).
Definition add_delay (q : sch) (u e t : nat) : sch := mkSch (q_nodes q) (q_end q) (q_map q) ((u, e, t) :: q_del q).

(** the loop of [fill_gap] [74-86]: [k] more stages from [cur] on *)
Fixpoint fill_loop (k : nat) (q : sch) (u prev cur : nat) : sch * nat :=
  match k with
  | O => (q, prev)
  | S k' =>
      match delayed q u (S cur) with
      | Some r => fill_loop k' q u r (S cur)
      | None => let r := length (q_nodes q) in
                fill_loop k' (add_delay (emit q (NOp op_delay [prev]) (Some (S cur))) u (S cur) r) u r (S cur)
      end
  end.
(** [fill_gap] [58-88]; a node that ends too late raises an exception there *)
Definition fill (q : sch) (u : nat) (e : option nat) : sch * nat :=
  match e, endof q u with
  | Some e, Some c => fill_loop (e - c) q u u c
  | _, _ => (q, u)
  end.
Fixpoint fill_all (q : sch) (l : list nat) (e : option nat) : sch * list nat :=
  match l with
  | [] => (q, [])
  | u :: l' => let (q1, r) := fill q u e in let (q2, rs) := fill_all q1 l' e in (q2, r :: rs)
  end.
(** [dtypes._max] *)
Definition omax (a b : option nat) : option nat :=
  match a, b with Some x, Some y => Some (Nat.max x y) | Some x, None => Some x | None, _ => b end.
Definition max_stage (q : sch) (l : list nat) : option nat := fold_left omax (map (endof q) l) None.
(** [next_stage] [14-17] *)
Definition next_stage (lat : nat) (e : option nat) : nat := match e with None => 0 | Some x => x + lat end.
(** [visit_*] [90-167]; [_Prev] is a unary operator of latency 0 *)
Definition sched_node (q : sch) (nd : dnode) : sch :=
  match nd with
  | NIn => place (emit q NIn (Some 0)) (length (q_nodes q))
  | NConst v => place (emit q (NConst v) None) (length (q_nodes q))
  | NOp o l =>
      let ts := map (mapped q) l in
      let mine := max_stage q ts in
      let (q1, rs) := fill_all q ts mine in
      place (emit q1 (NOp o rs) (Some (next_stage (S (op_more o)) mine))) (length (q_nodes q1))
  | NPrev a r =>
      let e := endof q (mapped q a) in
      place (emit q (NPrev (mapped q a) (mapped q r)) (Some (next_stage 0 e))) (length (q_nodes q))
  end.
Definition sched_nodes (l : list dnode) : sch := fold_left sched_node l q0.
(** [implement] [dataflow.py:118-130] with [balance_output] [32-56] *)
Definition out_stage (q : sch) (outs : list nat) : nat := fold_left (fun m t => match endof q t with Some e => Nat.max m e | None => m end) outs 0.
Definition balance (g : graph) : sch * list nat * nat :=
  let q := sched_nodes (d_nodes g) in
  let ts := map (mapped q) (d_out g) in
  let m := out_stage q ts in
  let (q', rs) := fill_all q ts (Some m) in (q', rs, m).
Definition schedule (g : graph) : graph := match balance g with (q, rs, _) => mkGraph (q_nodes q) rs end.
(** [pipeline_depth] *)
Definition depth (g : graph) : nat := match balance g with (_, _, m) => m end.
(** the new number of a node, the stage of a new node *)
Definition renum (g : graph) (n : nat) : nat := match balance g with (q, _, _) => mapped q n end.
Definition stage (g : graph) (t : nat) : option nat := match balance g with (q, _, _) => endof q t end.
