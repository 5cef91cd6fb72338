(** Stream pipelines: the scheduler and the scheduled hardware.

    Modelled code: [stream/scheduler.py:8-193], [stream/visitor.py:8-60], the scheduling and
    balancing part of [stream/stream.py:155-208], the control signals [stream/stream.py:529-575],
    and the register structure of the operators [stream/stypes.py:491-547,579-623,1513-1575
    (operators), 2291-2306 (_Delay), 2355-2370 (_Prev), 3012-3148 (_Accumulator)].

    Nodes live in a list; a node is named by its position, which is its object_id.  What an
    operator computes is a parameter of the node ([KOp f]), so the model covers every operator whose
    registers follow the common pattern: [latency] registers, the first of which takes the function
    of the operands, all of them enabled by the stream's enable signal.  (The multiplier and divider
    instances have this behaviour by C17 and C18.)

    Simplifications: a loop in the graph (an exception in the code) is an exhausted recursion here;
    the dependency of an accumulator is visited after the other operands; multi-cycle operators
    (initiation_interval <> 1), substreams, and memory operators are not modelled here. *)
From Verif Require Import Base.

(** A node of kind [KVar i] is input [i] of the stream, [KParam] a parameter variable.  A
    [_Variable] that wraps another node is not a node here: all its attributes are redirected to the
    wrapped node [stypes.py:2868-2889]; it is the flag of the operand (see [operand]). *)
Inductive kind :=
| KVar (i : nat)
| KConst (v : Z)
| KParam (p : nat)
| KOp (f : list Z -> Z)
| KPrev
| KDelay
| KAcc (st0 : list Z) (upd : list Z -> list Z -> list Z) (out : list Z -> Z).

(** an operand: the node and whether it is reached through a wrapping [_Variable] *)
Definition operand := (nat * bool)%type.

Record node := mkNode {
  n_kind : kind;
  n_lat : nat;                        (* latency *)
  n_args : list operand;              (* left, right, args, size, initval, ... *)
  n_deps : list operand;              (* dependency: visited but never read *)
  n_start : option nat;               (* start_stage *)
  n_end : option nat;                 (* end_stage *)
  n_delayed : list (nat * nat);       (* delayed_value: stage -> node *)
  n_parent : option nat               (* parent_value of a _Delay *)
}.
Definition fresh (k : kind) (lat : nat) (args deps : list operand) : node := mkNode k lat args deps None None [] None.

Definition heap := list node.
Definition get (h : heap) (n : nat) : option node := nth_error h n.
Fixpoint put (h : heap) (n : nat) (d : node) : heap :=
  match h, n with
  | [], _ => []
  | _ :: r, O => d :: r
  | a :: r, S n => a :: put r n d
  end.
Definition set_stages (d : node) (args : list operand) (s e : nat) : node :=
  mkNode (n_kind d) (n_lat d) args (n_deps d) (Some s) (Some e) (n_delayed d) (n_parent d).
Definition set_start (d : node) (s : option nat) : node :=
  mkNode (n_kind d) (n_lat d) (n_args d) (n_deps d) s (n_end d) (n_delayed d) (n_parent d).
Definition add_delayed (d : node) (st r : nat) : node :=
  mkNode (n_kind d) (n_lat d) (n_args d) (n_deps d) (n_start d) (n_end d) ((st, r) :: n_delayed d) (n_parent d).
Definition is_const (k : kind) : bool := match k with KConst _ | KParam _ => true | _ => false end.
Definition is_delay (k : kind) : bool := match k with KDelay => true | _ => false end.
Definition is_acc (k : kind) : bool := match k with KAcc _ _ _ => true | _ => false end.

Fixpoint find_delayed (l : list (nat * nat)) (st : nat) : option nat :=
  match l with
  | [] => None
  | (s, r) :: rest => if s =? st then Some r else find_delayed rest st
  end.

(** [fill_gap] [scheduler.py:47-78].  [fill c i n prev h]: [c] stages still to fill, [i] the end
    stage of [prev]; [None] is an exception. *)
Fixpoint fill (c i n prev : nat) (h : heap) : option (heap * nat) :=
  match c with
  | O => Some (h, prev)
  | S c =>
      match get h n with
      | None => None
      | Some d =>
          match find_delayed (n_delayed d) (S i) with
          | Some r => fill c (S i) n r h
          | None =>
              let r := length h in
              let dl := mkNode KDelay 1 [(prev, false)] [] (Some i) (Some (S i)) [] (Some n) in
              fill c (S i) n r (put h n (add_delayed d (S i) r) ++ [dl])
          end
      end
  end.
Definition fill_gap (h : heap) (n stage : nat) : option (heap * nat) :=
  match get h n with
  | None => None
  | Some d =>
      match n_end d with
      | None => Some (h, n)
      | Some e =>
          if e =? stage then Some (h, n)
          else if stage <? e then None
          else
            let n' := if is_delay (n_kind d) then match n_parent d with Some p => p | None => n end else n in
            match get h n' with
            | Some d' => match n_end d' with Some e' => fill (stage - e') e' n' n' h | None => None end
            | None => None
            end
      end
  end.
Fixpoint fill_args (h : heap) (l : list operand) (stage : nat) : option (heap * list operand) :=
  match l with
  | [] => Some (h, [])
  | (n, al) :: r =>
      match fill_gap h n stage with
      | None => None
      | Some (h1, m) =>
          match fill_args h1 r stage with
          | None => None
          | Some (h2, ms) => Some (h2, (m, al) :: ms)
          end
      end
  end.

(** [max_stage] [stypes.py:5157-5168]; no stage at all counts as 0 [scheduler.py:86-87] *)
Definition omax (a b : option nat) : option nat :=
  match a, b with
  | None, x | x, None => x
  | Some x, Some y => Some (Nat.max x y)
  end.
Definition stage_of (l : list (option nat)) : nat := match fold_right omax None l with Some s => s | None => 0 end.

(** visitors of an operator's operands *)
Section Visits.
  Variable visit : heap -> operand -> option (heap * option nat).
  Fixpoint visits (h : heap) (l : list operand) : option (heap * list (option nat)) :=
    match l with
    | [] => Some (h, [])
    | a :: r =>
        match visit h a with
        | None => None
        | Some (h1, x) =>
            match visits h1 r with
            | None => None
            | Some (h2, xs) => Some (h2, x :: xs)
            end
        end
    end.
End Visits.

(** [visit] [visitor.py:16-27] with the methods [scheduler.py:80-193] *)
Fixpoint visit (fuel : nat) (h : heap) (a : operand) : option (heap * option nat) :=
  match fuel with
  | O => None
  | S fuel =>
      let '(n, al) := a in
      match get h n with
      | None => None
      | Some d =>
          if is_const (n_kind d) then Some (h, None)
          else
            match n_start d with
            | Some _ => Some (h, n_end d)
            | None =>
                let r :=
                  match n_kind d with
                  | KVar _ => Some (put h n (set_stages d (n_args d) 0 0), Some 0)
                  | _ =>
                      match visits (visit fuel) h (n_args d ++ n_deps d) with
                      | None => None
                      | Some (h1, stages) =>
                          let mine := stage_of stages in
                          match fill_args h1 (n_args d) mine with
                          | None => None
                          | Some (h2, args) =>
                              match get h2 n with
                              | None => None
                              | Some d2 =>
                                  let e := mine + n_lat d2 in
                                  Some (put h2 n (set_stages d2 args mine e), Some e)
                              end
                          end
                      end
                  end in
                (* through a wrapping variable: the start stage of the node itself is set to its
                   end stage [scheduler.py:183-186] *)
                match r with
                | None => None
                | Some (h', e) =>
                    if al then
                      match get h' n with
                      | Some d' => Some (put h' n (set_start d' e), e)
                      | None => None
                      end
                    else Some (h', e)
                end
            end
      end
  end.

(** [schedule] [scheduler.py:26-28] and the maximum of the end stages [stream.py:191-195] *)
Fixpoint schedule (h : heap) (outs : list nat) : option heap :=
  match outs with
  | [] => Some h
  | n :: r =>
      match visit (S (length h)) h (n, false) with
      | None => None
      | Some (h1, _) => schedule h1 r
      end
  end.
Definition end_of (h : heap) (n : nat) : option nat := match get h n with Some d => n_end d | None => None end.
Definition max_stage (h : heap) (outs : list nat) : nat := stage_of (map (end_of h) outs).
(** [balance_output] [scheduler.py:30-45] *)
Fixpoint balance (h : heap) (outs : list nat) (stage : nat) : option (heap * list nat) :=
  match outs with
  | [] => Some (h, [])
  | n :: r =>
      match fill_gap h n stage with
      | None => None
      | Some (h1, m) =>
          match balance h1 r stage with
          | None => None
          | Some (h2, ms) => Some (h2, m :: ms)
          end
      end
  end.
(** the scheduling part of [implement]: graph with delays, depth, and the node driving each output *)
Definition build (h : heap) (outs : list nat) : option (heap * nat * list nat) :=
  match schedule h outs with
  | None => None
  | Some h1 =>
      let m := max_stage h1 outs in
      match balance h1 outs m with
      | None => None
      | Some (h2, rs) => Some (h2, m, rs)
      end
  end.

(** * The hardware *)
(** what arrives in one cycle: the input variables and ivalid *)
Record elem := mkElem { e_in : nat -> Z; e_valid : bool }.
(** registers: per node, and the chain of valid bits *)
Record regs := mkRegs { r_data : nat -> list Z; r_valid : list bool }.

Section Hardware.
  Variables (h : heap) (hv : bool) (par : nat -> Z).       (* hv: the stream has an ivalid signal *)
  Definition vals (v : nat -> Z) (l : list operand) : list Z := map (fun a => v (fst a)) l.
  (** the signal [sig_data] of a node, given the signals of the others *)
  Definition out (d : node) (x : elem) (v : nat -> Z) (r : list Z) : Z :=
    match n_kind d with
    | KVar i => e_in x i
    | KConst c => c
    | KParam p => par p
    | KOp f => match n_lat d with O => f (vals v (n_args d)) | _ => last r 0%Z end
    | KPrev | KDelay => last r 0%Z
    | KAcc _ _ o => o r
    end.
  Definition wires_ok (x : elem) (s : regs) (v : nat -> Z) : Prop :=
    forall n d, get h n = Some d -> v n = out d x v (r_data s n).
  (** [valid_list] [stream.py:558-575] *)
  Definition valid_at (x : elem) (s : regs) (stage : nat) : bool :=
    match stage with O => e_valid x | S k => nth k (r_valid s) false end.
  (** the condition an accumulator gets [allocator.py:13-16] *)
  Definition svalid (x : elem) (s : regs) (d : node) : bool :=
    if hv then match n_start d with Some st => valid_at x s st | None => true end else true.
  Definition next_regs (d : node) (x : elem) (s : regs) (v : nat -> Z) (r : list Z) : list Z :=
    match n_kind d with
    | KOp f => match n_lat d with O => r | _ => f (vals v (n_args d)) :: removelast r end
    | KPrev | KDelay => vals v (n_args d)
    | KAcc _ u _ => if svalid x s d then u r (vals v (n_args d)) else r
    | _ => r
    end.
  (** one clock edge with the stream's enable [en] *)
  Definition tick (en : bool) (x : elem) (v : nat -> Z) (s : regs) : regs :=
    if en then
      mkRegs (fun n => match get h n with Some d => next_regs d x s v (r_data s n) | None => r_data s n end)
             (match r_valid s with [] => [] | _ :: _ => e_valid x :: removelast (r_valid s) end)
    else s.
  Definition init_regs (m : nat) : regs :=
    mkRegs (fun n => match get h n with
                     | Some d => match n_kind d with
                                 | KOp _ => repeat 0%Z (n_lat d)
                                 | KPrev | KDelay => [0%Z]
                                 | KAcc s0 _ _ => s0
                                 | _ => []
                                 end
                     | None => []
                     end)
           (repeat false m).
  (** an execution from reset: the accepted elements (those of enabled cycles), oldest first *)
  Inductive exec (m : nat) : list elem -> regs -> Prop :=
  | exec_reset : exec m [] (init_regs m)
  | exec_tick : forall (en : bool) x v xs s, exec m xs s -> wires_ok x s v ->
      exec m (if en then xs ++ [x] else xs) (tick en x v s).
  (** [ovalid] [stream.py:574-575] *)
  Definition ovalid (m : nat) (x : elem) (s : regs) : bool := valid_at x s m.
End Hardware.
