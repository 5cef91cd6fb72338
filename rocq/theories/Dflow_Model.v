(** The valid/ready pipelines of the dataflow library, after scheduling.
    Modelled code: [dataflow/dtypes.py]: [_BinaryOperator._implement] [572-618], [_UnaryOperator] [647-680],
    [_SpecialOperator] [1617-1655], [Times] [707-791] with [dataflow/mul.py:57-102], [Divide] [807-939], [_Delay]
    [2003-2039], [_Prev] [2059-2078], [_Accumulator] [2391-2541], the handshake helpers [_and_vars] and
    [_connect_ready] [2812-2844], and the outputs [_implement_output] [233-253].

    Simplified: every input variable has data, valid and ready; an operator is an arbitrary function of
    its operands and of a state of its own (the register of an accumulator and its counter), with any
    number of pipeline stages, and gives its result to the first stage; the data of a stage that is
    not valid are not kept.  Widths, fixed points and the inside of multipliers and dividers are not
    modelled here. *)
From Verif Require Import Base.
Open Scope Z_scope.

(** an operator: stages beyond the first, initial state, next state and value *)
Record opsem := mkOp { op_more : nat; op_init : list Z; op_fun : list Z -> list Z -> list Z * Z }.
(** nodes in an order in which operands come first; [NPrev a r] is [_Prev] of [a], whose
    [parent_value] is [r] *)
Inductive dnode := NIn | NConst (v : Z) | NOp (o : opsem) (args : list nat) | NPrev (a r : nat).
Record graph := mkGraph { d_nodes : list dnode; d_out : list nat }.
Definition size (g : graph) : nat := length (d_nodes g).
Definition node (g : graph) (n : nat) : dnode := nth n (d_nodes g) (NConst 0).
(** the node whose valid and ready signals a node has: constants have none, [_Prev] those of its
    parent [2068-2072] *)
Definition root (g : graph) (n : nat) : option nat :=
  match node g n with NIn | NOp _ _ => Some n | NConst _ => None | NPrev _ r => Some r end.
Definition is_root (g : graph) (u n : nat) : bool := match root g n with Some v => Nat.eqb v u | None => false end.
Definition args (g : graph) (w : nat) : list nat := match node g w with NOp _ l => l | _ => [] end.
(** the operators that call [_connect_ready] on the ready wire of [u] *)
Definition sinks (g : graph) (u : nat) : list nat := filter (fun w => existsb (is_root g u) (args g w)) (seq 0 (size g)).
Definition outs_of (g : graph) (u : nat) : list nat := filter (is_root g u) (d_out g).

(** registers of a node: pipeline stages (valid, data), newest first; state; register of [_Prev] *)
Record cell := mkCell { c_pipe : list (bool * Z); c_st : list Z; c_reg : Z }.
Definition cell0 : cell := mkCell [] [] 0.
Definition dst := list cell.
Definition cell_init (nd : dnode) : cell :=
  match nd with NOp o _ => mkCell (repeat (false, 0) (S (op_more o))) (op_init o) 0 | _ => cell0 end.
Definition dinit (g : graph) : dst := map cell_init (d_nodes g).
(** a cycle: inputs and readiness of the outputs *)
Record din := mkDin { i_valid : nat -> bool; i_data : nat -> Z; o_ready : nat -> bool }.

Definition cellof (s : dst) (n : nat) : cell := nth n s cell0.
Definition front (s : dst) (n : nat) : bool * Z := last (c_pipe (cellof s n)) (false, 0).
(** [sig_valid] of a node with one of its own *)
Definition vbase (g : graph) (s : dst) (i : din) (u : nat) : bool :=
  match node g u with NIn => i_valid i u | _ => fst (front s u) end.
Definition vsig (g : graph) (s : dst) (i : din) (n : nat) : bool :=
  match root g n with Some u => vbase g s i u | None => true end.
(** [sig_data] *)
Definition dsig (g : graph) (s : dst) (i : din) (n : nat) : Z :=
  match node g n with NIn => i_data i n | NConst v => v | NOp _ _ => snd (front s n) | NPrev _ _ => c_reg (cellof s n) end.
(** [all_valid] [596,1636] *)
Definition all_valid (g : graph) (s : dst) (i : din) (w : nat) : bool := forallb (vsig g s i) (args g w).
(** the ready wire: the conjunction of the [ready_cond] of all operators that use the node, and of the
    ready inputs of its outputs [599,604,610-611; 245-250; 2828-2844]; [fuel] bounds the length of the
    combinational path *)
Fixpoint rdy (fuel : nat) (g : graph) (s : dst) (i : din) (u : nat) : bool :=
  match fuel with
  | O => true
  | S f => forallb (fun w => (rdy f g s i w || negb (vbase g s i w)) && all_valid g s i w) (sinks g u)
           && forallb (o_ready i) (outs_of g u)
  end.
Definition ready (g : graph) (s : dst) (i : din) (u : nat) : bool := rdy (size g) g s i u.
(** [accept] [599,1639] *)
Definition accept (g : graph) (s : dst) (i : din) (w : nat) : bool := ready g s i w || negb (vbase g s i w).
(** [all_ready] [597,1637] *)
Definition all_ready (g : graph) (s : dst) (i : din) (w : nat) : bool :=
  forallb (fun a => match root g a with Some u => ready g s i u | None => true end) (args g w).
(** [data_cond] [603,1643]: the operator takes its operands *)
Definition load (g : graph) (s : dst) (i : din) (w : nat) : bool :=
  accept g s i w && all_ready g s i w && all_valid g s i w.
(** [valid_reset_cond] [602,1642]: the node gives its word away *)
Definition release (g : graph) (s : dst) (i : din) (u : nat) : bool := vbase g s i u && ready g s i u.

(** [606-608,1646-1648]: with [accept], valid becomes [load]; the same condition moves the stages of a
    multiplier or divider ([update], [enable] [779-780]) *)
Definition cell_step (g : graph) (s : dst) (i : din) (n : nat) : cell :=
  let c := cellof s n in
  match node g n with
  | NOp o l =>
      if accept g s i n then
        if load g s i n then
          let r := op_fun o (c_st c) (map (dsig g s i) l) in
          mkCell ((true, snd r) :: removelast (c_pipe c)) (fst r) 0
        else mkCell ((false, 0) :: removelast (c_pipe c)) (c_st c) 0
      else c
  | NPrev a r => if release g s i r then mkCell [] [] (dsig g s i a) else c        (* [2074-2078] *)
  | _ => c
  end.
Definition dstep (g : graph) (s : dst) (i : din) : dst := map (cell_step g s i) (seq 0 (size g)).

(** the word a node gives away in a cycle: for an input the word it accepts, for an output the word
    the receiver gets *)
Definition moved (g : graph) (n : nat) (s : dst) (i : din) : list Z :=
  match root g n with Some u => if release g s i u then [dsig g s i n] else [] | None => [] end.
