(** What a dataflow pipeline must do: the streams of words of a graph, without any timing. *)
From Verif Require Import Base Dflow_Model.
Open Scope Z_scope.

(** state and value of an operator on its [k]-th operands *)
Fixpoint op_state (o : opsem) (A : nat -> list Z) (k : nat) : list Z :=
  match k with O => op_init o | S j => fst (op_fun o (op_state o A j) (A j)) end.
Definition op_value (o : opsem) (A : nat -> list Z) (k : nat) : Z := snd (op_fun o (op_state o A k) (A k)).
(** the stream of a node, from those of the nodes before it and the input streams *)
Definition node_stream (I : nat -> nat -> Z) (env : list (nat -> Z)) (n : nat) (nd : dnode) : nat -> Z :=
  match nd with
  | NIn => I n
  | NConst v => fun _ => v
  | NOp o l => op_value o (fun k => map (fun a => nth a env (fun _ => 0) k) l)
  | NPrev a _ => fun k => match k with O => 0 | S j => nth a env (fun _ => 0) j end
  end.
Definition streams (I : nat -> nat -> Z) (nodes : list dnode) : list (nat -> Z) :=
  fold_left (fun env nd => env ++ [node_stream I env (length env) nd]) nodes [].
Definition den (g : graph) (I : nat -> nat -> Z) (n : nat) : nat -> Z := nth n (streams I (d_nodes g)) (fun _ => 0).

(** ** Graphs *)
Definition handshake (nd : dnode) : Prop := match nd with NIn | NOp _ _ => True | _ => False end.
Definition legal (g : graph) : Prop :=
  (forall n, (n < size g)%nat -> match node g n with
     | NOp _ l => Forall (fun a => (a < n)%nat) l
     | NPrev a r => (a < n)%nat /\ (r < n)%nat /\ handshake (node g r) /\ root g a = Some r
     | _ => True end) /\
  Forall (fun n => (n < size g)%nat /\ exists u, root g n = Some u) (d_out g).
(** the operands of an operator have the same users: either they share their signals, or the same
    operators use them and no output does *)
Definition closed (g : graph) : Prop :=
  forall w u u', In w (sinks g u) -> In w (sinks g u') ->
    u = u' \/ (forall x, In x (sinks g u) <-> In x (sinks g u')) /\ outs_of g u = [] /\ outs_of g u' = [].
(** the value of an output is used by nothing else *)
Definition private (g : graph) : Prop :=
  forall n u, In n (d_out g) -> root g n = Some u -> sinks g u = [] /\ outs_of g u = [n].
(** a graph of one-stage operators laid out in stages, with all outputs in the last one: what
    [fill_gap] and [balance_output] produce *)
Definition levelled (g : graph) (lev : nat -> nat) (S : nat) : Prop :=
  forall n, (n < size g)%nat -> match node g n with
    | NIn => lev n = 0%nat
    | NOp o l => op_more o = 0%nat /\ forall a u, In a l -> root g a = Some u -> lev n = Datatypes.S (lev u)
    | _ => True end /\
    (handshake (node g n) -> (lev n <= S)%nat /\ (lev n = S -> outs_of g n <> []) /\ ((lev n < S)%nat -> sinks g n <> [] /\ outs_of g n = [])).
(** every operator has an operand with a handshake *)
Definition driven (g : graph) : Prop :=
  forall n, (n < size g)%nat -> match node g n with NOp _ l => exists a, In a l /\ root g a <> None | _ => True end.

(** ** Runs *)
Definition drun (g : graph) (s : dst) (ins : list din) : dst := final (dstep g) s ins.
(** the words a node gave away *)
Definition words (g : graph) (n : nat) (s : dst) (ins : list din) : list Z := concat (outs (dstep g) (moved g n) s ins).
(** the words the receiver of an output gets: it takes one in every cycle in which the valid signal of
    the output and its own ready signal are up *)
Definition got (g : graph) (n : nat) (s : dst) (i : din) : list Z :=
  match root g n with Some u => if vbase g s i u && o_ready i n then [dsig g s i n] else [] | None => [] end.
Definition received (g : graph) (n : nat) (s : dst) (ins : list din) : list Z := concat (outs (dstep g) (got g n) s ins).
(** input streams that begin with the words the inputs accepted *)
Definition extends (g : graph) (I : nat -> nat -> Z) (s : dst) (ins : list din) : Prop :=
  forall n k x, (n < size g)%nat -> node g n = NIn -> nth_error (words g n s ins) k = Some x -> I n k = x.
(** all inputs become valid together, all outputs ready together *)
Definition synchronous (g : graph) (i : din) : Prop :=
  (forall m n, (m < size g)%nat -> (n < size g)%nat -> node g m = NIn -> node g n = NIn -> i_valid i m = i_valid i n) /\
  (forall m n, In m (d_out g) -> In n (d_out g) -> o_ready i m = o_ready i n).
(** all inputs valid, all outputs ready *)
Definition flowing (g : graph) (i : din) : Prop :=
  (forall n, (n < size g)%nat -> node g n = NIn -> i_valid i n = true) /\ (forall n, In n (d_out g) -> o_ready i n = true).
