(** What a schedule must be. *)
From Verif Require Import Base Dflow_Model Dflow_Spec.
Open Scope nat_scope.

(** the latencies of the paths from the inputs to a node *)
Inductive path (g : graph) : nat -> nat -> Prop :=
| path_in n : n < size g -> node g n = NIn -> path g n 0
| path_op n o l a k : n < size g -> node g n = NOp o l -> In a l -> path g a k -> path g n (k + S (op_more o))
| path_prev n a r k : n < size g -> node g n = NPrev a r -> path g a k -> path g n k.
(** every node has a user or is an output *)
Definition used (g : graph) : Prop :=
  forall n, n < size g -> (exists u, root g n = Some u) -> In n (d_out g) \/ exists w, w < size g /\ match node g w with NOp _ l => In n l | NPrev a _ => a = n | _ => False end.
(** every path from the inputs to a node takes the same time *)
Definition balanced (g : graph) (st : nat -> nat) : Prop := forall n k, path g n k -> k = st n.
(** one-stage operators only *)
Definition single (g : graph) : Prop := forall n o l, n < size g -> node g n = NOp o l -> op_more o = 0.
(** the same input streams, with the inputs renumbered *)
Definition same_inputs (g : graph) (f : nat -> nat) (I I' : nat -> nat -> Z) : Prop :=
  forall n, n < size g -> node g n = NIn -> I' (f n) = I n.
