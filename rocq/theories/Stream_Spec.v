(** What a stream graph means, element by element: the value of node [n] for element [k], given the
    elements [xs].  No stages, no registers.  [prev] looks at the element before; an accumulator is
    updated by the valid elements in order and gives the state including element [k]. *)
From Verif Require Import Base Stream_Model.

Section Den.
  Variables (g : heap) (par : nat -> Z) (xs : nat -> elem).
  Inductive den : nat -> nat -> Z -> Prop :=
  | den_var : forall n d i k, get g n = Some d -> n_kind d = KVar i -> den n k (e_in (xs k) i)
  | den_const : forall n d c k, get g n = Some d -> n_kind d = KConst c -> den n k c
  | den_param : forall n d p k, get g n = Some d -> n_kind d = KParam p -> den n k (par p)
  | den_op : forall n d f k vs, get g n = Some d -> n_kind d = KOp f -> dens (n_args d) k vs -> den n k (f vs)
  | den_prev : forall n d k v, get g n = Some d -> n_kind d = KPrev -> dens (n_args d) k [v] -> den n (S k) v
  | den_acc : forall n d s0 u o k s, get g n = Some d -> n_kind d = KAcc s0 u o -> state n (S k) s -> den n k (o s)
  with dens : list operand -> nat -> list Z -> Prop :=
  | dens_nil : forall k, dens [] k []
  | dens_cons : forall a r k v vs, den (fst a) k v -> dens r k vs -> dens (a :: r) k (v :: vs)
  (** the state before element [k] *)
  with state : nat -> nat -> list Z -> Prop :=
  | state_0 : forall n d s0 u o, get g n = Some d -> n_kind d = KAcc s0 u o -> state n 0 s0
  | state_invalid : forall n k s, state n k s -> e_valid (xs k) = false -> state n (S k) s
  | state_valid : forall n d s0 u o k s vs, get g n = Some d -> n_kind d = KAcc s0 u o ->
      state n k s -> e_valid (xs k) = true -> dens (n_args d) k vs -> state n (S k) (u s vs).
End Den.
Scheme den_ind3 := Induction for den Sort Prop
  with dens_ind3 := Induction for dens Sort Prop
  with state_ind3 := Induction for state Sort Prop.

(** a graph as the user builds it: operands are created before the operators that use them, nothing
    is scheduled, no delays; an accumulator is not reached through a wrapping variable *)
Definition built_before (g : heap) (n : nat) (a : operand) : Prop :=
  fst a < n /\ (snd a = true -> forall d, get g (fst a) = Some d -> is_acc (n_kind d) = false).
Definition user_node (g : heap) (n : nat) (d : node) : Prop :=
  Forall (built_before g n) (n_args d ++ n_deps d) /\
  n_start d = None /\ n_end d = None /\ n_delayed d = [] /\ is_delay (n_kind d) = false /\
  match n_kind d with
  | KPrev => n_lat d = 0 /\ length (n_args d) = 1
  | KAcc _ _ _ => n_lat d = 1
  | _ => True
  end.
Definition user_graph (g : heap) : Prop := forall n d, get g n = Some d -> user_node g n d.
