(** What a pipeline should compute: each variable is a stream of elements. *)
From Verif Require Import Base Pipe_Model.
Open Scope nat_scope.

(** variables of an expression; expressions without unary operators *)
Fixpoint vars (e : pe) : list nat :=
  match e with PVar v => [v] | PInt _ => [] | PUn _ a => vars a | POp _ l => flat_map vars l end.
Fixpoint no_unary (e : pe) : Prop :=
  match e with PVar _ | PInt _ => True | PUn _ _ => False | POp _ l => fold_right (fun a P => no_unary a /\ P) True l end.

(** elements of type [A] with the operators on them *)
Section Streams.
  Context {A : Type}.
  Variables (sem : nat -> list A -> A) (semu : nat -> A -> A) (cst : Z -> A).
  Definition stream := nat -> A.
  (** the element of an expression whose variables have these elements *)
  Fixpoint value (d : nat -> A) (e : pe) : A :=
    match e with PVar v => d v | PInt z => cst z | PUn o a => semu o (value d a) | POp o l => sem o (map (value d) l) end.
  (** an accumulator starts with [init] and combines what it has with the next element *)
  Definition combine (ops : list aop) (old new : A) : A :=
    fold_left (fun d a => match a with ABin o => sem o [old; d] | AUn o => semu o d end) ops new.
  Fixpoint running (ops : list aop) (init : Z) (x : stream) (k : nat) : A :=
    combine ops (match k with O => cst init | S k => running ops init x k end) (x k).
  (** the streams of a program's variables; [ins u]: the stream of variable [u], an input *)
  Definition element (vs : list stream) (k u : nat) : A := nth u vs (fun _ => cst 0) k.
  Fixpoint meaning (cs : list cmd) (ins : nat -> stream) (vs : list stream) : list stream :=
    match cs with
    | [] => vs
    | c :: cs =>
        meaning cs ins (vs ++ [match c with
          | Input _ _ => ins (length vs)
          | Stage e _ => fun k => value (element vs k) e
          | Acc e ops init => running ops init (fun k => value (element vs k) e)
          end])
    end.
End Streams.
Arguments stream : clear implicits.
Definition int_const (z : Z) : Z := z.

(** every expression refers to earlier variables, to at least one, and has no unary operator *)
Fixpoint proper (n : nat) (cs : list cmd) : Prop :=
  match cs with
  | [] => True
  | c :: cs =>
      match c with
      | Input _ _ => True
      | Stage e _ | Acc e _ _ => no_unary e /\ vars e <> [] /\ Forall (fun u => u < n) (vars e)
      end /\ proper (S n) cs
  end.
Definition inputs_are (valid ready : bool -> Prop) (cs : list cmd) : Prop :=
  Forall (fun c => match c with Input v r => valid v /\ ready r | _ => True end) cs.
(** the stage of each variable: one more than the latest it is computed from *)
Fixpoint levels (cs : list cmd) (ls : list nat) : list nat :=
  match cs with
  | [] => ls
  | c :: cs => levels cs (ls ++ [match c with Input _ _ => 0 | Stage e _ | Acc e _ _ => S (list_max (map (fun u => nth u ls 0) (vars e))) end])
  end.
Definition no_acc (cs : list cmd) : Prop := Forall (fun c => match c with Acc _ _ _ => False | _ => True end) cs.

(** runs: what the environment drives and the ready wires, cycle by cycle *)
Section Runs.
  Variables (sem : nat -> list Z -> Z) (semu : nat -> Z -> Z) (s : pl).
  Definition trace := list (drive * (nat -> bool)).
  Fixpoint after (x : st) (tr : trace) : st := match tr with [] => x | (i, rd) :: tr => after (next sem semu s x i rd) tr end.
  Fixpoint legal (x : st) (tr : trace) : Prop :=
    match tr with [] => True | (i, rd) :: tr => wires s x i rd /\ legal (next sem semu s x i rd) tr end.
  (** the elements that leave variable [v]: valid and ready *)
  Fixpoint passed (v : nat) (x : st) (tr : trace) : list Z :=
    match tr with
    | [] => []
    | (i, rd) :: tr => (if valid s x i v && rd v then [data s x i v] else []) ++ passed v (next sem semu s x i rd) tr
    end.
End Runs.
Definition first_of (x : stream Z) (l : list Z) : Prop := l = map x (seq 0 (length l)).
(** a condition on every cycle of a run *)
Section Always.
  Variables (sem : nat -> list Z -> Z) (semu : nat -> Z -> Z) (s : pl) (P : st -> drive -> (nat -> bool) -> Prop).
  Fixpoint always (x : st) (tr : trace) : Prop :=
    match tr with [] => True | (i, rd) :: tr => P x i rd /\ always (next sem semu s x i rd) tr end.
End Always.
(** the variables read by one register are ready together *)
Definition together (s : pl) (rd : nat -> bool) : Prop :=
  forall j r a b, nreg (get s j) = Some r -> In a (rready r) -> In b (rready r) -> rd a = rd b.
(** the sources of a register are read by the same registers and outputs *)
Definition uniform (s : pl) : Prop :=
  forall j r a b, nreg (get s j) = Some r -> In a (rready r) -> In b (rready r) -> forall c, In c (conds s a) -> In c (conds s b).
(** no dead ends: every variable is read by a register or an output; the outputs are at stage [M], the last *)
Record tight (s : pl) (M : nat) : Prop := mkTight {
  ti_stage : forall v k, nstage (get s v) = Some k -> k <= M;
  ti_read : forall v, v < length (nodes s) -> conds s v <> [];
  ti_out : forall v k, In (COut k) (conds s v) -> nstage (get s v) = Some M
}.
(** the inputs are valid together, the outputs ready together *)
Definition in_step (s : pl) (i : drive) : Prop :=
  (forall u w, is_input s u = true -> is_input s w = true -> ivld i u = ivld i w) /\ (forall k l, ordy i k = ordy i l).
(** [u] is [v] or one of the variables [v] is computed from *)
Inductive feeds (s : pl) (u : nat) : nat -> Prop :=
| feeds_refl : feeds s u u
| feeds_reg v j r : feeds s u v -> nreg (get s j) = Some r -> In v (vars (rdata r)) -> feeds s u j.

(** the state in cycle [t] of an infinite run *)
Fixpoint at_cycle (sem : nat -> list Z -> Z) (semu : nat -> Z -> Z) (s : pl) (e : nat -> drive * (nat -> bool)) (t : nat) : st :=
  match t with O => start s | S t => next sem semu s (at_cycle sem semu s e t) (fst (e t)) (snd (e t)) end.
(** what variable [v] shows: nothing, if it has a valid signal that is 0 *)
Definition shows (s : pl) (x : st) (i : drive) (v : nat) : option Z :=
  if nvalid (get s v) && negb (valid s x i v) then None else Some (data s x i v).
(** operators on optional elements *)
Fixpoint all_some (l : list (option Z)) : option (list Z) :=
  match l with [] => Some [] | x :: l => match x, all_some l with Some z, Some r => Some (z :: r) | _, _ => None end end.
Definition lift (sem : nat -> list Z -> Z) (o : nat) (l : list (option Z)) : option Z := option_map (sem o) (all_some l).
Definition liftu (semu : nat -> Z -> Z) (o : nat) (x : option Z) : option Z := option_map (semu o) x.

(** programs whose nets have no dead ends: the arguments of each expression's operator have variables
    of one stage each, and every variable is used *)
Definition same_level (ls : list nat) (a : pe) : Prop := forall u w, In u (vars a) -> In w (vars a) -> nth u ls 0 = nth w ls 0.
Definition flat (ls : list nat) (e : pe) : Prop := match e with POp _ args => forall a, In a args -> same_level ls a | _ => True end.
Definition cmd_vars (c : cmd) : list nat := match c with Input _ _ => [] | Stage e _ | Acc e _ _ => vars e end.
Definition flat_program (cs : list cmd) : Prop :=
  Forall (fun c => match c with Input _ _ => True | Stage e _ | Acc e _ _ => flat (levels cs []) e end) cs.
Definition used (cs : list cmd) (outs : list (nat * option nat)) : Prop :=
  forall u, u < length cs -> (exists c, In c cs /\ In u (cmd_vars c)) \/ exists k, In (u, Some k) outs.
(** programs whose expressions have one variable each *)
Definition one_var (e : pe) : Prop := forall u w, In u (vars e) -> In w (vars e) -> u = w.
Definition single_program (cs : list cmd) : Prop :=
  Forall (fun c => match c with Input _ _ => True | Stage e _ | Acc e _ _ => one_var e end) cs.
