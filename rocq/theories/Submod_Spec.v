(** Values of constants in a module and in an instance of it. *)
From Verif Require Import Base Submod_Model.
Open Scope Z_scope.

(** names without a value are not declared *)
Definition env := string -> option Z.
Definition none : env := fun _ => None.
Definition set (g : env) (n : string) (v : option Z) : env := fun m => if String.eqb m n then v else g m.
Fixpoint eval (g : env) (e : ex) : option Z :=
  match e with
  | ENum z => Some z
  | EVar n => g n
  | EOp f l r => match eval g l, eval g r with Some x, Some y => Some (f x y) | _, _ => None end
  | ECond c a b => match eval g c, eval g a, eval g b with Some z, Some x, Some y => Some (if z =? 0 then y else x) | _, _, _ => None end
  end.
(** declarations one after the other *)
Definition declare (g : env) (ds : list (string * ex)) : env := fold_left (fun g x => set g (fst x) (eval g (snd x))) ds g.
(** an instance: parameters have the value given by the parent [up], or their own; then local constants *)
Definition instance (up : env) (over : list (string * ex)) (c : child) : env :=
  declare (fold_left (fun g x => set g (fst x) (match look (fst x) over with Some a => eval up a | None => eval g (snd x) end)) (c_params c) none) (c_locals c).

(** every name is declared once, before it is used *)
Fixpoint ordered (seen : list string) (ds : list (string * ex)) : Prop :=
  match ds with
  | [] => True
  | (n, e) :: r => (forall v, In v (collect e) -> In v seen) /\ ~ In n seen /\ ordered (n :: seen) r
  end.
Record legal (c : child) : Prop := {
  l_consts : ordered [] (c_params c ++ c_locals c);
  l_widths : forall o v, In o (c_ports c) -> In v (collect (o_width o)) -> In v (map fst (c_params c ++ c_locals c));
  l_ports : NoDup (map o_name (c_ports c))
}.
(** arguments: for parameters, each once, that do not speak of the new names *)
Definition legal_args (pre : string) (args : list (string * ex)) (c : child) : Prop :=
  (forall n a, In (n, a) args -> In n (map fst (c_params c)) /\ forall m, ~ In (pre ++ m)%string (collect a)).
(** The constants that are copied speak only of constants that are copied.  This is what the code does not
    provide for: the values of constants are not searched for names. *)
Definition complete (args : list (string * ex)) (c : child) : Prop :=
  forall n e v, In (n, e) (c_params c ++ c_locals c) -> In n (used c) -> ~ In n (map fst args) -> In v (collect e) -> In v (used c) \/ In v (map fst args).
