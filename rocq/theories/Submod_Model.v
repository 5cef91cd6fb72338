(** The wrapper that instantiates a child module and makes the constants and variables its ports need:
    [Submodule] [core/submodule.py:10-173], with the parts of [core/module.py] it calls.

    Expressions are numbers, names and operators (any function of two numbers, and conditions).  With
    [use_fullmatch] names are compared as regular expressions between ^ and $ [core/module.py:657-664];
    they are identifiers here, so this is equality.  Arguments are given by name (the forms without names
    are turned into it, [submodule.py:51-66]).  Left out: children given as text, initial values,
    widths and signs of constants, AnyType ports. *)
From Verif Require Import Base.
From Coq Require Export String.
Open Scope Z_scope.

Inductive ex := ENum (z : Z) | EVar (n : string) | EOp (f : Z -> Z -> Z) (l r : ex) | ECond (c a b : ex).
(** [RenameVisitor] [core/rename_visitor.py:59-102], postfix and exclusions empty *)
Fixpoint rename (pre : string) (e : ex) : ex :=
  match e with
  | ENum z => ENum z
  | EVar n => EVar (pre ++ n)
  | EOp f l r => EOp f (rename pre l) (rename pre r)
  | ECond c a b => ECond (rename pre c) (rename pre a) (rename pre b)
  end.
(** [CollectVisitor] [core/collect_visitor.py:53-91]: the value of a constant is not visited *)
Fixpoint collect (e : ex) : list string :=
  match e with
  | ENum _ => []
  | EVar n => [n]
  | EOp _ l r => collect l ++ collect r
  | ECond c a b => collect c ++ collect a ++ collect b
  end.

Inductive dir := DIn | DOut | DInout.
Record port := mkPort { o_name : string; o_dir : dir; o_width : ex }.
(** global_constant, local_constant and io_variable of the child, in order *)
Record child := mkChild { c_params : list (string * ex); c_locals : list (string * ex); c_ports : list port }.

Definition has (n : string) (l : list string) : bool := existsb (String.eqb n) l.
Fixpoint look {A} (n : string) (l : list (string * A)) : option A :=
  match l with [] => None | (m, x) :: l => if String.eqb n m then Some x else look n l end.

(** names collected from the ports [submodule.py:91-96] *)
Definition used (c : child) : list string := flat_map (fun o => o_name o :: collect (o_width o)) (c_ports c).
(** [copy_params_as_localparams] [core/module.py:675-721], [copy_localparams] [723-768] *)
Definition copied (pre : string) (inc exc : list string) (src : list (string * ex)) : list (string * ex) :=
  map (fun x => (pre ++ fst x, rename pre (snd x)))%string (filter (fun x => has (fst x) inc && negb (has (fst x) exc)) src).
(** constants for the arguments, with the values of the arguments [submodule.py:99-105,119-122] *)
Definition arg_consts (pre : string) (args params : list (string * ex)) : list (string * ex) :=
  flat_map (fun x => match look (fst x) args with Some a => [((pre ++ fst x)%string, a)] | None => [] end) params.
(** all new constants of the parent [submodule.py:98-122]; an argument without parameter raises *)
Definition new_consts (pre : string) (args : list (string * ex)) (c : child) : option (list (string * ex)) :=
  if forallb (fun x => has (fst x) (map fst (c_params c))) args then
    Some (arg_consts pre args (c_params c) ++ copied pre (used c) (map fst args) (c_params c) ++ copied pre (used c) [] (c_locals c))
  else None.

Inductive kind := KIo (d : dir) | KReg | KWire.
(** [get_opposite_variable] [core/module.py:1212-1221] *)
Definition opposite (wire : bool) (d : dir) : kind := match d with DIn => if wire then KWire else KReg | _ => KWire end.
(** [copy_ports] [core/module.py:770-815], [copy_ports_as_vars] [817-865] *)
Definition decl (pre : string) (f : dir -> kind) (o : port) : string * kind * ex := ((pre ++ o_name o)%string, f (o_dir o), rename pre (o_width o)).
(** all new ports and variables of the parent [submodule.py:125-144] *)
Definition new_vars (pre : string) (argp : list (string * ex)) (as_io as_wire : list string) (c : child) : list (string * kind * ex) :=
  map (decl pre KIo) (filter (fun o => has (o_name o) as_io) (c_ports c)) ++
  map (decl pre (opposite false)) (filter (fun o => negb (has (o_name o) (map fst argp ++ as_io ++ as_wire))) (c_ports c)) ++
  map (decl pre (opposite true)) (filter (fun o => has (o_name o) as_wire) (c_ports c)).

(** what the ports of the instance are connected to [submodule.py:156-169] *)
Definition conns (pre : string) (argp : list (string * ex)) (as_io as_wire : list string) (c : child) : list (string * ex) :=
  flat_map (fun o => match look (o_name o) argp with
    | Some a => [(o_name o, a)]
    | None => if has (pre ++ o_name o)%string (map (fun x => fst (fst x)) (new_vars pre argp as_io as_wire c)) then [(o_name o, EVar (pre ++ o_name o)%string)] else []
    end) (c_ports c).
(** parameters of the instance [submodule.py:146-154]: the new constants that stand for arguments *)
Definition inst_params (pre : string) (args : list (string * ex)) (c : child) : list (string * ex) :=
  flat_map (fun x => if has (pre ++ fst x)%string (map fst (arg_consts pre args (c_params c))) then [(fst x, EVar (pre ++ fst x)%string)] else []) (c_params c).
