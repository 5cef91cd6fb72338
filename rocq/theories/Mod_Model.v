(** Declarations in a module: identifier tables, temporaries, submodules (veriloggen/core/module.py). *)
From Coq Require Import String Ascii.
From Verif Require Import Base Lit_Model.
Open Scope string_scope.
Open Scope list_scope.

Inductive kind := KInput | KOutput | KInout | KWire | KReg | KInteger | KReal | KGenvar | KParameter | KLocalparam
  | KFunction | KTask | KInstance | KScope.
(** the tables of a module [module.py:24-40] *)
Inductive table := Tio | Tvar | Tglobal | Tlocal | Tfun | Ttask | Tinst | Tgen.
Definition table_of (k : kind) : table :=
  match k with
  | KInput | KOutput | KInout => Tio
  | KWire | KReg | KInteger | KReal | KGenvar => Tvar
  | KParameter => Tglobal | KLocalparam => Tlocal | KFunction => Tfun | KTask => Ttask | KInstance => Tinst | KScope => Tgen
  end.
Definition table_eqb (a b : table) : bool :=
  match a, b with
  | Tio, Tio | Tvar, Tvar | Tglobal, Tglobal | Tlocal, Tlocal | Tfun, Tfun | Ttask, Ttask | Tinst, Tinst | Tgen, Tgen => true
  | _, _ => false
  end.
Definition kind_eqb (a b : kind) : bool :=
  match a, b with
  | KInput, KInput | KOutput, KOutput | KInout, KInout | KWire, KWire | KReg, KReg | KInteger, KInteger | KReal, KReal
  | KGenvar, KGenvar | KParameter, KParameter | KLocalparam, KLocalparam | KFunction, KFunction | KTask, KTask
  | KInstance, KInstance | KScope, KScope => true
  | _, _ => false
  end.
(** [items]: the declarations in the order they are printed *)
Record mstate := mkM { tables : table -> string -> option kind; items : list (string * kind); tmp_count : Z }.
Definition empty : mstate := mkM (fun _ _ => None) [] 0%Z.
Definition declare (n : string) (k : kind) (s : mstate) : mstate :=
  mkM (fun t m => if table_eqb t (table_of k) && String.eqb m n then Some k else tables s t m) (items s ++ [(n, k)]) (tmp_count s).

(** [Module.find_identifier] [module.py:1146-1163] *)
Definition first {A} (l : list (option A)) : option A := fold_right (fun o r => match o with Some _ => o | None => r end) None l.
Definition find (s : mstate) (n : string) : option kind :=
  first (map (fun t => tables s t n) [Tio; Tvar; Tglobal; Tlocal; Tfun; Ttask; Tinst; Tgen]).
(** [Generate.find_identifier] [module.py:1441-1448]: [outer]: the identifiers of the enclosing
    module; [fun _ => None] for a module itself *)
Definition find_in (outer : string -> option kind) (s : mstate) (n : string) : option kind :=
  match find s n with Some k => Some k | None => outer n end.
(** [check_existing_identifier] [module.py:1284-1293], without AnyType; true: no error *)
Definition check_id (outer : string -> option kind) (s : mstate) (n : string) (types : list kind) : bool :=
  match find_in outer s n with None => true | Some k => existsb (kind_eqb k) types end.
(** [is_reg] [module.py:1193-1198] *)
Definition is_reg (s : mstate) (n : string) : bool := match tables s Tvar n with Some KReg => true | _ => false end.

(** what each method accepts beside nothing [module.py:50-191, 508-582] *)
Definition permits (k : kind) : list kind :=
  match k with KInput | KInout => [KWire] | KOutput => [KWire; KReg] | KWire => [KInput; KOutput] | KReg => [KOutput] | _ => [] end.
Definition method (outer : string -> option kind) (k : kind) (n : string) (s : mstate) : option mstate :=
  if check_id outer s n (permits k) then
    match k with
    | KWire => if is_reg s n then None else Some (declare n k s)
    | _ => Some (declare n k s)
    end
  else None.
Inductive call :=
  | Declare (k : kind) (n : string)
  | OutputReg (n : string)
  | Tmp (k : kind) (prefix : string).  (** TmpWire, TmpReg, TmpInteger, TmpReal, TmpGenvar, TmpLocalparam *)
Definition tmp_name (prefix : string) (c : Z) : string := (prefix ++ "_" ++ show 10 c)%string.
(** the new state, and whether an error was raised; [get_tmp] [module.py:1166-1169] counts in any case *)
Definition exec (outer : string -> option kind) (s : mstate) (c : call) : mstate * bool :=
  match c with
  | Declare k n => match method outer k n s with Some s' => (s', true) | None => (s, false) end
  | OutputReg n => if check_id outer s n [] then (declare n KReg (declare n KOutput s), true) else (s, false)
  | Tmp k p =>
      let s1 := mkM (tables s) (items s) (tmp_count s + 1)%Z in
      match method outer k (tmp_name p (tmp_count s)) s1 with Some s' => (s', true) | None => (s1, false) end
  end.
Fixpoint execs (s : mstate) (l : list ((string -> option kind) * call)) : mstate :=
  match l with [] => s | (o, c) :: r => execs (fst (exec o s c)) r end.
(** the names given to temporaries *)
Fixpoint tmps (s : mstate) (l : list ((string -> option kind) * call)) : list string :=
  match l with
  | [] => []
  | (o, c) :: r =>
      let '(s', ok) := exec o s c in
      match c with Tmp _ p => if ok then tmp_name p (tmp_count s) :: tmps s' r else tmps s' r | _ => tmps s' r end
  end.

(** ** Submodules: [Instance] [module.py:566-582].  Modules are numbers, [mname] their names;
    submodules that have submodules themselves are not modelled. *)
Record mods := mkMods { mname : nat -> string; subs : list (string * nat); instanced : list nat }.
Fixpoint lookup (l : list (string * nat)) (n : string) : option nat :=
  match l with [] => None | (m, x) :: r => if String.eqb m n then Some x else lookup r n end.
(** assignment in an ordered dictionary *)
Fixpoint put_sub (l : list (string * nat)) (n : string) (x : nat) : list (string * nat) :=
  match l with [] => [(n, x)] | (m, y) :: r => if String.eqb m n then (m, x) :: r else (m, y) :: put_sub r n x end.
Definition rename_mod (f : nat -> string) (x : nat) (n : string) : nat -> string := fun y => if Nat.eqb y x then n else f y.
(** after the first renaming the loop finds the module it has just entered and stops *)
Definition instance (x : nat) (s : mods) : mods :=
  let n := mname s x in
  match lookup (subs s) n with
  | None => mkMods (mname s) (put_sub (subs s) n x) (x :: instanced s)
  | Some y => if Nat.eqb y x then mkMods (mname s) (subs s) (x :: instanced s)
              else let n' := (n ++ "_")%string in mkMods (rename_mod (mname s) x n') (put_sub (subs s) n' x) (x :: instanced s)
  end.
(** [get_modules] [module.py:1271-1282] of a module called [top] (number [t]): what is printed *)
Definition printed (top : string) (t : nat) (s : mods) : list (string * nat) :=
  fold_left (fun l e => put_sub l (mname s (snd e)) (snd e)) (subs s) [(top, t)].
