From Coq Require Import String Ascii.
From Verif Require Import Base Mod_Model.
Open Scope string_scope.
Open Scope list_scope.

(** the declarations of one name, in order *)
Definition kinds_of (n : string) (l : list (string * kind)) : list kind := map snd (filter (fun e => String.eqb (fst e) n) l).
Definition is_port (k : kind) : Prop := k = KInput \/ k = KOutput \/ k = KInout.
(** one declaration; or one port and first wires, then registers, of which at most one came before
    the port; no registers for inputs; nothing after an inout *)
Definition allowed (l : list kind) : Prop :=
  length l <= 1 \/
  exists p pre post a b, is_port p /\ l = pre ++ p :: post /\ pre ++ post = repeat KWire a ++ repeat KReg b /\ length pre <= 1 /\
    (p = KInput -> b = 0) /\ (p = KInout -> post = [] /\ b = 0).
Definition kind_dec (a b : kind) : {a = b} + {a <> b}.
Proof. decide equality. Defined.
(** a module has nothing around it *)
Definition none (n : string) : option kind := None.
Definition top_level (l : list call) : list ((string -> option kind) * call) := map (pair none) l.
Definition no_port_call (c : call) : Prop :=
  match c with Declare k _ | Tmp k _ => ~ is_port k | OutputReg _ => False end.
(** an instance of module [x] can be entered without losing another one *)
Definition fits (x : nat) (s : mods) : Prop :=
  let free n := lookup (subs s) n = None \/ lookup (subs s) n = Some x in free (mname s x) \/ free (mname s x ++ "_")%string.
Fixpoint all_fit (l : list nat) (s : mods) : Prop := match l with [] => True | x :: r => fits x s /\ all_fit r (instance x s) end.
Definition no_mods (f : nat -> string) : mods := mkMods f [] [].
