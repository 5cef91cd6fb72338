(** What a pipelined operator should do: a pipeline of [lat] slots, of which only the last can be
    seen, that moves when its last slot is empty or taken; and division truncated toward zero. *)
From Coq Require Import QArith Qabs.
From Verif Require Import Base Bits Vx_Sem Fix_Spec Dop_Model.
Open Scope Z_scope.

(** slots, newest first: the signals of the cycle and whether there were operands *)
Definition slots : Type := list (venv * bool).
Definition shown (lat : nat) (t : slots) : bool := match nth_error t (lat - 1) with Some (_, e) => e | None => false end.
Definition slot_step (lat : nat) (t : slots) (i : cyc) : slots :=
  if i_rst i then [] else if i_ready i || negb (shown lat t) then (i_env i, i_ops i) :: t else t.
Definition slots_of (lat : nat) (ins : list cyc) : slots := fold_left (slot_step lat) ins [].

(** [q] is [x]/[y] truncated toward zero to [k] fraction bits, and [m] is what is left of [x] *)
Definition truncated (k : Z) (x y q m : Q) : Prop :=
  (exists z, q == fval z k)%Q /\ (x == q * y + m)%Q /\ (Qabs m < Qabs y * fval 1 k)%Q /\ (0 <= m * x)%Q.
