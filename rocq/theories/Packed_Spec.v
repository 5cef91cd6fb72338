(** The elements of wide words, and a multibank RAM as one memory of elements. *)
From Verif Require Import Base Ram_Model Ram_Spec.
Open Scope Z_scope.

(** Element [i] of a wide word. *)
Definition element (dw : Z) (i : nat) (w : Z) : Z := (w / 2 ^ (dw * Z.of_nat i)) mod 2 ^ dw.
Definition elements (n : nat) (dw : Z) (ws : list Z) : list Z :=
  flat_map (fun w => map (fun i => element dw i w) (seq 0 n)) ws.
(** Banks as one memory of elements: element [a] is in bank [a mod n] (2^k banks: as in C16). *)
Definition one_memory (n : nat) (banks : nat -> Z -> Z) : Z -> Z :=
  fun a => banks (Z.to_nat (a mod Z.of_nat n)) (a / Z.of_nat n).
