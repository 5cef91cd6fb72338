(** What the multiplier should deliver: the operands of the updating cycles on a tape, newest
    first; the result of the operands [depth] updates ago. *)
From Verif Require Import Base Bits Mult_Model.
Open Scope Z_scope.

(** tape of the updating cycles: operands and whether they are valid; a reset invalidates all *)
Definition tape : Type := list (Z * Z * bool).
Definition tape_step (t : tape) (i : mul_in) : tape :=
  let t' := if mi_rst i then map (fun x => (fst x, false)) t else t in
  if mi_update i then (mi_a i, mi_b i, mi_enable i && negb (mi_rst i)) :: t' else t'.
Definition tape_of (ins : list mul_in) : tape := fold_left tape_step ins [].

Definition madd_tape (ins : list madd_in) : list (Z * Z * Z) :=
  rev (flat_map (fun i => if ai_update i then [(ai_a i, ai_b i, ai_c i)] else []) ins).
