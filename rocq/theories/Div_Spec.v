(** What a divider should deliver: quotient and remainder of truncated division, for the operands
    of the cycle W+2 updates ago. *)
From Verif Require Import Base Bits Div_Model.
Open Scope Z_scope.

(** updating cycles since the last reset, newest first *)
Definition dtape_step (t : list (Z * Z * bool)) (i : div_in) : list (Z * Z * bool) :=
  if di_rst i then [] else if di_update i then (di_a i, di_b i, di_enable i) :: t else t.
Definition dtape (ins : list div_in) : list (Z * Z * bool) := fold_left dtape_step ins [].
