(** What a reduction by division should hold. *)
From Verif Require Import Base Bits Stream_Model Reduce_Model Reduce_Spec Div_Model Rdiv_Model.
Open Scope Z_scope.

(** the elements the stream takes: those of enabled, valid cycles *)
Definition div_taken (c : acfg) (rs : bool) : dst -> list min -> list ain :=
  fix taken s ys :=
    match ys with
    | [] => []
    | y :: r => (if v_senable s y && y_valid y then [y_ops y] else []) ++ taken (div_cycle c rs s y) r
    end.
(** the quotient of the numbers in [w] bits, towards zero *)
Definition op_div (w : Z) (sg : bool) (v x : Z) : Z := Z.quot (value w sg v) (value w sg x).
Definition product (l : list Z) : Z := fold_right Z.mul 1 l.
