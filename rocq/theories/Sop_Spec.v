(** The numbers the nodes of a stream stand for. *)
From Coq Require Import QArith Qround.
From Verif Require Import Base Bits Vx_Model Vx_Sem Vx_Spec Fix_Model Fix_Spec Sop_Model.
Open Scope Z_scope.

(** a node carries a bit pattern; its raw value is that pattern read with the node's sign *)
Definition oraw (E : venv) (o : operand) : Z :=
  match o with Sig x w _ s => value w s (val E x) | Cst z _ => z | Fxd z _ _ => z end.
Definition number (E : venv) (o : operand) : Q := fval (oraw E o) (opoint o).
Definition number_of (w p : Z) (s : bool) (pattern : Z) : Q := fval (value w s pattern) p.
(** signals are declared as their node says, unsigned constants are not negative *)
Definition wf (E : venv) (o : operand) : Prop :=
  match o with
  | Sig x w _ s => 1 <= w /\ dw E x = w /\ ds E x = s
  | Cst z s | Fxd z _ s => s = false -> 0 <= z
  end.
(** whether an operand is printed as a signed object: a nonnegative fixed-point constant is not *)
Definition printed_signed (o : operand) : bool :=
  match o with Sig _ _ _ s => s | Cst _ s => s | Fxd z _ _ => z <? 0 end.
(** constants shifted left become literals without width: they must fit 32 bits *)
Definition literal_room (o : operand) (d : Z) : Prop :=
  match o with Sig _ _ _ _ => True | Cst z _ | Fxd z _ _ => d = 0 \/ - 2 ^ 31 < z * 2 ^ d < 2 ^ 31 end.
(** Verilog reads both operands as signed only if both are.  An operand loses nothing if so, or if it
    is not negative, or if it fills the result's width anyway. *)
Definition sign_kept (E : venv) (l r : operand) (w : Z) (o : operand) (d : Z) : Prop :=
  printed_signed l && printed_signed r = true \/ 0 <= oraw E o \/ w <= owidth o + d.
(** width and sign with which an operand shifted by [d] enters a comparison *)
Definition printed_width (o : operand) (d : Z) : Z :=
  match o with Sig _ w _ _ => w | Cst z _ | Fxd z _ _ => if d =? 0 then owidth o else 32 end.
Definition entered_signed (o : operand) (d : Z) : bool :=
  match o with Sig _ _ _ s => s | _ => if d =? 0 then printed_signed o else true end.
(** shift amounts are read as bit patterns *)
Definition amount (E : venv) (o : operand) : Z := oraw E o mod 2 ^ owidth o.
(** bits [0 .. w) of a pattern *)
Definition bits (w x : Z) : list bool := map (fun i => Z.testbit x (Z.of_nat i)) (seq 0 (Z.to_nat w)).
(** reduction operators on those bits *)
Definition reduction (o : uop) (l : list bool) : bool :=
  match o with
  | UAnd => forallb (fun b => b) l | UNand => negb (forallb (fun b => b) l)
  | UOr => existsb (fun b => b) l | UNor => negb (existsb (fun b => b) l) | ULnot => negb (existsb (fun b => b) l)
  | UXor => fold_left xorb l false | _ => negb (fold_left xorb l false)
  end.
Definition is_reduction (o : uop) : Prop := match o with UPlus | UMinus | UNot => False | _ => True end.
(** patterns written one after the other, the first at the top *)
Fixpoint joined (l : list (Z * Z)) : Z :=
  match l with [] => 0 | (w, x) :: r => x * 2 ^ fold_right (fun p s => fst p + s) 0 r + joined r end.
(** chunks of [w] bits, lowest first *)
Fixpoint stacked (w : Z) (l : list Z) : Z := match l with [] => 0 | x :: r => x + 2 ^ w * stacked w r end.
(** bitwise operators on one bit *)
Definition bit_fun (o : bop) (a b : bool) : bool :=
  match o with BAnd => a && b | BOr => a || b | BXor => xorb a b | _ => negb (xorb a b) end.
Definition is_bitwise (o : bop) : Prop := match o with BAnd | BOr | BXor | BXnor => True | _ => False end.
