(** What saturation should give. *)
From Verif Require Import Base Bits Vx_Model Vx_Sem Sat_Model.
Open Scope Z_scope.

(** the nearest number in [lo, hi] *)
Definition clamp (lo hi z : Z) : Z := Z.max lo (Z.min hi z).
Definition lowest (w : Z) (s : bool) : Z := if s then - 2 ^ (w - 1) else 0.
Definition highest (w : Z) (s : bool) : Z := if s then 2 ^ (w - 1) - 1 else 2 ^ w - 1.
Definition saturated (w : Z) (s : bool) (z : Z) : Z := clamp (lowest w s) (highest w s) z.
(** [e] is the number [z], in every context at least as wide as itself and as an unsized constant *)
Definition denotes E (s : bool) (e : vx) (z : Z) : Prop :=
  forall W, Z.max 32 (swid E e) <= W -> ev E W s e = z mod 2 ^ W.
(** an operand of arithmetic of sign [s]: a Python int, or an expression of sign [s], denoting [z] *)
Inductive operand E (s : bool) : vx -> Z -> Prop :=
| op_py z : (if s then - 2 ^ 30 < z < 2 ^ 30 else 0 <= z < 2 ^ 31) -> operand E s (XPy z) z
| op_ex e z : (forall y, e <> XPy y) -> ssig E e = s -> denotes E s e z ->
    (if s then - 2 ^ 30 <= z < 2 ^ 30 else 0 <= z < 2 ^ 31) -> operand E s e z.
(** [e] is built of sums and differences; its value if every operator saturates *)
Definition is_sum (e : vx) : Prop := exists o a b, e = XBin o a b /\ (o = BPlus \/ o = BMinus).
Inductive sum E (w : Z) (s : bool) : vx -> Z -> Prop :=
| sum_leaf e z : ~ is_sum e -> operand E s e z -> (s = false -> z <= highest w s) -> sum E w s e z
| sum_plus a b x y : sum E w s a x -> sum E w s b y -> ssig E a && ssig E b = s -> sum E w s (XBin BPlus a b) (saturated w s (x + y))
| sum_minus a b x y : sum E w s a x -> sum E w s b y -> ssig E a && ssig E b = s -> sum E w s (XBin BMinus a b) (saturated w s (x - y)).
(** the sign attributes of the operands are the signs Verilog gives them (so for variables and
    Python ints) *)
Fixpoint signs (E : venv) (e : vx) : Prop :=
  match e with XBin (BPlus | BMinus) a b => signs E a /\ signs E b | _ => psig (ds E) e = ssig E e end.
(** as Python's operators build it: no operator of two Python ints *)
Fixpoint built (e : vx) : Prop :=
  match e with XBin (BPlus | BMinus) a b => built a /\ built b /\ is_py a && is_py b = false | _ => True end.
(** expressions whose sign attribute is right *)
Fixpoint plain (e : vx) : Prop :=
  match e with
  | XPy _ | XVar _ | XPtr _ _ | XSlice _ _ _ | XCat _ | XRep _ _ => True
  | XInt _ w b sg => w <> None \/ b <> None \/ sg = true
  | XUn (UPlus | UMinus) a => plain a
  | XUn UNot _ => False
  | XUn _ _ => True
  | XBin (BTimes | BDivide | BMod | BPlus | BMinus) a b => plain a /\ plain b
  | XBin (BSll | BSra) a _ => plain a
  | XBin (BLt | BGt | BLe | BGe | BEq | BNe | BLand | BLor) _ _ => True
  | _ => False
  end.
