(** The numbers fixed-point objects stand for. *)
From Coq Require Import QArith Qabs.
From Verif Require Import Base Bits Vx_Model Vx_Sem Vx_Spec Fix_Model.
Open Scope Z_scope.

(** raw value [z] with [p] fractional bits *)
Definition fval (z p : Z) : Q := (inject_Z z * Qpower 2 (- p))%Q.
Definition qnum (v : num) : Q := match v with NInt z => inject_Z z | NFloat n k => fval n (Z.of_nat k) end.
(** the pattern of [e] in a context of width [W] and sign [s] is that of [z] *)
Definition is_at E (W : Z) (s : bool) (e : vx) (z : Z) : Prop := ev E W s e = z mod 2 ^ W.
(** [f] has the raw value [z] in this context; if it is a constant it also has room for a shift by [d] *)
Definition room (s : bool) (z : Z) : Prop := if s then - 2 ^ 31 < z < 2 ^ 31 else 0 <= z < 2 ^ 32.
Inductive raw E W s (d : Z) (f : fobj) (z : Z) : Prop :=
| raw_int b : fe f = XInt z None None b -> room s z -> room s (z * 2 ^ d) -> raw E W s d f z
| raw_py : fe f = XPy z -> room s z -> room s (z * 2 ^ d) -> raw E W s d f z
| raw_ex : (forall v w b t, fe f <> XInt v w b t) -> (forall v, fe f <> XPy v) -> is_at E W s (fe f) z -> raw E W s d f z.
(** how far the operand of the smaller point is shifted *)
Definition gap (p q : Z) : Z := Z.max 0 (q - p).
Definition qcompare (o : bop) (a b : Q) : bool :=
  match o with
  | BLt => negb (Qle_bool b a) | BGt => negb (Qle_bool a b) | BLe => Qle_bool a b | BGe => Qle_bool b a
  | BEq => Qeq_bool a b | _ => negb (Qeq_bool a b)
  end.
Definition comparison (o : bop) : Prop := o = BLt \/ o = BGt \/ o = BLe \/ o = BGe \/ o = BEq \/ o = BNe.
