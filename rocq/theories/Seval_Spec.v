(** The numbers stream expressions stand for, given the numbers of the variables and the widths of the
    nodes; which of them [eval] is asked about. *)
From Verif Require Import Base Bits Seval_Model.
Open Scope Z_scope.

Definition truth (z : Z) : bool := negb (z =? 0).
Definition den2 (o : bop) (x y : Z) : Z :=
  match o with
  | OPlus => x + y | OMinus => x - y | OTimes => x * y
  | ODivide => Z.quot x y | OMod => Z.rem x y                       (* Verilog's / and % *)
  | OLt => b2z (x <? y) | OGt => b2z (y <? x) | OLe => b2z (x <=? y) | OGe => b2z (y <=? x)
  | OEq => b2z (x =? y) | ONe => b2z (negb (x =? y))
  | OSll => x * 2 ^ y | OSrl => x / 2 ^ y | OSra => x / 2 ^ y
  | OAnd => Z.land x y | OXor => Z.lxor x y | OOr => Z.lor x y | OXnor => Z.lnot (Z.lxor x y)
  | OLand => b2z (truth x && truth y) | OLor => b2z (truth x || truth y)
  end.
(** the low [w] bits *)
Definition low_bits (w : nat) (x : Z) : list bool := map (fun k => Z.testbit x (Z.of_nat k)) (seq 0 w).
Definition den1 (o : uop) (w : nat) (x : Z) : Z :=
  match o with
  | OUplus => x | OUminus => - x | OUlnot => b2z (negb (truth x)) | OUnot => Z.lnot x | OAbs => Z.abs x
  | OUand => b2z (forallb (fun b => b) (low_bits w x)) | OUnand => b2z (negb (forallb (fun b => b) (low_bits w x)))
  | OUor => b2z (existsb (fun b => b) (low_bits w x)) | OUnor => b2z (negb (existsb (fun b => b) (low_bits w x)))
  | OUxor => b2z (fold_right xorb false (low_bits w x)) | OUxnor => b2z (negb (fold_right xorb false (low_bits w x)))
  end.
Section Den.
  Variables (wd : ex -> nat) (env : nat -> Z).
  Fixpoint den (e : ex) : Z :=
    match e with
    | EI z => z
    | EV n => env n
    | E2 o l r => den2 o (den l) (den r)
    | E1 o r => den1 o (wd r) (den r)
    | EC c t f => if truth (den c) then den t else den f
    | EP v p => b2z (Z.testbit (den v) (den p))
    | ES v m l => den v / 2 ^ l mod 2 ^ (m - l + 1)
    | ECat a b => den a * 2 ^ Z.of_nat (wd b) + den b mod 2 ^ Z.of_nat (wd b)
    | ERep v n => fold_left (fun s _ => s * 2 ^ Z.of_nat (wd v) + den v mod 2 ^ Z.of_nat (wd v)) (seq 0 (Z.to_nat n)) 0
    end.
  Definition rden (r : res) : Z := match r with RI z => z | RB b => b2z b | RE e => den e end.

  Fixpoint closed (e : ex) : Prop :=
    match e with
    | EI _ => True | EV _ => False
    | E2 _ l r => closed l /\ closed r | E1 _ r => closed r
    | EC c t f => closed c /\ closed t /\ closed f | EP v p => closed v /\ closed p | ES v _ _ => closed v
    | ECat a b => closed a /\ closed b | ERep v _ => closed v
    end.
  (** never a Python bool *)
  Fixpoint ints (e : ex) : bool :=
    match e with
    | EI _ => true | EV _ => true
    | E2 (OPlus | OMinus | OTimes | ODivide | OMod | OSll | OSrl | OSra) _ _ => true
    | E2 (OAnd | OXor | OOr) l r => ints l || ints r
    | E2 _ _ _ => false
    | E1 OUplus r => ints r | E1 (OUminus | OUnot | OAbs) _ => true | E1 _ _ => false
    | EC _ t f => ints t && ints f | EP _ _ => true | ES _ _ _ => true
    | ECat _ _ => true | ERep _ _ => true
    end.
  Definition reduction (o : uop) : bool := match o with OUand | OUnand | OUor | OUnor | OUxor | OUxnor => true | _ => false end.
  (** the expressions for which the code is right: no Xnor, Lor, Uxor of ints, Cat, Repeat; no negative
      operands of Mod, Sra; the operands of && are 0 or 1 ... *)
  Definition ok2 (o : bop) (x y : Z) : Prop :=
    match o with
    | OMod => 0 <= x /\ 0 < y | OSll | OSrl => 0 <= y | OSra => 0 <= x /\ 0 <= y
    | OXnor | OLor => False | OLand => 0 <= x <= 1 /\ 0 <= y <= 1 | _ => True
    end.
  Fixpoint ok (e : ex) : Prop :=
    match e with
    | EI _ | EV _ => True
    | E2 o l r => ok l /\ ok r /\ ok2 o (den l) (den r)
    | E1 o r => ok r /\ (reduction o = true -> closed r /\ (wd r = 1%nat \/ ints r = true)) /\
        match o with OUxor | OUxnor => False | OUnot => closed r | _ => True end
    | EC c t f => ok c /\ ok t /\ ok f
    | EP v p => ok v /\ ok p /\ 0 <= den p
    | ES v m l => ok v /\ 0 <= l <= m
    | ECat _ _ | ERep _ _ => False
    end.
End Den.
(** divisors are not 0 and divisions small enough for floats *)
Fixpoint divides_ok (wd : ex -> nat) (env : nat -> Z) (e : ex) : Prop :=
  match e with
  | EI _ | EV _ => True
  | E2 o l r => divides_ok wd env l /\ divides_ok wd env r /\
      (o = ODivide -> den wd env r <> 0 /\ Z.abs (den wd env l) < 2 ^ 53 /\ Z.abs (den wd env r) < 2 ^ 53)
  | E1 _ r => divides_ok wd env r
  | EC c t f => divides_ok wd env c /\ divides_ok wd env t /\ divides_ok wd env f
  | EP v p => divides_ok wd env v /\ divides_ok wd env p
  | ES v _ _ => divides_ok wd env v
  | ECat a b => divides_ok wd env a /\ divides_ok wd env b
  | ERep v _ => divides_ok wd env v
  end.
(** no numbers in it (other than the bounds of slices), and none of the operators rebuilt wrongly *)
Fixpoint numberless (e : ex) : bool :=
  match e with
  | EI _ => false | EV _ => true
  | E2 o l r => match o with OLor => false | _ => numberless l && numberless r end
  | E1 o r => match o with OUnot | OUplus => false | _ => numberless r end
  | EC c t f => numberless c && numberless t && numberless f
  | EP v p => numberless v && numberless p
  | ES v _ _ => numberless v
  | ECat a b => numberless a && numberless b
  | ERep _ _ => false
  end.
