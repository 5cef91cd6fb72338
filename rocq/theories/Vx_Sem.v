(** Meaning of the printed expressions: IEEE 1364-2005 clauses 5.1, 5.4 and 5.5 on two-state values.
    The widths and signs of operands are propagated down to context-determined operands; other
    operands are self-determined.  Whatever Verilog leaves undefined (x bits, division by zero,
    bits outside a variable) is read from [junk], about which nothing is assumed. *)
From Verif Require Import Base Bits Vx_Model.
Open Scope Z_scope.

(** declared width and sign of the variables, their contents *)
Record venv := mkEnv { dw : nat -> Z; ds : nat -> bool; val : nat -> Z; junk : Z }.
Definition wd (w : option Z) : Z := match w with Some w => w | None => 32 end.

Section Sem.
  Variable E : venv.

  (** self-determined width (table 5-22) *)
  Fixpoint swid (e : vx) : Z :=
    match e with
    | XPy _ => 32
    | XInt _ w _ _ | XX w => wd w
    | XVar x => dw E x
    | XUn (UPlus | UMinus | UNot) a => swid a
    | XUn _ _ => 1
    | XBin (BTimes | BDivide | BMod | BPlus | BMinus | BAnd | BXor | BXnor | BOr) a b => Z.max (swid a) (swid b)
    | XBin (BPower | BSll | BSrl | BSra) a _ => swid a
    | XBin _ _ _ => 1
    | XCond _ t f => Z.max (swid t) (swid f)
    | XPtr _ _ => 1
    | XSlice _ m l => m - l + 1
    | XCat es => fold_right (fun a s => swid a + s) 0 es
    | XRep a n => n * swid a
    | XSigned a => swid a
    end.
  (** a decimal literal without width and base is signed (3.5.1) *)
  Definition lit_signed (w base : option Z) (sg : bool) : bool :=
    match w, base with None, None => true | _, _ => sg end.
  (** sign (5.5.1) *)
  Fixpoint ssig (e : vx) : bool :=
    match e with
    | XPy _ => true
    | XInt _ w b sg => lit_signed w b sg
    | XX _ => false
    | XVar x => ds E x
    | XUn (UPlus | UMinus | UNot) a => ssig a
    | XUn _ _ => false
    | XBin (BTimes | BDivide | BMod | BPlus | BMinus | BAnd | BXor | BXnor | BOr) a b => ssig a && ssig b
    | XBin (BPower | BSll | BSrl | BSra) a _ => ssig a
    | XBin _ _ _ => false
    | XCond _ t f => ssig t && ssig f
    | XPtr _ _ | XSlice _ _ _ | XCat _ | XRep _ _ => false
    | XSigned _ => true
    end.

  (** a literal is printed as its absolute value, after a minus sign (the operator) if negative *)
  Definition lit (w W : Z) (sg : bool) (v : Z) : Z :=
    (if v <? 0 then - value w sg (- v) else value w sg v) mod 2 ^ W.
  Definition bit (x i : Z) : Z := if Z.testbit x i then 1 else 0.
  Definition parity (w x : Z) : bool := fold_left (fun b i => xorb b (Z.testbit x (Z.of_nat i))) (seq 0 (Z.to_nat w)) false.
  Definition bitwise (o : bop) (a b : Z) : Z :=
    match o with BAnd => Z.land a b | BOr => Z.lor a b | BXor => Z.lxor a b | _ => Z.lnot (Z.lxor a b) end.
  (** x ** y on numbers (table 5-6) *)
  Definition power (x y : Z) : Z :=
    if 0 <=? y then x ^ y else if x =? 0 then junk E else if x =? 1 then 1 else
    if x =? -1 then if Z.even y then 1 else -1 else 0.
  (** the context-determined binary operators on patterns of the context's width *)
  Definition arith (o : bop) (W : Z) (S : bool) (a b : Z) : Z :=
    match o with
    | BPlus => (a + b) mod 2 ^ W
    | BMinus => (a - b) mod 2 ^ W
    | BTimes => (a * b) mod 2 ^ W
    | BDivide => (if b =? 0 then junk E else Z.quot (value W S a) (value W S b)) mod 2 ^ W
    | BMod => (if b =? 0 then junk E else Z.rem (value W S a) (value W S b)) mod 2 ^ W
    | _ => bitwise o a b mod 2 ^ W
    end.
  Definition shift (o : bop) (W : Z) (S : bool) (a n : Z) : Z :=
    match o with
    | BSll => (a * 2 ^ n) mod 2 ^ W
    | BSrl => a / 2 ^ n
    | _ => (value W S a / 2 ^ n) mod 2 ^ W
    end.
  Definition compare (o : bop) (a b : Z) : bool :=
    match o with
    | BLt => a <? b | BGt => b <? a | BLe => a <=? b | BGe => b <=? a
    | BEq => a =? b | _ => negb (a =? b)
    end.

  Fixpoint repeated (n : nat) (w x : Z) : Z := match n with O => 0 | Datatypes.S n => repeated n w x * 2 ^ w + x end.

  (** the bit pattern of [e] in a context of width [W] and sign [S] *)
  Fixpoint ev (W : Z) (S : bool) (e : vx) : Z :=
    let self a := ev (swid a) (ssig a) a in
    match e with
    | XPy z => lit 32 W S z
    | XInt v w _ _ => lit (wd w) W S v
    | XX w => match w with None => junk E | Some w => value w S (junk E) end mod 2 ^ W
    | XVar x => value (dw E x) S (val E x) mod 2 ^ W
    | XUn UPlus a => ev W S a
    | XUn UMinus a => (- ev W S a) mod 2 ^ W
    | XUn UNot a => Z.lnot (ev W S a) mod 2 ^ W
    | XUn ULnot a => b2z (self a =? 0)
    | XUn UAnd a => b2z (self a =? 2 ^ swid a - 1)
    | XUn UNand a => b2z (negb (self a =? 2 ^ swid a - 1))
    | XUn UOr a => b2z (negb (self a =? 0))
    | XUn UNor a => b2z (self a =? 0)
    | XUn UXor a => b2z (parity (swid a) (self a))
    | XUn UXnor a => b2z (negb (parity (swid a) (self a)))
    | XBin ((BPlus | BMinus | BTimes | BDivide | BMod | BAnd | BXor | BXnor | BOr) as o) a b =>
        arith o W S (ev W S a) (ev W S b)
    | XBin BPower a b => power (value W S (ev W S a)) (value (swid b) (ssig b) (self b)) mod 2 ^ W
    | XBin ((BSll | BSrl | BSra) as o) a b => shift o W S (ev W S a) (self b)
    | XBin ((BLt | BGt | BLe | BGe | BEq | BNe) as o) a b =>
        let w := Z.max (swid a) (swid b) in
        let s := ssig a && ssig b in
        b2z (compare o (value w s (ev w s a)) (value w s (ev w s b)))
    | XBin BLand a b => b2z (negb (self a =? 0) && negb (self b =? 0))
    | XBin BLor a b => b2z (negb (self a =? 0) || negb (self b =? 0))
    | XCond c t f => if self c =? 0 then ev W S f else ev W S t
    | XPtr x p =>
        let i := value (swid p) (ssig p) (self p) in
        if (0 <=? i) && (i <? dw E x) then bit (val E x) i else junk E mod 2
    | XSlice x m l =>
        (if (0 <=? l) && (l <=? m) && (m <? dw E x) then val E x / 2 ^ l else junk E) mod 2 ^ (m - l + 1)
    | XCat es =>
        (fix cat (es : list vx) : Z :=
           match es with
           | [] => 0
           | a :: r => self a * 2 ^ fold_right (fun b s => swid b + s) 0 r + cat r
           end) es
    | XRep a n => repeated (Z.to_nat n) (swid a) (self a)
    | XSigned a => value (swid a) S (self a) mod 2 ^ W
    end.
End Sem.

(** pattern and value of a self-determined expression; truth of a condition *)
Definition self E e := ev E (swid E e) (ssig E e) e.
Definition number E e := value (swid E e) (ssig E e) (self E e).
Definition truth E e := negb (self E e =? 0).
(** what [assign target = e] stores in a target of width [w] (5.4.1) *)
Definition assigned E (w : Z) (e : vx) : Z := ev E (Z.max w (swid E e)) (ssig E e) e mod 2 ^ w.

(** execution of statements, whatever the other statements do *)
Section Exec.
  Context {St : Type} (env : St -> venv) (leaf : nat -> St -> St).
  (** case items are compared at the largest width, as signed if all are (9.5) *)
  Definition labels (ws : list (option (list vx) * list vs)) : list vx :=
    flat_map (fun w => match fst w with Some l => l | None => [] end) ws.
  Definition case_match (E : venv) (c : vx) (ws : list (option (list vx) * list vs)) (l : vx) : bool :=
    let w := fold_right (fun a m => Z.max (swid E a) m) (swid E c) (labels ws) in
    let s := forallb (ssig E) (c :: labels ws) in
    ev E w s c =? ev E w s l.
  Fixpoint exec (s : vs) (st : St) {struct s} : St :=
    let execs := fix execs (l : list vs) (st : St) : St := match l with [] => st | s :: r => execs r (exec s st) end in
    match s with
    | SLeaf n => leaf n st
    | SBlock l => execs l st
    | SIf c t f => if truth (env st) c then execs t st else match f with Some f => execs f st | None => st end
    | SCase c ws =>
        let m := case_match (env st) c ws in
        (fix find (ws : list (option (list vx) * list vs)) (dflt : option St) : St :=
           match ws with
           | [] => match dflt with Some r => r | None => st end
           | (None, b) :: r => find r (Some (execs b st))
           | (Some l, b) :: r => if existsb m l then execs b st else find r dflt
           end) ws None
    end.
  Fixpoint execs (l : list vs) (st : St) : St := match l with [] => st | s :: r => execs r (exec s st) end.
End Exec.
