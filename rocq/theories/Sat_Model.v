(** Saturating arithmetic (veriloggen/types/saturate.py) on the expression trees of Vx_Model.
    Widths and bounds are Python ints; floats and parametric widths are left out. *)
From Verif Require Import Base Bits Vx_Model.
Open Scope Z_scope.

Definition is_py (e : vx) : bool := match e with XPy _ => true | _ => false end.
(** [vtypes.get_signed] [vtypes.py:135-140, 820-827, 973-1026, 1108-1530, 1836-1843]: the attribute the Python
    object carries, which is not always the sign Verilog gives the expression.  [sg]: declared signs.
    XSigned stands for $signed in the wrapper of fixed.py:to_signed. *)
Fixpoint psig (sg : nat -> bool) (e : vx) : bool :=
  match e with
  | XPy _ => true
  | XInt _ _ _ s => s
  | XX _ => false
  | XVar x => sg x
  | XUn (UPlus | UMinus) a => psig sg a
  | XUn _ _ => false
  | XBin (BPower | BTimes | BDivide | BMod | BPlus | BMinus) a b => psig sg a && psig sg b
  | XBin (BSll | BSra) a _ => psig sg a
  | XBin _ _ _ => false
  | XCond _ t f => psig sg t || psig sg f
  | XPtr _ _ | XSlice _ _ _ | XCat _ | XRep _ _ => false
  | XSigned _ => true
  end.

(** The operators +, -, <, > between Python ints and expressions [vtypes.py:330-420]; a Python int on
    the left of < is compared by the reflected method *)
Definition plus (a b : vx) : vx := match a, b with XPy x, XPy y => XPy (x + y) | _, _ => XBin BPlus a b end.
Definition minus (a b : vx) : vx := match a, b with XPy x, XPy y => XPy (x - y) | _, _ => XBin BMinus a b end.
Definition neg (a : vx) : vx := match a with XPy x => XPy (- x) | _ => XUn UMinus a end.
Definition less (a b : vx) : vx :=
  match a, b with XPy x, XPy y => XPy (b2z (x <? y)) | XPy _, _ => XBin BGt b a | _, _ => XBin BLt a b end.
Definition greater (a b : vx) : vx :=
  match a, b with XPy x, XPy y => XPy (b2z (y <? x)) | XPy _, _ => XBin BLt b a | _, _ => XBin BGt a b end.

(** [_max], [_min] [saturate.py:156-165] *)
Definition max_of (width : Z) (signed : bool) : Z := if signed then 2 ^ (width - 1) - 1 else 2 ^ width - 1.
Definition min_of (width : Z) (signed : bool) : Z := if signed then 2 ^ (width - 1) * -1 else 0.
(** [_saturate_overflow], [_saturate_underflow], [_saturate_both] [saturate.py:117-146];
    [rs]: the sign attribute of the raw value *)
Definition the_max (rs : bool) (raw : vx) (width : Z) (mx : option Z) (signed : bool) : vx :=
  let m := match mx with None => max_of width signed | Some m => m end in
  if negb (is_py raw) && rs then int_node m None None true else XPy m.
Definition overflow (rs : bool) (raw : vx) (width : Z) (mx : option Z) (signed : bool) : vx :=
  let m := the_max rs raw width mx signed in mk_mux (greater raw m) m raw.
Definition underflow (raw cond mn : vx) : vx := mk_mux cond mn raw.
Definition both (rs : bool) (raw cond : vx) (width : Z) (mx : option Z) (mn : vx) (signed : bool) : vx :=
  let m := the_max rs raw width mx signed in mk_mux cond mn (mk_mux (greater raw m) m raw).

(** [_add], [_sub] [saturate.py:90-114] *)
Definition add_ (rs : bool) (raw l r : vx) (width : Z) (mx mn : option Z) : vx :=
  let m := XPy (match mn with None => min_of width rs | Some m => m end) in
  if rs then both rs raw (less l (plus (neg r) m)) width mx m rs else overflow rs raw width mx rs.
Definition sub_ (rs : bool) (raw l r : vx) (width : Z) (mx mn : option Z) : vx :=
  let m := XPy (match mn with None => min_of width rs | Some m => m end) in
  let cond := less l (plus r m) in
  if rs then both rs raw cond width mx m rs else underflow raw cond m.
(** [add], [sub] [saturate.py:8-15] *)
Definition add (sg : nat -> bool) (l r : vx) (width : Z) (mx mn : option Z) : vx :=
  let raw := plus l r in add_ (psig sg raw) raw l r width mx mn.
Definition sub (sg : nat -> bool) (l r : vx) (width : Z) (mx mn : option Z) : vx :=
  let raw := minus l r in sub_ (psig sg raw) raw l r width mx mn.

(** [_saturate_op] [saturate.py:23-46] on a value without saturated parts.  The copy of the node keeps
    the sign attribute of the original; the operands of a subtraction are saturated without [min];
    [None]: an int cannot be marked as saturated (AttributeError). *)
Definition mark (e : vx) : option vx := match e with XPy _ => None | _ => Some e end.
Fixpoint sat_op (sg : nat -> bool) (width : Z) (mx mn : option Z) (e : vx) : option vx :=
  match e with
  | XBin BPlus a b =>
      match sat_op sg width mx mn a, sat_op sg width mx mn b with
      | Some a', Some b' => mark (add_ (psig sg e) (XBin BPlus a' b') a' b' width mx mn)
      | _, _ => None
      end
  | XBin BMinus a b =>
      match sat_op sg width mx None a, sat_op sg width mx None b with
      | Some a', Some b' => mark (sub_ (psig sg e) (XBin BMinus a' b') a' b' width mx mn)
      | _, _ => None
      end
  | _ => Some e
  end.
(** [_saturate_single] [saturate.py:49-71] on a value not yet saturated; without [min] the comparison raises *)
Definition single (sg : nat -> bool) (v : vx) (width : Z) (mx mn : option Z) (signed : bool) : option vx :=
  if signed || match v with XPy z => z <? 0 | _ => false end then
    match mn with
    | None => None
    | Some m =>
        let m := if is_py v then XPy m else int_node m None None true in
        Some (both (psig sg v) v (less v m) width mx m signed)
    end
  else Some (overflow (psig sg v) v width mx signed).
(** [to_saturate] [saturate.py:18-20]: a sum or difference comes back from [sat_op] already saturated *)
Definition to_saturate (sg : nat -> bool) (v : vx) (width : Z) (mx mn : option Z) (signed : bool) : option vx :=
  match v with
  | XBin (BPlus | BMinus) _ _ => sat_op sg width mx mn v
  | _ => single sg v width mx mn signed
  end.
(** [write] [saturate.py:74-87] to a target of this width and sign: the expression assigned *)
Definition write (sg : nat -> bool) (width : Z) (signed : bool) (v : vx) : option vx :=
  if signed then to_saturate sg v width (Some (2 ^ (width - 1) - 1)) (Some (2 ^ (width - 1) * -1)) signed
  else to_saturate sg v width (Some (2 ^ width - 1)) (Some 0) signed.
