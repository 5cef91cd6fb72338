(** Fixed-point numbers (veriloggen/types/fixed.py).  Points are Python ints.  A Python float is a
    number n / 2^k; scaling a float by a power of two is taken as exact (no overflow to infinity, no
    subnormal results, ints below 2^53 where they are converted).  Left out: values and points given
    as floats of Verilog ([vtypes.Float]), [fixed_to_real] of signals ($itor). *)
From Verif Require Import Base Bits Vx_Model Sat_Model.
Open Scope Z_scope.

(** ** Python numbers *)
Inductive num := NInt (z : Z) | NFloat (n : Z) (k : nat).
(** Python's int() of n / 2^k truncates toward zero *)
Definition trunc (n : Z) (k : Z) : Z := Z.quot n (2 ^ k).
(** [to_fixed], [_to_fixed_neg_point] of a Python number [fixed.py:97-135] *)
Definition to_fixed (v : num) (point : Z) : num :=
  if point <? 0 then
    match v with NInt z => NInt (trunc z (- point)) | NFloat n k => NInt (trunc n (Z.of_nat k + - point)) end
  else if point =? 0 then v
  else match v with NInt z => NInt (z * 2 ^ point) | NFloat n k => NInt (trunc (n * 2 ^ point) (Z.of_nat k)) end.
(** [fixed_to_int] of a Python int [fixed.py:138-169]; the function for negative points has another
    name than the call: NameError *)
Definition fixed_to_int (z point : Z) : option Z :=
  if point <? 0 then None else if point =? 0 then Some z else Some (z / 2 ^ point).
(** [fixed_to_int_low] [fixed.py:172-183] *)
Definition fixed_to_int_low (z point : Z) : Z :=
  if point <? 0 then 0 else if point =? 0 then 0 else z mod 2 ^ point.
(** [fixed_to_real] of a Python int for a positive point [fixed.py:186-198]; otherwise it is a $itor call *)
Definition fixed_to_real (z point : Z) : option num := if 0 <? point then Some (NFloat z (Z.to_nat point)) else None.

(** ** Expressions.  [fp]: the point, 0 for what is no fixed-point object; [fs]: the sign attribute *)
Record fobj := mkF { fe : vx; fp : Z; fs : bool }.
(** FixedReg, FixedWire, FixedInput, ... *)
Definition variable (x : nat) (point : Z) (sg : bool) : fobj := mkF (XVar x) point sg.
(** [FixedConst], [_FixedInt] [fixed.py:84-86, 652-659]; a float raises TypeError in [vtypes.Int] *)
Definition const (v : num) (point : Z) (sg raw : bool) : option fobj :=
  match (if raw then v else to_fixed v point) with
  | NInt z => Some (mkF (int_node z None None sg) point (if z <? 0 then true else sg))
  | NFloat _ _ => None
  end.
Definition py (z : Z) : fobj := mkF (XPy z) 0 true.

(** [shift_left], [shift_right] [fixed.py:256-294]; the sign attributes of ints, Sll, Sra and Srl *)
Definition shift_left (v : fobj) (size : Z) : fobj :=
  match fe v with
  | XInt z _ _ _ | XPy z => mkF (XPy (z * 2 ^ size)) 0 true
  | e => mkF (XBin BSll e (XPy size)) 0 (fs v)
  end.
Definition shift_right (v : fobj) (size : Z) (signed : bool) : fobj :=
  match fe v with
  | XInt z _ _ _ | XPy z => mkF (XPy (z / 2 ^ size)) 0 true
  | e => if signed then mkF (XBin BSra e (XPy size)) 0 (fs v) else mkF (XBin BSrl e (XPy size)) 0 false
  end.
(** [to_signed] [fixed.py:218-227] *)
Definition to_signed (v : fobj) : fobj :=
  match fe v with
  | XPy z => mkF (int_node z None None true) (fp v) true
  | XInt z _ _ _ => mkF (int_node z None None true) (fp v) true
  | e => if fs v then v else mkF (XSigned e) (fp v) true
  end.
(** [adjust] [fixed.py:230-237] *)
Definition adjust (l r : fobj) (lp rp : Z) (signed : bool) : fobj * fobj :=
  let dl := if rp <? lp then 0 else rp - lp in
  let dr := if lp <? rp then 0 else lp - rp in
  let ldata := if dl =? 0 then l else shift_left l dl in
  let rdata := if dr =? 0 then r else shift_left r dr in
  (if signed && negb (dl =? 0) then to_signed ldata else ldata, if signed && negb (dr =? 0) then to_signed rdata else rdata).
(** [write_adjust] [fixed.py:240-253]: the expression assigned to a variable of this point *)
Definition write_adjust (v : fobj) (point : Z) : fobj :=
  if fp v <? point then shift_left v (point - fp v)
  else if point <? fp v then shift_right v (fp v - point) (fs v)
  else v.

(** [_FixedBinaryOperator.init], [_FixedPlus], [_FixedMinus] and the comparisons [fixed.py:430-444, 547-560, 587-633];
    LessThan aligns without [to_signed] *)
Definition aligned (o : bop) (l r : fobj) : fobj * fobj :=
  adjust l r (fp l) (fp r) (if match o with BLt => true | _ => false end then false else fs l && fs r).
Definition fmax (a b : Z) : Z := if b <? a then a else b.
Definition fmin (a b : Z) : Z := if a <? b then a else b.
Definition arith (o : bop) (l r : fobj) : fobj :=
  let '(a, b) := aligned o l r in
  mkF (XBin o (fe a) (fe b)) (fmax (fp l) (fp r)) (match o with BPlus | BMinus => fs a && fs b | _ => false end).
(** [_FixedTimes] [fixed.py:478-497] *)
Definition times (l r : fobj) : fobj :=
  let point := fmin (fmax (fp l) (fp r)) (fp l + fp r) in
  let signed := fs l && fs r in
  let a := if signed then to_signed l else l in
  let b := if signed then to_signed r else r in
  let size := fp l + fp r - point in
  let data := XBin BTimes (fe a) (fe b) in
  mkF (if signed then XBin BSra data (XPy size) else XBin BSrl data (XPy size)) point signed.
(** [_FixedSll], [_FixedSra], [_FixedUminus] [fixed.py:447-466, 563-584, 641-643]; [None]: TypeError *)
Definition sll (l r : fobj) : option fobj := if fp r =? 0 then Some (mkF (XBin BSll (fe l) (fe r)) (fp l) (fs l)) else None.
Definition sra (l r : fobj) : option fobj := if fp r =? 0 then Some (mkF (XBin BSra (fe l) (fe r)) (fp l) (fs l)) else None.
Definition uminus (r : fobj) : fobj := mkF (XUn UMinus (fe r)) (fp r) (fs r).
(** [int_part], [dec_part] [fixed.py:308-316] *)
Definition int_part (v : fobj) : vx := XBin BSra (fe v) (XPy (fp v)).
Definition dec_part (v : fobj) : vx := XBin BAnd (fe v) (if fp v =? 0 then XPy 0 else XRep (int_node 1 (Some 1) None false) (fp v)).
(** a Python int on the left of +: [_Numeric.__radd__] [vtypes.py:390-391], which is no fixed-point operator *)
Definition radd (z : Z) (r : fobj) : fobj := mkF (XBin BPlus (XPy z) (fe r)) 0 (fs r).

(** [_FixedDivide] [fixed.py:500-544] of two variables, the left point not below the right one (so that
    nothing is aligned); [lw], [rw]: their widths *)
Definition divide (x y : nat) (lw rw lp rp : Z) (ls rs : bool) : fobj :=
  let point := fmax lp rp in
  let signed := ls && rs in
  let size := if lp <=? rp then point else point - (lp - rp) in
  let lmsb := XPtr x (XPy (lw - 1)) in
  let rmsb := XPtr y (XPy (rw - 1)) in
  let al := if ls then mk_mux (XUn ULnot lmsb) (XVar x) (XBin BPlus (XUn UNot (XVar x)) (XPy 1)) else XVar x in
  let ar := if rs then mk_mux (XUn ULnot rmsb) (XVar y) (XBin BPlus (XUn UNot (XVar y)) (XPy 1)) else XVar y in
  let q := XBin BDivide al ar in
  let data := if signed then mk_mux (XBin BEq lmsb rmsb) q (XBin BPlus (XUn UNot q) (XPy 1)) else q in
  mkF (if 0 <? size then XBin BSll data (XPy size) else data) point signed.
