(** The operators of a stream as functions of their operands: result width, point and sign, and the
    Verilog expression stored in the result (veriloggen/stream/stypes.py:466-2265, with
    types/fixed.py:230-294).

    An operand is what the operator finds in [sig_data]: the signal of another node (every operator
    declares a wire or a register of its width and sign), or the literal of a constant.  The time an
    operator takes is not modelled here (C28): the multiplier and the divider are run on operands held
    still for their latency.  Left out: [Power] (not implemented by the library), constants given as
    bool, float at point 0 or string, [CustomOp], and bits of constants. *)
From Verif Require Import Base Bits Vx_Model Vx_Sem Fix_Model Tree_Model Mult_Model Div_Model.
Open Scope Z_scope.

(** ** Operands *)
Inductive operand :=
| Sig (x : nat) (w p : Z) (s : bool)    (* the signal of a node of this width, point and sign *)
| Cst (z : Z) (s : bool)                (* [Int] [3928-3940] *)
| Fxd (z p : Z) (s : bool).             (* [FixedPoint] [3951-3964] *)
(** [get_width], [get_point], [get_signed]; the width of a constant is [vtypes.get_width]
    [vtypes.py:124-132] *)
Definition owidth (o : operand) : Z := match o with Sig _ w _ _ => w | Cst z _ => int_width z | Fxd z _ _ => int_width z end.
Definition opoint (o : operand) : Z := match o with Sig _ _ p _ => p | Cst _ _ => 0 | Fxd _ p _ => p end.
Definition osigned (o : operand) : bool := match o with Sig _ _ _ s => s | Cst _ s => s | Fxd _ _ s => s end.
(** [sig_data]: the literals are made in [_implement] [3938-3940, 3962-3964]; that of [FixedPoint] is
    not told the sign *)
Definition odata (o : operand) : vx :=
  match o with
  | Sig x _ _ _ => XVar x
  | Cst z s => int_node z (Some (int_width z)) None s
  | Fxd z _ _ => int_node z (Some (int_width z)) None false
  end.
(** the sign attribute of that object [vtypes.py:603, 826] *)
Definition osign (o : operand) : bool := match o with Sig _ _ _ s => s | Cst z s => if z <? 0 then true else s | Fxd z _ _ => z <? 0 end.
Definition obj (o : operand) : fobj := mkF (odata o) 0 (osign o).

(** ** Results: a wire or register of this width, point and sign, and what is stored in it *)
Record result := mkR { rw : Z; rp : Z; rs : bool; re : vx }.
Definition stored (E : venv) (r : result) : Z := assigned E (rw r) (re r).
(** a wire of a given width, sign and content *)
Definition wire (w : Z) (s : bool) (v : Z) : venv := mkEnv (fun _ => w) (fun _ => s) (fun _ => v) 0.

(** ** Binary operators *)
(** [_set_attributes] [481-488] *)
Definition common_point (l r : operand) : Z := Z.max (opoint l) (opoint r).
Definition common_width (l r : operand) : Z := Z.max (owidth l - opoint l) (owidth r - opoint r) + common_point l r.
Definition both_signed (l r : operand) : bool := osigned l && osigned r.
(** Plus and Minus [495-545, 923-932]: the operands aligned, the sign of the result decides how *)
Definition sum (o : bop) (l r : operand) : result :=
  let s := both_signed l r in
  let '(a, b) := adjust (obj l) (obj r) (opoint l) (opoint r) s in
  mkR (common_width l r) (common_point l r) s (XBin o (fe a) (fe b)).
(** LessThan, GreaterThan, LessEq, GreaterEq, Eq, NotEq [960-1023]: one unsigned bit *)
Definition compare_op (o : bop) (l r : operand) : result :=
  let '(a, b) := adjust (obj l) (obj r) (opoint l) (opoint r) false in
  mkR 1 0 false (XBin o (fe a) (fe b)).
(** And, Xor, Xnor, Or, and with one bit Land, Lor [1123-1221] *)
Definition logical (o : bop) (l r : operand) : result :=
  let w := match o with BLand | BLor => 1 | _ => Z.max (owidth l) (owidth r) end in
  mkR w 0 false (XBin o (odata l) (odata r)).

(** Sll, Srl, Sra [1026-1117]; [None]: TypeError for an amount with fraction bits, ValueError for a
    result too wide.  [eval] of a constant is its value, of a signal the node. *)
Definition sll_width (l r : operand) : Z :=
  owidth l + match r with Sig _ w _ _ => 2 ^ w | Cst z _ | Fxd z _ _ => z end.
Definition shift_op (o : bop) (l r : operand) : option result :=
  let w := match o with BSll => sll_width l r | _ => owidth l end in
  if match o with BSll => 1024 <? w | _ => false end then None
  else if negb (opoint r =? 0) then None
  else Some (mkR w (opoint l) (match o with BSrl => false | _ => osigned l end) (XBin o (odata l) (odata r))).

(** Times [636-697].  The operands go through the ports of the multiplier; after [d] = latency - 1
    cycles its output is shifted right into [mul_odata_reg] and cut to the result. *)
Definition port (E : venv) (w : Z) (o : operand) : Z := assigned E w (odata o).
Definition product (E : venv) (d : nat) (l r : operand) : Z :=
  mul_out (fold_left (mul_step (owidth l) (owidth r) (osigned l) (osigned r))
                     (repeat (mkMulIn true (port E (owidth l) l) (port E (owidth r) r) true false) d)
                     (mkMul 0 0 (repeat 0 (d - 1)))).
Definition times_point (l r : operand) : Z := Z.min (Z.max (opoint l) (opoint r)) (opoint l + opoint r).
Definition times_width (l r : operand) : Z := Z.max (owidth l) (owidth r).
Definition times (E : venv) (d : nat) (l r : operand) : Z :=
  let s := both_signed l r in
  let w := owidth l + owidth r in
  let size := opoint l + opoint r - times_point l r in
  let odata := wire w s (product E d l r) in
  let odata_reg := assigned odata w (if 0 <? size then fe (shift_right (mkF (XVar 0) 0 s) size s) else XVar 0) in
  assigned (wire w s odata_reg) (times_width l r) (XVar 0).

(** [_MulAdd] [2491-2604]; [None]: ValueError for the points *)
Definition muladd_width (a b c : operand) : Z := Z.max (Z.max (owidth a) (owidth b)) (owidth c).
Definition all_signed (a b c : operand) : bool := osigned a && osigned b && osigned c.
Definition muladd (E : venv) (d : nat) (a b c : operand) : option Z :=
  if negb (opoint a + opoint b =? opoint c) then None else
  let s := all_signed a b c in
  let w := Z.max (owidth a + owidth b) (owidth c) in
  let odata := madd_out (fold_left (madd_step (owidth a) (owidth b) (owidth c) (osigned a) (osigned b) (osigned c))
                           (repeat (mkMaddIn true (port E (owidth a) a) (port E (owidth b) b) (port E (owidth c) c)) d)
                           (mkMadd 0 0 0 (repeat 0 (d - 1)))) in
  let odata_reg := assigned (wire w s odata) w (XVar 0) in
  Some (assigned (wire w s odata_reg) (muladd_width a b c) (XVar 0)).

(** Divide and Mod [700-835]: the operands aligned and, if signed, under $signed; then the divider of
    [stream/div.py] held for width + 2 cycles.  DivideMultiCycle [838-920] uses the same signals. *)
Definition div_input (E : venv) (w : Z) (s : bool) (f : fobj) : Z := assigned E w (if s then XSigned (fe f) else fe f).
Definition divider (E : venv) (l r : operand) : div :=
  let w := common_width l r in
  let s := both_signed l r in
  let '(a, b) := adjust (obj l) (obj r) (opoint l) (opoint r) s in
  fold_left (div_step w (osigned l) (osigned r) s)
            (repeat (mkDivIn false true true (div_input E w (osigned l) a) (div_input E w (osigned r) b)) (Z.to_nat (w + 2)))
            (mkDiv (repeat stage0 (Z.to_nat (w + 1))) 0 0 false).
Definition divide (E : venv) (l r : operand) : Z :=
  let w := common_width l r in assigned (wire w (both_signed l r) (d_rslt (divider E l r))) w (XVar 0).
Definition modulo (E : venv) (l r : operand) : Z :=
  let w := common_width l r in assigned (wire w (both_signed l r) (d_mod (divider E l r))) w (XVar 0).

(** ** Unary operators [548-623, 1224-1387] *)
Definition unary (o : uop) (r : operand) : result :=
  match o with
  | UPlus | UMinus => mkR (owidth r) (opoint r) (osigned r) (XUn o (odata r))
  | UNot => mkR (owidth r) 0 false (XUn o (odata r))
  | _ => mkR 1 0 false (XUn o (odata r))
  end.

(** Cast and ReinterpretCast [1420-1485]: through a wire like the operand *)
Definition dflt {A} (x : option A) (d : A) : A := match x with Some a => a | None => d end.
Definition source (E : venv) (r : operand) : venv := wire (owidth r) (osigned r) (assigned E (owidth r) (odata r)).
Definition cast (E : venv) (r : operand) (w p : option Z) : Z :=
  let p' := dflt p (opoint r) in
  let src := mkF (XVar 0) 0 (osigned r) in
  let data := if p' <? opoint r then shift_right src (opoint r - p') (osigned r)
              else if opoint r <? p' then shift_left src (p' - opoint r) else src in
  assigned (source E r) (dflt w (owidth r)) (fe data).
Definition reinterpret (E : venv) (r : operand) (w : option Z) : Z := assigned (source E r) (dflt w (owidth r)) (XVar 0).

(** ** Bits *)
(** Pointer and Slice of a signal [1580-1670]; [None]: a slice of no bits is declared with width 0 or less *)
Definition pointer (x : nat) (pos : operand) : result := mkR 1 0 false (XPtr x (odata pos)).
Definition slice (x : nat) (msb lsb : Z) : option result :=
  let w := msb - lsb + 1 in if w <? 1 then None else Some (mkR w 0 false (XSlice x msb lsb)).
(** Cat and Repeat [1756-1826] *)
Definition cat (os : list operand) : result := mkR (fold_right (fun o w => owidth o + w) 0 os) 0 false (XCat (map odata os)).
Definition repeat_op (o : operand) (n : Z) : result := mkR (owidth o * n) 0 false (XRep (odata o) n).
(** Split [1673-1753] of a signal [x] of width [dw], sign [s]: width and number of chunks *)
Definition ceil_div (a b : Z) : Z := - (- a / b).
Definition split_shape (dw : Z) (width num : option Z) : option (Z * Z) :=
  match width, num with
  | Some w, None => Some (w, ceil_div dw w)
  | None, Some n => Some (ceil_div dw n, n)
  | _, _ => None
  end.
(** one chunk, starting at bit [i] *)
Definition chunk (E : venv) (x : nat) (dw width total : Z) (s : bool) (i : Z) : option Z :=
  let v :=
    if dw <? i + width then
      match slice x (dw - 1) i with
      | None => None
      | Some slc =>
          let pw := total - dw in
          let pad := if s then assigned (wire 1 false (stored E (pointer x (Cst (dw - 1) true)))) pw (XRep (XVar 0) pw)
                     else assigned E pw (int_node 0 (Some pw) None false) in
          let E2 := mkEnv (fun k => match k with O => pw | _ => rw slc end) (fun _ => false)
                          (fun k => match k with O => pad | _ => stored E slc end) 0 in
          Some (pw + rw slc, assigned E2 (pw + rw slc) (XCat [XVar 0; XVar 1]))
      end
    else option_map (fun r => (rw r, stored E r)) (slice x (i + width - 1) i) in
  option_map (fun v => reinterpret (wire (fst v) false (snd v)) (Sig 0 (fst v) 0 false) (Some width)) v.
(** the chunks, lowest first *)
Definition split (E : venv) (x : nat) (dw : Z) (s : bool) (width num : option Z) : option (list (option Z)) :=
  option_map (fun '(w, n) => map (fun k => chunk E x dw w (w * n) s (Z.of_nat k * w)) (seq 0 (Z.to_nat n)))
             (split_shape dw width num).

(** ** Selection, sign and tables *)
(** Cond [1829-1878, 1526-1577]: the values are not aligned *)
Definition cond (c t f : operand) : result :=
  mkR (common_width t f) (common_point t f) (osigned t || osigned f) (XCond (odata c) (odata t) (odata f)).
(** Complement2, Abs, Sign [2175-2247] of [vtypes.py:1864-1879] *)
Definition complement (e : vx) : vx := XBin BPlus (XUn UNot e) (int_node 1 None None false).
Definition negative (e : vx) : vx := XBin BLt e (int_node 0 None None true).
Definition complement2 (r : operand) : result := mkR (owidth r) (opoint r) (osigned r) (complement (odata r)).
Definition sign (r : operand) : result := mkR (owidth r) (opoint r) (osigned r) (negative (odata r)).
Definition abs (r : operand) : result := mkR (owidth r) (opoint r) (osigned r) (mk_mux (negative (odata r)) (complement (odata r)) (odata r)).
(** LUT [2121-2172] with the ROM of [types/rom.py:11-40]: a case over the address, nothing for an
    address without an entry ([old] is kept) *)
Definition lut_size (n : nat) : Z := Z.log2 (Z.of_nat n).
Definition lut (E : venv) (a : operand) (patterns : list Z) (w : Z) (old : Z) : Z :=
  let address := assigned E (lut_size (length patterns)) (odata a) in
  match nth_error patterns (Z.to_nat address) with Some v => assigned E w (XPy v) | None => old end.
