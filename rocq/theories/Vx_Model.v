(** Expression trees of veriloggen/core/vtypes.py, printed one node to one node by
    veriloggen/verilog/to_verilog.py:58-397 (floats, strings, scopes, function calls and array
    elements are left out). *)
From Verif Require Import Base Bits.
Open Scope Z_scope.

Inductive uop := UPlus | UMinus | ULnot | UNot | UAnd | UNand | UOr | UNor | UXor | UXnor.
(** [Eql] and [NotEql] differ from [Eq] and [NotEq] only on x and z bits and are left out *)
Inductive bop := BPower | BTimes | BDivide | BMod | BPlus | BMinus | BSll | BSrl | BSra
  | BLt | BGt | BLe | BGe | BEq | BNe | BAnd | BXor | BXnor | BOr | BLand | BLor.
Inductive vx :=
| XPy (z : Z)                                                (* Python int or bool, printed in decimal *)
| XInt (v : Z) (w : option Z) (base : option Z) (sg : bool)   (* vtypes.Int *)
| XX (w : option Z)                                           (* IntX *)
| XVar (x : nat)
| XUn (o : uop) (a : vx)
| XBin (o : bop) (a b : vx)
| XCond (c t f : vx)
| XPtr (x : nat) (p : vx)                                     (* one bit of a variable *)
| XSlice (x : nat) (msb lsb : Z)
| XCat (es : list vx)
| XRep (a : vx) (n : Z)
| XSigned (a : vx).                                           (* SystemTask('signed', a) *)

(** [Int.__init__] for a Python int: a negative value is signed [vtypes.py:823-827] *)
Definition int_node (v : Z) (w base : option Z) (sg : bool) : vx := XInt v w base (if v <? 0 then true else sg).

(** ** [Mux], [Ands], [Ors] *)
(** [vtypes.py:1857-1861]: a Python constant condition is decided at once *)
Definition mk_mux (c t f : vx) : vx :=
  match c with XPy z => if z =? 0 then f else t | _ => XCond c t f end.
(** [AndList], [OrList] of at least one argument [vtypes.py:1537-1556] *)
Definition and_list (a : vx) (l : list vx) : vx := fold_left (XBin BLand) l a.
Definition or_list (a : vx) (l : list vx) : vx := fold_left (XBin BLor) l a.

(** ** PatternMux [vtypes.py:2179-2192]; [None]: an exception, or no expression for no pattern *)
Definition mux_step (prev : option (option vx)) (p : option vx * vx) : option (option vx) :=
  match prev with
  | None => None
  | Some prev =>
      match prev, fst p with
      | None, Some _ => None
      | Some _, None => None
      | None, None => Some (Some (snd p))
      | Some q, Some c => Some (Some (mk_mux c (snd p) q))
      end
  end.
Definition pattern_mux (ps : list (option vx * vx)) : option vx :=
  match fold_left mux_step (rev ps) (Some None) with Some r => r | None => None end.
(** [util.log2] of a signal [types/util.py:48-55] *)
Definition log2_mux (value : vx) (maxsize : nat) : option vx :=
  pattern_mux (map (fun i => (Some (XBin BLt value (XPy (2 ^ Z.of_nat i))), XPy (Z.of_nat i))) (seq 1 (maxsize - 1))).

(** ** Statements, as far as If, Case and PatternIf need them; [SLeaf n] is any other statement *)
Inductive vs :=
| SLeaf (n : nat)
| SBlock (l : list vs)
| SIf (c : vx) (t : list vs) (f : option (list vs))
| SCase (c : vx) (ws : list (option (list vx) * list vs)).

(** [If.Else] on the last link of an Else/Elif chain [vtypes.py:1995-2007] *)
Definition set_else (s : vs) (body : list vs) : option vs :=
  match s with SIf c t None => Some (SIf c t (Some body)) | _ => None end.
(** PatternIf [vtypes.py:2150-2176].  The Python loop links each [If] into the Else part of the one
    before (objects are mutable); here the chain is built from its end.  [many]: the patterns are
    given as several arguments and not as one list; only then [length] is the number of patterns.
    The result of [go] is the tuple put into the Else part: one [If], or the last block. *)
Fixpoint pattern_if_go (length i : nat) (ps : list (option vx * list vs)) : option (option (list vs)) :=
  match ps with
  | [] => Some None
  | (None, b) :: r => if (i <? length - 1)%nat then None else Some (Some [SBlock b])
  | (Some c, b) :: r =>
      match pattern_if_go length (S i) r with
      | None => None
      | Some rest => Some (Some [SIf c b rest])
      end
  end.
Definition pattern_if (many : bool) (ps : list (option vx * list vs)) : option (option (list vs)) :=
  pattern_if_go (if many then length ps else 1%nat) 0 ps.

(** [Case.set_statement]/[add]: [_type_check_statement] over the calls' arguments in order
    [vtypes.py:2074-2098]; the state is the [last] flag and the statements so far *)
Definition case_add (st : option (bool * list (option (list vx) * list vs))) (w : option (list vx) * list vs)
  : option (bool * list (option (list vx) * list vs)) :=
  match st with
  | None => None
  | Some (last, ws) => if last then None else Some (match fst w with None => true | _ => false end, ws ++ [w])
  end.
Definition case_build (c : vx) (ws : list (option (list vx) * list vs)) : option vs :=
  match fold_left case_add ws (Some (false, [])) with Some (_, l) => Some (SCase c l) | None => None end.

(** ** add_mux, add_enable_cond, add_disable_cond [types/util.py:68-100]; the state is the right side
    of the target's assignment, if there is one *)
Definition add_mux (prev : option vx) (cond value : vx) : vx :=
  match prev with None => mk_mux cond value (XX None) | Some p => mk_mux cond value p end.
Definition add_enable_cond (prev : option vx) (cond value : vx) : vx :=
  match prev with None => mk_mux cond value (XPy 0) | Some p => mk_mux cond value p end.
Definition add_disable_cond (prev : option vx) (cond value : vx) : vx :=
  match prev with None => mk_mux cond value (XPy 1) | Some p => and_list (mk_mux cond value (XPy 1)) [p] end.
Definition add_all (f : option vx -> vx -> vx -> vx) (l : list (vx * vx)) : option vx :=
  fold_left (fun p cv => Some (f p (fst cv) (snd cv))) l None.

(** ** [_Numeric.__getitem__] on a variable of width [size] without dimensions [vtypes.py:441-490].
    The index is an int or a slice of ints ([Int] objects are unwrapped); [None]: ValueError.  The
    type checks of Pointer and Slice only reject operands that are no variables. *)
Inductive index := At (i : Z) | Sl (start stop step : option Z).
(** Python's [range] *)
Definition py_range (a b s : Z) : list Z :=
  let n := if 0 <? s then (b - a + s - 1) / s else (a - b + - s - 1) / - s in
  map (fun k => a + Z.of_nat k * s) (seq 0 (Z.to_nat n)).
Definition getitem (x : nat) (size : Z) (r : index) : option vx :=
  match r with
  | At i => Some (XPtr x (XPy (if i <? 0 then size - Z.abs i else i)))
  | Sl start stop step =>
      let right := match start with None => 0 | Some i => if i <? 0 then size - Z.abs i else i end in
      let left := match stop with None => size | Some i => if i <? 0 then size - Z.abs i else i end - 1 in
      if left <? 0 then None else
      match step with
      | None => Some (XSlice x left right)
      | Some s => if s =? 0 then None else Some (XCat (map (fun i => XPtr x (XPy i)) (rev (py_range right (left + 1) s))))
      end
  end.

(** ** The [op] methods: constant evaluation on Python ints [vtypes.py:1043-1530]; [None]: an
    exception or a float.  True and False are 1 and 0. *)
Definition fold_bin (o : bop) (l r lw rw : Z) : option Z :=
  match o with
  | BPower => if r <? 0 then None else Some (l ^ r)
  | BTimes => Some (l * r)
  | BDivide => if r =? 0 then None else Some (l / r)
  | BMod => if r =? 0 then None else Some (l mod r)
  | BPlus => Some (l + r)
  | BMinus => Some (l - r)
  | BSll => if r <? 0 then None else Some (Z.shiftl l r)
  | BSrl => if r <? 0 then None else Some (Z.shiftr l r)
  | BSra => if r <? 0 then None else Some (if 0 <=? l then Z.shiftr (Z.abs l) r else -1 * Z.shiftr (Z.abs l) r)
  | BLt => Some (b2z (l <? r))
  | BGt => Some (b2z (r <? l))
  | BLe => Some (b2z (l <=? r))
  | BGe => Some (b2z (r <=? l))
  | BEq => Some (b2z (l =? r))
  | BNe => Some (b2z (negb (l =? r)))
  | BAnd => Some (Z.land l r)
  | BXor => Some (Z.lxor l r)
  | BXnor =>
      let mask := fold_left (fun m i => Z.lor (Z.shiftl 1 (Z.of_nat i)) m) (seq 0 (Z.to_nat (Z.max lw rw))) 0 in
      Some (Z.land mask (Z.lnot (Z.lxor l r)))
  | BOr => Some (Z.lor l r)
  | BLand => Some (b2z (negb (l =? 0) && negb (r =? 0)))
  | BLor => Some (b2z (negb (l =? 0) || negb (r =? 0)))
  end.
Definition bits_of (r rw : Z) : list bool := map (fun i => negb (Z.land (Z.shiftr r (Z.of_nat i)) 1 =? 0)) (seq 0 (Z.to_nat rw)).
Definition fold_un (o : uop) (r rw : Z) : option Z :=
  match o with
  | UPlus => Some r
  | UMinus => Some (- r)
  | ULnot => Some (b2z (r =? 0))
  | UNot => Some (Z.lnot r)
  | UAnd => Some (b2z (forallb (fun b => b) (bits_of r rw)))
  | UNand => Some (b2z (negb (forallb (fun b => b) (bits_of r rw))))
  | UOr => Some (b2z (existsb (fun b => b) (bits_of r rw)))
  | UNor => Some (b2z (negb (existsb (fun b => b) (bits_of r rw))))
  | UXor => Some (b2z (fold_left xorb (bits_of r rw) false))
  | UXnor => Some (b2z (fold_left xorb (bits_of r rw) true))
  end.
(** [Pointer.op], [Slice.op], [Cat.op], [Repeat.op], [Cond.op] [vtypes.py:1668-1854] *)
Definition fold_ptr (v p : Z) : option Z := if p <? 0 then None else Some (Z.land (Z.shiftr v p) 1).
Definition fold_slice (v m l : Z) : option Z :=
  if l <? 0 then None else
  let mask := fold_left (fun k _ => Z.lor (Z.shiftl k 1) 1) (seq 0 (Z.to_nat (m - l + 1))) 0 in
  Some (Z.land (Z.shiftr v l) mask).
Definition fold_cat (vs ws : list Z) : Z := fold_left (fun r vw => Z.lor (Z.shiftl r (snd vw)) (fst vw)) (combine vs ws) 0.
Definition fold_rep (v w n : Z) : Z := fold_left (fun r _ => Z.lor (Z.shiftl r w) v) (seq 0 (Z.to_nat n)) 0.
Definition fold_cond (c t f : Z) : Z := if c =? 0 then f else t.
