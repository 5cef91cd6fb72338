(** The pipelined operators of the dataflow library, register by register: Times, Divide and Mod
    (veriloggen/dataflow/dtypes.py:693-1084, with dataflow/mul.py:8-102 and dataflow/div.py:6-151), and
    the functions Abs and Sign built from one-cycle operators [1877-1898].

    An operand is a node as in [Sop_Model]; its signal is read from the environment of the cycle.
    [fx.adjust] and the shift of a product are the Verilog expressions of [Fix_Model]; the sign tests
    and the complement are written as arithmetic on the bits of a register.  The one-cycle operators
    of this library [540-657, 1085-1590, 1617-1860] put the expressions of [Sop_Model] (C69) in their
    register and are not repeated.  Left out: [Power] (not implemented by the library), [LUT],
    [CustomOp]. *)
From Verif Require Import Base Bits Vx_Model Vx_Sem Fix_Model Tree_Model Mult_Model Div_Model Sop_Model.
Open Scope Z_scope.

(** [sig_data] of an operand: here the literal of a fixed-point constant is told its sign
    [Int 2681-2698, FixedPoint 2708-2726] *)
Definition ddata (o : operand) : vx :=
  match o with
  | Sig x _ _ _ => XVar x
  | Cst z s | Fxd z _ s => int_node z (Some (int_width z)) None s
  end.
Definition dsign (o : operand) : bool := match o with Sig _ _ _ s => s | Cst z s | Fxd z _ s => if z <? 0 then true else s end.
Definition dobj (o : operand) : fobj := mkF (ddata o) 0 (dsign o).
Definition dport (E : venv) (o : operand) : Z := assigned E (owidth o) (ddata o).

(** a cycle: reset, the ready wire of the operator, whether all operands are valid and ready
    ([all_valid] and [all_ready]), and the signals *)
Record cyc := mkCyc { i_rst : bool; i_ready : bool; i_ops : bool; i_env : venv }.
(** [accept] *)
Definition accepts (valid : bool) (i : cyc) : bool := i_ready i || negb valid.

(** ** Times [693-791] *)
Section Times.
  Variables (lat : nat) (l r : operand).     (* [latency], 7 unless changed *)
  Definition prod_width : Z := owidth l + owidth r.
  Definition prod_signed : bool := both_signed l r.
  (** [shift_size] [741] *)
  Definition prod_shift : Z := Z.min (opoint l) (opoint r).
  (** multiplier core, its valid bits, [mul_odata_reg], [mul_valid_reg] *)
  Record tst := mkT { t_core : mul; t_vals : list bool; t_odata : Z; t_valid : bool }.
  (** after reset; the registers of the core are not reset *)
  Definition times_init (c : mul) : tst := mkT c (repeat false (lat - 1)) 0 false.
  Definition times_step (s : tst) (i : cyc) : tst :=
    let a := accepts (t_valid s) i in
    let mi := mkMulIn a (dport (i_env i) l) (dport (i_env i) r) (a && i_ops i) (i_rst i) in      (* [769-785] *)
    let odata := wire prod_width prod_signed (mul_out (t_core s)) in
    let shifted := if 0 <? prod_shift then fe (shift_right (mkF (XVar 0) 0 prod_signed) prod_shift prod_signed) else XVar 0 in
    mkT (mul_step (owidth l) (owidth r) (osigned l) (osigned r) (t_core s) mi)
        (valid_step (t_vals s) mi)
        (if i_rst i then 0 else if a then assigned odata prod_width shifted else t_odata s)        (* [736-745] *)
        (if i_rst i then false else if a then valid_out (t_vals s) else t_valid s).                (* [749-752] *)
  (** [data] [747], of the width and point of [_set_attributes] [699-706] *)
  Definition times_data (s : tst) : Z := assigned (wire prod_width prod_signed (t_odata s)) (times_width l r) (XVar 0).
End Times.

(** ** Divide [794-939] and Mod [942-1084], the same text but for the output taken from the divider *)
Section Divide.
  Variables (l r : operand) (md : bool).      (* [md]: Mod *)
  Definition quo_width : Z := common_width l r.
  Definition quo_signed : bool := both_signed l r.
  (** [get_latency] [798-799] *)
  Definition quo_latency : Z := quo_width + 5.
  (** [lval], [rval], [shift_size] [833-842] *)
  Definition quo_vals : fobj * fobj :=
    if opoint l <=? opoint r then adjust (dobj l) (dobj r) (opoint l) (opoint r) quo_signed else (dobj l, dobj r).
  Definition quo_shift : Z :=
    let point := Z.max (opoint l) (opoint r) in
    if opoint l <=? opoint r then point else point - (opoint l - opoint r).
  (** the bit tested for the sign *)
  Definition top (x : Z) : bool := Z.testbit x (quo_width - 1).
  (** [sign] [849-850] *)
  Definition sign_of (a b : Z) : bool := negb ((negb (top a) && negb (top b)) || (top a && top b)).
  (** [abs_ldata], [abs_rdata] [857-867] *)
  Definition abs_of (sg : bool) (x : Z) : Z := if sg then if negb (top x) then x else (Z.lnot x + 1) mod 2 ^ quo_width else x.
  (** [shifted_abs_odata], [odata] [873-885] *)
  Definition out_of (osign : bool) (x : Z) : Z :=
    let sh := if 0 <? quo_shift then x * 2 ^ quo_shift else x in
    (if quo_signed then if negb osign then sh else Z.lnot sh + 1 else sh) mod 2 ^ quo_width.
  (** operand registers, magnitudes, divider, output register, three valid bits, sign bits *)
  Record qst := mkQ { v_l : Z; v_r : Z; v_al : Z; v_ar : Z; v_div : div; v_odata : Z; v_valid : list bool; v_sign : list bool }.
  Definition quo_init (d : div) : qst :=
    mkQ 0 0 0 0 d 0 (repeat false 3) (repeat false (Z.to_nat (quo_latency - 2))).
  (** [valid] [889-896] *)
  Definition quo_valid (s : qst) : bool := last (v_valid s) false.
  Definition quo_step (s : qst) (i : cyc) : qst :=
    let a := accepts (quo_valid s) i in
    let di := mkDivIn (i_rst i) a (a && i_ops i) (v_al s) (v_ar s) in                               (* [922-933] *)
    let d' := div_step quo_width true true true (v_div s) di in
    if i_rst i then quo_init d'
    else if a then
      mkQ (assigned (i_env i) quo_width (fe (fst quo_vals))) (assigned (i_env i) quo_width (fe (snd quo_vals)))   (* [846-847] *)
          (abs_of (osigned l) (v_l s)) (abs_of (osigned r) (v_r s)) d'
          (out_of (last (v_sign s) false) (if md then d_mod (v_div s) else d_rslt (v_div s)))
          (d_valid (v_div s) :: removelast (v_valid s))
          (sign_of (v_l s) (v_r s) :: removelast (v_sign s))                                        (* [898-903] *)
    else mkQ (v_l s) (v_r s) (v_al s) (v_ar s) d' (v_odata s) (v_valid s) (v_sign s).
End Divide.

(** ** Abs and Sign of a node [1877-1898]: the comparison with the constant 0, the negative and the
    selection are nodes of their own; the scheduler delays the node itself to meet them *)
Definition dabs (E : venv) (o : operand) : Z :=
  if negb (osigned o) then stored E (unary UPlus o) else
  let c := stored E (compare_op BLt o (Cst 0 true)) in
  let m := stored E (unary UMinus o) in
  let w := owidth o in
  let E' := mkEnv (fun k => match k with O => 1 | _ => w end) (fun k => match k with O => false | _ => true end)
                  (fun k => match k with O => c | 1%nat => m | _ => assigned E w (odata o) end) 0 in
  stored E' (cond (Sig 0 1 0 false) (Sig 1 w (opoint o) true) (Sig 2 w (opoint o) true)).
Definition dsgn (E : venv) (o : operand) : Z :=
  if negb (osigned o) then 1 else stored E (compare_op BGe o (Cst 0 true)).
