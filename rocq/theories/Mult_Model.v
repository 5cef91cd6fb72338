(** The pipelined multiplier and multiply-adder.
    Modelled code: [types/mul.py:8-113], [stream/mul.py:8-73], [dataflow/mul.py], [stream/madd.py:8-98].

    Registers hold bit patterns; the signed arithmetic of Verilog is modelled with its widths: the
    operands of a signed expression are sign-extended to the width of the context (the widest
    operand or the left side), the result is cut to that width and then to the left side. *)
From Verif Require Import Base Bits.
Open Scope Z_scope.

(** width and value of an operand: the register, or $signed({1'd0, register}) [types/mul.py:30-37] *)
Definition op_width (w : Z) (s : bool) : Z := if s then w else w + 1.
Definition op_val (w : Z) (s : bool) (x : Z) : Z := if s then sgn w x else sgn (w + 1) x.
(** a signed value as a pattern of the context width *)
Definition ext (c x : Z) : Z := x mod 2 ^ c.

(** [_mul] [types/mul.py:39]: context width, product, cut to the wire *)
Definition mul_wire (ret lw rw : Z) (ls rs : bool) (a b : Z) : Z :=
  let c := Z.max ret (Z.max (op_width lw ls) (op_width rw rs)) in
  ((ext c (op_val lw ls a) * ext c (op_val rw rs b)) mod 2 ^ c) mod 2 ^ ret.
(** [_madd] [stream/madd.py:44-45] *)
Definition madd_wire (ret aw bw cw : Z) (sa sb sc : bool) (a b c : Z) : Z :=
  let m := mul_wire ret aw bw sa sb a b in
  let x := Z.max ret (op_width cw sc) in
  ((ext x (sgn ret m) + ext x (op_val cw sc c)) mod 2 ^ x) mod 2 ^ ret.

(** ** Core: operand registers and the pipe of depth-1 registers [types/mul.py:42-52] *)
Record mul := mkMul { p_a : Z; p_b : Z; p_pipe : list Z }.
Record mul_in := mkMulIn { mi_update : bool; mi_a : Z; mi_b : Z; mi_enable : bool; mi_rst : bool }.
Definition mul_step (lw rw : Z) (ls rs : bool) (s : mul) (i : mul_in) : mul :=
  if mi_update i then
    mkMul (mi_a i mod 2 ^ lw) (mi_b i mod 2 ^ rw)
          (mul_wire (lw + rw) lw rw ls rs (p_a s) (p_b s) :: removelast (p_pipe s))
  else s.
(** the output [types/mul.py:40] *)
Definition mul_out (s : mul) : Z := last (p_pipe s) 0.

(** valid bits [types/mul.py:86-100] *)
Definition valid_step (v : list bool) (i : mul_in) : list bool :=
  if mi_rst i then map (fun _ => false) v
  else if mi_update i then mi_enable i :: removelast v else v.
Definition valid_out (v : list bool) : bool := last v false.

(** ** Multiply-add [stream/madd.py:47-55] *)
Record madd := mkMadd { q_a : Z; q_b : Z; q_c : Z; q_pipe : list Z }.
Record madd_in := mkMaddIn { ai_update : bool; ai_a : Z; ai_b : Z; ai_c : Z }.
Definition madd_ret (aw bw cw : Z) : Z := Z.max (aw + bw) cw.
Definition madd_step (aw bw cw : Z) (sa sb sc : bool) (s : madd) (i : madd_in) : madd :=
  if ai_update i then
    mkMadd (ai_a i mod 2 ^ aw) (ai_b i mod 2 ^ bw) (ai_c i mod 2 ^ cw)
           (madd_wire (madd_ret aw bw cw) aw bw cw sa sb sc (q_a s) (q_b s) (q_c s) :: removelast (q_pipe s))
  else s.
Definition madd_out (s : madd) : Z := last (q_pipe s) 0.
