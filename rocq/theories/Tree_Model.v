(** Tree-shaped stream operators, averages and the rounding shift
    (veriloggen/stream/stypes.py:2461-2489, 2610-2713).
    A stream value is modelled by the signal that carries it: a width, the signedness of that
    signal, and a bit pattern.  All values here have [point = 0] (no fraction bits). *)
From Verif Require Import Base Bits.
Open Scope Z_scope.

Record node := { nw : Z; ns : bool; nb : Z }.
Definition nval (n : node) : Z := value (nw n) (ns n) (nb n).
(** a Wire or Reg of that width holding the low bits of [x] [stypes.py:505-513, 1536-1544] *)
Definition sig (w : Z) (s : bool) (x : Z) : node := {| nw := w; ns := s; nb := x mod 2 ^ w |}.

(** Int(v): bit_length + 1 bits, signed [stypes.py:3928-3940; vtypes.py:124-132] *)
Definition int_width (v : Z) : Z := if v =? 0 then 1 else Z.log2 (Z.abs v) + 2.
Definition int (v : Z) : node := sig (int_width v) true v.

(** A Verilog operator reads its operands as signed iff all of them are; [rd s n] is operand [n]
    extended that way (IEEE 1364 section 5.5; to_verilog.py prints the bare operator). *)
Definition rd (s : bool) (n : node) : Z := value (nw n) s (nb n).
Definition both (a b : node) : bool := ns a && ns b.

(** Plus and Minus: width of the wider operand, signed if both are
    [stypes.py:466-513, 923-933]; [plus_at] is the same with the width overwritten afterwards *)
Definition plus_at (w : Z) (a b : node) : node := sig w (both a b) (rd (both a b) a + rd (both a b) b).
Definition plus (a b : node) : node := plus_at (Z.max (nw a) (nw b)) a b.
Definition minus (a b : node) : node := sig (Z.max (nw a) (nw b)) (both a b) (rd (both a b) a - rd (both a b) b).
(** GreaterThan, LessThan, Eq: one bit [stypes.py:960-1023] *)
Definition gt (a b : node) : node := sig 1 false (b2z (rd (both a b) b <? rd (both a b) a)).
Definition lt (a b : node) : node := sig 1 false (b2z (rd (both a b) a <? rd (both a b) b)).
Definition eq (a b : node) : node := sig 1 false (b2z (rd (both a b) a =? rd (both a b) b)).
(** Cond: width of the wider value, signed if either is; the operator itself extends by [both]
    [stypes.py:1829-1843, 1881-1885] *)
Definition mux (c a b : node) : node :=
  sig (Z.max (nw a) (nw b)) (ns a || ns b) (if nb c =? 0 then rd (both a b) b else rd (both a b) a).
(** Sra (>>>): the amount is read as unsigned [stypes.py:1026-1048, 1103-1108] *)
Definition sra_at (w : Z) (a r : node) : node := sig w (ns a) (rd (ns a) a / 2 ^ rd false r).
Definition sra (a r : node) : node := sra_at (nw a) a r.
(** Sll by a signal: 2^width-of-amount more bits, at most 1024 [stypes.py:1070-1086] *)
Definition sll (a r : node) : option node :=
  let w := nw a + 2 ^ nw r in
  if 1024 <? w then None else Some (sig w (ns a) (rd (ns a) a * 2 ^ rd false r)).
(** x[i] and x[lsb:msb+1] [stypes.py:371-411, 1580-1593, 1619-1635] *)
Definition pick (a : node) (i : Z) : node := sig 1 false (nb a / 2 ^ i).
Definition slice (a : node) (msb lsb : Z) : node := sig (msb - lsb + 1) false (nb a / 2 ^ lsb).

(** op_tree [stypes.py:2610-2625].  [fuel] bounds the recursion, which halves the list. *)
Fixpoint op_tree_fuel {A} (op : A -> A -> A) (init : A) (fuel : nat) (args : list A) : A :=
  match args, fuel with
  | [], _ => init
  | [x], _ => x
  | _, O => init
  | _, S fuel => let half := Nat.div (length args) 2 in
    op (op_tree_fuel op init fuel (firstn half args)) (op_tree_fuel op init fuel (skipn half args))
  end.
Definition op_tree {A} (op : A -> A -> A) (init : A) (args : list A) : A := op_tree_fuel op init (length args) args.

(** AddTree, Max, Min [stypes.py:2642-2661]; Max() raises IndexError *)
Definition add_tree (args : list node) : node := op_tree plus (int 0) args.
Definition max_tree (args : list node) : option node :=
  match args with [] => None | [x] => Some x | x :: _ => Some (op_tree (fun x y => mux (gt x y) x y) x args) end.
Definition min_tree (args : list node) : option node :=
  match args with [] => None | [x] => Some x | x :: _ => Some (op_tree (fun x y => mux (lt x y) x y) x args) end.

(** _PlusN: one Verilog expression a + b + c + ..., width of the widest, signed if any is
    [stypes.py:1500-1519, 2461-2478] *)
Definition widest (args : list node) : Z := fold_left Z.max (map nw args) 0.
Definition plus_n (args : list node) : option node :=
  match args with
  | [] => None
  | _ => let s := forallb ns args in
    Some (sig (widest args) (existsb ns args) (fold_left Z.add (map (rd s) args) 0))
  end.

(** stage at which a value is ready: operators start when the last operand is ready and take
    [latency] = 1 (Plus, comparison, Cond) [stypes.py:466-468, 1490; stream/scheduler.py:13-32] *)
Definition after (lat : nat) (a b : nat) : nat := (Nat.max a b + lat)%nat.
Definition add_tree_stage (args : list nat) : nat := op_tree (after 1) 0%nat args.
Definition max_tree_stage (args : list nat) : nat := op_tree (fun x y => after 1 (after 1 x y) (Nat.max x y)) 0%nat args.

(** Average and AverageRound [stypes.py:2664-2678]; None: Average() raises ValueError in log(0).
    The divider of the other branch is modelled in Div_Model.v; here it is its quotient. *)
Definition pow2 (n : nat) : bool := Z.land (Z.of_nat n) (Z.of_nat n - 1) =? 0.
Definition div_trunc (a b : node) : node := sig (Z.max (nw a) (nw b)) (both a b) (Z.quot (rd (both a b) a) (rd (both a b) b)).
Definition mean_of (sum : node) (n : nat) : option node :=
  match n with
  | O => None
  | _ => Some (if pow2 n then sra sum (int (Z.log2 (Z.of_nat n))) else div_trunc sum (int (Z.of_nat n)))
  end.
Definition average (args : list node) : option node := mean_of (add_tree args) (length args).
Definition average_round (args : list node) : option node :=
  mean_of (plus (add_tree args) (int (Z.of_nat (length args) / 2))) (length args).

(** SraRound [stypes.py:2681-2713].  [round_by left rounder right] is the part after the rounder. *)
Definition round_by (left rounder right : node) : node :=
  let msb := pick left (nw left - 1) in
  let rounder_sign := mux msb (int (-1)) (int 0) in
  let pre := plus (plus_at (nw left + 1) left rounder) rounder_sign in
  let shifted := sra_at (nw left) pre right in
  mux (eq right (int 0)) left shifted.
(** right is a Python int *)
Definition sra_round_const (left : node) (right : Z) : node :=
  round_by left (int (if right <=? 0 then 0 else 2 ^ (right - 1))) (int right).
(** right is a stream value; None: ValueError (slice to width 0, or Sll too wide) *)
Definition sra_round_sig (left right : node) : option node :=
  let rw := Z.log2_up (nw left) in
  if (rw <? nw right) && (rw <? 1) then None else
  let right_slice := if rw <? nw right then slice right (rw - 1) 0 else right in
  match sll (int 1) (minus right_slice (int 1)) with
  | None => None
  | Some rounder => Some (round_by left rounder right)
  end.
