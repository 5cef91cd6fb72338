(** The accumulators of the dataflow library: reductions, counters, pulses.
    Modelled code: [dataflow/dtypes.py]: [_Accumulator] [2344-2541], [ReduceAdd], [ReduceSub], [ReduceMul],
    [ReduceCustom] [2544-2605], [Counter] [2608-2622], [Pulse] [2625-2640], [_ReduceValid] [2643-2651].

    The handshake of an accumulator is that of any one-stage operator ([Dflow_Model]); here is what it does
    when it takes its operands.  Simplified: [size] is a number (a parameter has a fixed value during a run);
    the operators of [ops] work on integers and the result is cut to the register's width. *)
From Verif Require Import Base Bits Dflow_Model.
Open Scope Z_scope.

(** [__init__] [2348-2384]: size, whether there are enable and reset operands, initial value, operators,
    width and sign of the data register *)
Record acc := mkAcc { x_size : option Z; x_en : bool; x_rst : bool; x_init : Z; x_ops : list (Z -> Z -> Z); x_width : Z; x_signed : bool }.
(** [self.size is not None and not self.ops] [2411-2412] *)
Definition is_pulse (c : acc) : bool := match x_size c, x_ops c with Some _, [] => true | _, _ => false end.
(** assignment to the data register, one bit wide for a pulse [2407-2415] *)
Definition to_reg (c : acc) (v : Z) : Z := value (if is_pulse c then 1 else x_width c) (x_signed c) v.
(** [vtypes.get_width] of a number [core/vtypes.py:124-132], and the width of [count] [2420-2421] *)
Definition get_width (v : Z) : Z := (if v =? 0 then 0 else Z.log2 (Z.abs v) + 1) + 1.
Definition to_count (n v : Z) : Z := uns (get_width n + 1) v.

(** the operands: the word, then the enable and reset signals there are [2430-2440] *)
Definition opnd_x (l : list Z) : Z := nth 0 l 0.
Definition opnd_e (c : acc) (l : list Z) : bool := if x_en c then negb (nth 1 l 0 =? 0) else true.
Definition opnd_r (c : acc) (l : list Z) : bool := if x_rst c then negb (nth (if x_en c then 2 else 1) l 0 =? 0) else false.
(** [for op in self.ops] [2452-2462, 2470-2480] *)
Definition apply_ops (c : acc) (v x : Z) : Z := fold_left (fun v (op : Z -> Z -> Z) => op v x) (x_ops c) v.
(** [count == size_data - 1], [next_count_value], [count_zero] [2422-2424] *)
Definition at_last (c : acc) (cnt : Z) : bool := match x_size c with Some n => cnt =? n - 1 | None => false end.
Definition next_count (c : acc) (cnt : Z) : Z := match x_size c with Some n => if cnt =? n - 1 then 0 else to_count n (cnt + 1) | None => cnt end.
(** [value] [2451-2466] and [reset_value] [2468-2483] *)
Definition acc_value (c : acc) (d cnt x : Z) : Z := if is_pulse c then b2z (at_last c cnt) else apply_ops c d x.
Definition reset_value (c : acc) (cnt x : Z) : Z := if is_pulse c then b2z (at_last c cnt) else apply_ops c (x_init c) x.
(** a register and its conditional assignments in program order: the last one whose condition holds
    gives the value *)
Definition assigns (l : list (bool * Z)) (old : Z) : Z := fold_left (fun v (a : bool * Z) => if fst a then snd a else v) l old.
Definition sized (c : acc) : bool := match x_size c with Some _ => true | None => false end.
(** the assignments to [data] [2485-2537]; the handshake condition [data_cond] holds *)
Definition data_assigns (c : acc) (d cnt x : Z) (e r : bool) : list (bool * Z) :=
  let v := to_reg c (acc_value c d cnt x) in
  let rv := to_reg c (reset_value c cnt x) in
  let z := cnt =? 0 in
  if x_en c then
    (e, v) ::
    (if x_rst c then (r, to_reg c (x_init c)) :: (e && r, rv) :: (if sized c then [(e && z, rv)] else [])
     else if sized c then [(e && z, rv)] else [])
  else
    (true, v) ::
    (if x_rst c then (r, rv) :: (if sized c then [(z, rv)] else [])
     else if sized c then [(z, rv)] else []).
(** the assignments to [count] *)
Definition count_assigns (c : acc) (cnt : Z) (e r : bool) : list (bool * Z) :=
  if sized c then
    if x_en c then (e, next_count c cnt) :: (if x_rst c then [(e && r, 0)] else [])
    else (true, next_count c cnt) :: (if x_rst c then [(r, 0)] else [])
  else [].
(** the accumulator as an operator: its state is [data] and [count], its output the data register *)
Definition acc_fun (c : acc) (st l : list Z) : list Z * Z :=
  let d := nth 0 st 0 in let cnt := nth 1 st 0 in
  let e := opnd_e c l in let r := opnd_r c l in
  let d' := assigns (data_assigns c d cnt (opnd_x l) e r) d in
  ([d'; assigns (count_assigns c cnt e r) cnt], d').
Definition op_acc (c : acc) : opsem := mkOp 0 [to_reg c (x_init c); 0] (acc_fun c).

(** [ReduceAdd], [ReduceSub], [ReduceMul] [2544-2572] *)
Definition reduce (op : Z -> Z -> Z) (sz : option Z) (iv : Z) (en rst : bool) (w : Z) (sg : bool) : acc := mkAcc sz en rst iv [op] w sg.
Definition reduce_add := reduce Z.add.
Definition reduce_sub := reduce Z.sub.
Definition reduce_mul := reduce Z.mul.
(** [Counter] [2608-2622]: the operand is ignored, the initial value is one step back *)
Definition counter (step : Z) (sz : option Z) (iv : Z) (en rst : bool) (w : Z) (sg : bool) : acc := mkAcc sz en rst (iv - step) [fun x _ => x + step] w sg.
(** [Pulse] [2625-2640] *)
Definition pulse (n : Z) (en rst : bool) : acc := mkAcc (Some n) en rst 0 [] 1 false.
