(** Stream accumulators: [_Accumulator] (ReduceAdd/Sub/Max/Min/Custom), [Pulse], [Counter] and
    [RandXorshift] [stream/stypes.py:2942-3147,3549-3718].

    A step is one clock edge with [svalid] and [senable] true, that is one valid element in an enabled
    cycle; other edges leave the registers alone (C28's [KAcc]).  Assignments are in source order, a
    later one overriding an earlier one.

    Simplifications: enable and reset are single bits; operators are functions on integers, their
    result is cut to the register's width; the multi-cycle ReduceDiv is not modelled (ReduceMul is, with
    its stall, at the end of this file); counters are unsigned (the default). *)
From Verif Require Import Base Bits Stream_Model Mult_Model.
Open Scope Z_scope.

(** * [_Accumulator._implement] [3014-3147] *)
Record acfg := mkACfg {
  a_width : Z; a_signed : bool;
  a_ops : list (Z -> Z -> Z);           (* value = op(value, rdata) for each op *)
  a_size : option Z;                    (* Some w: size given, of width w *)
  a_interval : bool; a_enable : bool; a_reset : bool;   (* given or None *)
  a_reg_initval : Z
}.
(** operands of one element; those not given are not looked at *)
Record ain := mkAIn { i_right : Z; i_size : Z; i_interval : Z; i_initval : Z; i_offset : Z; i_enable : bool; i_reset : bool }.
Record ast := mkASt { s_data : Z; s_count : Z; s_pmax : bool; s_icount : Z }.

(** "for Pulse": no operators and a size [3035-3036] *)
Definition is_pulse (c : acfg) : bool := match a_ops c, a_size c with [], Some _ => true | _, _ => false end.
Definition data_width (c : acfg) : Z := if is_pulse c then 1 else a_width c.
Definition to_data (c : acfg) (v : Z) : Z := value (data_width c) (a_signed c) v.
(** registers [3040,3050,3058-3060] after reset *)
Definition acc_init (c : acfg) : ast := mkASt (to_data c (a_reg_initval c)) 0 false 0.

Section Acc.
  Variables (c : acfg) (s : ast) (i : ain).
  (** [3052-3065] *)
  Definition reset_cond : bool := (a_reset c && i_reset i) || (match a_size c with Some _ => s_pmax s | None => false end).
  Definition current_count : Z := if reset_cond then 0 else s_count s.
  Definition current_icount : Z := if reset_cond then 0 else s_icount s.
  Definition current_data : Z := if reset_cond then to_data c (i_initval i) else s_data s.
  (** comparisons with [size_data - 1]: unsigned, at least 32 bits wide [3087-3095] *)
  Definition cwidth : Z := match a_size c with Some w => w + 1 | None => 1 end.
  Definition count_max : bool := uns (Z.max 32 cwidth) (i_size i - 1) <=? current_count.
  Definition next_count : Z := uns cwidth (if count_max then 0 else current_count + 1).
  Definition next_icount : Z :=
    uns (data_width c) (if uns (Z.max 32 (data_width c)) (i_interval i - 1) <=? current_icount then 0 else current_icount + 1).
  Definition interval_enable : bool := current_icount =? uns (Z.max 32 (data_width c)) (i_interval i - 1).
  (** [3097-3113] *)
  Definition acc_value : Z :=
    if is_pulse c then b2z count_max else fold_left (fun v op => op v (i_right i)) (a_ops c) current_data.
  (** [3115-3129] *)
  Definition en1 : bool := negb (a_enable c) || i_enable i.
  Definition en2 : bool := en1 && (negb (a_interval c) || interval_enable).
  Definition acc_step : ast :=
    let data0 := if a_reset c && reset_cond then to_data c (i_initval i) else s_data s in
    mkASt (if en2 then to_data c acc_value else data0)
          (match a_size c with Some _ => if en2 then next_count else s_count s | None => s_count s end)
          (match a_size c with Some _ => if en2 then count_max else s_pmax s | None => s_pmax s end)
          (if a_interval c && en1 then next_icount else s_icount s).
End Acc.
Definition acc_run (c : acfg) (l : list ain) : ast := fold_left (acc_step c) l (acc_init c).

(** ReduceAdd, ReduceSub, ReduceMax, ReduceMin [3150-3172,3503-3524] *)
Definition op_add (x y : Z) : Z := x + y.
Definition op_sub (x y : Z) : Z := x - y.
Definition op_max (x y : Z) : Z := if x <? y then y else x.
Definition op_min (x y : Z) : Z := if y <? x then y else x.
(** Pulse [3689-3707]: width 1, unsigned, initval 0 *)
Definition pulse_cfg (sw : Z) (interval en rst : bool) : acfg := mkACfg 1 false [] (Some sw) interval en rst 0.
(** [_ReduceValid] [3710-3718]: the pulse gets no interval *)
Definition reduce_valid (c : acfg) (sw : Z) : acfg * acfg := (c, pulse_cfg sw false (a_enable c) (a_reset c)).

(** * [Counter._implement] [3557-3630] *)
Record ccfg := mkCCfg {
  c_width : Z;
  c_ctx : Z;                            (* width of the comparison: the widest of count, size, step *)
  c_size : bool; c_offset : bool; c_interval : bool; c_enable : bool; c_reset : bool;
  c_reg_initval : Z
}.
Record cst := mkCSt { t_data : Z; t_count : Z; t_icount : Z }.
Definition cnt_init (c : ccfg) : cst := mkCSt (uns (c_width c) (c_reg_initval c)) (uns (c_width c) (c_reg_initval c)) 0.
Section Cnt.
  Variables (c : ccfg) (s : cst) (i : ain).                (* [i_right] is the step *)
  Definition c_reset_cond : bool := c_reset c && i_reset i.
  Definition c_current : Z := if c_reset_cond then uns (c_width c) (i_initval i) else t_count s.
  Definition c_cur_icount : Z := if c_reset_cond then 0 else t_icount s.
  Definition c_next : Z :=
    let n := c_current + i_right i in
    if c_size c then
      if uns (c_ctx c) (i_size i - i_right i) <=? c_current
      then (if c_offset c then i_offset i else n - i_size i) else n
    else n.
  Definition c_next_icount : Z :=
    uns (c_width c) (if uns (Z.max 32 (c_width c)) (i_interval i - 1) <=? c_cur_icount then 0 else c_cur_icount + 1).
  Definition c_interval_enable : bool := c_cur_icount =? uns (Z.max 32 (c_width c)) (i_interval i - 1).
  Definition c_en1 : bool := negb (c_enable c) || i_enable i.
  Definition c_en2 : bool := c_en1 && (negb (c_interval c) || c_interval_enable).
  Definition cnt_step : cst :=
    mkCSt c_current
          (if c_en2 then uns (c_width c) c_next else t_count s)
          (if c_interval c && c_en1 then c_next_icount else t_icount s).
End Cnt.
Definition cnt_run (c : ccfg) (l : list ain) : cst := fold_left (cnt_step c) l (cnt_init c).

(** * [RandXorshift._implement] [3650-3686] *)
(** the expression assigned to a [w]-bit register: everything is [w] bits wide *)
Definition xs_next (w r : Z) : Z :=
  let '(a, b, c) := if w =? 32 then (13, 17, 5) else (13, 7, 17) in
  let n := Z.lxor r (uns w (Z.shiftl r a)) in
  let n := Z.lxor n (Z.shiftr n b) in
  Z.lxor n (uns w (Z.shiftl n c)).
Record xst := mkXSt { x_data : Z; x_rand : Z }.
Definition xs_init (w seed : Z) : xst := mkXSt (uns w seed) (uns w seed).
Definition xs_step (w : Z) (has_enable : bool) (s : xst) (i : ain) : xst :=
  if negb has_enable || i_enable i then mkXSt (x_rand s) (xs_next w (x_rand s)) else s.
Definition xs_run (w seed : Z) (he : bool) (l : list ain) : xst := fold_left (xs_step w he) l (xs_init w seed).

(** * As nodes of a stream *)
(** operands in the order right, size, interval, initval, offset, enable, reset; the ones not given
    are missing *)
Definition take (b : bool) (l : list Z) : Z * list Z := if b then (hd 0 l, tl l) else (0, l).
Definition dec_args (size interval offset enable reset : bool) (l : list Z) : ain :=
  let '(r, l) := take true l in
  let '(sz, l) := take size l in
  let '(iv, l) := take interval l in
  let '(ini, l) := take true l in
  let '(off, l) := take offset l in
  let '(en, l) := take enable l in
  let '(rst, _) := take reset l in
  mkAIn r sz iv ini off (negb (en =? 0)) (negb (rst =? 0)).
Definition dec_acc (c : acfg) : list Z -> ain :=
  dec_args (match a_size c with Some _ => true | None => false end) (a_interval c) false (a_enable c) (a_reset c).
Definition dec_cnt (c : ccfg) : list Z -> ain :=
  dec_args (c_size c) (c_interval c) (c_offset c) (c_enable c) (c_reset c).
Definition enc_ast (s : ast) : list Z := [s_data s; s_count s; b2z (s_pmax s); s_icount s].
Definition dec_ast (l : list Z) : ast := mkASt (nth 0 l 0) (nth 1 l 0) (negb (nth 2 l 0 =? 0)) (nth 3 l 0).
Definition acc_kind (c : acfg) : kind :=
  KAcc (enc_ast (acc_init c)) (fun s a => enc_ast (acc_step c (dec_ast s) (dec_acc c a))) (fun s => hd 0 s).
Definition enc_cst (s : cst) : list Z := [t_data s; t_count s; t_icount s].
Definition dec_cst (l : list Z) : cst := mkCSt (nth 0 l 0) (nth 1 l 0) (nth 2 l 0).
Definition cnt_kind (c : ccfg) : kind :=
  KAcc (enc_cst (cnt_init c)) (fun s a => enc_cst (cnt_step c (dec_cst s) (dec_cnt c a))) (fun s => hd 0 s).
Definition enc_xst (s : xst) : list Z := [x_data s; x_rand s].
Definition dec_xst (l : list Z) : xst := mkXSt (nth 0 l 0) (nth 1 l 0).
Definition xs_kind (w seed : Z) (he : bool) : kind :=
  KAcc (enc_xst (xs_init w seed)) (fun s a => enc_xst (xs_step w he (dec_xst s) (dec_args false false false he false a))) (fun s => hd 0 s).

(** * [ReduceMul._implement] [3192-3331] *)
(** one clock cycle, stalls included: the stream is enabled when the outside is ready and
    [ii_count] is 0; initiation_interval is 3, the multiplier has depth 2 *)
Record mst := mkMSt { m_acc : ast; m_ii : Z; m_mul : mul }.
Record min := mkMIn { y_valid : bool; y_ready : bool; y_ops : ain }.
Section RedMul.
  Variables (c : acfg) (rsigned : bool) (point : Z).
  Definition m_stall (s : mst) : bool := 0 <? m_ii s.
  Definition m_senable (s : mst) (y : min) : bool := y_ready y && negb (m_stall s).
  (** [odata] is declared with the sign of the result [3318]; shifted by the point [3325-3329] *)
  Definition m_value (s : mst) : Z := Z.shiftr (value (a_width c + a_width c) (a_signed c) (mul_out (m_mul s))) point.
  Definition mul_cycle (s : mst) (y : min) : mst :=
    let a := m_acc s in
    let i := y_ops y in
    let ec0 := y_valid y && m_senable s y in
    let data0 := if ec0 && a_reset c && reset_cond c a i then to_data c (i_initval i) else s_data a in
    let ec1 := ec0 && en1 c i in
    let ec2 := ec1 && (negb (a_interval c) || interval_enable c a i) in
    mkMSt (mkASt (if m_ii s =? 2 then to_data c (m_value s) else data0)
                 (match a_size c with Some _ => if ec2 then next_count c a i else s_count a | None => s_count a end)
                 (match a_size c with Some _ => if ec2 then count_max c a i else s_pmax a | None => s_pmax a end)
                 (if a_interval c && ec1 then next_icount c a i else s_icount a))
          (if m_ii s =? 2 then 0 else if m_stall s then m_ii s + 1 else if ec2 then m_ii s + 1 else m_ii s)
          (mul_step (a_width c) (a_width c) (a_signed c) rsigned (m_mul s)
             (mkMulIn (ec2 || m_stall s) (current_data c a i) (i_right i) false false)).
  Definition mul_init : mst := mkMSt (acc_init c) 0 (mkMul 0 0 [0]).
End RedMul.
