(** Stream operators with registers of their own: [ReduceArgMax] and [ReduceArgMin] (with [_Prev] and
    [Predicate]), [CounterValid], [Scratchpad] and [CustomCounter]
    [stream/stypes.py:2352-2400,3719-3927,4258-4355,4728-4760,5046-5092].

    A step is one clock cycle, [senable] and the valid bit of the operator's stage included.

    Simplifications: as in Reduce_Model (enable, reset and conditions are single bits); no fixed point;
    a scratchpad has one reading port; [initiation_interval] is 1 (the default). *)
From Verif Require Import Base Bits Stream_Model Mult_Model Reduce_Model.
Open Scope Z_scope.

(** * Predicate [4728-4760] *)
Record pin := mkPIn { p_senable : bool; p_svalid : bool; p_when : bool; p_data : Z }.
Definition pred_step (has_when : bool) (d : Z) (i : pin) : Z :=
  if p_svalid i && p_senable i && (negb has_when || p_when i) then p_data i else d.

(** * ReduceArgMax, ReduceArgMin [5046-5068] *)
(** the counter gets the size, enable and reset of the reduction, step 1 and initval 0 [5050,5062];
    its defaults are [3551-3552] *)
Definition arg_ccfg (c : acfg) : ccfg :=
  mkCCfg 32 (Z.max 32 (match a_size c with Some w => w | None => 32 end)) (match a_size c with Some _ => true | None => false end)
    false false (a_enable c) (a_reset c) 0.
Definition arg_cin (i : ain) : ain := mkAIn 1 (i_size i) 0 0 0 (i_enable i) (i_reset i).
(** the reduction and the counter are at one stage; [g_vld] is the valid bit of the next stage, where
    the previous value (latency 0) is compared and the predicate sits *)
Record gst := mkGSt { g_acc : ast; g_cnt : cst; g_prev : Z; g_vld : bool; g_idx : Z }.
Record gin := mkGIn { g_senable : bool; g_svalid : bool; g_ops : ain }.
Definition arg_init (c : acfg) : gst := mkGSt (acc_init c) (cnt_init (arg_ccfg c)) 0 false 0.
(** update: NotEq(_max, _max.prev(1)) [5051-5052] *)
Definition arg_update (s : gst) : bool := negb (s_data (g_acc s) =? g_prev s).
Definition arg_step (c : acfg) (s : gst) (i : gin) : gst :=
  mkGSt (if g_svalid i && g_senable i then acc_step c (g_acc s) (g_ops i) else g_acc s)
        (if g_svalid i && g_senable i then cnt_step (arg_ccfg c) (g_cnt s) (arg_cin (g_ops i)) else g_cnt s)
        (* [_Prev] is clocked with senable alone [2399] *)
        (if g_senable i then s_data (g_acc s) else g_prev s)
        (if g_senable i then g_svalid i else g_vld s)
        (pred_step true (g_idx s) (mkPIn (g_senable i) (g_vld s) (arg_update s) (t_data (g_cnt s)))).
Definition arg_run (c : acfg) (is : list gin) : gst := fold_left (arg_step c) is (arg_init c).
(** ReduceMax and ReduceMin as the first argument *)
Definition max_cfg (w : Z) (sg : bool) (sz : option Z) (en rst : bool) (iv : Z) : acfg := mkACfg w sg [op_max] sz false en rst iv.
Definition min_cfg (w : Z) (sg : bool) (sz : option Z) (en rst : bool) (iv : Z) : acfg := mkACfg w sg [op_min] sz false en rst iv.

(** * CounterValid [3778-3785] *)
(** the counter, and a pulse of the same size without the step, interval and offset *)
Definition counter_valid (c : ccfg) (sw : Z) : ccfg * acfg := (c, pulse_cfg sw false (c_enable c) (c_reset c)).

(** * Scratchpad [4258-4355] *)
(** what an element brings: the write [4264] and the read [4280] *)
Record elem := mkElem { e_wdata : Z; e_waddr : Z; e_wen : bool; e_raddr : Z; e_ren : bool }.
(** [q_line]: the elements between the stage of the write and the stage of the read, oldest first;
    [None] is a stage without a valid element *)
Record qst := mkQSt { q_mem : Z -> Z; q_line : list (option elem); q_rdata : Z }.
Definition pad_init (m0 : Z -> Z) (d : nat) : qst := mkQSt m0 (repeat None d) 0.
(** the memory of [types/ram.py:75-98] with one writing port (wenable is also its enable [4310]) and
    one reading port (wenable 0 [4350]); a read sees the memory before the edge *)
Definition pad_step (aw : Z) (s : qst) (i : bool * option elem) : qst :=
  if fst i then
    mkQSt (match snd i with Some e => if e_wen e then upd (q_mem s) (uns aw (e_waddr e)) (e_wdata e) else q_mem s | None => q_mem s end)
          (tl (q_line s ++ [snd i]))
          (match q_line s with Some e :: _ => if e_ren e then q_mem s (uns aw (e_raddr e)) else q_rdata s | _ => q_rdata s end)
  else s.
Definition pad_run (aw : Z) (m0 : Z -> Z) (d : nat) (is : list (bool * option elem)) : qst := fold_left (pad_step aw) is (pad_init m0 d).

(** * CustomCounter [3788-3921] *)
Record kcfg := mkKCfg { k_types : list (Z * bool); k_func : list Z -> list Z; k_reset : bool }.
(** [j_args]: the operands initvals ++ args ++ [reset] of [3797-3805] *)
Record kin := mkKIn { j_senable : bool; j_svalid : bool; j_args : list Z }.
Definition num_vars (c : kcfg) : nat := length (k_types c).
Definition to_vars (c : kcfg) (vs : list Z) : list Z := map (fun '((w, sg), v) => value w sg v) (combine (k_types c) vs).
(** registers start at 0 [3862] *)
Definition cc_init (c : kcfg) : list Z := repeat 0 (num_vars c).
Definition cc_step (c : kcfg) (vars : list Z) (i : kin) : list Z :=
  if j_senable i then                                       (* enable_cond is senable [3856] *)
    if k_reset c && negb (last (j_args i) 0 =? 0) then to_vars c (firstn (num_vars c) (j_args i))       (* [3882-3887] *)
    else to_vars c (k_func c (vars ++ firstn (num_vars c) (skipn (num_vars c) (j_args i))))             (* [3871-3880] *)
  else vars.
Definition cc_run (c : kcfg) (is : list kin) : list Z := fold_left (cc_step c) is (cc_init c).
