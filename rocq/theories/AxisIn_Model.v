(** The AXI stream input of the thread library: [AXIStreamIn], with DMA transfers into any number of
    RAMs and direct reads.
    Modelled code: [thread/axistreamin.py:18-503], [types/axi.py:1672-1743] (the channel), with the
    FIFO of [thread/fifo.py] (Fifo_Model.v) and the RAM burst unit of [thread/ram.py] (Ram_Model.v).

    Registers are modelled one by one.  Simplified: every operation (RAM, port, method) has a RAM of
    its own; the ratio of the widths is a power of two; one thread at a time is inside [read] (the
    caller's mutex).  The flag [read_data_busy] is assigned by several statements; the model lets a
    clearing statement win over a setting one ([AxisIn_Proofs.v] shows that they never meet). *)
From Verif Require Import Base Pack Fifo_Model Ram_Model AxiDma_Model AxiPorts_Model.
Open Scope Z_scope.

(** an operation: width ratio and word width as in AxiData_Model.v, address width of the RAM; the
    operation at index [k] of the list has [op_id = k + 1] [462-478] *)
Record op := mkOp { o_ratio : ratio; o_w : Z; o_raw : Z }.
Record cfg := mkCfg {
  g_dw : Z;          (* datawidth *)
  g_aw : Z;          (* addrwidth *)
  g_sw : Z;          (* op_sel_width *)
  g_fa : Z;          (* req_fifo_addrwidth *)
  g_ops : list op
}.
Definition lw (c : cfg) : Z := g_aw c + 1.            (* width of the size *)
Definition opk (c : cfg) (k : nat) : op := nth k (g_ops c) (mkOp Same 0 0).
Definition nops (c : cfg) : nat := length (g_ops c).
Definition opid (k : nat) : Z := Z.of_nat k + 1.

(** [pack_read_req]: [Cat(op_sel, local_addr, local_stride, local_size)] [480-492] *)
Definition pack_rreq (c : cfg) (o a st n : Z) : Z :=
  cat [(g_sw c, o); (g_aw c, a); (g_aw c, st); (lw c, n)].
(** [unpack_read_req] [494-503] *)
Definition rq_size (c : cfg) (v : Z) : Z := slice v (g_aw c) 0.
Definition rq_stride (c : cfg) (v : Z) : Z := slice v (g_aw c * 2) (g_aw c + 1).
Definition rq_addr (c : cfg) (v : Z) : Z := slice v (g_aw c * 3) (g_aw c * 2 + 1).
Definition rq_op (c : cfg) (v : Z) : Z := slice v (g_aw c * 3 + g_sw c) (g_aw c * 3 + 1).

(** registers of an operation: [count], [wdata], [wvalid] [312-316,401-405] and its RAM burst *)
Record ounit := mkUnit { u_count : Z; u_wdata : Z; u_wvalid : bool; u_wb : wburst }.
Record st := mkSt {
  s_q : fifo;                                         (* read_req_fifo *)
  s_busy : bool; s_sel : Z;                           (* read_data_busy, read_op_sel_buf *)
  s_addr : Z; s_stride : Z; s_size : Z;               (* read_local_..._buf *)
  s_same : Z; s_narrow : Z; s_wide : Z;               (* the data FSMs *)
  s_thr : Z;                                          (* a thread in [read]: 0 outside, 1, 2 = states 0, 1 *)
  s_unit : nat -> ounit
}.
Definition init (m : nat -> Z -> Z) (fm : Z -> Z) : st :=
  mkSt (fifo_init fm) false 0 0 0 0 0 0 0 0 (fun k => mkUnit 0 0 false (wb_init (m k))).

Record inp := mkInp {
  i_req : option (nat * Z * Z * Z);  (* a thread at its DMA request: operation, address, stride, size *)
  i_read : bool;                     (* a thread arrives at [read] *)
  i_valid : bool; i_data : Z; i_last : bool       (* tvalid, tdata, tlast *)
}.

Definition fsm (s : st) (r : ratio) : Z := match r with Same => s_same s | Narrow _ => s_narrow s | Wide _ => s_wide s end.
Definition here (c : cfg) (s : st) (k : nat) (x : Z) : bool := fsm s (o_ratio (opk c k)) =? x.
Definition sel (s : st) (k : nat) : bool := s_sel s =? opid k.
(** [read_idle] [88-90] *)
Definition idle (s : st) : bool := p_empty (s_q s) && negb (s_busy s).
Definition head (s : st) : Z := p_rdata false (s_q s).
(** data state 0: [here], not busy, not empty, own operation [232-245,295-308,384-397] *)
Definition dispatch (c : cfg) (s : st) (k : nat) : bool :=
  here c s k 0 && (negb (s_busy s) && negb (p_empty (s_q s)) && (rq_op c (head s) =? opid k)).
Definition any (c : cfg) (f : nat -> bool) : bool := existsb f (seq 0 (nops c)).
Definition same_class (r r' : ratio) : bool :=
  match r, r' with Same, Same | Narrow _, Narrow _ | Wide _, Wide _ => true | _, _ => false end.

(** the request of a thread is accepted [183,191-198] *)
Definition accepts (c : cfg) (s : st) : bool := negb (p_almost_full (g_fa c) (s_q s)).
Definition q_in (c : cfg) (s : st) (i : inp) : fifo_in :=
  mkFifoIn (match i_req i with Some _ => enq_rtl (g_fa c) (s_q s) (accepts c s) | None => false end)
           (match i_req i with Some (k, a, d, n) => pack_rreq c (opid k) a d n | None => 0 end)
           (deq_rtl (s_q s) (any c (dispatch c s))).

(** a step of data state 2 for operation [k]; every statement but those of [Same] has the condition
    [read_op_sel_buf == op_id] *)
Definition run (c : cfg) (s : st) (k : nat) : bool :=
  here c s k 2 && match o_ratio (opk c k) with Same => true | _ => sel s k end.
Definition pk (lp : Z) : Z := 2 ^ lp - 1.              (* pack_size - 1 *)
(** the size is decremented [257-259,344-346,429-431,437-439] *)
Definition dec (c : cfg) (s : st) (i : inp) (k : nat) : bool :=
  let u := s_unit s k in
  run c s k && match o_ratio (opk c k) with
  | Same => i_valid i
  | Narrow lp => i_valid i && (u_count u =? pk lp)
  | Wide _ => i_valid i && (u_count u =? 0) || (0 <? u_count u)
  end.
(** the transfer ends [261-264,348-353,444-455] *)
Definition fin (c : cfg) (s : st) (i : inp) (k : nat) : bool := dec c s i k && (s_size s <=? 1).

(** tready: all calls of [read_data] [117,256,328,419-420] *)
Definition tready (c : cfg) (s : st) : bool :=
  any c (fun k => run c s k && match o_ratio (opk c k) with Wide _ => u_count (s_unit s k) =? 0 | _ => true end
                  || match o_ratio (opk c k) with Narrow _ => here c s k 2 | _ => false end)
  || (s_thr s =? 2).

Definition unit_step (c : cfg) (s : st) (i : inp) (k : nat) : ounit :=
  let u := s_unit s k in
  let r := o_ratio (opk c k) in
  let w := o_w (opk c k) in
  let wb := wb_step (o_raw (opk c k)) (lw c) (u_wb u)
    (mkWBIn (here c s k 1 && sel s k) (s_addr s) (s_stride s) (s_size s)              (* [248-252,311-320,400-410] *)
       (match r with Same => i_valid i | _ => u_wvalid u end)
       (match r with Same => i_data i | Narrow _ => u_wdata u | Wide _ => u_wdata u mod 2 ^ w end) false false) in
  match r with
  | Same => mkUnit (u_count u) (u_wdata u) (u_wvalid u) wb
  | Narrow lp =>
      if here c s k 1 then mkUnit 0 (u_wdata u) false wb                              (* [321-324] *)
      else if run c s k then                                                          (* [331-343] *)
        let v := i_valid i in
        let full := u_count u =? pk lp in
        let more := u_count u <? pk lp in
        mkUnit (if v && full then 0 else if v && more then (u_count u + 1) mod 2 ^ lp else u_count u)
               (if v && full || v && more
                then cat [(w, i_data i); (w * pk lp, Z.shiftr (u_wdata u) w)] else u_wdata u)
               (v && full) wb
      else mkUnit (u_count u) (u_wdata u) (u_wvalid u) wb
  | Wide lp =>
      if here c s k 1 then mkUnit 0 (u_wdata u) false wb                              (* [411-414] *)
      else if run c s k then                                                          (* [421-442] *)
        let load := i_valid i && (u_count u =? 0) in
        let next := 0 <? u_count u in
        mkUnit (if u_count u =? pk lp then 0 else if next || load then (u_count u + 1) mod 2 ^ lp else u_count u)
               (if next then Z.shiftr (u_wdata u) w else if load then i_data i else u_wdata u)
               (next || load) wb
      else mkUnit (u_count u) (u_wdata u) (u_wvalid u) wb
  end.

Definition fsm_step (c : cfg) (s : st) (i : inp) (r : ratio) : Z :=
  let mine f := any c (fun k => same_class r (o_ratio (opk c k)) && f k) in
  if fsm s r =? 0 then (if mine (dispatch c s) then 1 else 0)
  else if fsm s r =? 1 then 2
  else if mine (fin c s i) then 0 else fsm s r.

(** the thread in [read] [100-130] *)
Definition thr_step (s : st) (i : inp) : Z :=
  if s_thr s =? 0 then (if i_read i then 1 else 0)
  else if s_thr s =? 1 then (if idle s then 2 else 1)
  else if i_valid i then 0 else 2.

Definition step (c : cfg) (s : st) (i : inp) : st :=
  let d := any c (dispatch c s) in
  let h := head s in
  mkSt (fifo_step false (g_fa c) (s_q s) (q_in c s i))
       (if any c (fin c s i) || (s_thr s =? 2) && i_valid i then false
        else if d || (s_thr s =? 1) && idle s then true else s_busy s)
       (if d then rq_op c h else s_sel s)
       (if d then rq_addr c h else s_addr s)
       (if d then rq_stride c h else s_stride s)
       (if d then rq_size c h else if any c (dec c s i) then (s_size s - 1) mod 2 ^ lw c else s_size s)
       (fsm_step c s i Same) (fsm_step c s i (Narrow 0)) (fsm_step c s i (Wide 0))
       (thr_step s i) (tab (nops c) (unit_step c s i)).

(** ** What can be seen in a cycle *)
Inductive job := JRead | JDma (k : nat) (q : Z * Z * Z).
(** jobs issued: a read starts, a request is accepted *)
Definition issued (c : cfg) (s : st) (i : inp) : list job :=
  (if (s_thr s =? 1) && idle s then [JRead] else []) ++
  (match i_req i with Some (k, a, d, n) => if accepts c s then [JDma k (a, d, n)] else [] | None => [] end).
(** words taken from the stream, with the last flag *)
Definition taken (c : cfg) (s : st) (i : inp) : list (Z * bool) :=
  if tready c s && i_valid i then [(i_data i, i_last i)] else [].
(** results of [read]: data and last flag *)
Definition result (s : st) (i : inp) : list (Z * bool) := if (s_thr s =? 2) && i_valid i then [(i_data i, i_last i)] else [].
