(** The data movers between an AXI bus and an AXI stream: [AXIM_for_AXIStreamIn] and
    [AXIM_for_AXIStreamOut] [thread/axim_for_axistream.py:20-275,277-530].

    The request machine is, statement by statement, that of [thread/axim.py] (AxiDma_Model.v, [rq_step]);
    here the request queue is the real FIFO (Fifo_Model.v), so [almost_full] is no longer an input.
    Registers are modelled one by one.

    Simplifications: one thread calls dma_read_async / dma_write_async; no global base address
    (use_global_base_addr=False); the write data channel is its first register (what follows is
    C20_write_data); words are not cut (all data registers have the width of the bus). *)
From Verif Require Import Base Fifo_Model AxiDma_Model.
Open Scope Z_scope.

(** a channel register with valid and last flag: [write_data] of [types/axi.py:1879-1909] (stream) and
    of the write data channel [types/axi.py:564-593] *)
Record chan := mkChan { h_valid : bool; h_data : Z; h_last : bool }.
Definition chan0 : chan := mkChan false 0 false.
Definition ch_ack (h : chan) (ready : bool) : bool := ready || negb (h_valid h).
Definition ch_step (h : chan) (ready : bool) (w : option (Z * bool)) : chan :=
  match w with
  | Some (d, l) => if ch_ack h ready then mkChan true d l else h
  | None => if h_valid h && negb ready then h else mkChan false (h_data h) false
  end.
(** what leaves the channel in a cycle *)
Definition ch_out (h : chan) (ready : bool) : list (Z * bool) := if h_valid h && ready then [(h_data h, h_last h)] else [].

(** ** Bus to stream *)
Record rmv := mkRmv {
  r_rq : rq; r_q : fifo;                     (* request machine, read_req_fifo *)
  r_busy : bool; r_run : bool; r_size : Z;   (* read_data_busy, data FSM (false = state 0), read_local_size_buf *)
  r_ch : chan                                (* the stream output *)
}.
Definition rmv_init (fm : Z -> Z) : rmv := mkRmv rq_init (fifo_init fm) false false 0 chan0.
Record rmv_in := mkRmvIn {
  x_req : option (Z * Z);                    (* a thread at dma_read_async: address, size *)
  x_arready : bool; x_rvalid : bool; x_rdata : Z;
  x_tready : bool
}.
(** [198-204]: the total size is queued when the request starts *)
Definition q_begin (q : rq) (full : bool) : bool := negb (q_state q) && q_start q && negb full.
Section Read.
  Variables (aw s fa : Z).
  Definition r_full (m : rmv) : bool := p_almost_full fa (r_q m).
  Definition r_rqin (m : rmv) (i : rmv_in) : rq_in := mkRqIn (x_req i) (r_full m) (x_arready i) true.
  (** data state 0 [241-249] *)
  Definition r_start (m : rmv) : bool := negb (r_run m) && (negb (r_busy m) && negb (p_empty (r_q m))).
  (** [252-258] *)
  Definition r_rready (m : rmv) (i : rmv_in) : bool := ch_ack (r_ch m) (x_tready i) && (0 <? r_size m).
  Definition r_wlast (m : rmv) : bool := r_size m <=? 1.
  Definition r_wcond (m : rmv) (i : rmv_in) : bool := x_rvalid i && r_rready m i.
  Definition r_fin (m : rmv) (i : rmv_in) : bool := r_run m && (r_wcond m i && r_wlast m).
  Definition rmv_step (m : rmv) (i : rmv_in) : rmv :=
    mkRmv (rq_step false aw s (r_rq m) (r_rqin m i))
          (fifo_step false fa (r_q m)
             (mkFifoIn (enq_rtl fa (r_q m) (q_begin (r_rq m) (r_full m))) (q_size (r_rq m)) (deq_rtl (r_q m) (r_start m))))
          (if r_fin m i then false else if r_start m then true else r_busy m)          (* [243-246,272-274] *)
          (if r_run m then negb (r_fin m i) else r_start m)                            (* [249,271] *)
          (if r_run m && r_wcond m i then (r_size m - 1) mod 2 ^ (aw + 1)              (* [267-269] *)
           else if r_start m then p_rdata false (r_q m) else r_size m)
          (ch_step (r_ch m) (x_tready i) (if r_wcond m i then Some (x_rdata i, r_wlast m) else None)).   (* [265] *)
  (** read_idle [99-104] *)
  Definition r_idle (m : rmv) : bool := req_idle (r_rq m) && (p_empty (r_q m) && negb (r_busy m)).
End Read.

(** ** Stream to bus *)
Record wmv := mkWmv {
  w_rq : rq; w_q : fifo;                                  (* request machine, write_req_fifo *)
  w_busy : bool; w_run : bool; w_size : Z; w_count : Z;   (* write_data_busy, data FSM, write_size_buf, write_count *)
  w_ch : chan                                             (* the write data channel *)
}.
Definition wmv_init (fm : Z -> Z) : wmv := mkWmv rq_init (fifo_init fm) false false 0 0 chan0.
Record wmv_in := mkWmvIn {
  y_req : option (Z * Z);                                 (* a thread at dma_write_async *)
  y_awready : bool; y_acc : bool; y_wready : bool;        (* y_acc: write_acceptable() *)
  y_tvalid : bool; y_tdata : Z
}.
Section Write.
  Variables (aw s fa : Z).
  Definition w_full (m : wmv) : bool := p_almost_full fa (w_q m).
  Definition w_rqin (m : wmv) (i : wmv_in) : rq_in := mkRqIn (y_req i) (w_full m) (y_awready i) (y_acc i).
  Definition w_start (m : wmv) : bool := negb (w_run m) && (negb (w_busy m) && negb (p_empty (w_q m))).   (* [491-502] *)
  Definition w_next (m : wmv) : bool := w_run m && (negb (p_empty (w_q m)) && (w_size m =? 0)).           (* [505-511] *)
  Definition w_rready (m : wmv) (i : wmv_in) : bool := ch_ack (w_ch m) (y_wready i) && (0 <? w_size m).   (* [513-515] *)
  Definition w_wlast (m : wmv) : bool := w_size m <=? 1.
  Definition w_wcond (m : wmv) (i : wmv_in) : bool := y_tvalid i && w_rready m i.                         (* [517-519] *)
  Definition w_fin (m : wmv) (i : wmv_in) : bool := w_run m && (w_wcond m i && (w_count m =? 1)).         (* [526-529] *)
  (** one port, two calls of enq_rtl: the total [439-442] and each burst [452-457] *)
  Definition w_enq (m : wmv) (i : wmv_in) : bool := q_begin (w_rq m) (w_full m) || issue true (w_rq m) (w_rqin m i).
  Definition w_enqdata (m : wmv) (i : wmv_in) : Z := if issue true (w_rq m) (w_rqin m i) then q_cur (w_rq m) else q_size (w_rq m).
  Definition wmv_step (m : wmv) (i : wmv_in) : wmv :=
    mkWmv (rq_step true aw s (w_rq m) (w_rqin m i))
          (fifo_step false fa (w_q m)
             (mkFifoIn (enq_rtl fa (w_q m) (w_enq m i)) (w_enqdata m i) (deq_rtl (w_q m) (w_start m || w_next m))))
          (if w_fin m i then false else if w_start m then true else w_busy m)
          (if w_run m then negb (w_fin m i) else w_start m)
          (if w_run m && w_wcond m i then (w_size m - 1) mod 2 ^ (aw + 1)
           else if w_next m then p_rdata false (w_q m) else if w_start m then 0 else w_size m)
          (if w_run m && w_wcond m i then (w_count m - 1) mod 2 ^ (aw + 1)
           else if w_start m then p_rdata false (w_q m) else w_count m)
          (ch_step (w_ch m) (y_wready i) (if w_wcond m i then Some (y_tdata i, w_wlast m) else None)).
  (** write_idle *)
  Definition w_idle (m : wmv) : bool := req_idle (w_rq m) && (p_empty (w_q m) && negb (w_busy m)).
End Write.
