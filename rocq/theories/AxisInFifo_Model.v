(** The AXI stream input that fills FIFOs: [AXIStreamInFifo] of the thread library, with DMA transfers
    into any number of FIFOs and direct reads.
    Modelled code: [thread/axistreamin.py:510-902], with the channel of [types/axi.py:1672-1743] and the
    FIFO of [thread/fifo.py] (Fifo_Model.v), both for the requests and for the data.

    Registers are modelled one by one.  Simplified: the ratio of the widths is a power of two; nothing
    but this engine writes into the FIFOs; one thread at a time is inside [read] (the caller's mutex).
    The flag [read_data_busy] is assigned by several statements; the model lets a clearing statement win
    over a setting one. *)
From Verif Require Import Base Pack Fifo_Model AxiDma_Model AxiPorts_Model AxisIn_Model.
Open Scope Z_scope.

(** Configurations, operations and [op_id] are those of AxisIn_Model.v, with [o_raw] the address width
    of the FIFO; [_get_read_op_id] [871-883] numbers the FIFOs as [462-478] numbers the RAM ports. *)

(** [pack_read_req]: [Cat(op_sel, local_size)] [885-893], [unpack_read_req] [895-902] *)
Definition pack_breq (c : cfg) (o n : Z) : Z := cat [(g_sw c, o); (lw c, n)].
Definition bq_op (c : cfg) (v : Z) : Z := slice v (g_aw c + g_sw c) (g_aw c + 1).
Definition bq_size (c : cfg) (v : Z) : Z := slice v (g_aw c) 0.

(** registers of an operation: [count], [wdata], [wvalid] [731-735,816-820] and its FIFO *)
Record bunit := mkBunit { b_count : Z; b_wdata : Z; b_wvalid : bool; b_f : fifo }.
Record bst := mkBst {
  b_q : fifo;                                         (* read_req_fifo [537-541] *)
  b_busy : bool; b_sel : Z; b_size : Z;               (* read_data_busy, read_op_sel_buf, read_local_size_buf [554-562] *)
  b_same : Z; b_narrow : Z; b_wide : Z;               (* the data FSMs *)
  b_thr : Z;                                          (* a thread in [read]: 0 outside, 1, 2 = states 0, 1 *)
  b_unit : nat -> bunit
}.
Definition binit (m : nat -> Z -> Z) (fm : Z -> Z) : bst :=
  mkBst (fifo_init fm) false 0 0 0 0 0 0 (fun k => mkBunit 0 0 false (fifo_init (m k))).

Record binp := mkBinp {
  c_req : option (nat * Z);          (* a thread at its DMA request: operation, size *)
  c_read : bool;                     (* a thread arrives at [read] *)
  c_valid : bool; c_data : Z; c_last : bool;      (* tvalid, tdata, tlast *)
  c_deq : nat -> bool                (* the reader of each FIFO takes a word *)
}.

Definition bfsm (s : bst) (r : ratio) : Z := match r with Same => b_same s | Narrow _ => b_narrow s | Wide _ => b_wide s end.
Definition bhere (c : cfg) (s : bst) (k : nat) (x : Z) : bool := bfsm s (o_ratio (opk c k)) =? x.
Definition bsel (s : bst) (k : nat) : bool := b_sel s =? opid k.
(** almost_full of the FIFO of operation [k] *)
Definition baf (c : cfg) (s : bst) (k : nat) : bool := p_almost_full (o_raw (opk c k)) (b_f (b_unit s k)).
(** [read_idle] [566-568] *)
Definition bidle (s : bst) : bool := p_empty (b_q s) && negb (b_busy s).
Definition bhead (s : bst) : Z := p_rdata false (b_q s).
(** data state 0 [657-668,719-729,804-814] *)
Definition bdispatch (c : cfg) (s : bst) (k : nat) : bool :=
  bhere c s k 0 && (negb (b_busy s) && negb (p_empty (b_q s)) && (bq_op c (bhead s) =? opid k)).

(** the request of a thread is accepted [612,614-624] *)
Definition baccepts (c : cfg) (s : bst) : bool := negb (p_almost_full (g_fa c) (b_q s)).
Definition bq_in (c : cfg) (s : bst) (i : binp) : fifo_in :=
  mkFifoIn (match c_req i with Some _ => enq_rtl (g_fa c) (b_q s) (baccepts c s) | None => false end)
           (match c_req i with Some (k, n) => pack_breq c (opid k) n | None => 0 end)
           (deq_rtl (b_q s) (any c (bdispatch c s))).

(** the condition of data state 1: [Not(fifo.almost_full)] and, except where the same-width machine
    forgets it, [read_op_sel_buf == op_id] [675-677,683-687; 747; 832-833] *)
Definition brun (c : cfg) (s : bst) (k : nat) : bool :=
  bhere c s k 1 && negb (baf c s k) && match o_ratio (opk c k) with Same => true | _ => bsel s k end.
(** the size is decremented [675-677,762-764,843-845,851-853] *)
Definition bdec (c : cfg) (s : bst) (i : binp) (k : nat) : bool :=
  let u := b_unit s k in
  brun c s k && match o_ratio (opk c k) with
  | Same => c_valid i
  | Narrow lp => c_valid i && (b_count u =? pk lp)
  | Wide _ => c_valid i && (b_count u =? 0) || (0 <? b_count u)
  end.
(** the transfer ends [683-689,769-774,864-869] *)
Definition bfin (c : cfg) (s : bst) (i : binp) (k : nat) : bool :=
  let u := b_unit s k in
  brun c s k && (b_size s <=? 1) && match o_ratio (opk c k) with
  | Same => c_valid i
  | Narrow lp => c_valid i && (b_count u =? pk lp)
  | Wide lp => b_count u =? pk lp
  end.

(** tready: all calls of [read_data] [117,671-673,743-745,828-830] *)
Definition btready (c : cfg) (s : bst) : bool :=
  any c (fun k => bhere c s k 1 && negb (baf c s k) && bsel s k &&
                  match o_ratio (opk c k) with Wide _ => b_count (b_unit s k) =? 0 | _ => true end)
  || (b_thr s =? 2).

(** the write port of the FIFO: [enq_rtl] with [fifo_cond] [679-681,766-767,858-862] *)
Definition benq (c : cfg) (s : bst) (i : binp) (k : nat) : bool :=
  enq_rtl (o_raw (opk c k)) (b_f (b_unit s k))
    (match o_ratio (opk c k) with
     | Same => bhere c s k 1 && c_valid i && negb (baf c s k) && bsel s k
     | _ => b_wvalid (b_unit s k) end).
Definition bword (c : cfg) (s : bst) (i : binp) (k : nat) : Z :=
  match o_ratio (opk c k) with
  | Same => c_data i
  | Narrow _ => b_wdata (b_unit s k)
  | Wide _ => b_wdata (b_unit s k) mod 2 ^ o_w (opk c k)
  end.
Definition bf_in (c : cfg) (s : bst) (i : binp) (k : nat) : fifo_in :=
  mkFifoIn (benq c s i k) (bword c s i k) (c_deq i k).

Definition bunit_step (c : cfg) (s : bst) (i : binp) (k : nat) : bunit :=
  let u := b_unit s k in
  let w := o_w (opk c k) in
  let f := fifo_step true (o_raw (opk c k)) (b_f u) (bf_in c s i k) in
  match o_ratio (opk c k) with
  | Same => mkBunit (b_count u) (b_wdata u) (b_wvalid u) f
  | Narrow lp =>
      if bhere c s k 0 then mkBunit 0 (b_wdata u) false f                             (* [736-739] *)
      else if brun c s k then                                                         (* [749-761] *)
        let v := c_valid i in
        let full := b_count u =? pk lp in
        let more := b_count u <? pk lp in
        mkBunit (if v && full then 0 else if v && more then (b_count u + 1) mod 2 ^ lp else b_count u)
                (if v && full || v && more
                 then cat [(w, c_data i); (w * pk lp, Z.shiftr (b_wdata u) w)] else b_wdata u)
                (v && full) f
      else mkBunit (b_count u) (b_wdata u) (b_wvalid u) f
  | Wide lp =>
      if bhere c s k 0 then mkBunit 0 (b_wdata u) false f                             (* [821-824] *)
      else if brun c s k then                                                         (* [835-856] *)
        let load := c_valid i && (b_count u =? 0) in
        let next := 0 <? b_count u in
        mkBunit (if b_count u =? pk lp then 0 else if next || load then (b_count u + 1) mod 2 ^ lp else b_count u)
                (if next then Z.shiftr (b_wdata u) w else if load then c_data i else b_wdata u)
                (next || load) f
      else mkBunit (b_count u) (b_wdata u) (b_wvalid u) f
  end.

Definition bfsm_step (c : cfg) (s : bst) (i : binp) (r : ratio) : Z :=
  let mine f := any c (fun k => same_class r (o_ratio (opk c k)) && f k) in
  if bfsm s r =? 0 then (if mine (bdispatch c s) then 1 else 0)
  else if mine (bfin c s i) then 0 else bfsm s r.

(** the thread in [read] [100-130] (inherited) *)
Definition bthr_step (s : bst) (i : binp) : Z :=
  if b_thr s =? 0 then (if c_read i then 1 else 0)
  else if b_thr s =? 1 then (if bidle s then 2 else 1)
  else if c_valid i then 0 else 2.

Definition bstep (c : cfg) (s : bst) (i : binp) : bst :=
  let d := any c (bdispatch c s) in
  let h := bhead s in
  mkBst (fifo_step false (g_fa c) (b_q s) (bq_in c s i))
        (if any c (bfin c s i) || (b_thr s =? 2) && c_valid i then false
         else if d || (b_thr s =? 1) && bidle s then true else b_busy s)
        (if d then bq_op c h else b_sel s)
        (if d then bq_size c h else if any c (bdec c s i) then (b_size s - 1) mod 2 ^ lw c else b_size s)
        (bfsm_step c s i Same) (bfsm_step c s i (Narrow 0)) (bfsm_step c s i (Wide 0))
        (bthr_step s i) (tab (nops c) (bunit_step c s i)).

(** ** What can be seen in a cycle *)
Inductive bjob := BRead | BDma (k : nat) (n : Z).
(** jobs issued: a read starts, a request is accepted *)
Definition bissued (c : cfg) (s : bst) (i : binp) : list bjob :=
  (if (b_thr s =? 1) && bidle s then [BRead] else []) ++
  (match c_req i with Some (k, n) => if baccepts c s then [BDma k n] else [] | None => [] end).
(** words taken from the stream, with the last flag *)
Definition btaken (c : cfg) (s : bst) (i : binp) : list (Z * bool) :=
  if btready c s && c_valid i then [(c_data i, c_last i)] else [].
(** results of [read]: data and last flag *)
Definition bresult (s : bst) (i : binp) : list (Z * bool) := if (b_thr s =? 2) && c_valid i then [(c_data i, c_last i)] else [].
(** words that enter the FIFO of operation [k], words that leave it *)
Definition bpush (c : cfg) (k : nat) (s : bst) (i : binp) : list Z :=
  if benq c s i k && negb (p_full (o_raw (opk c k)) (b_f (b_unit s k))) then [bword c s i k] else [].
Definition bpop (k : nat) (s : bst) (i : binp) : list Z :=
  if c_deq i k && negb (p_empty (b_f (b_unit s k))) then [p_rdata false (b_f (b_unit s k))] else [].
