(** The data side of the DMA engine of the AXI master thread interface: the state machines that
    move bus words into a RAM burst and RAM words onto the bus, for equal, narrower and wider
    buses.  Modelled code: [thread/axim.py:870-1127,1279-1577].

    Registers are modelled one by one as in [AxiDma_Model]; the RAM side is the burst unit of
    [Ram_Model] (C15).  Simplifications: one DMA operation (RAM, port, method) per data FSM, so
    the test [op_sel_buf == op_id] is true, the shared busy flag is "state is not 0", and the
    request queue shows a request of this operation or nothing; the width ratio is a power of
    two. *)
From Verif Require Import Base Pack Ram_Model AxiDma_Model.
Open Scope Z_scope.

(** [w] below is the width of the smaller of the two words: the bus word for [Narrow], the RAM
    word for [Wide]; [2^lp] is pack_size [thread/axim.py:946-947,1032-1033]. *)

(** ** Bus to RAM *)
Record rd := mkRd {
  x_fsm : Z;                                   (* data_fsm: 0, 1 or 2 *)
  x_addr : Z; x_stride : Z; x_size : Z;        (* read_local_addr_buf, ..stride_buf, ..size_buf *)
  x_count : Z; x_wdata : Z; x_wvalid : bool;   (* count, wdata, wvalid *)
  x_wb : wburst                                (* the RAM write burst unit *)
}.
Definition rd_init (mem : Z -> Z) : rd := mkRd 0 0 0 0 0 0 false (wb_init mem).
Record rd_in := mkRdIn {
  xi_req : option (Z * Z * Z);   (* head of the request queue: address, stride, RAM words *)
  xi_valid : bool; xi_data : Z   (* rvalid, rdata *)
}.
(** rready [thread/axim.py:924,993,1086-1087] *)
Definition rd_ready (r : ratio) (s : rd) : bool :=
  (x_fsm s =? 2) && match r with Wide _ => x_count s =? 0 | _ => true end.
(** the arguments of ram.write_burst [917-921,980-983,1073-1077] *)
Definition rd_ram (r : ratio) (w : Z) (s : rd) (i : rd_in) : wb_in :=
  mkWBIn (x_fsm s =? 1) (x_addr s) (x_stride s) (x_size s)
         (match r with Same => xi_valid i | _ => x_wvalid s end)
         (match r with Same => xi_data i | Narrow _ => x_wdata s | Wide _ => x_wdata s mod 2 ^ w end)
         false false.
(** [lw] = width of the size register (and of the burst unit's length), [aw] = RAM address width *)
Definition rd_step (r : ratio) (w aw lw : Z) (s : rd) (i : rd_in) : rd :=
  let wb := wb_step aw lw (x_wb s) (rd_ram r w s i) in
  let dec := (x_size s - 1) mod 2 ^ lw in
  if x_fsm s =? 0 then
    match xi_req i with
    | None => mkRd 0 (x_addr s) (x_stride s) (x_size s) (x_count s) (x_wdata s) (x_wvalid s) wb
    | Some (a, st, n) => mkRd 1 a st n (x_count s) (x_wdata s) (x_wvalid s) wb   (* [900-912] *)
    end
  else if x_fsm s =? 1 then                                                       (* [984-988] *)
    mkRd 2 (x_addr s) (x_stride s) (x_size s) 0 (x_wdata s) false wb
  else match r with
  | Same =>                                                                       (* [924-935] *)
      let v := xi_valid i in
      mkRd (if v && (x_size s <=? 1) then 0 else 2) (x_addr s) (x_stride s)
           (if v then dec else x_size s) (x_count s) (x_wdata s) (x_wvalid s) wb
  | Narrow lp =>                                                                  (* [993-1021] *)
      let v := xi_valid i in
      let full := x_count s =? 2 ^ lp - 1 in
      mkRd (if v && (x_size s <=? 1) && full then 0 else 2) (x_addr s) (x_stride s)
           (if v && full then dec else x_size s)
           (if v && full then 0 else if v && (x_count s <? 2 ^ lp - 1) then (x_count s + 1) mod 2 ^ lp else x_count s)
           (if v && full || v && (x_count s <? 2 ^ lp - 1)
            then cat [(w, xi_data i); (w * (2 ^ lp - 1), Z.shiftr (x_wdata s) w)] else x_wdata s)
           (v && full) wb
  | Wide lp =>                                                                    (* [1085-1127] *)
      let load := xi_valid i && (x_count s =? 0) in
      let next := 0 <? x_count s in
      mkRd (if (x_size s <=? 1) && next || (x_size s <=? 1) && load then 0 else 2) (x_addr s) (x_stride s)
           (if next then dec else if load then dec else x_size s)
           (if x_count s =? 2 ^ lp - 1 then 0 else if next || load then (x_count s + 1) mod 2 ^ lp else x_count s)
           (if next then Z.shiftr (x_wdata s) w else if load then xi_data i else x_wdata s)
           (next || load) wb
  end.
(** Beats taken from the bus and requests taken from the queue in a cycle. *)
Definition rd_beat (r : ratio) (s : rd) (i : rd_in) : list Z :=
  if rd_ready r s && xi_valid i then [xi_data i] else [].
Definition rd_taken (s : rd) (i : rd_in) : list (Z * Z * Z) :=
  if x_fsm s =? 0 then match xi_req i with Some q => [q] | None => [] end else [].

(** ** RAM to bus *)
(** Queue entries: first the request (address, stride, RAM words), then the sizes of its bursts
    in bus words [thread/axim.py:1229-1254]. *)
Inductive wentry := WReq (a st n : Z) | WBurst (n : Z).
Definition went_addr (e : wentry) := match e with WReq a _ _ => a | WBurst _ => 0 end.
Definition went_stride (e : wentry) := match e with WReq _ st _ => st | WBurst _ => 0 end.
Definition went_size (e : wentry) := match e with WReq _ _ n => n | WBurst n => n end.
Record wr := mkWr {
  y_fsm : Z; y_addr : Z; y_stride : Z; y_size : Z;    (* data_fsm, write_local_..., write_size_buf *)
  y_count : Z; y_wdata : Z; y_wlast : bool;
  y_wvalid : bool;                                    (* wvalid of the write data channel *)
  y_rb : rburst;                                      (* the RAM read burst unit *)
  y_queue : list wentry                               (* the request queue with all entries to come *)
}.
Definition wr_init (q : list wentry) : wr := mkWr 0 0 0 0 0 0 false false rb_init q.
Record wr_in := mkWrIn {
  yi_avail : bool;    (* the head entry has arrived: queue not empty *)
  yi_ready : bool     (* wready of the write data channel *)
}.
(** the write data channel takes a word [thread/axim.py:1324; types/axi.py:571] *)
Definition wr_ack (s : wr) (i : wr_in) : bool := yi_ready i || negb (y_wvalid s).
Definition wr_head (s : wr) (i : wr_in) : option wentry :=
  if yi_avail i then match y_queue s with e :: _ => Some e | [] => None end else None.
(** rready towards the RAM [1324-1325,1412-1413,1517-1518] *)
Definition wr_rready (r : ratio) (s : wr) (i : wr_in) : bool :=
  match r with
  | Same => wr_ack s i
  | Narrow _ => wr_ack s i && (y_count s =? 0)
  | Wide _ => wr_ack s i || (0 <? y_count s)
  end && (0 <? y_size s).
Definition wr_ram (r : ratio) (s : wr) (i : wr_in) : rb_in :=
  mkRBIn (y_fsm s =? 1) (y_addr s) (y_stride s) (y_size s) (wr_rready r s i) false.
(** wcond, data and last of write_data [1340-1342,1436-1443,1534-1541] *)
Definition wr_wcond (r : ratio) (s : wr) (i : wr_in) : bool :=
  match r with
  | Same => rb_rvalid (y_rb s) && wr_rready r s i
  | Narrow _ => (y_fsm s =? 2) && (wr_ack s i && (0 <? y_size s)) && ((0 <? y_count s) || rb_rvalid (y_rb s))
  | Wide lp => (y_fsm s =? 2) && (y_count s =? 2 ^ lp - 1) && rb_rvalid (y_rb s) && wr_rready r s i
  end.
Definition wr_wide_data (w lp : Z) (s : wr) : Z :=
  cat [(w, rb_rdata (y_rb s)); (w * (2 ^ lp - 1), Z.shiftr (y_wdata s) w)].
Definition wr_data (r : ratio) (w : Z) (s : wr) : Z :=
  match r with
  | Same => rb_rdata (y_rb s)
  | Narrow _ => (if y_count s =? 0 then rb_rdata (y_rb s) else y_wdata s) mod 2 ^ w
  | Wide lp => wr_wide_data w lp s
  end.
Definition wr_last (r : ratio) (s : wr) : bool :=
  match r with
  | Narrow _ => y_size s =? 1
  | _ => rb_rlast (y_rb s) || (y_size s =? 1)
  end.
(** what the write data channel registers in a cycle, data and last: nothing without an
    acknowledge, even when [wcond] holds [types/axi.py:564-593] *)
Definition wr_beat (r : ratio) (w : Z) (s : wr) (i : wr_in) : list (Z * bool) :=
  if wr_wcond r s i && wr_ack s i then [(wr_data r w s, wr_last r s)] else [].

(** size register when a request is taken: RAM words, for [Wide] rounded up to whole bus words
    [1496-1499] *)
Definition wr_local (r : ratio) (n : Z) : Z :=
  match r with Wide lp => Z.shiftl (global_size r n) lp | _ => n end.
(** size register when a burst entry is taken [1334,1428,1528] *)
Definition wr_burst (r : ratio) (n : Z) : Z :=
  match r with Wide lp => Z.shiftl n lp | _ => n end.

Definition wr_step (r : ratio) (w aw lw : Z) (mem : Z -> Z) (s : wr) (i : wr_in) : wr :=
  let rb := rb_step aw lw mem (y_rb s) (wr_ram r s i) in
  let dec := (y_size s - 1) mod 2 ^ lw in
  let wv := wr_wcond r s i && wr_ack s i || y_wvalid s && negb (yi_ready i) in
  if y_fsm s =? 0 then
    match wr_head s i with
    | None => mkWr 0 (y_addr s) (y_stride s) (y_size s) (y_count s) (y_wdata s) (y_wlast s) wv rb (y_queue s)
    | Some e => mkWr 1 (went_addr e) (went_stride e) (wr_local r (went_size e) mod 2 ^ lw)
                     (y_count s) (y_wdata s) (y_wlast s) wv rb (tl (y_queue s))
    end
  else if y_fsm s =? 1 then                                       (* [1318-1320,1407-1423,1510-1523] *)
    mkWr 2 (y_addr s) (y_stride s) 0 (match r with Same => y_count s | _ => 0 end) (y_wdata s) (y_wlast s) wv rb (y_queue s)
  else
    let '(size1, queue1) :=
      match (if y_size s =? 0 then wr_head s i else None) with
      | Some e => (wr_burst r (went_size e) mod 2 ^ lw, tl (y_queue s))
      | None => (y_size s, y_queue s)
      end in
    let rv := rb_rvalid (y_rb s) && wr_rready r s i in
    let wc := wr_wcond r s i in
    match r with
    | Same =>                                                     (* [1340-1350] *)
        mkWr (if wc && rb_rlast (y_rb s) then 0 else 2) (y_addr s) (y_stride s)
             (if rv then dec else size1) (y_count s) (y_wdata s) (y_wlast s) wv rb queue1
    | Narrow lp =>                                                (* [1432-1470] *)
        let full := y_count s =? 2 ^ lp - 1 in
        mkWr (if wc && full && y_wlast s then 0 else 2) (y_addr s) (y_stride s)
             (if wc then dec else size1)
             (if wc && full then 0 else if wc then (y_count s + 1) mod 2 ^ lp else y_count s)
             (if wc && (0 <? y_count s) then Z.shiftr (y_wdata s) w
              else if wc && (y_count s =? 0) then Z.shiftr (rb_rdata (y_rb s)) w else y_wdata s)
             (if wc && (y_count s =? 0) then rb_rlast (y_rb s) else y_wlast s) wv rb queue1
    | Wide lp =>                                                  (* [1534-1561] *)
        let full := y_count s =? 2 ^ lp - 1 in
        mkWr (if full && rv && rb_rlast (y_rb s) then 0 else 2) (y_addr s) (y_stride s)
             (if rv then dec else size1)
             (if rv && full then 0 else if rv then (y_count s + 1) mod 2 ^ lp else y_count s)
             (if rv then wr_wide_data w lp s else y_wdata s) (y_wlast s) wv rb queue1
    end.
