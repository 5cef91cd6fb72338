(** The simulated memory behind an AXI bus: [AxiMemoryModel].
    Modelled code: [types/axi.py:2908-3266] (constructor, [_make_fsm]), [3357-3485] (packing), with
    the FIFOs of [thread/fifo.py] and [types/fifo.py] (Fifo_Model.v).

    Registers are modelled one by one; of several statements that assign the same register the last
    one wins.  The write side, the read side, the sleep counters and the memory are four parts of
    the state.  Left out: awsize, awburst, lock, cache, prot, qos and user signals (ignored by the
    code), the memory image file, and threads that write the memory while the bus is in use (the
    thread functions are in AxiMemWord_Model.v). *)
From Verif Require Import Base Fifo_Model.
Open Scope Z_scope.

(** ** Parameters of the constructor [types/axi.py:2912-2924] *)
Record mp := mkMp {
  p_dw : Z;                 (* datawidth *)
  p_aw : Z;                 (* addrwidth *)
  p_mw : Z;                 (* mem_addrwidth *)
  p_wdelay : Z; p_rdelay : Z;
  p_sleep : Z; p_keep : Z;  (* sleep_interval, keep_sleep *)
  p_wid : Z; p_bid : Z;     (* waddr_id_width, wresp_id_width *)
  p_arid : Z; p_rid : Z;    (* raddr_id_width, rdata_id_width *)
  p_qa : Z; p_da : Z;       (* req_fifo_addrwidth, data_fifo_addrwidth *)
  p_xbyte : Z -> Z;         (* the unknown byte read at an index outside the memory *)
  p_xhigh : Z               (* the unknown bits read beyond the width of a FIFO word *)
}.
(** bytes per beat: [int(datawidth / 8)] *)
Definition nbytes (p : mp) : Z := p_dw p / 8.

(** ** Packing [types/axi.py:3357-3485] *)
(** [Cat(_wlast, _wstrb, _wdata)] [3357-3367] *)
Definition pack_data (p : mp) (d st : Z) (l : bool) : Z :=
  b2z l * 2 ^ (p_dw p + nbytes p) + st mod 2 ^ nbytes p * 2 ^ p_dw p + d mod 2 ^ p_dw p.
(** slices [0:dw], [dw:dw+nb], [dw+nb] [3369-3387] *)
Definition data_of (p : mp) (v : Z) : Z := v mod 2 ^ p_dw p.
Definition strb_of (p : mp) (v : Z) : Z := v / 2 ^ p_dw p mod 2 ^ nbytes p.
Definition last_of (p : mp) (v : Z) : bool := Z.odd (v / 2 ^ (p_dw p + nbytes p)).
(** [Cat(_global_addr, _size, _id)]; without an id the width of the id is 0 [3389-3411,3438-3460] *)
Definition pack_req (p : mp) (idw a size id : Z) : Z :=
  a mod 2 ^ p_aw p * 2 ^ (9 + idw) + size mod 2 ^ 9 * 2 ^ idw + id mod 2 ^ idw.
(** width of the request FIFOs: both use [waddr_id_width] [2968-2977] *)
Definition req_width (p : mp) : Z := p_aw p + 9 + p_wid p.
(** the word stored in a request FIFO, and its slices; bits beyond the width are unknown [3413-3436,3462-3485] *)
Definition req_word (p : mp) (v : Z) : Z := v mod 2 ^ req_width p.
Definition req_seen (p : mp) (v : Z) : Z := v + p_xhigh p * 2 ^ req_width p.
Definition req_id (p : mp) (idw v : Z) : Z := req_seen p v mod 2 ^ idw.
Definition req_size (p : mp) (idw v : Z) : Z := req_seen p v / 2 ^ idw mod 2 ^ 9.
Definition req_addr (p : mp) (idw v : Z) : Z := req_seen p v / 2 ^ (idw + 9) mod 2 ^ p_aw p.

(** ** Memory of bytes [types/axi.py:3020-3025] *)
(** the index [write_addr + i] is an expression of at least 32 bits; an index outside is ignored by a
    write and unknown in a read *)
Definition mem_index (p : mp) (a i : Z) : Z := (a + i) mod 2 ^ Z.max (p_aw p) 32.
Definition mem_put (p : mp) (m : Z -> Z) (k v : Z) : Z -> Z := if k <? 2 ^ p_mw p then upd m k v else m.
Definition mem_get (p : mp) (m : Z -> Z) (k : Z) : Z := if k <? 2 ^ p_mw p then m k else p_xbyte p k.
(** all bytes of a beat with their strobes [3151-3155] *)
Definition mem_store (p : mp) (m : Z -> Z) (a d st : Z) : Z -> Z :=
  fold_left (fun m' k => let i := Z.of_nat k in
      if Z.testbit st i then mem_put p m' (mem_index p a i) (d / 2 ^ (8 * i) mod 2 ^ 8) else m')
    (seq 0 (Z.to_nat (nbytes p))) m.
(** all bytes of a beat [3223-3226] *)
Definition mem_load (p : mp) (m : Z -> Z) (a : Z) : Z :=
  fold_right (fun k v => let i := Z.of_nat k in mem_get p m (mem_index p a i) * 2 ^ (8 * i) + v) 0
    (seq 0 (Z.to_nat (nbytes p))).

(** ** Sleep counters [types/axi.py:3057-3081] *)
Record slp := mkSlp { l_count : Z; l_keep : Z }.
Definition sleep_step (p : mp) (s : slp) : slp :=
  if 0 <? p_sleep p then
    let at_end := l_count s =? p_sleep p - 1 in
    let keep_end := l_keep s =? p_keep p - 1 in
    mkSlp
      (if (if 0 <? p_keep p then keep_end else true) && at_end then 0
       else if l_count s <? p_sleep p - 1 then (l_count s + 1) mod 2 ^ (p_aw p + 1) else l_count s)
      (if 0 <? p_keep p then
         if at_end && keep_end then 0
         else if at_end then (l_keep s + 1) mod 2 ^ (p_aw p + 1) else l_keep s
       else l_keep s)
  else s.
(** the write side looks for [!=], the read side for [<] [3142-3146,3229] *)
Definition awake_w (p : mp) (s : slp) : bool := if 0 <? p_sleep p then negb (l_count s =? p_sleep p - 1) else true.
Definition awake_r (p : mp) (s : slp) : bool := if 0 <? p_sleep p then l_count s <? p_sleep p - 1 else true.

(** ** Write side *)
Record wside := mkW {
  w_afsm : Z; w_awready : bool; w_rq : fifo;       (* waddr_fsm, awready, wreq_fifo *)
  w_df : fifo;                                     (* wdata_fifo *)
  w_dfsm : Z; w_addr : Z; w_count : Z;             (* wdata_fsm, write_addr, write_count *)
  w_bvalid : bool; w_bid : Z
}.
Definition w_init (m1 m2 : Z -> Z) : wside := mkW 0 false (fifo_init m1) (fifo_init m2) 0 0 0 false 0.

(** the signals of the master *)
Record axi_in := mkIn {
  i_aw : option (Z * Z * Z);       (* awvalid with awaddr, awlen, awid *)
  i_w : option (Z * Z * bool);     (* wvalid with wdata, wstrb, wlast *)
  i_bready : bool;
  i_ar : option (Z * Z * Z);       (* arvalid with araddr, arlen, arid *)
  i_rready : bool
}.
Definition some {A} (o : option A) : bool := match o with Some _ => true | None => false end.

(** last state of waddr_fsm [3086-3097] *)
Definition wa_last (p : mp) : Z := Z.max 0 (p_wdelay p) + 1.
Definition wready (p : mp) (s : wside) : bool := negb (p_almost_full (p_da p) (w_df s)).      (* [2985] *)
Definition aw_hs (s : wside) (i : axi_in) : bool := some (i_aw i) && w_awready s.

(** inputs of the request FIFO: [enq_rtl] with [cond = here && awvalid && awready] [3104-3109],
    [deq_rtl] with [cond = here && !empty] [3120-3121] *)
Definition wrq_in (p : mp) (s : wside) (i : axi_in) : fifo_in :=
  mkFifoIn (enq_rtl (p_qa p) (w_rq s) ((w_afsm s =? wa_last p) && aw_hs s i))
    (match i_aw i with Some (a, n, id) => req_word p (pack_req p (p_wid p) a ((n + 1) mod 2 ^ 32) id) | None => 0 end)
    (deq_rtl (w_rq s) ((w_dfsm s =? 0) && negb (p_empty (w_rq s)))).
(** [_wvalid && _wready] [3138-3149] *)
Definition w_take (p : mp) (s : wside) (aw : bool) : bool :=
  ((w_dfsm s =? 1) && aw) && negb (p_empty (w_df s)).
(** inputs of the data FIFO [2987-2991,3148-3149] *)
Definition wdf_in (p : mp) (s : wside) (i : axi_in) (aw : bool) : fifo_in :=
  mkFifoIn (enq_rtl (p_da p) (w_df s) (some (i_w i) && wready p s))
    (match i_w i with Some (d, st, l) => pack_data p d st l | None => 0 end)
    (deq_rtl (w_df s) (w_take p s aw)).

Definition w_step (p : mp) (s : wside) (i : axi_in) (aw : bool) : wside :=
  let v := p_rdata false (w_df s) in
  let q := p_rdata false (w_rq s) in
  let take := w_take p s aw in
  let start := (w_dfsm s =? 0) && negb (p_empty (w_rq s)) in
  let fin := take && ((w_count s =? 1) || last_of p v) in
  mkW
    (* [3090,3093-3094,3111-3112] *)
    (if w_afsm s =? 0 then (if some (i_aw i) then 1 else 0)
     else if w_afsm s =? wa_last p then
       (if aw_hs s i then 0 else if negb (some (i_aw i)) then 0 else w_afsm s)
     else w_afsm s + 1)
    (* [3087-3089,3097-3102] *)
    (if w_afsm s =? 0 then false
     else if w_afsm s =? wa_last p then
       (if aw_hs s i then false else if negb (p_almost_full (p_qa p) (w_rq s)) then true else w_awready s)
     else w_awready s)
    (fifo_step false (p_qa p) (w_rq s) (wrq_in p s i))
    (fifo_step false (p_da p) (w_df s) (wdf_in p s i aw))
    (* [3134,3169-3170] *)
    (if w_dfsm s =? 0 then (if start then 1 else 0) else if fin then 0 else w_dfsm s)
    (* [3125-3128,3157-3160] *)
    (if start then req_addr p (p_wid p) q
     else if take then (w_addr s + nbytes p) mod 2 ^ p_aw p else w_addr s)
    (if start then req_size p (p_wid p) q
     else if take then (w_count s - 1) mod 2 ^ (p_aw p + 1) else w_count s)
    (* [3122-3124,3163-3168] *)
    (if w_dfsm s =? 0 then false else if fin then true else w_bvalid s)
    (* [3129-3132] *)
    (if start then req_id p (p_wid p) q mod 2 ^ p_bid p else w_bid s).
(** the memory after the cycle [3151-3155] *)
Definition w_mem (p : mp) (s : wside) (aw : bool) (m : Z -> Z) : Z -> Z :=
  let v := p_rdata false (w_df s) in
  if w_take p s aw then mem_store p m (w_addr s) (data_of p v) (strb_of p v) else m.

(** ** Read side *)
Record rside := mkR {
  r_afsm : Z; r_arready : bool; r_rq : fifo;          (* raddr_fsm, arready, rreq_fifo *)
  r_dfsm : Z; r_d1 : Z; r_cond : bool;                (* rdata_fsm, its delayed state, the delayed condition *)
  r_addr : Z; r_count : Z;                            (* read_addr, read_count *)
  r_valid : bool; r_data : Z; r_last : bool; r_rid : Z
}.
Definition r_init (m1 : Z -> Z) : rside := mkR 0 false (fifo_init m1) 0 0 false 0 0 false 0 false 0.
(** last state of rdata_fsm [3205-3222] *)
Definition rd_last (p : mp) : Z := Z.max 0 (p_rdelay p) + 1.
Definition ar_hs (s : rside) (i : axi_in) : bool := some (i_ar i) && r_arready s.
(** [3189-3194,3205-3206] *)
Definition rrq_in (p : mp) (s : rside) (i : axi_in) : fifo_in :=
  mkFifoIn (enq_rtl (p_qa p) (r_rq s) ((r_afsm s =? 1) && ar_hs s i))
    (match i_ar i with Some (a, n, id) => req_word p (pack_req p (p_arid p) a ((n + 1) mod 2 ^ 32) id) | None => 0 end)
    (deq_rtl (r_rq s) ((r_dfsm s =? 0) && negb (p_empty (r_rq s)))).

(** a beat is put on the read data channel [3229-3234,3240-3245] *)
Definition r_ack (s : rside) (i : axi_in) : bool := i_rready i || negb (r_valid s).
Definition r_go (p : mp) (s : rside) (i : axi_in) (ar : bool) : bool :=
  (r_dfsm s =? rd_last p) && (ar && (0 <? r_count s) && r_ack s i).

Definition r_step (p : mp) (s : rside) (i : axi_in) (ar : bool) (m : Z -> Z) : rside :=
  let q := p_rdata false (r_rq s) in
  let start := (r_dfsm s =? 0) && negb (p_empty (r_rq s)) in
  let here := r_dfsm s =? rd_last p in
  let go := r_go p s i ar in
  let retry := here && (r_valid s && negb (i_rready i)) in                      (* [3257-3262] *)
  let drop := (r_d1 s =? rd_last p) && r_cond s in                              (* [3251-3255] *)
  mkR
    (* [3179,3196-3197] *)
    (if r_afsm s =? 0 then (if some (i_ar i) then 1 else 0)
     else if r_afsm s =? 1 then (if ar_hs s i then 0 else if negb (some (i_ar i)) then 0 else 1)
     else r_afsm s)
    (if r_afsm s =? 0 then false
     else if r_afsm s =? 1 then
       (if ar_hs s i then false else if negb (p_almost_full (p_qa p) (r_rq s)) then true else r_arready s)
     else r_arready s)
    (fifo_step false (p_qa p) (r_rq s) (rrq_in p s i))
    (* [3216,3219-3220,3264-3266] *)
    (if r_dfsm s =? 0 then (if start then 1 else 0)
     else if here then (if r_valid s && i_rready i && (r_count s =? 0) then 0 else r_dfsm s)
     else r_dfsm s + 1)
    (r_dfsm s)                                                                  (* [fsm/fsm.py:969-975] *)
    (here || r_cond s)                                                          (* [fsm/fsm.py:831-842] *)
    (if start then req_addr p (p_arid p) q
     else if go then (r_addr s + nbytes p) mod 2 ^ p_aw p else r_addr s)
    (if start then req_size p (p_arid p) q
     else if go then (r_count s - 1) mod 2 ^ (p_aw p + 1) else r_count s)
    (if retry then r_valid s else if go then true else if drop then false else r_valid s)
    (if retry then r_data s else if here && r_ack s i then mem_load p m (r_addr s) else r_data s)
    (if retry then r_last s
     else if here && (ar && (r_count s =? 1) && r_ack s i) then true
     else if drop then false else r_last s)
    (if start then req_id p (p_arid p) q mod 2 ^ p_rid p else r_rid s).

(** ** The whole memory *)
Record axim := mkAm { a_w : wside; a_r : rside; a_s : slp; a_mem : Z -> Z }.
Definition am_init (m1 m2 m3 mem : Z -> Z) : axim := mkAm (w_init m1 m2) (r_init m3) (mkSlp 0 0) mem.
Definition am_step (p : mp) (s : axim) (i : axi_in) : axim :=
  let aw := awake_w p (a_s s) in
  mkAm (w_step p (a_w s) i aw) (r_step p (a_r s) i (awake_r p (a_s s)) (a_mem s))
       (sleep_step p (a_s s)) (w_mem p (a_w s) aw (a_mem s)).

(** ** What the bus sees in a cycle *)
Definition aw_taken (s : axim) (i : axi_in) : list (Z * Z * Z) :=
  match i_aw i with Some x => if w_awready (a_w s) then [x] else [] | None => [] end.
Definition w_taken (p : mp) (s : axim) (i : axi_in) : list (Z * Z * bool) :=
  match i_w i with Some x => if wready p (a_w s) then [x] else [] | None => [] end.
(** cycles with bvalid, and those where the master is ready *)
Definition b_shown (s : axim) (i : axi_in) : list Z := if w_bvalid (a_w s) then [w_bid (a_w s)] else [].
Definition b_taken (s : axim) (i : axi_in) : list Z := if w_bvalid (a_w s) && i_bready i then [w_bid (a_w s)] else [].
Definition ar_taken (s : axim) (i : axi_in) : list (Z * Z * Z) :=
  match i_ar i with Some x => if r_arready (a_r s) then [x] else [] | None => [] end.
Definition r_taken (s : axim) (i : axi_in) : list (Z * bool * Z) :=
  if r_valid (a_r s) && i_rready i then [(r_data (a_r s), r_last (a_r s), r_rid (a_r s))] else [].
