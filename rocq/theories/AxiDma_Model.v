(** The DMA request generator of the AXI master thread interface, the outstanding-write counter
    and the request words of the DMA queue.
    Modelled code: [thread/axim.py:130-190,740-868,1150-1278,1620-1708] and [types/axi.py:2054-2147].

    Registers are modelled one by one with the value each emitted conditional assignment gives
    them, last assignment in emission order winning (the meaning of the Seq blocks proved in
    C05-C10).  Simplifications: one requester (the thread that holds the interface); the request
    queue only appears through its almost_full flag, an arbitrary input; the address channel
    is the two-register valid/payload behaviour proved for the generated code in C20. *)
From Verif Require Import Base Pack Vlog AxiChan_Model.
Open Scope Z_scope.

(** ** Address arithmetic *)
(** [aw] is the address width, [s] = log2(datawidth/8).
    [types/axi.py:2091-2097] two wires of [aw] bits. *)
Definition mask_addr (aw s a : Z) : Z :=
  Z.shiftl (Z.shiftr a s mod 2 ^ aw) s mod 2 ^ aw.
(** Width at which the sums below are evaluated: the widest of the operands, which are 32-bit
    constants, an [aw]-bit address and an [aw+1]-bit size. *)
Definition ctxw (aw : Z) : Z := Z.max 32 (aw + 1).
Definition boundary_size : Z := 4096.                 (* [types/axi.py:1997] *)
Definition max_burstlen : Z := 2 ^ 8.                 (* [types/axi.py:1996], [thread/axim.py:826] *)
(** [types/axi.py:2099-2106] *)
Definition check_boundary (aw s a l : Z) : bool :=
  boundary_size <=? (Z.land (mask_addr aw s a) (boundary_size - 1) + Z.shiftl l s) mod 2 ^ ctxw aw.
(** [types/axi.py:2108-2116] *)
Definition rest_boundary (aw s a : Z) : Z :=
  Z.shiftr ((boundary_size - Z.land (mask_addr aw s a) (boundary_size - 1)) mod 2 ^ ctxw aw) s.

(** [thread/axim.py:1620-1638] _check_4KB_boundary: new (req_size, rest_size). *)
Definition check_4KB (aw s addr rest : Z) : Z * Z :=
  let w x := x mod 2 ^ (aw + 1) in
  if (rest <=? max_burstlen) && check_boundary aw s addr rest
  then (w (rest_boundary aw s addr), w (rest - rest_boundary aw s addr))
  else if rest <=? max_burstlen then (w rest, 0)
  else if check_boundary aw s addr max_burstlen
  then (w (rest_boundary aw s addr), w (rest - rest_boundary aw s addr))
  else (w max_burstlen, w (rest - max_burstlen)).

(** The number of bus words of a transfer of [n] RAM words
    [thread/axim.py:781-797,1189-1205]; [k] = log2 of the width ratio. *)
Inductive ratio := Same | Narrow (k : Z) | Wide (k : Z).
Definition global_size (r : ratio) (n : Z) : Z :=
  match r with
  | Same => n
  | Narrow k => Z.shiftl n k
  | Wide k => Z.shiftr n k + (if 0 <? Z.land n (2 ^ k - 1) then 1 else 0)
  end.

(** ** The request generator *)
Record rq := mkRq {
  q_state : bool;                     (* req_fsm: false = 0, true = 1 *)
  q_start : bool; q_busy : bool; q_cont : bool;
  q_addr : Z; q_size : Z; q_cur : Z;  (* global_addr, global_size, cur_global_size *)
  q_valid : bool; q_chaddr : Z; q_chlen : Z   (* the address channel: valid, addr, len *)
}.
Definition rq_init : rq := mkRq false false false false 0 0 0 false 0 0.

Record rq_in := mkRqIn {
  i_req : option (Z * Z);   (* the thread is at its dma_read/dma_write state: address, bus words *)
  i_full : bool;            (* request queue almost full *)
  i_ready : bool;           (* arready / awready *)
  i_acc : bool              (* write_acceptable() *)
}.

(** [thread/axim.py:143-144 and the same for writes] read_req_idle, write_req_idle *)
Definition req_idle (q : rq) : bool := negb (q_start q) && negb (q_busy q).
(** [thread/axim.py:767,1165] the thread's request is taken *)
Definition take (q : rq) (i : rq_in) : option (Z * Z) := if req_idle q then i_req i else None.
(** [types/axi.py:430,702] *)
Definition ch_free (q : rq) (i : rq_in) : bool := i_ready i || negb (q_valid q).
(** [thread/axim.py:848-850,1236-1238] *)
Definition check_cond (q : rq) (i : rq_in) : bool :=
  negb (q_state q) && (q_start q || q_cont q) && negb (i_full i).
(** State 1 goes on: reads [thread/axim.py:857], writes [1245-1248]. *)
Definition issue (write : bool) (q : rq) (i : rq_in) : bool :=
  q_state q && ch_free q i && (if write then negb (i_full i) && i_acc i else true).
(** The channel registers a request: reads [types/axi.py:689-715] always, writes [415-445]
    only for a length other than 0. *)
Definition ch_load (write : bool) (q : rq) (i : rq_in) : bool :=
  issue write q i && (if write then negb (q_cur q =? 0) else true).

Definition rq_step (write : bool) (aw s : Z) (q : rq) (i : rq_in) : rq :=
  let chk := check_cond q i in
  let iss := issue write q i in
  let fin := iss && (q_size q =? 0) in
  mkRq
    (* [851,868 / 1239,1277] *)
    (if q_state q then negb iss else chk)
    (* [axim.py:149-151 read_start(0); 766; 834-836] *)
    (if q_start q && i_full i then true else match take q i with Some _ => true | None => false end)
    (* [831-833; 866-867] *)
    (if fin then false else if negb (q_state q) && q_start q then true else q_busy q)
    (* [857-863] *)
    (if fin then false else if iss then true else q_cont q)
    (* [767-814 (the masked address); 860-861] *)
    (if iss then (q_addr q + q_cur q * 2 ^ s) mod 2 ^ aw
     else match take q i with Some (a, _) => mask_addr aw s a | None => q_addr q end)
    (* [776-814; 1620-1638] *)
    (if chk then snd (check_4KB aw s (q_addr q) (q_size q))
     else match take q i with Some (_, n) => n mod 2 ^ (aw + 1) | None => q_size q end)
    (if chk then fst (check_4KB aw s (q_addr q) (q_size q)) else q_cur q)
    (* the channel [types/axi.py:431-443,703-713] *)
    (if q_valid q && negb (i_ready i) then true else ch_load write q i)
    (if issue write q i then q_addr q else q_chaddr q)
    (if issue write q i then (q_cur q - 1) mod 2 ^ 8 else q_chlen q).

(** What the AXI port shows in a cycle: a handshake with address and number of beats
    (arlen/awlen + 1), and the request taken from the thread. *)
Definition rq_burst (q : rq) (i : rq_in) : list (Z * Z) :=
  if q_valid q && i_ready i then [(q_chaddr q, q_chlen q + 1)] else [].
Definition rq_taken (q : rq) (i : rq_in) : list (Z * Z) :=
  match take q i with Some r => [r] | None => [] end.
(** Sizes written to the request queue: the local size when the request is started
    [841-846,1229-1234] (size 0 marks it here: the local size does not pass through this
    machine), then for writes one entry per burst [1245-1254]. *)
Definition rq_enq (write : bool) (q : rq) (i : rq_in) : list (option Z) :=
  (if negb (q_state q) && q_start q && negb (i_full i) then [None] else []) ++
  (if write && issue write q i then [Some (q_cur q)] else []).

(** ** Outstanding writes [types/axi.py:2054-2076] *)
(** [w] is outstanding_wcount_width; [aw]/[b] : address / response handshake in this cycle. *)
Definition wcount_step (w : Z) (c : Z) (aw b : bool) : Z :=
  if negb aw && b && (0 <? c) then (c - 1) mod 2 ^ w
  else if aw && negb b && (c <? 2 ^ w - 1) then (c + 1) mod 2 ^ w
  else c.
(** [types/axi.py:2118-2119] *)
Definition write_acceptable (w c : Z) : bool := c <? 2 ^ w - 2.
(** [types/axi.py:2073-2076, write_completed 2146-2147] *)
Definition has_outstanding (c : Z) (awvalid : bool) : bool := (0 <? c) || awvalid.
Definition write_completed (c : Z) (awvalid : bool) : bool := negb (has_outstanding c awvalid).

(** The counter next to the generated code of the write address channel: the channel's
    [acceptable] reads the counter, the counter sees the channel's handshakes.  [cnt_var] stands
    for the counter and [bv_var] for bvalid among the signals the channel code reads; bready is
    constantly 1 [types/axi.py:628]. *)
Definition cnt_var : var := User 41.
Definition bv_var : var := User 40.
Definition acceptable_expr (w : Z) : expr := EBin LessThan (EVar cnt_var) (EInt (2 ^ w - 2)).
Definition aw_hs (e : env) : bool := truth (e vld) && truth (e rdy).
Definition b_hs (e : env) : bool := truth (e bv_var).
(** the inputs of the channel, with the counter's value filled in *)
Fixpoint with_count (w : Z) (wd : var -> Z) (code : list stmt) (s : env) (c : Z) (ins : list env) : list env :=
  match ins with
  | [] => []
  | i :: r =>
      let i' := vset i cnt_var c in
      i' :: with_count w wd code (chan_next wd code s i')
              (wcount_step w c (aw_hs (drive s i')) (b_hs (drive s i'))) r
  end.
(** the counter after a run *)
Definition count_after (w : Z) (c : Z) (t : list env) : Z :=
  fold_left (fun c e => wcount_step w c (aw_hs e) (b_hs e)) t c.

(** ** Request words [thread/axim.py:1640-1708]: op_sel, addr, stride, size, blocksize *)
Record dreq := mkDreq { d_op : Z; d_addr : Z; d_stride : Z; d_size : Z; d_block : Z }.
(** [thread/axim.py:1640-1655,1675-1690]; read and write requests have the same layout *)
Definition pack_req (ow aw : Z) (d : dreq) : Z :=
  cat [(ow, d_op d); (aw, d_addr d); (aw, d_stride d); (aw + 1, d_size d); (aw, d_block d)].
(** python [v[a:b]] is the slice of bits b-1..a [core/vtypes.py:493-520] *)
Definition pyslice (x a b : Z) : Z := slice x (b - 1) a.
(** [thread/axim.py:1657-1673,1692-1708] *)
Definition unpack_req (ow aw v : Z) : dreq :=
  mkDreq (pyslice v (aw * 4 + 1) (aw * 4 + 1 + ow))
         (pyslice v (aw * 3 + 1) (aw * 3 + 1 + aw))
         (pyslice v (aw * 2 + 1) (aw * 2 + 1 + aw))
         (pyslice v aw (aw * 2 + 1))
         (pyslice v 0 aw).
