(** The AXI stream output of the thread library: [AXIStreamOut], with DMA transfers out of any number
    of RAMs and direct writes.
    Modelled code: [thread/axistreamout.py:19-502], [types/axi.py:1878-1911] (the channel), with the
    FIFO of [thread/fifo.py] (Fifo_Model.v) and the RAM burst unit of [thread/ram.py] (Ram_Model.v).

    Registers are modelled one by one.  Simplified: every operation (RAM, port, method) has a RAM of
    its own, whose contents do not change; the ratio of the widths is a power of two; [dma_write] is
    called once per operation; one thread at a time is inside [write] (the caller's mutex), and the
    value it writes does not change while it waits.  Where several statements assign a register in a
    cycle, the one of the last operation wins; for [write_data_busy] the model lets a clearing
    statement win over a setting one (for legal configurations they never meet). *)
From Verif Require Import Base Pack Fifo_Model Ram_Model AxiDma_Model AxiData_Model AxiPorts_Model AxisIn_Model.
Open Scope Z_scope.

(** Configurations, operations and the packed requests are those of the stream input: the code of
    [452-502] is that of [thread/axistreamin.py:462-503] (AxisIn_Model.v: [cfg], [opid], [pack_rreq],
    [rq_op], [rq_addr], [rq_stride], [rq_size]). *)

(** registers of an operation: [count], [wdata], [wlast] [281-295,381-395] and its RAM burst *)
Record onit := mkOnit { n_count : Z; n_wdata : Z; n_wlast : bool; n_rb : rburst }.
Record ost := mkOst {
  e_q : fifo;                                         (* write_req_fifo *)
  e_busy : bool; e_sel : Z;                           (* write_data_busy, write_op_sel_buf *)
  e_addr : Z; e_stride : Z; e_size : Z;               (* write_local_addr_buf, ..., write_size_buf *)
  e_same : Z; e_narrow : Z; e_wide : Z;               (* the data FSMs *)
  e_thr : Z; e_val : Z * bool;                        (* a thread in [write]: 0 outside, 1, 2 = states 0, 1 *)
  e_tvalid : bool; e_tdata : Z; e_tlast : bool;       (* the channel *)
  e_unit : nat -> onit
}.
Definition oinit (fm : Z -> Z) : ost :=
  mkOst (fifo_init fm) false 0 0 0 0 0 0 0 0 (0, false) false 0 false (fun _ => mkOnit 0 0 false rb_init).

Record oinp := mkOinp {
  w_req : option (nat * Z * Z * Z);  (* a thread at its DMA request: operation, address, stride, size *)
  w_write : option (Z * bool);       (* a thread arrives at [write]: value and last flag *)
  w_ready : bool                     (* tready *)
}.

Definition ofsm (s : ost) (r : ratio) : Z := match r with Same => e_same s | Narrow _ => e_narrow s | Wide _ => e_wide s end.
(** the data FSMs start at index 0, except that for the second and every later operation of the same
    width the states are laid out from index 1 on: [set_index(1)] [217-220] *)
Definition base (c : cfg) (k : nat) : Z :=
  match o_ratio (opk c k) with
  | Same => if existsb (fun j => same_class Same (o_ratio (opk c j))) (seq 0 k) then 1 else 0
  | _ => 0                                                                          (* [266-269,361-364] *)
  end.
Definition ohere (c : cfg) (s : ost) (k : nat) (x : Z) : bool := ofsm s (o_ratio (opk c k)) =? base c k + x.
Definition osel (s : ost) (k : nat) : bool := e_sel s =? opid k.
(** [write_idle] [89-91] *)
Definition oidle (s : ost) : bool := p_empty (e_q s) && negb (e_busy s).
Definition ohead (s : ost) : Z := p_rdata false (e_q s).
(** data state 0 [227-240,276-290,371-389] *)
Definition odispatch (c : cfg) (s : ost) (k : nat) : bool :=
  ohere c s k 0 && (negb (e_busy s) && negb (p_empty (e_q s)) && (rq_op c (ohead s) =? opid k)).

(** the request of a thread is accepted [179,189-196] *)
Definition oaccepts (c : cfg) (s : ost) : bool := negb (p_almost_full (g_fa c) (e_q s)).
Definition oq_in (c : cfg) (s : ost) (i : oinp) : fifo_in :=
  mkFifoIn (match w_req i with Some _ => enq_rtl (g_fa c) (e_q s) (oaccepts c s) | None => false end)
           (match w_req i with Some (k, a, d, n) => pack_rreq c (opid k) a d n | None => 0 end)
           (deq_rtl (e_q s) (any c (odispatch c s))).

(** the channel takes a word [types/axi.py:1886] *)
Definition oack (s : ost) (i : oinp) : bool := w_ready i || negb (e_tvalid s).
(** rready towards the RAM [244,300-301,398] *)
Definition orready (c : cfg) (s : ost) (i : oinp) (k : nat) : bool :=
  match o_ratio (opk c k) with
  | Same => oack s i
  | Narrow _ => oack s i && (n_count (e_unit s k) =? 0)
  | Wide _ => oack s i || (0 <? n_count (e_unit s k))
  end.
Definition orv (c : cfg) (s : ost) (i : oinp) (k : nat) : bool := rb_rvalid (n_rb (e_unit s k)) && orready c s i k.
(** wcond [252,318-321,411-412] *)
Definition owcond (c : cfg) (s : ost) (i : oinp) (k : nat) : bool :=
  let u := e_unit s k in
  match o_ratio (opk c k) with
  | Same => osel s k && orv c s i k
  | Narrow _ => ohere c s k 2 && osel s k && (oack s i && (0 <? e_size s)) && ((0 <? n_count u) || rb_rvalid (n_rb u))
  | Wide lp => ohere c s k 2 && osel s k && (n_count u =? pk lp) && orv c s i k
  end.
(** data and last flag [253,322-324,415-417] *)
Definition owide (w lp : Z) (u : onit) : Z := cat [(w, rb_rdata (n_rb u)); (w * pk lp, Z.shiftr (n_wdata u) w)].
Definition odata (c : cfg) (s : ost) (k : nat) : Z :=
  let u := e_unit s k in let w := o_w (opk c k) in
  match o_ratio (opk c k) with
  | Same => rb_rdata (n_rb u)
  | Narrow _ => (if n_count u =? 0 then rb_rdata (n_rb u) else n_wdata u) mod 2 ^ w
  | Wide lp => owide w lp u
  end.
Definition olast (c : cfg) (s : ost) (k : nat) : bool :=
  match o_ratio (opk c k) with
  | Same => rb_rlast (n_rb (e_unit s k))
  | Narrow _ => e_size s =? 1
  | Wide _ => rb_rlast (n_rb (e_unit s k)) || (e_size s <=? 1)
  end.
(** the size is decremented [254-256,326-328,419-421] *)
Definition odec (c : cfg) (s : ost) (i : oinp) (k : nat) : bool :=
  ohere c s k 2 && match o_ratio (opk c k) with Wide _ => orv c s i k | _ => owcond c s i k end.
(** the transfer ends [258-261,343-347,429-433] *)
Definition ofin (c : cfg) (s : ost) (i : oinp) (k : nat) : bool :=
  let u := e_unit s k in
  ohere c s k 2 && match o_ratio (opk c k) with
  | Same => owcond c s i k && rb_rlast (n_rb u)
  | Narrow lp => owcond c s i k && (n_count u =? pk lp) && n_wlast u
  | Wide lp => (n_count u =? pk lp) && orv c s i k && rb_rlast (n_rb u)
  end.

(** the last operation with a statement wins *)
Definition lastof {X} (c : cfg) (f : nat -> option X) : option X :=
  fold_left (fun o k => match f k with Some x => Some x | None => o end) (seq 0 (nops c)) None.

(** the word registered by the channel in a cycle, if any: an operation's, or the thread's [94-112] *)
Definition oword (c : cfg) (s : ost) (i : oinp) : option (Z * bool) :=
  if (e_thr s =? 2) && oack s i then Some (e_val s)
  else lastof c (fun k => if owcond c s i k && oack s i then Some (odata c s k, olast c s k) else None).

Definition onit_step (c : cfg) (M : nat -> Z -> Z) (s : ost) (i : oinp) (k : nat) : onit :=
  let u := e_unit s k in
  let w := o_w (opk c k) in
  let rb := rb_step (o_raw (opk c k)) (lw c) (M k) (n_rb u)
    (mkRBIn (ohere c s k 1 && osel s k) (e_addr s) (e_stride s) (e_size s) (orready c s i k) false) in   (* [243-249,298-306,395-403] *)
  match o_ratio (opk c k) with
  | Same => mkOnit (n_count u) (n_wdata u) (n_wlast u) rb
  | Narrow lp =>
      if ohere c s k 1 then mkOnit 0 (n_wdata u) (n_wlast u) rb                     (* [308-311] *)
      else if ohere c s k 2 then                                                    (* [330-341] *)
        let wc := owcond c s i k in
        mkOnit (if wc && (n_count u =? pk lp) then 0 else if wc then (n_count u + 1) mod 2 ^ lp else n_count u)
               (if wc && (0 <? n_count u) then Z.shiftr (n_wdata u) w
                else if wc && (n_count u =? 0) then Z.shiftr (rb_rdata (n_rb u)) w else n_wdata u)
               (if wc && (n_count u =? 0) then rb_rlast (n_rb u) else n_wlast u) rb
      else mkOnit (n_count u) (n_wdata u) (n_wlast u) rb
  | Wide lp =>
      if ohere c s k 1 then mkOnit 0 (n_wdata u) (n_wlast u) rb                     (* [405-408] *)
      else if ohere c s k 2 then                                                    (* [422-428] *)
        let rv := orv c s i k in
        mkOnit (if rv && (n_count u =? pk lp) then 0 else if rv then (n_count u + 1) mod 2 ^ lp else n_count u)
               (if rv then owide w lp u else n_wdata u) (n_wlast u) rb
      else mkOnit (n_count u) (n_wdata u) (n_wlast u) rb
  end.

(** jumps of the data FSMs [241,250,258; 291,312,343; 390,409,429]; [goto_init] goes to index 0 *)
Definition ojump (c : cfg) (s : ost) (i : oinp) (k : nat) : option Z :=
  if ohere c s k 0 then (if odispatch c s k then Some (base c k + 1) else None)
  else if ohere c s k 1 then Some (base c k + 2)
  else if ofin c s i k then Some 0 else None.
Definition ofsm_step (c : cfg) (s : ost) (i : oinp) (r : ratio) : Z :=
  match lastof c (fun k => if same_class r (o_ratio (opk c k)) then ojump c s i k else None) with
  | Some x => x
  | None => ofsm s r
  end.

(** the thread in [write] [94-112] *)
Definition othr_step (s : ost) (i : oinp) : Z :=
  if e_thr s =? 0 then (match w_write i with Some _ => 1 | None => 0 end)
  else if e_thr s =? 1 then (if oidle s then 2 else 1)
  else if oack s i then 0 else 2.

(** the size register: loaded in state 0, for wide operations rounded up to whole bus words
    [240,287,375-387]; shifted in state 1 of the narrow FSM, by every narrow operation, whatever
    operation is selected [293-296]; decremented in state 2 *)
Definition osize_step (c : cfg) (s : ost) (i : oinp) : Z :=
  match lastof c (fun k => if odispatch c s k then Some (wr_local (o_ratio (opk c k)) (rq_size c (ohead s))) else None) with
  | Some n => n mod 2 ^ lw c
  | None =>
      match lastof c (fun k => match o_ratio (opk c k) with
                               | Narrow lp => if ohere c s k 1 then Some (Z.shiftl (e_size s) lp) else None
                               | _ => None end) with
      | Some n => n mod 2 ^ lw c
      | None => if any c (odec c s i) then (e_size s - 1) mod 2 ^ lw c else e_size s
      end
  end.

Definition ostep (c : cfg) (M : nat -> Z -> Z) (s : ost) (i : oinp) : ost :=
  let d := any c (odispatch c s) in
  let h := ohead s in
  let keep := e_tvalid s && negb (w_ready i) in
  mkOst (fifo_step false (g_fa c) (e_q s) (oq_in c s i))
        (if any c (ofin c s i) || (e_thr s =? 2) && oack s i then false
         else if d || (e_thr s =? 1) && oidle s then true else e_busy s)
        (if d then rq_op c h else e_sel s)
        (if d then rq_addr c h else e_addr s)
        (if d then rq_stride c h else e_stride s)
        (osize_step c s i)
        (ofsm_step c s i Same) (ofsm_step c s i (Narrow 0)) (ofsm_step c s i (Wide 0))
        (othr_step s i)
        (if e_thr s =? 0 then (match w_write i with Some v => v | None => e_val s end) else e_val s)
        (* the channel: a word, or the old one if it was not taken [types/axi.py:1888-1909] *)
        (match oword c s i with Some _ => true | None => keep end)
        (match oword c s i with Some (v, _) => v | None => e_tdata s end)
        (match oword c s i with Some (_, l) => l | None => if keep then e_tlast s else false end)
        (tab (nops c) (onit_step c M s i)).

(** ** What can be seen in a cycle *)
Inductive ojob := OWrite (v : Z) (l : bool) | ODma (k : nat) (q : Z * Z * Z).
(** jobs issued: a write starts, a request is accepted *)
Definition oissued (c : cfg) (s : ost) (i : oinp) : list ojob :=
  (if (e_thr s =? 1) && oidle s then [OWrite (fst (e_val s)) (snd (e_val s))] else []) ++
  (match w_req i with Some (k, a, d, n) => if oaccepts c s then [ODma k (a, d, n)] else [] | None => [] end).
(** the word taken from the stream, with the last flag *)
Definition osent (s : ost) (i : oinp) : list (Z * bool) :=
  if e_tvalid s && w_ready i then [(e_tdata s, e_tlast s)] else [].
