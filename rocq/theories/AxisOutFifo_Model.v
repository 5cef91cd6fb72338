(** The AXI stream output that drains FIFOs: [AXIStreamOutFifo] of the thread library, with DMA
    transfers out of any number of FIFOs and direct writes.
    Modelled code: [thread/axistreamout.py:505-941], with the channel of [types/axi.py:1878-1911] and the
    FIFO of [thread/fifo.py] (Fifo_Model.v), both for the requests and for the data.

    Registers are modelled one by one.  Simplified: the ratio of the widths is a power of two; nothing
    but this engine reads the FIFOs; [dma_write] is called once per FIFO; one thread at a time is inside
    [write] (the caller's mutex), and the value it writes does not change while it waits.  Where several
    statements assign a register in a cycle, the one of the last operation wins; for [write_data_busy]
    the model lets a clearing statement win over a setting one.
    The flag [sy] is the [sync] attribute of the data FIFOs, one for all of them.  For a FIFO wider than
    the stream without [sync] the generated [cur_rvalid] depends on itself [753-771]; the model uses the
    registered flag there, and no theorem speaks about it. *)
From Verif Require Import Base Pack Fifo_Model AxiDma_Model AxiData_Model AxiPorts_Model AxisIn_Model AxisInFifo_Model AxisOut_Model.
Open Scope Z_scope.

(** Configurations and operations are those of AxisIn_Model.v, with [o_raw] the address width of the
    FIFO; [pack_write_req], [unpack_write_req] [924-941] and [_get_write_op_id] [910-922] are those of
    the stream input with FIFOs (AxisInFifo_Model.v: [pack_breq], [bq_op], [bq_size]). *)

(** registers of an operation: [count], [wdata], [wlast], [rlast] [664,743-745,782-785,854-856,884-885],
    [Prev(deq_cond)] of [deq_rtl] [thread/fifo.py:140-161], [repeat_rvalid] [683,767,876], and its FIFO *)
Record vunit := mkVunit { v_count : Z; v_wdata : Z; v_wlast : bool; v_rlast : bool; v_rv : bool; v_rep : bool; v_f : fifo }.
Record vst := mkVst {
  v_q : fifo;                                         (* write_req_fifo [532-536] *)
  v_busy : bool; v_sel : Z; v_size : Z;               (* write_data_busy, write_op_sel_buf, write_size_buf [549-557] *)
  v_same : Z; v_narrow : Z; v_wide : Z;               (* the data FSMs *)
  v_thr : Z; v_val : Z * bool;                        (* a thread in [write]: 0 outside, 1, 2 = states 0, 1 *)
  v_tvalid : bool; v_tdata : Z; v_tlast : bool;       (* the channel *)
  v_unit : nat -> vunit
}.
Definition vinit (m : nat -> Z -> Z) (fm : Z -> Z) : vst :=
  mkVst (fifo_init fm) false 0 0 0 0 0 0 (0, false) false 0 false (fun k => mkVunit 0 0 false false false false (fifo_init (m k))).

Record vinp := mkVinp {
  d_req : option (nat * Z);          (* a thread at its DMA request: operation, size *)
  d_write : option (Z * bool);       (* a thread arrives at [write]: value and last flag *)
  d_ready : bool;                    (* tready *)
  d_enq : nat -> option Z            (* the producer of each FIFO offers a word *)
}.

Definition vfsm (s : vst) (r : ratio) : Z := match r with Same => v_same s | Narrow _ => v_narrow s | Wide _ => v_wide s end.
(** the data FSMs start at index 0; for the second and every later FIFO of the stream's width the
    states are laid out from index 1 on: [set_index(1)] [642-645,720-723,827-830]; AxisOut_Model.v: [base] *)
Definition vhere (c : cfg) (s : vst) (k : nat) (x : Z) : bool := vfsm s (o_ratio (opk c k)) =? base c k + x.
Definition vsel (s : vst) (k : nat) : bool := v_sel s =? opid k.
(** [write_idle] [558-563] *)
Definition vidle (s : vst) : bool := p_empty (v_q s) && negb (v_busy s).
Definition vhead (s : vst) : Z := p_rdata false (v_q s).
(** data state 0 [653-662,731-741,838-852] *)
Definition vdispatch (c : cfg) (s : vst) (k : nat) : bool :=
  vhere c s k 0 && (negb (v_busy s) && negb (p_empty (v_q s)) && (bq_op c (vhead s) =? opid k)).

(** the request of a thread is accepted [592,607,614-619] *)
Definition vaccepts (c : cfg) (s : vst) : bool := negb (p_almost_full (g_fa c) (v_q s)).
Definition vq_in (c : cfg) (s : vst) (i : vinp) : fifo_in :=
  mkFifoIn (match d_req i with Some _ => enq_rtl (g_fa c) (v_q s) (vaccepts c s) | None => false end)
           (match d_req i with Some (k, n) => pack_breq c (opid k) n | None => 0 end)
           (deq_rtl (v_q s) (any c (vdispatch c s))).

(** the channel takes a word [types/axi.py:1886] *)
Definition vack (s : vst) (i : vinp) : bool := d_ready i || negb (v_tvalid s).
(** rready and wready [674,681; 756,765; 865,873-874] *)
Definition vready (c : cfg) (s : vst) (i : vinp) (k : nat) : bool :=
  match o_ratio (opk c k) with
  | Wide _ => vack s i || (0 <? v_count (v_unit s k))
  | _ => vack s i
  end.
(** a word is taken from the FIFO [675-679,757-763,866-871] *)
Definition vdeq (c : cfg) (s : vst) (i : vinp) (k : nat) : bool :=
  let u := v_unit s k in
  vhere c s k 1 && negb (p_empty (v_f u)) && vsel s k && (0 <? v_size s) && vready c s i k &&
  match o_ratio (opk c k) with
  | Narrow lp => negb (v_rv u || v_rep u) && ((v_count u =? 0) || (v_count u =? pk lp))
  | _ => true
  end.
Definition vrvalid (c : cfg) (sy : bool) (s : vst) (i : vinp) (k : nat) : bool :=
  match o_ratio (opk c k) with
  | Narrow _ => v_rv (v_unit s k)
  | _ => if sy then v_rv (v_unit s k) else vdeq c s i k
  end.
(** cur_rvalid [687,771,880] *)
Definition vcur (c : cfg) (sy : bool) (s : vst) (i : vinp) (k : nat) : bool := vrvalid c sy s i k || v_rep (v_unit s k).
Definition vrdata (sy : bool) (s : vst) (k : nat) : Z := p_rdata sy (v_f (v_unit s k)).
(** wcond [696,780-781,882-883] *)
Definition vwcond (c : cfg) (sy : bool) (s : vst) (i : vinp) (k : nat) : bool :=
  let u := v_unit s k in
  match o_ratio (opk c k) with
  | Same => vsel s k && vcur c sy s i k && vack s i
  | Narrow _ => vhere c s k 1 && vsel s k && vack s i && ((0 <? v_count u) || vcur c sy s i k)
  | Wide lp => vhere c s k 1 && vsel s k && (v_count u =? pk lp) && vcur c sy s i k && vready c s i k
  end.
(** data and last flag [697,786-788,886-888] *)
Definition vwide (sy : bool) (w lp : Z) (u : vunit) : Z := cat [(w, p_rdata sy (v_f u)); (w * pk lp, Z.shiftr (v_wdata u) w)].
Definition vdata (c : cfg) (sy : bool) (s : vst) (k : nat) : Z :=
  let u := v_unit s k in let w := o_w (opk c k) in
  match o_ratio (opk c k) with
  | Same => vrdata sy s k
  | Narrow _ => (if v_count u =? 0 then vrdata sy s k else v_wdata u) mod 2 ^ w
  | Wide lp => vwide sy w lp u
  end.
Definition vlast (c : cfg) (s : vst) (k : nat) : bool :=
  match o_ratio (opk c k) with
  | Narrow lp => (v_size s =? 0) && (v_count (v_unit s k) =? pk lp)
  | _ => v_rlast (v_unit s k)
  end.
(** the transfer ends [699-702,803-807,904-908] *)
Definition vfin (c : cfg) (sy : bool) (s : vst) (i : vinp) (k : nat) : bool :=
  let u := v_unit s k in
  vhere c s k 1 && match o_ratio (opk c k) with
  | Same => vwcond c sy s i k && v_rlast u
  | Narrow lp => vwcond c sy s i k && (v_count u =? pk lp) && v_wlast u
  | Wide lp => (v_count u =? pk lp) && vcur c sy s i k && vready c s i k && v_rlast u
  end.

(** the word registered by the channel in a cycle, if any: an operation's, or the thread's [94-112] *)
Definition vword (c : cfg) (sy : bool) (s : vst) (i : vinp) : option (Z * bool) :=
  if (v_thr s =? 2) && vack s i then Some (v_val s)
  else lastof c (fun k => if vwcond c sy s i k && vack s i then Some (vdata c sy s k, vlast c s k) else None).

(** the FIFO of an operation *)
Definition vf_in (c : cfg) (s : vst) (i : vinp) (k : nat) : fifo_in :=
  mkFifoIn (match d_enq i k with Some _ => true | None => false end) (match d_enq i k with Some x => x | None => 0 end)
           (deq_rtl (v_f (v_unit s k)) (vdeq c s i k)).
Definition vunit_step (c : cfg) (sy : bool) (s : vst) (i : vinp) (k : nat) : vunit :=
  let u := v_unit s k in
  let w := o_w (opk c k) in
  let f := fifo_step sy (o_raw (opk c k)) (v_f u) (vf_in c s i k) in
  let rep := vcur c sy s i k && negb (vready c s i k) in                              (* [683-686,767-770,876-879] *)
  let rv := vdeq c s i k in
  if vhere c s k 0 then                                                               (* [665-667,746-749,857-860] *)
    mkVunit (match o_ratio (opk c k) with Same => v_count u | _ => 0 end) (v_wdata u) (v_wlast u) false rv rep f
  else if vhere c s k 1 then
    let rl := if vdeq c s i k then v_size s <=? 1 else v_rlast u in                   (* [689-691,773-775,890-892] *)
    match o_ratio (opk c k) with
    | Same => mkVunit (v_count u) (v_wdata u) (v_wlast u) rl rv rep f
    | Narrow lp =>                                                                    (* [790-801] *)
        let wc := vwcond c sy s i k in
        mkVunit (if wc && (v_count u =? pk lp) then 0 else if wc then (v_count u + 1) mod 2 ^ lp else v_count u)
                (if wc && (0 <? v_count u) then Z.shiftr (v_wdata u) w
                 else if wc && (v_count u =? 0) then Z.shiftr (vrdata sy s k) w else v_wdata u)
                (if wc && (v_count u =? 0) then v_rlast u else v_wlast u) rl rv rep f
    | Wide lp =>                                                                      (* [897-903] *)
        let go := vcur c sy s i k && vready c s i k in
        mkVunit (if go && (v_count u =? pk lp) then 0 else if go then (v_count u + 1) mod 2 ^ lp else v_count u)
                (if go then vwide sy w lp u else v_wdata u) (v_wlast u) rl rv rep f
    end
  else mkVunit (v_count u) (v_wdata u) (v_wlast u) (v_rlast u) rv rep f.

(** jumps of the data FSMs [668,699; 750,803; 861,904]; [goto_init] goes to index 0 *)
Definition vjump (c : cfg) (sy : bool) (s : vst) (i : vinp) (k : nat) : option Z :=
  if vhere c s k 0 then (if vdispatch c s k then Some (base c k + 1) else None)
  else if vfin c sy s i k then Some 0 else None.
Definition vfsm_step (c : cfg) (sy : bool) (s : vst) (i : vinp) (r : ratio) : Z :=
  match lastof c (fun k => if same_class r (o_ratio (opk c k)) then vjump c sy s i k else None) with
  | Some x => x
  | None => vfsm s r
  end.

(** the thread in [write] [94-112] (inherited) *)
Definition vthr_step (s : vst) (i : vinp) : Z :=
  if v_thr s =? 0 then (match d_write i with Some _ => 1 | None => 0 end)
  else if v_thr s =? 1 then (if vidle s then 2 else 1)
  else if vack s i then 0 else 2.

(** the size register: loaded in state 0, for a FIFO narrower than the stream rounded up to whole
    stream words [659,738,841-850]; decremented with every word taken [692-694,776-778,894-896] *)
Definition vsize_step (c : cfg) (s : vst) (i : vinp) : Z :=
  match lastof c (fun k => if vdispatch c s k then Some (wr_local (o_ratio (opk c k)) (bq_size c (vhead s))) else None) with
  | Some n => n mod 2 ^ lw c
  | None => if any c (vdeq c s i) then (v_size s - 1) mod 2 ^ lw c else v_size s
  end.

Definition vstep (c : cfg) (sy : bool) (s : vst) (i : vinp) : vst :=
  let d := any c (vdispatch c s) in
  let keep := v_tvalid s && negb (d_ready i) in
  mkVst (fifo_step false (g_fa c) (v_q s) (vq_in c s i))
        (if any c (vfin c sy s i) || (v_thr s =? 2) && vack s i then false
         else if d || (v_thr s =? 1) && vidle s then true else v_busy s)
        (if d then bq_op c (vhead s) else v_sel s)
        (vsize_step c s i)
        (vfsm_step c sy s i Same) (vfsm_step c sy s i (Narrow 0)) (vfsm_step c sy s i (Wide 0))
        (vthr_step s i)
        (if v_thr s =? 0 then (match d_write i with Some v => v | None => v_val s end) else v_val s)
        (* the channel: a word, or the old one if it was not taken [types/axi.py:1888-1909] *)
        (match vword c sy s i with Some _ => true | None => keep end)
        (match vword c sy s i with Some (v, _) => v | None => v_tdata s end)
        (match vword c sy s i with Some (_, l) => l | None => if keep then v_tlast s else false end)
        (tab (nops c) (vunit_step c sy s i)).

(** ** What can be seen in a cycle *)
Inductive vjob := VWrite (v : Z) (l : bool) | VDma (k : nat) (n : Z).
(** jobs issued: a write starts, a request is accepted *)
Definition vissued (c : cfg) (s : vst) (i : vinp) : list vjob :=
  (if (v_thr s =? 1) && vidle s then [VWrite (fst (v_val s)) (snd (v_val s))] else []) ++
  (match d_req i with Some (k, n) => if vaccepts c s then [VDma k n] else [] | None => [] end).
(** the word taken from the stream, with the last flag *)
Definition vsent (s : vst) (i : vinp) : list (Z * bool) :=
  if v_tvalid s && d_ready i then [(v_tdata s, v_tlast s)] else [].
(** words that enter the FIFO of operation [k], words that leave it *)
Definition vpush (c : cfg) (k : nat) (s : vst) (i : vinp) : list Z :=
  match d_enq i k with Some x => if p_full (o_raw (opk c k)) (v_f (v_unit s k)) then [] else [x] | None => [] end.
Definition vpop (c : cfg) (k : nat) (s : vst) (i : vinp) : list Z :=
  if vdeq c s i k then [p_rdata false (v_f (v_unit s k))] else [].
