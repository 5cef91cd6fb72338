(** Model of the FIFO generator [types/fifo.py] and of the thread-level FIFO
    [thread/fifo.py].  Definitions only. *)
From Verif Require Import Base.
Open Scope Z_scope.

(** [types/fifo.py:106-113,122-125] registers [mem], [head], [tail], [rdata_reg].
    Simplification: words are unbounded [Z]; every data register and data port of the
    definition has the same width [datawidth], so no truncation ever happens on the path.
    [mem] has no initval in the source, hence an arbitrary initial memory. *)
Record fifo := mkFifo { f_mem : Z -> Z; f_head : Z; f_tail : Z; f_rdata : Z }.

(** [types/fifo.py:103-104] the input ports enq, wdata, deq. *)
Record fifo_in := mkFifoIn { i_enq : bool; i_wdata : Z; i_deq : bool }.

(** [types/fifo.py:107-108,123] state after reset (initval=0). *)
Definition fifo_init (m0 : Z -> Z) : fifo := mkFifo m0 0 0 0.

(** [types/fifo.py:115] *)
Definition f_mask (aw : Z) : Z := 2 ^ aw - 1.

(** [types/fifo.py:117] is_empty *)
Definition f_is_empty (s : fifo) : bool := f_head s =? f_tail s.
(** [types/fifo.py:118] is_almost_empty *)
Definition f_is_almost_empty (aw : Z) (s : fifo) : bool :=
  f_head s =? Z.land (f_tail s + 1) (f_mask aw).
(** [types/fifo.py:119] is_full *)
Definition f_is_full (aw : Z) (s : fifo) : bool :=
  Z.land (f_head s + 1) (f_mask aw) =? f_tail s.
(** [types/fifo.py:120] is_almost_full *)
Definition f_is_almost_full (aw : Z) (s : fifo) : bool :=
  Z.land (f_head s + 2) (f_mask aw) =? f_tail s.

(** [types/fifo.py:127-130] output flags. *)
Definition p_full (aw : Z) (s : fifo) : bool := f_is_full aw s.
Definition p_almost_full (aw : Z) (s : fifo) : bool :=
  f_is_almost_full aw s || f_is_full aw s.
Definition p_empty (s : fifo) : bool := f_is_empty s.
Definition p_almost_empty (aw : Z) (s : fifo) : bool :=
  f_is_almost_empty aw s || f_is_empty s.

(** [types/fifo.py:148,150] read data port: [rdata_reg] (sync) or [mem[tail]] (async). *)
Definition p_rdata (sync : bool) (s : fifo) : Z :=
  if sync then f_rdata s else f_mem s (f_tail s).

(** [types/fifo.py:134-137] the enqueue statement: [mem[head]] and [head.inc()],
    [head] being an [aw]-bit register. *)
Definition fifo_enq_stmt (aw : Z) (i : fifo_in) (old nxt : fifo) : fifo :=
  if i_enq i && negb (f_is_full aw old) then
    mkFifo (upd (f_mem nxt) (f_head old) (i_wdata i))
           ((f_head old + 1) mod 2 ^ aw) (f_tail nxt) (f_rdata nxt)
  else nxt.

(** [types/fifo.py:139-147] the dequeue statement; [rdata_reg] is written only when [sync]. *)
Definition fifo_deq_stmt (sync : bool) (aw : Z) (i : fifo_in) (old nxt : fifo) : fifo :=
  if i_deq i && negb (f_is_empty old) then
    mkFifo (f_mem nxt) (f_head nxt) ((f_tail old + 1) mod 2 ^ aw)
           (if sync then f_mem old (f_tail old) else f_rdata nxt)
  else nxt.

(** [types/fifo.py:132-152] one clock edge: both statements read the old state. *)
Definition fifo_step (sync : bool) (aw : Z) (s : fifo) (i : fifo_in) : fifo :=
  fifo_deq_stmt sync aw i s (fifo_enq_stmt aw i s s).

(** All output ports in one cycle. *)
Record fifo_ports := mkFifoPorts {
  o_empty : bool; o_almost_empty : bool; o_full : bool; o_almost_full : bool; o_rdata : Z }.

Definition fifo_out (sync : bool) (aw : Z) (s : fifo) (_ : fifo_in) : fifo_ports :=
  mkFifoPorts (p_empty s) (p_almost_empty aw s) (p_full aw s) (p_almost_full aw s)
              (p_rdata sync s).

(** ** Thread FIFO: the definition above plus the entry counter *)

(** [thread/fifo.py:83-84] [_count], [addrwidth+1] bits wide, initval 0. *)
Record tfifo := mkTFifo { t_fifo : fifo; t_count : Z }.

Definition tfifo_init (m0 : Z -> Z) : tfifo := mkTFifo (fifo_init m0) 0.

(** [thread/fifo.py:80-81] *)
Definition t_max_size (aw : Z) : Z := 2 ^ aw - 1.

(** [thread/fifo.py:86-94] If (enq and deq) / Elif enq / Elif deq. *)
Definition count_step (aw : Z) (s : fifo) (c : Z) (i : fifo_in) : Z :=
  let e := i_enq i && negb (p_full aw s) in
  let d := i_deq i && negb (p_empty s) in
  if e && d then c
  else if e then (c + 1) mod 2 ^ (aw + 1)
  else if d then (c - 1) mod 2 ^ (aw + 1)
  else c.

Definition tfifo_step (sync : bool) (aw : Z) (s : tfifo) (i : fifo_in) : tfifo :=
  mkTFifo (fifo_step sync aw (t_fifo s) i) (count_step aw (t_fifo s) (t_count s) i).

(** [thread/fifo.py:196-199] *)
Definition has_space (aw : Z) (s : tfifo) (num : Z) : bool :=
  if num <? 1 then true else t_count s + num <? t_max_size aw.

(** [thread/fifo.py:120-138] [enq_rtl]: the port is driven with [cond && ready]. *)
Definition enq_ready (aw : Z) (s : fifo) : bool := negb (p_almost_full aw s).
Definition enq_rtl (aw : Z) (s : fifo) (cond : bool) : bool := cond && enq_ready aw s.
(** [thread/fifo.py:140-160] [deq_rtl]: the port is driven with [cond && ready]. *)
Definition deq_ready (s : fifo) : bool := negb (p_empty s).
Definition deq_rtl (s : fifo) (cond : bool) : bool := cond && deq_ready s.

(** ** One producer thread calling [enq] and one consumer thread calling [deq].
    The producer holds the list of words it will enqueue; in each cycle an arbitrary
    schedule bit says whether an idle thread arrives at its next call.
    [thread/fifo.py:201-207] [enq]: one state, left when ready.
    [thread/fifo.py:209-224] [deq] (sync): request state left when ready; capture state left
    when [valid = Prev(deq_cond)] holds, storing rdata.  *)
Inductive cons_state := CIdle | CReq | CCapture.

Record sys := mkSys {
  y_fifo : fifo;
  y_todo : list Z;          (* words not yet enqueued, first = the one being enqueued *)
  y_in_enq : bool;          (* producer is in the enq state *)
  y_cons : cons_state;
  y_valid : bool;           (* the register behind Prev(deq_cond,1) *)
  y_got : list Z            (* results returned by deq so far *)
}.

Record sched := mkSched { g_prod : bool; g_cons : bool }.

Definition sys_in (aw : Z) (y : sys) : fifo_in :=
  mkFifoIn (enq_rtl aw (y_fifo y) (y_in_enq y)) (hd 0 (y_todo y))
           (deq_rtl (y_fifo y) (match y_cons y with CReq => true | _ => false end)).

Definition sys_step (aw : Z) (y : sys) (g : sched) : sys :=
  let i := sys_in aw y in
  let f' := fifo_step true aw (y_fifo y) i in
  let '(todo', in_enq') :=
    if y_in_enq y then
      if enq_ready aw (y_fifo y) then (tl (y_todo y), false) else (y_todo y, true)
    else (y_todo y, g_prod g && negb (match y_todo y with [] => true | _ => false end)) in
  let '(cons', got') :=
    match y_cons y with
    | CIdle => (if g_cons g then CReq else CIdle, y_got y)
    | CReq => (if deq_ready (y_fifo y) then CCapture else CReq, y_got y)
    | CCapture => if y_valid y then (CIdle, y_got y ++ [p_rdata true (y_fifo y)])
                  else (CCapture, y_got y)
    end in
  mkSys f' todo' in_enq' cons' (i_deq i) got'.

Definition sys_init (m0 : Z -> Z) (words : list Z) : sys :=
  mkSys (fifo_init m0) words false CIdle false [].
