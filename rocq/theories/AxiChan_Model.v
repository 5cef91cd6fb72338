(** Model of the AXI master channels of [types/axi.py]: the registers a master drives towards
    the bus and the statements that [write_request], [read_request] and [write_data] add to the
    channel's Seq, for both AXI4 and AXI4-Lite.  The statements are produced with the model of
    the Seq builder, so statement order and delayed statements are those of [seq/seq.py].

    Simplifications: the constant side-band outputs (awsize, awburst, awcache, ...,
    [types/axi.py:393-401]) and the optional id registers, which are only ever assigned 0
    (426, 699), are omitted; an [int] argument is an [EInt] expression. *)
From Verif Require Import Base Vlog Seq_Model Skid_Model.
Open Scope Z_scope.

(** The signals of one channel; each channel has its own Seq (391, 500, 665, 862, 932, 1060).
    [vld] is awvalid/wvalid/arvalid, [rdy] is awready/wready/arready. *)
Definition vld : var := User 0.
Definition rdy : var := User 1.
Definition adr : var := User 2.   (* awaddr / araddr *)
Definition len : var := User 3.   (* awlen / arlen *)
Definition dat : var := User 4.   (* wdata *)
Definition lst : var := User 5.   (* wlast *)
Definition stb : var := User 6.   (* wstrb *)

Definition ors (a b : expr) : expr := EBin Lor a b.
Definition sub (v : var) (x : expr) : stmt := SSub (LVar v) x.
Definition bind {A B} (o : option A) (f : A -> option B) : option B :=
  match o with Some x => f x | None => None end.

(** The common shape of the request functions: [If(cond)]; [If(ack)(sets)]; optionally
    [Then().If(c)(stmts)]; [Delay(1)(clr)]; [If(stall)(hold)]. *)
Definition request (cond : option expr) (ack : expr) (sets : list stmt)
    (cancel : option (expr * list stmt)) (clr : list stmt) (stall : expr) (hold : list stmt)
    (b : seqb) : option seqb :=
  let b0 := match cond with Some c => op_if b [c] | None => b end in
  bind (op_call (op_if b0 [ack]) sets) (fun b1 =>
  bind (match cancel with
        | Some (c, ss) => op_call (op_if (op_then b1) [c]) ss
        | None => Some b1
        end) (fun b2 =>
  bind (op_call (op_delay b2 1) clr) (fun b3 =>
  op_call (op_if b3 [stall]) hold))).

Definition free : expr := ors (EVar rdy) (enot (EVar vld)).
Definition stalled : expr := ands (EVar vld) (enot (EVar rdy)).

(** [types/axi.py:415-445] AxiMasterWriteAddress.write_request *)
Definition aw_ack (acceptable : expr) : expr := ands acceptable free.
Definition aw_request (acceptable : expr) (cond : option expr) (addr length : expr) : seqb -> option seqb :=
  request cond (aw_ack acceptable)
    [sub adr addr; sub len (EBin Minus length (EInt 1)); sub vld (EInt 1)]
    (Some (EBin Eq length (EInt 0), [sub vld (EInt 0)]))
    [sub vld (EInt 0)] stalled [sub vld (EVar vld)].

(** [types/axi.py:689-715] AxiMasterReadAddress.read_request *)
Definition ar_request (cond : option expr) (addr length : expr) : seqb -> option seqb :=
  request cond free
    [sub adr addr; sub len (EBin Minus length (EInt 1)); sub vld (EInt 1)]
    None
    [sub vld (EInt 0)] stalled [sub vld (EVar vld)].

(** [types/axi.py:564-593] AxiMasterWriteData.write_data; [strb] is the number of byte lanes *)
Definition w_data (strb : Z) (cond : option expr) (data last : expr) : seqb -> option seqb :=
  request cond free
    [sub dat data; sub vld (EInt 1); sub lst last; sub stb (EInt (2 ^ strb - 1))]
    None
    [sub vld (EInt 0); sub lst (EInt 0)] stalled [sub vld (EVar vld); sub lst (EVar lst)].

(** [types/axi.py:876-901] AxiLiteMasterWriteAddress.write_request *)
Definition lite_aw_request (acceptable : expr) (cond : option expr) (addr : expr) : seqb -> option seqb :=
  request cond (aw_ack acceptable)
    [sub adr addr; sub vld (EInt 1)] None
    [sub vld (EInt 0)] stalled [sub vld (EVar vld)].

(** [types/axi.py:1074-1098] AxiLiteMasterReadAddress.read_request *)
Definition lite_ar_request (cond : option expr) (addr : expr) : seqb -> option seqb :=
  request cond free
    [sub adr addr; sub vld (EInt 1)] None
    [sub vld (EInt 0)] stalled [sub vld (EVar vld)].

(** [types/axi.py:985-1011] AxiLiteMasterWriteData.write_data *)
Definition lite_w_data (strb : Z) (cond : option expr) (data : expr) : seqb -> option seqb :=
  request cond free
    [sub dat data; sub vld (EInt 1); sub stb (EInt (2 ^ strb - 1))] None
    [sub vld (EInt 0)] stalled [sub vld (EVar vld)].

(** A channel whose request function has been called several times (several threads, DMA and
    single-word accesses, ... use the same channel): the calls in program order. *)
Fixpoint calls (fs : list (seqb -> option seqb)) (b : seqb) : option seqb :=
  match fs with [] => Some b | f :: r => bind (f b) (calls r) end.
(** The clocked statements of the channel [seq/seq.py:601-609]. *)
Definition chan_code (fs : list (seqb -> option seqb)) : list stmt :=
  match calls fs seq_new with Some b => make_code b | None => [] end.

(** Registers wrap at their declared width; valid, last and the delay registers have one bit. *)
Definition fitw (w : var -> Z) (v : var) (x : Z) : Z := x mod 2 ^ w v.

(** One clock cycle: [own] are the channel's registers, everything else (ready, the request
    conditions, addresses and data of the callers) is an input that may change every cycle. *)
Definition own (v : var) : bool :=
  match v with
  | User n => negb (Nat.eqb n 1) && Nat.ltb n 7
  | CondR _ _ => true
  | _ => false
  end.
Definition drive (s i : env) : env := fun v => if own v then s v else i v.
Definition chan_next (w : var -> Z) (code : list stmt) (s i : env) : env :=
  tick (fitw w) code (drive s i).
(** After reset every channel register is 0 ([initval=0], [types/axi.py:103-375]; delay
    registers [seq/seq.py:680-689]). *)
Definition chan_reset : env := fun _ => 0.
(** The values of all signals in each cycle of a run. *)
Definition chan_trace (w : var -> Z) (code : list stmt) (s : env) (ins : list env) : list env :=
  outs (chan_next w code) drive s ins.
Definition chan_final (w : var -> Z) (code : list stmt) (s : env) (ins : list env) : env :=
  final (chan_next w code) s ins.

(** The write data channel with its skid buffers [types/axi.py:513-552]: the channel's own
    ready is the ready of the first buffer, the last buffer drives the AXI port.  The AXI port's
    ready comes with the inputs, as the value of [rdy]. *)
Definition port_ready (i : env) : bool := truth (i rdy).
Definition sb_drive (st : env * list (sb (list Z))) (i : env) : env :=
  let e := drive (fst st) i in
  vset e rdy (b2z (chain_ready (snd st) (port_ready i))).
Definition sb_in_of (P : list var) (st : env * list (sb (list Z))) (i : env) : sb_in (list Z) :=
  let e := sb_drive st i in mkSbIn (truth (e vld)) (map e P) (port_ready i).
Definition wsb_next (w : var -> Z) (code : list stmt) (P : list var)
    (st : env * list (sb (list Z))) (i : env) : env * list (sb (list Z)) :=
  (tick (fitw w) code (sb_drive st i), chain_tick (snd st) (sb_in_of P st i)).
Definition wsb_out (P : list var) (st : env * list (sb (list Z))) (i : env)
  : env * (sb_in (list Z) * sb_out (list Z)) :=
  (sb_drive st i, (sb_in_of P st i, chain_obs (snd st) (sb_in_of P st i))).
