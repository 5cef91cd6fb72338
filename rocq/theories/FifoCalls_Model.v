(** The calls on a thread FIFO: [enq], [deq], [try_enq] and [try_deq] made by any number of threads.
    Modelled code: [thread/fifo.py:120-160,201-257], [types/util.py:67-89] (muxes in front of the ports).

    The FIFO itself is [fifo_step] of Fifo_Model.  A thread that is not inside a call starts any call
    in any cycle (or none): the input of the cycle decides, so every program is covered, including those
    that choose the next call from the results of the earlier ones.  Simplifications: words are
    unbounded as in Fifo_Model; the [Prev] registers of the call sites of one thread are one register
    per thread, since a thread is inside one call at a time and reads the register of that call only. *)
From Verif Require Import Base Fifo_Model.
Open Scope Z_scope.

Inductive op := Enq (w : Z) | Deq | TryEnq (w : Z) | TryDeq.
Inductive res :=
  | RDone                         (* enq returned *)
  | RWord (x : Z)                 (* deq: rdata_reg *)
  | RAck (b : bool)               (* try_enq: ack_reg *)
  | RTry (x : Z) (b : bool).      (* try_deq: rdata_reg, rvalid_reg *)

(** where a thread is: outside, in the state that drives the port, in the state behind it *)
Inductive phase := Out | Req (o : op) | Cap (o : op).

Record thr := mkThr {
  h_ph : phase;
  h_ack : bool;                   (* Prev(ready, 1) of [enq_rtl] [thread/fifo.py:136] *)
  h_valid : bool;                 (* Prev(deq_cond, 1) of [deq_rtl] [thread/fifo.py:155-156] *)
  h_log : list (op * res)         (* calls that returned, with their results, oldest first *)
}.
Record fsys := mkFsys { z_fifo : fifo; z_thr : nat -> thr }.
Definition fsys_init (m0 : Z -> Z) : fsys :=
  mkFsys (fifo_init m0) (fun _ => mkThr Out false false []).

(** the condition [fsm.state == fsm.current] of the call that drives the port, and its word
    [thread/fifo.py:202,210,227,241] *)
Definition enq_of (h : thr) : option Z :=
  match h_ph h with Req (Enq w) | Req (TryEnq w) => Some w | _ => None end.
Definition deq_of (h : thr) : bool :=
  match h_ph h with Req Deq | Req TryDeq => true | _ => false end.

(** the muxes in front of [wdata] and [enq]: the site added last is the outermost
    [thread/fifo.py:133-134; types/util.py:67-89]; the unknown default of wdata is 0 *)
Definition mux_wdata (hs : list thr) : Z :=
  fold_left (fun prev h => match enq_of h with Some w => w | None => prev end) hs 0.
Definition mux_enq (aw : Z) (f : fifo) (hs : list thr) : bool :=
  fold_left (fun prev h => match enq_of h with Some _ => true && enq_ready aw f | None => prev end) hs false.
(** the mux in front of [deq] [thread/fifo.py:151] *)
Definition mux_deq (f : fifo) (hs : list thr) : bool :=
  fold_left (fun prev h => if deq_of h && deq_ready f then true else prev) hs false.

(** one clock cycle of a thread; [go] is the call it starts when it is outside *)
Definition thr_step (sync : bool) (aw : Z) (f : fifo) (h : thr) (go : option op) : thr :=
  let rdy := enq_ready aw f in
  let dq := deq_of h && deq_ready f in
  let data := p_rdata sync f in
  let st p r := mkThr p rdy dq r in
  match h_ph h with
  | Out => st (match go with Some o => Req o | None => Out end) (h_log h)
  | Req (Enq w) =>                                                        (* [205] *)
      if rdy then st Out (h_log h ++ [(Enq w, RDone)]) else st (h_ph h) (h_log h)
  | Req Deq =>
      if sync then                                                        (* [216-217] *)
        if deq_ready f then st (Cap Deq) (h_log h) else st (h_ph h) (h_log h)
      else                                                                (* [219-222] *)
        if dq then st Out (h_log h ++ [(Deq, RWord data)]) else st (h_ph h) (h_log h)
  | Req (TryEnq w) => st (Cap (TryEnq w)) (h_log h)                       (* [230] *)
  | Req TryDeq =>
      if sync then st (Cap TryDeq) (h_log h)                              (* [245-246] *)
      else st Out (h_log h ++ [(TryDeq, RTry data dq)])                   (* [251-255] *)
  | Cap Deq =>                                                            (* [219-222] *)
      if h_valid h then st Out (h_log h ++ [(Deq, RWord data)]) else st (h_ph h) (h_log h)
  | Cap (TryEnq w) => st Out (h_log h ++ [(TryEnq w, RAck (h_ack h))])    (* [232-236] *)
  | Cap TryDeq => st Out (h_log h ++ [(TryDeq, RTry data (h_valid h))])   (* [251-255] *)
  | Cap (Enq _) => st (h_ph h) (h_log h)                                  (* no such state *)
  end.

Section Sys.
  Variables (sync : bool) (aw : Z) (n : nat).           (* sync, addrwidth, number of threads *)

  Definition threads (s : fsys) : list thr := map (z_thr s) (seq 0 n).
  Definition fsys_in (s : fsys) : fifo_in :=
    mkFifoIn (mux_enq aw (z_fifo s) (threads s)) (mux_wdata (threads s)) (mux_deq (z_fifo s) (threads s)).
  (** one clock cycle of the FIFO and all threads *)
  Definition fsys_step (s : fsys) (go : nat -> option op) : fsys :=
    mkFsys (fifo_step sync aw (z_fifo s) (fsys_in s))
           (fun t => thr_step sync aw (z_fifo s) (z_thr s t) (go t)).
End Sys.
