(** One run of a thread stream, from the call of [run] to the end of [join].
    Modelled code: [thread/stream.py]: [run], [_run], [_synthesize_run], [join], [source_join],
    [source_join_and_run] [1627-1838], the delays [1860-1926], the plain source [2037-2092] and sink [2749-2794]
    (their FSMs are [lsrc] and [lsnk] of [Pat_Model]), the RAM ports of a source and a sink [1928-1960, 2660-2675],
    [Variable.write] [stream/stypes.py:2795-2822].

    Simplified: all sources and sinks are plain RAM ones; the settings do not change during a run; no
    terminate condition, no substreams, [infinite] is off, [ram_delay] is 0; the words of the source RAMs do not
    change during a run.  The pipeline between the sources and the sinks is any function of the elements it took
    ([Stream_Model] gives the one of a data-flow graph).  [oready] is an input: substreams, FIFOs and so on may
    stall the stream at any time. *)
From Verif Require Import Base Pat_Model Stream_Model.
Open Scope Z_scope.

(** ** Settings *)
(** [_set_source] [722-727] and the words of the RAM [1944-1950] *)
Record scfg := mkSC { sc_off : Z; sc_size : Z; sc_stride : Z; sc_mem : Z -> Z }.
(** [_set_sink] [1053-1060], the outputs of the pipeline that the sink reads [2773-2779] *)
Record kcfg := mkKC { kc_off : Z; kc_size : Z; kc_stride : Z; kc_out : nat; kc_when : option nat }.
(** the pipeline: the value of an output from the elements taken so far and the element at the inputs *)
Definition pipe := list elem -> elem -> nat -> Z.
Record cfg := mkCfg { c_aw : Z; c_depth : nat; c_pipe : pipe; c_src : list scfg; c_snk : list kcfg }.

(** ** Registers *)
(** a source: its FSM, the output register of the RAM port [thread/ram.py:132-150] and the register of
    the stream variable [stypes.py:2808-2811] *)
Record src := mkSrc { r_fsm : lsrc; r_rdata : Z; r_wdata : Z }.
(** a sink: its FSM and the writes made to its RAM, in order *)
Record snk := mkSnk { w_fsm : lsnk; w_log : list (Z * Z) }.
(** the stream: FSM state, [source_start], [source_busy], [ivalid], the variable [reduce_reset];
    the delays of [source_start] (to [ivalid] and [reduce_reset]) and of [source_end_cond];
    the delays to [sink_start], [sink_stop], [sink_busy]; [Prev(sink_busy, 1)]; [busy_reg];
    sources, sinks; the elements the pipeline took *)
Record strm := mkStrm { s_st : nat; s_start : bool; s_busy : bool; s_ivalid : bool; s_rr : bool;
  s_d : list bool; s_e : bool; s_ks : list bool; s_kp : list bool; s_kb : list bool; s_kbp : bool; s_breg : bool;
  s_src : list src; s_snk : list snk; s_hist : list elem }.

(** a chain of registers [seq/seq.py:139-190]: the new value goes in, the oldest falls out *)
Definition shift (x : bool) (l : list bool) : list bool := x :: removelast l.
Definition oldest (l : list bool) : bool := last l false.
Definition each {A B C} (f : A -> B -> C) (a : list A) (b : list B) : list C := map (fun x => f (fst x) (snd x)) (combine a b).

(** ** Wires *)
(** [done_cond], [source_end_cond] [1693-1698] *)
Definition all_idle (s : strm) : bool := forallb (fun r => l_idle (r_fsm r)) (s_src s).
Definition end_cond (s : strm) : bool := all_idle s && (s_st s =? 3)%nat.
(** [sink_start], [sink_stop], [sink_busy] [1772-1788], [busy] [1803] *)
Definition sink_start (s : strm) : bool := oldest (s_ks s).
Definition sink_stop (s : strm) : bool := oldest (s_kp s).
Definition sink_busy (s : strm) : bool := oldest (s_kb s).
Definition busy (s : strm) : bool := s_busy s || sink_busy s || s_breg s.
(** what is at the inputs of the pipeline: the source variables, then [reduce_reset]; and [ivalid] *)
Definition inputs (s : strm) : elem :=
  mkElem (fun i => match nth_error (s_src s) i with Some r => r_wdata r | None => b2z (s_rr s) end) (s_ivalid s).

(** ** One cycle *)
(** [2037-2092]; the RAM port reads when it is enabled [1945-1948]; the variable is written while
    [source_busy] [2051-2053] *)
Definition src_in (s : strm) (ordy : bool) (c : scfg) : lin := mkLin ordy (s_start s) (end_cond s) (sc_off c) (sc_size c) (sc_stride c).
Definition src_step (aw : Z) (s : strm) (ordy : bool) (c : scfg) (r : src) : src :=
  mkSrc (lsrc_step aw (r_fsm r) (src_in s ordy c))
        (match lsrc_read (r_fsm r) (src_in s ordy c) with a :: _ => sc_mem c a | [] => r_rdata r end)
        (if ordy && s_busy s then r_rdata r else r_wdata r).
(** [2749-2794], writes [2672-2675] *)
Definition snk_in (p : pipe) (s : strm) (ordy : bool) (c : kcfg) : lkin :=
  let o := p (s_hist s) (inputs s) in
  mkLKin ordy (sink_start s) (sink_stop s) (kc_off c) (kc_size c) (kc_stride c)
         (match kc_when c with Some w => negb (o w =? 0) | None => true end) (o (kc_out c)).
Definition snk_step (aw : Z) (p : pipe) (s : strm) (ordy : bool) (c : kcfg) (k : snk) : snk :=
  mkSnk (lsnk_step aw (w_fsm k) (snk_in p s ordy c)) (w_log k ++ lsnk_write (w_fsm k) (snk_in p s ordy c)).
(** the FSM of the stream [1651-1754] *)
Definition fsm_step (s : strm) (run ordy : bool) : nat * bool * bool :=
  match s_st s with
  | O => if run then (1%nat, true, s_busy s) else (0%nat, s_start s, s_busy s)
  | 1%nat => if s_start s && ordy then (2%nat, false, true) else (1%nat, s_start s, s_busy s)
  | 2%nat => (if ordy then 3%nat else 2%nat, s_start s, s_busy s)
  | _ => if ordy && end_cond s then (if run then 1%nat else 0%nat, if run then true else s_start s, false)
         else (3%nat, s_start s, s_busy s)
  end.
(** conditional assignments in program order: the last one whose condition holds counts *)
Definition assigns (l : list (bool * bool)) (old : bool) : bool := fold_left (fun v (a : bool * bool) => if fst a then snd a else v) l old.
Definition step (c : cfg) (s : strm) (i : bool * bool) : strm :=
  let (run, ordy) := i in
  let d := nth 2 (s_d s) false in
  mkStrm (fst (fst (fsm_step s run ordy))) (snd (fst (fsm_step s run ordy))) (snd (fsm_step s run ordy))
    (* [ivalid] [1672-1675, 1755-1758] *)
    (assigns [(ordy && d, true); (ordy && s_e s, false)] (s_ivalid s))
    (* [reduce_reset] [1677-1684, 1761-1764] *)
    (assigns [(ordy && d, true); (ordy && oldest (s_d s), false); (ordy && s_e s, true)] (s_rr s))
    (if ordy then shift (s_start s) (s_d s) else s_d s)
    (if ordy then end_cond s else s_e s)
    (if ordy then shift (s_start s) (s_ks s) else s_ks s)
    (if ordy then shift (end_cond s) (s_kp s) else s_kp s)
    (if ordy then shift (s_busy s) (s_kb s) else s_kb s)
    (if ordy then sink_busy s else s_kbp s)
    (* [busy_reg] [1791-1796] *)
    (assigns [(negb (sink_busy s) && s_kbp s, false); (s_busy s, true)] (s_breg s))
    (each (src_step (c_aw c) s ordy) (c_src c) (s_src s))
    (each (snk_step (c_aw c) (c_pipe c) s ordy) (c_snk c) (s_snk s))
    (if ordy then s_hist s ++ [inputs s] else s_hist s).

(** after reset; the RAM output registers are not reset *)
Definition src_init (v : Z) : src := mkSrc (mkL 0 0 0 0 0 0 false true) v 0.
Definition snk_init : snk := mkSnk (mkLK 0 0 0 0 0 0 0 false) [].
Definition strm_init (c : cfg) : strm :=
  let z n := repeat false n in
  mkStrm 0 false false false false (z 4%nat) false (z (c_depth c + 2)%nat) (z (c_depth c + 2)%nat) (z (c_depth c + 2)%nat) false false
    (map (fun _ => src_init 0) (c_src c)) (map (fun _ => snk_init) (c_snk c)) [].

(** ** The calling thread *)
(** the states of its FSM: [run] [1627-1636], [join] [1806-1808], [source_join] [1814-1816],
    [source_join_and_run] [1828-1836] *)
Inductive tst := TRun | TBusy | TJoin | TSourceJoin | TRunJoin.
Definition m_run : list tst := [TRun; TBusy].
Definition m_join : list tst := [TJoin].
Definition m_source_join : list tst := [TSourceJoin].
Definition m_source_join_and_run : list tst := [TRunJoin; TBusy].
Definition flag (t : list tst) : bool := match t with (TRun | TRunJoin) :: _ => true | _ => false end.
Definition moves (s : strm) (x : tst) : bool :=
  match x with TRun => true | TBusy => busy s | TJoin => negb (busy s) | TSourceJoin | TRunJoin => negb (s_busy s) end.
Record sys := mkSys { y_thr : list tst; y_str : strm }.
Definition sys_step (c : cfg) (y : sys) (ordy : bool) : sys :=
  mkSys (match y_thr y with x :: t => if moves (y_str y) x then t else x :: t | [] => [] end)
        (step c (y_str y) (flag (y_thr y), ordy)).
