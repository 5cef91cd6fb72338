(** The register slave on an AXI bus: [AXISRegister] with its request, data and response channels.
    Modelled code: [thread/axis.py:43-169], [types/axi.py:1263-1277,1424-1448,2373-2395,2407-2461].

    Registers are modelled one by one; statements that assign the same register keep their order
    (the last one wins).  Simplifications: the id and user signals are left out; the strobes are
    ignored as in the code; the thread side ([write], [write_flag], [wait_flag]) is one optional
    register update per cycle, placed behind the statements of the constructor. *)
From Verif Require Import Base.
Open Scope Z_scope.

Record slv := mkSlv {
  v_fsm : Z;                                  (* register_fsm: 0 request, 1 read, 2 write *)
  v_addr : Z; v_len : Z; v_rd : bool; v_wr : bool;       (* addr, length, readvalid, writevalid *)
  v_paw : bool; v_par : bool;                 (* prev_awvalid, prev_arvalid *)
  v_count : Z; v_last : bool; v_mask : Z;     (* axis_rcount, axis_rlast, axis_maskaddr *)
  v_rvalid : bool; v_rdata : Z; v_rlast : bool;          (* read data channel *)
  v_bvalid : bool;                            (* write response channel *)
  v_reg : Z -> Z; v_flag : Z -> bool; v_reset : Z -> Z   (* register, flag, resetval *)
}.
Definition slv_init : slv :=
  mkSlv 0 0 0 false false false false 0 false 0 false 0 false false (fun _ => 0) (fun _ => false) (fun _ => 0).

(** register update by a thread: index, value, flag, reset value (kept when [None])
    [thread/axis.py:183-201,220-245] *)
Record top := mkTop { t_idx : Z; t_val : Z; t_flag : bool; t_reset : option Z }.
Record slv_in := mkSlvIn {
  vi_ar : option (Z * Z);       (* arvalid with araddr, arlen *)
  vi_aw : option (Z * Z);       (* awvalid with awaddr, awlen *)
  vi_w : option (Z * bool);     (* wvalid with wdata, wlast *)
  vi_rready : bool; vi_bready : bool;
  vi_top : option top
}.
Definition is_some {A} (o : option A) : bool := match o with Some _ => true | None => false end.

(** ready signals of the two request channels [types/axi.py:2431-2445] *)
Definition awready (s : slv) : bool :=
  (v_fsm s =? 0) && negb (v_wr s) && negb (v_rd s) && negb (v_bvalid s) && v_paw s.
Definition arready (s : slv) : bool :=
  (v_fsm s =? 0) && negb (v_rd s) && negb (v_wr s) && v_par s && negb (v_paw s).
(** write_ack, read_ack [2427-2429]; the second counts only in the Elif branch [2451-2459] *)
Definition aw_ack (s : slv) (i : slv_in) : bool := awready s && is_some (vi_aw i) && negb (v_bvalid s).
Definition ar_ack (s : slv) (i : slv_in) : bool := negb (aw_ack s i) && (arready s && is_some (vi_ar i)).
(** a word enters the read data channel [thread/axis.py:135; types/axi.py:1424-1435] *)
Definition r_ack (s : slv) (i : slv_in) : bool := vi_rready i || negb (v_rvalid s).
Definition r_push (s : slv) (i : slv_in) : bool := (v_fsm s =? 1) && r_ack s i.
(** a write data word is taken [types/axi.py:1263-1272] *)
Definition w_hs (s : slv) (i : slv_in) : bool := (v_fsm s =? 2) && is_some (vi_w i).

(** PatternMux over the registers; [xv] stands for the unknown value of an index outside
    [thread/axis.py:117-133] *)
Definition pick {A} (len : Z) (xv : A) (f : Z -> A) (k : Z) : A := if (0 <=? k) && (k <? len) then f k else xv.
(** assignment under the conditions [maskaddr == i] for all registers *)
Definition put {A} (len : Z) (f : Z -> A) (k : Z) (v : A) : Z -> A :=
  if (0 <=? k) && (k <? len) then upd f k v else f.

Section Step.
  (** number of registers, width of maskaddr, shift, and the unknown values *)
  Variables (len mw sh : Z) (xz : Z) (xb : bool).

  Definition r_data (s : slv) : Z := pick len xz (v_reg s) (v_mask s).
  (** one clock cycle *)
  Definition slv_step (s : slv) (i : slv_in) : slv :=
    let aw := aw_ack s i in let ar := ar_ack s i in
    let push := r_push s i in let wh := w_hs s i in
    let '(awa, awl) := match vi_aw i with Some x => x | None => (0, 0) end in
    let '(ara, arl) := match vi_ar i with Some x => x | None => (0, 0) end in
    let '(wd, wl) := match vi_w i with Some x => x | None => (0, false) end in
    let start := (v_fsm s =? 0) && (v_rd s || v_wr s) in                              (* [106-108] *)
    let startr := (v_fsm s =? 0) && v_rd s in                                         (* [102-105] *)
    let rst := push && pick len xb (v_flag s) (v_mask s) in                           (* [144-149] *)
    let reg1 := if rst then put len (v_reg s) (v_mask s) (pick len xz (v_reset s) (v_mask s)) else v_reg s in
    let flag1 := if rst then put len (v_flag s) (v_mask s) false else v_flag s in
    let reg2 := if wh then put len reg1 (v_mask s) wd else reg1 in                    (* [160-164] *)
    mkSlv
      (if v_fsm s =? 0 then (if v_wr s then 2 else if v_rd s then 1 else 0)           (* [114,155] *)
       else if v_fsm s =? 1 then (if push && v_last s then 0 else 1)                  (* [151] *)
       else (if wh && wl then 0 else v_fsm s))                                        (* [169] *)
      (if aw then awa else if ar then ara else v_addr s)
      (if aw then (awl + 1) mod 2 ^ 9 else if ar then (arl + 1) mod 2 ^ 9 else v_len s)
      ar aw
      (is_some (vi_aw i)) (is_some (vi_ar i))
      (if push then (v_count s - 1) mod 2 ^ 9 else if startr then v_len s else v_count s)   (* [137-141] *)
      (if push then v_count s <=? 1 else if startr then v_len s <=? 1 else v_last s)
      (if push || wh then (v_mask s + 1) mod 2 ^ mw
       else if start then Z.land (Z.shiftr (v_addr s) sh) (2 ^ mw - 1) else v_mask s)
      (push || v_rvalid s && negb (vi_rready i))                                      (* [types/axi.py:1432-1447] *)
      (if push then r_data s else v_rdata s)
      (if push then v_last s else v_rvalid s && negb (vi_rready i) && v_rlast s)
      (if wh && wl then true else if v_bvalid s && vi_bready i then false else v_bvalid s)  (* [2385-2390] *)
      (match vi_top i with Some t => put len reg2 (t_idx t) (t_val t) | None => reg2 end)
      (match vi_top i with Some t => put len flag1 (t_idx t) (t_flag t) | None => flag1 end)
      (match vi_top i with
       | Some t => match t_reset t with Some v => put len (v_reset s) (t_idx t) v | None => v_reset s end
       | None => v_reset s end).
End Step.

(** ** What the bus sees in a cycle *)
(** read bursts accepted at the port (arvalid and arready): address and number of words (arlen + 1) *)
Definition ar_taken (s : slv) (i : slv_in) : list (Z * Z) :=
  match vi_ar i with Some (a, l) => if arready s then [(a, l + 1)] else [] | None => [] end.
(** read data beats transferred: data and rlast *)
Definition r_beat (s : slv) (i : slv_in) : list (Z * bool) :=
  if v_rvalid s && vi_rready i then [(v_rdata s, v_rlast s)] else [].
(** write bursts accepted at the port (awvalid and awready), write data beats taken, write responses transferred *)
Inductive wevent := WAddr (a : Z) | WBeat (d : Z) (last : bool) | WResp.
Definition w_events (s : slv) (i : slv_in) : list wevent :=
  (if v_bvalid s && vi_bready i then [WResp] else []) ++
  (if w_hs s i then match vi_w i with Some (d, l) => [WBeat d l] | None => [] end else []) ++
  match vi_aw i with Some (a, _) => if awready s then [WAddr a] else [] | None => [] end.
