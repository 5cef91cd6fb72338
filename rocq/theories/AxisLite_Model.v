(** The register slave on an AXI-Lite bus: [AXISLiteRegister] with its request, data and response channels.
    Modelled code: [thread/axis.py:244-420], [types/axi.py:1526-1540,1625-1653,2604-2610,2628-2678].

    Simplifications: as in AxiSlave_Model the thread side ([write], [write_flag], [wait_flag]) is one
    optional register update per cycle, placed behind the statements of the constructor (the threads'
    statements are added later, so they win); write strobes are ignored as in the code. *)
From Verif Require Import Base AxiSlave_Model.
Open Scope Z_scope.

Record lite := mkLite {
  l_fsm : Z;                       (* register_fsm: 0 request, 1 read, 2 read taken, 3 write, 4 response taken *)
  l_addr : Z; l_rd : bool; l_wr : bool;       (* addr, readvalid, writevalid *)
  l_paw : bool; l_par : bool;                 (* prev_awvalid, prev_arvalid *)
  l_mask : Z;                                 (* axis_maskaddr *)
  l_rvalid : bool; l_rdata : Z;               (* read data channel *)
  l_bvalid : bool;                            (* write response channel *)
  l_reg : Z -> Z; l_flag : Z -> bool; l_reset : Z -> Z   (* register, flag, resetval *)
}.
Definition lite_init : lite :=
  mkLite 0 0 false false false false 0 false 0 false (fun _ => 0) (fun _ => false) (fun _ => 0).

(** register update by a thread: index, value, flag and reset value (kept when [None]):
    [write] [thread/axis.py:358-365], [write_flag] [367-375], [wait_flag] leaving its state [397-420] *)
Record ltop := mkLtop { y_idx : Z; y_val : Z; y_flag : option bool; y_reset : option Z }.
Definition th_write (a v : Z) : ltop := mkLtop a v (Some false) None.
Definition th_write_flag (a v r : Z) : ltop := mkLtop a v (Some true) (Some r).
Definition th_wait_flag (a r : Z) : ltop := mkLtop a r None None.

Record lite_in := mkLiteIn {
  li_ar : option Z;             (* arvalid with araddr *)
  li_aw : option Z;             (* awvalid with awaddr *)
  li_w : option Z;              (* wvalid with wdata *)
  li_rready : bool; li_bready : bool;
  li_top : option ltop
}.

(** ready signals of the two request channels [types/axi.py:2651-2665] *)
Definition l_awready (s : lite) : bool :=
  (l_fsm s =? 0) && negb (l_wr s) && negb (l_rd s) && negb (l_bvalid s) && l_paw s.
Definition l_arready (s : lite) : bool :=
  (l_fsm s =? 0) && negb (l_rd s) && negb (l_wr s) && l_par s && negb (l_paw s).
(** write_ack, read_ack [2646-2649]; the second counts only in the Elif branch [2671-2677] *)
Definition l_awack (s : lite) (i : lite_in) : bool := l_awready s && is_some (li_aw i) && negb (l_bvalid s).
Definition l_arack (s : lite) (i : lite_in) : bool := negb (l_awack s i) && (l_arready s && is_some (li_ar i)).
(** ack of the read data channel [types/axi.py:1636], [thread/axis.py:316] *)
Definition l_rack (s : lite) (i : lite_in) : bool := li_rready i || negb (l_rvalid s).
Definition l_push (s : lite) (i : lite_in) : bool := (l_fsm s =? 1) && l_rack s i.
(** wready is the state of the write [types/axi.py:1526-1538]; a word is taken *)
Definition l_wready (s : lite) : bool := l_fsm s =? 3.
Definition l_whs (s : lite) (i : lite_in) : bool := l_wready s && is_some (li_w i).

Section Step.
  (** number of registers, width of maskaddr, shift, and the unknown values *)
  Variables (len mw sh : Z) (xz : Z) (xb : bool).

  (** one clock cycle *)
  Definition lite_step (s : lite) (i : lite_in) : lite :=
    let aw := l_awack s i in let ar := l_arack s i in
    let push := l_push s i in let wh := l_whs s i in
    let get (o : option Z) := match o with Some x => x | None => 0 end in
    let k := l_mask s in
    let start := (l_fsm s =? 0) && (l_rd s || l_wr s) in                              (* [284-286] *)
    let rst := push && pick len xb (l_flag s) k in                                    (* [319-324] *)
    let reg1 := if rst then put len (l_reg s) k (pick len xz (l_reset s) k) else l_reg s in
    let flag1 := if rst then put len (l_flag s) k false else l_flag s in
    let reg2 := if wh then put len reg1 k (get (li_w i)) else reg1 in                 (* [339-343] *)
    mkLite
      (if l_fsm s =? 0 then (if l_wr s then 3 else if l_rd s then 1 else 0)           (* [292,333] *)
       else if l_fsm s =? 1 then (if push then 2 else 1)                              (* [326] *)
       else if l_fsm s =? 2 then (if li_rready i && l_rvalid s then 0 else 2)         (* [328-329] *)
       else if l_fsm s =? 3 then (if is_some (li_w i) then 4 else 3)                  (* [345] *)
       else (if li_bready i && l_bvalid s then 0 else l_fsm s))                       (* [347-348] *)
      (if aw then get (li_aw i) else if ar then get (li_ar i) else l_addr s)
      ar aw
      (is_some (li_aw i)) (is_some (li_ar i))
      (if start then Z.land (Z.shiftr (l_addr s) sh) (2 ^ mw - 1) else k)
      (push || l_rvalid s && negb (li_rready i))                                      (* [types/axi.py:1638-1651] *)
      (if push then pick len xz (l_reg s) k else l_rdata s)
      (if wh then true else if l_bvalid s && li_bready i then false else l_bvalid s)  (* [types/axi.py:2605-2610] *)
      (match li_top i with Some t => put len reg2 (y_idx t) (y_val t) | None => reg2 end)
      (match li_top i with
       | Some t => match y_flag t with Some b => put len flag1 (y_idx t) b | None => flag1 end
       | None => flag1 end)
      (match li_top i with
       | Some t => match y_reset t with Some v => put len (l_reset s) (y_idx t) v | None => l_reset s end
       | None => l_reset s end).
End Step.

(** ** What the bus and the threads see in a cycle *)
Record bus := mkBus {
  e_ar : option Z; e_r : option Z;          (* read address accepted, read data transferred *)
  e_aw : option Z; e_w : option Z;          (* write address accepted, write data transferred *)
  e_b : bool;                               (* write response transferred *)
  e_top : option ltop                       (* update by a thread *)
}.
Definition lite_out (s : lite) (i : lite_in) : bus :=
  mkBus (if l_arready s then li_ar i else None)
        (if l_rvalid s && li_rready i then Some (l_rdata s) else None)
        (if l_awready s then li_aw i else None)
        (if l_wready s then li_w i else None)
        (l_bvalid s && li_bready i)
        (li_top i).
