(** The simulated memory that serves one burst at a time: [AxiSerialMemoryModel]
    [types/axi.py:3864-4145].

    Registers are modelled one by one; of several statements that assign the same register the last
    one wins.  The parameters, the memory of bytes and the sleep counters are those of AxiMem_Model.v
    (the code is the same: [3937-3948,4007-4031]); the FIFO sizes in the parameters have no meaning here.
    States are named; their numbers [3989-3992] differ because [read_mode] is moved beyond the last
    write state.  The condition register of a delayed statement [fsm/fsm.py:831-842] is 1 whenever the
    delayed state is the state of the statement, and is left out.  Left out as in AxiMem_Model.v: size,
    burst, lock, cache, prot, qos and user signals, the image file, threads that use the memory. *)
From Verif Require Import Base AxiMem_Model.
Open Scope Z_scope.

Inductive phase :=
  | PIdle                                              (* 0 [3994-3995] *)
  | PWaddr | PWdelay (k : Z) | PWready | PWdata        (* [4032-4080], k: states left *)
  | PRaddr | PRdelay (k : Z) | PRdata.                 (* [4082-4145] *)
Record sm := mkSm {
  m_ph : phase; m_d1 : phase;                          (* fsm and its delayed copy [fsm/fsm.py:969-975] *)
  m_awready : bool; m_wready : bool; m_waddr : Z; m_wcount : Z; m_bvalid : bool; m_bid : Z;
  m_arready : bool; m_raddr : Z; m_rcount : Z; m_rvalid : bool; m_rdata : Z; m_rlast : bool; m_rid : Z;
  m_slp : slp; m_mem : Z -> Z
}.
Definition sm_init (mem : Z -> Z) : sm := mkSm PIdle PIdle false false 0 0 false 0 false 0 0 false 0 false 0 (mkSlp 0 0) mem.

Definition is_waddr (x : phase) : bool := match x with PWaddr => true | _ => false end.
Definition is_raddr (x : phase) : bool := match x with PRaddr => true | _ => false end.
Definition is_wready (x : phase) : bool := match x with PWready => true | _ => false end.
Definition is_wdata (x : phase) : bool := match x with PWdata => true | _ => false end.
Definition is_rdata (x : phase) : bool := match x with PRdata => true | _ => false end.

(** signals [4036,4063,4077,4086,4103,4107-4120,4137] *)
Definition m_awgo (s : sm) (i : axi_in) : bool := is_waddr (m_ph s) && (some (i_aw i) && negb (m_bvalid s)).
Definition m_argo (s : sm) (i : axi_in) : bool := is_raddr (m_ph s) && some (i_ar i).
Definition m_whs (s : sm) (i : axi_in) : bool := some (i_w i) && m_wready s.
Definition m_wfin (s : sm) (i : axi_in) : bool := is_wdata (m_ph s) && (m_whs s i && (m_wcount s =? 1)).
Definition m_ack (s : sm) (i : axi_in) : bool := i_rready i || negb (m_rvalid s).
Definition m_rgo (p : mp) (s : sm) (i : axi_in) : bool := is_rdata (m_ph s) && (awake_r p (m_slp s) && ((0 <? m_rcount s) && m_ack s i)).
Definition m_retry (s : sm) (i : axi_in) : bool := is_rdata (m_ph s) && (m_rvalid s && negb (i_rready i)).

Definition ph_step (p : mp) (s : sm) (i : axi_in) : phase :=
  match m_ph s with
  | PIdle => if some (i_ar i) then PRaddr else if some (i_aw i) then PWaddr else PIdle          (* [3994-3995] *)
  | PWaddr => if some (i_aw i) then (if p_wdelay p <=? 0 then PWready else PWdelay (p_wdelay p)) else PIdle     (* [4044-4049] *)
  | PWdelay k => if k <=? 1 then PWready else PWdelay (k - 1)
  | PWready => PWdata
  | PWdata => if m_wfin s i then PIdle else PWdata                                              (* [4077-4080] *)
  | PRaddr => if some (i_ar i) then (if p_rdelay p <=? 0 then PRdata else PRdelay (p_rdelay p)) else PIdle      (* [4094-4099] *)
  | PRdelay k => if k <=? 1 then PRdata else PRdelay (k - 1)
  | PRdata => if m_rvalid s && i_rready i && (m_rcount s =? 0) then PIdle else PRdata           (* [4143-4145] *)
  end.
Definition sm_step (p : mp) (s : sm) (i : axi_in) : sm :=
  let go := m_rgo p s i in let retry := m_retry s i in let drop := is_rdata (m_d1 s) in
  mkSm (ph_step p s i) (m_ph s)
    (if m_awgo s i then true else if is_waddr (m_d1 s) then false else m_awready s)             (* [4036-4043] *)
    (if m_wfin s i then false                                                                   (* [4077-4079] *)
     else if is_wdata (m_ph s) && (0 <? p_sleep p) then awake_w p (m_slp s)                     (* [4069-4074] *)
     else if is_wready (m_ph s) then true else m_wready s)                                      (* [4051-4055] *)
    (match i_aw i with                                                                          (* [4038,4064] *)
     | Some (a, _, _) => if m_awgo s i then a else if is_wdata (m_ph s) && m_whs s i then (m_waddr s + nbytes p) mod 2 ^ p_aw p else m_waddr s
     | None => if is_wdata (m_ph s) && m_whs s i then (m_waddr s + nbytes p) mod 2 ^ p_aw p else m_waddr s
     end)
    (match i_aw i with                                                                          (* [4039,4065] *)
     | Some (_, l, _) => if m_awgo s i then l + 1 else if is_wdata (m_ph s) && m_whs s i then (m_wcount s - 1) mod 2 ^ (p_aw p + 1) else m_wcount s
     | None => if is_wdata (m_ph s) && m_whs s i then (m_wcount s - 1) mod 2 ^ (p_aw p + 1) else m_wcount s
     end)
    (match i_w i with                                                                           (* [3928-3933] *)
     | Some (_, _, true) => if m_wready s then true else if m_bvalid s && i_bready i then false else m_bvalid s
     | _ => if m_bvalid s && i_bready i then false else m_bvalid s
     end)
    (match i_aw i with                                                                          (* [3917-3921] *)
     | Some (_, _, id) => if m_awready s && negb (m_bvalid s) then id mod 2 ^ p_bid p else m_bid s
     | None => m_bid s
     end)
    (if m_argo s i then true else if is_raddr (m_d1 s) then false else m_arready s)             (* [4086-4093] *)
    (match i_ar i with                                                                          (* [4088,4111,4122] *)
     | Some (a, _, _) => if m_argo s i then a else if go then (m_raddr s + nbytes p) mod 2 ^ p_aw p else m_raddr s
     | None => if go then (m_raddr s + nbytes p) mod 2 ^ p_aw p else m_raddr s
     end)
    (match i_ar i with
     | Some (_, l, _) => if m_argo s i then l + 1 else if go then (m_rcount s - 1) mod 2 ^ (p_aw p + 1) else m_rcount s
     | None => if go then (m_rcount s - 1) mod 2 ^ (p_aw p + 1) else m_rcount s
     end)
    (if retry then m_rvalid s else if go then true else if drop then false else m_rvalid s)     (* [4110,4121,4131-4141] *)
    (if is_rdata (m_ph s) && m_ack s i then mem_load p (m_mem s) (m_raddr s) else m_rdata s)    (* [4101-4105] *)
    (if retry then m_rlast s else if go && (m_rcount s =? 1) then true else if drop then false else m_rlast s)
    (match i_ar i with                                                                          (* [3923-3926] *)
     | Some (_, _, id) => if m_arready s then id mod 2 ^ p_rid p else m_rid s
     | None => m_rid s
     end)
    (sleep_step p (m_slp s))
    (match i_w i with                                                                           (* [4057-4061]: wready is not asked *)
     | Some (d, st, _) => if is_wdata (m_ph s) then mem_store p (m_mem s) (m_waddr s) (d mod 2 ^ p_dw p) (st mod 2 ^ nbytes p) else m_mem s
     | None => m_mem s
     end).

(** what the bus sees in a cycle *)
Definition s_aw (s : sm) (i : axi_in) : list (Z * Z * Z) := match i_aw i with Some x => if m_awready s then [x] else [] | None => [] end.
Definition s_w (s : sm) (i : axi_in) : list (Z * Z * bool) := match i_w i with Some x => if m_wready s then [x] else [] | None => [] end.
Definition s_b (s : sm) (i : axi_in) : list Z := if m_bvalid s && i_bready i then [m_bid s] else [].
Definition s_ar (s : sm) (i : axi_in) : list (Z * Z * Z) := match i_ar i with Some x => if m_arready s then [x] else [] | None => [] end.
Definition s_r (s : sm) (i : axi_in) : list (Z * bool * Z) := if m_rvalid s && i_rready i then [(m_rdata s, m_rlast s, m_rid s)] else [].
