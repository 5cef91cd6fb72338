(** The AXI-Lite master of a thread: [AXIMLite.read], [write] and their delayed variants, the address,
    data and response channels with their skid buffers, and the master connected to [AXISLiteRegister].
    Modelled code: [thread/axim.py:1803-1885,1899-1977], [types/axi.py:875-902,920-960,995-1015,1035-1047,1073-1099,
    1116-1160,1165-1178,2230-2252,2264-2324], [types/axi.py:2146-2147] (write_completed).

    The thread that owns the interface starts any call in any cycle in which it is outside (or none): the
    input decides.  Simplifications: one thread (others are kept out by the mutex); the
    base address is part of the address; a delay is a number without overflow. *)
From Verif Require Import Base AxiSlave_Model Skid_Model AxisLite_Model.
Open Scope Z_scope.

(** calls; the delayed ones of AXIMLiteVerify carry the number of cycles *)
Inductive call := CRd (a : Z) (dl : option nat) | CWr (a v : Z) (dl : option nat).

(** states of the thread inside a call *)
Inductive mph :=
  | POut
  | R0 (a : Z) (dl : option nat) | R1 (a : Z) (dl : option nat) | RD (a : Z) (dl k : nat) | R2 (a : Z) (dl : option nat)
  | W0 (a v : Z) (dl : option nat) | W1 (a v : Z) (dl : option nat) | WD (a v : Z) (dl k : nat) | W2 (a v : Z) (dl : option nat)
  | W3 (a v : Z) (dl : option nat) | W4 (a v : Z) (dl : option nat).

Record mst := mkM {
  p_ph : mph;
  p_arv : bool; p_ara : Z;                    (* arvalid, araddr *)
  p_awv : bool; p_awa : Z;                    (* awvalid, awaddr *)
  p_wv : bool; p_wd : Z;                      (* wvalid, wdata in front of the skid buffers *)
  p_wsb : list (sb Z); p_rsb : list (sb Z);   (* skid buffers of the write data and of the read data *)
  p_out : Z;                                  (* outstanding_wcount, 3 bits *)
  p_log : list (call * Z)                     (* calls that returned, with the word read (0 for a write) *)
}.
(** [n] is sb_depth [types/axi.py:941,1135] *)
Definition m_init (n : nat) : mst :=
  mkM POut false 0 false 0 false 0 (repeat (sb_init 0) n) (repeat (sb_init 0) n) 0 [].

(** what the slave drives, and the call the thread starts *)
Record mst_in := mkMIn {
  n_arready : bool; n_awready : bool; n_wready : bool;
  n_r : option Z;                             (* rvalid with rdata *)
  n_b : bool;                                 (* bvalid; bready is 1 [types/axi.py:1036] *)
  n_go : option call
}.

(** acknowledge of [read_request] [types/axi.py:1080] and of [write_request] [882-883,2264-2266] *)
Definition m_arack (m : mst) (i : mst_in) : bool := n_arready i || negb (p_arv m).
Definition m_awack (m : mst) (i : mst_in) : bool := (p_out m =? 0) && (n_awready i || negb (p_awv m)).
(** wready in front of the skid buffers, acknowledge of [write_data] [types/axi.py:1002; thread/axim.py:1873] *)
Definition m_wready (m : mst) (i : mst_in) : bool := chain_ready (p_wsb m) (n_wready i).
Definition m_wack (m : mst) (i : mst_in) : bool := m_wready m i || negb (p_wv m).
(** read data behind the skid buffers [types/axi.py:1145-1157] *)
Definition rin (i : mst_in) : bool * Z := match n_r i with Some d => (true, d) | None => (false, 0) end.
Definition m_r (m : mst) (i : mst_in) : bool * Z := chain_out (p_rsb m) (fst (rin i)) (snd (rin i)).
Definition m_rready (m : mst) : bool := match p_ph m with R2 _ _ => true | _ => false end.
(** ports towards the slave: wvalid with wdata, rready *)
Definition m_w (m : mst) : bool * Z := chain_out (p_wsb m) (p_wv m) (p_wd m).
Definition m_xrready (m : mst) : bool := chain_ready (p_rsb m) (m_rready m).

Definition after_addr_r a dl := match dl with Some k => RD a k k | None => R2 a None end.
Definition after_addr_w a v dl := match dl with Some k => WD a v k k | None => W2 a v None end.

(** one clock cycle *)
Definition m_step (m : mst) (i : mst_in) : mst :=
  let rq := match p_ph m with R0 _ _ => m_arack m i | _ => false end in
  let wq := match p_ph m with W0 _ _ _ => m_awack m i | _ => false end in
  let wd := match p_ph m with W2 _ _ _ => m_wack m i | _ => false end in
  let awhs := p_awv m && n_awready i in
  let '(rv, rd) := m_r m i in
  let ret o r := (POut, p_log m ++ [(o, r)]) in
  let '(ph, log) :=
    match p_ph m with
    | POut => (match n_go i with Some (CRd a dl) => R0 a dl | Some (CWr a v dl) => W0 a v dl | None => POut end, p_log m)
    | R0 a dl => (if m_arack m i then R1 a dl else p_ph m, p_log m)                         (* [1836,1915] *)
    | R1 a dl => (if p_arv m && n_arready i then after_addr_r a dl else p_ph m, p_log m)    (* [1839-1840,1918-1919] *)
    | RD a dl k => (match k with O => R2 a (Some dl) | S k' => RD a dl k' end, p_log m)     (* [1921-1925] *)
    | R2 a dl => if rv then ret (CRd a dl) rd else (p_ph m, p_log m)                        (* [1846-1850,1931-1935] *)
    | W0 a v dl => (if m_awack m i then W1 a v dl else p_ph m, p_log m)                     (* [1863,1952] *)
    | W1 a v dl => (if awhs then after_addr_w a v dl else p_ph m, p_log m)                  (* [1866-1867,1955-1956] *)
    | WD a v dl k => (match k with O => W2 a v (Some dl) | S k' => WD a v dl k' end, p_log m)   (* [1958-1962] *)
    | W2 a v dl => (if m_wack m i then W3 a v dl else p_ph m, p_log m)                      (* [1874,1969] *)
    | W3 a v dl => (if p_wv m && m_wready m i then W4 a v dl else p_ph m, p_log m)          (* [1877-1878,1972-1973] *)
    | W4 a v dl => if negb ((0 <? p_out m) || p_awv m) then ret (CWr a v dl) 0              (* [1881-1882,1976-1977] *)
                   else (p_ph m, p_log m)
    end in
  mkM ph
    (rq || p_arv m && negb (n_arready i))                                                   (* [types/axi.py:1082-1097] *)
    (if rq then match p_ph m with R0 a _ => a | _ => 0 end else p_ara m)
    (wq || p_awv m && negb (n_awready i))                                                   (* [types/axi.py:885-900] *)
    (if wq then match p_ph m with W0 a _ _ => a | _ => 0 end else p_awa m)
    (wd || p_wv m && negb (m_wready m i))                                                   (* [types/axi.py:1004-1019] *)
    (if wd then match p_ph m with W2 _ v _ => v | _ => 0 end else p_wd m)
    (chain_step (p_wsb m) (p_wv m) (p_wd m) (n_wready i))
    (chain_step (p_rsb m) (fst (rin i)) (snd (rin i)) (m_rready m))
    (if awhs && negb (n_b i) && (p_out m <? 7) then p_out m + 1                             (* [types/axi.py:2234-2243] *)
     else if negb awhs && n_b i && (0 <? p_out m) then p_out m - 1 else p_out m)
    log.

(** the events of the cycle at the ports *)
Definition m_events (m : mst) (i : mst_in) : bus :=
  mkBus (if p_arv m && n_arready i then Some (p_ara m) else None)
        (if m_xrready m then n_r i else None)
        (if p_awv m && n_awready i then Some (p_awa m) else None)
        (if fst (m_w m) && n_wready i then Some (snd (m_w m)) else None)
        (n_b i) None.

(** ** The master connected to the register slave *)
Record msys := mkMS { s_m : mst; s_l : lite }.
Record msys_in := mkMSIn { q_go : option call; q_top : option ltop }.
Definition opt_if (b : bool) (x : Z) : option Z := if b then Some x else None.
Section Sys.
  Variables (len mw sh xz : Z) (xb : bool).
  Definition to_m (s : msys) (i : msys_in) : mst_in :=
    mkMIn (l_arready (s_l s)) (l_awready (s_l s)) (l_wready (s_l s))
          (opt_if (l_rvalid (s_l s)) (l_rdata (s_l s))) (l_bvalid (s_l s)) (q_go i).
  Definition to_l (s : msys) (i : msys_in) : lite_in :=
    mkLiteIn (opt_if (p_arv (s_m s)) (p_ara (s_m s))) (opt_if (p_awv (s_m s)) (p_awa (s_m s)))
             (opt_if (fst (m_w (s_m s))) (snd (m_w (s_m s)))) (m_xrready (s_m s)) true (q_top i).
  Definition ms_step (s : msys) (i : msys_in) : msys :=
    mkMS (m_step (s_m s) (to_m s i)) (lite_step len mw sh xz xb (s_l s) (to_l s i)).
  Definition ms_init (n : nat) : msys := mkMS (m_init n) lite_init.
End Sys.
