(** The UART of [thread/uart.py]: the transmitter, the receiver and the two thread functions.

    Registers holding several bits are lists of bits, least significant first, so that
    [Cat(x, mem[1:9])] is [tl mem ++ [x]] ([vtypes.py:438-468]: [mem[1:9]] is the Verilog slice
    [mem[8:1]]).  One application of a step function is one rising clock edge; the argument is the
    state before the edge, the result the state after it.  The reset states are the declared initial
    values; later resets are not modelled.  [int(clockfreq / baudrate)] is the parameter [W];
    [math.log] is taken as exact. *)
From Verif Require Import Base.
Open Scope Z_scope.

(** [waitcount] has [int(math.log(waitnum, 2)) + 1] bits [uart.py:107,156]. *)
Definition wtrunc (W z : Z) : Z := z mod 2 ^ (Z.log2 W + 1).

(** ** The transmitter [uart.py:92-139] *)
Record tx := mkTx { t_st : Z; t_wait : Z; t_mem : list bool; t_txd : bool; t_ready : bool }.

(** declared initial values [uart.py:101-107] *)
Definition tx_init : tx := mkTx 0 0 (repeat false 9) true true.

Definition tx_step (W : Z) (din : list bool) (enable : bool) (t : tx) : tx :=
  if t_st t =? 0 then
    (* [uart.py:109-119] *)
    mkTx (if enable then 1 else 0) (wtrunc W (W - 1)) (false :: din) true
         (if enable then false else t_ready t)
  else if t_st t <=? 10 then
    (* [uart.py:121-129], [i = t_st - 1] *)
    if 0 <? t_wait t then mkTx (t_st t) (wtrunc W (t_wait t - 1)) (t_mem t) (t_txd t) (t_ready t)
    else mkTx (t_st t + 1) (wtrunc W (W - 1)) (tl (t_mem t) ++ [true]) (hd false (t_mem t)) (t_ready t)
  else
    (* [uart.py:131-135] *)
    mkTx 0 (t_wait t) (t_mem t) (t_txd t) true.

(** ** The receiver [uart.py:142-187] *)
Record rx := mkRx { r_st : Z; r_wait : Z; r_mem : list bool; r_valid : bool; r_dout : list bool }.

(** declared initial values [uart.py:150-156] *)
Definition rx_init : rx := mkRx 0 0 (repeat false 9) false (repeat false 8).

Definition rx_step (W : Z) (rxd : bool) (r : rx) : rx :=
  if r_st r =? 0 then
    (* [uart.py:158-164] *)
    mkRx (if rxd then 0 else 1) (wtrunc W (W / 2 - 1)) (tl (r_mem r) ++ [rxd]) false (r_dout r)
  else if r_st r <=? 10 then
    (* [uart.py:166-176], [i = r_st - 1]; the start bit is checked again in the first of these states
       [uart.py:167-168] *)
    let back := (r_st r =? 1) && (r_wait r =? 1) && rxd in
    if 0 <? r_wait r then mkRx (if back then 0 else r_st r) (wtrunc W (r_wait r - 1)) (r_mem r) (r_valid r) (r_dout r)
    else mkRx (r_st r + 1) (wtrunc W (W - 1)) (tl (r_mem r) ++ [rxd]) (r_valid r) (r_dout r)
  else
    (* [uart.py:178-183]: nine bits assigned to the eight of [dout] *)
    mkRx 0 (r_wait r) (r_mem r) true (firstn 8 (r_mem r)).

(** ** A transmitter whose [txd] drives the receiver's [rxd] *)
Record link := mkLink { l_tx : tx; l_rx : rx }.
Definition link_init : link := mkLink tx_init rx_init.
(** One cycle with the given [din] and [enable]. *)
Definition link_step (W : Z) (s : link) (i : list bool * bool) : link :=
  mkLink (tx_step W (fst i) (snd i) (l_tx s)) (rx_step W (t_txd (l_tx s)) (l_rx s)).

(** ** Threads using it *)
(** A thread that calls [send] for one byte after another [uart.py:43-53].  [n_gap] is the number of
    cycles it still spends elsewhere before the next call; [n_st] is the state within the call. *)
Record sender := mkSender { n_todo : list (nat * list bool); n_st : Z; n_din : list bool; n_enable : bool }.
Definition sender_init (todo : list (nat * list bool)) : sender := mkSender todo 0 (repeat false 8) false.
Definition sender_step (ready : bool) (s : sender) : sender :=
  match n_todo s with
  | [] => s
  | (Datatypes.S g, b) :: l => mkSender ((g, b) :: l) 0 (n_din s) (n_enable s)
  | (O, b) :: l =>
      if n_st s =? 0 then mkSender (n_todo s) 1 b true            (* [44-48] *)
      else if n_st s =? 1 then mkSender (n_todo s) 2 (n_din s) false  (* [49-52] *)
      else if ready then mkSender l 0 (n_din s) (n_enable s)      (* [53] *)
      else s
  end.

(** A thread that calls [recv] again and again [uart.py:83-89]; [v_gaps] are the cycles it spends
    elsewhere before each call, [v_got] the values returned, latest first. *)
Record recver := mkRecver { v_gaps : list nat; v_got : list (list bool) }.
Definition recver_step (valid : bool) (dout : list bool) (s : recver) : recver :=
  match v_gaps s with
  | [] => s
  | Datatypes.S g :: l => mkRecver (g :: l) (v_got s)
  | O :: l => if valid then mkRecver l (dout :: v_got s) else s
  end.

(** Both threads and the link between them. *)
Record sys := mkSys { y_snd : sender; y_link : link; y_rcv : recver }.
Definition sys_init (todo : list (nat * list bool)) (gaps : list nat) : sys :=
  mkSys (sender_init todo) link_init (mkRecver gaps []).
Definition sys_step (W : Z) (y : sys) : sys :=
  mkSys (sender_step (t_ready (l_tx (y_link y))) (y_snd y))
        (link_step W (y_link y) (n_din (y_snd y), n_enable (y_snd y)))
        (recver_step (r_valid (l_rx (y_link y))) (r_dout (l_rx (y_link y))) (y_rcv y)).
Fixpoint sys_run (W : Z) (n : nat) (y : sys) : sys :=
  match n with O => y | Datatypes.S k => sys_run W k (sys_step W y) end.
