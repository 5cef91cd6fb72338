(** What the UART is supposed to do. *)
From Verif Require Import Base Uart_Model.
Open Scope Z_scope.

(** A byte is eight bits. *)
Definition byte (b : list bool) : Prop := length b = 8%nat.

(** The line while one byte goes over it, sampled once per clock: a start bit 0, the data bits with the
    least significant first, a stop bit 1; every bit lasts [W] clocks. *)
Definition hold (W : Z) (x : bool) : list bool := repeat x (Z.to_nat W).
Definition on_line (W : Z) (b : list bool) : list bool := flat_map (hold W) (false :: b ++ [true]).

(** The levels a module sees or drives, cycle by cycle. *)
Fixpoint tx_line (W : Z) (t : tx) (ins : list (list bool * bool)) : list bool :=
  match ins with
  | [] => []
  | i :: l => t_txd t :: tx_line W (tx_step W (fst i) (snd i) t) l
  end.
Fixpoint tx_end (W : Z) (t : tx) (ins : list (list bool * bool)) : tx :=
  match ins with
  | [] => t
  | i :: l => tx_end W (tx_step W (fst i) (snd i) t) l
  end.
Fixpoint rx_end (W : Z) (r : rx) (line : list bool) : rx :=
  match line with
  | [] => r
  | x :: l => rx_end W (rx_step W x r) l
  end.
(** The bytes announced by [valid] up to and including the state after the last cycle: one per cycle
    in which [valid] is high. *)
Fixpoint rx_bytes (W : Z) (r : rx) (line : list bool) : list (list bool) :=
  match line with
  | [] => []
  | x :: l => let r' := rx_step W x r in
              (if r_valid r' then [r_dout r'] else []) ++ rx_bytes W r' l
  end.

(** The bytes handed over: [enable] in a cycle in which [ready] is high. *)
Fixpoint taken (W : Z) (s : link) (ins : list (list bool * bool)) : list (list bool) :=
  match ins with
  | [] => []
  | i :: l => (if t_ready (l_tx s) && snd i then [fst i] else []) ++ taken W (link_step W s i) l
  end.
(** The bytes received: one for every cycle in which [valid] is high. *)
Fixpoint received (W : Z) (s : link) (ins : list (list bool * bool)) : list (list bool) :=
  match ins with
  | [] => []
  | i :: l => let s' := link_step W s i in
              (if r_valid (l_rx s') then [r_dout (l_rx s')] else []) ++ received W s' l
  end.

(** One byte on the line followed by [s] clocks of stop level or idle line. *)
Definition frame (W : Z) (p : list bool * nat) : list bool :=
  flat_map (hold W) (false :: fst p) ++ repeat true (snd p).
