(** C48: bytes sent by [UartTx] arrive at [UartRx]. *)
From Verif Require Import Base Uart_Model Uart_Spec Uart_Proofs.
Open Scope Z_scope.

(** Whatever is presented at [din] and [enable], cycle by cycle, and for every bit period of at least
    two clocks: the receiver announces exactly the bytes the transmitter took, in the same order, once
    each, as soon as no byte has been presented for [12 * W] cycles. *)
Theorem C48_round_trip :
  forall W ins d, 2 <= W -> Forall (fun i => byte (fst i)) ins -> byte d ->
    received W link_init (ins ++ repeat (d, false) (Z.to_nat (12 * W))) = taken W link_init ins.
Proof. intros W ins d HW. exact (link_exact W HW ins d). Qed.
Print Assumptions C48_round_trip.

(** At every moment the bytes received are the first ones of those taken; at most two are under way. *)
Theorem C48_in_order :
  forall W ins, 2 <= W -> Forall (fun i => byte (fst i)) ins ->
    exists underway, taken W link_init ins = received W link_init ins ++ underway /\ (length underway <= 2)%nat.
Proof. intros W ins HW. exact (link_prefix W HW ins). Qed.
Print Assumptions C48_in_order.

(** The line: a byte taken in one cycle appears after [W] clocks of idle line as start bit, data bits and
    the beginning of the stop bit, [W] clocks each; [10 * W + 2] cycles later the transmitter takes the
    next byte.  [din] and [enable] do not matter meanwhile. *)
Theorem C48_line :
  forall W b ins t, 2 <= W -> byte b -> t_st t = 0 -> t_txd t = true -> t_ready t = true ->
    Z.of_nat (length ins) = 10 * W + 1 ->
    let t' := tx_end W t ((b, true) :: ins) in
    tx_line W t ((b, true) :: ins) = true :: hold W true ++ flat_map (hold W) (false :: b) ++ [true] /\
    t_st t' = 0 /\ t_txd t' = true /\ t_ready t' = true.
Proof.
  intros W b ins t HW Hb H1 H2 H3 Hl t'.
  destruct (tx_byte_line W HW b ins t Hb) as [A B]; [repeat split; assumption|exact Hl|]. split; [exact A|exact B].
Qed.
Print Assumptions C48_line.

(** The receiver understands every sender that keeps the bit period: any number of bytes, any idle time
    before the first, and between two bytes any time of at least [W / 2 + 2] clocks (for [W >= 3] one
    stop bit is enough). *)
Theorem C48_any_sender :
  forall W idle l, 2 <= W -> Forall (fun p => byte (fst p) /\ W / 2 + 2 <= Z.of_nat (snd p)) l ->
    rx_bytes W rx_init (repeat true idle ++ flat_map (frame W) l) = map fst l.
Proof.
  intros W idle l HW Hl. rewrite (rx_bytes_app W). destruct (rx_quiet W idle rx_init) as [A B]; [split; reflexivity|].
  rewrite A. apply rx_frames; assumption.
Qed.
Print Assumptions C48_any_sender.

(** In particular back-to-back bytes with exactly one stop bit. *)
Theorem C48_one_stop_bit :
  forall W idle l, 3 <= W -> Forall byte l ->
    rx_bytes W rx_init (repeat true idle ++ flat_map (on_line W) l) = l.
Proof.
  intros W idle l HW Hl. pose proof (half W ltac:(lia)) as Hh.
  transitivity (map fst (map (fun b => (b, Z.to_nat W)) l)).
  2:{ rewrite map_map. cbn [fst]. apply map_id. }
  rewrite <- (C48_any_sender W idle); [|lia|].
  - f_equal. f_equal. clear - HW. induction l as [|b l IH]; [reflexivity|]. cbn [flat_map map]. rewrite IH. f_equal.
    unfold on_line, frame. cbn [fst snd]. rewrite (app_comm_cons b [true] false), flat_map_app. f_equal.
    cbn [flat_map]. rewrite app_nil_r. reflexivity.
  - apply Forall_map. eapply Forall_impl; [|exact Hl]. intros b Hb. cbn [fst snd]. split; [exact Hb|].
    destruct (Z.eq_dec W 3) as [->|]; [cbn; lia|lia].
Qed.
Print Assumptions C48_one_stop_bit.

(** A low pulse shorter than half a bit is not taken for a start bit. *)
Theorem C48_glitch :
  forall W idle low high, 4 <= W -> 1 <= Z.of_nat low < W / 2 -> W / 2 <= Z.of_nat low + Z.of_nat high ->
    rx_bytes W rx_init (repeat true idle ++ repeat false low ++ repeat true high) = [] /\
    r_st (rx_end W rx_init (repeat true idle ++ repeat false low ++ repeat true high)) = 0.
Proof.
  intros W idle low high HW Hl Hh. rewrite (rx_bytes_app W), (rx_end_app W).
  destruct (rx_quiet W idle rx_init) as [A B]; [split; reflexivity|]. rewrite A.
  destruct (glitch W HW low high _ Hl Hh B) as [C D]. rewrite C. split; [reflexivity|apply D].
Qed.
Print Assumptions C48_glitch.

(** Threads: one thread calls [send] for a list of bytes with any number of cycles between the calls;
    another calls [recv] as many times, never spending more than [10 * W] cycles between two calls.
    [recv] returns the bytes sent, in order; all calls return. *)
Theorem C48_threads :
  forall W todo gaps N, 2 <= W -> Forall (fun p => byte (snd p)) todo ->
    Forall (fun g => Z.of_nat g <= 10 * W) gaps -> length gaps = length todo ->
    (list_sum (map fst todo) + length todo * (10 * Z.to_nat W + 10) + 12 * Z.to_nat W < N)%nat ->
    let y := sys_run W N (sys_init todo gaps) in
    rev (v_got (y_rcv y)) = map snd todo /\ n_todo (y_snd y) = [].
Proof.
  intros W todo gaps N HW Hf Hg Hl HN. apply threads_done; try assumption.
  assert (E : cost W todo = Z.of_nat (list_sum (map fst todo)) + Z.of_nat (length todo) * (10 * W + 10)).
  { clear. induction todo as [|[g b] l IH]; [reflexivity|]. cbn [cost map fst list_sum length]. rewrite IH. unfold call.
    change (list_sum (g :: map fst l)) with (g + list_sum (map fst l))%nat. lia. }
  rewrite E. nia.
Qed.
Print Assumptions C48_threads.

(** With one clock per bit the receiver does not work: the half-bit counter is set to -1, and the second
    look at the start bit sees the first data bit. *)
Definition bits (l : list Z) : list bool := map (fun x => negb (x =? 0)) l.
Theorem C48_one_clock_per_bit_refuted :
  exists b, byte b /\
    taken 1 link_init [(b, true)] = [b] /\
    received 1 link_init ((b, true) :: repeat (b, false) 100) <> [b].
Proof.
  exists (bits [1;0;1;0;1;0;1;0]). split; [reflexivity|]. split; [reflexivity|]. vm_compute. discriminate.
Qed.
Print Assumptions C48_one_clock_per_bit_refuted.

(** Examples: two bytes at three clocks per bit, the second one presented while the first is under way is
    not taken; two clocks per bit. *)
Example ex_two_bytes :
  let a := bits [1;0;1;1;0;0;1;0] in let b := bits [0;1;1;0;1;0;0;1] in
  let ins := (a, true) :: (b, true) :: repeat (b, false) 33 ++ [(b, true); (a, true)] in
  taken 3 link_init ins = [a; b] /\
  received 3 link_init (ins ++ repeat (a, false) 36) = [a; b].
Proof. vm_compute. split; reflexivity. Qed.
Example ex_threads :
  let a := bits [1;0;1;1;0;0;1;0] in let b := bits [0;1;1;0;1;0;0;1] in
  let y := sys_run 2 200 (sys_init [(3%nat, a); (0%nat, b)] [5%nat; 20%nat]) in
  rev (v_got (y_rcv y)) = [a; b].
Proof. vm_compute. reflexivity. Qed.
Example ex_glitch : rx_bytes 8 rx_init (repeat true 5 ++ repeat false 3 ++ repeat true 100) = [] /\
  rx_bytes 8 rx_init (repeat true 5 ++ repeat false 4 ++ repeat true 100) <> [].
Proof. vm_compute. split; [reflexivity|discriminate]. Qed.
Example ex_stop : rx_bytes 3 rx_init (flat_map (on_line 3) [bits [1;1;0;0;0;0;1;1]; bits [0;0;0;0;0;0;0;0]]) =
  [bits [1;1;0;0;0;0;1;1]; bits [0;0;0;0;0;0;0;0]].
Proof. vm_compute. reflexivity. Qed.
