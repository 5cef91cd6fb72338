(** C81, C82: the data movers between an AXI bus and an AXI stream. *)
From Verif Require Import Base Fifo_Model Fifo_Proofs AxiDma_Model AxiDma_Spec AxiDma_Proofs Mover_Model Mover_Spec Mover_Proofs.
Open Scope Z_scope.

(** ** C81: bus to stream *)
(** The stream gets (or still waits in the channel) the words of the bus, none lost, doubled or moved,
    and their last flags begin the flags of one packet for every request, in order; when the mover is
    idle all packets are complete.  Any memory of the queue at the start. *)
Theorem C81_packets : forall aw s fa fm ins, 0 <= aw -> 0 <= s <= 12 -> 2 <= fa ->
  Forall (reasonable aw (2 ^ s)) (r_taken aw s fa (rmv_init fm) ins) ->
  let m := rmv_run aw s fa (rmv_init fm) ins in
  let out := r_sent aw s fa (rmv_init fm) ins ++ waiting (r_ch m) in
  let packets := flags (map snd (r_taken aw s fa (rmv_init fm) ins)) in
  map fst out = r_words aw s fa (rmv_init fm) ins /\ begins (map snd out) packets /\ (r_idle m = true -> map snd out = packets).
Proof. intros aw s fa fm ins A B C D. exact (r_packets aw s fa A B C fm ins D). Qed.
Print Assumptions C81_packets.

(** The bursts on the bus cover the requests, in order, none over a 4 KB border (wanted_bursts of C19). *)
Theorem C81_bursts : forall aw s fa fm ins, 0 <= aw -> 0 <= s <= 12 ->
  Forall (reasonable aw (2 ^ s)) (r_taken aw s fa (rmv_init fm) ins) ->
  exists bss todo, Forall2 (wanted_bursts (2 ^ s)) (r_taken aw s fa (rmv_init fm) ins) bss /\
    r_bursts aw s fa (rmv_init fm) ins ++ todo = concat bss /\
    (req_idle (r_rq (rmv_run aw s fa (rmv_init fm) ins)) = true -> q_valid (r_rq (rmv_run aw s fa (rmv_init fm) ins)) = false -> todo = []).
Proof.
  intros aw s fa fm ins A B. destruct (rq_same aw s fa ins (rmv_init fm)) as (E1 & E2 & E3). rewrite E1, E2, E3. exact (bursts_cover false aw s A B _).
Qed.
Print Assumptions C81_bursts.

(** A word offered and not taken stays. *)
Theorem C81_held : forall aw s fa m i, h_valid (r_ch m) = true -> x_tready i = false -> r_ch (rmv_step aw s fa m i) = r_ch m.
Proof. exact r_held. Qed.
Print Assumptions C81_held.

(** Once no more requests come, a bounded number of cycles in which the bus takes addresses and gives
    words and the stream takes words ends all packets, however many other cycles lie between. *)
Theorem C81_finish : forall aw s fa fm ins more, 0 <= aw -> 0 <= s <= 12 -> 2 <= fa ->
  Forall (reasonable aw (2 ^ s)) (r_taken aw s fa (rmv_init fm) ins) -> Forall (fun i => x_req i = None) more ->
  5 * words (r_taken aw s fa (rmv_init fm) ins) + 1 <= count (map (fun i => x_arready i && x_rvalid i && x_tready i) more) ->
  r_idle (rmv_run aw s fa (rmv_init fm) (ins ++ more)) = true.
Proof. intros aw s fa fm ins more A B C. exact (r_finish aw s fa A B C fm ins more). Qed.
Print Assumptions C81_finish.

(** Two requests, the second queued while the first is moved, over a 4 KB border; the stream and the bus
    both wait at times. *)
Definition ex_rmv : list rmv_in :=
  [mkRmvIn (Some (0xff8, 3)) true false 0 true; mkRmvIn None true false 0 true; mkRmvIn None true true 5 true; mkRmvIn None true true 5 true;
   mkRmvIn (Some (0x20, 2)) true true 6 false; mkRmvIn (Some (0x20, 2)) true true 6 true; mkRmvIn (Some (0x20, 2)) true false 6 true;
   mkRmvIn None true true 7 true; mkRmvIn None true true 8 true; mkRmvIn None true true 8 true; mkRmvIn None true true 9 true; mkRmvIn None true true 10 true;
   mkRmvIn None true true 11 true].
Example C81_example :
  r_taken 32 2 3 (rmv_init (fun _ => 0)) ex_rmv = [(0xff8, 3); (0x20, 2)] /\
  r_bursts 32 2 3 (rmv_init (fun _ => 0)) ex_rmv = [(0xff8, 2); (0x1000, 1); (0x20, 2)] /\
  map snd (r_sent 32 2 3 (rmv_init (fun _ => 0)) ex_rmv) = [false; false; true; false; true] /\
  r_idle (rmv_run 32 2 3 (rmv_init (fun _ => 0)) ex_rmv) = true.
Proof. vm_compute. repeat split; reflexivity. Qed.

(** Finding: after a request of no words (outside [reasonable]) the mover never takes a word, sends a word
    or becomes idle again, whatever happens; the bus was asked for 256 words. *)
Theorem C81_empty_refuted : exists ins, r_taken 32 2 3 (rmv_init (fun _ => 0)) ins = [(0, 0)] /\ r_bursts 32 2 3 (rmv_init (fun _ => 0)) ins = [(0, 256)] /\
  forall more, let m := rmv_run 32 2 3 (rmv_init (fun _ => 0)) ins in
    r_idle (rmv_run 32 2 3 m more) = false /\ r_words 32 2 3 m more = [] /\ r_sent 32 2 3 m more = [].
Proof.
  exists (mkRmvIn (Some (0, 0)) true true 0 true :: repeat (mkRmvIn None true true 0 true) 5). split; [vm_compute; reflexivity|]. split; [vm_compute; reflexivity|].
  intros more m. destruct (stuck_run 32 2 3 more m) as ((_ & B & _) & Y & W); [unfold m; vm_compute; repeat split; reflexivity|].
  unfold r_idle. rewrite B. cbn [negb]. rewrite !andb_false_r. auto.
Qed.
Print Assumptions C81_empty_refuted.

(** ** C82: stream to bus *)
(** The write data channel carries the words of the stream, none lost, doubled or moved, and their last
    flags begin the flags of the bursts put on the address channel (handed over or on offer), in order;
    when the mover is idle every burst is complete and the bursts have as many words as the requests. *)
Theorem C82_beats : forall aw s fa fm ins, 0 <= aw -> 0 <= s <= 12 -> 2 <= fa ->
  Forall (reasonable aw (2 ^ s)) (w_taken aw s fa (wmv_init fm) ins) ->
  let m := wmv_run aw s fa (wmv_init fm) ins in
  let out := w_sent aw s fa (wmv_init fm) ins ++ waiting (w_ch m) in
  let bs := w_bursts aw s fa (wmv_init fm) ins ++ (if q_valid (w_rq m) then [(q_chaddr (w_rq m), q_chlen (w_rq m) + 1)] else []) in
  map fst out = w_words aw s fa (wmv_init fm) ins /\ begins (map snd out) (flags (map snd bs)) /\
  (w_idle m = true -> map snd out = flags (map snd bs) /\ words bs = words (w_taken aw s fa (wmv_init fm) ins)).
Proof. intros aw s fa fm ins A B C D. exact (w_packets aw s fa A B C fm ins D). Qed.
Print Assumptions C82_beats.

(** The bursts cover the requests, in order, none over a 4 KB border. *)
Theorem C82_bursts : forall aw s fa fm ins, 0 <= aw -> 0 <= s <= 12 ->
  Forall (reasonable aw (2 ^ s)) (w_taken aw s fa (wmv_init fm) ins) ->
  exists bss todo, Forall2 (wanted_bursts (2 ^ s)) (w_taken aw s fa (wmv_init fm) ins) bss /\
    w_bursts aw s fa (wmv_init fm) ins ++ todo = concat bss /\
    (req_idle (w_rq (wmv_run aw s fa (wmv_init fm) ins)) = true -> q_valid (w_rq (wmv_run aw s fa (wmv_init fm) ins)) = false -> todo = []).
Proof.
  intros aw s fa fm ins A B. destruct (wq_same aw s fa ins (wmv_init fm)) as (E1 & E2 & E3). rewrite E1, E2, E3. exact (bursts_cover true aw s A B _).
Qed.
Print Assumptions C82_bursts.

Theorem C82_held : forall aw s fa m i, h_valid (w_ch m) = true -> y_wready i = false -> w_ch (wmv_step aw s fa m i) = w_ch m.
Proof. exact w_held. Qed.
Print Assumptions C82_held.

(** Once no more requests come, a bounded number of cycles in which the bus takes addresses and words, the
    write is acceptable and the stream has a word ends everything. *)
Theorem C82_finish : forall aw s fa fm ins more, 0 <= aw -> 0 <= s <= 12 -> 2 <= fa ->
  Forall (reasonable aw (2 ^ s)) (w_taken aw s fa (wmv_init fm) ins) -> Forall (fun i => y_req i = None) more ->
  6 * words (w_taken aw s fa (wmv_init fm) ins) + 1 <= count (map (fun i => y_awready i && y_acc i && y_wready i && y_tvalid i) more) ->
  w_idle (wmv_run aw s fa (wmv_init fm) (ins ++ more)) = true.
Proof. intros aw s fa fm ins more A B C. exact (w_finish aw s fa A B C fm ins more). Qed.
Print Assumptions C82_finish.

(** Two requests, one of them split at a 4 KB border; the address channel, the data channel and the stream
    all wait at times. *)
Definition ex_wmv : list wmv_in :=
  mkWmvIn (Some (0xff8, 3)) true true true false 0 :: mkWmvIn None false true true true 1 :: mkWmvIn None false true false true 1 :: mkWmvIn None false true true true 1 ::
  mkWmvIn None true true true true 2 :: mkWmvIn (Some (0x20, 2)) true true false true 3 :: map (fun k => mkWmvIn None true true true true k) [4; 5; 6; 7; 8; 9; 10; 11; 12; 13; 14; 15].
Example C82_example :
  w_taken 32 2 3 (wmv_init (fun _ => 0)) ex_wmv = [(0xff8, 3); (0x20, 2)] /\
  w_bursts 32 2 3 (wmv_init (fun _ => 0)) ex_wmv = [(0xff8, 2); (0x1000, 1); (0x20, 2)] /\
  map snd (w_sent 32 2 3 (wmv_init (fun _ => 0)) ex_wmv) = [false; true; true; false; true] /\
  w_idle (wmv_run 32 2 3 (wmv_init (fun _ => 0)) ex_wmv) = true.
Proof. vm_compute. repeat split; reflexivity. Qed.

(** Finding: after a request of no words the data side takes the size of the next request for that of a
    burst: one burst of three words is asked for and six words are sent. *)
Theorem C82_empty_refuted : exists ins, w_taken 32 2 3 (wmv_init (fun _ => 0)) ins = [(0, 0); (0x40, 3)] /\
  w_bursts 32 2 3 (wmv_init (fun _ => 0)) ins = [(0x40, 3)] /\
  map snd (w_sent 32 2 3 (wmv_init (fun _ => 0)) ins) = [false; false; true; false; false; true].
Proof.
  exists (mkWmvIn (Some (0, 0)) true true true true 0 :: repeat (mkWmvIn None true true true true 0) 5 ++ mkWmvIn (Some (0x40, 3)) true true true true 0 :: repeat (mkWmvIn None true true true true 0) 20).
  vm_compute. repeat split; reflexivity.
Qed.
Print Assumptions C82_empty_refuted.
