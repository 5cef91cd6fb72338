(** Property theorems C19 (DMA bursts), C21 (outstanding writes) and C22 (request words). *)
From Verif Require Import Base Pack Vlog Seq_Model AxiChan_Model AxiChan_Spec AxiChan_Proofs AxiChan_Props
  AxiDma_Model AxiDma_Spec AxiDma_Proofs.
Open Scope Z_scope.

(** ** C19 *)
(** [s] = log2 of the bytes of a bus word (8-bit to 32768-bit buses), any address width.  For
    every input schedule, if the thread only asks for reasonable transfers, the bursts on the bus
    are, in order, a prefix of [concat bss], where [bss] lists for every accepted request bursts
    that cover exactly its words, of 1 to 256 beats and inside one 4KB page each; the prefix is
    everything whenever the generator is idle. *)
Theorem C19_bursts_cover :
  forall write aw s ins, 0 <= aw -> 0 <= s <= 12 ->
    Forall (reasonable aw (2 ^ s)) (taken write aw s rq_init ins) ->
    exists bss todo, Forall2 (wanted_bursts (2 ^ s)) (taken write aw s rq_init ins) bss /\
      bursts write aw s rq_init ins ++ todo = concat bss /\
      (req_idle (rq_run write aw s rq_init ins) = true -> q_valid (rq_run write aw s rq_init ins) = false ->
       todo = []).
Proof. intros write aw s ins Haw Hs. exact (bursts_cover write aw s Haw Hs ins). Qed.
Print Assumptions C19_bursts_cover.

(** The generator finishes: after enough cycles in which the bus is ready, the request queue has
    room and (writes) the outstanding counter allows another burst, every burst has been sent. *)
Theorem C19_bursts_finish :
  forall write aw s ins more, 0 <= aw -> 0 <= s <= 12 ->
    Forall (reasonable aw (2 ^ s)) (taken write aw s rq_init ins) ->
    Forall no_request more ->
    3 * words (taken write aw s rq_init ins) + 1 <= count (map good more) ->
    req_idle (rq_run write aw s rq_init (ins ++ more)) = true /\
    exists bss, Forall2 (wanted_bursts (2 ^ s)) (taken write aw s rq_init ins) bss /\
      bursts write aw s rq_init (ins ++ more) = concat bss.
Proof.
  intros write aw s ins more Haw Hs Hr Hn Hg.
  destruct (bursts_finish write aw s Haw Hs ins more Hr Hn Hg) as [H1 H2].
  assert (Et : taken write aw s rq_init (ins ++ more) = taken write aw s rq_init ins).
  { unfold taken. rewrite outs_app, concat_app.
    fold (taken write aw s (final (rq_step write aw s) rq_init ins) more).
    rewrite (taken_none write aw s more) by exact Hn. apply app_nil_r. }
  destruct (bursts_cover write aw s Haw Hs (ins ++ more)) as (bss & todo & A1 & A2 & A3); [rewrite Et; exact Hr|].
  split; [exact H1|]. exists bss. rewrite Et in A1. split; [exact A1|].
  rewrite (A3 H1 H2), app_nil_r in A2. exact A2.
Qed.
Print Assumptions C19_bursts_finish.

(** The write data side is told the length of every burst put on the address channel, in order. *)
Theorem C19_write_queue :
  forall aw s ins, 0 <= aw -> 0 <= s <= 12 ->
    Forall (reasonable aw (2 ^ s)) (taken true aw s rq_init ins) ->
    let q := rq_run true aw s rq_init ins in
    queued true aw s rq_init ins =
    map snd (bursts true aw s rq_init ins ++ if q_valid q then [(q_chaddr q, q_chlen q + 1)] else []).
Proof.
  intros aw s ins Haw Hs Hr q. rewrite map_app.
  refine (queued_run aw s Haw Hs ins rq_init [] [] (Ok_init aw s) _ Hr). exists []. split; [constructor|reflexivity].
Qed.
Print Assumptions C19_write_queue.

(** Bus words asked for a transfer of [n] RAM words: all of them on a bus 2^k times narrower, and
    the fewest that hold them on a bus 2^k times wider. *)
Theorem C19_global_size :
  forall r n, 0 <= n ->
    (forall k, r = Narrow k -> 0 <= k -> global_size r n = n * 2 ^ k) /\
    (forall k, r = Wide k -> 0 <= k -> n <= global_size r n * 2 ^ k < n + 2 ^ k).
Proof. exact global_size_spec. Qed.
Print Assumptions C19_global_size.

(** Non-vacuity: 300 words of 4 bytes from 0x1f0a (rounded to 0x1f08), 32-bit addresses, then 3
    words from 0. *)
Definition ex_dma : list rq_in :=
  mkRqIn (Some (0x1f0a, 300)) false true true :: repeat (mkRqIn None false true true) 4 ++
  repeat (mkRqIn None true false true) 2 ++ repeat (mkRqIn None false true false) 2 ++
  repeat (mkRqIn (Some (0, 3)) false true true) 2.
Example ex_dma_taken : taken true 32 2 rq_init ex_dma = [(0x1f0a, 300); (0, 3)].
Proof. vm_compute. reflexivity. Qed.
Example ex_dma_reasonable : Forall (reasonable 32 (2 ^ 2)) (taken true 32 2 rq_init ex_dma).
Proof. rewrite ex_dma_taken. repeat constructor; cbn; lia. Qed.
Example ex_dma_bursts :
  bursts true 32 2 rq_init (ex_dma ++ repeat (mkRqIn None false true true) 4) = [(0x1f08, 62); (0x2000, 238); (0, 3)].
Proof. vm_compute. reflexivity. Qed.

(** Finding: a read DMA of no words (outside [reasonable]) asks the bus for 256. *)
Theorem C19_empty_read_refuted :
  exists ins, taken false 32 2 rq_init ins = [(0, 0)] /\ bursts false 32 2 rq_init ins = [(0, 256)].
Proof.
  exists (mkRqIn (Some (0, 0)) false true true :: repeat (mkRqIn None false true true) 5).
  vm_compute. split; reflexivity.
Qed.
Print Assumptions C19_empty_read_refuted.
(** Finding: a write DMA of no words sends no address but still queues a burst of length 0 for
    the data side. *)
Theorem C19_empty_write_refuted :
  exists ins, taken true 32 2 rq_init ins = [(0, 0)] /\ bursts true 32 2 rq_init ins = [] /\
              queued true 32 2 rq_init ins = [0].
Proof.
  exists (mkRqIn (Some (0, 0)) false true true :: repeat (mkRqIn None false true true) 5).
  vm_compute. repeat split; reflexivity.
Qed.
Print Assumptions C19_empty_write_refuted.

(** ** C21 *)
(** The counter closed over the generated code of the write address channel, any callers, any
    counter width of at least 2 bits (smaller ones are refused), any inputs such that the slave
    never responds to an address it has not taken in an earlier cycle. *)
Definition outstanding_trace (w : Z) (wd : var -> Z) (cs : list AxiChan_Props.rq) (ins : list env) : list env :=
  let code := aw_code (acceptable_expr w) cs in
  chan_trace wd code chan_reset (with_count w wd code chan_reset 0 ins).
Definition outstanding_final (w : Z) (wd : var -> Z) (cs : list AxiChan_Props.rq) (ins : list env) : env :=
  let code := aw_code (acceptable_expr w) cs in
  chan_final wd code chan_reset (with_count w wd code chan_reset 0 ins).

Lemma acceptable_is w e : truth (eval e (acceptable_expr w)) = write_acceptable w (e cnt_var).
Proof. unfold acceptable_expr. cbn [eval sem_bin]. apply truth_b2z. Qed.

Lemma outstanding w wd cs ins : 2 <= w -> widths wd ->
  let t := outstanding_trace w wd cs ins in
  answers_only_requests 0 (map (fun e => (aw_hs e, b_hs e)) t) ->
  count_after w 0 t = count (map aw_hs t) - count (map b_hs t) /\
  0 <= count_after w 0 t /\
  count_after w 0 t + b2z (truth (outstanding_final w wd cs ins vld)) <= 2 ^ w - 1.
Proof.
  intros Hw [Hwv Hwc] t Hans. unfold t, outstanding_trace, outstanding_final in *. clear t.
  rewrite aw_code_eq in *. set (ss := map (aw_site (acceptable_expr w)) cs).
  replace (chan_code (map (fun a => gcall [] (aw_site (acceptable_expr w) a)) cs)) with (gcode [] ss) in *
    by (unfold gcode, ss; rewrite map_map; reflexivity).
  pose proof (own_P [adr; len] eq_refl) as HP.
  destruct (count_run w Hw wd Hwv Hwc [adr; len] [] (fun v H => match H with end)
           ltac:(cbn; intuition discriminate) ltac:(cbn; intuition discriminate) (fun v H => proj1 (HP v H)) ss
           ltac:(apply Forall_forall; intros x Hx; apply in_map_iff in Hx; destruct Hx as (a & <- & _); pay_tac)
           ltac:(apply Forall_forall; intros x Hx; apply in_map_iff in Hx; destruct Hx as (a & <- & _); reflexivity)
           ins chan_reset 0 (armed_reset wd [] ss)) as (A & B & C); [lia| |exact Hans|].
  - pose proof (cap w Hw). change (truth (chan_reset vld)) with false. cbn [b2z]. lia.
  - split; [exact A|split; [exact B|exact C]].
Qed.

Theorem C21_outstanding_count :
  forall w wd cs ins, 2 <= w -> widths wd ->
    let t := outstanding_trace w wd cs ins in
    answers_only_requests 0 (map (fun e => (aw_hs e, b_hs e)) t) ->
    count_after w 0 t = count (map aw_hs t) - count (map b_hs t) /\ 0 <= count_after w 0 t < 2 ^ w.
Proof.
  intros w wd cs ins Hw Hwd t Hans. destruct (outstanding w wd cs ins Hw Hwd Hans) as (A & B & C).
  fold t in A, B, C. split; [exact A|]. destruct (truth (outstanding_final w wd cs ins vld)); cbn [b2z] in C; lia.
Qed.
Print Assumptions C21_outstanding_count.

Lemma count_transfers P t : Z.of_nat (length (transfers P t)) = count (map aw_hs t).
Proof.
  induction t as [|e t IH]; [reflexivity|]. cbn [map]. unfold transfers in *. cbn [flat_map].
  rewrite app_length, Nat2Z.inj_add, IH. unfold count. cbn [fold_right]. f_equal. unfold aw_hs.
  destruct (truth (e vld) && truth (e rdy)); reflexivity.
Qed.

(** When completion is reported, every accepted (non-empty) write request has had its response. *)
Theorem C21_completed :
  forall w wd cs ins, 2 <= w -> widths wd ->
    let t := outstanding_trace w wd cs ins in
    let s := outstanding_final w wd cs ins in
    answers_only_requests 0 (map (fun e => (aw_hs e, b_hs e)) t) ->
    exclusive (map (aw_caller wd) cs) t ->
    write_completed (count_after w 0 t) (truth (s vld)) = true ->
    Z.of_nat (length (accepted (aw_ack (acceptable_expr w)) (map (aw_caller wd) cs) t)) = count (map b_hs t).
Proof.
  intros w wd cs ins Hw Hwd t s Hans Hex Hc.
  destruct (outstanding w wd cs ins Hw Hwd Hans) as (A & B & _). fold t in A, B.
  unfold write_completed, has_outstanding in Hc. apply negb_true_iff, orb_false_iff in Hc. destruct Hc as [Hc Hv].
  unfold t, outstanding_trace in Hex |- *.
  rewrite (C20_write_address_once wd (acceptable_expr w) cs _ Hwd Hex).
  fold (outstanding_final w wd cs ins). fold s. unfold on_offer. rewrite Hv, app_nil_r, count_transfers.
  fold (outstanding_trace w wd cs ins). fold t. lia.
Qed.
Print Assumptions C21_completed.

(** Non-vacuity: a two-bit counter, requests every cycle, late responses.  At 2 outstanding
    addresses no further one is accepted. *)
Definition ex_ow_env (r c1 a1 l1 b : Z) : env := fun v =>
  match v with
  | User 1 => r | User 10 => c1 | User 11 => a1 | User 12 => l1 | User 40 => b
  | _ => 0
  end.
Definition ex_ow_ins : list env :=
  repeat (ex_ow_env 1 1 64 2 0) 6 ++ [ex_ow_env 1 0 0 0 1; ex_ow_env 1 0 0 0 1; ex_ow_env 1 0 0 0 1; ex_ow_env 1 0 0 0 0].
Definition ex_ow_cs : list AxiChan_Props.rq := [(Some (EVar (User 10)), EVar (User 11), EVar (User 12))].
Example ex_ow_answers :
  answers_only_requests 0 (map (fun e => (aw_hs e, b_hs e)) (outstanding_trace 2 ex_w ex_ow_cs ex_ow_ins)).
Proof. vm_compute. repeat split; intros; discriminate || reflexivity. Qed.
Example ex_ow_hs : map (fun e => (aw_hs e, b_hs e)) (outstanding_trace 2 ex_w ex_ow_cs ex_ow_ins) =
  [(false, false); (true, false); (true, false); (true, false); (false, false); (false, false);
   (false, true); (false, true); (false, true); (false, false)].
Proof. vm_compute. reflexivity. Qed.
Example ex_ow_count :
  count_after 2 0 (outstanding_trace 2 ex_w ex_ow_cs (firstn 6 ex_ow_ins)) = 3 /\
  count_after 2 0 (outstanding_trace 2 ex_w ex_ow_cs ex_ow_ins) = 0.
Proof. vm_compute. split; reflexivity. Qed.

(** ** C22 *)
Theorem C22_pack_unpack :
  forall ow aw d, 0 <= ow -> 0 <= aw -> fits ow aw d -> unpack_req ow aw (pack_req ow aw d) = d.
Proof. exact pack_unpack. Qed.
Print Assumptions C22_pack_unpack.

Example ex_fits : fits 2 8 (mkDreq 3 255 1 256 128).
Proof. repeat split; cbn; lia. Qed.
Example ex_pack : pack_req 2 8 (mkDreq 3 255 1 256 128) = 34326380672 /\
  unpack_req 2 8 34326380672 = mkDreq 3 255 1 256 128.
Proof. vm_compute. split; reflexivity. Qed.
