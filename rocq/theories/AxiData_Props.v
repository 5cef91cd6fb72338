(** C23: a DMA between a RAM and a bus of another width transfers the same bits, in the same
    order, with no bus word lost or repeated, for every width ratio 2^lp, every stride, every
    queue of requests and every handshake schedule. *)
From Verif Require Import Base Ram_Model Ram_Spec AxiDma_Model AxiDma_Spec AxiData_Model AxiData_Spec AxiData_Proofs.
Open Scope Z_scope.

Definition ratio_ok (r : ratio) : Prop := match r with Same => True | Narrow lp | Wide lp => 0 < lp end.

(** ** Bus to RAM *)
(** At every moment the data FSM and the RAM's burst unit are idle, the bus words taken so far
    split into one group per request, of exactly the length the request needs, and the RAM is the
    initial one with every request's words stored in order. *)
Theorem C23_read_data :
  forall r w aw lw m0 ins, 0 <= aw -> 0 <= w -> ratio_ok r ->
    Forall (in_range r w) ins -> Forall (legal_req lw) (rd_requests r w aw lw (rd_init m0) ins) ->
    let s := rd_run r w aw lw (rd_init m0) ins in
    let qs := rd_requests r w aw lw (rd_init m0) ins in
    x_fsm s = 0 -> wb_run (x_wb s) = false ->
    exists bss, Forall2 (own_beats r) qs bss /\ rd_beats r w aw lw (rd_init m0) ins = concat bss /\
      wb_mem (x_wb s) = image r w aw qs bss m0.
Proof. intros r w aw lw m0 ins H1 H2 H3. exact (read_correct r w aw lw H1 H2 H3 m0 ins). Qed.
Print Assumptions C23_read_data.

(** That moment comes: after enough cycles with a valid bus word and no new request. *)
Theorem C23_read_finishes :
  forall r w aw lw m0 ins more, 0 <= aw -> 0 <= w -> ratio_ok r ->
    Forall (in_range r w) (ins ++ more) ->
    Forall (legal_req lw) (rd_requests r w aw lw (rd_init m0) ins) -> Forall rd_no_request more ->
    rd_cost r (rd_requests r w aw lw (rd_init m0) ins) <= count (map xi_valid more) ->
    let s := rd_run r w aw lw (rd_init m0) (ins ++ more) in
    x_fsm s = 0 /\ wb_run (x_wb s) = false /\
    rd_requests r w aw lw (rd_init m0) (ins ++ more) = rd_requests r w aw lw (rd_init m0) ins.
Proof. intros r w aw lw m0 ins more H1 H2 H3. exact (read_finish r w aw lw H1 H2 H3 m0 ins more). Qed.
Print Assumptions C23_read_finishes.

(** ** RAM to bus *)
(** Whatever the schedule, the words put on the write data channel are a prefix of the bus words
    of the jobs, with the last flag at the end of every burst. *)
Theorem C23_write_data :
  forall r w aw lw mem jobs ins, 0 <= aw -> 0 <= w -> ratio_ok r ->
    match r with Wide _ => forall a, 0 <= mem a < 2 ^ w | _ => True end ->
    Forall (job_ok r lw) jobs ->
    exists rest, flat_map (job_beats r w aw mem) jobs =
                 wr_beats r w aw lw mem (wr_init (flat_map job_entries jobs)) ins ++ rest.
Proof.
  intros r w aw lw mem jobs ins H1 H2 H3 H4 H5.
  destruct (write_prefix r w aw lw H1 H2 H3 mem H4 jobs ins H5) as (rest & E & _). exists rest. exact E.
Qed.
Print Assumptions C23_write_data.

(** After enough cycles with a queue entry and a ready bus all of them have been put there. *)
Theorem C23_write_finishes :
  forall r w aw lw mem jobs ins, 0 <= aw -> 0 <= w -> ratio_ok r ->
    match r with Wide _ => forall a, 0 <= mem a < 2 ^ w | _ => True end ->
    Forall (job_ok r lw) jobs -> wr_cost r jobs <= count (map wr_good ins) ->
    wr_beats r w aw lw mem (wr_init (flat_map job_entries jobs)) ins = flat_map (job_beats r w aw mem) jobs.
Proof. intros r w aw lw mem jobs ins H1 H2 H3 H4. exact (write_finish r w aw lw H1 H2 H3 mem H4 jobs ins). Qed.
Print Assumptions C23_write_finishes.

(** ** Non-vacuity *)
Definition rq (o : option (Z * Z * Z)) (v : bool) (d : Z) : rd_in := mkRdIn o v d.
(** 8-bit bus, 16-bit RAM, two requests, gaps in rvalid *)
Definition ex_rd_ins : list rd_in :=
  [rq (Some (3, 2, 2)) false 0; rq None false 0; rq None true 17; rq None false 9; rq None true 34; rq None true 51; rq None true 68;
   rq None false 0; rq (Some (10, 1, 1)) false 0; rq None false 0; rq None true 85; rq None true 102; rq None false 0; rq None false 0].
Example ex_rd_narrow :
  rd_requests (Narrow 1) 8 4 8 (rd_init (fun _ => 0)) ex_rd_ins = [(3, 2, 2); (10, 1, 1)] /\
  rd_beats (Narrow 1) 8 4 8 (rd_init (fun _ => 0)) ex_rd_ins = [17; 34; 51; 68; 85; 102] /\
  (let s := rd_run (Narrow 1) 8 4 8 (rd_init (fun _ => 0)) ex_rd_ins in
   x_fsm s = 0 /\ wb_run (x_wb s) = false /\ map (wb_mem (x_wb s)) [3; 4; 5; 10] = [17 + 256 * 34; 0; 51 + 256 * 68; 85 + 256 * 102]).
Proof. vm_compute. repeat split; reflexivity. Qed.
(** 16-bit bus, 8-bit RAM, three RAM words from two bus words *)
Definition ex_rd_ins2 : list rd_in :=
  [rq (Some (3, 2, 3)) false 0; rq None false 0; rq None true 4660; rq None true 43981; rq None false 0; rq None true 43981;
   rq None false 0; rq None false 0; rq None false 0; rq None false 0].
Example ex_rd_wide :
  rd_beats (Wide 1) 8 4 8 (rd_init (fun _ => 0)) ex_rd_ins2 = [4660; 43981] /\
  (let s := rd_run (Wide 1) 8 4 8 (rd_init (fun _ => 0)) ex_rd_ins2 in
   x_fsm s = 0 /\ wb_run (x_wb s) = false /\ map (wb_mem (x_wb s)) [3; 4; 5; 7; 9] = [52; 0; 18; 205; 0]).
Proof. vm_compute. repeat split; reflexivity. Qed.

Definition ex_jobs_n : list wjob := [mkJob 2 3 2 [3; 1]; mkJob 0 1 1 [2]].
Example ex_jobs_n_ok : Forall (job_ok (Narrow 1) 8) ex_jobs_n.
Proof. repeat constructor; cbn; lia. Qed.
Definition ex_mem (a : Z) : Z := (a * 77 + 4000) mod 65536.
Definition ex_wr_ins (n : nat) : list wr_in :=
  flat_map (fun _ => [mkWrIn true true; mkWrIn true false; mkWrIn false true]) (seq 0 n).
Example ex_wr_narrow :
  wr_beats (Narrow 1) 8 4 8 ex_mem (wr_init (flat_map job_entries ex_jobs_n)) (ex_wr_ins 15) =
  [(ex_mem 2 mod 256, false); (ex_mem 2 / 256, false); (ex_mem 5 mod 256, true); (ex_mem 5 / 256, true);
   (ex_mem 0 mod 256, false); (ex_mem 0 / 256, true)] /\
  wr_cost (Narrow 1) ex_jobs_n <= count (map wr_good (ex_wr_ins 15)).
Proof. vm_compute. split; [reflexivity|discriminate]. Qed.
Definition ex_jobs_w : list wjob := [mkJob 2 3 4 [1; 1]; mkJob 0 1 2 [1]].
Example ex_jobs_w_ok : Forall (job_ok (Wide 1) 8) ex_jobs_w.
Proof. repeat constructor; cbn; lia. Qed.
Definition ex_mem8 (a : Z) : Z := (a * 7 + 40) mod 256.
Example ex_wr_wide :
  wr_beats (Wide 1) 8 4 8 ex_mem8 (wr_init (flat_map job_entries ex_jobs_w)) (ex_wr_ins 20) =
  [(ex_mem8 2 + 256 * ex_mem8 5, true); (ex_mem8 8 + 256 * ex_mem8 11, true); (ex_mem8 0 + 256 * ex_mem8 1, true)].
Proof. vm_compute. reflexivity. Qed.

(** ** Findings *)
(** A write of RAM words that do not fill the last bus word also sends RAM words behind the
    request (all strobes set), so the bus words do not depend on the requested words only. *)
Theorem C23_write_only_requested_refuted :
  ~ (forall r w aw lw mem mem' j ins, ratio_ok r -> 0 <= aw -> 0 <= w -> job_ok r lw j ->
       (forall a, 0 <= mem a < 2 ^ w) -> (forall a, 0 <= mem' a < 2 ^ w) ->
       (forall k, (Z.of_nat k < j_n j) -> mem (burst_addr aw (j_addr j) (j_stride j) k) = mem' (burst_addr aw (j_addr j) (j_stride j) k)) ->
       wr_beats r w aw lw mem (wr_init (job_entries j)) ins = wr_beats r w aw lw mem' (wr_init (job_entries j)) ins).
Proof.
  intros H.
  specialize (H (Wide 1) 8 4 8 (fun a => if a =? 3 then 99 else 5) (fun _ => 5) (mkJob 0 1 3 [2]) (ex_wr_ins 12)).
  assert (E : wr_beats (Wide 1) 8 4 8 (fun a => if a =? 3 then 99 else 5) (wr_init (job_entries (mkJob 0 1 3 [2]))) (ex_wr_ins 12) =
              wr_beats (Wide 1) 8 4 8 (fun _ => 5) (wr_init (job_entries (mkJob 0 1 3 [2]))) (ex_wr_ins 12)).
  { apply H; clear H.
    - cbn; lia.
    - lia.
    - lia.
    - repeat constructor; cbn; lia.
    - intros a. change (2 ^ 8) with 256. destruct (a =? 3); lia.
    - intros a. change (2 ^ 8) with 256. lia.
    - cbn [j_n j_addr j_stride]. intros k Hk. assert (Hc : k = 0%nat \/ k = 1%nat \/ k = 2%nat) by lia.
      destruct Hc as [->|[->| ->]]; reflexivity. }
  vm_compute in E. discriminate.
Qed.
Print Assumptions C23_write_only_requested_refuted.

(** A read of 0 words takes one bus word (that belongs to the next request). *)
Theorem C23_empty_read_refuted :
  ~ (forall r w aw lw m0 ins, 0 <= aw -> 0 <= w -> ratio_ok r -> Forall (in_range r w) ins ->
       Forall (fun q => snd q = 0) (rd_requests r w aw lw (rd_init m0) ins) -> rd_beats r w aw lw (rd_init m0) ins = []).
Proof.
  intros H.
  assert (E : rd_beats Same 8 4 8 (rd_init (fun _ => 0)) [rq (Some (0, 1, 0)) false 0; rq None false 0; rq None true 5; rq None true 6] = []).
  { apply H; cbn; try lia; repeat constructor. }
  vm_compute in E. discriminate.
Qed.
Print Assumptions C23_empty_read_refuted.
