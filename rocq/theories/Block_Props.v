(** C76: block bursts and broadcast bursts of a multibank RAM. *)
From Verif Require Import Base Ram_Model Ram_Spec Ram_Proofs Block_Model Block_Spec Block_Proofs.
Open Scope Z_scope.

(** C76.  The deal of the specification: the [k]-th word of the burst is the [slot_of k]-th word of bank
    [bank_of k], whatever the number of banks and the block size. *)
Theorem C76_layout :
  forall n B ws k, (0 < n)%nat -> (0 < B)%nat -> (k < length ws)%nat ->
    (bank_of n B k < n)%nat /\
    (slot_of n B k < length (dealt n B (bank_of n B k) ws))%nat /\
    nth (slot_of n B k) (dealt n B (bank_of n B k) ws) 0 = nth k ws 0.
Proof.
  intros n B ws k Hn HB Hk. destruct (layout n B ws k Hn HB Hk) as (E & L).
  split; [exact (bank_lt n B k Hn)|]. split; [exact L|exact E].
Qed.
Print Assumptions C76_layout.

(** C76.  A block write from the idle state, for every producer schedule: each bank holds its deal of the first
    [L] valid words at addr, addr+stride, ..., nothing else changed; after the [L]-th word all units are idle. *)
Theorem C76_write_block :
  forall n B L aw lw bw addr stride s ins,
    (0 < n)%nat -> 0 < Z.of_nat B < 2 ^ bw -> 0 <= aw -> 0 < Z.of_nat L < 2 ^ lw -> wk_idle n s ->
    Forall wk_plain ins ->
    let s' := final (wk_step n aw lw bw) s (mkWKIn (mkWBIn true addr stride (Z.of_nat L) false 0 false false) (Z.of_nat B) :: ins) in
    (forall b, (b < n)%nat -> wb_mem (wk_unit s' b) =
       store_words aw addr stride 0 (dealt n B b (firstn L (wk_words ins))) (wb_mem (wk_unit s b))) /\
    ((L <= length (wk_words ins))%nat -> wk_idle n s').
Proof.
  intros n B L aw lw bw addr stride s ins Hn HB Haw HL Id F s'. split.
  - intros b Hb. exact (proj1 (block_write n B L aw lw bw addr stride s ins b Hn HB Haw HL Id F Hb)).
  - exact (proj2 (block_write n B L aw lw bw addr stride s ins 0 Hn HB Haw HL Id F Hn)).
Qed.
Print Assumptions C76_write_block.

(** C76.  done is high exactly in the cycle after the [L]-th word. *)
Theorem C76_write_done :
  forall n B L aw lw bw addr stride s ins x,
    (0 < n)%nat -> 0 < Z.of_nat B < 2 ^ bw -> 0 <= aw -> 0 < Z.of_nat L < 2 ^ lw -> wk_idle n s ->
    Forall wk_plain ins -> wk_plain x ->
    wk_done (final (wk_step n aw lw bw) s
      (mkWKIn (mkWBIn true addr stride (Z.of_nat L) false 0 false false) (Z.of_nat B) :: ins ++ [x])) = true <->
    wbi_valid (wki x) = true /\ length (wk_words (ins ++ [x])) = L.
Proof. exact block_done. Qed.
Print Assumptions C76_write_done.

(** C76.  A block read from the idle state, for every consumer schedule: what is transferred is a prefix of the
    words in the order of the deal, the last one and only it flagged; after more than [L] ready cycles exactly
    all of them, and everything is idle. *)
Theorem C76_read_block :
  forall n B L aw lw bw addr stride mem s rr ins,
    (0 < n)%nat -> 0 < Z.of_nat B < 2 ^ bw -> 0 <= aw -> 0 < Z.of_nat L < 2 ^ lw -> rk_idle n s ->
    Forall rk_plain ins ->
    let all := mkRKIn (mkRBIn true addr stride (Z.of_nat L) rr false) (Z.of_nat B) :: ins in
    let h := combine (map rki all) (outs (rk_step n aw lw bw mem) (rk_out n) s all) in
    (exists m, (m <= L)%nat /\ beats h = firstn m (block_words n B aw mem addr stride L)) /\
    ((L < count_ready (map rki ins))%nat ->
       beats h = block_words n B aw mem addr stride L /\ rk_idle n (final (rk_step n aw lw bw mem) s all)).
Proof. exact block_read. Qed.
Print Assumptions C76_read_block.

(** C76.  A block read of what a block write left returns the words written, if the addresses of the burst do
    not collide. *)
Theorem C76_round_trip :
  forall n B L aw lw bw addr stride s ins,
    (0 < n)%nat -> 0 < Z.of_nat B < 2 ^ bw -> 0 <= aw -> 0 < Z.of_nat L < 2 ^ lw -> wk_idle n s ->
    Forall wk_plain ins -> (L <= length (wk_words ins))%nat ->
    (forall i j, (i < L)%nat -> (j < L)%nat -> burst_addr aw addr stride i = burst_addr aw addr stride j -> i = j) ->
    let s' := final (wk_step n aw lw bw) s (mkWKIn (mkWBIn true addr stride (Z.of_nat L) false 0 false false) (Z.of_nat B) :: ins) in
    forall r rr outs_in, rk_idle n r -> Forall rk_plain outs_in -> (L < count_ready (map rki outs_in))%nat ->
    let mem := fun b => wb_mem (wk_unit s' b) in
    let all := mkRKIn (mkRBIn true addr stride (Z.of_nat L) rr false) (Z.of_nat B) :: outs_in in
    beats (combine (map rki all) (outs (rk_step n aw lw bw mem) (rk_out n) r all)) = flagged (firstn L (wk_words ins)).
Proof.
  intros n B L aw lw bw addr stride s ins Hn HB Haw HL Id F Len Inj s' r rr oi Ir Fr C mem all.
  rewrite <- (block_round_trip n B L aw lw bw addr stride s ins Hn HB Haw HL Id F Len Inj).
  exact (proj1 (proj2 (block_read n B L aw lw bw addr stride mem r rr oi Hn HB Haw HL Ir Fr) C)).
Qed.
Print Assumptions C76_round_trip.

(** C76.  Quit, or a last word, stops a burst in any state: everything is idle in the next cycle; a last word raises
    done. *)
Theorem C76_quit :
  forall n aw lw bw,
    (forall s x, wbi_cond (wki x) = false ->
       wbi_quit (wki x) = true \/ wbi_valid (wki x) = true /\ wbi_last (wki x) = true -> wk_idle n (wk_step n aw lw bw s x)) /\
    (forall s x, wk_fsm s <> 0%nat -> wbi_valid (wki x) = true -> wbi_last (wki x) = true ->
       wk_done (wk_step n aw lw bw s x) = true) /\
    (forall mem s x, rbi_cond (rki x) = false -> rbi_rquit (rki x) = true -> rk_idle n (rk_step n aw lw bw mem s x)).
Proof.
  intros n aw lw bw. split; [exact (wblock_stop n aw lw bw)|]. split; [exact (wblock_last n aw lw bw)|].
  exact (rblock_stop n aw lw bw).
Qed.
Print Assumptions C76_quit.

(** C76.  A broadcast write: every bank gets all words. *)
Theorem C76_broadcast :
  forall aw lw us addr stride L ins b, 0 <= aw -> 0 < Z.of_nat L < 2 ^ lw -> wb_run (us b) = false ->
    Forall (fun i => wbi_cond i = false /\ wbi_last i = false /\ wbi_quit i = false) ins ->
    let us' := final (bcast_step aw lw) us (mkWBIn true addr stride (Z.of_nat L) false 0 false false :: ins) in
    wb_mem (us' b) = store_words aw addr stride 0 (firstn L (valid_words ins)) (wb_mem (us b)).
Proof.
  intros aw lw us addr stride L ins b Haw HL R F us'. subst us'. rewrite bcast_unit.
  exact (proj1 (wburst_correct aw lw (us b) addr stride L ins Haw HL R F)).
Qed.
Print Assumptions C76_broadcast.

(** C76, finding: the wready returned by write_burst_block is low exactly while a word is stored into the first
    bank (the FSM index was already moved on when the states are collected) ... *)
Theorem C76_wready_refuted :
  forall n B L aw lw bw addr stride s ins,
    (0 < n)%nat -> 0 < Z.of_nat B < 2 ^ bw -> 0 <= aw -> 0 < Z.of_nat L < 2 ^ lw -> wk_idle n s ->
    Forall wk_plain ins -> (length (wk_words ins) < L)%nat ->
    let s' := final (wk_step n aw lw bw) s (mkWKIn (mkWBIn true addr stride (Z.of_nat L) false 0 false false) (Z.of_nat B) :: ins) in
    wk_ready n s' = negb (bank_of n B (length (wk_words ins)) =? 0)%nat.
Proof. exact block_ready. Qed.
Print Assumptions C76_wready_refuted.
(** ... so a producer that keeps a word until it sees wready has its words stored wrongly: of 10 and 20, for two
    banks and blocks of one word, both banks get 10. *)
Theorem C76_producer_refuted :
  exists s, wk_idle 2 s /\
    let s' := feed 2 4 8 4 (wk_step 2 4 8 4 s (mkWKIn (mkWBIn true 3 1 2 false 0 false false) 1)) [10; 20] 8 in
    wk_fsm s' = 0%nat /\ wb_mem (wk_unit s' 0) 3 = 10 /\ wb_mem (wk_unit s' 1) 3 = 10.
Proof.
  exists (mkWK 0 0 0 0 false (fun _ => wb_init (fun _ => 0))).
  split; [split; [reflexivity|intros b _; reflexivity]|]. vm_compute. repeat split; reflexivity.
Qed.
Print Assumptions C76_producer_refuted.

(** Three banks, blocks of two words, seven words with pauses of producer and consumer, stride 3 in banks of 16. *)
Example C76_ex :
  let i v d := mkWKIn (mkWBIn false 0 0 0 v d false false) 0 in
  let win := mkWKIn (mkWBIn true 14 3 7 false 0 false false) 2
             :: [i true 1; i false 9; i true 2; i true 3; i true 4; i false 9; i true 5; i true 6; i true 7; i true 8] in
  let s := final (wk_step 3 4 8 4) (mkWK 0 0 0 0 false (fun _ => wb_init (fun _ => 0))) win in
  let mem := fun b => wb_mem (wk_unit s b) in
  let r c := mkRKIn (mkRBIn false 0 0 0 c false) 0 in
  let rin := mkRKIn (mkRBIn true 14 3 7 true false) 2 :: map r [true; true; false; true; true; true; true; false; true; false; true] in
  map (fun b => map (mem b) [14; 1; 4]) [0; 1; 2]%nat = [[1; 2; 7]; [3; 4; 0]; [5; 6; 0]] /\
  beats (combine (map rki rin) (outs (rk_step 3 4 8 4 mem) (rk_out 3) (mkRK 0 0 0 0 false false (fun _ => false) (fun _ => rb_init)) rin)) =
  [(1, false); (2, false); (3, false); (4, false); (5, false); (6, false); (7, true)].
Proof. vm_compute. split; reflexivity. Qed.
