(** Property theorems C14 (RAM), C15 (bursts), C16 (multibank). *)
From Verif Require Import Base Pack Ram_Model Ram_Spec Ram_Proofs.
Open Scope Z_scope.

(** C14.  Any number of ports, any history [h] (in which two ports never write one address in
    the same cycle; any order of the simulator's write events), any port [p] and request [r]
    on it in the next cycle: one cycle later the port's rdata is its own write data if it
    wrote, the last value ever written to the address through any port (else the initial
    content) if it read, and unchanged if it was not enabled. *)
Theorem C14_ram_read_last_write :
  forall s h reqs ord p,
    Forall legal h -> Forall (fun c => length (fst c) = length (ram_rdata s)) h ->
    length reqs = length (ram_rdata s) -> (p < length reqs)%nat ->
    let r := nth p reqs (mkReq false false 0 0) in
    nth p (ram_rdata (ram_run s (h ++ [(reqs, ord)]))) 0 =
      if r_enable r then
        if r_wenable r then r_wdata r
        else last_write (history_writes h) (r_addr r) (ram_mem s (r_addr r))
      else nth p (ram_rdata (ram_run s h)) 0.
Proof. intros s h reqs ord p H1 H2 H3 H4. exact (ram_read_correct s h reqs ord p _ H1 H2 H3 H4). Qed.
Print Assumptions C14_ram_read_last_write.

(** C14, asynchronous RAM: the combinational read sees exactly the writes of earlier cycles. *)
Theorem C14_async_ram_read_last_write :
  forall s h r, Forall legal h ->
    ram_async_rdata (ram_run s h) r = last_write (history_writes h) (r_addr r) (ram_mem s (r_addr r)).
Proof. intros s h r H. exact (run_mem h s (r_addr r) H). Qed.
Print Assumptions C14_async_ram_read_last_write.

(** C14, initial contents: an address never written reads the given initial value, 0 beyond
    the list. *)
Theorem C14_ram_initvals :
  forall vs m0 n h a, Forall legal h -> 0 <= a -> ~ In a (map fst (history_writes h)) ->
    ram_mem (ram_run (mkRam (ram_initial (Some vs) m0) (repeat 0 n)) h) a =
      if a <? Z.of_nat (length vs) then nth (Z.to_nat a) vs 0 else 0.
Proof.
  intros vs m0 n h a H Ha Hn. rewrite run_mem, last_write_notin by assumption. cbn.
  destruct (a <? Z.of_nat (length vs)) eqn:E; [reflexivity|]. apply nth_overflow. lia.
Qed.
Print Assumptions C14_ram_initvals.

(** The same-address double write really is order dependent (why the hypothesis is there). *)
Theorem C14_double_write_race_refuted :
  exists s reqs o1 o2 a,
    Permutation.Permutation o1 (cycle_writes reqs) /\ Permutation.Permutation o2 (cycle_writes reqs) /\
    ram_mem (ram_step s reqs o1) a <> ram_mem (ram_step s reqs o2) a.
Proof.
  exists (mkRam (fun _ => 0) [0; 0]), [mkReq true true 3 1; mkReq true true 3 2],
    [(3, 1); (3, 2)], [(3, 2); (3, 1)], 3.
  split; [apply Permutation.Permutation_refl|]. split; [apply Permutation.perm_swap|]. cbn. discriminate.
Qed.
Print Assumptions C14_double_write_race_refuted.

Example C14_ex :
  let s := mkRam (fun _ => 9) [0; 0] in
  let c1 := ([mkReq true true 5 11; mkReq true true 6 12], [(6, 12); (5, 11)]) in
  let c2 := ([mkReq true false 6 0; mkReq true true 5 13], [(5, 13)]) in
  let c3 := ([mkReq true false 5 0; mkReq true false 7 0], []) in
  legal c1 /\ legal c2 /\ ram_rdata (ram_run s [c1; c2; c3]) = [13; 9].
Proof.
  cbn. split; [|split]; [split; [apply Permutation.perm_swap|]|split; [apply Permutation.Permutation_refl|]|reflexivity];
  repeat constructor; cbn; intuition lia.
Qed.

(** C15.  A read burst started from the idle state, for every consumer ready schedule [ins]
    (with no new request and no quit): what is transferred is always a prefix of the requested
    words, the last one and only it flagged; and after more than [n] ready cycles exactly all
    of them have been transferred and the unit is idle. *)
Theorem C15_read_burst :
  forall aw lw mem s addr stride n rr ins,
    0 <= aw -> 0 < Z.of_nat n < 2 ^ lw -> rb_run s = false -> rb_rvalid s = false ->
    Forall (fun i => rbi_cond i = false /\ rbi_rquit i = false) ins ->
    let all := mkRBIn true addr stride (Z.of_nat n) rr false :: ins in
    let h := combine all (outs (rb_step aw lw mem) rb_out s all) in
    (exists m, (m <= n)%nat /\ beats h = firstn m (burst_words aw mem addr stride n)) /\
    ((n < count_ready ins)%nat ->
       beats h = burst_words aw mem addr stride n /\
       rb_run (final (rb_step aw lw mem) s all) = false).
Proof. intros aw lw mem s addr stride n rr ins H1 H2 H3 H4 H5. exact (rburst_correct aw lw mem s addr stride n rr ins H1 H2 H3 H4 H5). Qed.
Print Assumptions C15_read_burst.

(** C15.  A write burst: for every producer schedule, the memory is the initial memory with
    the first [n] valid words stored at addr, addr+stride, ..., and nothing else changed;
    the unit stays ready exactly until the n-th word. *)
Theorem C15_write_burst :
  forall aw lw s addr stride n ins,
    0 <= aw -> 0 < Z.of_nat n < 2 ^ lw -> wb_run s = false ->
    Forall (fun i => wbi_cond i = false /\ wbi_last i = false /\ wbi_quit i = false) ins ->
    let s' := final (wb_step aw lw) s (mkWBIn true addr stride (Z.of_nat n) false 0 false false :: ins) in
    wb_mem s' = store_words aw addr stride 0 (firstn n (valid_words ins)) (wb_mem s) /\
    (wb_ready s' = true <-> (length (valid_words ins) < n)%nat).
Proof. intros aw lw s addr stride n ins H1 H2 H3 H4. exact (wburst_correct aw lw s addr stride n ins H1 H2 H3 H4). Qed.
Print Assumptions C15_write_burst.

(** C15.  done pulses in exactly one cycle: the one after the n-th word was accepted. *)
Theorem C15_write_burst_done :
  forall aw lw s addr stride n ins i,
    0 <= aw -> 0 < Z.of_nat n < 2 ^ lw -> wb_run s = false ->
    Forall (fun i => wbi_cond i = false /\ wbi_last i = false /\ wbi_quit i = false) ins ->
    (wbi_cond i = false /\ wbi_last i = false /\ wbi_quit i = false) ->
    wb_done (final (wb_step aw lw) s
       (mkWBIn true addr stride (Z.of_nat n) false 0 false false :: ins ++ [i])) = true <->
    wbi_valid i = true /\ length (valid_words (ins ++ [i])) = n.
Proof. intros aw lw s addr stride n ins i H1 H2 H3 H4 H5. exact (wburst_done aw lw s addr stride n ins i H1 H2 H3 H4 H5). Qed.
Print Assumptions C15_write_burst_done.

Example C15_ex_read :
  let i r := mkRBIn false 0 0 0 r false in
  let all := mkRBIn true 14 3 3 false false :: map i [true; false; true; true; false; true; true] in
  beats (combine all (outs (rb_step 4 8 (fun a => 100 + a)) rb_out rb_init all))
  = [(114, false); (101, false); (104, true)].
Proof. vm_compute. reflexivity. Qed.

Example C15_ex_write :
  let i v d := mkWBIn false 0 0 0 v d false false in
  let all := mkWBIn true 14 3 2 false 0 false false :: [i true 7; i false 8; i true 9; i true 10] in
  let s := final (wb_step 4 8) (wb_init (fun _ => 0)) all in
  map (wb_mem s) [14; 1; 4] = [7; 9; 0] /\ wb_ready s = false.
Proof. vm_compute. split; reflexivity. Qed.

(** C16.  A multibank RAM with 2^k banks behaves, over any sequence of logical reads and
    writes, like one flat memory: every read returns what the flat memory holds. *)
Theorem C16_multibank_is_flat_memory :
  forall k banks ops a, 0 <= k ->
    Forall (fun o => match o with MbWrite a _ => 0 <= a | _ => True end) ops -> 0 <= a ->
    let s := fold_left (mb_step k) (ops ++ [MbRead a]) (mb_init banks) in
    mb_out k s = fold_left flat_step ops (flat_init k banks) a /\ mb_rvalid s = true.
Proof. intros k banks ops a H1 H2 H3. exact (mb_correct k H1 banks ops a H2 H3). Qed.
Print Assumptions C16_multibank_is_flat_memory.

(** C16.  The address map is a bijection between addresses and (bank, word) pairs. *)
Theorem C16_bank_map_bijective :
  forall k, 0 <= k ->
    (forall a b, mb_bank k a = mb_bank k b -> mb_addr k a = mb_addr k b -> a = b) /\
    (forall bank word, 0 <= bank < 2 ^ k -> 0 <= word ->
       exists a, 0 <= a /\ mb_bank k a = bank /\ mb_addr k a = word).
Proof.
  intros k Hk. split; [exact (mb_split_inj k Hk)|].
  intros bank word Hb Hw. assert (0 < 2 ^ k) by (apply Z.pow_pos_nonneg; lia).
  exists (word * 2 ^ k + bank). unfold mb_bank, mb_addr. rewrite Z.shiftr_div_pow2 by lia.
  split; [nia|]. rewrite Z.add_comm, Z_mod_plus_full, Z.mod_small by lia. split; [reflexivity|].
  rewrite Z.add_comm, Z.div_add_l, Z.div_small by lia. lia.
Qed.
Print Assumptions C16_bank_map_bijective.

(** C16.  Packed access [thread/ram.py:716-725,815-824]: reading packed yields the words of all
    banks, bank 0 least significant; the packed write stores each of them back in its bank. *)
Theorem C16_packed_words :
  forall w vs i, 0 <= w -> (i < length vs)%nat ->
    packed_word w (pack_words w vs) i = nth i vs 0 mod 2 ^ w.
Proof. intros w vs i H1 H2. exact (packed_word_pack w vs i H1 H2). Qed.
Print Assumptions C16_packed_words.

Example C16_ex :
  let ops := [MbWrite 5 50; MbWrite 6 60; MbWrite 1 10; MbRead 6] in
  map (fun a => mb_out 2 (fold_left (mb_step 2) (ops ++ [MbRead a]) (mb_init (fun _ _ => 0)))) [5; 6; 1; 9]
  = [50; 60; 10; 0].
Proof. vm_compute. reflexivity. Qed.
Example C16_ex_packed : pack_words 8 [1; 2; 3] = 0x030201 /\ packed_word 8 0x030201 1 = 2.
Proof. vm_compute. split; reflexivity. Qed.
