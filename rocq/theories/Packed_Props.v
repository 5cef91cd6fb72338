(** C77: packed bursts of a multibank RAM. *)
From Verif Require Import Base Ram_Model Ram_Spec Ram_Proofs Packed_Model Packed_Spec Packed_Proofs.
Open Scope Z_scope.

(** C77 (2^sh banks, aligned start, one wide word after the other).  A packed write of [L] wide words, for every
    producer schedule: the RAM as one memory of elements is the old one with the [L*n] elements stored at
    consecutive addresses, and nothing else changed; wready until the [L]-th word. *)
Theorem C77_write_partial :
  forall n sh aw lw dw addr L s ins,
    0 <= sh <= aw -> Z.of_nat n = 2 ^ sh -> addr mod Z.of_nat n = 0 -> 0 <= dw -> 0 < Z.of_nat L < 2 ^ lw ->
    pw_run s = false -> Forall (fun i => wbi_cond i = false /\ wbi_last i = false /\ wbi_quit i = false) ins ->
    let s' := final (pw_step n aw lw dw) s (mkWBIn true addr (Z.of_nat n) (Z.of_nat L) false 0 false false :: ins) in
    (forall a, one_memory n (pw_banks s') a =
       store_words aw addr 1 0 (elements n dw (firstn L (valid_words ins))) (one_memory n (pw_banks s)) a) /\
    (pw_ready s' = true <-> (length (valid_words ins) < L)%nat).
Proof.
  intros n sh aw lw dw addr L s ins Hsh Hn Hal Hdw HL R F s'.
  destruct (packed_write n aw lw dw addr (Z.of_nat n) L s ins Hdw ltac:(lia) HL R F) as (B & W). fold (wstart_in addr (Z.of_nat n) (Z.of_nat L)) in s'.
  split; [|exact W]. intros a. rewrite <- (one_memory_store n sh aw addr Hsh Hn Hal). apply B.
Qed.
Print Assumptions C77_write_partial.

(** C77.  done, for all numbers of banks, addresses and strides. *)
Theorem C77_done :
  forall n aw lw dw addr stride L s ins i, 0 <= aw -> 0 < Z.of_nat L < 2 ^ lw -> pw_run s = false ->
    Forall (fun i => wbi_cond i = false /\ wbi_last i = false /\ wbi_quit i = false) ins ->
    (wbi_cond i = false /\ wbi_last i = false /\ wbi_quit i = false) ->
    pw_done (final (pw_step n aw lw dw) s (mkWBIn true addr stride (Z.of_nat L) false 0 false false :: ins ++ [i])) = true <->
    wbi_valid i = true /\ length (valid_words (ins ++ [i])) = L.
Proof. exact packed_done. Qed.
Print Assumptions C77_done.

(** C77.  Quit, or a last word, stops a packed write in any state; a last word raises done. *)
Theorem C77_quit :
  forall n aw lw dw s i, wbi_cond i = false -> wbi_quit i = true \/ wbi_valid i = true /\ wbi_last i = true ->
    pw_run (pw_step n aw lw dw s i) = false /\
    (pw_run s = true -> wbi_valid i = true -> wbi_last i = true -> pw_done (pw_step n aw lw dw s i) = true).
Proof. exact pw_stop. Qed.
Print Assumptions C77_quit.

(** C77 (2^sh banks, aligned start).  A packed read, for every consumer schedule: what is transferred is a prefix
    of the wide words, all of them after more than [L] ready cycles; element [i] of word [k] is element
    [addr + k*n + i] of the RAM as one memory. *)
Theorem C77_read_partial :
  forall n sh aw lw dw addr L s banks rr ins,
    0 <= sh <= aw -> Z.of_nat n = 2 ^ sh -> addr mod Z.of_nat n = 0 -> 0 <= dw -> 0 < Z.of_nat L < 2 ^ lw ->
    rb_run s = false -> rb_rvalid s = false -> Forall (fun i => rbi_cond i = false /\ rbi_rquit i = false) ins ->
    let all := mkRBIn true addr (Z.of_nat n) (Z.of_nat L) rr false :: ins in
    let h := combine all (outs (pr_step n aw lw dw banks) rb_out s all) in
    exists word : nat -> Z,
      (forall k i, (i < n)%nat -> element dw i (word k) = one_memory n banks (burst_addr aw addr 1 (k * n + i)) mod 2 ^ dw) /\
      (forall k, 0 <= word k < 2 ^ (dw * Z.of_nat n)) /\
      (exists m, (m <= L)%nat /\ beats h = firstn m (map (fun k => (word k, (S k =? L)%nat)) (seq 0 L))) /\
      ((L < count_ready ins)%nat -> beats h = map (fun k => (word k, (S k =? L)%nat)) (seq 0 L) /\
         rb_run (final (pr_step n aw lw dw banks) s all) = false).
Proof.
  intros n sh aw lw dw addr L s banks rr ins Hsh Hn Hal Hdw HL R V F all h.
  exists (fun k => pack dw banks (Z.shiftr (burst_addr aw addr (Z.of_nat n) k) (shift_of n)) n).
  split; [intros k i Hi; exact (pack_view n sh aw addr Hsh Hn Hal dw banks k i Hdw Hi)|].
  split; [intros k; apply pack_bound; exact Hdw|].
  exact (rburst_correct aw lw (fun a => pack dw banks (Z.shiftr a (shift_of n)) n) s addr (Z.of_nat n) L rr ins ltac:(lia) HL R V F).
Qed.
Print Assumptions C77_read_partial.

(** C77.  The packed DMA calls move the least number of wide words that covers the elements. *)
Theorem C77_size :
  forall n sh size, 0 <= sh -> Z.of_nat n = 2 ^ sh -> 0 <= size ->
    size <= packed_size n size * Z.of_nat n < size + Z.of_nat n.
Proof.
  intros n sh size Hsh Hn Hs. rewrite (packed_size_pow n sh size Hsh Hn Hs).
  assert (P : 0 < Z.of_nat n) by (rewrite Hn; apply Z.pow_pos_nonneg; lia).
  pose proof (Z.div_mod (size + Z.of_nat n - 1) (Z.of_nat n) ltac:(lia)).
  pose proof (Z.mod_pos_bound (size + Z.of_nat n - 1) (Z.of_nat n) P). nia.
Qed.
Print Assumptions C77_size.

(** C77, finding: an unaligned start is rounded down: the burst does exactly what the burst at the next lower
    multiple of the number of banks does. *)
Theorem C77_unaligned_refuted :
  forall n sh aw lw dw addr c L s ins,
    0 <= sh <= aw -> Z.of_nat n = 2 ^ sh -> addr mod Z.of_nat n = 0 -> 0 <= c < Z.of_nat n -> 0 <= dw ->
    0 < Z.of_nat L < 2 ^ lw -> pw_run s = false ->
    Forall (fun i => wbi_cond i = false /\ wbi_last i = false /\ wbi_quit i = false) ins ->
    forall a,
    one_memory n (pw_banks (final (pw_step n aw lw dw) s (mkWBIn true (addr + c) (Z.of_nat n) (Z.of_nat L) false 0 false false :: ins))) a =
    store_words aw addr 1 0 (elements n dw (firstn L (valid_words ins))) (one_memory n (pw_banks s)) a.
Proof.
  intros n sh aw lw dw addr c L s ins Hsh Hn Hal Hc Hdw HL R F a.
  rewrite <- (one_memory_store n sh aw addr Hsh Hn Hal). unfold one_memory.
  rewrite <- (pstore_round n sh aw addr Hsh Hn Hal dw (Z.of_nat n) (pw_banks s) c Hc eq_refl).
  exact (proj1 (packed_write n aw lw dw (addr + c) (Z.of_nat n) L s ins Hdw ltac:(lia) HL R F) _ _).
Qed.
Print Assumptions C77_unaligned_refuted.

(** C77, finding: five elements into four banks: the packed DMA moves two wide words, and three elements behind
    the end are overwritten. *)
Theorem C77_tail_refuted :
  let L := Z.to_nat (packed_size 4 5) in
  let i d := mkWBIn false 0 0 0 true d false false in
  let s := mkPW false 0 0 0 false (fun _ _ => 7) in
  let s' := final (pw_step 4 6 8 8) s (mkWBIn true 8 4 (Z.of_nat L) false 0 false false :: [i 67305985; i 134678021]) in
  map (one_memory 4 (pw_banks s')) [8; 9; 10; 11; 12; 13; 14; 15; 16] = [1; 2; 3; 4; 5; 6; 7; 8; 7].
Proof. vm_compute. reflexivity. Qed.
Print Assumptions C77_tail_refuted.

(** C77, finding: three banks are accepted, but the address is shifted by two bits while it advances by three, so
    that the second word overwrites the first in every bank. *)
Theorem C77_three_banks_refuted :
  let i d := mkWBIn false 0 0 0 true d false false in
  let s := mkPW false 0 0 0 false (fun _ _ => 0) in
  let s' := final (pw_step 3 6 8 8) s (mkWBIn true 0 3 2 false 0 false false :: [i 197121; i 394500]) in
  map (fun b => pw_banks s' b 0) [0; 1; 2]%nat = [4; 5; 6] /\
  map (fun b => pw_banks s' b 1) [0; 1; 2]%nat = [0; 0; 0].
Proof. vm_compute. split; reflexivity. Qed.
Print Assumptions C77_three_banks_refuted.

(** Four banks, aligned, wrapping at the end of the address space, with pauses; read back. *)
Example C77_ex :
  let i v d := mkWBIn false 0 0 0 v d false false in
  let s := final (pw_step 4 4 8 8) (mkPW false 0 0 0 false (fun _ _ => 0))
             (mkWBIn true 12 4 2 false 0 false false :: [i true 67305985; i false 9; i true 134678021; i true 1]) in
  let r c := mkRBIn false 0 0 0 c false in
  let rin := mkRBIn true 12 4 2 true false :: map r [true; false; true; true] in
  map (one_memory 4 (pw_banks s)) [11; 12; 13; 14; 15; 0; 1; 2; 3; 4] = [0; 1; 2; 3; 4; 5; 6; 7; 8; 0] /\
  beats (combine rin (outs (pr_step 4 4 8 8 (pw_banks s)) rb_out rb_init rin)) = [(67305985, false); (134678021, true)] /\
  packed_size 4 8 = 2 /\ packed_size 4 9 = 3.
Proof. vm_compute. repeat split; reflexivity. Qed.
