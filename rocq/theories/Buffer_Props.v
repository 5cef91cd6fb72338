(** C33: ring buffers and line buffers. *)
From Verif Require Import Base Bits Buffer_Model Buffer_Spec Buffer_Proofs.
Open Scope Z_scope.

(** ** RingBuffer, output node one stage after the buffer *)

(** the address read is [base + offset] around the ring *)
Theorem C33_address : forall len base o z, offset_ok len o z -> 0 <= base < len ->
  ring_raddr len base o = (base + z) mod len.
Proof. exact raddr_ok. Qed.
Print Assumptions C33_address.
Example C33_address_ex : offset_ok 128 (OSig 32 (2 ^ 32 - 5)) (-5) /\ ring_raddr 128 2 (OSig 32 (2 ^ 32 - 5)) = 125
  /\ offset_ok 100 (OInt 99) 99 /\ ring_raddr 100 2 (OInt 99) = 1.
Proof.
  repeat split; try reflexivity; try (cbn; lia). exists true. reflexivity.
Qed.

(** [read(-d)] gives the value kept [d] values before the current element's position (0: the
    element itself), whatever the stalls, gaps between valid elements and write enables.  [l] is any
    history after which an element is at the output stage, [i] the cycle that reads. *)
Theorem C33_ring_partial : forall len mem l i d,
  let c := length (kept (removelast (passed l))) in
  2 <= len -> offset_ok len (r_off i) (- Z.of_nat d) -> occupied l = true -> r_go i = true -> r_ren i = true ->
  (d <= c < length (kept (passed l)) + d)%nat -> Z.of_nat (length (kept (passed l)) - (c - d)) <= len ->
  rs_rdata (ring_run len 1 mem (l ++ [i])) = nth (c - d) (kept (passed l)) 0.
Proof.
  intros len mem l i d c H O C G R D E. apply (ring_read len mem l i (- Z.of_nat d)); try assumption; try lia.
  exists 0. subst c. lia.
Qed.
Print Assumptions C33_ring_partial.
(** [read(k)] with 0 < k < len looks at the oldest values kept: the one [len - k] before *)
Theorem C33_ring_ahead_partial : forall len mem l i k,
  let c := length (kept (removelast (passed l))) in
  2 <= len -> offset_ok len (r_off i) (Z.of_nat k) -> occupied l = true -> r_go i = true -> r_ren i = true ->
  (0 < k < Z.to_nat len)%nat -> (Z.to_nat len <= c + k)%nat ->
  rs_rdata (ring_run len 1 mem (l ++ [i])) = nth (c + k - Z.to_nat len) (kept (passed l)) 0.
Proof.
  intros len mem l i k c H O C G R K E.
  assert (LE : (c <= length (kept (passed l)) <= c + 1)%nat).
  { subst c. destruct (passed l) as [|p q]; [cbn; lia|].
    pose proof (app_removelast_last (0, false) (l := p :: q) ltac:(discriminate)) as X.
    set (r := removelast (p :: q)) in *. rewrite X. rewrite kept_app, app_length. unfold kept at 2 4.
    destruct (last (p :: q) (0, false)) as [y [|]]; cbn; lia. }
  apply (ring_read len mem l i (Z.of_nat k)); try assumption; try lia. exists (-1). subst c. lia.
Qed.
Print Assumptions C33_ring_ahead_partial.
Definition el (x : Z) (o : Z) : rin := mkRIn true true x true (OInt o) true.
Definition gap (o : Z) : rin := mkRIn true false 99 true (OInt o) true.
Definition stall (o : Z) : rin := mkRIn false true 98 true (OInt o) true.
Example C33_ring_ex :
  let l := [el 10 0; gap 0; el 11 0; stall 0; el 12 0; el 13 0; el 14 0; stall 0; gap 0; el 15 0; stall 0] in
  occupied l = true /\ kept (passed l) = [10; 11; 12; 13; 14; 15]
  /\ rs_rdata (ring_run 4 1 (fun _ => 77) (l ++ [gap (-2)])) = 13
  /\ rs_rdata (ring_run 4 1 (fun _ => 77) (l ++ [gap 0])) = 15
  /\ rs_rdata (ring_run 4 1 (fun _ => 77) (l ++ [gap 1])) = 12.
Proof. cbv zeta. repeat split; reflexivity. Qed.

(** a negative offset wraps to a wrong address unless the length is a power of two: 2 - 5 in a
    ring of 100 should be 97 *)
Theorem C33_length_refuted : ring_raddr 100 2 (OInt (-5)) = 25.
Proof. reflexivity. Qed.
Print Assumptions C33_length_refuted.
(** a negative offset in a signal narrower than the address is zero extended: 2 - 5 in a ring of
    128 should be 125 *)
Theorem C33_narrow_offset_refuted : value 4 true 11 = -5 /\ ring_raddr 128 2 (OSig 4 11) = 13.
Proof. split; reflexivity. Qed.
Print Assumptions C33_narrow_offset_refuted.
(** when the offset operand is ready later (output two stages after the buffer), the element after
    the first reads the first's position: expected 11 *)
Theorem C33_late_offset_refuted :
  let l := [el 10 0; el 11 0; el 12 0] in rs_rdata (ring_run 4 2 (fun _ => 77) (l ++ [gap 0])) = 10.
Proof. reflexivity. Qed.
Print Assumptions C33_late_offset_refuted.

(** ** LineBuffer with window shape (A, B), memory length m, head 0 and tail m - 1 *)

(** The window equals that of the abstract rows, for every sequence of shifts, rotations, idle
    cycles and stalls, from any memory contents. *)
Theorem C33_line_partial : forall A B m w sg hasrot mem l i j,
  (1 <= A)%nat -> (1 <= B)%nat -> (3 <= m)%nat -> (forall x, 0 <= x < Z.of_nat m -> value w sg x = x) ->
  (i < A)%nat -> (j < B)%nat ->
  ls_win (fold_left (line_step A B (Z.of_nat m) w sg hasrot) l (line_init w sg 0 (Z.of_nat m - 1) mem)) i j
  = window A (fold_left (perform hasrot) (performed l) (first_rows A B m mem)) i j.
Proof. intros A B m w sg hasrot mem l i j HA HB Hm Hw Hi Hj. exact (line_window A B m w sg hasrot HA HB Hm Hw mem l i j Hi Hj). Qed.
Print Assumptions C33_line_partial.
(** Without rotation it is a delay line: window value (i, j) is the data shifted in
    (B-1-j)(A+m-1) + (A-1-i) shifts before the last performed one. *)
Theorem C33_line_delay_partial : forall A B m w sg hasrot mem l i j,
  (1 <= A)%nat -> (1 <= B)%nat -> (3 <= m)%nat -> (forall x, 0 <= x < Z.of_nat m -> value w sg x = x) ->
  (i < A)%nat -> (j < B)%nat -> Forall (fun i => hasrot && l_rot i = false) l ->
  let k := ((B - 1 - j) * (A + m - 1) + (A - 1 - i))%nat in
  (k < length (shifted (performed l)))%nat ->
  ls_win (fold_left (line_step A B (Z.of_nat m) w sg hasrot) l (line_init w sg 0 (Z.of_nat m - 1) mem)) i j
  = nth k (shifted (performed l)) 0.
Proof. intros A B m w sg hasrot mem l i j HA HB Hm Hw Hi Hj. exact (line_delay A B m w sg hasrot HA HB Hm Hw mem l i j Hi Hj). Qed.
Print Assumptions C33_line_delay_partial.
Definition sh (x : Z) : lin := mkLIn true true false x.
Definition ro : lin := mkLIn true false true 0.
Definition idle : lin := mkLIn true false false 55.
Definition st (x : Z) : lin := mkLIn false true false x.
Example C33_line_ex :
  let run l := fold_left (line_step 2 2 4 32 true true) l (line_init 32 true 0 3 (fun _ _ => 77)) in
  (forall x, 0 <= x < 4 -> value 32 true x = x) /\
  let l := [sh 1; sh 2; idle; sh 3; st 90; sh 4; sh 5; sh 6; st 91; st 92; sh 7; sh 8; sh 9; idle] in
  let s := run l in
  shifted (performed l) = [9; 8; 7; 6; 5; 4; 3; 2; 1] /\
  [ls_win s 0 0; ls_win s 1 0; ls_win s 0 1; ls_win s 1 1]%nat = [3; 4; 8; 9] /\
  let s := run (l ++ [ro; ro; idle]) in
  [ls_win s 0 0; ls_win s 1 0; ls_win s 0 1; ls_win s 1 1]%nat = [0; 1; 5; 6].
Proof.
  cbv zeta. split; [|repeat split; vm_compute; reflexivity].
  intros x H. apply (sgn_small 32); [lia|]. change (2 ^ (32 - 1)) with 2147483648. lia.
Qed.
(** a memory of length 2 is too short: a stall changes the window *)
Theorem C33_line_stall_refuted :
  let run l := fold_left (line_step 1 2 2 32 true false) l (line_init 32 true 0 1 (fun _ _ => 77)) in
  let a := [sh 1; sh 2; sh 3; sh 4; sh 5; sh 6; sh 7; idle; idle] in
  let b := [sh 1; sh 2; sh 3; sh 4; sh 5; st 90; sh 6; st 90; sh 7; idle; idle] in
  performed a = performed b /\ ls_win (run a) 0%nat 0%nat = 3 /\ ls_win (run b) 0%nat 0%nat = 5.
Proof. cbv zeta. split; [reflexivity|]. vm_compute. split; reflexivity. Qed.
Print Assumptions C33_line_stall_refuted.
(** the counters have the width of the data: 2-bit data with a memory of length 8 wraps early,
    so row 0 receives the value shifted in 4 shifts before instead of 8 *)
Theorem C33_line_narrow_refuted :
  let l := map sh [1; 2; 3; 0; 1; 1; 2; 2; 3; 3; 0; 2] ++ [idle] in
  let s := fold_left (line_step 1 2 8 2 false false) l (line_init 2 false 0 7 (fun _ _ => 0)) in
  ls_win s 0%nat 0%nat <> nth 8 (shifted (performed l)) 0 /\ (8 < length (shifted (performed l)))%nat.
Proof. cbv zeta. split; [vm_compute; congruence|vm_compute; lia]. Qed.
Print Assumptions C33_line_narrow_refuted.
