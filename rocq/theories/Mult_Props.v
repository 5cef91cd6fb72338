(** C17: pipelined multiplier and multiply-adder. *)
From Verif Require Import Base Bits Mult_Model Mult_Spec Mult_Proofs.
Open Scope Z_scope.

(** Whatever the registers held before, the output after any input history is the product of the
    operands presented [d] updates ago; the valid bit is the enable of that cycle unless a reset
    came in between. *)
Theorem C17_product :
  forall lw rw ls rs d s ins, 1 <= lw -> 1 <= rw -> (2 <= d)%nat -> length (p_pipe s) = (d - 1)%nat ->
    let out := mul_out (fold_left (mul_step lw rw ls rs) ins s) in
    let valid := valid_out (fold_left valid_step ins (repeat false d)) in
    match nth_error (tape_of ins) (d - 1) with
    | Some (a, b, e) => out = (value lw ls a * value rw rs b) mod 2 ^ (lw + rw) /\ valid = e
    | None => valid = false
    end.
Proof.
  intros lw rw ls rs d s ins Hl Hr Hd L out valid.
  pose proof (valid_delivers d ins Hd) as V. fold valid in V.
  destruct (nth_error (tape_of ins) (d - 1)) as [[[a b] e]|] eqn:E; [|exact V].
  split; [exact (mul_delivers lw rw ls rs Hl Hr d s ins a b e Hd L E)|exact V].
Qed.
Print Assumptions C17_product.

(** Nothing is lost: the output, read as signed if an operand is signed, is the exact product. *)
Theorem C17_exact :
  forall lw rw ls rs a b, 1 <= lw -> 1 <= rw ->
    value (lw + rw) (ls || rs) ((value lw ls a * value rw rs b) mod 2 ^ (lw + rw)) = value lw ls a * value rw rs b.
Proof. intros lw rw ls rs a b Hl Hr. exact (product_exact lw rw ls rs Hl Hr a b). Qed.
Print Assumptions C17_exact.

Theorem C17_madd :
  forall aw bw cw sa sb sc d s ins a b c, 1 <= aw -> 1 <= bw -> 1 <= cw -> (2 <= d)%nat -> length (q_pipe s) = (d - 1)%nat ->
    nth_error (madd_tape ins) (d - 1) = Some (a, b, c) ->
    madd_out (fold_left (madd_step aw bw cw sa sb sc) ins s) =
    (value aw sa a * value bw sb b + value cw sc c) mod 2 ^ Z.max (aw + bw) cw.
Proof. intros aw bw cw sa sb sc d s ins a b c Ha Hb Hc Hd L H. exact (madd_delivers aw bw cw sa sb sc Ha Hb Hc d s ins a b c Hd L H). Qed.
Print Assumptions C17_madd.

(** Example: signed times unsigned, depth 3, with a stall. *)
Definition mi u a b e := mkMulIn u a b e false.
Definition ex_in := [mi true 253 200 true; mi false 7 7 true; mi true 5 6 false; mi true 1 1 true].
Example ex_mul :
  nth_error (tape_of ex_in) 2 = Some (253, 200, true) /\
  mul_out (fold_left (mul_step 8 8 true false) ex_in (mkMul 9 9 [99; 99])) = (-3 * 200) mod 2 ^ 16 /\
  value 16 true ((-3 * 200) mod 2 ^ 16) = -600 /\
  valid_out (fold_left valid_step ex_in (repeat false 3)) = true.
Proof. vm_compute. repeat split. Qed.
Example ex_madd :
  madd_out (fold_left (madd_step 8 8 20 true true true)
     [mkMaddIn true 253 200 (2 ^ 20 - 5); mkMaddIn true 0 0 0; mkMaddIn false 3 3 3] (mkMadd 0 0 0 [77])) = -3 * -56 + -5.
Proof. vm_compute. reflexivity. Qed.
