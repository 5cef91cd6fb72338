(** C79: eval of stream expressions. *)
From Verif Require Import Base Bits Seval_Model Seval_Spec Seval_Proofs.
Open Scope Z_scope.

(** whatever eval returns, number or expression, stands for the same number as the expression, for all
    values of the variables; [ok] excludes the operators refuted below *)
Theorem C79_eval_partial : forall wd env e v, ok wd env e -> ev wd e = Some v -> rden wd env v = den wd env e.
Proof. intros wd env e v O E. exact (ev_den wd env e O v E). Qed.
Print Assumptions C79_eval_partial.

(** an expression without variables is evaluated to a number *)
Theorem C79_closed : forall wd e v, closed e -> ev wd e = Some v -> exists z, num v = Some z.
Proof. intros wd e v C E. apply num_some. exact (closed_num wd (fun _ => 0) e C v E). Qed.
Print Assumptions C79_closed.
Theorem C79_total_partial : forall wd env e, closed e -> ok wd env e -> divides_ok wd env e ->
  exists v, ev wd e = Some v /\ num v = Some (den wd env e).
Proof.
  intros wd env e C O D. destruct (ev_total wd env e C O D) as (v & E). exists v. split; [exact E|].
  destruct (num_some v (closed_num wd (fun _ => 0) e C v E)) as (z & Hz). rewrite Hz. f_equal. rewrite <- (ev_den wd env e O v E). symmetry. exact (num_den wd env v z Hz).
Qed.
Print Assumptions C79_total_partial.

(** a bit selection has latency 0 only if its position is the same for all values of the variables *)
Theorem C79_pointer_partial : forall wd p, pointer_latency wd p = Some 0 -> (forall env, ok wd env p) ->
  forall env env', den wd env p = den wd env' p.
Proof.
  intros wd p H O env env'. unfold pointer_latency in H. destruct (ev wd p) as [r|] eqn:E; [|discriminate H]. destruct (num r) as [z|] eqn:N; [|discriminate H].
  rewrite <- (ev_den wd env p (O env) r E), <- (ev_den wd env' p (O env') r E), (num_den wd env r z N), (num_den wd env' r z N). reflexivity.
Qed.
Print Assumptions C79_pointer_partial.

(** and a position without variables has latency 0, one that is a variable latency 1 *)
Theorem C79_pointer_constant_partial : forall wd env p, closed p -> ok wd env p -> divides_ok wd env p -> pointer_latency wd p = Some 0.
Proof. intros wd env p C O D. destruct (C79_total_partial wd env p C O D) as (v & E & N). unfold pointer_latency. rewrite E, N. reflexivity. Qed.
Print Assumptions C79_pointer_constant_partial.
Theorem C79_pointer_variable_partial : forall wd p, numberless p = true -> pointer_latency wd p = Some 1.
Proof.
  intros wd p H. unfold pointer_latency. replace (ev wd p) with (Some (RE p)); [reflexivity|]. symmetry. exact (ev_numberless wd p H).
Qed.
Print Assumptions C79_pointer_variable_partial.

(** nothing to evaluate: the expression itself *)
Theorem C79_unchanged_partial : forall wd e, numberless e = true -> ev wd e = Some (RE e).
Proof. exact ev_numberless. Qed.
Print Assumptions C79_unchanged_partial.
Example ex_numberless : numberless (EC (E2 OXnor (EV 0) (EV 1)) (E2 OSrl (EV 2) (EV 3)) (ECat (EV 0) (E1 OUand (ES (EV 1) 3 1)))) = true.
Proof. reflexivity. Qed.

(** the parity starts at 1: for every number the result is the opposite *)
Theorem C79_uxor_refuted : forall wd env z,
  ev wd (E1 OUxor (EI z)) = Some (RB (truth (den wd env (E1 OUxnor (EI z))))) /\
  ev wd (E1 OUxnor (EI z)) = Some (RB (truth (den wd env (E1 OUxor (EI z))))).
Proof.
  intros wd env z. cbn [ev ev1 reduce1]. change 1 with (b2z true) at 1. change 1 with (b2z true) at 2. rewrite !parity_ok. cbn [den den1].
  destruct (fold_right xorb false (low_bits (wd (EI z)) z)); split; reflexivity.
Qed.
Print Assumptions C79_uxor_refuted.
(** bitwise xnor is evaluated as equality, -5 >>> 1 rounds towards 0, -5 % 3 is Python's, 2 && 4 is 4,
    2 || 0 is 2 *)
Theorem C79_numbers_refuted : forall wd env,
  (ev wd (E2 OXnor (EI 5) (EI 3)) = Some (RB false) /\ den wd env (E2 OXnor (EI 5) (EI 3)) = -7) /\
  (ev wd (E2 OSra (EI (-5)) (EI 1)) = Some (RI (-2)) /\ den wd env (E2 OSra (EI (-5)) (EI 1)) = -3) /\
  (ev wd (E2 OMod (EI (-5)) (EI 3)) = Some (RI 1) /\ den wd env (E2 OMod (EI (-5)) (EI 3)) = -2) /\
  (ev wd (E2 OLand (EI 2) (EI 4)) = Some (RI 4) /\ den wd env (E2 OLand (EI 2) (EI 4)) = 1) /\
  (ev wd (E2 OLor (EI 2) (EI 0)) = Some (RI 2) /\ den wd env (E2 OLor (EI 2) (EI 0)) = 1).
Proof. intros. repeat split. Qed.
Print Assumptions C79_numbers_refuted.
(** x || y becomes x && y, and ~x becomes !x *)
Theorem C79_lor_refuted : forall wd, ev wd (E2 OLor (EV 0) (EV 1)) = Some (RE (E2 OLand (EV 0) (EV 1))) /\
  exists env, den wd env (E2 OLor (EV 0) (EV 1)) <> den wd env (E2 OLand (EV 0) (EV 1)).
Proof. intros wd. split; [reflexivity|]. exists (fun n => if (n =? 0)%nat then 1 else 0). discriminate. Qed.
Print Assumptions C79_lor_refuted.
Theorem C79_unot_refuted : forall wd, ev wd (E1 OUnot (EV 0)) = Some (RE (E1 OUlnot (EV 0))) /\
  forall env, env 0%nat <> -1 -> den wd env (E1 OUnot (EV 0)) <> den wd env (E1 OUlnot (EV 0)).
Proof.
  intros wd. split; [reflexivity|]. intros env N. cbn. unfold truth, Z.lnot. destruct (Z.eqb_spec (env 0%nat) 0) as [E|E]; cbn [b2z negb]; lia.
Qed.
Print Assumptions C79_unot_refuted.
(** errors: a number on the left of a variable (also when such an expression selects a bit), every
    concatenation of constants, every repetition *)
Theorem C79_error_refuted : forall wd n z o e k, In o [OPlus; OMinus; OTimes; OMod; OSll; OSrl; OAnd; OXor; OOr] ->
  ev wd (E2 o (EI z) (EV n)) = None /\ pointer_latency wd (E2 o (EI z) (EV n)) = None /\
  ev wd (ECat (EI z) (EI k)) = None /\ ev wd (ERep e k) = None.
Proof. intros wd n z o e k I. cbn [In] in I. repeat destruct I as [<-|I]; try contradiction I; repeat split. Qed.
Print Assumptions C79_error_refuted.

(** (x + 2 * 3) << (1 < 2) and a closed example with a condition, slices and reductions *)
Definition ex_wd (e : ex) : nat := match e with EI _ => 4%nat | _ => 1%nat end.
Example ex_sym : let e := E2 OSll (E2 OPlus (EV 0) (E2 OTimes (EI 2) (EI 3))) (E2 OLt (EI 1) (EI 2)) in
  (forall env, ok ex_wd env e) /\ ev ex_wd e = Some (RE (E2 OSll (E2 OPlus (EV 0) (EI 6)) (EI 1))) /\ den ex_wd (fun _ => 5) e = 22.
Proof. cbv zeta. split; [intros env; cbn; repeat split; lia|]. split; reflexivity. Qed.
Example ex_num : let e := EC (E1 OUand (EI 15)) (E2 OPlus (ES (EI 214) 6 3) (E1 OUminus (EP (EI 6) (EI 2)))) (E2 ODivide (EI (-7)) (EI 2)) in
  closed e /\ ok ex_wd (fun _ => 0) e /\ divides_ok ex_wd (fun _ => 0) e /\ ev ex_wd e = Some (RI 9).
Proof. cbv zeta. split; [cbn; tauto|]. split; [cbn; repeat split; try lia; try discriminate; auto|]. split; [cbn; repeat split; try lia; try discriminate|reflexivity]. Qed.
