(** Proofs about ReduceDiv. *)
From Verif Require Import Base Bits Stream_Model Stream_Spec Mult_Model Reduce_Model Reduce_Spec Reduce_Proofs Reduce_Props Div_Model Div_Spec Div_Proofs Rdiv_Model Rdiv_Spec.
Open Scope Z_scope.

(** the result of the divider for operands of the same kind *)
Lemma div_result W sg a b e : 1 <= W -> value W sg b <> 0 ->
  out_rslt W sg (after W (Z.to_nat W) (load W sg sg (mkDivIn false true e a b))) = op_div W sg a b mod 2 ^ W.
Proof.
  intros HW HB. unfold op_div, value in *. destruct sg.
  - destruct (outs_of W true true true HW (mkDivIn false true e a b)) as (Or & _); [unfold mag; cbn; lia|].
    rewrite Or. cbn [di_a di_b] in *. unfold mag. rewrite Z.quot_div by exact HB. clear - HB.
    assert (Q0 : sgn W a = 0 -> Z.abs (sgn W a) / Z.abs (sgn W b) = 0) by (intros ->; apply Z.div_0_l; lia).
    revert Q0. generalize (Z.abs (sgn W a) / Z.abs (sgn W b)). revert HB. generalize (sgn W a), (sgn W b). intros x y Hb q Q0.
    destruct x as [|x|x], y as [|y|y]; try (exfalso; apply Hb; reflexivity); cbn [Z.ltb Z.compare Z.sgn andb xorb flip]; rewrite ?Q0 by reflexivity; f_equal; ring.
  - pose proof (uns_range W a ltac:(lia)) as Ra. pose proof (uns_range W b ltac:(lia)) as Rb.
    destruct (outs_of W false false false HW (mkDivIn false true e a b)) as (Or & _); [unfold mag; cbn; lia|].
    rewrite Or. cbn [di_a di_b andb flip]. unfold mag. rewrite Z.quot_div_nonneg by lia. reflexivity.
Qed.

Section RD.
  Variable c : acfg.
  Hypothesis W : 1 <= a_width c.
  Hypothesis OPS : a_ops c = [op_div (a_width c) (a_signed c)].
  Notation sg := (a_signed c).
  Notation cyc := (div_cycle c sg).
  Lemma div_not_pulse : is_pulse c = false.
  Proof using OPS. unfold is_pulse. rewrite OPS. reflexivity. Qed.
  Definition took (s : dst) (y : min) : list ain := if v_senable s y && y_valid y then [y_ops y] else [].
  Definition DInv (tk : list ain) (s : dst) : Prop :=
    exists t, dok (a_width c) sg sg sg (v_div s) t /\
    ((v_ii s = 0 /\ v_acc s = acc_run c tk) \/
     (1 <= v_ii s <= a_width c + 2 /\ exists t0 i, tk = t0 ++ [i] /\ en2 c (acc_run c t0) i = true /\
        nth_error t (Z.to_nat (v_ii s - 1)) = Some (current_data c (acc_run c t0) i, i_right i, true) /\
        s_count (v_acc s) = s_count (acc_step c (acc_run c t0) i) /\ s_pmax (v_acc s) = s_pmax (acc_step c (acc_run c t0) i) /\
        s_icount (v_acc s) = s_icount (acc_step c (acc_run c t0) i))).
  Lemma dinv_step tk s y : DInv tk s -> Forall (fun i => value (a_width c) sg (i_right i) <> 0) tk -> DInv (tk ++ took s y) (cyc s y).
  Proof using W OPS.
    intros (t & DK & H) NZ.
    set (i := mkDivIn false ((y_valid y && v_senable s y && en1 c (y_ops y) && (negb (a_interval c) || interval_enable c (v_acc s) (y_ops y))) || v_stall s) true (current_data c (v_acc s) (y_ops y)) (i_right (y_ops y))).
    exists (dtape_step t i). split; [exact (dok_step (a_width c) sg sg sg W (v_div s) t i DK)|].
    destruct H as [(Z0 & A)|(R & t0 & j & T & E2 & N & C1 & C2 & C3)].
    - unfold took, div_cycle. cbn [v_ii v_acc]. assert (ST : v_stall s = false) by (unfold v_stall; rewrite Z0; reflexivity).
      rewrite Z0. replace (0 =? interval c - 1) with false by (symmetry; apply Z.eqb_neq; unfold interval; lia). cbn iota.
      unfold v_senable in *. rewrite ST in *. cbn [negb] in *. rewrite !andb_true_r in *. rewrite (andb_comm (y_ready y)).
      destruct (y_valid y && y_ready y) eqn:E0; cbn [andb] in *.
      + destruct (en1 c (y_ops y) && (negb (a_interval c) || interval_enable c (v_acc s) (y_ops y))) eqn:E2; cbn [andb].
        * right. split; [lia|]. exists tk, (y_ops y). rewrite <- A. split; [reflexivity|]. split; [unfold en2; exact E2|].
          split; [subst i; unfold dtape_step; cbn [di_rst di_update di_a di_b di_enable]; rewrite ?ST; cbn [negb]; rewrite ?andb_true_r, ?E0; cbn [andb]; rewrite ?E2; cbn [orb]; change (Z.to_nat (0 + 1 - 1)) with 0%nat; reflexivity|].
          unfold acc_step, en2. rewrite E2. cbn [s_count s_pmax s_icount]. apply andb_true_iff in E2. destruct E2 as (E2a & E2b). rewrite E2a. auto.
        * left. split; [reflexivity|]. unfold acc_run. rewrite fold_left_app. cbn [fold_left]. fold (acc_run c tk). rewrite <- A. unfold acc_step, en2. rewrite E2. reflexivity.
      + left. split; [reflexivity|]. rewrite app_nil_r, <- A, andb_false_r. destruct (v_acc s) as [d k p q]. cbn. destruct (a_size c); reflexivity.
    - assert (ST : v_stall s = true) by (unfold v_stall; apply Z.ltb_lt; lia). unfold took, div_cycle. cbn [v_ii v_acc]. unfold v_senable in *. rewrite ST in *. cbn [negb] in *.
      rewrite !andb_false_r in *. cbn [andb orb] in *. rewrite ?app_nil_r, ?andb_false_r. unfold interval.
      destruct (Z.eqb_spec (v_ii s) (a_width c + 3 - 1)) as [F|F].
      + left. split; [reflexivity|]. rewrite T. unfold acc_run. rewrite fold_left_app. cbn [fold_left]. fold (acc_run c t0).
        destruct DK as (_ & _ & _ & DR). replace (Z.to_nat (v_ii s - 1)) with (n (a_width c)) in N by (unfold n; lia). rewrite N in DR. destruct DR as (_ & DR & _).
        assert (D : to_data c (d_rslt (v_div s)) = s_data (acc_step c (acc_run c t0) j)).
        { rewrite DR. unfold acc_step. rewrite E2. cbn [s_data]. unfold acc_value. rewrite div_not_pulse, OPS. cbn [fold_left]. rewrite div_result; [|exact W|].
          - unfold to_data, data_width. rewrite div_not_pulse. apply value_congr. apply Z.mod_mod. pose proof (pow_pos (a_width c) ltac:(lia)). lia.
          - rewrite Forall_forall in NZ. apply NZ. rewrite T. apply in_or_app. right. left. reflexivity. }
        rewrite D. destruct (acc_step c (acc_run c t0) j) as [d k p q]. cbn [s_count s_pmax s_icount s_data] in *. destruct (a_size c); congruence.
      + right. split; [lia|]. exists t0, j. split; [exact T|]. split; [exact E2|]. split.
        * subst i. unfold dtape_step. cbn [di_rst di_update]. rewrite ?ST, orb_true_r. replace (Z.to_nat (v_ii s + 1 - 1)) with (S (Z.to_nat (v_ii s - 1))) by lia. exact N.
        * destruct (v_acc s) as [d k p q]. cbn [s_count s_pmax s_icount s_data] in *. destruct (a_size c); auto.
  Qed.
  Lemma dinv_run ys : forall tk s, DInv tk s -> Forall (fun i => value (a_width c) sg (i_right i) <> 0) (tk ++ div_taken c sg s ys) ->
    DInv (tk ++ div_taken c sg s ys) (fold_left cyc ys s).
  Proof using W OPS.
    induction ys as [|y ys IH]; intros tk s H F; [cbn; rewrite app_nil_r; exact H|]. cbn [fold_left div_taken] in *. rewrite app_assoc in *. apply IH; [|exact F].
    apply dinv_step; [exact H|]. rewrite <- app_assoc in F. apply Forall_app in F. apply F.
  Qed.
  Lemma dinv_init : DInv [] (div_init c).
  Proof using W.
    exists []. split; [|left; split; reflexivity]. apply dok_init; cbn [div_init v_div d_stages d_valid]; [rewrite repeat_length; reflexivity| |reflexivity].
    intros g Hg. apply repeat_spec in Hg. subst g. reflexivity.
  Qed.
  (** an operation ends, whatever happens outside *)
  Lemma div_ends ys : forall s, 1 <= v_ii s <= a_width c + 2 -> Z.of_nat (length ys) = a_width c + 3 - v_ii s -> v_ii (fold_left cyc ys s) = 0.
  Proof using W.
    induction ys as [|y ys IH]; intros s R L; cbn [length] in L; [lia|]. cbn [fold_left].
    assert (ST : v_stall s = true) by (unfold v_stall; apply Z.ltb_lt; lia).
    destruct (Z.eq_dec (v_ii s) (a_width c + 2)) as [E|E].
    - destruct ys; [|cbn [length] in L; lia]. cbn [fold_left]. unfold div_cycle, interval. cbn [v_ii]. rewrite E. replace (a_width c + 2 =? a_width c + 3 - 1) with true by (symmetry; apply Z.eqb_eq; lia). reflexivity.
    - assert (X : v_ii (cyc s y) = v_ii s + 1).
      { unfold div_cycle, interval. cbn [v_ii]. replace (v_ii s =? a_width c + 3 - 1) with false by (symmetry; apply Z.eqb_neq; lia). rewrite ST. reflexivity. }
      apply IH; rewrite X; lia.
  Qed.
End RD.

(** quotients by numbers one after the other *)
Lemma product_pos l : Forall (fun x => 0 < x) l -> 0 < product l.
Proof. induction 1 as [|x l Hx Hl IH]; [reflexivity|]. cbn. fold (product l). lia. Qed.
Lemma div_group w l : 1 <= w -> forall v, value w false v = v -> Forall (fun x => value w false x = x /\ x <> 0) l ->
  fold_left (fun v x => value w false (op_div w false v x)) l v = v / product l.
Proof.
  intros W. induction l as [|x l IH]; intros v V F; [cbn; rewrite Z.div_1_r; reflexivity|]. inversion F as [|y r (Fx & Nx) Fl]; subst. cbn [fold_left product fold_right].
  assert (RV : 0 <= v < 2 ^ w) by (apply (value_small w false v W); exact V). assert (RX : 0 <= x < 2 ^ w) by (apply (value_small w false x W); exact Fx).
  assert (EQ : op_div w false v x = v / x) by (unfold op_div; rewrite V, Fx; apply Z.quot_div_nonneg; lia). rewrite EQ.
  assert (RQ : 0 <= v / x < 2 ^ w).
  { split; [apply Z.div_pos; lia|]. apply Z.div_lt_upper_bound; [lia|]. nia. }
  assert (VQ : value w false (v / x) = v / x) by (apply (value_small w false _ W); exact RQ).
  rewrite VQ. rewrite (IH (v / x) VQ Fl). apply Z.div_div; [lia|]. apply product_pos. eapply Forall_impl; [|exact Fl]. intros z (Z1 & Z2). cbn beta. apply (value_small w false z W) in Z1. lia.
Qed.
(** the elements of a group are elements taken *)
Lemma group_in n he hr l : forall x, In x (group n he hr l) -> exists i, In i l /\ i_right i = x.
Proof.
  unfold group. assert (G : forall l acc x, In x (fold_left (join n he hr) l acc) -> In x acc \/ exists i, In i l /\ i_right i = x).
  { clear l. induction l as [|i l IH]; intros acc x H; [left; exact H|]. cbn [fold_left] in H. destruct (IH _ _ H) as [J|(j & Hj & E)]; [|right; exists j; split; [right; exact Hj|exact E]].
    unfold join in J. repeat match type of J with context [if ?b then _ else _] => destruct b end;
      try (apply in_app_or in J; destruct J as [J|[J|[]]]); try destruct J as [J|[]]; try (left; exact J); try (destruct J; fail); right; exists i; (split; [left; reflexivity|exact J]). }
  intros x H. destruct (G l [] x H) as [[]|E]; exact E.
Qed.
