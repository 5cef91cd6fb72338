(** C37, C38, C46, C47: slices, constant evaluation, PatternMux/PatternIf/Case and incremental
    drivers, against the meaning of Verilog expressions (Vx_Sem). *)
From Verif Require Import Base Bits Vx_Model Vx_Sem Vx_Spec Vx_Proofs.
Open Scope Z_scope.

(** ** C46 *)
(** in every context, the mux has the pattern of the alternative chosen *)
Theorem C46_mux : forall E W S ps e, pattern_mux ps = Some e ->
  exists v, first_match (holds E) ps = Some v /\ ev E W S e = ev E W S v.
Proof. exact mux_ok. Qed.
Print Assumptions C46_mux.
(** it is accepted iff the last pattern is the only one without a condition *)
Theorem C46_mux_accepts : forall ps, well_formed ps <-> exists e, pattern_mux ps = Some e.
Proof. exact mux_accepts. Qed.
Print Assumptions C46_mux_accepts.
(** PatternIf executes the first branch whose condition holds and nothing else *)
Theorem C46_if : forall St (env : St -> venv) leaf many ps r st, pattern_if many ps = Some r ->
  match r with Some body => execs env leaf body st | None => st end
  = match first_match (truth (env st)) ps with Some b => execs env leaf b st | None => st end.
Proof. intros St env leaf many ps r st. apply pattern_if_ok. Qed.
Print Assumptions C46_if.
(** given as separate arguments, a pattern after one without a condition is rejected, and nothing else *)
Theorem C46_if_accepts : forall ps,
  pattern_if true ps <> None <-> (forall k b, nth_error ps k = Some (None, b) -> S k = length ps).
Proof.
  intros ps. unfold pattern_if. rewrite pattern_if_accepts. split.
  - intros H k b K. assert (L : (k < length ps)%nat) by (apply nth_error_Some; congruence).
    enough (X : forall n k b, (k <= n)%nat -> nth_error ps k = Some (None, b) -> (length ps - 1 <= k)%nat) by (specialize (X k k b (le_n k) K); lia).
    clear k b K L. induction n as [|n IH]; intros k b N K.
    + apply (H k b K). intros j b' J. lia.
    + apply (H k b K). intros j b' J K'. assert (k < length ps)%nat by (apply nth_error_Some; congruence). specialize (IH j b' ltac:(lia) K'). lia.
  - intros H k b K _. specialize (H k b K). lia.
Qed.
Print Assumptions C46_if_accepts.
(** Case: a default that is not last is rejected, and nothing else *)
Theorem C46_case_accepts : forall c ws s, case_build c ws = Some s <-> s = SCase c ws /\ default_last ws.
Proof. exact case_accepts. Qed.
Print Assumptions C46_case_accepts.
(** an accepted Case executes the first When one of whose values matches; the default matches all *)
Theorem C46_case : forall St (env : St -> venv) leaf c ws s st, case_build c ws = Some s ->
  exec env leaf s st =
  match find (fun w => match fst w with Some l => existsb (case_match (env st) c ws) l | None => true end) ws with
  | Some w => execs env leaf (snd w) st | None => st end.
Proof. intros St env leaf c ws s st H. apply case_accepts in H as [-> D]. apply exec_case, D. Qed.
Print Assumptions C46_case.
Definition vals (l : list Z) (x : nat) : Z := nth x l 0.
Definition env8 (v : nat -> Z) : venv := mkEnv (fun _ => 8) (fun x => Nat.odd x) v 12345.
Example C46_ex :
  let E v := env8 v in
  let ps := [(Some (XBin BEq (XVar 0) (XPy 1)), XVar 1); (Some (XVar 2), XPy 7); (None, XBin BPlus (XVar 1) (XVar 3))] in
  exists e, pattern_mux ps = Some e /\
  number (E (vals [1; 200; 3; 3])) e = -56 /\
  number (E (vals [3; 200; 3; 3])) e = 7 /\
  number (E (vals [0; 200; 0; 100])) e = 44.
Proof. cbv zeta. eexists. split; [reflexivity|]. repeat split; reflexivity. Qed.
Example C46_if_ex :
  let ps := [(Some (XVar 0), [SLeaf 1]); (Some (XVar 2), [SLeaf 2; SLeaf 3]); (None, [SLeaf 4])] in
  let run v := match pattern_if true ps with
    | Some (Some b) => execs (fun _ : list nat => env8 v) (fun n tr => tr ++ [n]) b []
    | _ => [99%nat] end in
  run (fun _ => 1) = [1]%nat /\ run (fun x => Z.of_nat x) = [2; 3]%nat /\ run (fun _ => 0) = [4]%nat.
Proof. cbv zeta. repeat split; reflexivity. Qed.
Example C46_case_ex :
  let ws := [(Some [XPy 1; XPy 5], [SLeaf 1]); (Some [XPy 2], [SLeaf 2]); (None, [SLeaf 9])] in
  let run v := match case_build (XVar 0) ws with
    | Some s => exec (fun _ : list nat => env8 (fun _ => v)) (fun n tr => tr ++ [n]) s []
    | None => [] end in
  run 5 = [1]%nat /\ run 2 = [2]%nat /\ run 3 = [9]%nat /\ case_build (XVar 0) (rev ws) = None.
Proof. cbv zeta. repeat split; reflexivity. Qed.
(** given as one list, patterns after one without a condition are dropped silently: the check
    compares with the number of arguments, 1 *)
Theorem C46_if_list_refuted : forall b1 c b2, pattern_if false [(None, b1); (Some c, b2)] = Some (Some [SBlock b1])
  /\ pattern_if true [(None, b1); (Some c, b2)] = None.
Proof. intros. split; reflexivity. Qed.
Print Assumptions C46_if_list_refuted.
(** util.log2 of a signal gives PatternMux no default and always raises *)
Theorem C46_log2_refuted : forall value maxsize, log2_mux value maxsize = None.
Proof.
  intros v m. unfold log2_mux, pattern_mux. rewrite <- map_rev. destruct (rev (seq 1 (m - 1))) as [|k l]; [reflexivity|].
  cbn. rewrite mux_fold_none. reflexivity.
Qed.
Print Assumptions C46_log2_refuted.

(** ** C47 *)
(** the signal's expression has the pattern of the last added alternative whose condition holds,
    x if there is none *)
Theorem C47_mux : forall E W S l e, add_all add_mux l = Some e ->
  ev E W S e = match last_match (holds E) l with Some v => ev E W S v | None => junk E mod 2 ^ W end.
Proof. exact add_mux_all. Qed.
Print Assumptions C47_mux.
Theorem C47_enable : forall E W S l e, add_all add_enable_cond l = Some e ->
  ev E W S e = match last_match (holds E) l with Some v => ev E W S v | None => 0 end.
Proof. exact add_enable_all. Qed.
Print Assumptions C47_enable.
(** so a target driven by variables at least as wide holds the chosen variable's bits *)
Theorem C47_assigned : forall E f w l e x, f = add_mux \/ f = add_enable_cond -> add_all f l = Some e ->
  last_match (holds E) l = Some (XVar x) -> 0 <= w <= dw E x -> assigned E w e = val E x mod 2 ^ w.
Proof.
  intros E f w l e x F A L W. unfold assigned.
  assert (X : forall W S, ev E W S e = ev E W S (XVar x)).
  { intros W' S. destruct F as [-> | ->]; [rewrite (add_mux_all E W' S l e A)|rewrite (add_enable_all E W' S l e A)]; rewrite L; reflexivity. }
  rewrite X. apply var_assigned; lia.
Qed.
Print Assumptions C47_assigned.
(** add_disable_cond: 1 unless some alternative whose condition holds is false *)
Theorem C47_disable_partial : forall E l e w, Forall (fun cv => 1 <= swid E (snd cv) /\ stable E (snd cv)) l -> (2 <= length l)%nat ->
  1 <= w -> add_all add_disable_cond l = Some e -> assigned E w e = b2z (gates E l).
Proof.
  intros E l e w F L W H. unfold assigned. rewrite (add_disable_all E _ _ l e F L H). apply b2z_small, W.
Qed.
Print Assumptions C47_disable_partial.
(** one alternative: its value, else 1 *)
Theorem C47_disable_one : forall E W S c v e, 1 <= W -> add_all add_disable_cond [(c, v)] = Some e ->
  ev E W S e = if holds E c then ev E W S v else 1.
Proof. intros E W S c v e HW H. inversion H; subst e. cbn [add_disable_cond fst snd]. rewrite mk_mux_ev, ev_one by exact HW. reflexivity. Qed.
Print Assumptions C47_disable_one.
Example C47_ex :
  let E := env8 (vals [1; 0; 0; 0; 77; 0; 88]) in
  let l := [(XVar 0, XVar 4); (XVar 0, XVar 6); (XVar 2, XVar 8)] in
  last_match (holds E) l = Some (XVar 6) /\ (exists e, add_all add_mux l = Some e /\ assigned E 8 e = 88)
  /\ (exists e, add_all add_enable_cond l = Some e /\ assigned E 8 e = 88)
  /\ Forall (fun cv => 1 <= swid E (snd cv) /\ stable E (snd cv)) l
  /\ (exists e, add_all add_disable_cond l = Some e /\ assigned E 1 e = 1).
Proof.
  cbv zeta. repeat split; try (eexists; split; reflexivity).
  repeat constructor; cbn [snd]; try apply var_stable; cbn; lia.
Qed.
(** an earlier disabling alternative wins over a later one that holds and is 1 *)
Theorem C47_disable_last_refuted :
  let E := env8 (fun x => if Nat.eqb x 2 then 0 else 1) in
  let l := [(XVar 0, XVar 2); (XVar 0, XVar 4)] in
  last_match (holds E) l = Some (XVar 4) /\ self E (XVar 4) = 1 /\ exists e, add_all add_disable_cond l = Some e /\ assigned E 1 e = 0.
Proof. cbv zeta. repeat split; try reflexivity. eexists. split; reflexivity. Qed.
Print Assumptions C47_disable_last_refuted.
(** the unsigned x default makes add_mux zero-extend a signed alternative narrower than its target:
    an 8-bit -1 becomes 255 in a 16-bit target *)
Theorem C47_signed_refuted :
  let E := env8 (fun x => if Nat.eqb x 1 then 255 else 1) in
  number E (XVar 1) = -1 /\ (exists e, add_all add_mux [(XVar 0, XVar 1)] = Some e /\ sgn 16 (assigned E 16 e) = 255)
  /\ (exists e, add_all add_enable_cond [(XVar 0, XVar 1)] = Some e /\ sgn 16 (assigned E 16 e) = -1).
Proof. cbv zeta. repeat split; try reflexivity; eexists; split; reflexivity. Qed.
Print Assumptions C47_signed_refuted.

(** ** C37 *)
Theorem C37_index_partial : forall E x size i, 1 <= size <= 2 ^ 31 -> dw E x = size -> - size <= i < size ->
  exists e, getitem x size (At i) = Some e /\ swid E e = 1 /\
  self E e = b2z (Z.testbit (val E x) (if i <? 0 then size + i else i)).
Proof. exact getitem_at. Qed.
Print Assumptions C37_index_partial.
(** bit k of x[start:stop:step] is the bit of x at the k-th position of Python's slice *)
Theorem C37_slice_partial : forall E x size start stop step, 1 <= size <= 2 ^ 31 -> dw E x = size ->
  in_bounds size start stop step -> let js := py_slice size start stop step in js <> [] ->
  exists e, getitem x size (Sl start stop step) = Some e /\ swid E e = Z.of_nat (length js) /\
  forall k, (k < length js)%nat -> Z.testbit (self E e) (Z.of_nat k) = Z.testbit (val E x) (nth k js 0).
Proof. exact getitem_slice. Qed.
Print Assumptions C37_slice_partial.
Example C37_ex :
  let E := env8 (fun _ => 178) in (* 10110010 *)
  py_slice 8 (Some 2) (Some 6) None = [2; 3; 4; 5] /\ py_slice 8 (Some (-3)) None None = [5; 6; 7]
  /\ py_slice 8 (Some 1) (Some (-1)) (Some 2) = [1; 3; 5] /\ py_slice 8 (Some 7) (Some 1) (Some (-3)) = [7; 4]
  /\ in_bounds 8 (Some 7) (Some 1) (Some (-3))
  /\ option_map (self E) (getitem 0 8 (Sl (Some 2) (Some 6) None)) = Some 12
  /\ option_map (self E) (getitem 0 8 (Sl (Some (-3)) None None)) = Some 5
  /\ option_map (self E) (getitem 0 8 (Sl (Some 1) (Some (-1)) (Some 2))) = Some 5
  /\ option_map (self E) (getitem 0 8 (Sl (Some 7) (Some 1) (Some (-3)))) = Some 3.
Proof.
  cbv zeta. do 4 (split; [reflexivity|]). split; [|repeat split; reflexivity]. unfold in_bounds. split; [|split; [|split]].
  - intros i X. inversion X. lia.
  - intros i X. inversion X. lia.
  - discriminate.
  - intros s X _. split; [discriminate|]. exists 1. repeat split; lia.
Qed.
(** outside these bounds: bounds are not clamped, a reversing slice without bounds is empty, one
    that stops before position 0 is rejected *)
Theorem C37_bounds_refuted :
  (py_slice 8 (Some 2) (Some 100) None = [2; 3; 4; 5; 6; 7] /\ getitem 0 8 (Sl (Some 2) (Some 100) None) = Some (XSlice 0 99 2))
  /\ (py_slice 8 None None (Some (-1)) = [7; 6; 5; 4; 3; 2; 1; 0] /\ getitem 0 8 (Sl None None (Some (-1))) = Some (XCat []))
  /\ (py_slice 8 (Some 3) (Some 0) (Some (-1)) = [3; 2; 1] /\ getitem 0 8 (Sl (Some 3) (Some 0) (Some (-1))) = None).
Proof. repeat split; reflexivity. Qed.
Print Assumptions C37_bounds_refuted.

(** ** C38 *)
(** the value folded from two constants is the pattern the printed operator has in every context at
    least as wide as the operands, whose sign is signed only if they are *)
Theorem C38_binary_partial : forall E o L R l r W S z, literal L l -> literal R r ->
  swid E L <= W -> swid E R <= W -> (S = true -> ssig E L = true /\ ssig E R = true) ->
  agrees o (match o with BLt | BGt | BLe | BGe | BEq | BNe => ssig E L && ssig E R | _ => S end) l r ->
  (o = BXnor -> W = Z.max (swid E L) (swid E R)) ->
  fold_bin o l r (swid E L) (swid E R) = Some z -> ev E W S (XBin o L R) = z mod 2 ^ W.
Proof. exact fold_bin_ok. Qed.
Print Assumptions C38_binary_partial.
Theorem C38_unary_partial : forall E o R r W S z, literal R r -> swid E R <= W -> (S = true -> ssig E R = true) ->
  fold_un o r (swid E R) = Some z -> ev E W S (XUn o R) = z mod 2 ^ W.
Proof. exact fold_un_ok. Qed.
Print Assumptions C38_unary_partial.
Theorem C38_cat_partial : forall E es vs, Forall2 literal es vs -> Forall (fun v => 0 <= v) vs ->
  fold_cat vs (map (swid E) es) = self E (XCat es).
Proof. intros E es vs H N. unfold self. rewrite cat_self. apply fold_cat_ok; assumption. Qed.
Print Assumptions C38_cat_partial.
Theorem C38_repeat_partial : forall E e v n, literal e v -> 0 <= v -> fold_rep v (swid E e) n = self E (XRep e n).
Proof. exact fold_rep_ok. Qed.
Print Assumptions C38_repeat_partial.
Theorem C38_pointer : forall E x p, 0 <= p < dw E x -> dw E x <= 2 ^ 31 -> fold_ptr (val E x) p = Some (self E (XPtr x (XPy p))).
Proof. exact fold_ptr_ok. Qed.
Print Assumptions C38_pointer.
Theorem C38_slice : forall E x m l, 0 <= l <= m -> m < dw E x -> fold_slice (val E x) m l = Some (self E (XSlice x m l)).
Proof. exact fold_slice_ok. Qed.
Print Assumptions C38_slice.
Theorem C38_cond : forall E C c W S (t f : vx) zt zf, literal C c -> ev E W S t = zt mod 2 ^ W -> ev E W S f = zf mod 2 ^ W ->
  ev E W S (XCond C t f) = fold_cond c zt zf mod 2 ^ W.
Proof. intros E C c W S t f zt zf H T F. cbn [ev]. fold (self E C). rewrite (literal_zero E C c H). unfold fold_cond. destruct (c =? 0); assumption. Qed.
Print Assumptions C38_cond.
Example C38_ex :
  let E := env8 (fun _ => 178) in
  literal (XInt (-7) (Some 8) (Some 10) true) (-7) /\ literal (XPy 3) 3 /\
  fold_bin BTimes (-7) 3 8 32 = Some (-21) /\ number E (XBin BTimes (XInt (-7) (Some 8) (Some 10) true) (XPy 3)) = -21 /\
  fold_bin BLt (-7) 3 8 32 = Some 1 /\ number E (XBin BLt (XInt (-7) (Some 8) (Some 10) true) (XPy 3)) = 1 /\
  fold_bin BSra 100 3 32 32 = Some 12 /\ number E (XBin BSra (XPy 100) (XPy 3)) = 12 /\
  fold_un UXor 7 4 = Some 1 /\ self E (XUn UXor (XInt 7 (Some 4) (Some 2) false)) = 1 /\
  fold_cat [5; 3] [4; 2] = 23 /\ self E (XCat [XInt 5 (Some 4) None false; XInt 3 (Some 2) None false]) = 23.
Proof.
  cbv zeta. split; [|split]; [apply lit_int; cbn; lia|apply lit_py; change (2 ^ 31) with 2147483648; lia|]. repeat split; reflexivity.
Qed.
(** where they differ: division and remainder of operands of different signs, arithmetic shifts of
    negative odd values (rounded toward zero), logical shifts of negative values *)
Theorem C38_negative_refuted : forall E,
  (fold_bin BDivide (-7) 2 32 32 = Some (-4) /\ number E (XBin BDivide (XPy (-7)) (XPy 2)) = -3) /\
  (fold_bin BMod (-7) 2 32 32 = Some 1 /\ number E (XBin BMod (XPy (-7)) (XPy 2)) = -1) /\
  (fold_bin BSra (-7) 1 32 32 = Some (-3) /\ number E (XBin BSra (XPy (-7)) (XPy 1)) = -4) /\
  (fold_bin BSrl (-8) 1 32 32 = Some (-4) /\ self E (XBin BSrl (XPy (-8)) (XPy 1)) = 2 ^ 31 - 4).
Proof. intros E. repeat split; reflexivity. Qed.
Print Assumptions C38_negative_refuted.
(** a signed comparison with an unsigned operand is unsigned in hardware *)
Theorem C38_mixed_refuted : forall E,
  fold_bin BLt (-1) 1 32 8 = Some 1 /\ number E (XBin BLt (XPy (-1)) (XInt 1 (Some 8) (Some 10) false)) = 0.
Proof. intros E. split; reflexivity. Qed.
Print Assumptions C38_mixed_refuted.
(** concatenating a negative constant sets all higher bits *)
Theorem C38_cat_refuted : forall E,
  fold_cat [1; -1] [4; 4] = -1 /\ self E (XCat [XInt 1 (Some 4) None false; XInt (-1) (Some 4) None true]) = 31.
Proof. intros E. split; reflexivity. Qed.
Print Assumptions C38_cat_refuted.
(** the most negative value of a width is printed as the negation of an overflowing literal: read in
    a wider context it is positive *)
Theorem C38_min_refuted : forall E, number E (XBin BPlus (XInt (-8) (Some 4) None true) (XPy 0)) = 8.
Proof. reflexivity. Qed.
Print Assumptions C38_min_refuted.
