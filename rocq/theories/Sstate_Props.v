(** C78: stream operators with registers of their own. *)
From Verif Require Import Base Bits Stream_Model Stream_Spec Reduce_Model Reduce_Spec Reduce_Proofs Reduce_Props Sstate_Model Sstate_Spec Sstate_Proofs.
Open Scope Z_scope.

(** a predicate holds the data of the last valid element, in an enabled cycle, whose condition holds *)
Theorem C78_predicate : forall hw is, fold_left (pred_step hw) is 0 = last_chosen hw is.
Proof. exact pred_run. Qed.
Print Assumptions C78_predicate.

(** the index of ReduceArgMax is the place of the first maximum of the current group, one enabled cycle
    later, for every pattern of stalls and bubbles; provided the first number of the group is above the
    initial value and is not the maximum of the group before *)
Theorem C78_argmax_partial :
  forall w sg sz en rst n iv is f p i q, let c := max_cfg w sg sz en rst iv in
    1 <= w -> match sz with Some z => 0 <= z <= 32 | None => True end ->
    elements is = p ++ i :: q -> g_senable f = true -> starts_group n en rst p i q ->
    size_ok n c (elements is) -> reset_ok en rst (elements is) -> Z.of_nat (S (length q)) < 2 ^ 32 ->
    Forall (fun j => i_initval j = iv /\ value w sg (i_right j) = i_right j) (elements is) -> value w sg iv = iv ->
    iv < i_right i -> fold_left Z.max (group n en rst p) iv <> i_right i ->
    exists k, g_idx (arg_run c (is ++ [f])) = Z.of_nat k /\ first_max (group n en rst (elements is)) k /\
      s_data (g_acc (arg_run c is)) = nth k (group n en rst (elements is)) 0.
Proof.
  intros w sg sz en rst n iv is f p i q c W SZ EL HF SG SO RO LQ F V I1 I2.
  assert (HM : forall l, size_ok n c l -> reset_ok en rst l -> Forall (fun j => i_initval j = iv /\ value w sg (i_right j) = i_right j) l ->
    s_data (acc_run c l) = fold_left (pick 1) (group n en rst l) iv).
  { intros l A B C. rewrite <- max_pick. apply C30_max; try assumption; [|apply group_fits]; (eapply Forall_impl; [|exact C]; intros j J; apply J). }
  rewrite (idx_shown c is f HF). destruct (ginv_run c is) as (GA & _). rewrite GA, HM by assumption.
  rewrite EL in *. destruct (best_run c n iv 1 (or_introl eq_refl) SZ p i q) as (k & K1 & K2 & K3); try assumption.
  - intros k l. apply HM; [apply size_firstn, SO|apply reset_firstn, RO|apply Forall_firstn, F].
  - lia.
  - rewrite <- max_pick. exact I2.
  - exists k. split; [exact K1|]. destruct SG as (_ & _ & SG). change (a_enable c) with en in *. change (a_reset c) with rst in *. rewrite SG. split; [|exact K3].
    destruct K2 as (A & B & D). split; [exact A|]. split; intros j Hj; [specialize (B j Hj)|specialize (D j Hj)]; lia.
Qed.
Print Assumptions C78_argmax_partial.

Theorem C78_argmin_partial :
  forall w sg sz en rst n iv is f p i q, let c := min_cfg w sg sz en rst iv in
    1 <= w -> match sz with Some z => 0 <= z <= 32 | None => True end ->
    elements is = p ++ i :: q -> g_senable f = true -> starts_group n en rst p i q ->
    size_ok n c (elements is) -> reset_ok en rst (elements is) -> Z.of_nat (S (length q)) < 2 ^ 32 ->
    Forall (fun j => i_initval j = iv /\ value w sg (i_right j) = i_right j) (elements is) -> value w sg iv = iv ->
    i_right i < iv -> fold_left Z.min (group n en rst p) iv <> i_right i ->
    exists k, g_idx (arg_run c (is ++ [f])) = Z.of_nat k /\ first_min (group n en rst (elements is)) k /\
      s_data (g_acc (arg_run c is)) = nth k (group n en rst (elements is)) 0.
Proof.
  intros w sg sz en rst n iv is f p i q c W SZ EL HF SG SO RO LQ F V I1 I2.
  assert (HM : forall l, size_ok n c l -> reset_ok en rst l -> Forall (fun j => i_initval j = iv /\ value w sg (i_right j) = i_right j) l ->
    s_data (acc_run c l) = fold_left (pick (-1)) (group n en rst l) iv).
  { intros l A B C. rewrite <- min_pick. apply C30_min; try assumption; [|apply group_fits]; (eapply Forall_impl; [|exact C]; intros j J; apply J). }
  rewrite (idx_shown c is f HF). destruct (ginv_run c is) as (GA & _). rewrite GA, HM by assumption.
  rewrite EL in *. destruct (best_run c n iv (-1) (or_intror eq_refl) SZ p i q) as (k & K1 & K2 & K3); try assumption.
  - intros k l. apply HM; [apply size_firstn, SO|apply reset_firstn, RO|apply Forall_firstn, F].
  - lia.
  - rewrite <- min_pick. exact I2.
  - exists k. split; [exact K1|]. destruct SG as (_ & _ & SG). change (a_enable c) with en in *. change (a_reset c) with rst in *. rewrite SG. split; [|exact K3].
    destruct K2 as (A & B & D). split; [exact A|]. split; intros j Hj; [specialize (B j Hj)|specialize (D j Hj)]; lia.
Qed.
Print Assumptions C78_argmin_partial.

Definition ex_in (n x : Z) : gin := mkGIn true true (mkAIn x n 0 0 0 true false).
Definition ex_bubble : gin := mkGIn true false (mkAIn 99 0 0 0 0 true false).
Definition ex_stall : gin := mkGIn false true (mkAIn 77 0 0 0 0 true false).

(** the second group of 5, 2 after 1, 5: the maximum does not change, so the index stays that of the
    first group *)
Theorem C78_argmax_stale_refuted :
  exists is f, g_senable f = true /\ size_ok (Some 2%nat) (max_cfg 32 true (Some 8) false false 0) (elements is) /\
    Forall (fun j => i_initval j = 0 /\ 0 < i_right j < 10) (elements is) /\
    group (Some 2%nat) false false (elements is) = [5; 2] /\
    first_max [5; 2] 0 /\ g_idx (arg_run (max_cfg 32 true (Some 8) false false 0) (is ++ [f])) = 1.
Proof.
  exists (map (ex_in 2) [1; 5; 5; 2]), ex_bubble. split; [reflexivity|]. split; [cbn; repeat split; try lia; repeat constructor|].
  split; [repeat constructor; cbn; lia|]. split; [reflexivity|]. split; [|vm_compute; reflexivity].
  split; [cbn; lia|]. split; intros [|[|j]] Hj; cbn in *; lia.
Qed.
Print Assumptions C78_argmax_stale_refuted.

(** numbers not above the initial value (0 by default) never move the index *)
Theorem C78_argmax_initval_refuted :
  exists is f, g_senable f = true /\ size_ok (Some 3%nat) (max_cfg 32 true (Some 8) false false 0) (elements is) /\
    group (Some 3%nat) false false (elements is) = [-7; -2; -5] /\
    first_max [-7; -2; -5] 1 /\ g_idx (arg_run (max_cfg 32 true (Some 8) false false 0) (is ++ [f])) = 0.
Proof.
  exists (map (ex_in 3) [-7; -2; -5]), ex_bubble. split; [reflexivity|]. split; [cbn; repeat split; try lia; repeat constructor|].
  split; [reflexivity|]. split; [|vm_compute; reflexivity].
  split; [cbn; lia|]. split; intros [|[|[|j]]] Hj; cbn in *; lia.
Qed.
Print Assumptions C78_argmax_initval_refuted.

(** ** CounterValid *)
(** with step 1, no offset and no interval the valid output marks the last number before the wrap *)
Theorem C78_counter_valid_partial :
  forall c sw n l i, c_width c = 32 -> 32 <= c_ctx c -> c_size c = true -> c_offset c = false -> c_interval c = false -> c_reg_initval c = 0 ->
    0 <= sw <= 32 -> 1 <= Z.of_nat n < 2 ^ sw -> reset_ok (c_enable c) (c_reset c) (l ++ [i]) -> enabled (c_enable c) i = true ->
    Forall (fun i => i_right i = 1 /\ i_size i = Z.of_nat n /\ i_initval i = 0) (l ++ [i]) ->
    s_data (acc_run (snd (counter_valid c sw)) (l ++ [i])) = b2z (t_data (cnt_run (fst (counter_valid c sw)) (l ++ [i])) =? Z.of_nat n - 1).
Proof. exact counter_valid_ok. Qed.
Print Assumptions C78_counter_valid_partial.

(** with step 2 and size 4 the counter shows 0, 2, 0, 2; the pulse ignores the step and marks only the
    second of the two passes *)
Theorem C78_counter_valid_step_refuted :
  let c := mkCCfg 32 32 true false false false false 0 in
  let l := repeat (mkAIn 2 4 0 0 0 true false) 4 in
  map (fun k => (t_data (cnt_run c (firstn k l)), s_data (acc_run (snd (counter_valid c 8)) (firstn k l)))) [1; 2; 3; 4]%nat =
    [(0, 0); (2, 0); (0, 0); (2, 1)].
Proof. vm_compute. reflexivity. Qed.
Print Assumptions C78_counter_valid_step_refuted.

(** ** Scratchpad *)
(** the value read by an element is the word after the writes up to that element, its own included,
    for every pattern of stalls and bubbles; provided that no element of the [d - 1] enabled cycles
    after it writes the address, [d] being the number of stages from the write to the read *)
Theorem C78_scratchpad_partial :
  forall aw m0 d is o pre e mid, active is = pre ++ Some e :: mid -> length mid = (d - 1)%nat -> (1 <= d)%nat -> e_ren e = true ->
    Forall (fun x => hits aw (uns aw (e_raddr e)) x = false) mid ->
    q_rdata (pad_run aw m0 d (is ++ [(true, o)])) = word_after aw m0 (pre ++ [Some e]) (uns aw (e_raddr e)).
Proof. exact pad_read. Qed.
Print Assumptions C78_scratchpad_partial.

(** an address that is one stage late reads the write of the next element *)
Theorem C78_scratchpad_late_refuted :
  ~ (forall aw m0 d is o pre e mid, active is = pre ++ Some e :: mid -> length mid = (d - 1)%nat -> (1 <= d)%nat -> e_ren e = true ->
       q_rdata (pad_run aw m0 d (is ++ [(true, o)])) = word_after aw m0 (pre ++ [Some e]) (uns aw (e_raddr e))).
Proof.
  intros H. specialize (H 4 (fun _ => 0) 2%nat [(true, Some (mkElem 10 3 true 3 true)); (true, Some (mkElem 20 3 true 3 true))] None
    [] (mkElem 10 3 true 3 true) [Some (mkElem 20 3 true 3 true)] eq_refl eq_refl ltac:(lia) eq_refl). vm_compute in H. discriminate H.
Qed.
Print Assumptions C78_scratchpad_late_refuted.

(** ** CustomCounter *)
(** with a reset input that is set on the first element, as many operands as variables, and no
    bubbles, the variables follow the user's function from the initial values; stalls are allowed *)
Theorem C78_custom_partial :
  forall c is u us, k_reset c = true -> u_reset u = true ->
    Forall (fun i => j_senable i = true -> j_svalid i = true) is ->
    map j_args (filter (fun i => j_senable i && j_svalid i) is) = map (encode c) (u :: us) ->
    Forall (fun u => length (u_init u) = num_vars c /\ length (u_args u) = num_vars c) (u :: us) ->
    cc_run c is = custom_value c (u :: us).
Proof.
  intros c is u us R U V E F. unfold cc_run. rewrite (cc_fold c is R V (u :: us) (cc_init c) E F). cbn [fold_left custom_value]. f_equal.
  unfold custom_next. rewrite U. reflexivity.
Qed.
Print Assumptions C78_custom_partial.

Definition ex_cc (r : bool) : kcfg := mkKCfg [(8, false)] (fun l => match l with [v; a] => [v + a] | _ => [hd 0 l + 1] end) r.
(** a cycle without a valid element moves the variables *)
Theorem C78_custom_bubble_refuted :
  exists is u us, u_reset u = true /\
    map j_args (filter (fun i => j_senable i && j_svalid i) is) = map (encode (ex_cc true)) (u :: us) /\
    Forall (fun u => length (u_init u) = num_vars (ex_cc true) /\ length (u_args u) = num_vars (ex_cc true)) (u :: us) /\
    cc_run (ex_cc true) is = [9] /\ custom_value (ex_cc true) (u :: us) = [7].
Proof.
  exists [mkKIn true true [5; 2; 1]; mkKIn true false [5; 2; 0]; mkKIn true true [5; 2; 0]], (mkUser [5] [2] true), [mkUser [5] [2] false].
  repeat split; repeat constructor.
Qed.
Print Assumptions C78_custom_bubble_refuted.

(** without a reset input the initial values are never used *)
Theorem C78_custom_initval_refuted :
  exists is u, map j_args (filter (fun i => j_senable i && j_svalid i) is) = [encode (ex_cc false) u] /\
    Forall (fun i => j_senable i = true /\ j_svalid i = true) is /\
    cc_run (ex_cc false) is = [2] /\ custom_value (ex_cc false) [u] = [5].
Proof. exists [mkKIn true true [5; 2]], (mkUser [5] [2] false). repeat split; repeat constructor. Qed.
Print Assumptions C78_custom_initval_refuted.

(** with a reset input and no operands, the user's function gets the reset signal as an operand *)
Theorem C78_custom_reset_operand_refuted :
  exists is u us, u_reset u = true /\ Forall (fun i => j_senable i = true /\ j_svalid i = true) is /\
    map j_args is = map (encode (ex_cc true)) (u :: us) /\ Forall (fun u => u_args u = []) (u :: us) /\
    cc_run (ex_cc true) is = [5] /\ custom_value (ex_cc true) (u :: us) = [6].
Proof.
  exists [mkKIn true true [5; 1]; mkKIn true true [5; 0]], (mkUser [5] [] true), [mkUser [5] [] false].
  repeat split; repeat constructor.
Qed.
Print Assumptions C78_custom_reset_operand_refuted.

(** groups of 3 with a bubble and a stall: 4 9 9 | 3 8 2; scratchpad three stages apart with bubbles *)
Example ex_arg : let c := max_cfg 32 true (Some 8) false false 0 in
  let is := [ex_in 3 4; ex_in 3 9; ex_bubble; ex_in 3 9; ex_in 3 3; ex_stall; ex_in 3 8] in
  starts_group (Some 3%nat) false false (map g_ops (map (ex_in 3) [4; 9; 9])) (g_ops (ex_in 3 3)) (map g_ops [ex_in 3 8]) /\
  elements is = map g_ops (map (ex_in 3) [4; 9; 9; 3; 8]) /\ size_ok (Some 3%nat) c (elements is) /\
  map (fun k => g_idx (arg_run c (firstn k (is ++ [ex_bubble])))) [1; 2; 3; 4; 5; 6; 7; 8]%nat = [0; 0; 1; 1; 1; 1; 0; 1].
Proof. cbv zeta. split; [repeat split; reflexivity|]. split; [reflexivity|]. split; [cbn; repeat split; try lia; repeat constructor|vm_compute; reflexivity]. Qed.
Example ex_pad : q_rdata (pad_run 4 (fun _ => 0) 3 ([(true, Some (mkElem 10 3 true 0 false)); (false, None); (true, Some (mkElem 11 5 true 19 true)); (true, None); (false, Some (mkElem 12 3 true 3 true)); (true, Some (mkElem 13 4 true 3 true))] ++ [(true, None)])) = 10.
Proof. vm_compute. reflexivity. Qed.
Example ex_custom : let is := [mkKIn true true [5; 2; 1]; mkKIn false true [5; 2; 0]; mkKIn true true [5; 3; 0]] in
  cc_run (ex_cc true) is = [8] /\ custom_value (ex_cc true) [mkUser [5] [2] true; mkUser [5] [3] false] = [8].
Proof. vm_compute. split; reflexivity. Qed.
