(** C30, C31, C50: reductions, counters, pseudo-random streams. *)
From Verif Require Import Base Bits Mult_Model Stream_Model Stream_Spec Reduce_Model Reduce_Spec Reduce_Proofs.
Open Scope Z_scope.

(** * C30 *)
(** after any valid elements, the output is the fold of the operator over the group so far, each step
    cut to the register's width *)
Theorem C30_fold :
  forall c n iv l, a_interval c = false -> a_reg_initval c = iv -> is_pulse c = false ->
    size_ok n c l -> Forall (fun i => i_initval i = iv) l -> reset_ok (a_enable c) (a_reset c) l ->
    s_data (acc_run c l) =
      fold_left (fun v x => value (a_width c) (a_signed c) (fold_left (fun v op => op v x) (a_ops c) v))
        (group n (a_enable c) (a_reset c) l) (value (a_width c) (a_signed c) iv).
Proof.
  intros c n iv l NI RI P S I R. rewrite (reduce_ok c n iv l NI RI P S I R). unfold fold_op, to_data, data_width. rewrite P. reflexivity.
Qed.
Print Assumptions C30_fold.

(** without enable and reset the groups are the blocks of [n] elements *)
Theorem C30_blocks :
  forall n l, (1 <= n)%nat -> l <> [] -> group (Some n) false false l = map i_right (skipn ((length l - 1) / n * n) l).
Proof. exact group_block. Qed.
Print Assumptions C30_blocks.

Theorem C30_add :
  forall w sg sz en rst n iv l, let c := mkACfg w sg [op_add] sz false en rst iv in
    0 <= w -> size_ok n c l -> Forall (fun i => i_initval i = iv) l -> reset_ok en rst l ->
    s_data (acc_run c l) = value w sg (iv + fold_right Z.add 0 (group n en rst l)).
Proof.
  intros w sg sz en rst n iv l c W S I R. unfold c in *. rewrite (C30_fold _ n iv l); try assumption; try reflexivity. cbn [a_width a_signed a_ops a_enable a_reset].
  rewrite <- (fold_sum w sg W). reflexivity.
Qed.
Print Assumptions C30_add.

Theorem C30_max :
  forall w sg sz en rst n iv l, let c := mkACfg w sg [op_max] sz false en rst iv in
    1 <= w -> size_ok n c l -> Forall (fun i => i_initval i = iv) l -> reset_ok en rst l ->
    value w sg iv = iv -> Forall (fun x => value w sg x = x) (group n en rst l) ->
    s_data (acc_run c l) = fold_left Z.max (group n en rst l) iv.
Proof.
  intros w sg sz en rst n iv l c W S I R F1 F2. unfold c in *. rewrite (C30_fold _ n iv l); try assumption; try reflexivity. cbn [a_width a_signed a_ops a_enable a_reset fold_left].
  rewrite F1, (fold_pick w sg op_max); [|intros x y; unfold op_max; destruct (x <? y); auto|exact F1|exact F2].
  apply fold_ext. intros x y. unfold op_max. destruct (Z.ltb_spec x y); lia.
Qed.
Print Assumptions C30_max.
Theorem C30_min :
  forall w sg sz en rst n iv l, let c := mkACfg w sg [op_min] sz false en rst iv in
    1 <= w -> size_ok n c l -> Forall (fun i => i_initval i = iv) l -> reset_ok en rst l ->
    value w sg iv = iv -> Forall (fun x => value w sg x = x) (group n en rst l) ->
    s_data (acc_run c l) = fold_left Z.min (group n en rst l) iv.
Proof.
  intros w sg sz en rst n iv l c W S I R F1 F2. unfold c in *. rewrite (C30_fold _ n iv l); try assumption; try reflexivity. cbn [a_width a_signed a_ops a_enable a_reset fold_left].
  rewrite F1, (fold_pick w sg op_min); [|intros x y; unfold op_min; destruct (y <? x); auto|exact F1|exact F2].
  apply fold_ext. intros x y. unfold op_min. destruct (Z.ltb_spec y x); lia.
Qed.
Print Assumptions C30_min.

(** the valid output of Reduce...Valid: high exactly when the group is complete *)
Theorem C30_valid :
  forall c sw n l, let p := snd (reduce_valid c sw) in
    size_ok (Some n) p l -> Forall (fun i => i_initval i = 0) l -> reset_ok (a_enable c) (a_reset c) l ->
    s_data (acc_run p l) = b2z (length (group (Some n) (a_enable c) (a_reset c) l) =? n)%nat.
Proof. intros c sw n l p S I R. exact (pulse_ok p n l eq_refl eq_refl eq_refl eq_refl S I R). Qed.
Print Assumptions C30_valid.
Theorem C30_valid_period :
  forall sw n l, size_ok (Some n) (pulse_cfg sw false false false) l -> Forall (fun i => i_initval i = 0) l -> l <> [] ->
    s_data (acc_run (pulse_cfg sw false false false) l) = b2z (length l mod n =? 0)%nat.
Proof.
  intros sw n l SO I N. rewrite (pulse_ok (pulse_cfg sw false false false) n l eq_refl eq_refl eq_refl eq_refl SO I (or_introl eq_refl)). f_equal.
  assert (Hn : (1 <= n)%nat) by (cbn in SO; lia). cbn [a_enable a_reset pulse_cfg]. unfold group. rewrite group_len_gen by (cbn; lia). cbn [length Nat.add].
  destruct l as [|a l]; [congruence|]. cbn [length]. replace (S (length l) =? 0)%nat with false by reflexivity. replace (S (length l) - 1)%nat with (length l) by lia.
  pose proof (Nat.mod_upper_bound (length l) n ltac:(lia)) as B. pose proof (Nat.div_mod (length l) n ltac:(lia)) as D.
  destruct (Nat.eqb_spec (S (length l mod n)) n) as [E|E]; symmetry.
  - apply Nat.eqb_eq. symmetry. apply (Nat.mod_unique _ _ (S (length l / n))); [lia|]. clear - E D. nia.
  - apply Nat.eqb_neq. rewrite <- (Nat.mod_unique (S (length l)) n (length l / n) (S (length l mod n))); lia.
Qed.
Print Assumptions C30_valid_period.

(** with an interval [p] and no size, every [p]-th element is taken *)
Theorem C30_interval :
  forall c p l, a_interval c = true -> a_size c = None -> a_reset c = false -> 1 <= a_width c -> 1 <= Z.of_nat p <= 2 ^ a_width c ->
    Forall (fun i => i_interval i = Z.of_nat p) l ->
    s_data (acc_run c l) =
      fold_left (fun v x => value (a_width c) (a_signed c) (fold_left (fun v op => op v x) (a_ops c) v))
        (every p (p - 1) (enabled_values (a_enable c) l)) (value (a_width c) (a_signed c) (a_reg_initval c)).
Proof.
  intros c p l HI HS HR W P F. assert (PL : is_pulse c = false) by (unfold is_pulse; rewrite HS; destruct (a_ops c); reflexivity).
  assert (DW : data_width c = a_width c) by (unfold data_width; rewrite PL; reflexivity).
  unfold acc_run. rewrite (ival_run c p HI HS HR ltac:(lia) ltac:(rewrite DW; exact P) l F (acc_init c) (p - 1)%nat); [|lia|cbn; lia].
  unfold acc_init, fold_op, to_data. rewrite DW. reflexivity.
Qed.
Print Assumptions C30_interval.

(** a reduction node of a stream: its value for element [k] is that of the run over the valid
    elements up to [k] (with [C28_pipeline]: what the hardware shows) *)
Theorem C30_node :
  forall g par xs n d c k y, get g n = Some d -> n_kind d = acc_kind c ->
    (den g par xs n k y <-> exists l, valid_ops g par xs d (S k) l /\ y = s_data (acc_run c (map (dec_acc c) l))).
Proof.
  intros g par xs n d c k y G K. unfold acc_kind in K. rewrite (den_ops g par xs n d _ _ _ k y G K).
  split; intros (l & A & ->); exists l; (split; [exact A|]); rewrite acc_fold; reflexivity.
Qed.
Print Assumptions C30_node.

(** the operands of a node reach the fields they belong to, whichever of them are given *)
Theorem C30_operands :
  forall size interval offset enable reset i,
    dec_args size interval offset enable reset (operands size interval offset enable reset i)
    = only_given size interval offset enable reset i.
Proof.
  intros size interval offset enable reset [r sz iv ini off en rst].
  destruct size, interval, offset, enable, reset, en, rst; reflexivity.
Qed.
Print Assumptions C30_operands.

(** ReduceMul takes three cycles per element, stalling the stream; whenever it is not busy it holds
    what a one-cycle reduction with the multiplication would hold after the elements taken (to which
    [C30_fold] applies), and it is busy at most two cycles *)
Theorem C30_mul :
  forall c rs pt l, 1 <= a_width c -> a_ops c = [op_mul (a_width c) (a_signed c) rs pt] ->
    let s := fold_left (mul_cycle c rs pt) l (mul_init c) in
    (m_ii s = 0 -> m_acc s = acc_run c (taken c rs pt (mul_init c) l)) /\
    (m_ii s <> 0 -> forall y1 y2, m_ii (mul_cycle c rs pt s y1) = 0 \/ m_ii (mul_cycle c rs pt (mul_cycle c rs pt s y1) y2) = 0).
Proof.
  intros c rs pt l W O s. pose proof (MInv_run c rs pt W O l [] (mul_init c) (MInv_init c rs pt)) as M. change (fold_left (mul_cycle c rs pt) l (mul_init c)) with s in M.
  clearbody s. destruct M as (L & [(Z0 & A)|(s0 & y0 & t0 & T & Z0 & L0 & A0 & I1 & H)]).
  - split; [intros _; exact A|]. intros N. congruence.
  - destruct (stall_step c rs pt (mul_cycle c rs pt s0 y0) y0 ltac:(lia)) as (I2 & _).
    destruct H as [H|(y1' & H)].
    + split; [rewrite H; intros N; lia|]. intros _ y1 y2. right. rewrite H.
      destruct (stall_step c rs pt (mul_cycle c rs pt s0 y0) y1 ltac:(lia)) as (I2' & _). apply (done_step c rs pt). lia.
    + destruct (stall_step c rs pt (mul_cycle c rs pt s0 y0) y1' ltac:(lia)) as (I2' & _). split; [rewrite H; intros N; lia|].
      intros _ y1 y2. left. rewrite H. apply (done_step c rs pt). lia.
Qed.
Print Assumptions C30_mul.

(** ** Where reductions go wrong *)
(** size and interval together: after the first group the accumulator never moves again *)
Theorem C30_interval_stuck :
  forall c l l', a_interval c = true -> a_reset c = false -> a_size c <> None -> 1 <= a_width c ->
    s_pmax (acc_run c l) = true -> Forall (fun i => 2 <= i_interval i <= 2 ^ 32) l' ->
    s_data (acc_run c (l ++ l')) = s_data (acc_run c l).
Proof.
  intros c l l' HI HR HS W P F. unfold acc_run in *. rewrite fold_left_app. apply ival_stuck; try assumption.
  unfold data_width. destruct (is_pulse c); lia.
Qed.
Print Assumptions C30_interval_stuck.
Theorem C30_interval_with_size_refuted :
  ~ (forall c n p iv l, a_interval c = true -> a_reset c = false -> is_pulse c = false -> 1 <= a_width c -> 1 <= Z.of_nat p <= 2 ^ a_width c ->
       size_ok (Some n) c l -> a_reg_initval c = iv -> Forall (fun i => i_initval i = iv /\ i_interval i = Z.of_nat p) l ->
       s_data (acc_run c l) =
         fold_left (fun v x => value (a_width c) (a_signed c) (fold_left (fun v op => op v x) (a_ops c) v))
           (group (Some n) false false (map (fun x => mkAIn x 0 0 0 0 true false) (every p (p - 1) (enabled_values (a_enable c) l)))) (value (a_width c) (a_signed c) iv)).
Proof.
  intros H.
  specialize (H (mkACfg 32 true [op_add] (Some 32) true false false 0) 2%nat 2%nat 0 (map (fun x => mkAIn x 2 2 0 0 true false) [1; 2; 3; 4; 5; 7])
    eq_refl eq_refl eq_refl ltac:(cbn; lia) ltac:(cbn; lia) ltac:(cbn; repeat split; try lia; repeat constructor) eq_refl ltac:(repeat constructor)).
  vm_compute in H. discriminate H.
Qed.
Print Assumptions C30_interval_with_size_refuted.

(** a reset on a disabled element clears the value but not the position in the group: here the group
    of 3 started by the reset is closed after two elements *)
Theorem C30_reset_disabled_refuted :
  ~ (forall c n iv l, a_interval c = false -> a_reg_initval c = iv -> is_pulse c = false ->
       size_ok n c l -> Forall (fun i => i_initval i = iv) l ->
       s_data (acc_run c l) =
         fold_left (fun v x => value (a_width c) (a_signed c) (fold_left (fun v op => op v x) (a_ops c) v))
           (fold_left (fun cur i => if restart (a_reset c) i then (if enabled (a_enable c) i then [i_right i] else []) else join n (a_enable c) false cur i) l [])
           (value (a_width c) (a_signed c) iv)).
Proof.
  intros H.
  specialize (H (mkACfg 32 true [op_add] (Some 32) false true true 0) (Some 3%nat) 0
    [mkAIn 1 3 0 0 0 true false; mkAIn 9 3 0 0 0 false true; mkAIn 10 3 0 0 0 true false; mkAIn 20 3 0 0 0 true false; mkAIn 30 3 0 0 0 true false]
    eq_refl eq_refl eq_refl ltac:(cbn; repeat split; try lia; repeat constructor) ltac:(repeat constructor)).
  vm_compute in H. discriminate H.
Qed.
Print Assumptions C30_reset_disabled_refuted.

(** sum of groups of 3 with an enable: 1 2 (9) 3 | 4 5 *)
Definition ex_acc : acfg := mkACfg 8 true [op_add] (Some 8) false true false 100.
Definition ex_l : list ain := map (fun '(x, e) => mkAIn x 3 0 100 0 e false) [(1, true); (2, true); (9, false); (3, true); (4, true); (50, true)].
Example ex_acc_hyp : size_ok (Some 3%nat) ex_acc ex_l /\ Forall (fun i => i_initval i = 100) ex_l /\ reset_ok true false ex_l.
Proof. split; [cbn; repeat split; try lia; repeat constructor|]. split; [repeat constructor|left; reflexivity]. Qed.
Example ex_acc_runs : map (fun k => (s_data (acc_run ex_acc (firstn k ex_l)), s_data (acc_run (snd (reduce_valid ex_acc 8)) (firstn k ex_l)))) [1; 2; 3; 4; 5; 6]%nat =
  [(101, 0); (103, 0); (103, 0); (106, 1); (104, 0); (-102, 0)].
Proof. vm_compute. reflexivity. Qed.
Example ex_ival : s_data (acc_run (mkACfg 32 true [op_add] None true false false 0) (map (fun x => mkAIn x 0 3 0 0 true false) [1; 2; 3; 4; 5; 6; 7])) = 9.
Proof. vm_compute. reflexivity. Qed.

(** products of groups of 2 with stalls and an idle cycle *)
Definition ex_mc : acfg := mkACfg 16 true [op_mul 16 true true 0] (Some 8) false false false 1.
Definition ex_my : list min := map (fun '(v, r, x) => mkMIn v r (mkAIn x 2 0 1 0 true false))
  [(true, true, 3); (true, true, -5); (true, true, -5); (true, true, -5); (false, true, 9); (true, false, 4); (true, true, 7); (true, true, 8); (true, true, 8); (true, true, 8)].
Example ex_mul_run : map i_right (taken ex_mc true 0 (mul_init ex_mc) ex_my) = [3; -5; 7; 8] /\
  map (fun k => let s := fold_left (mul_cycle ex_mc true 0) (firstn k ex_my) (mul_init ex_mc) in (m_ii s, s_data (m_acc s))) [3; 5; 6; 9]%nat = [(0, 3); (2, 3); (0, -15); (0, 7)].
Proof. vm_compute. split; reflexivity. Qed.

(** * C31 *)
(** element after [l] shows the value at its position; no size: init + k*step *)
Theorem C31_free :
  forall c step l i, 0 <= c_width c -> c_size c = false -> c_interval c = false -> reset_ok (c_enable c) (c_reset c) (l ++ [i]) ->
    Forall (fun i => i_right i = step /\ i_initval i = c_reg_initval c) (l ++ [i]) ->
    t_data (cnt_run c (l ++ [i])) = uns (c_width c) (c_reg_initval c + Z.of_nat (position (c_enable c) (c_reset c) l i) * step).
Proof.
  intros c step l i W HS NI R F.
  apply (cnt_shown c (fun k => uns (c_width c) (c_reg_initval c + Z.of_nat k * step))); [f_equal; lia|exact NI|].
  rewrite Forall_forall in *. intros x Hx. destruct (F x Hx) as (F1 & F2). split; [rewrite F2; f_equal; lia|]. split.
  - destruct R as [R|R]; [left; exact R|right]. rewrite Forall_forall in R. apply R, Hx.
  - intros s k E. exact (next_free c s x k step HS F1 E W).
Qed.
Print Assumptions C31_free.

(** with a size: modulo the size *)
Theorem C31_modulo :
  forall c step size l i, 0 <= c_width c <= c_ctx c -> c_size c = true -> c_offset c = false -> c_interval c = false ->
    reset_ok (c_enable c) (c_reset c) (l ++ [i]) ->
    0 <= step <= size -> 0 <= c_reg_initval c < size -> size <= 2 ^ c_width c ->
    Forall (fun i => i_right i = step /\ i_size i = size /\ i_initval i = c_reg_initval c) (l ++ [i]) ->
    t_data (cnt_run c (l ++ [i])) = (c_reg_initval c + Z.of_nat (position (c_enable c) (c_reset c) l i) * step) mod size.
Proof.
  intros c step size l i W HS HO NI R B IB SB F.
  assert (f0 : uns (c_width c) (c_reg_initval c) = (c_reg_initval c + Z.of_nat 0 * step) mod size) by (rewrite uns_small by lia; rewrite Z.add_0_r; symmetry; apply Z.mod_small; lia).
  apply (cnt_shown c (fun k => (c_reg_initval c + Z.of_nat k * step) mod size)); [exact f0|exact NI|].
  rewrite Forall_forall in *. intros x Hx. destruct (F x Hx) as (F1 & F2 & F3). split; [rewrite F3; exact f0|]. split.
  - destruct R as [R|R]; [left; exact R|right]. rewrite Forall_forall in R. apply R, Hx.
  - intros s k E. apply (next_wrap c s x k (c_reg_initval c) step size); try assumption; lia.
Qed.
Print Assumptions C31_modulo.

(** with an offset: back to the offset when the next value would reach the size *)
Theorem C31_offset :
  forall c step size l i, 0 <= c_width c <= c_ctx c -> c_size c = true -> c_offset c = true -> c_interval c = false ->
    reset_ok (c_enable c) (c_reset c) (l ++ [i]) ->
    1 <= step <= size -> 0 <= c_reg_initval c < size -> size <= 2 ^ c_width c ->
    Forall (fun i => i_right i = step /\ i_size i = size /\ i_initval i = c_reg_initval c /\ i_offset i = c_reg_initval c) (l ++ [i]) ->
    t_data (cnt_run c (l ++ [i])) =
      c_reg_initval c + step * Z.of_nat (position (c_enable c) (c_reset c) l i mod Z.to_nat ((size - c_reg_initval c + step - 1) / step)).
Proof.
  intros c step size l i W HS HO NI R B IB SB F.
  assert (Q : 1 <= (size - c_reg_initval c + step - 1) / step) by (apply Z.div_le_lower_bound; lia).
  assert (f0 : uns (c_width c) (c_reg_initval c) = c_reg_initval c + step * Z.of_nat (0 mod Z.to_nat ((size - c_reg_initval c + step - 1) / step)))
    by (rewrite Nat.mod_0_l by lia; rewrite uns_small by lia; lia).
  apply (cnt_shown c (fun k => c_reg_initval c + step * Z.of_nat (k mod Z.to_nat ((size - c_reg_initval c + step - 1) / step)))); [exact f0|exact NI|].
  rewrite Forall_forall in *. intros x Hx. destruct (F x Hx) as (F1 & F2 & F3 & F4). split; [rewrite F3; exact f0|]. split.
  - destruct R as [R|R]; [left; exact R|right]. rewrite Forall_forall in R. apply R, Hx.
  - intros s k E. apply (next_offset c s x k step size (c_reg_initval c)); try assumption; lia.
Qed.
Print Assumptions C31_offset.

(** with an interval [p] the counter moves every [p] enabled elements *)
Theorem C31_interval :
  forall c p step size l i, 1 <= c_width c <= c_ctx c -> c_size c = true -> c_offset c = false -> c_interval c = true -> c_reset c = false ->
    0 <= step <= size -> 0 <= c_reg_initval c < size -> size <= 2 ^ c_width c -> 1 <= Z.of_nat p <= 2 ^ c_width c ->
    Forall (fun i => i_right i = step /\ i_size i = size /\ i_initval i = c_reg_initval c /\ i_interval i = Z.of_nat p) (l ++ [i]) ->
    t_data (cnt_run c (l ++ [i])) = (c_reg_initval c + Z.of_nat (length (filter (enabled (c_enable c)) l) / p) * step) mod size.
Proof.
  intros c p step size l i W HS HO HI HR B IB SB P F.
  assert (f0 : uns (c_width c) (c_reg_initval c) = (c_reg_initval c + Z.of_nat 0 * step) mod size) by (rewrite uns_small by lia; rewrite Z.add_0_r; symmetry; apply Z.mod_small; lia).
  apply (cnt_ival_shown c (fun k => (c_reg_initval c + Z.of_nat k * step) mod size)); try assumption; [lia|].
  rewrite Forall_forall in *. intros x Hx. destruct (F x Hx) as (F1 & F2 & F3 & F4). split; [|exact F4]. split; [rewrite F3; exact f0|]. split; [left; exact HR|].
  intros s k E. apply (next_wrap c s x k (c_reg_initval c) step size); try assumption; lia.
Qed.
Print Assumptions C31_interval.

Theorem C31_node :
  forall g par xs n d c k y, get g n = Some d -> n_kind d = cnt_kind c ->
    (den g par xs n k y <-> exists l, valid_ops g par xs d (S k) l /\ y = t_data (cnt_run c (map (dec_cnt c) l))).
Proof.
  intros g par xs n d c k y G K. unfold cnt_kind in K. rewrite (den_ops g par xs n d _ _ _ k y G K).
  split; intros (l & A & ->); exists l; (split; [exact A|]); rewrite cnt_fold; reflexivity.
Qed.
Print Assumptions C31_node.

(** a reset on a disabled element shows the initial value but is forgotten *)
Theorem C31_reset_disabled_refuted :
  ~ (forall c step size l i, 0 <= c_width c <= c_ctx c -> c_size c = true -> c_offset c = false -> c_interval c = false ->
       0 <= step <= size -> 0 <= c_reg_initval c < size -> size <= 2 ^ c_width c ->
       Forall (fun i => i_right i = step /\ i_size i = size /\ i_initval i = c_reg_initval c) (l ++ [i]) ->
       t_data (cnt_run c (l ++ [i])) = (c_reg_initval c + Z.of_nat (position (c_enable c) (c_reset c) l i) * step) mod size).
Proof.
  intros H.
  specialize (H (mkCCfg 32 32 true false false true true 0) 1 10 [mkAIn 1 10 0 0 0 true false; mkAIn 1 10 0 0 0 true false; mkAIn 1 10 0 0 0 false true] (mkAIn 1 10 0 0 0 true false)
    ltac:(cbn; lia) eq_refl eq_refl eq_refl ltac:(lia) ltac:(cbn; lia) ltac:(cbn; lia) ltac:(repeat constructor)).
  vm_compute in H. discriminate H.
Qed.
Print Assumptions C31_reset_disabled_refuted.

Definition ex_cnt (size off iv : bool) : ccfg := mkCCfg 32 32 size off iv false true 2.
Definition ex_ci (k : nat) : list ain := map (fun r => mkAIn 3 11 2 2 2 true r) (repeat false k ++ [true; false; false]).
Example ex_cnt_vals : map (fun k => t_data (cnt_run (ex_cnt true false false) (firstn k (ex_ci 6)))) [1; 2; 3; 4; 5; 6; 7; 8; 9]%nat = [2; 5; 8; 0; 3; 6; 2; 5; 8] /\
                      map (fun k => t_data (cnt_run (ex_cnt true true false) (firstn k (ex_ci 6)))) [1; 2; 3; 4; 5; 6; 7; 8; 9]%nat = [2; 5; 8; 2; 5; 8; 2; 5; 8] /\
                      map (fun k => t_data (cnt_run (ex_cnt true false true) (firstn k (ex_ci 6)))) [1; 2; 3; 4; 5; 6]%nat = [2; 2; 5; 5; 8; 8].
Proof. vm_compute. repeat split. Qed.
Example ex_cnt_hyp : reset_ok (c_enable (ex_cnt true false false)) (c_reset (ex_cnt true false false)) (ex_ci 6) /\
  Forall (fun i => i_right i = 3 /\ i_size i = 11 /\ i_initval i = 2) (ex_ci 6).
Proof. split; [right|]; repeat constructor. Qed.

(** * C50 *)
(** the element after [l], if enabled, is iterate number (enabled elements before it) of the seed;
    it is never 0 *)
Theorem C50_sequence :
  forall w seed he l i, w = 32 \/ w = 64 -> enabled he i = true ->
    let '(a, b, c) := if w =? 32 then (13, 17, 5) else (13, 7, 17) in
    orbit w a b c (uns w seed) (length (filter (enabled he) l)) (x_data (xs_run w seed he (l ++ [i]))).
Proof.
  intros w seed he l i W E. assert (W0 : 0 <= w) by lia. pose proof (xs_run_ok w he l W0 (xs_init w seed) (uns_range w seed W0)) as H. unfold shifts in H.
  unfold xs_run. rewrite fold_left_app. cbn [fold_left]. unfold xs_step at 1.
  assert (EE : negb he || i_enable i = true) by (unfold enabled in E; destruct he; exact E). rewrite EE. cbn [x_data].
  destruct (w =? 32); exact (H (uns w seed) 0%nat (orbit_0 _ _ _ _ _)).
Qed.
Print Assumptions C50_sequence.
Theorem C50_nonzero :
  forall w seed he l, w = 32 \/ w = 64 -> uns w seed <> 0 -> x_data (xs_run w seed he l) <> 0 /\ x_rand (xs_run w seed he l) <> 0.
Proof.
  intros w seed he l W N. assert (W0 : 0 <= w) by lia.
  assert (G : forall l, x_rand (xs_run w seed he l) <> 0).
  { intros l'. pose proof (xs_run_ok w he l' W0 (xs_init w seed) (uns_range w seed W0)) as H. unfold shifts in H.
    destruct (w =? 32); refine (orbit_nonzero w _ _ _ (uns w seed) _ _ W0 _ _ _ (uns_range w seed W0) N (H (uns w seed) 0%nat (orbit_0 _ _ _ _ _))); lia. }
  split; [|apply G]. induction l as [|i l IH] using rev_ind; [exact N|]. unfold xs_run in *. rewrite fold_left_app. cbn [fold_left]. unfold xs_step at 1.
  destruct (negb he || i_enable i); [exact (G l)|exact IH].
Qed.
Print Assumptions C50_nonzero.
(** the step is one-to-one: no two states merge, so the sequence from a seed is a cycle through it *)
Theorem C50_injective :
  forall w x y, w = 32 \/ w = 64 -> 0 <= x < 2 ^ w -> 0 <= y < 2 ^ w -> xs_next w x = xs_next w y -> x = y.
Proof.
  intros w x y W X Y E. assert (W0 : 0 <= w) by lia. pose proof (xs_next_ok w x W0 X) as H1. pose proof (xs_next_ok w y W0 Y) as H2. rewrite E in H1. unfold shifts in *.
  destruct (w =? 32); refine (xorshift_inj w _ _ _ x y _ W0 _ _ _ X Y H1 H2); lia.
Qed.
Print Assumptions C50_injective.
Theorem C50_node :
  forall g par xs n d w seed he k y, get g n = Some d -> n_kind d = xs_kind w seed he ->
    (den g par xs n k y <-> exists l, valid_ops g par xs d (S k) l /\ y = x_data (xs_run w seed he (map (dec_args false false false he false) l))).
Proof.
  intros g par xs n d w seed he k y G K. unfold xs_kind in K. rewrite (den_ops g par xs n d _ _ _ k y G K).
  split; intros (l & A & ->); exists l; (split; [exact A|]); rewrite xs_fold; reflexivity.
Qed.
Print Assumptions C50_node.
(** the well-known first values for seed 2463534242 *)
Example ex_xs : map (fun k => x_data (xs_run 32 2463534242 false (repeat (mkAIn 0 0 0 0 0 true false) k))) [1; 2; 3; 4]%nat = [2463534242; 723471715; 2497366906; 2064144800].
Proof. vm_compute. reflexivity. Qed.
