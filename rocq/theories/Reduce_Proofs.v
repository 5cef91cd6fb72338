(** Proofs about reductions, counters and xorshift. *)
From Verif Require Import Base Bits Stream_Model Stream_Spec Mult_Model Mult_Spec Mult_Proofs Reduce_Model Reduce_Spec.
Open Scope Z_scope.

(** * Reductions *)
Definition fold_op (c : acfg) (v x : Z) : Z := to_data c (fold_left (fun v op => op v x) (a_ops c) v).

Lemma pow_grow w x k : 0 <= w -> w <= k -> x < 2 ^ w -> x < 2 ^ k.
Proof. intros. assert (2 ^ w <= 2 ^ k) by (apply Z.pow_le_mono_r; lia). lia. Qed.
Lemma len_snoc (l : list Z) x : length (l ++ [x]) = S (length l).
Proof. rewrite app_length. cbn. lia. Qed.
Section Red.
  Variables (c : acfg) (n : option nat) (iv : Z).
  Hypothesis NI : a_interval c = false.
  Hypothesis RI : a_reg_initval c = iv.

  Definition RInv (s : ast) (cur : list Z) : Prop :=
    (match n with Some m => s_count s = (if full n cur then 0 else Z.of_nat (length cur)) /\ s_pmax s = full n cur /\ (length cur <= m)%nat | None => True end) /\
    s_data s = (if is_pulse c then b2z (full n cur) else fold_left (fold_op c) cur (to_data c iv)).
  Definition elem_ok (i : ain) : Prop :=
    i_initval i = iv /\ (a_reset c = false \/ enabled (a_enable c) i = true) /\
    match n, a_size c with None, None => True | Some n, Some w => 0 <= w /\ 1 <= Z.of_nat n < 2 ^ w /\ i_size i = Z.of_nat n | _, _ => False end.

  Lemma pulse_data b : is_pulse c = true -> (a_signed c = false) -> to_data c (b2z b) = b2z b.
  Proof. intros P S. unfold to_data, data_width. rewrite P, S. destruct b; reflexivity. Qed.

  Hypothesis PU : is_pulse c = true -> a_signed c = false /\ iv = 0.

  Lemma red_step s cur i : RInv s cur -> elem_ok i -> RInv (acc_step c s i) (join n (a_enable c) (a_reset c) cur i).
  Proof.
    intros (HC & HD) (EI & ER & ES).
    assert (EN : en2 c s i = enabled (a_enable c) i) by (unfold en2, en1, enabled; rewrite NI; destruct (a_enable c); cbn; rewrite ?andb_true_r; reflexivity).
    assert (RC : reset_cond c s i = restart (a_reset c) i || full n cur).
    { unfold reset_cond, restart. apply (f_equal2 orb); [destruct (a_reset c); reflexivity|]. destruct n as [m|], (a_size c); try contradiction; [apply HC|reflexivity]. }
    unfold join. rewrite <- EN. unfold acc_step, RInv. rewrite NI. cbn [andb s_count s_pmax s_data].
    destruct (en2 c s i) eqn:E2.
    2:{ assert (RS : a_reset c = false) by (destruct ER as [ER|ER]; [exact ER|rewrite <- EN in ER; discriminate]). rewrite RS. cbn [andb].
        split; [|exact HD]. destruct n as [m|], (a_size c); try contradiction; [exact HC|exact I]. }
    set (cur0 := if reset_cond c s i then [] else cur).
    replace (if restart (a_reset c) i || full n cur then [i_right i] else cur ++ [i_right i]) with (cur0 ++ [i_right i])
      by (unfold cur0; rewrite RC; destruct (restart (a_reset c) i || full n cur); reflexivity).
    assert (CD : is_pulse c = false -> current_data c s i = fold_left (fold_op c) cur0 (to_data c iv)).
    { intros P. unfold current_data, cur0. destruct (reset_cond c s i); [rewrite EI; reflexivity|]. rewrite HD, P. reflexivity. }
    assert (LN : length (cur0 ++ [i_right i]) = S (length cur0)) by apply len_snoc.
    destruct n as [m|] eqn:En.
    - destruct (a_size c) as [w|] eqn:Sz; [|contradiction]. destruct ES as (Hw & Hn & Hs). destruct HC as (C1 & C2 & C3).
      assert (CC : current_count c s i = Z.of_nat (length cur0) /\ (length cur0 < m)%nat).
      { assert (M1 : (0 < m)%nat) by (clear - Hn; lia). unfold current_count, cur0. rewrite RC. destruct (restart (a_reset c) i); cbn [orb]; [split; [reflexivity|exact M1]|].
        destruct (full (Some m) cur) eqn:Fu; cbn [orb]; [split; [reflexivity|exact M1]|]. split; [exact C1|]. unfold full in Fu. apply Nat.eqb_neq in Fu. clear - Fu C3. lia. }
      destruct CC as (CC & Lt).
      assert (CM : count_max c s i = full (Some m) (cur0 ++ [i_right i])).
      { unfold count_max, full. rewrite CC, LN, Hs. unfold cwidth. rewrite Sz. rewrite uns_small.
        - clear - Lt. destruct (Nat.eqb_spec (S (length cur0)) m) as [<-|N]; [apply Z.leb_le; lia|apply Z.leb_gt; lia].
        - split; [clear - Hn; lia|]. apply (pow_grow w); clear - Hw Hn; lia. }
      split; [split; [|split]|].
      + unfold next_count. rewrite CM, CC. destruct (full (Some m) (cur0 ++ [i_right i])); [apply Z.mod_0_l; unfold cwidth; rewrite Sz; clear - Hw; pose proof (pow_pos (w+1)); lia|].
        rewrite LN, Nat2Z.inj_succ. apply uns_small. unfold cwidth. rewrite Sz. split; [clear; lia|]. apply (pow_grow w); clear - Hw Hn Lt; lia.
      + exact CM.
      + rewrite LN. exact Lt.
      + unfold acc_value. rewrite CM. destruct (is_pulse c) eqn:P; [apply pulse_data; [exact P|apply PU; reflexivity]|].
        rewrite (CD eq_refl). rewrite fold_left_app. reflexivity.
    - split; [exact I|]. destruct (a_size c) as [w|] eqn:Sz; [contradiction|].
      assert (P : is_pulse c = false) by (unfold is_pulse; rewrite Sz; destruct (a_ops c); reflexivity).
      unfold acc_value. rewrite P, (CD P), fold_left_app. reflexivity.
  Qed.
  Lemma red_run l : forall s cur, RInv s cur -> Forall elem_ok l -> RInv (fold_left (acc_step c) l s) (fold_left (join n (a_enable c) (a_reset c)) l cur).
  Proof. induction l as [|i l IH]; intros s cur R F; [exact R|]. inversion F; subst. cbn. apply IH; [apply red_step; assumption|assumption]. Qed.
  Lemma red_init : (match n with Some m => (1 <= m)%nat | None => True end) -> RInv (acc_init c) [].
  Proof.
    intros Hn. unfold RInv, acc_init. cbn [s_count s_pmax s_data]. split.
    - destruct n as [m|]; [|exact I]. assert (F : full (Some m) [] = false) by (unfold full; apply Nat.eqb_neq; cbn [length]; lia). rewrite F. cbn. repeat split; lia.
    - destruct (is_pulse c) eqn:P.
      + assert (F : full n [] = false) by (destruct n; [unfold full; apply Nat.eqb_neq; cbn [length]; lia|reflexivity]). rewrite F, RI. destruct (PU eq_refl) as (A & ->). exact (pulse_data false P A).
      + cbn. rewrite RI. reflexivity.
  Qed.
End Red.

Lemma elems_ok c n iv l : size_ok n c l -> Forall (fun i => i_initval i = iv) l -> reset_ok (a_enable c) (a_reset c) l -> Forall (elem_ok c n iv) l.
Proof.
  intros S I R. unfold elem_ok. rewrite Forall_forall in *. intros i Hi. split; [apply I, Hi|]. split.
  - destruct R as [R|R]; [left; exact R|right]. rewrite Forall_forall in R. apply R, Hi.
  - unfold size_ok in S. destruct n as [m|], (a_size c); try exact S. destruct S as (A & B & C). rewrite Forall_forall in C. auto.
Qed.
Lemma reduce_ok c n iv l : a_interval c = false -> a_reg_initval c = iv -> is_pulse c = false ->
  size_ok n c l -> Forall (fun i => i_initval i = iv) l -> reset_ok (a_enable c) (a_reset c) l ->
  s_data (acc_run c l) = fold_left (fold_op c) (group n (a_enable c) (a_reset c) l) (to_data c iv).
Proof.
  intros NI RI P S I R.
  pose proof (red_run c n iv NI ltac:(rewrite P; discriminate) l (acc_init c) []) as H.
  assert (F := elems_ok c n iv l S I R). specialize (fun h => H h F). destruct H as (_ & H).
  - apply red_init; [exact NI|exact RI|rewrite P; discriminate|]. unfold size_ok in S. destruct n, (a_size c); try exact Logic.I; try contradiction. lia.
  - rewrite P in H. exact H.
Qed.
Lemma pulse_ok c n l : a_interval c = false -> a_reg_initval c = 0 -> is_pulse c = true -> a_signed c = false ->
  size_ok (Some n) c l -> Forall (fun i => i_initval i = 0) l -> reset_ok (a_enable c) (a_reset c) l ->
  s_data (acc_run c l) = b2z (length (group (Some n) (a_enable c) (a_reset c) l) =? n)%nat.
Proof.
  intros NI RI P SG S I R.
  assert (PU : is_pulse c = true -> a_signed c = false /\ 0 = 0) by auto.
  pose proof (red_run c (Some n) 0 NI PU l (acc_init c) []) as H.
  assert (F := elems_ok c (Some n) 0 l S I R). specialize (fun h => H h F). destruct H as (_ & H).
  - apply red_init; [exact NI|exact RI|exact PU|]. unfold size_ok in S. destruct (a_size c); [lia|contradiction].
  - rewrite P in H. exact H.
Qed.

(** the groups are blocks of [n] *)
Lemma group_len_gen n l : (1 <= n)%nat -> forall cur, (length cur <= n)%nat ->
  length (fold_left (join (Some n) false false) l cur) = (if (length cur + length l =? 0)%nat then 0 else S ((length cur + length l - 1) mod n))%nat.
Proof.
  intros Hn. induction l as [|i l IH]; intros cur Hc.
  - cbn. rewrite Nat.add_0_r. destruct (Nat.eqb_spec (length cur) 0) as [->|N]; [reflexivity|]. rewrite Nat.mod_small by lia. lia.
  - cbn [fold_left]. unfold join at 2. cbn [enabled restart orb full]. destruct (Nat.eqb_spec (length cur) n) as [E|N].
    + rewrite IH by (cbn; lia). cbn [length]. rewrite E. destruct (Nat.eqb_spec (1 + length l) 0); [lia|]. destruct (Nat.eqb_spec (n + S (length l)) 0); [lia|].
      f_equal. replace (n + S (length l) - 1)%nat with ((1 + length l - 1) + 1 * n)%nat by lia. rewrite Nat.mod_add by lia. reflexivity.
    + rewrite IH by (rewrite app_length; cbn; lia). rewrite app_length. cbn [length].
      replace (length cur + 1 + length l)%nat with (length cur + S (length l))%nat by lia. reflexivity.
Qed.
Lemma group_tail n l : forall cur, exists k, fold_left (join n false false) l cur = skipn k (cur ++ map i_right l) /\ (k <= length cur + length l)%nat.
Proof.
  induction l as [|i l IH]; intros cur; cbn [fold_left map].
  - exists O. rewrite app_nil_r. split; [reflexivity|lia].
  - unfold join at 2. cbn [enabled restart orb]. destruct (full n cur).
    + destruct (IH [i_right i]) as (k & -> & L). exists (length cur + k)%nat. cbn [length] in *. split; [|lia]. rewrite (skipn_app (length cur + k) cur).
      rewrite (skipn_all2 cur) by lia. cbn [app]. f_equal. lia.
    + destruct (IH (cur ++ [i_right i])) as (k & -> & L). exists k. rewrite <- app_assoc. rewrite app_length in L. cbn [length app] in *. split; [reflexivity|lia].
Qed.
Lemma group_block n l : (1 <= n)%nat -> l <> [] -> group (Some n) false false l = map i_right (skipn ((length l - 1) / n * n) l).
Proof.
  intros Hn Hl. unfold group. destruct (group_tail (Some n) l []) as (k & E & L). pose proof (group_len_gen n l Hn [] ltac:(cbn; lia)) as Len.
  rewrite E in *. cbn [app length Nat.add] in *. rewrite skipn_length, map_length in Len.
  destruct l as [|a l]; [congruence|]. set (l' := a :: l) in *. assert (1 <= length l')%nat by (cbn; lia). destruct (Nat.eqb_spec (length l') 0); [lia|].
  assert (k = ((length l' - 1) / n * n)%nat).
  { pose proof (Nat.div_mod (length l' - 1) n ltac:(lia)). nia. }
  subst k. rewrite skipn_map. reflexivity.
Qed.

(** sums and extrema *)
Lemma value_value w s x : 0 <= w -> value w s (value w s x) = value w s x.
Proof.
  intros H. unfold value. destruct s; [|unfold uns; rewrite Z.mod_mod; [reflexivity|pose proof (pow_pos w H); lia]].
  unfold sgn at 1 3. rewrite sgn_mod by exact H. reflexivity.
Qed.
Lemma value_congr w s x y : x mod 2 ^ w = y mod 2 ^ w -> value w s x = value w s y.
Proof. intros H. unfold value, sgn, uns. rewrite H. reflexivity. Qed.
Lemma value_add w s x y : 0 <= w -> value w s (value w s x + y) = value w s (x + y).
Proof.
  intros H. pose proof (pow_pos w H). apply value_congr. rewrite Z.add_mod, value_mod, <- Z.add_mod by lia. reflexivity.
Qed.
Lemma value_small w s x : 1 <= w -> value w s x = x <-> (if s then - 2 ^ (w - 1) <= x < 2 ^ (w - 1) else 0 <= x < 2 ^ w).
Proof.
  intros H. unfold value. destruct s; split; intros E.
  - rewrite <- E. apply sgn_range, H.
  - apply sgn_small; assumption.
  - rewrite <- E. apply uns_range. lia.
  - apply uns_small, E.
Qed.
Lemma fold_sum w s : 0 <= w -> forall l v, fold_left (fun v x => value w s (v + x)) l (value w s v) = value w s (v + fold_right Z.add 0 l).
Proof.
  intros H. induction l as [|x l IH]; intros v; cbn.
  - rewrite Z.add_0_r. reflexivity.
  - rewrite value_add by exact H. rewrite IH. f_equal. lia.
Qed.
Lemma fold_pick w s op : (forall x y, op x y = x \/ op x y = y) -> forall l v, value w s v = v -> Forall (fun x => value w s x = x) l ->
  fold_left (fun v x => value w s (op v x)) l v = fold_left op l v.
Proof.
  intros P. induction l as [|x l IH]; intros v Hv F; [reflexivity|]. inversion F; subst. cbn.
  assert (E : value w s (op v x) = op v x) by (destruct (P v x) as [-> | ->]; assumption). rewrite E. apply IH; assumption.
Qed.
Lemma fold_ext {A B} (f g : A -> B -> A) l : (forall a b, f a b = g a b) -> forall v, fold_left f l v = fold_left g l v.
Proof. intros H. induction l as [|x l IH]; intros v; cbn; [reflexivity|]. rewrite H. apply IH. Qed.

(** * Interval without size *)
Section Ival.
  Variables (c : acfg) (iv : Z) (p : nat).
  Hypothesis HI : a_interval c = true.
  Hypothesis HS : a_size c = None.
  Hypothesis HR : a_reset c = false.
  Hypothesis W : 0 <= data_width c.
  Hypothesis HP : 1 <= Z.of_nat p <= 2 ^ data_width c.
  Lemma ival_run l : Forall (fun i => i_interval i = Z.of_nat p) l -> forall s k, (k < p)%nat -> s_icount s = Z.of_nat (p - 1 - k) ->
    s_data (fold_left (acc_step c) l s) = fold_left (fold_op c) (every p k (enabled_values (a_enable c) l)) (s_data s).
  Proof.
    induction 1 as [|i l Hi F IH]; intros s k Hk Hs; [reflexivity|]. cbn [fold_left].
    assert (RC : reset_cond c s i = false) by (unfold reset_cond; rewrite HR, HS; reflexivity).
    assert (CI : current_icount c s i = Z.of_nat (p - 1 - k)) by (unfold current_icount; rewrite RC; exact Hs).
    assert (PL : is_pulse c = false) by (unfold is_pulse; rewrite HS; destruct (a_ops c); reflexivity).
    assert (U : uns (Z.max 32 (data_width c)) (i_interval i - 1) = Z.of_nat p - 1).
    { rewrite Hi. apply uns_small. assert (2 ^ data_width c <= 2 ^ Z.max 32 (data_width c)) by (apply Z.pow_le_mono_r; lia). lia. }
    unfold enabled_values. cbn [filter]. unfold enabled at 1.
    assert (E1 : en1 c i = (if a_enable c then i_enable i else true)) by (unfold en1; destruct (a_enable c); reflexivity).
    destruct (if a_enable c then i_enable i else true) eqn:EE.
    - cbn [map every]. destruct k as [|k].
      + rewrite (IH _ (p - 1)%nat); [|lia|].
        * cbn [fold_left]. unfold acc_step, en2. rewrite E1, HI. unfold interval_enable. rewrite CI, U.
          replace (Z.of_nat (p - 1 - 0) =? Z.of_nat p - 1) with true by (symmetry; apply Z.eqb_eq; lia). cbn.
          f_equal. unfold acc_value, fold_op. rewrite PL. unfold current_data. rewrite RC. reflexivity.
        * unfold acc_step. rewrite HI, E1. cbn. unfold next_icount. rewrite CI, U.
          replace (Z.of_nat p - 1 <=? Z.of_nat (p - 1 - 0)) with true by (symmetry; apply Z.leb_le; lia).
          replace (p - 1 - (p - 1))%nat with 0%nat by lia. apply Z.mod_0_l. pose proof (pow_pos _ W). lia.
      + rewrite (IH _ k); [|lia|].
        * f_equal. unfold acc_step, en2. rewrite E1, HI. unfold interval_enable. rewrite CI, U.
          replace (Z.of_nat (p - 1 - S k) =? Z.of_nat p - 1) with false by (symmetry; apply Z.eqb_neq; lia). cbn. rewrite HR. reflexivity.
        * unfold acc_step. rewrite HI, E1. cbn. unfold next_icount. rewrite CI, U.
          replace (Z.of_nat p - 1 <=? Z.of_nat (p - 1 - S k)) with false by (symmetry; apply Z.leb_gt; lia).
          rewrite uns_small by lia. lia.
    - rewrite (IH _ k Hk).
      + f_equal. unfold acc_step, en2. rewrite E1. cbn. rewrite HR. reflexivity.
      + unfold acc_step. rewrite E1, HI. cbn. exact Hs.
  Qed.
End Ival.

(** with a size, the accumulator never moves again after the first group *)
Lemma ival_stuck c l : a_interval c = true -> a_reset c = false -> a_size c <> None -> 0 <= data_width c ->
  Forall (fun i => 2 <= i_interval i <= 2 ^ 32) l -> forall s, s_pmax s = true -> s_data (fold_left (acc_step c) l s) = s_data s.
Proof.
  intros HI HR HS W. induction 1 as [|i l Hi F IH]; intros s Hs; [reflexivity|]. cbn [fold_left].
  assert (RC : reset_cond c s i = true) by (unfold reset_cond; rewrite HR, Hs; destruct (a_size c); [reflexivity|congruence]).
  assert (IE : interval_enable c s i = false).
  { unfold interval_enable, current_icount. rewrite RC. apply Z.eqb_neq. rewrite uns_small; [lia|].
    assert (2 ^ 32 <= 2 ^ Z.max 32 (data_width c)) by (apply Z.pow_le_mono_r; lia). lia. }
  assert (E2 : en2 c s i = false) by (unfold en2; rewrite HI, IE; destruct (en1 c i); reflexivity).
  rewrite IH.
  - unfold acc_step. rewrite E2, HR. reflexivity.
  - unfold acc_step. rewrite E2. cbn. destruct (a_size c); exact Hs.
Qed.

(** * Counter *)
Section Cnt.
  Variables (c : ccfg) (f : nat -> Z).            (* [f k]: the value at position [k] *)
  Hypothesis W : 0 <= c_width c.
  Hypothesis f0 : uns (c_width c) (c_reg_initval c) = f 0%nat.
  Definition cnt_elem (i : ain) : Prop :=
    uns (c_width c) (i_initval i) = f 0%nat /\ (c_reset c = false \/ enabled (c_enable c) i = true) /\
    forall s k, c_current c s i = f k -> uns (c_width c) (c_next c s i) = f (S k).
  Lemma cnt_cur s i k : uns (c_width c) (i_initval i) = f 0%nat -> t_count s = f k -> c_current c s i = f (if restart (c_reset c) i then 0%nat else k).
  Proof. intros I E. unfold c_current, c_reset_cond, restart. destruct (c_reset c), (i_reset i); cbn; assumption. Qed.
  Lemma cnt_run_ok l : c_interval c = false -> Forall cnt_elem l -> forall s k, t_count s = f k ->
    t_count (fold_left (cnt_step c) l s) = f (fold_left (next_pos (c_enable c) (c_reset c)) l k).
  Proof.
    intros NI. induction 1 as [|i l (Hi & Hr & Hn) F IH]; intros s k E; [exact E|]. cbn [fold_left]. apply IH.
    unfold cnt_step, c_en2, c_en1. rewrite NI. cbn. rewrite andb_true_r. pose proof (cnt_cur s i k Hi E) as C.
    unfold next_pos, enabled in *. destruct (c_enable c); cbn in *.
    - destruct (i_enable i); [apply Hn; exact C|]. destruct Hr as [Hr|Hr]; [|discriminate]. unfold restart. rewrite Hr. exact E.
    - apply Hn. exact C.
  Qed.
  Lemma cnt_shown l i : c_interval c = false -> Forall cnt_elem (l ++ [i]) ->
    t_data (cnt_run c (l ++ [i])) = f (position (c_enable c) (c_reset c) l i).
  Proof.
    intros NI F. apply Forall_app in F. destruct F as (F & Fi). inversion Fi as [|? ? (Hi & _) _]; subst. unfold cnt_run. rewrite fold_left_app. cbn [fold_left].
    unfold cnt_step at 1. cbn [t_data]. unfold position. apply cnt_cur; [exact Hi|]. apply cnt_run_ok; [exact NI|exact F|exact f0].
  Qed.
  (** with an interval the count moves once per [p] enabled elements *)
  Variable p : nat.
  Hypothesis HP : 1 <= Z.of_nat p <= 2 ^ c_width c.
  Lemma cnt_ival_run l : c_interval c = true -> c_reset c = false -> Forall (fun i => cnt_elem i /\ i_interval i = Z.of_nat p) l ->
    forall s k, t_count s = f (k / p)%nat -> t_icount s = Z.of_nat (k mod p) ->
    t_count (fold_left (cnt_step c) l s) = f ((k + length (filter (enabled (c_enable c)) l)) / p)%nat.
  Proof.
    intros HI HR. induction 1 as [|i l ((Hi & _ & Hn) & Hp) F IH]; intros s k E1 E2.
    - cbn. rewrite Nat.add_0_r. exact E1.
    - cbn [fold_left filter].
      assert (RC : c_reset_cond c i = false) by (unfold c_reset_cond; rewrite HR; reflexivity).
      assert (CI : c_cur_icount c s i = Z.of_nat (k mod p)) by (unfold c_cur_icount; rewrite RC; exact E2).
      assert (U : uns (Z.max 32 (c_width c)) (i_interval i - 1) = Z.of_nat p - 1).
      { rewrite Hp. apply uns_small. assert (2 ^ c_width c <= 2 ^ Z.max 32 (c_width c)) by (apply Z.pow_le_mono_r; lia). lia. }
      assert (EN : c_en1 c i = enabled (c_enable c) i) by (unfold c_en1, enabled; destruct (c_enable c); reflexivity).
      pose proof (Nat.mod_upper_bound k p ltac:(lia)) as MB. pose proof (Nat.div_mod k p ltac:(lia)) as DM.
      destruct (enabled (c_enable c) i) eqn:EE.
      + cbn [length]. rewrite Nat.add_succ_r, <- Nat.add_succ_l.
        assert (SD : (S k / p = if (k mod p =? p - 1)%nat then S (k / p) else k / p)%nat /\ (S k mod p = if (k mod p =? p - 1)%nat then 0 else S (k mod p))%nat).
        { destruct (Nat.eqb_spec (k mod p) (p - 1)) as [Q|Q].
          - assert (S k = p * S (k / p) + 0)%nat by nia. split; symmetry; [apply (Nat.div_unique _ _ _ 0%nat)|apply (Nat.mod_unique _ _ (S (k / p)))]; lia.
          - assert (S k = p * (k / p) + S (k mod p))%nat by nia. split; symmetry; [apply (Nat.div_unique _ _ _ (S (k mod p)))|apply (Nat.mod_unique _ _ (k / p))]; lia. }
        destruct SD as (SD & SM). apply IH.
        * unfold cnt_step, c_en2. rewrite EN, HI. cbn [negb orb andb t_count]. unfold c_interval_enable. rewrite CI, U, SD.
          destruct (Nat.eqb_spec (k mod p) (p - 1)) as [Q|Q].
          -- replace (Z.of_nat (k mod p) =? Z.of_nat p - 1) with true by (symmetry; apply Z.eqb_eq; lia). apply Hn. unfold c_current. rewrite RC. exact E1.
          -- replace (Z.of_nat (k mod p) =? Z.of_nat p - 1) with false by (symmetry; apply Z.eqb_neq; lia). exact E1.
        * unfold cnt_step. rewrite EN, HI. cbn [negb orb andb t_icount]. unfold c_next_icount. rewrite CI, U, SM.
          destruct (Nat.eqb_spec (k mod p) (p - 1)) as [Q|Q].
          -- replace (Z.of_nat p - 1 <=? Z.of_nat (k mod p)) with true by (symmetry; apply Z.leb_le; lia). apply Z.mod_0_l. pose proof (pow_pos _ W). lia.
          -- replace (Z.of_nat p - 1 <=? Z.of_nat (k mod p)) with false by (symmetry; apply Z.leb_gt; lia). rewrite uns_small by lia. lia.
      + apply IH; unfold cnt_step, c_en2; rewrite EN; cbn; [exact E1|]. rewrite andb_false_r. exact E2.
  Qed.
  Lemma cnt_ival_shown l i : c_interval c = true -> c_reset c = false -> Forall (fun i => cnt_elem i /\ i_interval i = Z.of_nat p) (l ++ [i]) ->
    t_data (cnt_run c (l ++ [i])) = f (length (filter (enabled (c_enable c)) l) / p)%nat.
  Proof.
    intros HI HR F. apply Forall_app in F. destruct F as (F & _). unfold cnt_run. rewrite fold_left_app. cbn [fold_left]. unfold cnt_step at 1. cbn [t_data].
    unfold c_current, c_reset_cond. rewrite HR. cbn [andb]. apply (cnt_ival_run l HI HR F (cnt_init c) 0%nat).
    - rewrite Nat.div_0_l by lia. exact f0.
    - rewrite Nat.mod_0_l by lia. reflexivity.
  Qed.
End Cnt.

(** the three counting rules *)
Lemma next_free c s i k step : c_size c = false -> i_right i = step -> c_current c s i = uns (c_width c) (c_reg_initval c + Z.of_nat k * step) -> 0 <= c_width c ->
  uns (c_width c) (c_next c s i) = uns (c_width c) (c_reg_initval c + Z.of_nat (S k) * step).
Proof.
  intros HS R E W. unfold c_next. rewrite HS, E, R. unfold uns. rewrite Zplus_mod_idemp_l. f_equal. lia.
Qed.
Lemma next_wrap c s i k a step size : c_size c = true -> c_offset c = false -> 0 <= c_width c -> c_width c <= c_ctx c -> i_right i = step -> i_size i = size ->
  0 <= step <= size -> 1 <= size <= 2 ^ c_width c -> c_current c s i = (a + Z.of_nat k * step) mod size ->
  uns (c_width c) (c_next c s i) = (a + Z.of_nat (S k) * step) mod size.
Proof.
  intros HS HO W X R Z0 B Sz E. unfold c_next. rewrite HS, HO, E, R, Z0. clear E R Z0.
  assert (2 ^ c_width c <= 2 ^ c_ctx c) by (apply Z.pow_le_mono_r; lia).
  set (v := a + Z.of_nat k * step) in *. replace (a + Z.of_nat (S k) * step) with (v + step) by (unfold v; lia).
  pose proof (Z.mod_pos_bound v size ltac:(lia)) as M.
  destruct (Z.eq_dec size step) as [Q|Q].
  - subst size. rewrite Z.sub_diag. unfold uns at 2. rewrite Z.mod_0_l by (pose proof (pow_pos (c_ctx c)); lia). destruct (Z.leb_spec 0 (v mod step)); [|lia].
    rewrite Z.add_simpl_r. rewrite uns_small by lia. replace (v + step) with (v + 1 * step) by lia. rewrite Z_mod_plus_full. reflexivity.
  - destruct (Z.eq_dec step 0) as [->|Q0].
    + rewrite Z.sub_0_r, !Z.add_0_r. destruct (Z.eq_dec size (2 ^ c_ctx c)) as [Q1|Q1].
      * (* size just too large for the comparison: both arms agree modulo the register width *)
        assert (c_width c = c_ctx c) by (apply (Z.pow_inj_r 2); lia). unfold uns at 2. rewrite Q1, Z.mod_same by lia. destruct (Z.leb_spec 0 (v mod 2 ^ c_ctx c)); [|lia].
        unfold uns. rewrite H0. replace (v mod 2 ^ c_ctx c - 2 ^ c_ctx c) with (v mod 2 ^ c_ctx c + (-1) * 2 ^ c_ctx c) by lia. rewrite Z_mod_plus_full. apply Z.mod_mod. lia.
      * rewrite (uns_small (c_ctx c) size) by lia. destruct (Z.leb_spec size (v mod size)); [lia|]. apply uns_small. lia.
    + rewrite (uns_small (c_ctx c)) by lia. destruct (Z.leb_spec (size - step) (v mod size)) as [L|L].
      * rewrite uns_small by lia. rewrite <- Zplus_mod_idemp_l. apply (Z.mod_unique _ _ 1); lia.
      * rewrite uns_small by lia. rewrite <- Zplus_mod_idemp_l. symmetry. apply Z.mod_small. lia.
Qed.
Lemma next_offset c s i k step size off : c_size c = true -> c_offset c = true -> 0 <= c_width c -> c_width c <= c_ctx c -> i_right i = step -> i_size i = size -> i_offset i = off ->
  1 <= step <= size -> 0 <= off < size -> size <= 2 ^ c_width c ->
  c_current c s i = off + step * Z.of_nat (k mod Z.to_nat ((size - off + step - 1) / step)) ->
  uns (c_width c) (c_next c s i) = off + step * Z.of_nat (S k mod Z.to_nat ((size - off + step - 1) / step)).
Proof.
  intros HS HO W X R Z0 O B OB Sz E. unfold c_next. rewrite HS, HO, E, R, Z0, O. clear E R Z0 O.
  assert (2 ^ c_width c <= 2 ^ c_ctx c) by (apply Z.pow_le_mono_r; lia).
  set (q := (size - off + step - 1) / step) in *.
  pose proof (Z.div_mod (size - off + step - 1) step ltac:(lia)) as D. pose proof (Z.mod_pos_bound (size - off + step - 1) step ltac:(lia)) as DM. fold q in D.
  assert (Q : 1 <= q) by nia. set (p := Z.to_nat q) in *. assert (Qp : Z.of_nat p = q) by (unfold p; lia). assert (P1 : (1 <= p)%nat) by lia.
  pose proof (Nat.mod_upper_bound k p ltac:(lia)) as MB. set (r := (k mod p)%nat) in *.
  assert (SM : (S k mod p = if (r =? p - 1)%nat then 0 else S r)%nat).
  { pose proof (Nat.div_mod k p ltac:(lia)) as KD. fold r in KD. destruct (Nat.eqb_spec r (p - 1)) as [Q1|Q1]; symmetry.
    - apply (Nat.mod_unique _ _ (S (k / p))); nia.
    - apply (Nat.mod_unique _ _ (k / p)); nia. }
  rewrite (uns_small (c_ctx c)) by lia. rewrite SM.
  destruct (Nat.eqb_spec r (p - 1)) as [Q1|Q1].
  - assert (off + step * Z.of_nat r >= size - step) by nia. destruct (Z.leb_spec (size - step) (off + step * Z.of_nat r)); [|lia]. rewrite uns_small by lia. lia.
  - assert (off + step * Z.of_nat r < size - step).
    { assert (M : step * Z.of_nat r <= step * (q - 2)) by (apply Z.mul_le_mono_nonneg_l; lia). rewrite Z.mul_sub_distr_l in M. clear - M D DM. lia. }
    assert (0 <= step * Z.of_nat r) by (apply Z.mul_nonneg_nonneg; lia). destruct (Z.leb_spec (size - step) (off + step * Z.of_nat r)); [lia|]. rewrite uns_small by lia. lia.
Qed.

(** * xorshift *)
Lemma range_bits w y : 0 <= w -> (forall k, w <= k -> Z.testbit y k = false) -> 0 <= y < 2 ^ w.
Proof.
  intros W H. assert (E : y = y mod 2 ^ w).
  { apply Z.bits_inj'. intros k Hk. destruct (Z_lt_ge_dec k w) as [L|L]; [rewrite Z.mod_pow2_bits_low by lia; reflexivity|].
    rewrite Z.mod_pow2_bits_high by lia. apply H. lia. }
  rewrite E. apply Z.mod_pos_bound, pow_pos, W.
Qed.
Lemma bits_range w y k : 0 <= w -> 0 <= y < 2 ^ w -> w <= k -> Z.testbit y k = false.
Proof. intros W H L. rewrite <- (Z.mod_small y (2 ^ w) H). apply Z.mod_pow2_bits_high. lia. Qed.
Lemma bit_in w x k : 0 <= k < w -> bit w x k = Z.testbit x k.
Proof. intros H. unfold bit. replace ((0 <=? k) && (k <? w)) with true; [reflexivity|]. symmetry. apply andb_true_iff. split; [apply Z.leb_le|apply Z.ltb_lt]; lia. Qed.
Lemma bit_out w x k : 0 <= k < w \/ bit w x k = false.
Proof. unfold bit. destruct (Z.leb_spec 0 k), (Z.ltb_spec k w); cbn; auto. Qed.

Lemma left_ok w a x : 0 <= w -> 0 <= a -> 0 <= x < 2 ^ w -> xor_left w a x (Z.lxor x (uns w (Z.shiftl x a))).
Proof.
  intros W A X. split.
  - apply range_bits; [exact W|]. intros k Hk. rewrite Z.lxor_spec. unfold uns. rewrite Z.mod_pow2_bits_high by lia. rewrite (bits_range w x k W X Hk). reflexivity.
  - intros k Hk. rewrite !bit_in by exact Hk. rewrite Z.lxor_spec. f_equal. unfold uns. rewrite Z.mod_pow2_bits_low by lia. rewrite Z.shiftl_spec by lia.
    destruct (Z_lt_ge_dec (k - a) 0) as [L|L].
    + rewrite Z.testbit_neg_r by lia. unfold bit. destruct (Z.leb_spec 0 (k - a)); [lia|reflexivity].
    + rewrite bit_in by lia. reflexivity.
Qed.
Lemma right_ok w a x : 0 <= w -> 0 <= a -> 0 <= x < 2 ^ w -> xor_right w a x (Z.lxor x (Z.shiftr x a)).
Proof.
  intros W A X. split.
  - apply range_bits; [exact W|]. intros k Hk. rewrite Z.lxor_spec, Z.shiftr_spec by lia. rewrite (bits_range w x k W X Hk), (bits_range w x (k + a)) by (assumption || lia). reflexivity.
  - intros k Hk. rewrite !bit_in by exact Hk. rewrite Z.lxor_spec, Z.shiftr_spec by lia. f_equal.
    destruct (Z_lt_ge_dec (k + a) w) as [L|L]; [rewrite bit_in by lia; reflexivity|]. rewrite (bits_range w x (k + a)) by (assumption || lia).
    unfold bit. destruct (Z.leb_spec 0 (k + a)), (Z.ltb_spec (k + a) w); try lia; reflexivity.
Qed.
Definition shifts (w : Z) : Z * Z * Z := if w =? 32 then (13, 17, 5) else (13, 7, 17).
Lemma xs_next_ok w x : 0 <= w -> 0 <= x < 2 ^ w -> let '(a, b, c) := shifts w in xorshift w a b c x (xs_next w x).
Proof.
  intros W X. unfold shifts, xs_next. destruct (w =? 32).
  - assert (L := left_ok w 13 x W ltac:(lia) X). assert (R := right_ok w 17 _ W ltac:(lia) (proj1 L)). assert (L2 := left_ok w 5 _ W ltac:(lia) (proj1 R)).
    eexists. eexists. split; [exact L|]. split; [exact R|exact L2].
  - assert (L := left_ok w 13 x W ltac:(lia) X). assert (R := right_ok w 7 _ W ltac:(lia) (proj1 L)). assert (L2 := left_ok w 17 _ W ltac:(lia) (proj1 R)).
    eexists. eexists. split; [exact L|]. split; [exact R|exact L2].
Qed.
Lemma same_bits w x y : 0 <= w -> 0 <= x < 2 ^ w -> 0 <= y < 2 ^ w -> (forall k, 0 <= k < w -> bit w x k = bit w y k) -> x = y.
Proof.
  intros W X Y H. apply Z.bits_inj'. intros k Hk. destruct (Z_lt_ge_dec k w) as [L|L].
  - specialize (H k ltac:(lia)). rewrite !bit_in in H by lia. exact H.
  - rewrite (bits_range w x k), (bits_range w y k) by (assumption || lia). reflexivity.
Qed.
Lemma xorb_cancel a b c : xorb a c = xorb b c -> a = b.
Proof. destruct a, b, c; cbn; intros; congruence. Qed.
Lemma left_inj w a x x' y : 0 <= w -> 1 <= a -> 0 <= x < 2 ^ w -> 0 <= x' < 2 ^ w -> xor_left w a x y -> xor_left w a x' y -> x = x'.
Proof.
  intros W A X X' (_ & H) (_ & H'). apply (same_bits w); try assumption. intros k Hk.
  assert (G : forall n k, k < Z.of_nat n -> bit w x k = bit w x' k).
  { clear k Hk. induction n as [|n IH]; intros k Hk; [destruct (bit_out w x k) as [?|E1]; [lia|]; destruct (bit_out w x' k) as [?|E2]; [lia|congruence]|].
    destruct (bit_out w x k) as [R|E1]; [|destruct (bit_out w x' k) as [R|E2]; [|congruence]].
    - specialize (H k R). specialize (H' k R). rewrite H' in H. rewrite (IH (k - a)) in H by lia. symmetry. exact (xorb_cancel _ _ _ H).
    - specialize (H k R). specialize (H' k R). rewrite H' in H. rewrite (IH (k - a)) in H by lia. symmetry. exact (xorb_cancel _ _ _ H). }
  apply (G (S (Z.to_nat k))). lia.
Qed.
Lemma right_inj w a x x' y : 0 <= w -> 1 <= a -> 0 <= x < 2 ^ w -> 0 <= x' < 2 ^ w -> xor_right w a x y -> xor_right w a x' y -> x = x'.
Proof.
  intros W A X X' (_ & H) (_ & H'). apply (same_bits w); try assumption. intros k Hk.
  assert (G : forall n k, w - Z.of_nat n <= k -> bit w x k = bit w x' k).
  { clear k Hk. induction n as [|n IH]; intros k Hk; [destruct (bit_out w x k) as [?|E1]; [lia|]; destruct (bit_out w x' k) as [?|E2]; [lia|congruence]|].
    destruct (bit_out w x k) as [R|E1]; [|destruct (bit_out w x' k) as [R|E2]; [|congruence]].
    - specialize (H k R). specialize (H' k R). rewrite H' in H. rewrite (IH (k + a)) in H by lia. symmetry. exact (xorb_cancel _ _ _ H).
    - specialize (H k R). specialize (H' k R). rewrite H' in H. rewrite (IH (k + a)) in H by lia. symmetry. exact (xorb_cancel _ _ _ H). }
  apply (G (Z.to_nat w)). lia.
Qed.
Lemma xorshift_inj w a b c x x' y : 0 <= w -> 1 <= a -> 1 <= b -> 1 <= c -> 0 <= x < 2 ^ w -> 0 <= x' < 2 ^ w ->
  xorshift w a b c x y -> xorshift w a b c x' y -> x = x'.
Proof.
  intros W A B C X X' (x1 & x2 & L1 & R1 & L2) (y1 & y2 & L1' & R1' & L2').
  assert (x2 = y2) by exact (left_inj w c x2 y2 y W C (proj1 R1) (proj1 R1') L2 L2'). subst y2.
  assert (x1 = y1) by exact (right_inj w b x1 y1 x2 W B (proj1 L1) (proj1 L1') R1 R1'). subst y1.
  exact (left_inj w a x x' x1 W A X X' L1 L1').
Qed.
Lemma xorshift_0 w a b c : 0 <= w -> xorshift w a b c 0 0.
Proof.
  intros W. pose proof (pow_pos w W). assert (B : forall k, bit w 0 k = false) by (intros k; unfold bit; rewrite Z.bits_0; destruct (_ && _); reflexivity).
  exists 0, 0. repeat split; try lia; intros k _; rewrite !B; reflexivity.
Qed.
Lemma orbit_range w a b c x k y : 0 <= x < 2 ^ w -> orbit w a b c x k y -> 0 <= y < 2 ^ w.
Proof. intros X O. destruct O as [|k y z _ (x1 & x2 & _ & _ & L)]; [exact X|exact (proj1 L)]. Qed.
Lemma orbit_nonzero w a b c x k y : 0 <= w -> 1 <= a -> 1 <= b -> 1 <= c -> 0 <= x < 2 ^ w -> x <> 0 -> orbit w a b c x k y -> y <> 0.
Proof.
  intros W A B C X N O. induction O as [|k y z O IH S]; [exact N|]. intros ->. apply IH.
  assert (Y := orbit_range w a b c x k y X O). apply (xorshift_inj w a b c y 0 0 W A B C Y); [pose proof (pow_pos w W); lia|exact S|apply xorshift_0, W].
Qed.
Lemma xs_run_ok w he l : 0 <= w -> forall s, 0 <= x_rand s < 2 ^ w -> let '(a, b, c) := shifts w in
  forall x k, orbit w a b c x k (x_rand s) -> orbit w a b c x (k + length (filter (enabled he) l)) (x_rand (fold_left (xs_step w he) l s)).
Proof.
  intros W. induction l as [|i l IH]; intros s Hs; destruct (shifts w) as [[a b] c] eqn:Sh; intros x k O.
  - cbn. rewrite Nat.add_0_r. exact O.
  - cbn [fold_left filter].
    assert (N := xs_next_ok w (x_rand s) W Hs). rewrite Sh in N.
    assert (EE : enabled he i = negb he || i_enable i) by (unfold enabled; destruct he; reflexivity). rewrite EE. unfold xs_step at 2. destruct (negb he || i_enable i).
    + cbn [length]. rewrite Nat.add_succ_r, <- Nat.add_succ_l. apply (IH (mkXSt (x_rand s) (xs_next w (x_rand s)))).
      * destruct N as (x1 & x2 & _ & _ & L). exact (proj1 L).
      * exact (orbit_S w a b c x k _ _ O N).
    + apply IH; assumption.
Qed.

(** * As nodes of a stream *)
Section Node.
  Variables (g : heap) (par : nat -> Z) (xs : nat -> elem).
  (** the operand values of the valid ones among the first [k] elements *)
  Inductive valid_ops (d : node) : nat -> list (list Z) -> Prop :=
  | vo_0 : valid_ops d 0 []
  | vo_skip : forall k l, valid_ops d k l -> e_valid (xs k) = false -> valid_ops d (S k) l
  | vo_take : forall k l vs, valid_ops d k l -> e_valid (xs k) = true -> dens g par xs (n_args d) k vs -> valid_ops d (S k) (l ++ [vs]).
  Lemma state_ops n d s0 u o k s : get g n = Some d -> n_kind d = KAcc s0 u o ->
    (state g par xs n k s <-> exists l, valid_ops d k l /\ s = fold_left u l s0).
  Proof.
    intros G K. split.
    - intros H. induction H as [n' d' s0' u' o' G' K'|n' k s H IH V|n' d' s0' u' o' k s vs G' K' H IH V D].
      + assert (d' = d) by congruence. subst d'. rewrite K in K'. inversion K'. subst. exists []. split; [constructor|reflexivity].
      + destruct (IH G) as (l & A & ->). exists l. split; [constructor; assumption|reflexivity].
      + destruct (IH G) as (l & A & ->). assert (d' = d) by congruence. subst d'. rewrite K in K'. inversion K'. subst. exists (l ++ [vs]).
        split; [constructor; assumption|]. rewrite fold_left_app. reflexivity.
    - intros (l & H & ->). induction H as [|k l H IH V|k l vs H IH V D].
      + exact (state_0 g par xs n d s0 u o G K).
      + constructor; assumption.
      + rewrite fold_left_app. exact (state_valid g par xs n d s0 u o k _ vs G K IH V D).
  Qed.
  Lemma den_ops n d s0 u o k y : get g n = Some d -> n_kind d = KAcc s0 u o ->
    (den g par xs n k y <-> exists l, valid_ops d (S k) l /\ y = o (fold_left u l s0)).
  Proof.
    intros G K. split.
    - intros H. inversion H as [n' d' i k' G' K'|n' d' c k' G' K'|n' d' p k' G' K'|n' d' f k' vs G' K' D|n' d' k' v G' K' D|n' d' s0' u' o' k' s G' K' St]; subst; rewrite G in G'; injection G' as <-; rewrite K in K'; try discriminate.
      inversion K'. subst. apply (state_ops n d s0' u' o' (S k) s G K) in St. destruct St as (l & A & ->). exists l. auto.
    - intros (l & A & ->). apply (den_acc g par xs n d s0 u o k); [exact G|exact K|]. apply (state_ops n d s0 u o (S k) _ G K). exists l. auto.
  Qed.
End Node.
Lemma dec_enc_ast s : dec_ast (enc_ast s) = s.
Proof. destruct s as [a b p i]. cbn. destruct p; reflexivity. Qed.
Lemma acc_fold c l : forall s, fold_left (fun s a => enc_ast (acc_step c (dec_ast s) (dec_acc c a))) l (enc_ast s) = enc_ast (fold_left (acc_step c) (map (dec_acc c) l) s).
Proof. induction l as [|a l IH]; intros s; cbn [fold_left map]; [reflexivity|]. rewrite dec_enc_ast. apply IH. Qed.
Lemma cnt_fold c l : forall s, fold_left (fun s a => enc_cst (cnt_step c (dec_cst s) (dec_cnt c a))) l (enc_cst s) = enc_cst (fold_left (cnt_step c) (map (dec_cnt c) l) s).
Proof. induction l as [|a l IH]; intros s; cbn [fold_left map]; [reflexivity|]. replace (dec_cst (enc_cst s)) with s by (destruct s; reflexivity). apply IH. Qed.
Lemma xs_fold w he l : forall s, fold_left (fun s a => enc_xst (xs_step w he (dec_xst s) (dec_args false false false he false a))) l (enc_xst s) =
  enc_xst (fold_left (xs_step w he) (map (dec_args false false false he false) l) s).
Proof. induction l as [|a l IH]; intros s; cbn [fold_left map]; [reflexivity|]. replace (dec_xst (enc_xst s)) with s by (destruct s; reflexivity). apply IH. Qed.

(** * ReduceMul *)
Section RM.
  Variables (c : acfg) (rs : bool) (pt : Z).
  Hypothesis W : 1 <= a_width c.
  Hypothesis OPS : a_ops c = [op_mul (a_width c) (a_signed c) rs pt].
  Notation cyc := (mul_cycle c rs pt).
  Lemma not_pulse : is_pulse c = false.
  Proof. unfold is_pulse. rewrite OPS. reflexivity. Qed.
  Lemma mul2_out s y1 y2 : length (p_pipe s) = 1%nat -> mi_update y1 = true -> mi_update y2 = true ->
    length (p_pipe (mul_step (a_width c) (a_width c) (a_signed c) rs s y1)) = 1%nat /\
    mul_out (mul_step (a_width c) (a_width c) (a_signed c) rs (mul_step (a_width c) (a_width c) (a_signed c) rs s y1) y2) =
      (value (a_width c) (a_signed c) (mi_a y1) * value (a_width c) rs (mi_b y1)) mod 2 ^ (a_width c + a_width c).
  Proof.
    intros L U1 U2. split; [unfold mul_step; rewrite U1; cbn [p_pipe length]; rewrite removelast_length, L; reflexivity|].
    apply (mul_delivers (a_width c) (a_width c) (a_signed c) rs W W 2%nat s [y1; y2] (mi_a y1) (mi_b y1) (mi_enable y1 && negb (mi_rst y1) && negb (mi_rst y2))); [lia|exact L|].
    unfold tape_of, tape_step. cbn. rewrite U1, U2. cbn. destruct (mi_rst y2); cbn; [rewrite andb_false_r|rewrite andb_true_r]; reflexivity.
  Qed.
  Lemma mul_len s y : length (p_pipe (m_mul s)) = 1%nat -> length (p_pipe (m_mul (cyc s y))) = 1%nat.
  Proof. intros L. cbn [m_mul mul_cycle]. unfold mul_step. destruct (mi_update _); [|exact L]. cbn [p_pipe length]. rewrite removelast_length, L. reflexivity. Qed.

  Definition take_elem (s : mst) (y : min) : list ain := if m_senable s y && y_valid y then [y_ops y] else [].
  (** between operations a cycle is a step of the accumulator on what is taken, or starts a product *)
  Lemma mul_idle s y : m_ii s = 0 ->
    (m_ii (cyc s y) = 0 /\ m_acc (cyc s y) = fold_left (acc_step c) (take_elem s y) (m_acc s)) \/
    (m_ii (cyc s y) = 1 /\ take_elem s y = [y_ops y] /\ en2 c (m_acc s) (y_ops y) = true).
  Proof.
    intros Z0. unfold take_elem, mul_cycle. rewrite Z0. cbn [m_ii m_acc]. unfold m_senable, m_stall. rewrite Z0. cbn [Z.eqb Z.ltb Z.compare negb].
    rewrite !andb_true_r. rewrite (andb_comm (y_valid y)). destruct (y_ready y && y_valid y) eqn:E0; cbn [andb].
    - unfold en2. destruct (en1 c (y_ops y) && (negb (a_interval c) || interval_enable c (m_acc s) (y_ops y))) eqn:E2.
      + right. auto.
      + left. split; [reflexivity|]. cbn [fold_left]. unfold acc_step. unfold en2. rewrite E2. reflexivity.
    - left. split; [reflexivity|]. rewrite andb_false_r. destruct (m_acc s) as [d n p k]. cbn. destruct (a_size c); reflexivity.
  Qed.
  Lemma stall_step s y : 0 < m_ii s < 2 ->
    m_ii (cyc s y) = m_ii s + 1 /\ take_elem s y = [] /\ m_acc (cyc s y) = m_acc s /\
    m_mul (cyc s y) = mul_step (a_width c) (a_width c) (a_signed c) rs (m_mul s) (mkMulIn true (current_data c (m_acc s) (y_ops y)) (i_right (y_ops y)) false false).
  Proof.
    intros H. assert (ST : m_stall s = true) by (unfold m_stall; apply Z.ltb_lt; lia). unfold take_elem, mul_cycle, m_senable. rewrite ST.
    replace (m_ii s =? 2) with false by (symmetry; apply Z.eqb_neq; lia). cbn [negb]. rewrite !andb_false_r. cbn [andb orb m_ii m_acc m_mul].
    split; [reflexivity|]. split; [reflexivity|]. split; [|reflexivity]. rewrite ?andb_false_r. destruct (m_acc s) as [d n p k]. cbn. destruct (a_size c); reflexivity.
  Qed.
  Lemma done_step s y : m_ii s = 2 ->
    m_ii (cyc s y) = 0 /\ take_elem s y = [] /\
    m_acc (cyc s y) = mkASt (to_data c (m_value c pt s)) (s_count (m_acc s)) (s_pmax (m_acc s)) (s_icount (m_acc s)).
  Proof.
    intros H. unfold take_elem, mul_cycle, m_senable, m_stall. rewrite H. cbn [Z.eqb Z.ltb Z.compare Pos.eqb negb andb orb].
    rewrite !andb_false_r. cbn [andb orb m_ii m_acc]. split; [reflexivity|]. split; [reflexivity|]. rewrite ?andb_false_r.
    destruct (a_size c); reflexivity.
  Qed.
  (** a product started at [s] is finished two cycles later *)
  Lemma mul_three s y0 y1 y2 : m_ii s = 0 -> length (p_pipe (m_mul s)) = 1%nat -> m_ii (cyc s y0) = 1 ->
    m_ii (cyc (cyc (cyc s y0) y1) y2) = 0 /\ m_acc (cyc (cyc (cyc s y0) y1) y2) = acc_step c (m_acc s) (y_ops y0).
  Proof.
    intros Z0 L I1. destruct (mul_idle s y0 Z0) as [(I0 & _)|(_ & T & E2)]; [lia|].
    destruct (stall_step (cyc s y0) y1 ltac:(lia)) as (I2 & _ & A2 & M2). destruct (done_step (cyc (cyc s y0) y1) y2 ltac:(lia)) as (I3 & _ & A3).
    split; [exact I3|]. rewrite A3, A2. unfold m_value. rewrite M2.
    assert (EC : y_valid y0 && m_senable s y0 = true) by (unfold take_elem in T; rewrite andb_comm; destruct (m_senable s y0 && y_valid y0); [reflexivity|discriminate]).
    unfold en2 in E2. apply andb_true_iff in E2. destruct E2 as (E2a & E2b).
    assert (M1 : m_mul (cyc s y0) = mul_step (a_width c) (a_width c) (a_signed c) rs (m_mul s) (mkMulIn true (current_data c (m_acc s) (y_ops y0)) (i_right (y_ops y0)) false false)).
    { unfold mul_cycle. cbn [m_mul]. rewrite EC, E2a, E2b. reflexivity. }
    rewrite M1. destruct (mul2_out (m_mul s) (mkMulIn true (current_data c (m_acc s) (y_ops y0)) (i_right (y_ops y0)) false false)
      (mkMulIn true (current_data c (m_acc (cyc s y0)) (y_ops y1)) (i_right (y_ops y1)) false false) L eq_refl eq_refl) as (_ & ->). cbn [mi_a mi_b].
    unfold acc_step, en2. rewrite E2a, E2b. cbn [andb].
    assert (CS : forall x, x = m_acc (cyc s y0) -> s_count x = (match a_size c with Some _ => next_count c (m_acc s) (y_ops y0) | None => s_count (m_acc s) end) /\
      s_pmax x = (match a_size c with Some _ => count_max c (m_acc s) (y_ops y0) | None => s_pmax (m_acc s) end) /\
      s_icount x = (if a_interval c && true then next_icount c (m_acc s) (y_ops y0) else s_icount (m_acc s))).
    { intros x ->. unfold mul_cycle. cbn [m_acc s_count s_pmax s_icount]. rewrite EC, E2a, E2b. cbn [andb]. auto. }
    destruct (CS _ eq_refl) as (-> & -> & ->). f_equal. f_equal. unfold acc_value. rewrite not_pulse, OPS. cbn [fold_left]. unfold op_mul. f_equal.
    apply value_congr. apply Z.mod_mod. pose proof (pow_pos (a_width c + a_width c) ltac:(lia)). lia.
  Qed.
  Lemma taken_app s l l' : taken c rs pt s (l ++ l') = taken c rs pt s l ++ taken c rs pt (fold_left cyc l s) l'.
  Proof. revert s. induction l as [|y l IH]; intros s; [reflexivity|]. cbn. rewrite IH, app_assoc. reflexivity. Qed.
  (** phase by phase *)
  Definition MInv (tk : list ain) (s : mst) : Prop :=
    length (p_pipe (m_mul s)) = 1%nat /\
    ((m_ii s = 0 /\ m_acc s = acc_run c tk) \/
     (exists s0 y0 t0, tk = t0 ++ [y_ops y0] /\ m_ii s0 = 0 /\ length (p_pipe (m_mul s0)) = 1%nat /\ m_acc s0 = acc_run c t0 /\ m_ii (cyc s0 y0) = 1 /\
       (s = cyc s0 y0 \/ exists y1, s = cyc (cyc s0 y0) y1))).
  Lemma MInv_step tk s y : MInv tk s -> MInv (tk ++ take_elem s y) (cyc s y).
  Proof.
    intros (L & [(Z0 & A)|(s0 & y0 & t0 & -> & Z0 & L0 & A0 & I1 & H)]); (split; [apply mul_len, L|]).
    - destruct (mul_idle s y Z0) as [(I0 & A')|(I1 & T & E)].
      + left. split; [exact I0|]. rewrite A', A. unfold acc_run. rewrite fold_left_app. reflexivity.
      + right. exists s, y, tk. rewrite T. repeat split; try assumption. left. reflexivity.
    - destruct H as [->|(y1 & ->)].
      + destruct (stall_step (cyc s0 y0) y ltac:(lia)) as (_ & T & _). rewrite T, app_nil_r. right. exists s0, y0, t0. repeat split; try assumption. right. eauto.
      + destruct (stall_step (cyc s0 y0) y1 ltac:(lia)) as (I2 & _). destruct (done_step (cyc (cyc s0 y0) y1) y ltac:(lia)) as (_ & T & _). rewrite T, app_nil_r.
        left. destruct (mul_three s0 y0 y1 y Z0 L0 I1) as (I3 & ->). split; [exact I3|]. rewrite A0. unfold acc_run. rewrite fold_left_app. reflexivity.
  Qed.
  Lemma MInv_run l : forall tk s, MInv tk s -> MInv (tk ++ taken c rs pt s l) (fold_left cyc l s).
  Proof.
    induction l as [|y l IH]; intros tk s H; [cbn; rewrite app_nil_r; exact H|]. cbn [fold_left taken]. rewrite app_assoc. apply IH. apply MInv_step, H.
  Qed.
  Lemma MInv_init : MInv [] (mul_init c).
  Proof. split; [reflexivity|]. left. split; reflexivity. Qed.
End RM.
