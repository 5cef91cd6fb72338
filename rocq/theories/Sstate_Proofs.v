(** Proofs about the stream operators with registers of their own. *)
From Verif Require Import Base Bits Stream_Model Stream_Spec Reduce_Model Reduce_Spec Reduce_Proofs Reduce_Props Sstate_Model Sstate_Spec.
Open Scope Z_scope.

(** * Predicate *)
Lemma last_app1 {A} (l : list A) x d : last (l ++ [x]) d = x.
Proof. induction l as [|y l IH]; [reflexivity|]. cbn [app]. destruct (l ++ [x]) eqn:E; [destruct l; discriminate E|]. cbn [last]. exact IH. Qed.
Lemma pred_run hw is : fold_left (pred_step hw) is 0 = last_chosen hw is.
Proof.
  induction is as [|i is IH] using rev_ind; [reflexivity|]. rewrite fold_left_app. cbn [fold_left]. rewrite IH.
  unfold last_chosen, pred_step. rewrite filter_app, map_app. cbn [filter].
  destruct (p_svalid i), (p_senable i), hw, (p_when i); cbn [andb negb orb map]; rewrite ?app_nil_r, ?last_app1; reflexivity.
Qed.

(** * ArgMax, ArgMin *)
(** the index register as a function of the elements *)
Definition upd_idx (c : acfg) (s : ast * cst * Z) (i : ain) : ast * cst * Z :=
  let '(a, t, x) := s in
  let a' := acc_step c a i in
  let t' := cnt_step (arg_ccfg c) t (arg_cin i) in
  (a', t', if s_data a' =? s_data a then x else t_data t').
Definition idx_run (c : acfg) (l : list ain) : ast * cst * Z := fold_left (upd_idx c) l (acc_init c, cnt_init (arg_ccfg c), 0).
Lemma idx_acc c l : fst (fst (idx_run c l)) = acc_run c l /\ snd (fst (idx_run c l)) = cnt_run (arg_ccfg c) (map arg_cin l).
Proof.
  induction l as [|i l (A & B)] using rev_ind; [split; reflexivity|].
  unfold idx_run, acc_run, cnt_run in *. rewrite map_app, !fold_left_app. cbn [fold_left map]. rewrite <- A, <- B. clear A B.
  destruct (fold_left (upd_idx c) l _) as [[a t] x]. split; reflexivity.
Qed.
Lemma idx_snoc c l i : snd (idx_run c (l ++ [i])) =
  if s_data (acc_run c (l ++ [i])) =? s_data (acc_run c l) then snd (idx_run c l) else t_data (cnt_run (arg_ccfg c) (map arg_cin l ++ [arg_cin i])).
Proof.
  pose proof (idx_acc c l) as (A & B). pose proof (idx_acc c (l ++ [i])) as (A' & B'). rewrite <- A', <- A. rewrite map_app in B'. cbn [map] in B'. rewrite <- B'. clear A' B' A B.
  unfold idx_run. rewrite fold_left_app. cbn [fold_left]. destruct (fold_left (upd_idx c) l _) as [[a t] x]. reflexivity.
Qed.
Definition GInv (c : acfg) (l : list ain) (s : gst) : Prop :=
  g_acc s = acc_run c l /\ g_cnt s = cnt_run (arg_ccfg c) (map arg_cin l) /\
  if g_vld s then exists l' i, l = l' ++ [i] /\ g_prev s = s_data (acc_run c l') /\ g_idx s = snd (idx_run c l')
  else g_idx s = snd (idx_run c l).
Lemma ginv_run c is : GInv c (elements is) (arg_run c is).
Proof.
  induction is as [|i is IH] using rev_ind; [repeat split|].
  unfold arg_run in *. rewrite fold_left_app. cbn [fold_left]. set (s := fold_left (arg_step c) is (arg_init c)) in *. clearbody s.
  unfold elements in *. rewrite filter_app, map_app. set (l := map g_ops (filter _ is)) in *. clearbody l.
  destruct IH as (A & B & IH). cbn [filter]. unfold arg_step, pred_step. cbn [p_senable p_svalid p_when p_data negb orb].
  destruct (g_senable i) eqn:E1; [|rewrite !andb_false_r; cbn [andb map]; rewrite app_nil_r; unfold GInv; cbn [g_acc g_cnt g_vld g_prev g_idx]; auto].
  assert (X : (if g_vld s && true && arg_update s then t_data (g_cnt s) else g_idx s) = snd (idx_run c l)).
  { destruct (g_vld s) eqn:V; cbn [andb]; [|exact IH]. destruct IH as (l' & j & -> & P & Q). rewrite idx_snoc. unfold arg_update. rewrite A, P, B, map_app. cbn [map].
    destruct (s_data (acc_run c (l' ++ [j])) =? s_data (acc_run c l')); cbn [negb]; [exact Q|reflexivity]. }
  rewrite X. clear X IH. destruct (g_svalid i) eqn:E2; cbn [andb map]; unfold GInv; cbn [g_acc g_cnt g_vld g_prev g_idx].
  - unfold acc_run, cnt_run. rewrite map_app, !fold_left_app. cbn [fold_left map]. rewrite A, B. repeat split; [].
    exists l, (g_ops i). repeat split.
  - rewrite app_nil_r. auto.
Qed.
(** one more enabled cycle and the index is that of the elements before it *)
Lemma idx_shown c is i : g_senable i = true -> g_idx (arg_run c (is ++ [i])) = snd (idx_run c (elements is)).
Proof.
  intros E. pose proof (ginv_run c is) as (A & B & C). unfold arg_run in *. rewrite fold_left_app. cbn [fold_left]. set (s := fold_left (arg_step c) is (arg_init c)) in *. clearbody s.
  unfold arg_step, pred_step. cbn [g_idx p_senable p_svalid p_when p_data negb orb]. rewrite E.
  destruct (g_vld s); cbn [andb]; [|exact C]. destruct C as (l' & j & D & P & Q). rewrite D in *. rewrite idx_snoc. unfold arg_update. rewrite A, P, B, map_app. cbn [map].
  destruct (s_data (acc_run c (l' ++ [j])) =? s_data (acc_run c l')); cbn [negb]; [exact Q|reflexivity].
Qed.

(** the position of the counter in the group *)
Definition len_ok (n : option nat) (pos : nat) (cur : list Z) : Prop :=
  match n with Some m => (pos mod m = length cur mod m /\ length cur <= m)%nat | None => pos = length cur end.
Lemma len_join n he hr pos cur i : (match n with Some m => 1 <= m | None => True end)%nat -> (hr = false \/ enabled he i = true) ->
  len_ok n pos cur -> len_ok n (next_pos he hr pos i) (join n he hr cur i).
Proof.
  intros N R L. unfold next_pos, join, restart. destruct (enabled he i) eqn:E.
  - assert (Z1 : forall p, (if (if hr then i_reset i else false) then 0 else p)%nat = if (if hr then i_reset i else false) then 0%nat else p) by reflexivity.
    destruct (if hr then i_reset i else false); cbn [orb].
    + destruct n as [m|]; cbn [len_ok length]; [lia|reflexivity].
    + destruct n as [m|]; cbn [len_ok full length] in *.
      * destruct L as (L1 & L2). destruct (Nat.eqb_spec (length cur) m) as [F|F]; cbn [length].
        -- split; [|lia]. rewrite F, Nat.mod_same in L1 by lia. rewrite <- Nat.add_1_r, <- Nat.add_mod_idemp_l, L1 by lia. reflexivity.
        -- rewrite app_length. cbn [length]. split; [|lia]. rewrite <- Nat.add_1_r, <- Nat.add_mod_idemp_l, L1, Nat.add_mod_idemp_l by lia. reflexivity.
      * rewrite app_length. cbn [length]. lia.
  - destruct R as [->|R]; [|discriminate R]. exact L.
Qed.
Lemma len_run n he hr l : (match n with Some m => 1 <= m | None => True end)%nat -> reset_ok he hr l ->
  len_ok n (fold_left (next_pos he hr) l 0%nat) (group n he hr l).
Proof.
  intros N. induction l as [|i l IH] using rev_ind; intros R.
  - destruct n; cbn; auto; split; [reflexivity|lia].
  - unfold group. rewrite !fold_left_app. cbn [fold_left]. apply len_join; [exact N| |apply IH].
    + destruct R as [R|R]; [left; exact R|right]. apply Forall_app in R. destruct R as (_ & R). inversion R. assumption.
    + destruct R as [R|R]; [left; exact R|right]. apply Forall_app in R. apply R.
Qed.

Lemma en_cin he i : enabled he (arg_cin i) = enabled he i.
Proof. reflexivity. Qed.
Lemma pos_cin he hr l : fold_left (next_pos he hr) (map arg_cin l) 0%nat = fold_left (next_pos he hr) l 0%nat.
Proof. generalize 0%nat. induction l as [|i l IH]; intros k; [reflexivity|]. cbn [map fold_left]. rewrite IH. reflexivity. Qed.

Section Arg.
  Variables (c : acfg) (n : option nat).
  Hypotheses (SW : match a_size c with Some w => 0 <= w <= 32 | None => True end).
  (** the counter shows the place of an enabled element in its group *)
  Lemma cnt_place l i : size_ok n c (l ++ [i]) -> reset_ok (a_enable c) (a_reset c) (l ++ [i]) -> enabled (a_enable c) i = true ->
    Z.of_nat (length (group n (a_enable c) (a_reset c) (l ++ [i]))) < 2 ^ 32 ->
    t_data (cnt_run (arg_ccfg c) (map arg_cin l ++ [arg_cin i])) = Z.of_nat (length (group n (a_enable c) (a_reset c) (l ++ [i])) - 1).
  Proof using SW.
    intros S R E B.
    assert (N : (match n with Some m => 1 <= m | None => True end)%nat) by (unfold size_ok in S; destruct n, (a_size c); try exact I; lia).
    assert (Rl : reset_ok (a_enable c) (a_reset c) l) by (destruct R as [R|R]; [left; exact R|right]; apply Forall_app in R; apply R).
    pose proof (len_run n _ _ l N Rl) as L.
    assert (R' : reset_ok (a_enable c) (a_reset c) (map arg_cin l ++ [arg_cin i])).
    { destruct R as [R|R]; [left; exact R|right]. change [arg_cin i] with (map arg_cin [i]). rewrite <- map_app. apply Forall_map. exact R. }
    assert (P : position (a_enable c) (a_reset c) (map arg_cin l) (arg_cin i) = if restart (a_reset c) i then 0%nat else fold_left (next_pos (a_enable c) (a_reset c)) l 0%nat).
    { unfold position. rewrite pos_cin. reflexivity. }
    assert (G : group n (a_enable c) (a_reset c) (l ++ [i]) = join n (a_enable c) (a_reset c) (group n (a_enable c) (a_reset c) l) i) by (unfold group; rewrite fold_left_app; reflexivity).
    rewrite G in *. unfold join in *. rewrite E in *. unfold arg_ccfg. unfold size_ok in S.
    destruct n as [m|], (a_size c) as [w|] eqn:Ec; try contradiction S.
    - destruct S as (S1 & S2 & S3). cbn [len_ok] in L. destruct L as (L1 & L2).
      assert (M32 : Z.of_nat m <= 2 ^ 32) by (assert (2 ^ w <= 2 ^ 32) by (apply Z.pow_le_mono_r; lia); lia).
      rewrite (C31_modulo _ 1 (Z.of_nat m)); cbn [c_width c_ctx c_size c_offset c_interval c_enable c_reset c_reg_initval]; try reflexivity; try lia.
      + rewrite P. rewrite Z.add_0_l, Z.mul_1_r, <- Nat2Z.inj_mod. f_equal.
        unfold full. destruct (restart (a_reset c) i); cbn [orb length]; [rewrite Nat.mod_0_l; lia|].
        rewrite L1. destruct (Nat.eqb_spec (length (group (Some m) (a_enable c) (a_reset c) l)) m) as [F|F]; cbn [length].
        * rewrite F. rewrite Nat.mod_same; lia.
        * rewrite app_length. cbn [length]. rewrite Nat.mod_small; lia.
      + exact R'.
      + change [arg_cin i] with (map arg_cin [i]). rewrite <- map_app. apply Forall_map. eapply Forall_impl; [|exact S3]. intros j Hj. cbn. auto.
    - cbn [len_ok] in L.
      rewrite (C31_free _ 1); cbn [c_width c_ctx c_size c_offset c_interval c_enable c_reset c_reg_initval]; try reflexivity; try lia.
      + rewrite P. rewrite Z.add_0_l, Z.mul_1_r. unfold full in *. rewrite orb_false_r in *.
        destruct (restart (a_reset c) i); cbn [length] in *; [reflexivity|]. rewrite app_length in *. cbn [length] in *. rewrite L. rewrite uns_small; lia.
      + exact R'.
      + change [arg_cin i] with (map arg_cin [i]). rewrite <- map_app. apply Forall_map. apply Forall_forall. intros j Hj. cbn. auto.
  Qed.
End Arg.

Lemma filter_len {A} (f : A -> bool) l : (length (filter f l) <= length l)%nat.
Proof. induction l as [|x l IH]; [cbn; lia|]. cbn [filter]. destruct (f x); cbn [length]; lia. Qed.

(** the choice of the larger ([s] = 1) or smaller ([s] = -1) of two *)
Definition pick (s v x : Z) : Z := if s * v <? s * x then x else v.
Lemma fold_pick_bound s g : forall v, s * v <= s * fold_left (pick s) g v.
Proof. induction g as [|x g IH]; intros v; [cbn; lia|]. cbn [fold_left]. specialize (IH (pick s v x)). unfold pick in *. destruct (Z.ltb_spec (s * v) (s * x)); lia. Qed.
Definition first_best (s : Z) (g : list Z) (k : nat) : Prop :=
  (k < length g)%nat /\ (forall j, (j < length g)%nat -> s * nth j g 0 <= s * nth k g 0) /\ (forall j, (j < k)%nat -> s * nth j g 0 < s * nth k g 0).

Section Best.
  Variables (c : acfg) (n : option nat) (iv s : Z).
  Hypotheses (S1 : s = 1 \/ s = -1) (SW : match a_size c with Some w => 0 <= w <= 32 | None => True end).
  Variable p : list ain.
  Variable i : ain.
  Notation he := (a_enable c).
  Notation hr := (a_reset c).
  Lemma best_run q :
    (forall k, let l := firstn k (p ++ i :: q) in s_data (acc_run c l) = fold_left (pick s) (group n he hr l) iv) ->
    size_ok n c (p ++ i :: q) -> reset_ok he hr (p ++ i :: q) -> starts_group n he hr p i q ->
    s * iv < s * i_right i -> fold_left (pick s) (group n he hr p) iv <> i_right i ->
    Z.of_nat (S (length q)) < 2 ^ 32 ->
    exists k, snd (idx_run c (p ++ i :: q)) = Z.of_nat k /\ first_best s (i_right i :: enabled_values he q) k /\
      fold_left (pick s) (i_right i :: enabled_values he q) iv = nth k (i_right i :: enabled_values he q) 0.
  Proof using S1 SW.
    intros HM HS HR HG HI HP HL.
    assert (HM' : forall l r, p ++ i :: q = l ++ r -> s_data (acc_run c l) = fold_left (pick s) (group n he hr l) iv).
    { intros l r E. specialize (HM (length l)). cbv zeta in HM. rewrite E, firstn_app, Nat.sub_diag, firstn_all in HM. cbn [firstn] in HM. rewrite app_nil_r in HM. exact HM. }
    clear HM. induction q as [|j q IH] using rev_ind.
    - destruct HG as (G1 & G2 & _). exists 0%nat. rewrite idx_snoc. rewrite (HM' (p ++ [i]) []), (HM' p [i]) by (rewrite ?app_nil_r; reflexivity).
      rewrite G2. cbn [fold_left enabled_values filter map nth]. unfold pick at 1 3. destruct (Z.ltb_spec (s * iv) (s * i_right i)) as [_|X]; [|lia].
      destruct (Z.eqb_spec (i_right i) (fold_left (pick s) (group n he hr p) iv)) as [X|_]; [congruence|].
      split; [|split; [|reflexivity]].
      + rewrite (cnt_place c n SW); [rewrite G2; reflexivity|exact HS|exact HR|exact G1|rewrite G2; cbn; lia].
      + split; [cbn; lia|]. split; intros [|k] Hk; cbn [length nth] in *; lia.
    - rewrite app_length in HL. cbn [length] in HL.
      assert (SP : p ++ i :: q ++ [j] = (p ++ i :: q) ++ [j]) by (rewrite <- app_assoc; reflexivity).
      rewrite SP in *. destruct HG as (G1 & G2 & G3).
      rewrite SP in G3.
      assert (EV : enabled_values he (q ++ [j]) = enabled_values he q ++ (if enabled he j then [i_right j] else [])).
      { unfold enabled_values. rewrite filter_app, map_app. cbn [filter]. destruct (enabled he j); reflexivity. }
      assert (GJ : group n he hr ((p ++ i :: q) ++ [j]) = join n he hr (group n he hr (p ++ i :: q)) j) by (unfold group; rewrite fold_left_app; reflexivity).
      assert (GQ : group n he hr (p ++ i :: q) = i_right i :: enabled_values he q).
      { rewrite EV in G3. unfold join in GJ. destruct (enabled he j).
        - destruct (restart hr j || full n (group n he hr (p ++ i :: q))).
          + rewrite GJ in G3. exfalso. apply (f_equal (@length Z)) in G3. cbn [length] in G3. rewrite app_length in G3. cbn [length] in G3. lia.
          + rewrite GJ in G3. change (i_right i :: enabled_values he q ++ [i_right j]) with ((i_right i :: enabled_values he q) ++ [i_right j]) in G3.
            apply app_inj_tail in G3. apply G3.
        - rewrite app_nil_r in G3. congruence. }
      destruct IH as (k & K1 & K2 & K3).
      + unfold size_ok in *. destruct n as [m|], (a_size c); try exact HS. destruct HS as (A & B & C). apply Forall_app in C. tauto.
      + destruct HR as [HR|HR]; [left; exact HR|right]. apply Forall_app in HR. apply HR.
      + split; [exact G1|]. split; [exact G2|exact GQ].
      + lia.
      + intros l r E. apply (HM' l (r ++ [j])). rewrite E, app_assoc. reflexivity.
      + set (g := i_right i :: enabled_values he q) in *.
        rewrite idx_snoc. rewrite (HM' ((p ++ i :: q) ++ [j]) []) by (rewrite app_nil_r; reflexivity). rewrite (HM' (p ++ i :: q) [j]) by reflexivity.
        rewrite G3, EV. change (i_right i :: enabled_values he q ++ ?x) with (g ++ x). rewrite GQ, fold_left_app.
        destruct (enabled he j) eqn:EJ.
        * cbn [fold_left]. rewrite K3 in *. set (M := nth k g 0) in *. unfold pick.
          destruct (Z.ltb_spec (s * M) (s * i_right j)) as [LT|GE].
          -- destruct (Z.eqb_spec (i_right j) M) as [X|_]; [rewrite X in LT; lia|].
             exists (length g). rewrite (cnt_place c n SW); [|exact HS|exact HR|exact EJ|].
             ++ rewrite G3, EV. change (i_right i :: enabled_values he q ++ ?x) with (g ++ x). rewrite app_length. cbn [length]. split; [f_equal; lia|].
                rewrite app_nth2, Nat.sub_diag by lia. cbn [nth]. split; [|reflexivity]. destruct K2 as (K4 & K5 & K6). unfold first_best. rewrite app_length. cbn [length].
                split; [lia|]. rewrite (app_nth2 g _ 0 (Nat.le_refl (length g))), Nat.sub_diag. cbn [nth]. split; intros t Ht.
                ** destruct (Nat.eq_dec t (length g)) as [->|Nt]; [rewrite app_nth2, Nat.sub_diag by lia; cbn [nth]; lia|]. rewrite app_nth1 by lia. specialize (K5 t ltac:(lia)). fold M in K5. lia.
                ** rewrite app_nth1 by lia. specialize (K5 t ltac:(lia)). fold M in K5. lia.
             ++ rewrite G3. cbn [length]. unfold enabled_values. rewrite map_length. pose proof (filter_len (enabled he) (q ++ [j])) as FL. rewrite app_length in FL. cbn [length] in FL. lia.
          -- rewrite Z.eqb_refl. exists k. destruct K2 as (K4 & K5 & K6). split; [exact K1|]. unfold first_best. rewrite app_length. cbn [length]. rewrite (app_nth1 g _ 0 K4). fold M. split; [|reflexivity].
             split; [lia|]. split; intros t Ht.
             ++ destruct (Nat.eq_dec t (length g)) as [->|Nt]; [rewrite app_nth2, Nat.sub_diag by lia; cbn [nth]; lia|]. rewrite app_nth1 by lia. apply K5. lia.
             ++ rewrite app_nth1 by lia. apply K6. lia.
        * cbn [fold_left]. rewrite Z.eqb_refl, !app_nil_r. exists k. auto.
  Qed.
End Best.

Lemma in_join n he hr l : forall cur x, In x (fold_left (join n he hr) l cur) -> In x cur \/ In x (map i_right l).
Proof.
  induction l as [|i l IH]; intros cur x H; [left; exact H|]. cbn [fold_left map] in *. destruct (IH _ _ H) as [G|G]; [|right; right; exact G].
  unfold join in G. destruct (enabled he i); [|left; exact G]. destruct (restart hr i || full n cur); cbn [In] in *; [tauto|]. apply in_app_or in G. cbn [In] in *. tauto.
Qed.
Lemma group_fits n he hr w sg l : Forall (fun i => value w sg (i_right i) = i_right i) l -> Forall (fun x => value w sg x = x) (group n he hr l).
Proof.
  intros F. apply Forall_forall. intros x H. apply in_join in H. destruct H as [H|H]; [destruct H|]. apply in_map_iff in H. destruct H as (i & <- & H). rewrite Forall_forall in F. apply F, H.
Qed.
Lemma Forall_firstn {A} (P : A -> Prop) k l : Forall P l -> Forall P (firstn k l).
Proof. intros F. rewrite <- (firstn_skipn k l) in F. apply Forall_app in F. apply F. Qed.
Lemma size_firstn n c k l : size_ok n c l -> size_ok n c (firstn k l).
Proof. unfold size_ok. destruct n, (a_size c); intros H; try exact H. destruct H as (A & B & C). split; [exact A|]. split; [exact B|]. apply Forall_firstn, C. Qed.
Lemma reset_firstn he hr k l : reset_ok he hr l -> reset_ok he hr (firstn k l).
Proof. intros [H|H]; [left; exact H|right; apply Forall_firstn, H]. Qed.
Lemma max_pick g : forall v, fold_left Z.max g v = fold_left (pick 1) g v.
Proof. intros v. apply fold_ext. intros a b. unfold pick. destruct (Z.ltb_spec (1 * a) (1 * b)); lia. Qed.
Lemma min_pick g : forall v, fold_left Z.min g v = fold_left (pick (-1)) g v.
Proof. intros v. apply fold_ext. intros a b. unfold pick. destruct (Z.ltb_spec (-1 * a) (-1 * b)); lia. Qed.

(** * Scratchpad *)
Definition wr (aw : Z) (m : Z -> Z) (o : option elem) : Z -> Z :=
  match o with Some e => if e_wen e then upd m (uns aw (e_waddr e)) (e_wdata e) else m | None => m end.
Lemma wr_word aw os : forall m a, fold_left (wr aw) os m a = word_after aw m os a.
Proof.
  unfold word_after. induction os as [|o os IH] using rev_ind; intros m a; [reflexivity|]. rewrite !fold_left_app. cbn [fold_left]. rewrite <- IH.
  unfold wr at 1. destruct o as [e|]; [|reflexivity]. unfold hits. destruct (e_wen e); cbn [andb]; [|reflexivity]. unfold upd. rewrite (Z.eqb_sym a). destruct (uns aw (e_waddr e) =? a); reflexivity.
Qed.
Lemma lastn_snoc {A} d (l : list A) x : length l = d -> length (tl (l ++ [x])) = d.
Proof. intros E. destruct l as [|y l]; cbn [app tl] in *; [exact E|]. rewrite app_length. cbn [length] in *. lia. Qed.
Lemma pad_inv aw m0 d is : (1 <= d)%nat -> let s := pad_run aw m0 d is in
  q_mem s = fold_left (wr aw) (active is) m0 /\ q_line s = skipn (length (active is)) (repeat None d ++ active is).
Proof.
  intros D. induction is as [|i is IH] using rev_ind; [split; [reflexivity|cbn; rewrite app_nil_r; reflexivity]|]. cbv zeta in *. destruct IH as (A & B).
  unfold pad_run in *. rewrite fold_left_app. cbn [fold_left]. set (s := fold_left (pad_step aw) is (pad_init m0 d)) in *. clearbody s.
  unfold active in *. rewrite filter_app, map_app. cbn [filter]. set (l := map snd (filter fst is)) in *. clearbody l.
  unfold pad_step. destruct (fst i); cbn [map]; [|rewrite app_nil_r; auto]. cbn [q_mem q_line]. rewrite fold_left_app. cbn [fold_left]. rewrite <- A. split; [reflexivity|].
  rewrite B, app_length. cbn [length]. rewrite app_assoc, (skipn_app _ (repeat None d ++ l)).
  assert (L : length (repeat (@None elem) d ++ l) = (d + length l)%nat) by (rewrite app_length, repeat_length; reflexivity).
  rewrite L. replace (length l + 1 - (d + length l))%nat with 0%nat by lia. cbn [skipn].
  assert (K : (length l < length (repeat (@None elem) d ++ l))%nat) by lia. clear L. revert K. generalize (length l) as k. generalize (repeat None d ++ l) as r. clear. intros r k. rewrite Nat.add_1_r.
  revert r. induction k as [|k IH]; intros [|x r] K; cbn [length] in K; try lia; [reflexivity|]. cbn [skipn]. apply (IH r). lia.
Qed.
Lemma skip_mid {A} (z a m : list A) x : length m = (length z - 1)%nat -> (1 <= length z)%nat -> skipn (length (a ++ x :: m)) (z ++ a ++ x :: m) = x :: m.
Proof.
  intros L1 L2. rewrite app_assoc. rewrite (skipn_app _ (z ++ a)). rewrite (skipn_all2 (z ++ a)) by (rewrite !app_length; cbn [length]; lia). cbn [app].
  rewrite !app_length. cbn [length]. replace (length a + S (length m) - (length z + length a))%nat with 0%nat by lia. reflexivity.
Qed.
Lemma pad_read aw m0 d is o pre e mid : active is = pre ++ Some e :: mid -> length mid = (d - 1)%nat -> (1 <= d)%nat -> e_ren e = true ->
  Forall (fun x => hits aw (uns aw (e_raddr e)) x = false) mid ->
  q_rdata (pad_run aw m0 d (is ++ [(true, o)])) = word_after aw m0 (pre ++ [Some e]) (uns aw (e_raddr e)).
Proof.
  intros HA HL HD HE HM. pose proof (pad_inv aw m0 d is HD) as (A & B). unfold pad_run in *. rewrite fold_left_app. cbn [fold_left].
  set (s := fold_left (pad_step aw) is (pad_init m0 d)) in *. clearbody s. rewrite HA in *. rewrite skip_mid in B by (rewrite repeat_length; lia).
  unfold pad_step. cbn [fst]. cbn [q_rdata]. rewrite B, HE, A, wr_word. unfold word_after.
  change (Some e :: mid) with ([Some e] ++ mid). rewrite app_assoc, (fold_left_app _ (pre ++ [Some e])). generalize (fold_left (fun v o => match o with Some e0 => if hits aw (uns aw (e_raddr e)) o then e_wdata e0 else v | None => v end) (pre ++ [Some e]) (m0 (uns aw (e_raddr e)))).
  clear - HM. intros v. induction HM as [|x r Hx Hr IH]; [reflexivity|]. cbn [fold_left]. rewrite Hx. destruct x; exact IH.
Qed.

(** * CustomCounter *)
Lemma cc_step_ok c vs i u : k_reset c = true -> j_senable i = true -> j_args i = encode c u -> length (u_init u) = num_vars c -> length (u_args u) = num_vars c ->
  cc_step c vs i = custom_next c vs u.
Proof.
  intros R E A L1 L2. unfold cc_step, custom_next. rewrite E, A, R. unfold encode. rewrite R, !app_assoc, last_app1, <- !app_assoc, <- L1.
  rewrite firstn_app, Nat.sub_diag, firstn_all, skipn_app, Nat.sub_diag, skipn_all. cbn [firstn skipn app]. rewrite app_nil_r. rewrite L1, <- L2, firstn_app, Nat.sub_diag, firstn_all. cbn [firstn]. rewrite app_nil_r.
  destruct (u_reset u); reflexivity.
Qed.
Lemma cc_fold c is : k_reset c = true -> Forall (fun i => j_senable i = true -> j_svalid i = true) is -> forall us vs,
  map j_args (filter (fun i => j_senable i && j_svalid i) is) = map (encode c) us ->
  Forall (fun u => length (u_init u) = num_vars c /\ length (u_args u) = num_vars c) us ->
  fold_left (cc_step c) is vs = fold_left (custom_next c) us vs.
Proof.
  intros R V. induction V as [|i is Hi V IH]; intros us vs E F.
  - destruct us; [reflexivity|discriminate E].
  - cbn [filter] in E. cbn [fold_left]. destruct (j_senable i) eqn:Ei.
    + rewrite (Hi eq_refl) in E. cbn [andb map] in E. destruct us as [|u us]; [discriminate E|]. cbn [map] in E. injection E as E1 E2. inversion F as [|u' us' F1 F2]; subst. cbn [fold_left].
      rewrite (cc_step_ok c vs i u R Ei E1); [|apply F1|apply F1]. apply IH; assumption.
    + cbn [andb] in E. unfold cc_step at 2. rewrite Ei. apply IH; assumption.
Qed.

(** * CounterValid *)
Lemma place_mod n he hr l i : (1 <= n)%nat -> reset_ok he hr (l ++ [i]) -> enabled he i = true ->
  (position he hr l i mod n = length (group (Some n) he hr (l ++ [i])) - 1 /\ 1 <= length (group (Some n) he hr (l ++ [i])) <= n)%nat.
Proof.
  intros N R E.
  assert (Rl : reset_ok he hr l) by (destruct R as [R|R]; [left; exact R|right]; apply Forall_app in R; apply R).
  pose proof (len_run (Some n) he hr l N Rl) as (L1 & L2).
  assert (G : group (Some n) he hr (l ++ [i]) = join (Some n) he hr (group (Some n) he hr l) i) by (unfold group; rewrite fold_left_app; reflexivity).
  rewrite G. unfold join, position. rewrite E. unfold full. destruct (restart hr i); cbn [orb length]; [rewrite Nat.mod_0_l; lia|].
  rewrite L1. destruct (Nat.eqb_spec (length (group (Some n) he hr l)) n) as [F|F]; cbn [length].
  - rewrite F. rewrite Nat.mod_same; lia.
  - rewrite app_length. cbn [length]. rewrite Nat.mod_small; lia.
Qed.
Lemma counter_valid_ok c sw n l i : c_width c = 32 -> 32 <= c_ctx c -> c_size c = true -> c_offset c = false -> c_interval c = false -> c_reg_initval c = 0 ->
  0 <= sw <= 32 -> 1 <= Z.of_nat n < 2 ^ sw -> reset_ok (c_enable c) (c_reset c) (l ++ [i]) -> enabled (c_enable c) i = true ->
  Forall (fun i => i_right i = 1 /\ i_size i = Z.of_nat n /\ i_initval i = 0) (l ++ [i]) ->
  s_data (acc_run (snd (counter_valid c sw)) (l ++ [i])) = b2z (t_data (cnt_run c (l ++ [i])) =? Z.of_nat n - 1).
Proof.
  intros W X HS HO HI HV SW N R E F. unfold counter_valid. cbn [snd].
  assert (B : 2 ^ sw <= 2 ^ 32) by (apply Z.pow_le_mono_r; lia).
  rewrite (C31_modulo c 1 (Z.of_nat n)); try assumption; try (rewrite ?W; lia); [|eapply Forall_impl; [|exact F]; intros j (J1 & J2 & J3); rewrite HV; auto].
  destruct (place_mod n (c_enable c) (c_reset c) l i ltac:(lia) R E) as (P1 & P2).
  rewrite (pulse_ok (pulse_cfg sw false (c_enable c) (c_reset c)) n); try reflexivity; [| |eapply Forall_impl; [|exact F]; intros j J; apply J|exact R].
  - cbn [pulse_cfg a_enable a_reset]. rewrite HV, Z.add_0_l, Z.mul_1_r, <- Nat2Z.inj_mod, P1. f_equal. lia.
  - cbn. split; [lia|]. split; [lia|]. eapply Forall_impl; [|exact F]. intros j J. apply J.
Qed.
