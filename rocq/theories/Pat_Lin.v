From Coq Require Import Permutation.
From Verif Require Import Base Pat_Model Pat_Spec Pat_Proofs Pat_Multi Pat_Sink.
Open Scope Z_scope.

(** ** Multi-dimensional arrays *)
Lemma fold_mul l z : fold_left Z.mul l z = z * volume l.
Proof. revert z. induction l; intros z; cbn [fold_left volume]; [lia|]. rewrite IHl. lia. Qed.
Definition dim (shape : list Z) (p : Z) : Z * Z := (nth (Z.to_nat p) shape 0, volume (skipn (Z.to_nat (p + 1)) shape)).
Lemma to_pattern_dims shape order : Forall (fun p => 0 <= p < Z.of_nat (length shape)) order ->
  to_pattern shape order = Some (map (dim shape) order).
Proof.
  induction 1 as [|p order Hp F IH]; [reflexivity|]. cbn [to_pattern map]. rewrite IH.
  unfold py_nth, py_from. destruct (Z.ltb_spec p 0); [lia|]. destruct (Z.ltb_spec (p + 1) 0); [lia|].
  destruct (Z.leb_spec 0 p); [|lia]. destruct (Z.ltb_spec p (Z.of_nat (length shape))); [|lia]. cbn [andb].
  rewrite (nth_error_nth' shape 0) by lia. rewrite fold_mul. unfold dim. repeat f_equal. lia.
Qed.
Fixpoint fwd (shape : list Z) : pattern := match shape with [] => [] | n :: r => (n, volume r) :: fwd r end.
Lemma fwd_dims shape : map (dim shape) (upto (Z.of_nat (length shape))) = fwd shape.
Proof.
  unfold upto. rewrite Nat2Z.id, map_map.
  assert (G : forall pre shape, map (fun x => dim (pre ++ shape) (Z.of_nat x)) (seq (length pre) (length shape)) = fwd shape).
  { clear. intros pre shape. revert pre. induction shape as [|n r IH]; intros pre; [reflexivity|]. cbn [length List.seq map fwd]. f_equal.
    - unfold dim. f_equal.
      + rewrite Nat2Z.id, app_nth2, Nat.sub_diag by lia. reflexivity.
      + replace (Z.to_nat (Z.of_nat (length pre) + 1)) with (S (length pre)) by lia.
        rewrite skipn_app. rewrite skipn_all2 by lia. replace (S (length pre) - length pre)%nat with 1%nat by lia. reflexivity.
    - specialize (IH (pre ++ [n])). rewrite app_length in IH. cbn [length] in IH. rewrite Nat.add_1_r in IH. rewrite <- IH.
      rewrite <- app_assoc. reflexivity. }
  apply (G []).
Qed.
Lemma default_pattern shape : to_pattern shape (default_order shape) = Some (rev (fwd shape)).
Proof.
  rewrite to_pattern_dims.
  - unfold default_order. rewrite map_rev, <- fwd_dims. unfold upto. rewrite Nat2Z.id. reflexivity.
  - unfold default_order. apply Forall_rev. apply Forall_forall. intros p Hp. apply in_map_iff in Hp. destruct Hp as (k & <- & Hk).
    apply in_seq in Hk. lia.
Qed.

Lemma vis_snoc sz st n d : length sz = length st ->
  vis (sz ++ [n]) (st ++ [d]) = flat_map (fun i => map (fun o => o + i * d) (vis sz st)) (upto n).
Proof.
  revert st. induction sz as [|s sz IH]; intros [|e st] L; try discriminate L.
  - cbn [app vis flat_map]. rewrite app_nil_r. induction (upto n) as [|a l IH]; [reflexivity|]. cbn. f_equal; [lia|]. exact IH.
  - cbn [app vis]. rewrite IH by (cbn in L; lia).
    clear IH. induction (upto n) as [|i l IH]; [reflexivity|]. cbn [flat_map]. rewrite flat_map_app, IH. f_equal.
    rewrite flat_map_map, map_flat_map. apply flat_map_ext. intros o. rewrite map_map. apply map_ext. intros; lia.
Qed.
Lemma visits_snoc p n d : visits (p ++ [(n, d)]) = flat_map (fun i => map (fun o => o + i * d) (visits p)) (upto n).
Proof. rewrite !visits_vis, !map_app. cbn [map fst snd]. apply vis_snoc. rewrite !map_length. reflexivity. Qed.
Lemma upto_snoc n : 0 <= n -> upto (n + 1) = upto n ++ [n].
Proof.
  intros H. unfold upto. replace (Z.to_nat (n + 1)) with (S (Z.to_nat n)) by lia. rewrite seq_S, map_app. cbn. rewrite Z2Nat.id by lia. reflexivity.
Qed.
Lemma upto_0 : upto 0 = [].
Proof. reflexivity. Qed.
Lemma upto_mul n m : 0 <= n -> 0 <= m -> flat_map (fun i => map (fun o => o + i * m) (upto m)) (upto n) = upto (n * m).
Proof.
  intros Hn Hm. rewrite <- (Z2Nat.id n Hn). induction (Z.to_nat n) as [|k IH]; [reflexivity|].
  rewrite Nat2Z.inj_succ. replace (Z.succ (Z.of_nat k)) with (Z.of_nat k + 1) by lia. rewrite upto_snoc by lia.
  rewrite flat_map_app, IH. cbn [flat_map]. rewrite app_nil_r. clear IH.
  replace ((Z.of_nat k + 1) * m) with (Z.of_nat k * m + m) by lia.
  assert (Hk : 0 <= Z.of_nat k * m) by lia. generalize dependent (Z.of_nat k * m). intros b Hb.
  rewrite <- (Z2Nat.id m Hm). induction (Z.to_nat m) as [|j IH]; [rewrite Z.add_0_r, app_nil_r; reflexivity|].
  rewrite Nat2Z.inj_succ. replace (Z.succ (Z.of_nat j)) with (Z.of_nat j + 1) by lia. rewrite upto_snoc by lia.
  rewrite map_app, app_assoc, IH. rewrite Z.add_assoc, upto_snoc by lia. cbn. f_equal. f_equal. lia.
Qed.
Lemma volume_nonneg shape : Forall (fun n => 0 <= n) shape -> 0 <= volume shape.
Proof. induction 1; cbn [volume]; lia. Qed.
Lemma default_visits shape : Forall (fun n => 0 <= n) shape -> visits (rev (fwd shape)) = upto (volume shape).
Proof.
  induction 1 as [|n r Hn F IH]; [reflexivity|]. cbn [fwd rev]. rewrite visits_snoc, IH. cbn [volume].
  apply upto_mul; [exact Hn|apply volume_nonneg; exact F].
Qed.

(** permuted loops *)
Lemma perm_cons_flat {A B} (g : A -> B) (h : A -> list B) l : Permutation (flat_map (fun b => g b :: h b) l) (map g l ++ flat_map h l).
Proof.
  induction l as [|b l IH]; [constructor|]. cbn [flat_map map app]. constructor.
  rewrite IH. rewrite !app_assoc. apply Permutation_app_tail. apply Permutation_app_comm.
Qed.
Lemma perm_exchange {A B C} (f : A -> B -> C) la lb :
  Permutation (flat_map (fun a => map (f a) lb) la) (flat_map (fun b => map (fun a => f a b) la) lb).
Proof.
  induction la as [|a la IH]; cbn [flat_map map].
  - induction lb; [constructor|exact IHlb].
  - rewrite perm_cons_flat. apply Permutation_app_head. exact IH.
Qed.
Lemma perm_flat_ext {A B} (f g : A -> list B) l : (forall a, Permutation (f a) (g a)) -> Permutation (flat_map f l) (flat_map g l).
Proof. intros H. induction l; cbn; [constructor|]. apply Permutation_app; auto. Qed.
Lemma flat_map_flat_map {A B C} (f : B -> list C) (g : A -> list B) l : flat_map f (flat_map g l) = flat_map (fun a => flat_map f (g a)) l.
Proof. induction l; cbn; [reflexivity|]. rewrite flat_map_app, IHl. reflexivity. Qed.
Lemma visits_cons s d p : visits ((s, d) :: p) = flat_map (fun o => map (fun i => i * d + o) (upto s)) (visits p).
Proof. rewrite !visits_vis. reflexivity. Qed.
Lemma visits_perm p q : Permutation p q -> Permutation (visits p) (visits q).
Proof.
  induction 1 as [|[s d] p q H IH|[s1 d1] [s2 d2] p|p q r H1 IH1 H2 IH2].
  - apply Permutation_refl.
  - rewrite !visits_cons. apply Permutation_flat_map. exact IH.
  - rewrite !visits_cons, !flat_map_flat_map. apply perm_flat_ext. intros o.
    rewrite !flat_map_map.
    rewrite (perm_exchange (fun j i => i * d2 + (j * d1 + o)) (upto s1) (upto s2)).
    erewrite flat_map_ext; [apply Permutation_refl|].
    intros j. cbn beta. apply map_ext. intros; lia.
  - rewrite IH1. exact IH2.
Qed.

(** the element reached by each tuple *)
Lemma row_major_ext shape l l' : (forall k, nth k l 0 = nth k l' 0) -> length l = length l' -> row_major shape l = row_major shape l'.
Proof.
  revert l l'. induction shape as [|n r IH]; intros l l' H L; [reflexivity|].
  destruct l as [|a l], l' as [|a' l']; try discriminate L; [reflexivity|]. cbn [row_major].
  pose proof (H 0%nat) as H0. cbn in H0. subst a'. f_equal. apply IH; [intros k; apply (H (S k))|cbn in L; lia].
Qed.
Lemma row_major_change shape (g g' : Z -> Z) k0 p :
  (k0 <= p < k0 + length shape)%nat -> g' (Z.of_nat p) = 0 -> (forall j, j <> Z.of_nat p -> g j = g' j) ->
  row_major shape (map g (map Z.of_nat (seq k0 (length shape)))) =
  g (Z.of_nat p) * volume (skipn (S (p - k0)) shape) + row_major shape (map g' (map Z.of_nat (seq k0 (length shape)))).
Proof.
  revert k0. induction shape as [|n r IH]; intros k0 Hp H0 He; [cbn in Hp; lia|]. cbn [length List.seq map row_major].
  destruct (Nat.eq_dec k0 p) as [->|Ne].
  - rewrite Nat.sub_diag, H0. cbn [skipn]. 
    rewrite (map_ext_in g g') with (l := map Z.of_nat (seq (S p) (length r))); [lia|].
    intros j Hj. apply He. apply in_map_iff in Hj. destruct Hj as (k & <- & Hk). apply in_seq in Hk. lia.
  - rewrite (IH (S k0)) by (auto; cbn in Hp; lia). rewrite (He (Z.of_nat k0)) by lia.
    replace (S (p - k0)) with (S (S (p - S k0))) by lia. cbn [skipn]. destruct (skipn (p - S k0) r); lia.
Qed.
Lemma coord_notin order t j : ~ In j order -> coord order t j = 0.
Proof.
  revert t. induction order as [|p order IH]; intros [|i t] H; try reflexivity. cbn.
  destruct (Z.eqb_spec p j); [exfalso; apply H; left; assumption|]. apply IH. intros K. apply H. right. exact K.
Qed.
Lemma row_major_zero shape k0 : row_major shape (map (fun _ => 0) (map Z.of_nat (seq k0 (length shape)))) = 0.
Proof. revert k0. induction shape as [|n r IH]; intros k0; [reflexivity|]. cbn [length List.seq map row_major]. rewrite IH. lia. Qed.
Lemma dot_element shape order t : NoDup order -> Forall (fun p => 0 <= p < Z.of_nat (length shape)) order -> length t = length order ->
  dot t (map snd (map (dim shape) order)) = row_major shape (element shape order t).
Proof.
  intros N. revert t. induction N as [|p order Hn N IH]; intros [|i t] F L; try discriminate L.
  - unfold element, upto. cbn [map dot]. rewrite Nat2Z.id. symmetry. apply row_major_zero.
  - inversion F as [|? ? Hp F']; subst. cbn [map snd dim dot]. rewrite IH by (auto; cbn in L; lia). unfold element, upto. rewrite Nat2Z.id.
    symmetry. rewrite (row_major_change shape _ (coord order t) 0 (Z.to_nat p)).
    + rewrite Z2Nat.id by lia. cbn [coord]. rewrite Z.eqb_refl. f_equal. f_equal. f_equal. f_equal. lia.
    + lia.
    + rewrite Z2Nat.id by lia. apply coord_notin. exact Hn.
    + rewrite Z2Nat.id by lia. intros j Hj. cbn [coord]. destruct (Z.eqb_spec p j); [congruence|reflexivity].
Qed.
Lemma tuples_len sizes t : In t (tuples sizes) -> length t = length sizes.
Proof.
  revert t. induction sizes as [|s r IH]; intros t H; cbn in H.
  - destruct H as [<-|[]]; reflexivity.
  - apply in_flat_map in H. destruct H as (t' & Ht & H). apply in_map_iff in H. destruct H as (i & <- & _). cbn. rewrite IH by exact Ht. reflexivity.
Qed.
Lemma tuples_in sizes t : In t (tuples sizes) <-> Forall2 (fun i s => 0 <= i < s) t sizes.
Proof.
  revert t. induction sizes as [|s r IH]; intros t; cbn [tuples].
  - split; intros H; [destruct H as [<-|[]]; constructor|inversion H; left; reflexivity].
  - rewrite in_flat_map. split.
    + intros (t' & Ht & H). apply in_map_iff in H. destruct H as (i & <- & Hi). unfold upto in Hi. apply in_map_iff in Hi.
      destruct Hi as (k & <- & Hk). apply in_seq in Hk. constructor; [lia|]. apply IH. exact Ht.
    + intros H. inversion H as [|i s' t' r' Hi H']; subst. exists t'. split; [apply IH; exact H'|].
      apply in_map_iff. exists i. split; [reflexivity|]. unfold upto. apply in_map_iff. exists (Z.to_nat i). split; [lia|]. apply in_seq. lia.
Qed.
Lemma NoDup_upto s : NoDup (upto s).
Proof. unfold upto. apply FinFun.Injective_map_NoDup; [intros a b; lia|apply seq_NoDup]. Qed.
Lemma tuples_nodup sizes : NoDup (tuples sizes).
Proof.
  induction sizes as [|s r IH]; cbn; [constructor; [auto|constructor]|].
  induction IH as [|t l Hn N IH]; cbn; [constructor|].
  assert (G : forall l1 l2 : list (list Z), NoDup l1 -> NoDup l2 -> (forall x, In x l1 -> ~ In x l2) -> NoDup (l1 ++ l2)).
  { clear. intros l1 l2 H1 H2 H. induction H1; cbn; [exact H2|]. constructor.
    - rewrite in_app_iff. intros [K|K]; [contradiction|]. apply (H x); [left; reflexivity|exact K].
    - apply IHNoDup. intros y Hy. apply H. right. exact Hy. }
  apply G; [|exact IH|].
  - apply FinFun.Injective_map_NoDup; [intros a b E; congruence|apply NoDup_upto].
  - intros x Hx K. apply in_map_iff in Hx. destruct Hx as (i & <- & _). apply in_flat_map in K. destruct K as (t' & Ht & K).
    apply in_map_iff in K. destruct K as (j & E & _). injection E as _ ->. contradiction.
Qed.

(** ** One size and stride *)
Lemma lin_addresses aw o s d : addresses aw o [(s, d)] = map (fun i => (o + i * d) mod 2 ^ aw) (upto s).
Proof. unfold addresses. rewrite visits_cons. change (visits []) with [0]. cbn [flat_map]. rewrite app_nil_r, map_map. apply map_ext. intros. f_equal. lia. Qed.
Lemma skipn_step {A} (l : list A) k a : nth_error l k = Some a -> skipn k l = a :: skipn (S k) l.
Proof. revert l. induction k; intros [|b l] E; try discriminate; cbn in *; [congruence|]. apply IHk. exact E. Qed.
Lemma lin_nth aw o s d k : (Z.of_nat k < s) -> nth_error (addresses aw o [(s, d)]) k = Some ((o + Z.of_nat k * d) mod 2 ^ aw).
Proof.
  intros H. rewrite lin_addresses. unfold upto. rewrite !nth_error_map.
  rewrite (nth_error_nth' _ 0%nat) by (rewrite seq_length; lia). rewrite seq_nth by lia. reflexivity.
Qed.
Lemma lin_length aw o s d : length (addresses aw o [(s, d)]) = Z.to_nat s.
Proof. rewrite lin_addresses. unfold upto. rewrite !map_length, seq_length. reflexivity. Qed.

Definition l_go (i : lin) : Prop := l_start i = false /\ l_stop i = false /\ l_ordy i = true.
Lemma lsrc_filter aw x ins : trace (lsrc_step aw) lsrc_read x ins = trace (lsrc_step aw) lsrc_read x (filter l_ordy ins) /\
  final (lsrc_step aw) x ins = final (lsrc_step aw) x (filter l_ordy ins).
Proof.
  apply (trace_filter (lsrc_step aw) lsrc_read l_ordy (fun _ => True)).
  - intros y i _ E. unfold lsrc_step. rewrite E. reflexivity.
  - intros y i E. unfold lsrc_read. rewrite E. reflexivity.
  - apply Forall_forall. auto.
Qed.
Lemma lsrc_wait aw ins x : l_st x = 0%nat -> l_en x = false -> Forall l_go ins ->
  trace (lsrc_step aw) lsrc_read x ins = [] /\
  let y := final (lsrc_step aw) x ins in l_st y = 0%nat /\ l_en y = false /\ l_idle y = l_idle x.
Proof.
  intros H1 H2 F. revert x H1 H2. induction F as [|i ins (Es & Et & Er) F IH]; intros x H1 H2; [auto|].
  assert (K : let y := lsrc_step aw x i in l_st y = 0%nat /\ l_en y = false /\ l_idle y = l_idle x)
    by (unfold lsrc_step; rewrite Er, Es, H1; cbn; auto).
  destruct K as (K1 & K2 & K3). rewrite trace_cons.
  destruct (IH _ K1 K2) as (-> & L). unfold lsrc_read. rewrite H2, andb_false_r. split; [reflexivity|].
  cbn. cbn in L. rewrite <- K3. exact L.
Qed.
Lemma lsrc_busy aw o s d k ins x : 0 <= aw -> 1 <= s < 2 ^ (aw + 1) ->
  l_st x = 2%nat -> l_en x = true -> l_idle x = false -> l_addr x = (o + Z.of_nat k * d) mod 2 ^ aw -> l_stride x = d mod 2 ^ aw ->
  l_cnt x = s - Z.of_nat k -> Z.of_nat k < s -> Forall l_go ins ->
  let A := addresses aw o [(s, d)] in
  let y := final (lsrc_step aw) x ins in
  trace (lsrc_step aw) lsrc_read x ins = firstn (length ins) (skipn k A) /\
  (Z.of_nat (k + length ins) < s -> l_en y = true /\ l_idle y = false) /\
  (s <= Z.of_nat (k + length ins) -> l_st y = 0%nat /\ l_en y = false /\ l_idle y = true).
Proof.
  intros Haw Hs H1 H2 H3 H4 H5 H6 Hk F A. revert k x H1 H2 H3 H4 H5 H6 Hk. induction F as [|i ins G F IH]; intros k x H1 H2 H3 H4 H5 H6 Hk.
  { cbn. split; [reflexivity|]. split; intros; [auto|lia]. }
  cbn zeta. rewrite trace_cons.
  assert (Eo : lsrc_read x i = [l_addr x]) by (unfold lsrc_read; destruct G as (_ & _ & ->); rewrite H2; reflexivity).
  rewrite Eo. rewrite (skipn_step A _ _ (lin_nth aw o s d k Hk)). cbn [length firstn app final fold_left].
  change (fold_left (lsrc_step aw) ins) with (fun z => final (lsrc_step aw) z ins). cbv beta. rewrite H4.
  destruct G as (Es & Et & Er).
  assert (Ey : lsrc_step aw x i = mkL (if l_cnt x =? 1 then 0%nat else 2%nat) (l_off x) (l_size x) (l_stride x) ((l_cnt x - 1) mod 2 ^ (aw + 1))
     ((l_addr x + l_stride x) mod 2 ^ aw) (negb (l_cnt x =? 1)) (if l_cnt x =? 1 then true else l_idle x))
    by (unfold lsrc_step; rewrite Er, Es, Et, H1; cbn; rewrite orb_false_r; reflexivity).
  destruct (Z.eqb_spec (l_cnt x) 1) as [E1|E1].
  - destruct (lsrc_wait aw ins (lsrc_step aw x i)) as (T & U); [rewrite Ey; reflexivity|rewrite Ey; reflexivity|exact F|].
    rewrite T. clear U.
    assert (Ei : l_idle (lsrc_step aw x i) = true) by (rewrite Ey; reflexivity).
    rewrite (skipn_all2 A) by (unfold A; rewrite lin_length; lia). rewrite firstn_nil. split; [reflexivity|].
    destruct (lsrc_wait aw ins (lsrc_step aw x i)) as (_ & U1 & U2 & U3); [rewrite Ey; reflexivity|rewrite Ey; reflexivity|exact F|].
    rewrite Ei in U3. split; intros; [lia|auto].
  - destruct (IH (S k) (lsrc_step aw x i)) as (T & U & V); rewrite ?Ey; cbn [l_st l_en l_idle l_addr l_stride l_cnt negb]; auto.
    + rewrite H4, H5, <- Zplus_mod. f_equal. lia.
    + rewrite Z.mod_small by lia. lia.
    + lia.
    + rewrite Ey in T, U, V. cbn [negb] in T, U, V. rewrite T. split; [reflexivity|]. split; intros HL; [apply U|apply V]; clear - HL; lia.
Qed.
Theorem source_linear aw o s d x i0 ins : 0 <= aw -> 1 <= s < 2 ^ (aw + 1) ->
  l_st x = 0%nat -> l_ordy i0 = true -> l_start i0 = true ->
  l_soff i0 = o mod 2 ^ aw -> l_ssize i0 = s mod 2 ^ (aw + 1) -> l_sstride i0 = d mod 2 ^ aw -> Forall l_quiet ins ->
  let A := addresses aw o [(s, d)] in
  let y := lsrc_step aw x i0 in
  let z := final (lsrc_step aw) y ins in
  trace (lsrc_step aw) lsrc_read y ins = firstn (n_lready ins - 1) A /\
  ((1 <= n_lready ins <= length A)%nat -> l_en z = true /\ l_idle z = false) /\
  ((length A < n_lready ins)%nat -> l_st z = 0%nat /\ l_en z = false /\ l_idle z = true).
Proof.
  intros Haw Hs E0 Er Es Eo Ez Ed Q A y z.
  assert (Ey : y = mkL 1 (l_soff i0) (l_ssize i0) (l_sstride i0) (l_cnt x) (l_addr x) false (l_idle x))
    by (unfold y, lsrc_step; rewrite Er, Es, E0; reflexivity).
  destruct (lsrc_filter aw y ins) as [F1 F2]. unfold z. rewrite F1, F2. unfold n_lready.
  assert (G : Forall l_go (filter l_ordy ins)).
  { clear - Q. induction Q as [|i ins (H1 & H2) F IH]; cbn; [constructor|]. destruct (l_ordy i) eqn:E; [|exact IH].
    constructor; [unfold l_go; auto|exact IH]. }
  destruct G as [|i l (Gs & Gt & Gr) F].
  { split; [reflexivity|]. unfold A. rewrite lin_length. cbn [length]. split; intros; lia. }
  rewrite trace_cons. assert (Er0 : lsrc_read y i = []) by (unfold lsrc_read; rewrite Ey, andb_false_r; reflexivity).
  rewrite Er0. cbn [length app final fold_left]. change (fold_left (lsrc_step aw) l) with (fun z => final (lsrc_step aw) z l). cbv beta.
  assert (Ew : lsrc_step aw y i = mkL 2 (l_soff i0) (l_ssize i0) (l_sstride i0) (l_ssize i0) (l_soff i0) true false)
    by (rewrite Ey; unfold lsrc_step; rewrite Gr, Gs; reflexivity).
  destruct (lsrc_busy aw o s d 0 l (lsrc_step aw y i) Haw Hs) as (T & U & V); rewrite ?Ew; cbn [l_st l_en l_idle l_addr l_stride l_cnt]; auto.
  - rewrite Eo. f_equal. lia.
  - rewrite Ez, Z.mod_small by lia. lia.
  - lia.
  - rewrite <- Ew. replace (S (length l) - 1)%nat with (length l) by lia. rewrite T. split; [reflexivity|].
    unfold A. rewrite lin_length. split; intros HL; [apply U|apply V]; clear - HL Hs; lia.
Qed.

Lemma lsnk_filter aw x ins : trace (lsnk_step aw) lsnk_write x ins = trace (lsnk_step aw) lsnk_write x (filter lk_ordy ins) /\
  final (lsnk_step aw) x ins = final (lsnk_step aw) x (filter lk_ordy ins).
Proof.
  apply (trace_filter (lsnk_step aw) lsnk_write lk_ordy (fun _ => True)).
  - intros y i _ E. unfold lsnk_step. rewrite E. reflexivity.
  - intros y i E. unfold lsnk_write. rewrite E. reflexivity.
  - apply Forall_forall. auto.
Qed.
Lemma lk_accepted_filter ins : lk_accepted (filter lk_ordy ins) = lk_accepted ins.
Proof.
  unfold lk_accepted. induction ins as [|i ins IH]; [reflexivity|]. cbn. destruct (lk_ordy i) eqn:E; cbn; [rewrite E; cbn|exact IH].
  destruct (lk_wc i); cbn; [f_equal|]; exact IH.
Qed.
Lemma lsnk_wait aw ins x : lk_st x = 0%nat -> Forall (fun i => lk_quiet i /\ lk_ordy i = true) ins ->
  let y := final (lsnk_step aw) x ins in
  trace (lsnk_step aw) lsnk_write x ins ++ lk_pend y = lk_pend x /\ lk_st y = 0%nat.
Proof.
  intros H F. revert x H. induction F as [|i ins ((Es & Et) & Er) F IH]; intros x H; [cbn; auto|].
  cbn zeta. rewrite trace_cons. assert (Eo : lsnk_write x i = lk_pend x) by (unfold lsnk_write, lk_pend; rewrite Er; reflexivity).
  rewrite Eo. cbn [final fold_left]. change (fold_left (lsnk_step aw) ins) with (fun z => final (lsnk_step aw) z ins). cbv beta.
  assert (K : lk_st (lsnk_step aw x i) = 0%nat /\ lk_en (lsnk_step aw x i) = false)
    by (unfold lsnk_step; rewrite Er, Es, H; cbn; auto).
  destruct K as [K1 K2]. destruct (IH _ K1) as (T & U).
  rewrite <- app_assoc, T. unfold lk_pend at 2. rewrite K2, app_nil_r. split; [reflexivity|exact U].
Qed.
Lemma lsnk_busy aw o s d k ins x : 0 <= aw -> 1 <= s < 2 ^ (aw + 1) ->
  lk_st x = 2%nat -> lk_addr x = (o + (Z.of_nat k - 1) * d) mod 2 ^ aw -> lk_stride x = d mod 2 ^ aw ->
  lk_cnt x = s - Z.of_nat k -> Z.of_nat k < s -> Forall (fun i => lk_quiet i /\ lk_ordy i = true) ins ->
  let A := addresses aw o [(s, d)] in
  let y := final (lsnk_step aw) x ins in
  trace (lsnk_step aw) lsnk_write x ins ++ lk_pend y = lk_pend x ++ combine (skipn k A) (lk_accepted ins) /\
  (Z.of_nat (k + length (lk_accepted ins)) < s -> lk_st y = 2%nat) /\
  (s <= Z.of_nat (k + length (lk_accepted ins)) -> lk_st y = 0%nat).
Proof.
  intros Haw Hs H1 H4 H5 H6 Hk F A. revert k x H1 H4 H5 H6 Hk. induction F as [|i ins ((Es & Et) & Er) F IH]; intros k x H1 H4 H5 H6 Hk.
  { change (lk_accepted []) with (@nil Z). cbn [final fold_left trace outs concat app length]. split.
    - generalize (skipn k A). intros [|? ?]; cbn [combine]; rewrite app_nil_r; reflexivity.
    - split; intros; [auto|lia]. }
  cbn zeta. rewrite trace_cons.
  assert (Eo : lsnk_write x i = lk_pend x) by (unfold lsnk_write, lk_pend; rewrite Er; reflexivity).
  rewrite Eo. cbn [final fold_left]. change (fold_left (lsnk_step aw) ins) with (fun z => final (lsnk_step aw) z ins). cbv beta.
  rewrite <- app_assoc. unfold lk_accepted. cbn [filter]. rewrite Er. cbn [andb].
  destruct (lk_wc i) eqn:Ew.
  - cbn [map]. fold (lk_accepted ins).
    assert (Ey : lsnk_step aw x i = mkLK (if lk_cnt x =? 1 then 0%nat else 2%nat) (lk_off x) (lk_size x) (lk_stride x) ((lk_cnt x - 1) mod 2 ^ (aw + 1))
       ((lk_addr x + lk_stride x) mod 2 ^ aw) (lk_rd i) true)
      by (unfold lsnk_step; rewrite Er, Es, Et, H1, Ew; cbn; rewrite orb_false_r; reflexivity).
    assert (Ea : (lk_addr x + lk_stride x) mod 2 ^ aw = (o + Z.of_nat k * d) mod 2 ^ aw)
      by (rewrite H4, H5, <- Zplus_mod; f_equal; clear; lia).
    assert (Ep : lk_pend (lsnk_step aw x i) = [((o + Z.of_nat k * d) mod 2 ^ aw, lk_rd i)])
      by (rewrite Ey; unfold lk_pend; cbn; rewrite Ea; reflexivity).
    rewrite (skipn_step A _ _ (lin_nth aw o s d k Hk)). cbn [combine length].
    destruct (Z.eqb_spec (lk_cnt x) 1) as [E1|E1].
    + destruct (lsnk_wait aw ins (lsnk_step aw x i)) as (T & U); [rewrite Ey; reflexivity|exact F|].
      rewrite T, Ep. rewrite (skipn_all2 A) by (unfold A; rewrite lin_length; clear - H6 E1 Hk; lia). cbn [combine]. split; [reflexivity|].
      split; intros HL; [clear - HL H6 E1 Hk; lia|exact U].
    + destruct (IH (S k) (lsnk_step aw x i)) as (T & U & V); rewrite ?Ey; cbn [lk_st lk_en lk_addr lk_stride lk_cnt]; auto.
      * rewrite Ea. f_equal. clear. lia.
      * clear - H6 Hk E1 Hs. rewrite Z.mod_small by lia. lia.
      * clear - H6 Hk E1 Hs. lia.
      * rewrite <- Ey, T, Ep. split; [reflexivity|]. split; intros HL; [apply U|apply V]; clear - HL; lia.
  - fold (lk_accepted ins).
    assert (Ey : lsnk_step aw x i = mkLK 2 (lk_off x) (lk_size x) (lk_stride x) (lk_cnt x) (lk_addr x) (lk_data x) false)
      by (unfold lsnk_step; rewrite Er, Es, Et, H1, Ew; reflexivity).
    destruct (IH k (lsnk_step aw x i)) as (T & U & V); rewrite ?Ey; cbn [lk_st lk_en lk_addr lk_stride lk_cnt]; auto.
    rewrite <- Ey, T. unfold lk_pend at 2. rewrite Ey. split; [reflexivity|]. rewrite <- Ey. split; assumption.
Qed.
Theorem sink_linear aw o s d x i0 st1 i1 ins : 0 <= aw -> 1 <= s < 2 ^ (aw + 1) ->
  lk_st x = 0%nat -> lk_ordy i0 = true -> lk_start i0 = true ->
  lk_soff i0 = o mod 2 ^ aw -> lk_ssize i0 = s mod 2 ^ (aw + 1) -> lk_sstride i0 = d mod 2 ^ aw ->
  Forall (fun i => lk_ordy i = false) st1 -> lk_ordy i1 = true -> lk_quiet i1 -> Forall lk_quiet ins ->
  let A := addresses aw o [(s, d)] in
  let y := lsnk_step aw x i0 in
  let w := lsnk_step aw (final (lsnk_step aw) y st1) i1 in
  let z := final (lsnk_step aw) w ins in
  trace (lsnk_step aw) lsnk_write y (st1 ++ [i1]) = [] /\
  trace (lsnk_step aw) lsnk_write w ins ++ lk_pend z = combine A (lk_accepted ins) /\
  ((length A <= length (lk_accepted ins))%nat -> lk_st z = 0%nat) /\
  ((length (lk_accepted ins) < length A)%nat -> lk_st z = 2%nat).
Proof.
  intros Haw Hs E0 Er Es Eo Ez Ed F1 Er1 (Q1 & Q1') Q A y w z.
  assert (Ey : y = mkLK 1 (lk_soff i0) (lk_ssize i0) (lk_sstride i0) (lk_cnt x) (lk_addr x) (lk_data x) false)
    by (unfold y, lsnk_step; rewrite Er, Es, E0; reflexivity).
  destruct (lsnk_filter aw y st1) as [D1 D2].
  assert (Ef : filter lk_ordy st1 = []) by (clear - F1; induction F1; cbn; [reflexivity|rewrite H; assumption]).
  rewrite Ef in D1, D2. change (trace (lsnk_step aw) lsnk_write y []) with (@nil (Z * Z)) in D1. change (final (lsnk_step aw) y []) with y in D2.
  assert (Ew : w = mkLK 2 (lk_soff i0) (lk_ssize i0) (lk_sstride i0) (lk_ssize i0) ((lk_soff i0 - lk_sstride i0) mod 2 ^ aw) (lk_data x) false).
  { unfold w. rewrite D2, Ey. unfold lsnk_step. rewrite Er1, Q1. reflexivity. }
  split.
  { rewrite trace_app, D1. unfold trace. cbn. unfold lsnk_write. rewrite D2, Ey, andb_false_r. reflexivity. }
  destruct (lsnk_filter aw w ins) as [F2 F3]. unfold z. rewrite F2, F3. rewrite <- lk_accepted_filter.
  assert (Q2 : Forall (fun i => lk_quiet i /\ lk_ordy i = true) (filter lk_ordy ins)).
  { clear - Q. induction Q; cbn; [constructor|]. destruct (lk_ordy x) eqn:E; auto. }
  destruct (lsnk_busy aw o s d 0 (filter lk_ordy ins) w Haw Hs) as (T & U & V); rewrite ?Ew; cbn [lk_st lk_addr lk_stride lk_cnt]; auto.
  - rewrite Eo, Ed, <- Zminus_mod. f_equal.
  - rewrite Ez, Z.mod_small by lia. lia.
  - lia.
  - rewrite <- Ew, T. split; [unfold lk_pend; rewrite Ew; reflexivity|].
    unfold A. rewrite lin_length. split; intros HL; [apply V|apply U]; clear - HL Hs; lia.
Qed.
