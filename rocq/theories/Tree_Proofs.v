From Verif Require Import Base Bits Tree_Model Tree_Spec.
From Coq Require Import ZArith.Znat.
Open Scope Z_scope.

(** * value *)
Lemma value_fits w s x : 1 <= w -> fits w s x -> value w s x = x.
Proof. intros H F. destruct s; cbn in *; [apply sgn_small|apply uns_small]; assumption. Qed.
Lemma value_range w s x : 1 <= w -> fits w s (value w s x).
Proof. intros H. destruct s; cbn; [apply sgn_range, H|apply uns_range; lia]. Qed.
Lemma fits_wider w v s x : 1 <= w <= v -> fits w s x -> fits v s x.
Proof.
  intros H. assert (2 ^ w <= 2 ^ v) by (apply Z.pow_le_mono_r; lia).
  assert (2 ^ (w - 1) <= 2 ^ (v - 1)) by (apply Z.pow_le_mono_r; lia).
  destruct s; cbn; lia.
Qed.
Lemma value_congr w s x y : 0 <= w -> x mod 2 ^ w = y mod 2 ^ w -> value w s x = value w s y.
Proof. intros H E. destruct s; unfold value, sgn, uns; rewrite E; reflexivity. Qed.
Lemma nval_sig w s x : 0 <= w -> nval (sig w s x) = value w s x.
Proof. intros H. apply value_congr; [exact H|]. cbn. apply Z.mod_mod. pose proof (pow_pos w H). lia. Qed.
Lemma rd_ns s n : ns n = s -> rd s n = nval n.
Proof. intros <-. reflexivity. Qed.
Lemma mod_rd s n : 0 <= nw n -> rd s n mod 2 ^ nw n = nval n mod 2 ^ nw n.
Proof. intros H. unfold rd, nval. rewrite !value_mod by exact H. reflexivity. Qed.
Lemma nval_mod w s x : 0 <= w -> nval (sig w s x) mod 2 ^ w = x mod 2 ^ w.
Proof. intros H. rewrite nval_sig, value_mod by exact H. reflexivity. Qed.

(** * op_tree *)
Lemma tree_split {A} (l : list A) n : l <> [] -> length l <> 1%nat -> n = Nat.div (length l) 2 ->
  (1 <= n < length l)%nat /\ length (firstn n l) = n /\ length (skipn n l) = (length l - n)%nat /\ firstn n l <> [] /\ skipn n l <> [].
Proof.
  intros N O ->. assert (2 <= length l)%nat by (destruct l as [|a [|b l]]; cbn in *; [congruence|congruence|lia]).
  assert (B : (1 <= Nat.div (length l) 2 < length l)%nat)
    by (split; [apply (Nat.div_le_lower_bound); lia|apply Nat.div_lt; lia]).
  repeat split; try lia.
  - apply firstn_length_le. lia.
  - apply skipn_length.
  - intros E. apply (f_equal (@length _)) in E. rewrite firstn_length_le in E by lia. cbn [length] in E. lia.
  - intros E. apply (f_equal (@length _)) in E. rewrite skipn_length in E. cbn [length] in E. lia.
Qed.

(** induction along the tree: [P] on single arguments, combined by the operator *)
Lemma op_tree_fuel_ind {A} (op : A -> A -> A) init (P : list A -> A -> Prop) :
  (forall x, P [x] x) ->
  (forall l1 l2 a b, l1 <> [] -> l2 <> [] -> length l1 = Nat.div (length (l1 ++ l2)) 2 -> P l1 a -> P l2 b -> P (l1 ++ l2) (op a b)) ->
  forall fuel l, l <> [] -> (length l <= fuel)%nat -> P l (op_tree_fuel op init fuel l).
Proof.
  intros B C. induction fuel as [|fuel IH]; intros l N L.
  - destruct l; [congruence|cbn in L; lia].
  - destruct l as [|x [|y l]]; [congruence|apply B|].
    cbn [op_tree_fuel]. set (l0 := x :: y :: l) in *. cbv zeta.
    destruct (tree_split l0 (Nat.div (length l0) 2) N ltac:(subst l0; cbn; lia) eq_refl) as (R & L1 & L2 & N1 & N2).
    set (half := Nat.div (length l0) 2) in *.
    rewrite <- (firstn_skipn half l0) at 1. apply C; try assumption.
    + rewrite firstn_skipn. exact L1.
    + apply IH; [exact N1|lia].
    + apply IH; [exact N2|lia].
Qed.
Lemma op_tree_ind {A} (op : A -> A -> A) init (P : list A -> A -> Prop) :
  (forall x, P [x] x) ->
  (forall l1 l2 a b, l1 <> [] -> l2 <> [] -> length l1 = Nat.div (length (l1 ++ l2)) 2 -> P l1 a -> P l2 b -> P (l1 ++ l2) (op a b)) ->
  forall l, l <> [] -> P l (op_tree op init l).
Proof. intros B C l N. exact (op_tree_fuel_ind op init P B C (length l) l N (le_n _)). Qed.

Lemma fold_assoc {A} (op : A -> A -> A) (assoc : forall a b c, op (op a b) c = op a (op b c)) l :
  forall a b, fold_left op l (op a b) = op a (fold_left op l b).
Proof. induction l as [|x l IH]; intros a b; cbn; [reflexivity|]. rewrite assoc. apply IH. Qed.
Lemma tree_fold {A} (op : A -> A -> A) init (assoc : forall a b c, op (op a b) c = op a (op b c)) x l :
  op_tree op init (x :: l) = fold_left op l x.
Proof.
  refine (op_tree_ind op init (fun l r => match l with [] => True | x :: l => r = fold_left op l x end) _ _ (x :: l) _);
    [reflexivity| |discriminate].
  intros [|a l1] [|b l2] u v N1 N2 _; try congruence. intros -> ->. cbn. rewrite fold_left_app. cbn.
  symmetry. apply fold_assoc, assoc.
Qed.

(** * sums *)
Lemma total_app a b : total (a ++ b) = total a + total b.
Proof. unfold total. induction a as [|x a IH]; cbn; [lia|]. rewrite IH. lia. Qed.
Lemma plus_same w a b : 1 <= w -> nw a = w -> nw b = w ->
  nw (plus a b) = w /\ nval (plus a b) mod 2 ^ w = (nval a + nval b) mod 2 ^ w.
Proof.
  intros H A B. assert (M : Z.max (nw a) (nw b) = w) by lia. pose proof (pow_pos w ltac:(lia)). split; [exact M|].
  unfold plus, plus_at. rewrite M, nval_mod by lia. rewrite Z.add_mod by lia.
  pose proof (mod_rd (both a b) a ltac:(lia)) as MA. pose proof (mod_rd (both a b) b ltac:(lia)) as MB.
  rewrite A in MA. rewrite B in MB. rewrite MA, MB. rewrite <- Z.add_mod by lia. reflexivity.
Qed.
Lemma add_wrap w l : 1 <= w -> l <> [] -> Forall (fun n => nw n = w) l ->
  nw (add_tree l) = w /\ nval (add_tree l) mod 2 ^ w = total l mod 2 ^ w.
Proof.
  intros H N. pose proof (pow_pos w ltac:(lia)). unfold add_tree.
  apply (op_tree_ind plus (int 0) (fun l r => Forall (fun n => nw n = w) l -> nw r = w /\ nval r mod 2 ^ w = total l mod 2 ^ w)); [| |exact N].
  - intros x F. inversion F; subst. split; [reflexivity|]. cbn. f_equal. lia.
  - intros l1 l2 a b _ _ _ IA IB F. apply Forall_app in F. destruct F as [F1 F2].
    destruct (IA F1) as [WA VA], (IB F2) as [WB VB]. destruct (plus_same w a b H WA WB) as [W V].
    split; [exact W|]. rewrite V, total_app, Z.add_mod, VA, VB, <- Z.add_mod by lia. reflexivity.
Qed.
Lemma add_sign s l : l <> [] -> uniform s l -> ns (add_tree l) = s /\ 1 <= nw (add_tree l).
Proof.
  intros N. unfold add_tree.
  apply (op_tree_ind plus (int 0) (fun l r => uniform s l -> ns r = s /\ 1 <= nw r)); [| |exact N].
  - intros x F. inversion F; subst. tauto.
  - intros l1 l2 a b _ _ _ IA IB F. apply Forall_app in F. destruct F as [F1 F2].
    destruct (IA F1), (IB F2). cbn. unfold both. split; [destruct s; rewrite H, H1; reflexivity|lia].
Qed.
Lemma add_exact s l : l <> [] -> uniform s l -> no_overflow s l -> nval (add_tree l) = total l.
Proof.
  intros N U O. unfold add_tree. revert U O.
  assert (G : uniform s l -> no_overflow s l ->
     nval (op_tree plus (int 0) l) = total l /\ ns (op_tree plus (int 0) l) = s /\ 1 <= nw (op_tree plus (int 0) l)
     /\ (forall n, In n l -> nw n <= nw (op_tree plus (int 0) l))).
  2: intros U O; apply G; assumption.
  apply (op_tree_ind plus (int 0) (fun l r => uniform s l -> no_overflow s l ->
     nval r = total l /\ ns r = s /\ 1 <= nw r /\ (forall n, In n l -> nw n <= nw r))); [| |exact N].
  - intros x U _. inversion U; subst. repeat split; try tauto; [cbn; lia|].
    intros n [<-|[]]. lia.
  - intros l1 l2 a b N1 N2 _ IA IB U O. apply Forall_app in U. destruct U as [U1 U2].
    destruct IA as (VA & SA & WA & MA); [exact U1| |].
    { intros p q r E. apply (O p q (r ++ l2)). rewrite E, <- !app_assoc. reflexivity. }
    destruct IB as (VB & SB & WB & MB); [exact U2| |].
    { intros p q r E. apply (O (l1 ++ p) q r). rewrite E, <- !app_assoc. reflexivity. }
    assert (M : forall n, In n (l1 ++ l2) -> nw n <= nw (plus a b)).
    { intros n I. cbn. apply in_app_or in I. destruct I as [I|I]; [specialize (MA n I)|specialize (MB n I)]; lia. }
    repeat split; [|cbn; unfold both; rewrite SA, SB; destruct s; reflexivity|cbn; lia|exact M].
    assert (BS : both a b = s) by (unfold both; rewrite SA, SB; destruct s; reflexivity).
    destruct (O [] (l1 ++ l2) []) as (n & I & F); [rewrite app_nil_r; reflexivity|destruct l1; [congruence|discriminate]|].
    specialize (M n I). unfold plus, plus_at. rewrite nval_sig by lia. rewrite BS, !rd_ns by assumption.
    rewrite VA, VB, <- total_app. apply value_fits; [lia|]. apply (fits_wider (nw n)); [|exact F].
    split; [|exact M]. apply in_app_or in I. rewrite Forall_forall in U1, U2.
    destruct I as [I|I]; [destruct (U1 n I)|destruct (U2 n I)]; assumption.
Qed.

Lemma fold_max_ge l : forall a, a <= fold_left Z.max l a /\ (forall x, In x l -> x <= fold_left Z.max l a).
Proof.
  induction l as [|y l IH]; intros a; cbn; [split; [lia|tauto]|].
  destruct (IH (Z.max a y)) as [G1 G2]. split; [lia|]. intros x [<-|I]; [lia|apply G2, I].
Qed.
Lemma fold_sum_total s l : uniform s l -> forall a, fold_left Z.add (map (rd s) l) a = a + total l.
Proof.
  induction l as [|x l IH]; intros U a; cbn; [lia|]. inversion U as [|? ? [_ S] U']; subst.
  rewrite IH by assumption. rewrite rd_ns by reflexivity. fold (total l). unfold total. lia.
Qed.
Lemma uniform_forallb s l : l <> [] -> uniform s l -> forallb ns l = s /\ existsb ns l = s.
Proof.
  induction l as [|x l IH]; intros N U; [congruence|]. inversion U as [|? ? [_ S] U']; subst.
  destruct l as [|y l]; [cbn; rewrite andb_true_r, orb_false_r; tauto|].
  destruct (IH ltac:(discriminate) U') as [A B]. cbn [forallb existsb] in *. rewrite A, B. destruct (ns x); split; reflexivity.
Qed.
Lemma plus_n_sum s l : l <> [] -> uniform s l ->
  exists n, plus_n l = Some n /\ nw n = widest l /\ ns n = s /\ nval n = value (widest l) s (total l).
Proof.
  intros N U. destruct (uniform_forallb s l N U) as [A B].
  assert (0 <= widest l) by (unfold widest; apply (proj1 (fold_max_ge _ _))).
  exists (sig (widest l) s (fold_left Z.add (map (rd s) l) 0)). repeat split.
  - destruct l; [congruence|]. unfold plus_n. rewrite A, B. reflexivity.
  - rewrite nval_sig by assumption. rewrite fold_sum_total by assumption. reflexivity.
Qed.

(** * Max and Min *)
Lemma mux_pick s c a b : 1 <= nw a -> 1 <= nw b -> ns a = s -> ns b = s ->
  ns (mux c a b) = s /\ 1 <= nw (mux c a b) /\ nval (mux c a b) = (if nb c =? 0 then nval b else nval a).
Proof.
  intros A B SA SB. assert (BS : both a b = s) by (unfold both; rewrite SA, SB; destruct s; reflexivity).
  repeat split; [cbn; rewrite SA, SB; destruct s; reflexivity|cbn; lia|].
  unfold mux. rewrite nval_sig by lia. rewrite BS, SA, SB, !rd_ns by assumption.
  replace (s || s)%bool with s by (destruct s; reflexivity).
  pose proof (value_range (nw a) s (nb a) A) as RA. pose proof (value_range (nw b) s (nb b) B) as RB.
  unfold nval. rewrite SA, SB.
  destruct (nb c =? 0); apply value_fits; try lia; eapply fits_wider; try eassumption; lia.
Qed.
Lemma bit_of c : nb (sig 1 false (b2z c)) =? 0 = negb c.
Proof. destruct c; reflexivity. Qed.
Lemma max_ok s l : l <> [] -> uniform s l -> exists n, max_tree l = Some n /\ ns n = s /\ is_max (map nval l) (nval n).
Proof.
  intros N U. exists (op_tree (fun x y => mux (gt x y) x y) (hd (int 0) l) l).
  split; [destruct l as [|x [|y l]]; [congruence|reflexivity|reflexivity]|].
  enough (G : ns (op_tree (fun x y => mux (gt x y) x y) (hd (int 0) l) l) = s /\ 1 <= nw (op_tree (fun x y => mux (gt x y) x y) (hd (int 0) l) l)
     /\ is_max (map nval l) (nval (op_tree (fun x y => mux (gt x y) x y) (hd (int 0) l) l))) by tauto.
  revert U. apply (op_tree_ind _ _ (fun l r => uniform s l -> ns r = s /\ 1 <= nw r /\ is_max (map nval l) (nval r))); [| |exact N].
  - intros x U. inversion U; subst. repeat split; try tauto; cbn; [tauto|]. intros y [<-|[]]. lia.
  - intros l1 l2 a b _ _ _ IA IB U. apply Forall_app in U. destruct U as [U1 U2].
    destruct (IA U1) as (SA & WA & IA1 & IA2), (IB U2) as (SB & WB & IB1 & IB2).
    destruct (mux_pick s (gt a b) a b WA WB SA SB) as (S1 & W1 & V). split; [exact S1|split; [exact W1|]].
    assert (BS : both a b = s) by (unfold both; rewrite SA, SB; destruct s; reflexivity).
    unfold gt in V at 2. rewrite bit_of, BS, !rd_ns in V by assumption. rewrite V, map_app. clear V.
    destruct (Z.ltb_spec (nval b) (nval a)) as [L|L]; cbn [negb]; (split; [apply in_or_app; tauto|]);
      intros x I; apply in_app_or in I; destruct I as [I|I]; [specialize (IA2 x I)|specialize (IB2 x I)|specialize (IA2 x I)|specialize (IB2 x I)]; lia.
Qed.
Lemma min_ok s l : l <> [] -> uniform s l -> exists n, min_tree l = Some n /\ ns n = s /\ is_min (map nval l) (nval n).
Proof.
  intros N U. exists (op_tree (fun x y => mux (lt x y) x y) (hd (int 0) l) l).
  split; [destruct l as [|x [|y l]]; [congruence|reflexivity|reflexivity]|].
  enough (G : ns (op_tree (fun x y => mux (lt x y) x y) (hd (int 0) l) l) = s /\ 1 <= nw (op_tree (fun x y => mux (lt x y) x y) (hd (int 0) l) l)
     /\ is_min (map nval l) (nval (op_tree (fun x y => mux (lt x y) x y) (hd (int 0) l) l))) by tauto.
  revert U. apply (op_tree_ind _ _ (fun l r => uniform s l -> ns r = s /\ 1 <= nw r /\ is_min (map nval l) (nval r))); [| |exact N].
  - intros x U. inversion U; subst. repeat split; try tauto; cbn; [tauto|]. intros y [<-|[]]. lia.
  - intros l1 l2 a b _ _ _ IA IB U. apply Forall_app in U. destruct U as [U1 U2].
    destruct (IA U1) as (SA & WA & IA1 & IA2), (IB U2) as (SB & WB & IB1 & IB2).
    destruct (mux_pick s (lt a b) a b WA WB SA SB) as (S1 & W1 & V). split; [exact S1|split; [exact W1|]].
    assert (BS : both a b = s) by (unfold both; rewrite SA, SB; destruct s; reflexivity).
    unfold lt in V at 2. rewrite bit_of, BS, !rd_ns in V by assumption. rewrite V, map_app. clear V.
    destruct (Z.ltb_spec (nval a) (nval b)) as [L|L]; cbn [negb]; (split; [apply in_or_app; tauto|]);
      intros x I; apply in_app_or in I; destruct I as [I|I]; [specialize (IA2 x I)|specialize (IB2 x I)|specialize (IA2 x I)|specialize (IB2 x I)]; lia.
Qed.

(** * stages *)
Lemma log2_up_half n : (2 <= n)%nat -> Nat.log2_up n = S (Nat.log2_up (n - Nat.div n 2)).
Proof.
  intros H. pose proof (Nat.div_mod n 2 ltac:(lia)). pose proof (Nat.mod_upper_bound n 2 ltac:(lia)).
  set (m := (n - Nat.div n 2)%nat) in *. assert (n = 2 * m \/ n = 2 * m - 1)%nat by lia.
  assert (1 <= m)%nat by lia.
  destruct (Nat.eq_dec m 1) as [E|E].
  - assert (n = 2)%nat by lia. rewrite E. subst n. reflexivity.
  - pose proof (Nat.log2_up_spec m ltac:(lia)) as [A B]. 
    set (k := Nat.log2_up m) in *. assert (0 < k)%nat by (apply Nat.log2_up_pos; lia).
    destruct k as [|k]; [lia|]. cbn [Nat.pred] in A.
    apply Nat.log2_up_unique; [lia|]. cbn [Nat.pred].
    replace (2 ^ S (S k))%nat with (2 * 2 ^ S k)%nat by reflexivity. replace (2 ^ S k)%nat with (2 * 2 ^ k)%nat in * by reflexivity. lia.
Qed.
Lemma half_le n : (2 <= n)%nat -> (Nat.log2_up (Nat.div n 2) <= Nat.log2_up (n - Nat.div n 2))%nat.
Proof. intros H. apply Nat.log2_up_le_mono. pose proof (Nat.div_mod n 2 ltac:(lia)). pose proof (Nat.mod_upper_bound n 2 ltac:(lia)). lia. Qed.
Lemma stage_gen (op : nat -> nat -> nat) (k s : nat) init l :
  (forall a b, op a b = Nat.max a b + k)%nat -> l <> [] -> Forall (fun x => x = s) l ->
  op_tree op init l = (s + k * Nat.log2_up (length l))%nat.
Proof.
  intros O N. apply (op_tree_ind op init (fun l r => Forall (fun x => x = s) l -> r = (s + k * Nat.log2_up (length l))%nat)); [| |exact N].
  - intros x F. inversion F; subst. cbn. lia.
  - intros l1 l2 a b N1 N2 L IA IB F. apply Forall_app in F. destruct F as [F1 F2]. rewrite (IA F1), (IB F2), O.
    assert (H : (2 <= length (l1 ++ l2))%nat) by (rewrite app_length; destruct l1, l2; cbn; [congruence|congruence|congruence|lia]).
    rewrite (log2_up_half _ H). pose proof (half_le _ H) as HL.
    assert (E : length l2 = (length (l1 ++ l2) - Nat.div (length (l1 ++ l2)) 2)%nat) by (rewrite <- L, app_length; lia).
    rewrite <- E in *. rewrite <- L in HL. clear - HL. assert (k * Nat.log2_up (length l1) <= k * Nat.log2_up (length l2))%nat by (apply Nat.mul_le_mono_l, HL). lia.
Qed.

(** * averages *)
Lemma int_ok v : nval (int v) = v /\ 1 <= nw (int v) /\ ns (int v) = true.
Proof.
  assert (W : 1 <= int_width v) by (unfold int_width; destruct (v =? 0); [lia|pose proof (Z.log2_nonneg (Z.abs v)); lia]).
  repeat split; try exact W. unfold int. rewrite nval_sig by lia. apply value_fits; [exact W|]. cbn.
  unfold int_width in *. destruct (Z.eqb_spec v 0) as [E0|N]; [rewrite E0; cbn; lia|].
  pose proof (Z.log2_spec (Z.abs v) ltac:(lia)) as [_ H].
  replace (Z.log2 (Z.abs v) + 2 - 1) with (Z.succ (Z.log2 (Z.abs v))) by lia. lia.
Qed.
Lemma int_unsigned v : 0 <= v -> rd false (int v) = v.
Proof.
  intros H. unfold rd, int, value. cbn [sig nw ns nb].
  assert (W : 1 <= int_width v) by (unfold int_width; destruct (v =? 0); [lia|pose proof (Z.log2_nonneg (Z.abs v)); lia]).
  assert (R : 0 <= v < 2 ^ int_width v).
  { split; [exact H|]. unfold int_width in *. destruct (Z.eqb_spec v 0) as [E0|N]; [rewrite E0; reflexivity|].
    pose proof (Z.log2_spec (Z.abs v) ltac:(lia)) as [_ L]. rewrite Z.abs_eq in L by lia. rewrite Z.abs_eq by lia. eapply Z.lt_le_trans; [exact L|]. apply Z.pow_le_mono_r; [lia|]. unfold Z.succ. lia. }
  rewrite Z.mod_small by exact R. apply uns_small, R.
Qed.
Lemma pow2_spec k : pow2 (2 ^ k) = true.
Proof.
  unfold pow2. rewrite Nat2Z.inj_pow. change (Z.of_nat 2) with 2. apply Z.eqb_eq.
  change (2 ^ Z.of_nat k - 1) with (Z.pred (2 ^ Z.of_nat k)).
  rewrite <- (Z.ones_equiv (Z.of_nat k)). rewrite Z.land_ones by lia. apply Z_mod_same_full.
Qed.
Lemma add_value w s l : 1 <= w -> l <> [] -> Forall (fun n => nw n = w /\ ns n = s) l ->
  nw (add_tree l) = w /\ ns (add_tree l) = s /\ nval (add_tree l) = value w s (total l).
Proof.
  intros H N F.
  assert (F1 : Forall (fun n => nw n = w) l) by (eapply Forall_impl; [|exact F]; cbn; tauto).
  assert (F2 : uniform s l) by (eapply Forall_impl; [|exact F]; cbn; intros a [-> ->]; tauto).
  destruct (add_wrap w l H N F1) as [W V]. destruct (add_sign s l N F2) as [S _].
  repeat split; try assumption. transitivity (value w s (nval (add_tree l))).
  - unfold nval. rewrite W, S. apply value_congr; [lia|]. symmetry. apply value_mod. lia.
  - apply value_congr; [lia|exact V].
Qed.
Lemma fits_div w s x k : 1 <= w -> 0 <= k -> fits w s x -> fits w s (x / 2 ^ k).
Proof.
  intros H K F. pose proof (pow_pos k K) as P. pose proof (pow_pos (w - 1) ltac:(lia)) as PW.
  destruct s; cbn in *.
  - split; [apply Z.div_le_lower_bound; [lia|]; nia|apply Z.div_lt_upper_bound; [lia|]; nia].
  - split; [apply Z.div_pos; lia|apply Z.div_lt_upper_bound; [lia|]; nia].
Qed.
Lemma sra_ok s a r : ns a = s -> 1 <= nw a -> 0 <= rd false r -> nval (sra a r) = nval a / 2 ^ rd false r.
Proof.
  intros S W R. unfold sra, sra_at. rewrite S, nval_sig by lia. rewrite (rd_ns s) by assumption.
  apply value_fits; [lia|]. apply fits_div; [lia|exact R|]. unfold nval. rewrite S. apply value_range, W.
Qed.
Lemma div_down x d : 0 < d -> round_down x d (x / d).
Proof. intros H. unfold round_down. pose proof (Z.div_mod x d ltac:(lia)). pose proof (Z.mod_pos_bound x d H). nia. Qed.
Lemma mean_ok w s sum k : 1 <= w -> nw sum = w -> ns sum = s ->
  exists n, mean_of sum (2 ^ k) = Some n /\ nval n = nval sum / Z.of_nat (2 ^ k).
Proof.
  intros H W S. eexists. split.
  - unfold mean_of. rewrite pow2_spec. assert (P : (2 ^ k <> 0)%nat) by (apply Nat.pow_nonzero; lia).
    destruct (2 ^ k)%nat eqn:E; [congruence|]. rewrite <- E. reflexivity.
  - rewrite Nat2Z.inj_pow. change (Z.of_nat 2) with 2. rewrite Z.log2_pow2 by lia.
    pose proof (int_unsigned (Z.of_nat k) ltac:(lia)) as I. rewrite (sra_ok s); try lia; try assumption. rewrite I. reflexivity.
Qed.
Lemma average_ok w s l k : 1 <= w -> length l = (2 ^ k)%nat -> Forall (fun n => nw n = w /\ ns n = s) l -> fits w s (total l) ->
  exists n, average l = Some n /\ round_down (total l) (Z.of_nat (length l)) (nval n).
Proof.
  intros H L F T. assert (P : (2 ^ k <> 0)%nat) by (apply Nat.pow_nonzero; lia).
  assert (N : l <> []) by (intros ->; cbn in L; congruence).
  destruct (add_value w s l H N F) as (W & S & V).
  unfold average. rewrite L. destruct (mean_ok w s (add_tree l) k H W S) as (n & E & R).
  exists n. split; [exact E|]. rewrite R, V, value_fits by assumption. apply div_down. lia.
Qed.
Lemma plus_int w s a v : 1 <= w -> nw a = w -> ns a = s -> 0 <= v -> fits w s (nval a + v) ->
  w <= nw (plus a (int v)) /\ ns (plus a (int v)) = s /\ nval (plus a (int v)) = nval a + v.
Proof.
  intros H W S V F. destruct (int_ok v) as (IV & IW & IS).
  assert (B : both a (int v) = s) by (unfold both; rewrite S, IS; apply andb_true_r).
  repeat split; [cbn; lia|exact B|]. unfold plus, plus_at. rewrite nval_sig by (cbn in *; lia). rewrite B.
  rewrite (rd_ns s a S).
  assert (R : rd s (int v) = v) by (destruct s; [rewrite rd_ns by exact IS; exact IV|apply int_unsigned, V]).
  rewrite R. apply value_fits; [lia|]. apply (fits_wider w); [lia|exact F].
Qed.
Lemma half_up x h : 0 < h -> round_up x (2 * h) ((x + h) / (2 * h)).
Proof.
  intros H. unfold round_up, near, tie. pose proof (Z.div_mod (x + h) (2 * h) ltac:(lia)).
  pose proof (Z.mod_pos_bound (x + h) (2 * h) ltac:(lia)). set (q := (x + h) / (2 * h)) in *. split; [|intros T]; lia.
Qed.
Lemma average_round_ok w s l k : 1 <= w -> length l = (2 ^ k)%nat -> Forall (fun n => nw n = w /\ ns n = s) l ->
  fits w s (total l) -> fits w s (total l + Z.of_nat (length l) / 2) ->
  exists n, average_round l = Some n /\ round_up (total l) (Z.of_nat (length l)) (nval n).
Proof.
  intros H L F T T2. assert (P : (2 ^ k <> 0)%nat) by (apply Nat.pow_nonzero; lia).
  assert (N : l <> []) by (intros ->; cbn in L; congruence).
  destruct (add_value w s l H N F) as (W & S & V). rewrite value_fits in V by assumption.
  assert (G : 0 <= Z.of_nat (length l) / 2) by (apply Z.div_pos; lia).
  rewrite <- V in T2. destruct (plus_int w s (add_tree l) _ H W S G T2) as (W2 & S2 & V2).
  unfold average_round. rewrite L in *.
  destruct (mean_ok (nw (plus (add_tree l) (int (Z.of_nat (2 ^ k) / 2)))) s _ k ltac:(lia) eq_refl S2) as (n & E & R).
  exists n. split; [exact E|]. rewrite R, V2, V. clear - P.
  destruct k as [|k]; [cbn [Nat.pow]; change (Z.of_nat 1) with 1; rewrite Z.div_1_r; change (1 / 2) with 0;
    unfold round_up, near, tie; split; lia|].
  replace (Z.of_nat (2 ^ S k)) with (2 * Z.of_nat (2 ^ k)) by (cbn [Nat.pow]; lia).
  rewrite (Z.mul_comm 2), Z.div_mul by lia. rewrite (Z.mul_comm _ 2). apply half_up.
  assert (2 ^ k <> 0)%nat by (apply Nat.pow_nonzero; lia). lia.
Qed.

(** * SraRound *)
Lemma msb_sign a : 1 <= nw a -> ns a = true -> (nb (pick a (nw a - 1)) =? 0) = (0 <=? nval a).
Proof.
  intros W S. unfold pick, nval, value. cbn [sig nb]. rewrite S. change (2 ^ 1) with 2. unfold sgn.
  pose proof (pow_pos (nw a - 1) ltac:(lia)) as P. pose proof (pow_split (nw a) W) as E.
  pose proof (Z.rem_mul_r (nb a) (2 ^ (nw a - 1)) 2 ltac:(lia) ltac:(lia)) as R.
  replace (2 ^ (nw a - 1) * 2) with (2 ^ nw a) in R by lia.
  pose proof (Z.mod_pos_bound (nb a) (2 ^ (nw a - 1)) P). pose proof (Z.mod_pos_bound (nb a / 2 ^ (nw a - 1)) 2 ltac:(lia)).
  set (m := (nb a / 2 ^ (nw a - 1)) mod 2) in *. set (q := nb a mod 2 ^ nw a) in *. set (t := nb a mod 2 ^ (nw a - 1)) in *. set (h := 2 ^ (nw a - 1)) in *. clearbody m q t h. rewrite E.
  assert (m = 0 \/ m = 1) as [-> | ->] by lia.
  - destruct (Z.ltb_spec q h); [|lia]. change (0 =? 0) with true. symmetry. apply Z.leb_le. lia.
  - destruct (Z.ltb_spec q h); [lia|]. change (1 =? 0) with false. symmetry. apply Z.leb_gt. lia.
Qed.
Lemma rd_zero s a : 1 <= nw a -> (rd s a =? 0) = (rd false a =? 0).
Proof.
  intros H. destruct s; [|reflexivity]. unfold rd, value, sgn, uns.
  pose proof (Z.mod_pos_bound (nb a) (2 ^ nw a) (pow_pos (nw a) ltac:(lia))) as B. pose proof (pow_pos (nw a - 1) ltac:(lia)).
  destruct (Z.ltb_spec (nb a mod 2 ^ nw a) (2 ^ (nw a - 1))) as [L|L]; [reflexivity|].
  transitivity false; [apply Z.eqb_neq; lia|symmetry; apply Z.eqb_neq; lia].
Qed.
Lemma half_away x r : 1 <= r -> round_away x (2 ^ r) ((x + 2 ^ (r - 1) + (if 0 <=? x then 0 else -1)) / 2 ^ r).
Proof.
  intros H. rewrite (pow_split r H). pose proof (pow_pos (r - 1) ltac:(lia)) as P. set (h := 2 ^ (r - 1)) in *. clearbody h.
  unfold round_away, near, tie. set (u := if 0 <=? x then 0 else -1).
  pose proof (Z.div_mod (x + h + u) (2 * h) ltac:(lia)) as D.
  pose proof (Z.mod_pos_bound (x + h + u) (2 * h) ltac:(lia)) as B. set (q := (x + h + u) / (2 * h)) in *.
  set (m := (x + h + u) mod (2 * h)) in *. clearbody q m. set (p := 2 * h * q) in *. clearbody p. subst u.
  destruct (Z.leb_spec 0 x); (split; [|intros T]); lia.
Qed.
Lemma eq_bit a b : (nb (eq a b) =? 0) = negb (rd (both a b) a =? rd (both a b) b).
Proof. unfold eq. apply bit_of. Qed.
Lemma pre_ok left rounder rs : 1 <= nw left -> ns left = true -> ns rounder = true -> ns rs = true -> nw rs = 2 ->
  let pre := plus (plus_at (nw left + 1) left rounder) rs in
  nw pre = nw left + 1 /\ ns pre = true /\ nval pre = value (nw left + 1) true (nval left + nval rounder + nval rs).
Proof.
  intros W SL SR SS WS pre. set (pre0 := plus_at (nw left + 1) left rounder) in *.
  assert (B0 : both left rounder = true) by (unfold both; rewrite SL, SR; reflexivity).
  assert (W0 : nw pre0 = nw left + 1) by reflexivity. assert (S0 : ns pre0 = true) by exact B0.
  assert (V0 : nval pre0 mod 2 ^ (nw left + 1) = (nval left + nval rounder) mod 2 ^ (nw left + 1)).
  { unfold pre0, plus_at. rewrite nval_mod by lia. rewrite B0, !rd_ns by assumption. reflexivity. }
  clearbody pre0. assert (B1 : both pre0 rs = true) by (unfold both; rewrite S0, SS; reflexivity).
  assert (M : Z.max (nw pre0) (nw rs) = nw left + 1) by lia.
  pose proof (pow_pos (nw left + 1) ltac:(lia)) as P.
  repeat split; [exact M|exact B1|]. unfold pre, plus, plus_at. rewrite M, B1, nval_sig by lia. rewrite !rd_ns by assumption.
  apply value_congr; [lia|]. rewrite Z.add_mod, V0, <- Z.add_mod by lia. reflexivity.
Qed.
Lemma round_fits w x r : 1 <= w -> 1 <= r <= w -> fits w true x ->
  fits (w + 1) true (x + 2 ^ (r - 1) + (if 0 <=? x then 0 else -1)) /\
  fits w true ((x + 2 ^ (r - 1) + (if 0 <=? x then 0 else -1)) / 2 ^ r).
Proof.
  intros W R F. cbn [fits] in *. replace (w + 1 - 1) with w by lia. rewrite (pow_split w W), (pow_split r ltac:(lia)).
  pose proof (pow_pos (r - 1) ltac:(lia)) as P1. assert (P4 : 2 ^ (r - 1) <= 2 ^ (w - 1)) by (apply Z.pow_le_mono_r; lia).
  set (h := 2 ^ (r - 1)) in *. set (v := 2 ^ (w - 1)) in *. clearbody h v. split; [destruct (Z.leb_spec 0 x); lia|].
  split; [apply Z.div_le_lower_bound; [lia|]|apply Z.div_lt_upper_bound; [lia|]]; destruct (Z.leb_spec 0 x); nia.
Qed.
Lemma round_by_ok left rounder right (r := rd false right) :
  1 <= nw left -> ns left = true -> ns rounder = true -> 1 <= nw right -> 0 <= r <= nw left ->
  (1 <= r -> nval rounder = 2 ^ (r - 1)) ->
  round_away (nval left) (2 ^ r) (nval (round_by left rounder right)).
Proof.
  intros W SL SR WR R V. unfold round_by. cbv zeta.
  set (msb := pick left (nw left - 1)). set (rs := mux msb (int (-1)) (int 0)).
  destruct (int_ok (-1)) as (I1 & I1w & I1s). destruct (int_ok 0) as (I0 & I0w & I0s).
  destruct (mux_pick true msb (int (-1)) (int 0) I1w I0w I1s I0s) as (RSs & _ & RSv). fold rs in RSs, RSv.
  assert (RSw : nw rs = 2) by reflexivity.
  rewrite (msb_sign left W SL : (nb msb =? 0) = _), I1, I0 in RSv. clearbody rs. clear I1 I1w I1s I0 I0w I0s.
  pose proof (pre_ok left rounder rs W SL SR RSs RSw) as PO. cbv zeta in PO.
  set (pre := plus (plus_at (nw left + 1) left rounder) rs) in *. clearbody pre. destruct PO as (PW & PS & PV). rewrite RSv in PV.
  set (sh := sra_at (nw left) pre right).
  assert (SS : ns sh = true) by exact PS. assert (SW : nw sh = nw left) by reflexivity.
  assert (SV : nval sh = value (nw left) true (nval pre / 2 ^ r))
    by (unfold sh, sra_at; rewrite nval_sig, PS, (rd_ns true pre PS) by (clear - W; lia); reflexivity).
  clearbody sh. assert (SW1 : 1 <= nw sh) by (rewrite SW; exact W).
  destruct (mux_pick true (eq right (int 0)) left sh W SW1 SL SS) as (_ & _ & MV).
  rewrite MV, eq_bit. clear MV.
  assert (Z0 : rd (both right (int 0)) (int 0) = 0).
  { destruct (both right (int 0)); reflexivity. }
  rewrite Z0, rd_zero by assumption. fold r. clear Z0. clearbody r.
  destruct (Z.eqb_spec r 0) as [E|E]; cbn [negb].
  - rewrite E. change (2 ^ 0) with 1. unfold round_away, near, tie. clear. split; lia.
  - assert (R1 : 1 <= r <= nw left) by (clear - R E; lia).
    rewrite (V (proj1 R1)) in PV. rewrite SV, PV.
    assert (F : fits (nw left) true (nval left)) by (unfold nval; rewrite SL; apply value_range, W).
    destruct (round_fits (nw left) (nval left) r W R1 F) as [F1 F2].
    rewrite (value_fits (nw left + 1)) by (assumption || (clear - W; lia)). rewrite value_fits by assumption.
    apply half_away. exact (proj1 R1).
Qed.
Lemma sra_round_const_ok left r : 1 <= nw left -> ns left = true -> 0 <= r <= nw left ->
  round_away (nval left) (2 ^ r) (nval (sra_round_const left r)).
Proof.
  intros W S R. unfold sra_round_const.
  pose proof (round_by_ok left (int (if r <=? 0 then 0 else 2 ^ (r - 1))) (int r)) as B. cbv zeta in B.
  rewrite int_unsigned in B by lia. destruct (int_ok r) as (_ & RW & _).
  destruct (int_ok (if r <=? 0 then 0 else 2 ^ (r - 1))) as (V & _ & SV).
  apply B; try assumption. intros R1. rewrite V. destruct (Z.leb_spec r 0); [lia|reflexivity].
Qed.
Lemma sra_round_sig_ok left right n : 3 <= nw left -> ns left = true -> 2 <= nw right ->
  rd false right <= nw left -> sra_round_sig left right = Some n ->
  round_away (nval left) (2 ^ rd false right) (nval n).
Proof.
  intros W S RW R. unfold sra_round_sig. cbv zeta. set (k := Z.log2_up (nw left)).
  destruct (_ && _); [discriminate|].
  pose proof (Z.log2_up_spec (nw left) ltac:(lia)) as [_ K]. fold k in K.
  assert (K2 : 2 <= k) by (change 2 with (Z.log2_up 3); apply Z.log2_up_le_mono; exact W).
  set (r := rd false right) in *. assert (R0 : 0 <= r) by (apply uns_range; lia).
  destruct (int_ok 1) as (I1 & I1w & I1s). assert (I1u : rd false (int 1) = 1) by (apply int_unsigned; lia).
  set (sl := if k <? nw right then slice right (k - 1) 0 else right).
  set (m := minus sl (int 1)).
  assert (M : 1 <= nw m /\ (1 <= r -> rd false m = r - 1)).
  { unfold m, sl. destruct (Z.ltb_spec k (nw right)) as [L|L].
    - assert (MW : nw (minus (slice right (k - 1) 0) (int 1)) = k) by (cbn -[Z.pow]; lia).
      split; [lia|]. intros R1. unfold rd at 1. rewrite MW. unfold value, uns. cbn [minus sig nb]. 
      change (nw (int 1)) with 2. replace (Z.max (nw (slice right (k - 1) 0)) 2) with k by (cbn; lia).
      assert (P : 0 < 2 ^ k) by (apply pow_pos; lia).
      rewrite Z.mod_mod by lia. change (both (slice right (k - 1) 0) (int 1)) with false. rewrite I1u.
      assert (E : rd false (slice right (k - 1) 0) = r mod 2 ^ k).
      { unfold rd, value, uns, slice. cbn [sig nw nb]. replace (k - 1 - 0 + 1) with k by lia.
        rewrite Z.pow_0_r, Z.div_1_r, Z.mod_mod by lia. unfold r, rd, value, uns. symmetry. apply mod_mod_le. lia. }
      rewrite E, Zminus_mod_idemp_l. apply Z.mod_small. lia.
    - assert (MW : nw (minus right (int 1)) = nw right) by (cbn -[Z.pow]; lia).
      split; [lia|]. intros R1. unfold rd at 1. rewrite MW. unfold value, uns. cbn [minus sig nb].
      change (nw (int 1)) with 2. replace (Z.max (nw right) 2) with (nw right) by lia.
      assert (P : 0 < 2 ^ nw right) by (apply pow_pos; lia). rewrite Z.mod_mod by lia.
      assert (E1 : rd (both right (int 1)) (int 1) = 1) by (destruct (both right (int 1)); [rewrite rd_ns by exact I1s; exact I1|exact I1u]).
      rewrite E1. rewrite Zminus_mod, mod_rd by lia. rewrite <- (mod_rd false) by lia. rewrite <- Zminus_mod. fold r.
      apply Z.mod_small. pose proof (uns_range (nw right) (nb right) ltac:(lia)) as U. change (uns (nw right) (nb right)) with r in U. lia. }
  destruct M as [MW MV]. clearbody m. clear sl. unfold sll. cbv zeta. destruct (1024 <? _); [discriminate|].
  intros E. apply (f_equal (fun o => match o with Some x => x | None => n end)) in E. cbv beta iota in E. rewrite <- E. clear E.
  apply round_by_ok; try assumption; try reflexivity; try lia.
  intros R1. fold r. rewrite <- (MV R1). change (ns (int 1)) with true.
  pose proof (pow_pos (nw m) ltac:(lia)) as PM. change (nw (int 1)) with 2.
  rewrite nval_sig by lia. change (rd true (int 1)) with 1. rewrite Z.mul_1_l.
  apply value_fits; [lia|]. cbn [fits]. pose proof (uns_range (nw m) (nb m) ltac:(lia)) as U. change (uns (nw m) (nb m)) with (rd false m) in U.
  pose proof (pow_pos (rd false m) ltac:(lia)) as PR. split; [pose proof (pow_pos (2 + 2 ^ nw m - 1) ltac:(lia)); lia|]. apply Z.pow_lt_mono_r; lia.
Qed.
