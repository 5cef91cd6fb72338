(** Proofs about the accumulators of the dataflow library. *)
From Verif Require Import Base Bits Dflow_Model Dflow_Spec Dflow_Proofs Dacc_Model Dacc_Spec.
From Verif Require Reduce_Proofs.
Open Scope Z_scope.

(** ** Words *)
Definition mkword (c : acc) (l : list Z) : word := (opnd_x l, opnd_e c l, opnd_r c l).
Lemma since_app l1 l2 a : since (l1 ++ l2) a = since l2 (since l1 a).
Proof. revert a. induction l1 as [|[[x e] r] l1 IH]; intros a; [reflexivity|]. cbn. apply IH. Qed.
Lemma taken_snoc l x e r : taken (l ++ [(x, e, r)]) = (if r then [] else taken l) ++ (if e then [x] else []).
Proof. unfold taken. rewrite since_app. reflexivity. Qed.
Lemma upto_S W k : upto W (S k) = upto W k ++ [W (S k)].
Proof. unfold upto. rewrite (seq_S (S k)), map_app. reflexivity. Qed.

(** ** Groups *)
Lemma group_snoc_new n l x : (0 < n)%nat -> (length l mod n = 0)%nat -> group (Some n) (l ++ [x]) = [x].
Proof.
  intros Hn H. unfold group. rewrite app_length. cbn [length]. replace (length l + 1 - 1)%nat with (length l) by lia.
  pose proof (Nat.div_mod (length l) n ltac:(lia)) as D. rewrite H in D.
  replace (length l / n * n)%nat with (length l) by nia. rewrite skipn_app, skipn_all, Nat.sub_diag. reflexivity.
Qed.
Lemma group_snoc_old n l x : (0 < n)%nat -> (length l mod n <> 0)%nat -> group (Some n) (l ++ [x]) = group (Some n) l ++ [x].
Proof.
  intros Hn H. unfold group. rewrite app_length. cbn [length]. replace (length l + 1 - 1)%nat with (length l) by lia.
  assert (E : ((length l - 1) / n = length l / n)%nat).
  { pose proof (Nat.div_mod (length l) n ltac:(lia)) as D. pose proof (Nat.mod_upper_bound (length l) n ltac:(lia)) as U.
    symmetry. apply (Nat.div_unique _ _ _ (length l mod n - 1)); [lia|]. clear - D H. set (p := (n * (length l / n))%nat) in *. set (r := (length l mod n)%nat) in *. clearbody p r. lia. }
  rewrite E. rewrite skipn_app.
  pose proof (Nat.div_mod (length l) n ltac:(lia)) as D.
  replace (length l / n * n - length l)%nat with 0%nat by nia. reflexivity.
Qed.
Lemma group_len n l : (0 < n)%nat -> l <> [] -> (length (group (Some n) l) = S ((length l - 1) mod n))%nat.
Proof.
  intros Hn Hl. unfold group. rewrite skipn_length. destruct l as [|y l]; [congruence|]. cbn [length].
  pose proof (Nat.div_mod (S (length l) - 1) n ltac:(lia)) as D. nia.
Qed.

(** ** Counters *)
Lemma get_width_big n : 0 < n -> n < 2 ^ (get_width n + 1).
Proof.
  intros H. unfold get_width. destruct (Z.eqb_spec n 0); [lia|]. rewrite Z.abs_eq by lia.
  pose proof (Z.log2_spec n H) as [_ L]. pose proof (Z.log2_nonneg n). 
  replace (Z.log2 n + 1 + 1 + 1) with (Z.succ (Z.log2 n) + 2) by lia. rewrite Z.pow_add_r by lia. nia.
Qed.
Definition cnt_ok (c : acc) (l : list Z) (cnt : Z) : Prop :=
  match x_size c with Some n => cnt = Z.of_nat (length l mod Z.to_nat n) | None => True end.
Lemma next_count_ok c l cnt x : (forall n, x_size c = Some n -> 0 < n) -> cnt_ok c l cnt -> cnt_ok c (l ++ [x]) (next_count c cnt).
Proof.
  unfold cnt_ok, next_count. intros Hn. destruct (x_size c) as [n|]; [|trivial]. specialize (Hn n eq_refl). intros ->.
  rewrite app_length. cbn [length].
  set (L := length l). set (m := Z.to_nat n). assert (Em : Z.of_nat m = n) by (unfold m; lia).
  assert (Hm : (m <> 0)%nat) by lia.
  pose proof (Nat.mod_upper_bound L m Hm) as U. pose proof (Nat.div_mod L m Hm) as D.
  destruct (Z.eqb_spec (Z.of_nat (L mod m)) (n - 1)) as [E|E].
  - rewrite <- (Nat.mod_unique (L + 1) m (S (L / m)) 0); [reflexivity|lia|]. nia.
  - rewrite <- (Nat.mod_unique (L + 1) m (L / m) (S (L mod m))); [|lia|lia].
    unfold to_count, uns. pose proof (get_width_big n Hn). rewrite Z.mod_small; lia.
Qed.
Lemma cnt_zero c n l cnt : x_size c = Some n -> 0 < n -> cnt_ok c l cnt -> (cnt =? 0) = (length l mod Z.to_nat n =? 0)%nat.
Proof.
  intros E Hn. unfold cnt_ok. rewrite E. intros ->.
  destruct (Z.eqb_spec (Z.of_nat (length l mod Z.to_nat n)) 0), (Nat.eqb_spec (length l mod Z.to_nat n) 0); try reflexivity; lia.
Qed.

(** ** Folds *)
Definition size_pos (c : acc) : Prop := forall n, x_size c = Some n -> 0 < n.
Definition size_nat (c : acc) : option nat := option_map Z.to_nat (x_size c).
Definition cutop (c : acc) (v x : Z) : Z := to_reg c (apply_ops c v x).
Definition start_ok (c : acc) : Prop := forall x, cutop c (to_reg c (x_init c)) x = cutop c (x_init c) x.
Definition fold_spec (c : acc) (ws : list word) : Z := fold_left (cutop c) (group (size_nat c) (taken ws)) (to_reg c (x_init c)).
(** what the data register shows when the current words are [l], [v0] before any of them *)
Definition shows (c : acc) (v0 : Z) (l : list Z) : Z :=
  match l with
  | [] => v0
  | _ => if is_pulse c then to_reg c (b2z (match size_nat c with Some n => (length (group (Some n) l) =? n)%nat | None => false end))
         else fold_left (cutop c) (group (size_nat c) l) (to_reg c (x_init c))
  end.
Definition inv (c : acc) (v0 : Z) (l : list Z) (st : list Z) : Prop := nth 0 st 0 = shows c v0 l /\ cnt_ok c l (nth 1 st 0).

Lemma acc_state_S c A k : op_state (op_acc c) A (S k) = fst (acc_fun c (op_state (op_acc c) A k) (A k)).
Proof. reflexivity. Qed.
Definition words_of (c : acc) (A : nat -> list Z) (k : nat) : list word := map (fun j => mkword c (A j)) (seq 0 k).
Lemma words_of_S c A k : words_of c A (S k) = words_of c A k ++ [mkword c (A k)].
Proof. unfold words_of. rewrite seq_S, map_app. reflexivity. Qed.
Lemma shows_snoc c v0 n l x cnt : x_size c = Some n -> 0 < n -> start_ok c \/ is_pulse c = true -> cnt_ok c l cnt ->
  shows c v0 (l ++ [x]) = to_reg c (if (cnt =? 0) then reset_value c cnt x else acc_value c (shows c v0 l) cnt x).
Proof.
  intros Es Hn H0 Hc. rewrite (cnt_zero c n l cnt Es Hn Hc). unfold reset_value, acc_value, at_last. rewrite Es.
  assert (NE : forall v, shows c v (l ++ [x]) = if is_pulse c then to_reg c (b2z (length (group (Some (Z.to_nat n)) (l ++ [x])) =? Z.to_nat n)%nat)
         else fold_left (cutop c) (group (Some (Z.to_nat n)) (l ++ [x])) (to_reg c (x_init c))).
  { intros v. unfold shows, size_nat. rewrite Es. cbn [option_map]. destruct (l ++ [x]) eqn:E; [destruct l; discriminate E|]. reflexivity. }
  rewrite NE. destruct (is_pulse c) eqn:Ep.
  - assert (B : (length (group (Some (Z.to_nat n)) (l ++ [x])) =? Z.to_nat n)%nat = (cnt =? n - 1)).
    { rewrite group_len; [|lia|destruct l; discriminate]. rewrite app_length. cbn [length]. replace (length l + 1 - 1)%nat with (length l) by lia.
      unfold cnt_ok in Hc. rewrite Es in Hc. subst cnt.
      destruct (Nat.eqb_spec (S (length l mod Z.to_nat n)) (Z.to_nat n)), (Z.eqb_spec (Z.of_nat (length l mod Z.to_nat n)) (n - 1)); try reflexivity; lia. }
    rewrite B. destruct (_ =? 0)%nat; reflexivity.
  - destruct H0 as [H0|H0]; [|discriminate H0]. destruct (Nat.eqb_spec (length l mod Z.to_nat n) 0) as [M|M].
    + rewrite group_snoc_new by (assumption || lia). cbn [fold_left]. apply H0.
    + rewrite group_snoc_old by (assumption || lia). rewrite fold_left_app. cbn [fold_left]. unfold shows. rewrite Ep. unfold size_nat. rewrite Es. cbn [option_map].
      destruct l as [|y l]; [exfalso; apply M; apply Nat.mod_0_l; lia|]. reflexivity.
Qed.
Lemma sized_step c v0 n l st a : x_size c = Some n -> 0 < n -> start_ok c \/ is_pulse c = true -> opnd_r c a = false ->
  inv c v0 l st -> inv c v0 (if opnd_e c a then l ++ [opnd_x a] else l) (fst (acc_fun c st a)).
Proof.
  intros Es Hn H0 Hr [Hd Hc]. unfold acc_fun. cbn [fst]. unfold inv. cbn [nth]. rewrite Hr.
  assert (He : x_en c = false -> opnd_e c a = true) by (unfold opnd_e; intros ->; reflexivity).
  pose proof (shows_snoc c v0 n l (opnd_x a) _ Es Hn H0 Hc) as Hx. rewrite <- Hd in Hx.
  assert (HN := next_count_ok c l (nth 1 st 0) (opnd_x a) ltac:(intros m Hm; rewrite Es in Hm; injection Hm as <-; exact Hn) Hc).
  unfold data_assigns, count_assigns, sized. rewrite Es.
  destruct (x_en c); [destruct (opnd_e c a)|rewrite (He eq_refl)]; destruct (x_rst c); unfold assigns; cbn [fold_left fst snd andb];
    (split; [|assumption]); try assumption; rewrite Hx; destruct (_ =? 0); reflexivity.
Qed.
Lemma unsized_step c l st a : x_size c = None -> start_ok c ->
  inv c (to_reg c (x_init c)) l st -> inv c (to_reg c (x_init c)) ((if opnd_r c a then [] else l) ++ (if opnd_e c a then [opnd_x a] else [])) (fst (acc_fun c st a)).
Proof.
  intros Es H0 [Hd _]. assert (Hp : is_pulse c = false) by (unfold is_pulse; rewrite Es; reflexivity).
  assert (S : forall m, shows c (to_reg c (x_init c)) m = fold_left (cutop c) m (to_reg c (x_init c))).
  { intros m. unfold shows, size_nat. rewrite Hp, Es. destruct m; reflexivity. }
  unfold inv in *. rewrite S in Hd |- *. split; [|unfold cnt_ok; rewrite Es; trivial].
  unfold acc_fun. cbn [fst nth].
  assert (Hr : x_rst c = false -> opnd_r c a = false) by (unfold opnd_r; intros ->; reflexivity).
  assert (He : x_en c = false -> opnd_e c a = true) by (unfold opnd_e; intros ->; reflexivity).
  unfold data_assigns, acc_value, reset_value, sized. rewrite Hp, Es.
  change (to_reg c (apply_ops c (nth 0 st 0) (opnd_x a))) with (cutop c (nth 0 st 0) (opnd_x a)).
  change (to_reg c (apply_ops c (x_init c) (opnd_x a))) with (cutop c (x_init c) (opnd_x a)).
  destruct (x_rst c); [clear Hr|rewrite (Hr eq_refl); clear Hr]; (destruct (x_en c); [clear He|rewrite (He eq_refl); clear He]);
      unfold assigns; cbn [fold_left fst snd]; try destruct (opnd_e c a); try destruct (opnd_r c a); cbn [andb app];
      rewrite ?app_nil_r, ?fold_left_app; cbn [fold_left]; rewrite <- ?Hd; try rewrite H0; reflexivity.
Qed.
Definition ordinary (c : acc) : Prop := x_rst c = false \/ x_size c = None.
Lemma inv0 c v0 : size_pos c -> inv c v0 [] [v0; 0].
Proof. intros H. split; [reflexivity|]. unfold cnt_ok. destruct (x_size c) as [n|] eqn:E; [|trivial]. specialize (H n E). cbn [length nth]. rewrite Nat.mod_0_l by lia. reflexivity. Qed.
Lemma inv_run c A k : size_pos c -> start_ok c \/ is_pulse c = true -> ordinary c ->
  inv c (to_reg c (x_init c)) (taken (words_of c A k)) (op_state (op_acc c) A k).
Proof.
  intros Hs H0 Ho. induction k as [|k IH]; [apply inv0, Hs|].
  rewrite acc_state_S, words_of_S. unfold mkword. rewrite taken_snoc.
  destruct (x_size c) as [n|] eqn:Es.
  - destruct Ho as [Ho|Ho]; [|congruence]. assert (R : opnd_r c (A k) = false) by (unfold opnd_r; rewrite Ho; reflexivity).
    rewrite R. pose proof (sized_step c _ n _ _ _ Es (Hs n Es) H0 R IH) as X. destruct (opnd_e c (A k)); [exact X|]. rewrite app_nil_r. exact X.
  - apply unsized_step; [exact Es| |exact IH]. destruct H0 as [H0|H0]; [exact H0|]. unfold is_pulse in H0. rewrite Es in H0. discriminate H0.
Qed.
Lemma acc_out c st l : snd (acc_fun c st l) = nth 0 (fst (acc_fun c st l)) 0.
Proof. reflexivity. Qed.
Lemma value_ok c A k : size_pos c -> start_ok c \/ is_pulse c = true -> ordinary c ->
  op_value (op_acc c) A k = shows c (to_reg c (x_init c)) (taken (words_of c A (S k))).
Proof.
  intros Hs H0 Hpl. unfold op_value. cbn [op_fun op_acc]. rewrite acc_out.
  destruct (inv_run c A (S k) Hs H0 Hpl) as [E _]. rewrite acc_state_S in E. exact E.
Qed.
Lemma shows_fold c l : is_pulse c = false -> shows c (to_reg c (x_init c)) l = fold_left (cutop c) (group (size_nat c) l) (to_reg c (x_init c)).
Proof. intros Hp. unfold shows. rewrite Hp. destruct l; [|reflexivity]. unfold size_nat. destruct (x_size c); cbn [option_map group]; rewrite ?skipn_nil; reflexivity. Qed.
Lemma fold_ok c A k : size_pos c -> start_ok c -> is_pulse c = false -> ordinary c ->
  op_value (op_acc c) A k = fold_spec c (words_of c A (S k)).
Proof. intros Hs H0 Hp Ho. rewrite value_ok by auto. apply shows_fold, Hp. Qed.

(** ** After a reset, with a size *)
Lemma reset_state c n st a : x_size c = Some n -> x_rst c = true -> opnd_r c a = true -> opnd_e c a = true ->
  fst (acc_fun c st a) = [to_reg c (reset_value c (nth 1 st 0) (opnd_x a)); 0].
Proof.
  intros Es Hr R E. unfold acc_fun. rewrite R, E. cbn [fst]. unfold data_assigns, count_assigns, sized. rewrite Es, Hr.
  destruct (x_en c); unfold assigns; cbn [fold_left fst snd andb]; destruct (_ =? 0); reflexivity.
Qed.
Lemma after_reset c n A j i : x_size c = Some n -> 0 < n -> start_ok c \/ is_pulse c = true -> x_rst c = true ->
  opnd_r c (A j) = true -> opnd_e c (A j) = true -> (forall m, (j < m <= j + i)%nat -> opnd_r c (A m) = false) ->
  inv c (op_value (op_acc c) A j) (taken (words_of c (fun m => A (S j + m)%nat) i)) (op_state (op_acc c) A (S j + i)).
Proof.
  intros Es Hn H0 Hr R E Hl. induction i as [|i IH].
  - rewrite Nat.add_0_r. rewrite acc_state_S. unfold op_value. cbn [op_fun op_acc]. rewrite acc_out.
    rewrite (reset_state c n _ _ Es Hr R E). cbn [nth]. apply inv0. intros m Hm. rewrite Es in Hm. injection Hm as <-. exact Hn.
  - replace (S j + S i)%nat with (S (S j + i)) by lia. rewrite acc_state_S, words_of_S. unfold mkword. rewrite taken_snoc.
    assert (Q : opnd_r c (A (S j + i)%nat) = false) by (apply Hl; lia). rewrite Q.
    pose proof (sized_step c _ n _ _ (A (S j + i)%nat) Es Hn H0 Q (IH ltac:(intros; apply Hl; lia))) as X.
    destruct (opnd_e c (A (S j + i)%nat)); [exact X|]. rewrite app_nil_r. exact X.
Qed.

(** ** Particular operators *)
Lemma to_reg_add c a x : 0 <= x_width c -> is_pulse c = false -> to_reg c (to_reg c a + x) = to_reg c (a + x).
Proof. intros H Hp. unfold to_reg. rewrite Hp. apply Reduce_Proofs.value_add, H. Qed.
Lemma to_reg_congr c a b : a mod 2 ^ x_width c = b mod 2 ^ x_width c -> is_pulse c = false -> to_reg c a = to_reg c b.
Proof. intros H Hp. unfold to_reg. rewrite Hp. apply Reduce_Proofs.value_congr, H. Qed.
Lemma to_reg_mod c a : 0 <= x_width c -> is_pulse c = false -> to_reg c a mod 2 ^ x_width c = a mod 2 ^ x_width c.
Proof. intros H Hp. unfold to_reg. rewrite Hp. apply value_mod, H. Qed.
Lemma fold_reg c (f : Z -> Z -> Z) (l : list Z) v : is_pulse c = false -> (forall a x, to_reg c (f (to_reg c a) x) = to_reg c (f a x)) -> 
  fold_left (fun v x => to_reg c (f v x)) l (to_reg c v) = to_reg c (fold_left f l v).
Proof. intros Hp H. revert v. induction l as [|x l IH]; intros v; [reflexivity|]. cbn [fold_left]. rewrite H. apply IH. Qed.
(** the operators that keep remainders *)
Lemma add_keeps c a x : 0 <= x_width c -> is_pulse c = false -> to_reg c (to_reg c a + x) = to_reg c (a + x).
Proof. intros H Hp. apply to_reg_congr; [|exact Hp]. rewrite <- Zplus_mod_idemp_l, to_reg_mod, Zplus_mod_idemp_l by assumption. reflexivity. Qed.
Lemma sub_keeps c a x : 0 <= x_width c -> is_pulse c = false -> to_reg c (to_reg c a - x) = to_reg c (a - x).
Proof. intros H Hp. apply to_reg_congr; [|exact Hp]. rewrite <- Zminus_mod_idemp_l, to_reg_mod, Zminus_mod_idemp_l by assumption. reflexivity. Qed.
Lemma mul_keeps c a x : 0 <= x_width c -> is_pulse c = false -> to_reg c (to_reg c a * x) = to_reg c (a * x).
Proof. intros H Hp. apply to_reg_congr; [|exact Hp]. rewrite <- Zmult_mod_idemp_l, to_reg_mod, Zmult_mod_idemp_l by assumption. reflexivity. Qed.
Lemma fold_add l v : fold_left Z.add l v = v + fold_right Z.add 0 l.
Proof. revert v. induction l as [|x l IH]; intros v; cbn; [lia|]. rewrite IH. lia. Qed.
Lemma fold_sub l v : fold_left Z.sub l v = v - fold_right Z.add 0 l.
Proof. revert v. induction l as [|x l IH]; intros v; cbn; [lia|]. rewrite IH. lia. Qed.
Lemma fold_mul l v : fold_left Z.mul l v = v * fold_right Z.mul 1 l.
Proof. revert v. induction l as [|x l IH]; intros v; cbn; [lia|]. rewrite IH. lia. Qed.
Lemma fold_step (l : list Z) s v : fold_left (fun x _ => x + s) l v = v + s * Z.of_nat (length l).
Proof. revert v. induction l as [|x l IH]; intros v; cbn [fold_left length]; [lia|]. rewrite IH. lia. Qed.
Lemma reduce_ok (f : Z -> Z -> Z) c A k : size_pos c -> x_ops c = [f] -> is_pulse c = false -> ordinary c -> (forall a x, to_reg c (f (to_reg c a) x) = to_reg c (f a x)) ->
  op_value (op_acc c) A k = to_reg c (fold_left f (group (size_nat c) (taken (words_of c A (S k)))) (x_init c)).
Proof.
  intros Hs Ef Hp Ho K. rewrite fold_ok; try assumption.
  - unfold fold_spec. rewrite <- (fold_reg c f) by assumption. unfold cutop, apply_ops. rewrite Ef. reflexivity.
  - intros x. unfold cutop, apply_ops. rewrite Ef. cbn [fold_left]. apply K.
Qed.
Lemma not_pulse c f : x_ops c = [f] -> is_pulse c = false.
Proof. intros H. unfold is_pulse. rewrite H. destruct (x_size c); reflexivity. Qed.

(** ** A product that starts at 0 *)
Lemma assigns_all (P : Z -> Prop) l old : P old -> Forall (fun a => P (snd a)) l -> P (assigns l old).
Proof. intros H F. unfold assigns. revert old H. induction F as [|a l Ha F IH]; intros old H; [exact H|]. cbn [fold_left]. apply IH. destruct (fst a); assumption. Qed.
Lemma mul_state sz en rst w sg A k : 1 <= w -> nth 0 (op_state (op_acc (reduce_mul sz 0 en rst w sg)) A k) 0 = 0.
Proof.
  intros Hw. set (c := reduce_mul sz 0 en rst w sg). assert (Hp : is_pulse c = false) by (unfold c; destruct sz; reflexivity).
  assert (Z0 : to_reg c 0 = 0).
  { unfold to_reg. rewrite Hp. unfold value, sgn, uns. rewrite Z.mod_0_l by (apply Z.pow_nonzero; cbn; lia). 
    pose proof (Z.pow_pos_nonneg 2 (x_width c - 1) ltac:(lia) ltac:(cbn; lia)). destruct (x_signed c); [|reflexivity]. destruct (Z.ltb_spec 0 (2 ^ (x_width c - 1))); lia. }
  induction k as [|k IH].
  - exact Z0.
  - rewrite acc_state_S. unfold acc_fun. cbn [fst nth]. apply (assigns_all (fun v => v = 0)); [exact IH|].
    unfold data_assigns, acc_value, reset_value, apply_ops. rewrite Hp, IH. cbn [c reduce_mul reduce x_ops fold_left x_init x_en x_rst]. fold c.
    change (sized c) with (match sz with Some _ => true | None => false end).
    destruct en, rst, sz; cbn [snd]; repeat constructor; cbn [snd]; exact Z0.
Qed.

(** ** Streams of operands *)
Lemma mkword_at c X E R k : x_en c = given E -> x_rst c = given R -> mkword c (operands X E R k) = word_at X E R k.
Proof. intros HE HR. unfold mkword, opnd_x, opnd_e, opnd_r, word_at. rewrite HE, HR. destruct E, R; reflexivity. Qed.
Lemma words_upto c X E R k : x_en c = given E -> x_rst c = given R -> words_of c (operands X E R) (S k) = upto (word_at X E R) k.
Proof. intros HE HR. unfold words_of, upto. apply map_ext. intros j. apply mkword_at; assumption. Qed.
Lemma opargs_at g I a (e r : option nat) k : opargs g I (a :: (match e with Some e => [e] | None => [] end) ++ (match r with Some r => [r] | None => [] end)) k =
  operands (den g I a) (option_map (den g I) e) (option_map (den g I) r) k.
Proof. unfold opargs, operands. destruct e, r; reflexivity. Qed.
