(** C67: the accumulators of the dataflow library. *)
From Verif Require Import Base Bits Dflow_Model Dflow_Spec Dflow_Proofs Dsched_Model Dsched_Spec Dsched_Proofs Dacc_Model Dacc_Spec Dacc_Proofs.
From Verif Require Reduce_Proofs.
Open Scope Z_scope.

(** The word an accumulator gives for its [k]-th operands is the fold of its operators over the
    current group: the enabled words since the last reset, in groups of [size].  Reset and size
    together are excluded (see below). *)
Theorem C67_fold_partial : forall c X E R k, x_en c = given E -> x_rst c = given R ->
  (forall n, x_size c = Some n -> 0 < n) -> R = None \/ x_size c = None -> x_ops c <> [] ->
  let cut := value (x_width c) (x_signed c) in
  let op := fun v x => cut (fold_left (fun v (f : Z -> Z -> Z) => f v x) (x_ops c) v) in
  (forall x, op (cut (x_init c)) x = op (x_init c) x) ->
  op_value (op_acc c) (operands X E R) k = fold_left op (group (option_map Z.to_nat (x_size c)) (taken (upto (word_at X E R) k))) (cut (x_init c)).
Proof.
  intros c X E R k HE HR Hs Ho Hn cut op H0.
  assert (Hp : is_pulse c = false) by (unfold is_pulse; destruct (x_size c), (x_ops c); try reflexivity; congruence).
  assert (T : forall v, to_reg c v = cut v) by (intros v; unfold to_reg; rewrite Hp; reflexivity).
  rewrite fold_ok; [|exact Hs| |exact Hp|destruct Ho as [-> |Ho]; [left; exact HR|right; exact Ho]].
  - unfold fold_spec. rewrite words_upto by assumption. rewrite T. unfold cutop. apply (Reduce_Proofs.fold_ext). intros a b. apply T.
  - intros x. unfold cutop, apply_ops. rewrite !T. apply H0.
Qed.
Print Assumptions C67_fold_partial.
(** Sums, differences and products, modulo the width of the register. *)
Theorem C67_add_partial : forall sz iv w sg X E R k, 0 <= w -> (forall n, sz = Some n -> 0 < n) -> R = None \/ sz = None ->
  op_value (op_acc (reduce_add sz iv (given E) (given R) w sg)) (operands X E R) k =
  value w sg (iv + fold_right Z.add 0 (group (option_map Z.to_nat sz) (taken (upto (word_at X E R) k)))).
Proof.
  intros sz iv w sg X E R k Hw Hs Ho. set (c := reduce_add sz iv (given E) (given R) w sg). pose proof (not_pulse c _ eq_refl) as Hp.
  rewrite (reduce_ok Z.add c); [|exact Hs|reflexivity|exact Hp|destruct Ho as [-> |Ho]; [left; reflexivity|right; exact Ho]|intros; apply add_keeps; assumption].
  rewrite words_upto, fold_add by reflexivity. unfold to_reg. rewrite Hp. reflexivity.
Qed.
Print Assumptions C67_add_partial.
Theorem C67_sub_partial : forall sz iv w sg X E R k, 0 <= w -> (forall n, sz = Some n -> 0 < n) -> R = None \/ sz = None ->
  op_value (op_acc (reduce_sub sz iv (given E) (given R) w sg)) (operands X E R) k =
  value w sg (iv - fold_right Z.add 0 (group (option_map Z.to_nat sz) (taken (upto (word_at X E R) k)))).
Proof.
  intros sz iv w sg X E R k Hw Hs Ho. set (c := reduce_sub sz iv (given E) (given R) w sg). pose proof (not_pulse c _ eq_refl) as Hp.
  rewrite (reduce_ok Z.sub c); [|exact Hs|reflexivity|exact Hp|destruct Ho as [-> |Ho]; [left; reflexivity|right; exact Ho]|intros; apply sub_keeps; assumption].
  rewrite words_upto, fold_sub by reflexivity. unfold to_reg. rewrite Hp. reflexivity.
Qed.
Print Assumptions C67_sub_partial.
Theorem C67_mul_partial : forall sz iv w sg X E R k, 0 <= w -> (forall n, sz = Some n -> 0 < n) -> R = None \/ sz = None ->
  op_value (op_acc (reduce_mul sz iv (given E) (given R) w sg)) (operands X E R) k =
  value w sg (iv * fold_right Z.mul 1 (group (option_map Z.to_nat sz) (taken (upto (word_at X E R) k)))).
Proof.
  intros sz iv w sg X E R k Hw Hs Ho. set (c := reduce_mul sz iv (given E) (given R) w sg). pose proof (not_pulse c _ eq_refl) as Hp.
  rewrite (reduce_ok Z.mul c); [|exact Hs|reflexivity|exact Hp|destruct Ho as [-> |Ho]; [left; reflexivity|right; exact Ho]|intros; apply mul_keeps; assumption].
  rewrite words_upto, fold_mul by reflexivity. unfold to_reg. rewrite Hp. reflexivity.
Qed.
Print Assumptions C67_mul_partial.
(** A counter starts at its initial value, goes up by [step] per enabled word, and starts again after
    [size] words. *)
Theorem C67_counter_partial : forall step sz iv w sg X E R k, 0 <= w -> (forall n, sz = Some n -> 0 < n) -> R = None \/ sz = None ->
  let L := length (taken (upto (word_at X E R) k)) in (0 < L)%nat ->
  op_value (op_acc (counter step sz iv (given E) (given R) w sg)) (operands X E R) k =
  value w sg (iv + step * Z.of_nat (match sz with Some n => (L - 1) mod Z.to_nat n | None => L - 1 end)).
Proof.
  intros step sz iv w sg X E R k Hw Hs Ho L HL. set (c := counter step sz iv (given E) (given R) w sg). pose proof (not_pulse c _ eq_refl) as Hp.
  rewrite (reduce_ok (fun x _ => x + step) c); [|exact Hs|reflexivity|exact Hp|destruct Ho as [-> |Ho]; [left; reflexivity|right; exact Ho]|intros; apply add_keeps; assumption].
  rewrite words_upto, fold_step by reflexivity. unfold to_reg. rewrite Hp. cbn [c counter x_init x_width x_signed]. f_equal.
  unfold size_nat. cbn [c counter x_size]. set (l := taken (upto (word_at X E R) k)) in *.
  assert (l <> []) by (intros EE; unfold L in HL; rewrite EE in HL; inversion HL).
  destruct sz as [n|]; cbn [option_map].
  - specialize (Hs n eq_refl). rewrite group_len by (assumption || lia). fold L. lia.
  - cbn [group]. fold L. replace (Z.of_nat (L - 1)) with (Z.of_nat L - 1) by lia. ring.
Qed.
Print Assumptions C67_counter_partial.
(** A pulse is up on the last word of every group (and stays up while no word is enabled). *)
Theorem C67_pulse_partial : forall n X E k, 0 < n ->
  let L := length (taken (upto (word_at X E None) k)) in
  op_value (op_acc (pulse n (given E) false)) (operands X E None) k = b2z ((0 <? L)%nat && (L mod Z.to_nat n =? 0)%nat).
Proof.
  intros n X E k Hn L. set (c := pulse n (given E) false).
  rewrite value_ok; [|intros m Hm; injection Hm as <-; exact Hn|right; reflexivity|left; reflexivity].
  rewrite words_upto by reflexivity. unfold L. set (l := taken (upto (word_at X E None) k)). clearbody l. clear L.
  assert (T : forall b, to_reg c (b2z b) = b2z b) by (intros [|]; reflexivity).
  destruct l as [|y l]; [reflexivity|]. cbn [shows]. cbn [size_nat c x_size pulse option_map]. change (is_pulse c) with true. cbn iota.
  rewrite T. f_equal. rewrite group_len by (lia || discriminate). cbn [length]. replace (0 <? S (length l))%nat with true by reflexivity. cbn [andb].
  replace (S (length l) - 1)%nat with (length l) by lia. set (m := Z.to_nat n). assert (Hm : (m <> 0)%nat) by lia.
  pose proof (Nat.mod_upper_bound (length l) m Hm) as U. pose proof (Nat.div_mod (length l) m Hm) as D.
  destruct (Nat.eqb_spec (S (length l mod m)) m) as [Q|Q].
  - rewrite <- (Nat.mod_unique (S (length l)) m (S (length l / m)) 0); [reflexivity|lia|]. nia.
  - rewrite <- (Nat.mod_unique (S (length l)) m (length l / m) (S (length l mod m))); [reflexivity|lia|lia].
Qed.
Print Assumptions C67_pulse_partial.
(** A node of a graph computes this from the streams of its operands; with C65 and C66, so does the circuit. *)
Theorem C67_node : forall g I n c a e r k, legal g -> (n < size g)%nat ->
  node g n = NOp (op_acc c) (a :: (match e with Some e => [e] | None => [] end) ++ (match r with Some r => [r] | None => [] end)) ->
  den g I n k = op_value (op_acc c) (operands (den g I a) (option_map (den g I) e) (option_map (den g I) r)) k.
Proof.
  intros g I n c a e r k Hg Hn En. rewrite (den_node g Hg I n k Hn), En. apply op_value_ext. intros j. apply opargs_at.
Qed.
Print Assumptions C67_node.

(** ** Reset and size together *)
(** What an enabled reset does then: its word is a group of its own, and the words after it are
    counted from the beginning. *)
Theorem C67_after_reset : forall c n X E r j i, x_en c = given E -> x_rst c = true -> x_size c = Some n -> 0 < n -> x_ops c <> [] ->
  let cut := value (x_width c) (x_signed c) in
  let op := fun v x => cut (fold_left (fun v (f : Z -> Z -> Z) => f v x) (x_ops c) v) in
  (forall x, op (cut (x_init c)) x = op (x_init c) x) ->
  r j <> 0 -> (match E with Some e => e j <> 0 | None => True end) -> (forall m, (j < m <= j + i)%nat -> r m = 0) ->
  let l := taken (map (word_at X E (Some r)) (seq (S j) i)) in
  op_value (op_acc c) (operands X E (Some r)) (j + i) =
  match l with [] => op (x_init c) (X j) | _ => fold_left op (group (Some (Z.to_nat n)) l) (cut (x_init c)) end.
Proof.
  intros c n X E r j i HE HR Es Hn Ho cut op H0 Rj Ej Hl l.
  assert (Hp : is_pulse c = false) by (unfold is_pulse; rewrite Es; destruct (x_ops c); [congruence|reflexivity]).
  assert (T : forall v, to_reg c v = cut v) by (intros v; unfold to_reg; rewrite Hp; reflexivity).
  assert (RR : forall m, opnd_r c (operands X E (Some r) m) = negb (r m =? 0)) by (intros m; pose proof (mkword_at c X E (Some r) m HE HR) as Q; unfold mkword, word_at in Q; congruence).
  assert (EE : opnd_e c (operands X E (Some r) j) = true).
  { pose proof (mkword_at c X E (Some r) j HE HR) as Q. unfold mkword, word_at in Q. destruct E as [e|]; [|congruence].
    replace (negb (e j =? 0)) with true in Q by (destruct (Z.eqb_spec (e j) 0); [contradiction|reflexivity]). congruence. }
  assert (RJ : opnd_r c (operands X E (Some r) j) = true) by (rewrite RR; destruct (Z.eqb_spec (r j) 0); [contradiction|reflexivity]).
  assert (HH := after_reset c n (operands X E (Some r)) j i Es Hn ltac:(left; intros x; unfold cutop, apply_ops; rewrite !T; apply H0) HR RJ EE
     ltac:(intros m Hm; rewrite RR, (Hl m Hm); reflexivity)).
  assert (V : op_value (op_acc c) (operands X E (Some r)) j = op (x_init c) (X j)).
  { unfold op_value. cbn [op_fun op_acc]. rewrite acc_out, (reset_state c n _ _ Es HR RJ EE). cbn [nth]. unfold reset_value. rewrite Hp, T. reflexivity. }
  assert (W : words_of c (fun m => operands X E (Some r) (S j + m)%nat) i = map (word_at X E (Some r)) (seq (S j) i)).
  { unfold words_of. transitivity (map (word_at X E (Some r)) (map (fun m => (S j + m)%nat) (seq 0 i))).
    - rewrite map_map. apply map_ext. intros m. apply mkword_at; assumption.
    - f_equal. assert (Q : forall b i a, map (fun m => (b + m)%nat) (seq a i) = seq (b + a) i).
      { clear. intros b. induction i as [|i IH]; intros a; [reflexivity|]. cbn [seq map]. f_equal. rewrite (IH (S a)). f_equal. lia. }
      rewrite Q, Nat.add_0_r. reflexivity. }
  rewrite W in HH. fold l in HH. rewrite V in HH.
  destruct i as [|i].
  - rewrite Nat.add_0_r. unfold l. cbn. exact V.
  - destruct HH as [HH _]. replace (S j + S i)%nat with (S (j + S i)) in HH by lia. rewrite acc_state_S in HH. unfold op_value. cbn [op_fun op_acc]. rewrite acc_out, HH.
    unfold shows. rewrite Hp. unfold size_nat. rewrite Es, T. cbn [option_map]. destruct l; [reflexivity|].
    apply Reduce_Proofs.fold_ext. intros a b. apply T.
Qed.
Print Assumptions C67_after_reset.
(** So with a size the word of a reset does not open the group of the words after it, as it does
    without one: a sum of groups of 3 over 1, 2, 3 with a reset on the first shows 2 for the second word,
    not 3. *)
Definition at_list (l : list Z) (k : nat) : Z := nth k l 0.
Theorem C67_reset_size_refuted :
  ~ (forall n X r k, 0 < n -> op_value (op_acc (reduce_add (Some n) 0 false true 8 false)) (operands X None (Some r)) k =
       value 8 false (fold_right Z.add 0 (group (Some (Z.to_nat n)) (taken (upto (word_at X None (Some r)) k))))).
Proof. intros H. specialize (H 3 (at_list [1; 2; 3]) (at_list [1]) 1%nat eq_refl). vm_compute in H. discriminate H. Qed.
Print Assumptions C67_reset_size_refuted.
(** A reset on a word that is not enabled clears the sum but not the position in the group. *)
Theorem C67_reset_disabled_refuted :
  ~ (forall n X e r k, 0 < n -> (forall m, r m <> 0 -> e m = 0) -> op_value (op_acc (reduce_add (Some n) 0 true true 8 false)) (operands X (Some e) (Some r)) k =
       value 8 false (fold_right Z.add 0 (group (Some (Z.to_nat n)) (taken (upto (word_at X (Some e) (Some r)) k))))).
Proof.
  intros H. specialize (H 3 (at_list [1; 2; 3; 4; 5]) (at_list [1; 0; 1; 1; 1]) (at_list [0; 1]) 4%nat eq_refl).
  assert (Q : forall m, at_list [0; 1] m <> 0 -> at_list [1; 0; 1; 1; 1] m = 0) by (intros [|[|[|m]]]; cbn; congruence).
  specialize (H Q). vm_compute in H. discriminate H.
Qed.
Print Assumptions C67_reset_disabled_refuted.
(** [ReduceMul] starts at 0 unless told otherwise, so its words are all 0. *)
Theorem C67_product_zero : forall sz en rst w sg A k, 1 <= w -> op_value (op_acc (reduce_mul sz 0 en rst w sg)) A k = 0.
Proof. intros. unfold op_value. cbn [op_fun op_acc]. rewrite acc_out, <- acc_state_S. apply mul_state. assumption. Qed.
Print Assumptions C67_product_zero.

(** ** At work: the sums of groups of 3 enabled words, and their pulse, in a scheduled circuit with
    pauses *)
Definition ga : graph := mkGraph [NIn; NIn; NOp (op_acc (reduce_add (Some 3) 0 true false 8 false)) [0; 1]%nat; NOp (op_acc (pulse 3 true false)) [0; 1]%nat] [2; 3]%nat.
Definition fd (x e : Z) (b : bool) : din := mkDin (fun n => (n <? 2)%nat) (fun n => if (n =? 0)%nat then x else e) (fun _ => b).
Definition qt (b : bool) : din := mkDin (fun _ => false) (fun _ => 0) (fun _ => b).
Definition ins_a : list din := [fd 100 1 true; qt true; fd 100 1 true; fd 7 0 false; fd 7 0 true; fd 100 1 true; fd 9 0 true; fd 5 1 true; fd 6 1 true; qt true].
Example ga_runs : received (schedule ga) 2 (dinit (schedule ga)) ins_a = [100; 200; 200; 44; 44; 5; 11] /\
  received (schedule ga) 3 (dinit (schedule ga)) ins_a = [0; 0; 0; 1; 1; 0; 0].
Proof. vm_compute. split; reflexivity. Qed.
Example ga_ok : legal ga /\ driven ga.
Proof. split; [apply legalb_ok; reflexivity|apply drivenb_ok; reflexivity]. Qed.
Example ga_spec : map (fun k => value 8 false (fold_right Z.add 0 (group (Some 3%nat)
    (taken (upto (word_at (at_list [100; 100; 7; 100; 9; 5; 6]) (Some (at_list [1; 1; 0; 1; 0; 1; 1])) None) k))))) (seq 0 7) = [100; 200; 200; 44; 44; 5; 11].
Proof. reflexivity. Qed.
(** a counter in steps of 4 from 2, restarted by a reset *)
Example counter_runs : map (op_value (op_acc (counter 4 None 2 false true 32 false)) (operands (fun _ => 0) None (Some (at_list [0; 0; 0; 1])))) (seq 0 6) = [2; 6; 10; 2; 6; 10].
Proof. reflexivity. Qed.
Example counter_wraps : map (op_value (op_acc (counter 1 (Some 3) 0 false false 32 false)) (operands (fun _ => 0) None None)) (seq 0 7) = [0; 1; 2; 0; 1; 2; 0].
Proof. reflexivity. Qed.
(** the restart after a reset *)
Example restart : map (op_value (op_acc (reduce_add (Some 2) 0 false true 8 false)) (operands (at_list [1; 2; 3; 4; 5; 6; 7]) None (Some (at_list [0; 0; 0; 1])))) (seq 0 7) = [1; 3; 3; 4; 5; 11; 7].
Proof. reflexivity. Qed.
