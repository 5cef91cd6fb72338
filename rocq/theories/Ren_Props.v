(** C40 (optimizer wrapper) and C43 (renaming). *)
From Coq Require Import String.
From Verif Require Import Base Bits Vx_Model Vx_Sem Res_Model Res_Spec Res_Proofs Ren_Model Ren_Spec Ren_Proofs.
Open Scope Z_scope.

(** A renamed expression means in the renamed environment what the expression means. *)
Theorem C43_rename : forall tasks f E E' e e', rename tasks f e = Some e' -> renamed f (vars e) E E' ->
  swid E' e' = swid E e /\ ssig E' e' = ssig E e /\ forall W S, ev E' W S e' = ev E W S e.
Proof. intros tasks f E E' e e' R V. exact (rename_ok tasks f E E' e e' R V). Qed.
(** For an injective renaming every environment has a renamed one. *)
Theorem C43_environment : forall f (inv : nat -> nat) l E, (forall x, In x l -> inv (f x) = x) ->
  renamed f l E (mkEnv (fun y => dw E (inv y)) (fun y => ds E (inv y)) (fun y => val E (inv y)) (junk E)).
Proof. intros f inv l E H. split; [reflexivity|]. intros x I. cbn. rewrite (H x I). auto. Qed.
(** Prefix and postfix keep different names different, unless one is excluded and meets a renamed one. *)
Theorem C43_names : forall prefix postfix exclude x y, new_name prefix postfix exclude x = new_name prefix postfix exclude y ->
  x = y \/ (In x exclude /\ ~ In y exclude /\ x = (prefix ++ y ++ postfix)%string) \/
  (In y exclude /\ ~ In x exclude /\ y = (prefix ++ x ++ postfix)%string).
Proof.
  intros p q l x y H. unfold new_name in H.
  destruct (existsb (String.eqb x) l) eqn:EX; destruct (existsb (String.eqb y) l) eqn:EY.
  - left. exact H.
  - right. left. rewrite <- excluded_iff, <- excluded_iff. rewrite EX, EY. repeat split; [discriminate|exact H].
  - right. right. rewrite <- excluded_iff, <- excluded_iff. rewrite EX, EY. repeat split; [discriminate|symmetry; exact H].
  - left. exact (append_inj_r q x y (append_inj_l p _ _ H)).
Qed.
(** Statements without blocking assignments and loops: reading renamed copies of the sources, they
    assign the same values to the same targets. *)
Theorem C43_sources_partial : forall dw0 dw1 ds0 ds1 junk f l l' s s', Forall simple l -> src_renames f l = Some l' ->
  (forall x, In x (flat_map sources l) -> dw1 (f x) = dw0 x /\ ds1 (f x) = ds0 x /\ cur s' (f x) = cur s x) ->
  (forall x, In x (flat_map dests l) -> dw1 x = dw0 x) -> nxt s' = nxt s ->
  exists t t', run dw0 ds0 junk l s t /\ run dw1 ds1 junk l' s' t' /\ nxt t' = nxt t /\ cur t = cur s /\ cur t' = cur s' /\
  (forall u, run dw0 ds0 junk l s u -> u = t) /\ (forall u, run dw1 ds1 junk l' s' u -> u = t').
Proof.
  intros dw0 dw1 ds0 ds1 junk f l l' s s' SI R GS GD N.
  destruct (sims dw0 dw1 ds0 ds1 junk f l) with (l' := l') (a := s) (b := s') as (t & t' & A & B & CA & CB & NN); try assumption.
  - apply Forall_forall. intros x _. apply sim_all.
  - split; assumption.
  - exists t, t'. repeat split; try assumption; intros u U; eapply (proj1 (run_det _ _ _)); eassumption.
Qed.
(** Blocking assignments become nonblocking: [t = a; y <= t] assigns the old value of [t]. *)
Theorem C43_blocking_refuted : exists dw ds l l' s t t', src_renames (fun x => x) l = Some l' /\
  run dw ds 0 l s t /\ run dw ds 0 l' s t' /\ nxt t 2%nat <> nxt t' 2%nat.
Proof.
  exists (fun _ => 8), (fun _ => false), [RSub true 1 (XVar 0); RSub false 2 (XVar 1)], [RSub false 1 (XVar 0); RSub false 2 (XVar 1)],
    (mkStore (fun x => match x with 0%nat => 7 | _ => 0 end) (fun x => 0)).
  eexists _, _. split; [reflexivity|]. split; [apply run_sub, run_sub, run_nil|]. split; [apply run_sub, run_sub, run_nil|].
  vm_compute. discriminate.
Qed.
(** A loop reads its variable from the renamed copy but assigns the original: it never ends. *)
Lemma copy_loop dw ds junk i j c body s t : i <> j -> (forall a b, run dw ds junk body a b -> cur b j = cur a j) ->
  (forall a, cur a j = cur s j -> truth (env dw ds junk a) c = true) ->
  forall post, ~ loop dw ds junk i c post body s t.
Proof.
  intros N HB HC post L. induction L as [i c post body s TR|i c post body s s1 s' TR R L IH].
  - rewrite (HC s eq_refl) in TR. discriminate.
  - assert (Q : cur (set true i (assigned (env dw ds junk s1) (dw i) post) s1) j = cur s j).
    { cbn [set cur]. unfold upd. destruct (Nat.eqb_spec j i); [congruence|]. exact (HB _ _ R). }
    apply IH; auto. intros a A. apply HC. rewrite A. exact Q.
Qed.
Theorem C43_loop_refuted : exists dw ds f l l' s t, src_renames f l = Some l' /\
  (forall x, In x (flat_map sources l) -> dw (f x) = dw x /\ ds (f x) = ds x /\ cur s (f x) = cur s x) /\
  run dw ds 0 l s t /\ forall u, ~ run dw ds 0 l' s u.
Proof.
  exists (fun _ => 32), (fun _ => true), (fun x => x + 10)%nat,
    [RFor 0 (XPy 0) (XBin BLt (XVar 0) (XPy 2)) (XBin BPlus (XVar 0) (XPy 1)) [RSub false 2 (XVar 0)]].
  eexists. exists (mkStore (fun _ => 0) (fun _ => 0)). eexists. split; [reflexivity|]. split; [intros; auto|]. split.
  - eapply run_for; [|apply run_nil]. do 2 (eapply loop_step; [reflexivity|apply run_sub, run_nil|]). apply loop_end. reflexivity.
  - intros u H. inversion H as [| | |? ? ? ? ? ? ? s1 ? L R|]; subst. revert L. apply (copy_loop _ _ _ 0%nat 10%nat); [discriminate| |].
    + intros a b RB. inversion RB as [|? ? ? ? ? ? RN| | |]; subst. inversion RN; subst. reflexivity.
    + intros a A. unfold truth, self, env. cbn [ev swid ssig Vx_Sem.dw Vx_Sem.ds Vx_Sem.val Nat.add]. rewrite A. reflexivity.
Qed.

(** The optimizer wrapper returns an equivalent expression if all constants are 32 bits wide and
    signed, for every optimizer of the trees that is itself correct. *)
Theorem C40_try_optimize_partial : forall opt e E, correct_opt opt -> unsized e ->
  swid E (try_optimize opt e) = swid E e /\ ssig E (try_optimize opt e) = ssig E e /\
  forall W S, ev E W S (try_optimize opt e) = ev E W S e.
Proof.
  intros opt e E C U. change (equivalent E E e (try_optimize opt e)). unfold try_optimize.
  assert (R : equivalent E E e e) by (repeat split).
  destruct (make_df e) as [t|] eqn:D; [|exact R]. destruct (opt t) as [t'|] eqn:O; [|exact R].
  destruct (make_ast t') as [e'|] eqn:A; [|exact R]. rewrite (make_ast_reading _ _ A).
  exact (equivalent_trans E _ _ _ (make_df_vx E e t D U) (C t t' E O)).
Qed.
(** Where every operator has an entry, the wrapper returns what the optimizer made of the tree. *)
Theorem C40_result : forall opt e t t' e', make_df e = Some t -> opt t = Some t' -> make_ast t' = Some e' ->
  try_optimize opt e = reading t'.
Proof. intros opt e t t' e' D O A. unfold try_optimize. rewrite D, O, A. exact (make_ast_reading _ _ A). Qed.
(** Expressions with a condition, a selection or a concatenation are returned unchanged. *)
Theorem C40_unsupported : forall opt e, make_df e = None -> try_optimize opt e = e.
Proof. intros opt e D. unfold try_optimize. rewrite D. reflexivity. Qed.
(** So are those that the optimizer leaves with a reduction or xnor, and only those (without errors). *)
Theorem C40_foreign : forall opt e t t', make_df e = Some t -> opt t = Some t' ->
  (foreign t' -> try_optimize opt e = e) /\ (~ foreign t' -> try_optimize opt e = reading t').
Proof.
  intros opt e t t' D O. unfold try_optimize. rewrite D, O, foreign_none. destruct (make_ast t') eqn:A.
  - split; [discriminate|]. intros _. exact (make_ast_reading _ _ A).
  - split; [reflexivity|]. intros H. congruence.
Qed.
(** With sized constants the width changes even if the optimizer does nothing: the carry of
    [x + 4'd15] is kept in [x + 15]. *)
Theorem C40_width_refuted : exists opt e E, correct_opt opt /\
  assigned E 4 (XBin BSrl e (XPy 1)) <> assigned E 4 (XBin BSrl (try_optimize opt e) (XPy 1)).
Proof.
  exists Some, (XBin BPlus (XVar 0) (XInt 15 (Some 4) None false)), (mkEnv (fun _ => 4) (fun _ => false) (fun _ => 1) 0).
  split.
  - intros t t' E O. injection O as <-. repeat split.
  - vm_compute. discriminate.
Qed.

(** ** Examples *)
Example C43_rename_example :
  rename false (fun x => x + 10)%nat (XCond (XVar 0) (XCat [XPtr 1 (XPy 2); XSlice 2 3 0]) (XBin BPlus (XVar 1) (XInt 3 (Some 8) None false)))
  = Some (XCond (XVar 10) (XCat [XPtr 11 (XPy 2); XSlice 12 3 0]) (XBin BPlus (XVar 11) (XInt 3 (Some 8) None false))).
Proof. reflexivity. Qed.
Example C43_names_example : new_name "a_" "_b" ["clk"%string] "x" = "a_x_b"%string /\ new_name "a_" "_b" ["clk"%string] "clk" = "clk"%string.
Proof. split; reflexivity. Qed.
Example C43_sources_example : exists l', src_renames (fun x => x + 10)%nat [RIf (XVar 0) [RSub false 1 (XBin BPlus (XVar 1) (XPy 1))] []] = Some l' /\
  Forall simple [RIf (XVar 0) [RSub false 1 (XBin BPlus (XVar 1) (XPy 1))] []].
Proof. eexists. split; [reflexivity|]. repeat constructor. Qed.
(** an optimizer that folds sums of nonnegative constants *)
Definition fold_sums (t : df) : option df :=
  match t with DOp2 BPlus (DInt a) (DInt b) => if (0 <=? a) && (0 <=? b) && (a + b <? 2 ^ 31) then Some (DInt (a + b)) else Some t | _ => Some t end.
Lemma lit_plus W S a b : 0 <= a -> 0 <= b -> a + b < 2 ^ 31 -> lit 32 W S (a + b) = (lit 32 W S a + lit 32 W S b) mod 2 ^ W.
Proof.
  intros A B C. unfold lit. rewrite !(proj2 (Z.ltb_ge _ 0)) by lia. rewrite <- Zplus_mod. f_equal.
  assert (V : forall x, 0 <= x < 2 ^ 31 -> value 32 S x = x).
  { intros x X. change (2 ^ 31) with 2147483648 in X. unfold value, sgn, uns. change (2 ^ 32) with 4294967296. change (2 ^ (32 - 1)) with 2147483648.
    destruct S; rewrite ?Z.mod_small by lia; [|reflexivity]. destruct (Z.ltb_spec x 2147483648); [reflexivity|exfalso; lia]. }
  rewrite !V by lia. reflexivity.
Qed.
Example C40_example : correct_opt fold_sums /\
  try_optimize fold_sums (XBin BPlus (XPy 3) (XInt 4 None None false)) = XInt 7 None None false.
Proof.
  split; [|reflexivity].
  intros t t' E O.
  assert (Q : t' = t \/ exists a b, t = DOp2 BPlus (DInt a) (DInt b) /\ t' = DInt (a + b) /\ 0 <= a /\ 0 <= b /\ a + b < 2 ^ 31).
  { unfold fold_sums in O. destruct t as [| | |[] [] []]; try (injection O as <-; left; reflexivity).
    match type of O with (if ?b then _ else _) = _ => destruct b eqn:B end; injection O as <-; [right|left; reflexivity].
    apply andb_true_iff in B as [B B3]. apply andb_true_iff in B as [B1 B2]. eexists _, _. split; [reflexivity|]. split; [reflexivity|].
    apply Z.leb_le in B1, B2. apply Z.ltb_lt in B3. auto. }
  destruct Q as [->|(a & b & -> & -> & HA & HB & HC)]; [repeat split|].
  assert (N : forall z, 0 <= z -> (z <? 0) = false) by (intros; apply Z.ltb_ge; assumption).
  unfold equivalent. cbn [reading swid ssig ev]. rewrite !N by lia. repeat split.
  intros W S. cbn [wd arith]. apply lit_plus; assumption.
Qed.
Print Assumptions C43_rename. Print Assumptions C43_environment. Print Assumptions C43_names. Print Assumptions C43_sources_partial.
Print Assumptions C43_blocking_refuted. Print Assumptions C43_loop_refuted.
Print Assumptions C40_try_optimize_partial. Print Assumptions C40_unsupported. Print Assumptions C40_result. Print Assumptions C40_foreign. Print Assumptions C40_width_refuted.
