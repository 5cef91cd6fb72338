(** Proofs about [eval] of stream expressions. *)
From Verif Require Import Base Bits Seval_Model Seval_Spec.
Open Scope Z_scope.

Lemma land_1 x : Z.land x 1 = b2z (Z.testbit x 0).
Proof. change 1 with (Z.ones 1). rewrite Z.land_ones by lia. rewrite <- Z.bit0_mod. destruct (Z.testbit x 0); reflexivity. Qed.
Lemma low_bits_S w x : low_bits (S w) x = Z.testbit x 0 :: low_bits w (Z.shiftr x 1).
Proof.
  unfold low_bits. cbn [seq map]. f_equal. rewrite <- seq_shift, map_map. apply map_ext. intros k. rewrite Z.shiftr_spec by lia. f_equal. lia.
Qed.
Lemma all_ones_ok w : forall x, all_ones w x = forallb (fun b => b) (low_bits w x).
Proof. induction w as [|w IH]; intros x; [reflexivity|]. rewrite low_bits_S. cbn [all_ones forallb]. rewrite land_1, IH. destruct (Z.testbit x 0); reflexivity. Qed.
Lemma any_one_ok w : forall x, any_one w x = existsb (fun b => b) (low_bits w x).
Proof. induction w as [|w IH]; intros x; [reflexivity|]. rewrite low_bits_S. cbn [any_one existsb]. rewrite land_1, IH. destruct (Z.testbit x 0); reflexivity. Qed.
(** the parity loop starts at 1 *)
Lemma parity_ok w : forall b x, parity_loop w (b2z b) x = b2z (xorb b (fold_right xorb false (low_bits w x))).
Proof.
  induction w as [|w IH]; intros b x; [cbn; rewrite xorb_false_r; reflexivity|]. rewrite low_bits_S. cbn [parity_loop fold_right]. rewrite land_1.
  replace (Z.lxor (b2z b) (b2z (Z.testbit x 0))) with (b2z (xorb b (Z.testbit x 0))) by (destruct b, (Z.testbit x 0); reflexivity).
  rewrite IH, xorb_assoc. reflexivity.
Qed.

Section P.
  Variables (wd : ex -> nat) (env : nat -> Z).
  Notation ev := (ev wd).
  Notation den := (den wd env).
  Notation rden := (rden wd env).
  Lemma node_den r : den (node r) = rden r.
  Proof. destruct r; reflexivity. Qed.
  Lemma num_den r z : num r = Some z -> rden r = z.
  Proof. destruct r; cbn; intros E; congruence. Qed.
  Lemma num_none r : num r = None -> exists e, r = RE e.
  Proof. destruct r; cbn; intros E; try discriminate E. eauto. Qed.
  Lemma truthy_den r z : num r = Some z -> truthy r = truth (rden r).
  Proof. destruct r as [x|b|e]; cbn; intros E; try discriminate E; [reflexivity|]. destruct b; reflexivity. Qed.

  Lemma pyop_den o f l r v x : pyop o f l r = Some v ->
    (forall a b, a = rden l -> b = rden r -> f a b = Some v -> rden v = x) -> den2 o (rden l) (rden r) = x -> rden v = x.
  Proof.
    unfold pyop. intros E F D. destruct (num l) as [a|] eqn:L.
    - destruct (num r) as [b|] eqn:R; [|discriminate E]. apply (F a b); [symmetry; apply num_den, L|symmetry; apply num_den, R|exact E].
    - injection E as <-. cbn. rewrite !node_den. exact D.
  Qed.
  Lemma fold2_den o f l r v x : fold2 o f l r = Some v ->
    (forall a b, a = rden l -> b = rden r -> f a b = Some v -> rden v = x) -> den2 o (rden l) (rden r) = x -> rden v = x.
  Proof.
    unfold fold2. intros E F D. destruct (num l) as [a|] eqn:L; [destruct (num r) as [b|] eqn:R|].
    - apply (F a b); [symmetry; apply num_den, L|symmetry; apply num_den, R|exact E].
    - injection E as <-. cbn. rewrite !node_den. exact D.
    - injection E as <-. cbn. rewrite !node_den. exact D.
  Qed.
  Lemma pycmp_den o f l r v : pycmp o f l r = Some v -> (forall a b, b2z (f a b) = den2 o a b) -> (forall a b, den2 (swap o) b a = den2 o a b) ->
    rden v = den2 o (rden l) (rden r).
  Proof.
    unfold pycmp. intros E F D. destruct (num l) as [a|] eqn:L; [destruct (num r) as [b|] eqn:R|].
    - injection E as <-. cbn. rewrite F, (num_den l a L), (num_den r b R). reflexivity.
    - injection E as <-. cbn [Seval_Spec.rden Seval_Spec.den]. rewrite !node_den. apply D.
    - injection E as <-. cbn. rewrite !node_den. reflexivity.
  Qed.
  Lemma pybit_den o f g l r v : pybit o f g l r = Some v -> (forall a b, b2z (g a b) = f (b2z a) (b2z b)) -> (forall a b, den2 o a b = f a b) ->
    rden v = den2 o (rden l) (rden r).
  Proof.
    unfold pybit. intros E G D.
    assert (P : pyop o (fun x y => Some (RI (f x y))) l r = Some v -> rden v = den2 o (rden l) (rden r)).
    { intros H. apply (pyop_den _ _ _ _ _ _ H); [|reflexivity]. intros a b -> -> K. injection K as <-. cbn. symmetry. apply D. }
    destruct l as [x|a|e]; try exact (P E). destruct r as [y|b|e]; try exact (P E). injection E as <-. cbn. rewrite G. symmetry. apply D.
  Qed.

  Lemma ev2_den o l r v : ok2 o (rden l) (rden r) -> ev2 o l r = Some v -> rden v = den2 o (rden l) (rden r).
  Proof.
    intros K E. destruct o; cbn [ev2 ok2] in *; try (match type of K with False => destruct K end).
    - apply (pyop_den _ _ _ _ _ _ E); [|reflexivity]. intros a b -> -> H. injection H as <-. reflexivity.
    - apply (pyop_den _ _ _ _ _ _ E); [|reflexivity]. intros a b -> -> H. injection H as <-. reflexivity.
    - apply (pyop_den _ _ _ _ _ _ E); [|reflexivity]. intros a b -> -> H. injection H as <-. reflexivity.
    - apply (fold2_den _ _ _ _ _ _ E); [|reflexivity]. intros a b -> -> H. destruct (_ || _); [discriminate H|]. injection H as <-. reflexivity.
    - apply (pyop_den _ _ _ _ _ _ E); [|reflexivity]. intros a b -> -> H. destruct (_ =? 0); [discriminate H|]. injection H as <-. cbn. symmetry. apply Z.rem_mod_nonneg; lia.
    - apply (pycmp_den _ _ _ _ _ E); reflexivity.
    - apply (pycmp_den _ _ _ _ _ E); intros a b; cbn; [rewrite Z.gtb_ltb|]; reflexivity.
    - apply (pycmp_den _ _ _ _ _ E); reflexivity.
    - apply (pycmp_den _ _ _ _ _ E); intros a b; cbn; [rewrite Z.geb_leb|]; reflexivity.
    - apply (pycmp_den _ _ _ _ _ E); intros a b; cbn; [reflexivity|]. rewrite Z.eqb_sym. reflexivity.
    - apply (pycmp_den _ _ _ _ _ E); intros a b; cbn; [reflexivity|]. rewrite Z.eqb_sym. reflexivity.
    - apply (pyop_den _ _ _ _ _ _ E); [|reflexivity]. intros a b -> -> H. unfold pyshift in H. destruct (_ <? 0); [discriminate H|]. injection H as <-. cbn. apply Z.shiftl_mul_pow2, K.
    - apply (pyop_den _ _ _ _ _ _ E); [|reflexivity]. intros a b -> -> H. unfold pyshift in H. destruct (_ <? 0); [discriminate H|]. injection H as <-. cbn. apply Z.shiftr_div_pow2, K.
    - apply (fold2_den _ _ _ _ _ _ E); [|reflexivity]. intros a b -> -> H. unfold pyshift in H. destruct (_ <? 0); [discriminate H|]. injection H as <-. cbn.
      destruct (Z.leb_spec 0 (rden l)) as [_|X]; [|lia]. rewrite Z.abs_eq by lia. apply Z.shiftr_div_pow2, K.
    - apply (pybit_den _ _ _ _ _ _ E); [|reflexivity]. intros [] []; reflexivity.
    - apply (pybit_den _ _ _ _ _ _ E); [|reflexivity]. intros [] []; reflexivity.
    - apply (pybit_den _ _ _ _ _ _ E); [|reflexivity]. intros [] []; reflexivity.
    - destruct (num l) as [a|] eqn:L; [destruct (num r) as [b|] eqn:R|]; injection E as <-; try (cbn; rewrite !node_den; reflexivity).
      rewrite (truthy_den l a L). cbn [den2]. unfold truth. destruct (Z.eqb_spec (rden l) 0) as [H|H]; cbn [negb andb]; [rewrite H; reflexivity|].
      destruct (Z.eqb_spec (rden r) 0) as [H'|H']; cbn [negb b2z]; lia.
  Qed.

  (** results of closed expressions are numbers *)
  Lemma num_some r : num r <> None -> exists z, num r = Some z.
  Proof. destruct r; cbn; intros H; [eauto|eauto|contradiction]. Qed.
  Lemma ev2_num o l r v : num l <> None -> num r <> None -> ev2 o l r = Some v -> num v <> None.
  Proof.
    intros L R E. destruct l as [x|a|e]; [| |cbn in L; congruence]; (destruct r as [y|b|e]; [| |cbn in R; congruence]);
      destruct o; cbn in E; unfold fold2, pyshift in E; cbn in E; repeat match type of E with context [if ?c then _ else _] => destruct c; try discriminate E end; injection E as <-; cbn; discriminate.
  Qed.
  Lemma ev1_num o w r v : num r <> None -> ev1 o w r = Some v -> num v <> None.
  Proof. intros R E. destruct r as [y|b|e]; [| |cbn in R; congruence]; destruct o; cbn in E; injection E as <-; cbn; discriminate. Qed.
  Lemma closed_num e : closed e -> forall v, ev e = Some v -> num v <> None.
  Proof.
    induction e as [z|n|o l IHl r IHr|o r IHr|c IHc t IHt f IHf|x IHx p IHp|x IHx m l|a IHa b IHb|x IHx n]; intros C v E; cbn [closed Seval_Model.ev] in *.
    - injection E as <-. discriminate.
    - contradiction C.
    - destruct (ev l) as [a|]; [|discriminate E]. destruct (ev r) as [b|]; [|discriminate E]. apply (ev2_num o a b); [apply IHl; tauto|apply IHr; tauto|exact E].
    - destruct (ev r) as [b|]; [|discriminate E]. apply (ev1_num o (wd r) b); [apply IHr; tauto|exact E].
    - destruct (ev c) as [a|]; [|discriminate E]. destruct (ev t) as [b|]; [|discriminate E]. destruct (ev f) as [d|]; [|discriminate E].
      destruct (num_some a) as (z & Hz); [apply IHc; tauto|]. rewrite Hz in E. injection E as <-. destruct (truthy a); [apply IHt; tauto|apply IHf; tauto].
    - destruct (ev x) as [a|]; [|discriminate E]. destruct (ev p) as [b|]; [|discriminate E].
      destruct (num_some a) as (z & Hz); [apply IHx; tauto|]. destruct (num_some b) as (y & Hy); [apply IHp; tauto|]. rewrite Hz, Hy in E. destruct (y <? 0); [discriminate E|]. injection E as <-. discriminate.
    - destruct (ev x) as [a|]; [|discriminate E].
      destruct (num_some a) as (z & Hz); [apply IHx; tauto|]. rewrite Hz in E. destruct (l <? 0); [discriminate E|]. injection E as <-. discriminate.
    - destruct (ev a) as [v1|]; [|discriminate E]. destruct (ev b) as [v2|]; [|discriminate E].
      destruct (num_some v1) as (z & Hz); [apply IHa; tauto|]. destruct (num_some v2) as (y & Hy); [apply IHb; tauto|]. rewrite Hz, Hy in E. discriminate E.
    - discriminate E.
  Qed.
  (** results of [ints] expressions are not bools *)
  Lemma ints_num e : ints e = true -> forall b, ev e <> Some (RB b).
  Proof.
    induction e as [z|n|o l IHl r IHr|o r IHr|c IHc t IHt f IHf|x IHx p IHp|x IHx m l|a IHa b IHb|x IHx n]; intros I v E; cbn [ints Seval_Model.ev] in *; try discriminate E.
    - destruct (ev l) as [a|] eqn:EL; [|discriminate E]. destruct (ev r) as [b|] eqn:ER; [|discriminate E].
      assert (PB : forall o f g, ints l || ints r = true -> pybit o f g a b = Some (RB v) -> False).
      { intros o' f g I' H. apply orb_prop in I'. destruct a as [x|a|e]; destruct b as [y|b|e']; cbn in H; try discriminate H; destruct I' as [I'|I']; [eapply IHl|eapply IHr]; eauto. }
      destruct o; try discriminate I; cbn in E; unfold pyop, fold2, pyshift in E;
        try (destruct (num a), (num b); repeat match type of E with context [if ?c then _ else _] => destruct c end; discriminate E); eapply PB; eauto.
    - destruct (ev r) as [b|] eqn:ER; [|discriminate E]. destruct o; try discriminate I; cbn in E; try (destruct (num b); discriminate E). injection E as ->. exact (IHr I v eq_refl).
    - apply andb_prop in I. destruct (ev c) as [a|]; [|discriminate E]. destruct (ev t) as [b|] eqn:ET; [|discriminate E]. destruct (ev f) as [d|] eqn:EF; [|discriminate E].
      destruct (num a); [|discriminate E]. injection E as E. destruct (truthy a); subst; [exact (IHt (proj1 I) v eq_refl)|exact (IHf (proj2 I) v eq_refl)].
    - destruct (ev x) as [a|]; [|discriminate E]. destruct (ev p) as [b|]; [|discriminate E]. destruct (num a), (num b); try discriminate E. destruct (_ <? 0); discriminate E.
    - destruct (ev x) as [a|]; [|discriminate E]. destruct (num a); try discriminate E. destruct (_ <? 0); discriminate E.
    - destruct (ev a) as [v1|]; [|discriminate E]. destruct (ev b) as [v2|]; [|discriminate E]. destruct (num v1), (num v2); discriminate E.
  Qed.

  Lemma low1 b : low_bits 1 (b2z b) = [b].
  Proof. destruct b; reflexivity. Qed.
  Theorem ev_den e : ok wd env e -> forall v, ev e = Some v -> rden v = den e.
  Proof.
    induction e as [z|n|o l IHl r IHr|o r IHr|c IHc t IHt f IHf|x IHx p IHp|x IHx m l|a IHa b IHb|x IHx n]; intros O v E; cbn [ok Seval_Model.ev Seval_Spec.den] in *.
    - injection E as <-. reflexivity.
    - injection E as <-. reflexivity.
    - destruct O as (O1 & O2 & O3). destruct (ev l) as [a|]; [|discriminate E]. destruct (ev r) as [b|]; [|discriminate E].
      specialize (IHl O1 a eq_refl). specialize (IHr O2 b eq_refl). rewrite <- IHl, <- IHr in *. exact (ev2_den o a b v O3 E).
    - destruct O as (O1 & O2 & O3). destruct (ev r) as [b|] eqn:ER; [|discriminate E]. specialize (IHr O1 b eq_refl). rewrite <- IHr.
      assert (RD : reduction o = true -> (exists z, b = RI z) \/ (exists c, b = RB c /\ wd r = 1%nat)).
      { intros R. destruct (O2 R) as (C & W). destruct b as [z|c|e]; [left; eauto| |exfalso; exact (closed_num r C _ ER eq_refl)].
        right. exists c. split; [reflexivity|]. destruct W as [W|W]; [exact W|]. exfalso. exact (ints_num r W c ER). }
      assert (RED : reduction o = true -> forall fb fi, ev1 o (wd r) b = reduce1 o fb fi (wd r) b -> (forall z, b2z (fi (wd r) z) = den1 o (wd r) z) -> (forall c, b2z (fb c) = den1 o 1 (b2z c)) -> rden v = den1 o (wd r) (rden b)).
      { intros R fb fi H1 H2 H3. rewrite H1 in E. destruct (RD R) as [(z & ->)|(c & -> & W)]; cbn in E; injection E as <-; cbn [Seval_Spec.rden]; [apply H2|rewrite W; apply H3]. }
      destruct o; try contradiction O3.
      + cbn in E. injection E as <-. reflexivity.
      + cbn in E. destruct (num b) as [z|] eqn:B; injection E as <-; cbn; [rewrite (num_den b z B)|rewrite node_den]; reflexivity.
      + cbn in E. destruct (num b) as [z|] eqn:B; injection E as <-; cbn; [rewrite (truthy_den b z B)|rewrite node_den]; reflexivity.
      + cbn in E. destruct (num b) as [z|] eqn:B; [injection E as <-; cbn; rewrite (num_den b z B); reflexivity|]. exfalso. exact (closed_num r O3 _ ER B).
      + apply (RED eq_refl _ _ eq_refl); intros; cbn [den1]; [rewrite all_ones_ok; reflexivity|rewrite low1; cbn; rewrite andb_true_r; reflexivity].
      + apply (RED eq_refl _ _ eq_refl); intros; cbn [den1]; [rewrite all_ones_ok; reflexivity|rewrite low1; cbn; rewrite andb_true_r; reflexivity].
      + apply (RED eq_refl _ _ eq_refl); intros; cbn [den1]; [rewrite any_one_ok; reflexivity|rewrite low1; cbn; rewrite orb_false_r; reflexivity].
      + apply (RED eq_refl _ _ eq_refl); intros; cbn [den1]; [rewrite any_one_ok; reflexivity|rewrite low1; cbn; rewrite orb_false_r; reflexivity].
      + cbn in E. destruct (num b) as [z|] eqn:B; injection E as <-; cbn; [rewrite (num_den b z B)|rewrite node_den]; reflexivity.
    - destruct O as (O1 & O2 & O3). destruct (ev c) as [a|]; [|discriminate E]. destruct (ev t) as [b|]; [|discriminate E]. destruct (ev f) as [d|]; [|discriminate E].
      specialize (IHc O1 a eq_refl). specialize (IHt O2 b eq_refl). specialize (IHf O3 d eq_refl). rewrite <- IHc, <- IHt, <- IHf.
      destruct (num a) as [z|] eqn:A; injection E as <-; [rewrite (truthy_den a z A); destruct (truth (rden a)); reflexivity|]. cbn. rewrite !node_den. reflexivity.
    - destruct O as (O1 & O2 & O3). destruct (ev x) as [a|]; [|discriminate E]. destruct (ev p) as [b|]; [|discriminate E].
      specialize (IHx O1 a eq_refl). specialize (IHp O2 b eq_refl). rewrite <- IHx, <- IHp in *.
      destruct (num a) as [z|] eqn:A; [destruct (num b) as [y|] eqn:B|]; try (injection E as <-; cbn; rewrite !node_den; reflexivity).
      rewrite (num_den b y B), (num_den a z A) in *. destruct (Z.ltb_spec y 0) as [X|X]; [lia|]. injection E as <-. cbn [Seval_Spec.rden]. rewrite land_1, Z.shiftr_spec by lia. reflexivity.
    - destruct O as (O1 & O2). destruct (ev x) as [a|]; [|discriminate E]. specialize (IHx O1 a eq_refl). rewrite <- IHx.
      destruct (num a) as [z|] eqn:A; [|injection E as <-; cbn; rewrite !node_den; reflexivity].
      rewrite (num_den a z A). destruct (Z.ltb_spec l 0) as [X|X]; [lia|]. injection E as <-. cbn [Seval_Spec.rden]. rewrite Z.max_r by lia. rewrite Z.land_ones by lia. rewrite Z.shiftr_div_pow2 by lia. reflexivity.
    - contradiction O.
    - contradiction O.
  Qed.
End P.

Lemma ev2_total o wd env l r : num l <> None -> num r <> None -> ok2 o (rden wd env l) (rden wd env r) ->
  (o = ODivide -> rden wd env r <> 0 /\ Z.abs (rden wd env l) < 2 ^ 53 /\ Z.abs (rden wd env r) < 2 ^ 53) -> exists v, ev2 o l r = Some v.
Proof.
  intros L R K D. destruct (num_some l L) as (x & Hx). destruct (num_some r R) as (y & Hy).
  rewrite (num_den wd env l x Hx), (num_den wd env r y Hy) in *.
  destruct o; cbn [ok2] in K; try (match type of K with False => destruct K end); cbn [ev2]; unfold pybit, pyop, fold2, pycmp, pyshift; rewrite ?Hx, ?Hy; try (eexists; reflexivity).
  - destruct (D eq_refl) as (D1 & D2 & D3). unfold small. apply Z.ltb_lt in D2, D3. rewrite D2, D3. destruct (Z.eqb_spec y 0); [contradiction|]. eexists. reflexivity.
  - destruct (Z.eqb_spec y 0); [lia|]. eexists. reflexivity.
  - destruct (Z.ltb_spec y 0); [lia|]. eexists. reflexivity.
  - destruct (Z.ltb_spec y 0); [lia|]. eexists. reflexivity.
  - destruct (Z.ltb_spec y 0); [lia|]. eexists. reflexivity.
  - destruct l, r; eexists; reflexivity.
  - destruct l, r; eexists; reflexivity.
  - destruct l, r; eexists; reflexivity.
Qed.
Lemma ev_total wd env e : closed e -> ok wd env e -> divides_ok wd env e -> exists v, ev wd e = Some v.
Proof.
  induction e as [z|n|o l IHl r IHr|o r IHr|c IHc t IHt f IHf|x IHx p IHp|x IHx m l|a IHa b IHb|x IHx n]; intros C O D; cbn [closed ok divides_ok ev] in *.
  - eexists; reflexivity.
  - contradiction C.
  - destruct C as (C1 & C2), O as (O1 & O2 & O3), D as (D1 & D2 & D3). destruct (IHl C1 O1 D1) as (a & A). destruct (IHr C2 O2 D2) as (b & B). rewrite A, B.
    pose proof (ev_den wd env l O1 a A) as EA. pose proof (ev_den wd env r O2 b B) as EB. rewrite <- EA, <- EB in *.
    apply (ev2_total o wd env); [exact (closed_num wd env l C1 a A)|exact (closed_num wd env r C2 b B)|exact O3|exact D3].
  - destruct O as (O1 & _). destruct (IHr C O1 D) as (b & B). rewrite B. destruct o; cbn [ev1]; unfold reduce1; destruct b; eexists; reflexivity.
  - destruct C as (C1 & C2 & C3), O as (O1 & O2 & O3), D as (D1 & D2 & D3). destruct (IHc C1 O1 D1) as (a & A). destruct (IHt C2 O2 D2) as (b & B). destruct (IHf C3 O3 D3) as (d & F). rewrite A, B, F. eexists; reflexivity.
  - destruct C as (C1 & C2), O as (O1 & O2 & O3), D as (D1 & D2). destruct (IHx C1 O1 D1) as (a & A). destruct (IHp C2 O2 D2) as (b & B). rewrite A, B.
    destruct (num a) as [z|]; [destruct (num b) as [y|] eqn:Y|]; try (eexists; reflexivity).
    rewrite <- (ev_den wd env p O2 b B), (num_den wd env b y Y) in O3. destruct (Z.ltb_spec y 0); [lia|]. eexists; reflexivity.
  - destruct O as (O1 & O2). destruct (IHx C O1 D) as (a & A). rewrite A. destruct (num a); [|eexists; reflexivity]. destruct (Z.ltb_spec l 0); [lia|]. eexists; reflexivity.
  - contradiction O.
  - contradiction O.
Qed.

Lemma ev_numberless wd : forall e, numberless e = true -> ev wd e = Some (RE e).
Proof.
  intros e. induction e as [z|n|o l IHl r IHr|o r IHr|c IHc t IHt f IHf|v IHv p IHp|v IHv m l|a IHa b IHb|v IHv n]; cbn [numberless]; intros H; try discriminate H.
  - reflexivity.
  - destruct o; try discriminate H; apply andb_true_iff in H; destruct H as (Hl & Hr); cbn [ev]; rewrite (IHl Hl), (IHr Hr); reflexivity.
  - destruct o; try discriminate H; cbn [ev]; rewrite (IHr H); reflexivity.
  - apply andb_true_iff in H. destruct H as (H & Hf). apply andb_true_iff in H. destruct H as (Hc & Ht). cbn [ev]. rewrite (IHc Hc), (IHt Ht), (IHf Hf). reflexivity.
  - apply andb_true_iff in H. destruct H as (Hv & Hp). cbn [ev]. rewrite (IHv Hv), (IHp Hp). reflexivity.
  - cbn [ev]. rewrite (IHv H). reflexivity.
  - apply andb_true_iff in H. destruct H as (Ha & Hb). cbn [ev]. rewrite (IHa Ha), (IHb Hb). reflexivity.
Qed.
