From Verif Require Import Base Bits Vx_Model Vx_Sem Vx_Spec Vx_Proofs Res_Model Res_Spec.
Open Scope Z_scope.

Section VxInd.
  Variable P : vx -> Prop.
  Hypothesis Hpy : forall z, P (XPy z).
  Hypothesis Hint : forall v w b s, P (XInt v w b s).
  Hypothesis Hx : forall w, P (XX w).
  Hypothesis Hvar : forall x, P (XVar x).
  Hypothesis Hun : forall o a, P a -> P (XUn o a).
  Hypothesis Hbin : forall o a b, P a -> P b -> P (XBin o a b).
  Hypothesis Hcond : forall c t f, P c -> P t -> P f -> P (XCond c t f).
  Hypothesis Hptr : forall x p, P p -> P (XPtr x p).
  Hypothesis Hsl : forall x m l, P (XSlice x m l).
  Hypothesis Hcat : forall es, Forall P es -> P (XCat es).
  Hypothesis Hrep : forall a n, P a -> P (XRep a n).
  Hypothesis Hsig : forall a, P a -> P (XSigned a).
  Fixpoint vx_tree_ind (e : vx) : P e :=
    match e with
    | XPy z => Hpy z
    | XInt v w b s => Hint v w b s
    | XX w => Hx w
    | XVar x => Hvar x
    | XUn o a => Hun o a (vx_tree_ind a)
    | XBin o a b => Hbin o a b (vx_tree_ind a) (vx_tree_ind b)
    | XCond c t f => Hcond c t f (vx_tree_ind c) (vx_tree_ind t) (vx_tree_ind f)
    | XPtr x p => Hptr x p (vx_tree_ind p)
    | XSlice x m l => Hsl x m l
    | XCat es => Hcat es ((fix all es : Forall P es :=
                             match es with [] => Forall_nil P | a :: r => Forall_cons a (vx_tree_ind a) (all r) end) es)
    | XRep a n => Hrep a n (vx_tree_ind a)
    | XSigned a => Hsig a (vx_tree_ind a)
    end.
End VxInd.

(** ** Constant evaluation *)
Lemma cvisit_known_vars pw d e : forall z, cvisit pw d e = Known z -> plain e /\ forall x, In x (vars e) -> d x <> None.
Proof.
  induction e using vx_tree_ind; intros zz F; cbn [cvisit] in F; cbn [plain vars].
  - split; [exact Logic.I|intros x []].
  - split; [exact Logic.I|intros x []].
  - discriminate.
  - split; [exact Logic.I|]. intros y [<-|[]]. destruct (d x); [discriminate|discriminate F].
  - destruct (cvisit pw d e) eqn:C; try discriminate. exact (IHe _ eq_refl).
  - destruct (cvisit pw d e1) eqn:C1, (cvisit pw d e2) eqn:C2; try discriminate F.
    destruct (IHe1 _ eq_refl) as [P1 V1], (IHe2 _ eq_refl) as [P2 V2]. split; [auto|].
    intros x I. apply in_app_or in I. destruct I; auto.
  - destruct (cvisit pw d e1) eqn:C1, (cvisit pw d e2) eqn:C2, (cvisit pw d e3) eqn:C3; try discriminate F.
    destruct (IHe1 _ eq_refl) as [P1 V1], (IHe2 _ eq_refl) as [P2 V2], (IHe3 _ eq_refl) as [P3 V3]. split; [auto|].
    intros x I. apply in_app_or in I. destruct I as [I|I]; auto. apply in_app_or in I. destruct I; auto.
  - destruct (d x) eqn:D; destruct (cvisit pw d e) eqn:C; try discriminate F.
    destruct (IHe _ eq_refl) as [P1 V1]. split; [exact P1|]. intros y [<-|I]; [congruence|auto].
  - split; [exact Logic.I|]. intros y [<-|[]]. destruct (d x); [discriminate|discriminate F].
  - destruct (existsb _ (map (cvisit pw d) es)) eqn:R in F; [discriminate F|].
    destruct (existsb _ (map (cvisit pw d) es)) eqn:O in F; [discriminate F|]. clear F.
    induction H as [|a r Pa Pr IH]; [split; [exact Logic.I|intros x []]|].
    cbn [map existsb] in R, O. apply orb_false_elim in R, O.
    destruct (IH (proj2 R) (proj2 O)) as [PP VV].
    destruct (cvisit pw d a) eqn:C; [|destruct O as [O _]; discriminate O|destruct R as [R _]; discriminate R].
    destruct (Pa _ eq_refl) as [P1 V1]. split; [auto|]. cbn [flat_map]. intros x I. apply in_app_or in I. destruct I; auto.
  - destruct (cvisit pw d e) eqn:C; try discriminate. exact (IHe _ eq_refl).
  - destruct (cvisit pw d e); discriminate F.
Qed.
Lemma known_not_open o : known o <> Open. Proof. destruct o; discriminate. Qed.
Lemma cvisit_all_known pw d e : plain e -> (forall x, In x (vars e) -> d x <> None) -> cvisit pw d e <> Open.
Proof.
  induction e using vx_tree_ind; cbn [plain vars cvisit]; intros P V.
  - discriminate.
  - discriminate.
  - discriminate.
  - specialize (V x (or_introl eq_refl)). destruct (d x); [discriminate|congruence].
  - specialize (IHe P V). destruct (cvisit pw d e); [apply known_not_open|congruence|discriminate].
  - specialize (IHe1 (proj1 P) (fun x I => V x (in_or_app _ _ _ (or_introl I)))).
    specialize (IHe2 (proj2 P) (fun x I => V x (in_or_app _ _ _ (or_intror I)))).
    destruct (cvisit pw d e1), (cvisit pw d e2); cbn [both]; try congruence; try discriminate. apply known_not_open.
  - destruct P as (P1 & P2 & P3).
    specialize (IHe1 P1 (fun x I => V x (in_or_app _ _ _ (or_introl I)))).
    specialize (IHe2 P2 (fun x I => V x (in_or_app _ _ _ (or_intror (in_or_app _ _ _ (or_introl I)))))).
    specialize (IHe3 P3 (fun x I => V x (in_or_app _ _ _ (or_intror (in_or_app _ _ _ (or_intror I)))))).
    destruct (cvisit pw d e1), (cvisit pw d e2), (cvisit pw d e3); congruence.
  - specialize (IHe P (fun x I => V x (or_intror I))). specialize (V x (or_introl eq_refl)).
    destruct (d x); [|congruence]. destruct (cvisit pw d e); cbn [both]; try congruence; try discriminate. apply known_not_open.
  - specialize (V x (or_introl eq_refl)). destruct (d x); [|congruence]. apply known_not_open.
  - cbv zeta. destruct (existsb _ (map (cvisit pw d) es)) eqn:R; [intros Q; discriminate Q|].
    match goal with |- (if ?b then _ else _) <> _ => destruct b eqn:O end; [exfalso|intros Q; discriminate Q].
    apply existsb_exists in O as (r & I & O). apply in_map_iff in I as (a & <- & I).
    destruct (cvisit pw d a) eqn:C; try discriminate O. clear O R.
    rewrite Forall_forall in H. apply (H a I); auto.
    + clear - P I. induction es as [|b es IH]; [destruct I|]. destruct P as [P1 P2]. destruct I as [->|I]; auto.
    + intros x J. apply V. apply in_flat_map. eauto.
  - specialize (IHe P V). destruct (cvisit pw d e); try congruence; discriminate.
  - destruct P.
Qed.
(** known values do not change when the table grows *)
Lemma cvisit_mono pw d d' e : (forall x z, d x = Some z -> d' x = Some z) -> forall z, cvisit pw d e = Known z -> cvisit pw d' e = Known z.
Proof.
  intros M. induction e using vx_tree_ind; intros zz F; cbn [cvisit] in *.
  - exact F.
  - exact F.
  - exact F.
  - destruct (d x) eqn:D; [|discriminate]. rewrite (M _ _ D). exact F.
  - destruct (cvisit pw d e) eqn:C; try discriminate. rewrite (IHe _ eq_refl). exact F.
  - destruct (cvisit pw d e1) eqn:C1, (cvisit pw d e2) eqn:C2; try discriminate F.
    rewrite (IHe1 _ eq_refl), (IHe2 _ eq_refl). exact F.
  - destruct (cvisit pw d e1) eqn:C1, (cvisit pw d e2) eqn:C2, (cvisit pw d e3) eqn:C3; try discriminate F.
    rewrite (IHe1 _ eq_refl), (IHe2 _ eq_refl), (IHe3 _ eq_refl). exact F.
  - destruct (d x) eqn:D; destruct (cvisit pw d e) eqn:C; try discriminate F.
    rewrite (M _ _ D), (IHe _ eq_refl). exact F.
  - destruct (d x) eqn:D; [|discriminate]. rewrite (M _ _ D). exact F.
  - destruct (existsb _ (map (cvisit pw d) es)) eqn:R in F; [discriminate F|].
    destruct (existsb _ (map (cvisit pw d) es)) eqn:O in F; [discriminate F|].
    assert (EQ : map (cvisit pw d') es = map (cvisit pw d) es).
    { clear F. induction H as [|a r Pa Pr IH]; [reflexivity|]. cbn [map existsb] in *. apply orb_false_elim in R, O.
      rewrite IH by tauto. f_equal. destruct (cvisit pw d a) eqn:C; [|destruct O as [O _]; discriminate O|destruct R as [R _]; discriminate R].
      exact (Pa _ eq_refl). }
    rewrite EQ, R, O. exact F.
  - destruct (cvisit pw d e) eqn:C; try discriminate. rewrite (IHe _ eq_refl). exact F.
  - destruct (cvisit pw d e); discriminate F.
Qed.
(** replacing an expression with a known value gives that value *)
Lemma cvisit_replace pw d e : forall z, cvisit pw d e = Known z -> replace pw d e = Some (XPy z).
Proof.
  induction e using vx_tree_ind; intros zz F; cbn [cvisit replace] in *.
  - injection F as <-. reflexivity.
  - injection F as <-. reflexivity.
  - discriminate.
  - destruct (d x); [|discriminate]. injection F as <-. reflexivity.
  - destruct (cvisit pw d e) eqn:C; try discriminate. rewrite (IHe _ eq_refl). cbn [is_const].
    destruct (fold_un o z _); [|discriminate]. injection F as <-. reflexivity.
  - destruct (cvisit pw d e1) eqn:C1, (cvisit pw d e2) eqn:C2; try discriminate F.
    rewrite (IHe1 _ eq_refl), (IHe2 _ eq_refl). cbn [is_const]. cbn [both] in F.
    destruct (fold_bin o _ _ _ _); [|discriminate]. injection F as <-. reflexivity.
  - destruct (cvisit pw d e1) eqn:C1, (cvisit pw d e2) eqn:C2, (cvisit pw d e3) eqn:C3; try discriminate F.
    rewrite (IHe1 _ eq_refl), (IHe2 _ eq_refl), (IHe3 _ eq_refl). cbn [is_const]. injection F as <-. reflexivity.
  - destruct (d x) eqn:D; destruct (cvisit pw d e) eqn:C; try discriminate F.
    rewrite (IHe _ eq_refl). cbn [is_const]. cbn [both] in F. destruct (fold_ptr _ _); [|discriminate]. injection F as <-. reflexivity.
  - destruct (d x) eqn:D; [|discriminate]. destruct (fold_slice _ _ _); [|discriminate]. injection F as <-. reflexivity.
  - destruct (existsb _ (map (cvisit pw d) es)) eqn:R in F; [discriminate F|].
    destruct (existsb _ (map (cvisit pw d) es)) eqn:O in F; [discriminate F|].
    assert (EQ : all_some (map (replace pw d) es) = Some (map XPy (map (fun r => match r with Known v => v | _ => 0 end) (map (cvisit pw d) es)))).
    { clear F. induction H as [|a r Pa Pr IH]; [reflexivity|]. cbn [map existsb] in *. apply orb_false_elim in R, O.
      destruct (cvisit pw d a) eqn:C; [|destruct O as [O _]; discriminate O|destruct R as [R _]; discriminate R].
      rewrite (Pa _ eq_refl). cbn [all_some]. rewrite IH by tauto. reflexivity. }
    rewrite EQ. injection F as <-.
    set (vs := map _ (map (cvisit pw d) es)).
    replace (forallb _ (map XPy vs)) with true by (clear; induction vs; auto).
    clearbody vs. do 3 f_equal. clear. induction vs as [|v vs IH]; [reflexivity|]. cbn [map is_const]. rewrite IH. reflexivity.
  - destruct (cvisit pw d e) eqn:C; try discriminate. rewrite (IHe _ eq_refl). cbn [is_const]. injection F as <-. reflexivity.
  - destruct (cvisit pw d e); discriminate F.
Qed.

(** ** The table *)
Definition extends (d d' : table) : Prop := forall x z, d x = Some z -> d' x = Some z.
Lemma fresh_sub stale d : extends (fresh stale d) d.
Proof. intros x z. unfold fresh. destruct (existsb _ _); [discriminate|auto]. Qed.
Lemma put_same d n z : put d n z n = Some z. Proof. unfold put. rewrite Nat.eqb_refl. reflexivity. Qed.
Lemma put_other d n z m : m <> n -> put d n z m = d m.
Proof. intros H. unfold put. destruct (Nat.eqb_spec m n); [congruence|reflexivity]. Qed.
Lemma put_extends d n z : d n = None -> extends d (put d n z).
Proof. intros N x y H. rewrite put_other; [exact H|congruence]. Qed.

Lemma pass_ok pw ps : forall stale d l d', NoDup (map fst ps) -> pass pw ps stale d = Some (l, d') ->
  extends d d' /\ incl l ps /\ NoDup (map fst l) /\
  (forall x, d' x <> None -> d x <> None \/ In x (map fst ps)) /\
  (forall n e, In (n, e) l -> d' n = d n) /\
  (forall n e, In (n, e) ps -> In (n, e) l \/
     exists z, cvisit pw d' e = Known z /\ (d n = None -> d' n = Some z)).
Proof.
  induction ps as [|[n e] r IH]; intros stale d l d' ND F; cbn [pass map fst] in *.
  - injection F as <- <-. split; [intros x z H; exact H|]. split; [intros x H; exact H|]. split; [constructor|].
    split; [auto|]. split; [intros n e []|intros n e []].
  - inversion ND as [|? ? N1 N2]; subst. cbv zeta in F.
    destruct (cvisit pw (fresh stale d) e) eqn:C; [| |discriminate].
    + assert (X : extends d (match d n with Some _ => d | None => put d n z end)).
      { destruct (d n) eqn:D; [intros x y H; exact H|apply put_extends; exact D]. }
      destruct (IH _ _ _ _ N2 F) as (A1 & A2 & A3 & A4 & A5 & A6).
      split; [intros x y H; apply A1, X, H|]. split; [intros x H; right; apply A2, H|]. split; [exact A3|].
      split; [|split].
      * intros x H. cbn [In]. destruct (A4 x H) as [B|B]; [|auto].
        destruct (d n) eqn:D; [auto|]. destruct (Nat.eq_dec x n) as [->|E]; [auto|]. rewrite put_other in B by exact E. auto.
      * intros m f H. rewrite (A5 _ _ H). destruct (d n) eqn:D; [reflexivity|]. apply put_other.
        intros ->. apply N1. apply in_map_iff. exists (n, f). split; [reflexivity|apply A2, H].
      * intros m f [H|H].
        -- injection H as <- <-. right. exists z. split.
           ++ apply (cvisit_mono pw (fresh stale d)); [|exact C]. intros x y H. apply A1, X, (fresh_sub stale), H.
           ++ intros D. rewrite D in A1. apply A1, put_same.
        -- destruct (A6 m f H) as [B|(y & B1 & B2)]; [auto|]. right. exists y. split; [exact B1|]. intros D. apply B2.
           destruct (d n) eqn:Dn; [exact D|]. rewrite put_other; [exact D|]. intros ->. apply N1. apply in_map_iff. exists (n, f). auto.
    + destruct (pass pw r _ d) as [[l0 d0]|] eqn:P; [|discriminate]. injection F as <- <-.
      destruct (IH _ _ _ _ N2 P) as (A1 & A2 & A3 & A4 & A5 & A6).
      split; [exact A1|]. split; [intros x [H|H]; [left; exact H|right; apply A2, H]|]. split; [|split; [|split]].
      * cbn [map fst]. constructor; [|exact A3]. intros I. apply N1. apply in_map_iff in I as ([m f] & <- & I).
        apply in_map_iff. exists (m, f). split; [reflexivity|apply A2, I].
      * intros x H. destruct (A4 x H); cbn [In]; auto.
      * intros m f [H|H]; [injection H as <- <-|exact (A5 _ _ H)].
        destruct (d0 n) eqn:D0; [|destruct (d n) eqn:D; [rewrite (A1 _ _ D) in D0; discriminate|reflexivity]].
        destruct (A4 n ltac:(congruence)) as [B|B]; [|contradiction].
        destruct (d n) eqn:D; [|congruence]. rewrite (A1 _ _ D) in D0. congruence.
      * intros m f [H|H]; [left; left; exact H|]. destruct (A6 m f H) as [B|B]; [left; right; exact B|right; exact B].
Qed.
(** a pass that resolves nothing has looked at every parameter with the unchanged table *)
Lemma pass_stuck pw ps : forall stale d l d', pass pw ps stale d = Some (l, d') -> (length ps <= length l)%nat ->
  (forall x, In x stale -> d x = None) ->
  d' = d /\ l = ps /\ forall n e, In (n, e) ps -> plain e -> exists x, In x (vars e) /\ d x = None.
Proof.
  induction ps as [|[n e] r IH]; intros stale d l d' F L S; cbn [pass] in F.
  - injection F as <- <-. split; [reflexivity|]. split; [reflexivity|intros n e []].
  - cbv zeta in F. destruct (cvisit pw (fresh stale d) e) eqn:C; [| |discriminate].
    + exfalso. assert (B : forall ps stale d l d', pass pw ps stale d = Some (l, d') -> (length l <= length ps)%nat).
      { clear. induction ps as [|[n e] r IH]; intros stale d l d' F; cbn [pass] in F.
        - injection F as <- <-. auto.
        - cbv zeta in F. destruct (cvisit pw _ e); [|destruct (pass pw r _ d) as [[l0 d0]|] eqn:P; [|discriminate]; injection F as <- <-|discriminate].
          + apply IH in F. cbn [length]. lia.
          + apply IH in P. cbn [length]. lia. }
      apply B in F. cbn [length] in L. lia.
    + destruct (pass pw r _ d) as [[l0 d0]|] eqn:P; [|discriminate]. injection F as <- <-.
      apply IH in P; [|cbn [length] in L; lia|].
      * destruct P as (-> & -> & P). split; [reflexivity|]. split; [reflexivity|].
        intros m f [H|H]; [injection H as <- <-|eauto]. intros PL.
        destruct (existsb (fun x => match d x with None => true | _ => false end) (vars e)) eqn:X.
        -- apply existsb_exists in X as (x & I & X). exists x. destruct (d x); [discriminate|auto].
        -- exfalso. apply (cvisit_all_known pw (fresh stale d) e PL); [|exact C].
           intros x I Q. assert (D : d x <> None).
           { intros D. assert (Y : existsb (fun x => match d x with None => true | _ => false end) (vars e) = true); [|congruence].
             apply existsb_exists. exists x. rewrite D. auto. }
           apply D. unfold fresh in Q. destruct (existsb (Nat.eqb x) stale) eqn:Z; [|exact Q].
           apply existsb_exists in Z as (y & I' & Z). apply Nat.eqb_eq in Z. subst. apply S, I'.
      * intros x I. apply in_app_or in I as [I|I]; [|auto]. apply filter_In in I as [_ I]. destruct (d x); [discriminate|reflexivity].
Qed.
Lemma pass_raised pw ps : forall stale d, pass pw ps stale d = None -> exists n e d', In (n, e) ps /\ cvisit pw d' e = Raised.
Proof.
  induction ps as [|[n e] r IH]; intros stale d F; cbn [pass] in F; [discriminate|]. cbv zeta in F.
  destruct (cvisit pw (fresh stale d) e) eqn:C.
  - destruct (IH _ _ F) as (m & f & d' & I & R). exists m, f, d'. split; [right; exact I|exact R].
  - destruct (pass pw r _ d) as [[l0 d0]|] eqn:P; [discriminate|].
    destruct (IH _ _ P) as (m & f & d' & I & R). exists m, f, d'. split; [right; exact I|exact R].
  - exists n, e, (fresh stale d). split; [left; reflexivity|exact C].
Qed.
(** the invariant of the passes *)
Section Passes.
  Variables (pw : nat -> Z) (ps : list (nat * vx)) (given : table).
  Hypothesis ND : NoDup (map fst ps).
  Record table_inv (l : list (nat * vx)) (d : table) : Prop := {
    ti_incl : incl l ps;
    ti_nodup : NoDup (map fst l);
    ti_given : extends given d;
    ti_open : forall n e, In (n, e) l -> d n = given n;
    ti_known : forall x, d x <> None -> given x <> None \/ resolvable ps given x;
    ti_done : forall n e, In (n, e) ps -> In (n, e) l \/
      (resolvable ps given n /\ exists z, cvisit pw d e = Known z /\ (given n = None -> d n = Some z)) }.
  Lemma inv_pass l d l' d' : table_inv l d -> pass pw l [] d = Some (l', d') -> table_inv l' d'.
  Proof.
    intros [A1 A2 A3 A4 A5 A6] F. destruct (pass_ok pw l [] d l' d' A2 F) as (B1 & B2 & B3 & B4 & B5 & B6).
    assert (G : forall m, forall ps0 stale d l' d', incl ps0 ps -> pass pw ps0 stale d = Some (l', d') -> length ps0 = m ->
              (forall x, d x <> None -> given x <> None \/ resolvable ps given x) ->
              (forall x, d' x <> None -> given x <> None \/ resolvable ps given x) /\
              (forall n e, In (n, e) ps0 -> In (n, e) l' \/ resolvable ps given n)).
    { clear - pw. induction m as [|m IH]; intros ps0 stale d l' d' I F L H; destruct ps0 as [|[n e] r]; try discriminate L; cbn [pass] in F.
      - injection F as <- <-. split; [exact H|intros n e []].
      - cbv zeta in F. injection L as L. destruct (cvisit pw (fresh stale d) e) eqn:C; [| |discriminate].
        + destruct (cvisit_known_vars _ _ _ _ C) as [PL V].
          assert (RN : resolvable ps given n).
          { apply (resolvable_step ps given n e); [apply I; left; reflexivity|exact PL|].
            intros x J. apply H. specialize (V x J). destruct (fresh stale d x) eqn:Q; [|congruence].
            apply (fresh_sub stale d) in Q. congruence. }
          destruct (IH r _ _ _ _ ltac:(intros y J; apply I; right; exact J) F L) as [G1 G2].
          * intros x J. destruct (d n) eqn:D; [auto|]. destruct (Nat.eq_dec x n) as [->|E]; [auto|]. rewrite put_other in J by exact E. auto.
          * split; [exact G1|]. intros m' f [J|J]; [injection J as <- <-; auto|auto].
        + destruct (pass pw r _ d) as [[l0 d0]|] eqn:P; [|discriminate]. injection F as <- <-.
          destruct (IH r _ _ _ _ ltac:(intros y J; apply I; right; exact J) P L H) as [G1 G2].
          split; [exact G1|]. intros m' f [J|J]; [left; left; exact J|destruct (G2 m' f J); [left; right; assumption|auto]]. }
    destruct (G (length l) l [] d l' d' A1 F eq_refl A5) as [G1 G2]. clear G.
    constructor.
    - intros x H. apply A1, B2, H.
    - exact B3.
    - intros x z H. apply B1, A3, H.
    - intros n e H. rewrite (B5 n e H). apply (A4 n e), B2, H.
    - exact G1.
    - intros n e H. destruct (A6 n e H) as [J|(R & z & C & D)].
      + destruct (B6 n e J) as [K|(z & C & D)]; [auto|]. destruct (G2 n e J) as [K|R]; [auto|].
        right. split; [exact R|]. exists z. split; [exact C|]. intros N. apply D. rewrite (A4 n e J). exact N.
      + right. split; [exact R|]. exists z. split; [apply (cvisit_mono pw d d' e B1), C|]. intros N. apply B1, D, N.
  Qed.
  Lemma inv_stuck l d : table_inv l d -> pass pw l [] d = Some (l, d) -> forall n, resolvable ps given n -> forall e, In (n, e) l -> False.
  Proof.
    intros [A1 A2 A3 A4 A5 A6] F. destruct (pass_stuck pw l [] d l d F (Nat.le_refl _) ltac:(intros x [])) as (_ & _ & S).
    fix IH 2. intros n R e H. destruct R as [n f I PL V].
    assert (f = e).
    { clear - ND I H A1. apply A1 in H. clear A1. induction ps as [|[m g] r IHr]; [destruct I|].
      inversion ND as [|? ? N1 N2]; subst. destruct I as [I|I], H as [H|H].
      - congruence.
      - injection I as -> ->. exfalso. apply N1, in_map_iff. exists (n, e). auto.
      - injection H as -> ->. exfalso. apply N1, in_map_iff. exists (n, f). auto.
      - apply IHr; auto. }
    subst f. destruct (S n e H PL) as (x & J & D). destruct (V x J) as [G|R'].
    - destruct (given x) eqn:G'; [apply A3 in G'; congruence|congruence].
    - assert (X : exists f, In (x, f) ps) by (destruct R' as [x f I' _ _]; eauto). destruct X as [f I'].
      destruct (A6 x f I') as [K|(_ & z & _ & Z)]; [exact (IH x R' f K)|].
      destruct (given x) eqn:G; [apply A3 in G; congruence|]. rewrite Z in D; [discriminate|reflexivity].
  Qed.
  Lemma passes_ok fuel : forall prev l d, table_inv l d -> (length l < prev)%nat -> (length l < fuel)%nat ->
    match passes pw fuel prev l d with
    | Done d' => table_inv [] d'
    | Unresolved l' d' => l' <> [] /\ table_inv l' d' /\ pass pw l' [] d' = Some (l', d')
    | Failed => exists n e d', In (n, e) ps /\ cvisit pw d' e = Raised
    end.
  Proof.
    induction fuel as [|fuel IH]; intros prev l d TI P L; [lia|].
    cbn [passes]. destruct l as [|p l]; [exact TI|]. rewrite (proj2 (Nat.ltb_lt _ _) P).
    destruct (pass pw (p :: l) [] d) as [[l' d']|] eqn:F.
    2: { apply pass_raised in F as (n & e & d' & I & F). exists n, e, d'. split; [|exact F]. apply (ti_incl _ _ TI), I. }
    destruct (Nat.lt_ge_cases (length l') (length (p :: l))) as [H|H].
    - apply IH; [exact (inv_pass _ _ _ _ TI F)|exact H|cbn [length] in *; lia].
    - destruct (pass_stuck _ _ _ _ _ _ F H ltac:(intros x [])) as (-> & -> & _).
      destruct fuel; cbn [passes]; rewrite Nat.ltb_irrefl; (split; [discriminate|split; [exact TI|exact F]]).
  Qed.
  Lemma update_ok : match update_const_dict pw ps given with
    | Done d' => table_inv [] d'
    | Unresolved l' d' => l' <> [] /\ table_inv l' d' /\ pass pw l' [] d' = Some (l', d')
    | Failed => exists n e d', In (n, e) ps /\ cvisit pw d' e = Raised
    end.
  Proof.
    apply passes_ok; [|lia|lia]. constructor; auto using incl_refl.
    - intros x z H. exact H.
  Qed.
  Lemma same_value n e f : In (n, e) ps -> In (n, f) ps -> e = f.
  Proof.
    clear - ND. induction ps as [|[m g] r IHr]; intros I H; [destruct I|].
    inversion ND as [|? ? N1 N2]; subst. destruct I as [I|I], H as [H|H].
    - congruence.
    - injection I as -> ->. exfalso. apply N1, in_map_iff. exists (n, f). auto.
    - injection H as -> ->. exfalso. apply N1, in_map_iff. exists (n, e). auto.
    - apply IHr; auto.
  Qed.
  Lemma resolvable_acc : forall n, resolvable ps given n -> Acc (fun y x => depends ps given x y) n.
  Proof.
    fix IH 2. intros n R. destruct R as [n e I PL V]. constructor. intros y D.
    remember n as n0 eqn:E in D. induction D as [n0 f x I' J G|n0 x y D1 IH1 D2 IH2]; subst n0.
    - rewrite (same_value n f e I' I) in J. destruct (V x J) as [N|R']; [congruence|]. exact (IH x R').
    - specialize (IH1 eq_refl). destruct IH1 as [A]. exact (A y D2).
  Qed.
  Lemma depends_resolvable n x : resolvable ps given n -> depends ps given n x -> resolvable ps given x.
  Proof.
    intros R D. induction D as [n f x I' J G|n x y D1 IH1 D2 IH2]; [|auto].
    destruct R as [n e I PL V]. rewrite (same_value n f e I' I) in J. destruct (V x J); [congruence|assumption].
  Qed.
  Lemma cycle : forall (U : list nat), U <> [] -> (forall n, In n U -> exists m, In m U /\ depends ps given n m) ->
    exists n, In n U /\ depends ps given n n.
  Proof.
    induction U as [|n U IH]; intros NE H; [congruence|].
    destruct (H n (or_introl eq_refl)) as (m & [<-|I] & D); [exists n; split; [left; reflexivity|exact D]|].
    destruct IH as (k & K & DK); [intros ->; destruct I| |exists k; split; [right; exact K|exact DK]].
    intros k K. destruct (H k (or_intror K)) as (m' & [<-|I'] & D'); [exists m|exists m']; split; auto.
    exact (depends_more _ _ _ _ _ D' D).
  Qed.
  Lemma plain_dec e : {plain e} + {~ plain e}.
  Proof.
    clear. revert e. fix F 1. intros [ | | | |o a|o a b|c t f|x p| |es|a n|a]; cbn [plain]; try (left; exact Logic.I); try apply F.
    - destruct (F a); [|right; tauto]. destruct (F b); [left; auto|right; tauto].
    - destruct (F c); [|right; tauto]. destruct (F t); [|right; tauto]. destruct (F f); [left; auto|right; tauto].
    - induction es as [|a r IH]; [left; exact Logic.I|]. destruct (F a); [|right; tauto]. destruct IH; [left; auto|right; tauto].
    - right. tauto.
  Qed.
  Lemma stuck_reason l d : l <> [] -> table_inv l d -> pass pw l [] d = Some (l, d) ->
    exists n e, In (n, e) ps /\ (~ plain e \/ (exists x, depends ps given n x /\ ~ In x (map fst ps)) \/ depends ps given n n).
  Proof.
    intros NE TI F. destruct (pass_stuck pw l [] d l d F (Nat.le_refl _) ltac:(intros x [])) as (_ & _ & S).
    destruct TI as [A1 A2 A3 A4 A5 A6].
    assert (Q : (exists n e, In (n, e) l /\ (~ plain e \/ exists x, depends ps given n x /\ ~ In x (map fst ps))) \/
                (forall n, In n (map fst l) -> exists m, In m (map fst l) /\ depends ps given n m)).
    { assert (B : forall l0, incl l0 l -> (exists n e, In (n, e) l /\ (~ plain e \/ exists x, depends ps given n x /\ ~ In x (map fst ps))) \/
                (forall n, In n (map fst l0) -> exists m, In m (map fst l) /\ depends ps given n m)); [|exact (B l (incl_refl l))].
      induction l0 as [|[n e] l0 IH]; intros IN; [right; intros n []|].
      destruct IH as [L|R]; [intros y Y; apply IN; right; exact Y|left; exact L|].
      assert (I : In (n, e) l) by (apply IN; left; reflexivity).
      destruct (plain_dec e) as [PL|NP]; [|left; exists n, e; auto].
      destruct (S n e I PL) as (x & J & D).
      assert (G : given x = None) by (destruct (given x) eqn:G; [apply A3 in G; congruence|reflexivity]).
      assert (DP : depends ps given n x) by (apply (depends_one ps given n e x); auto; apply A1, I).
      destruct (in_dec Nat.eq_dec x (map fst ps)) as [K|K]; [|left; exists n, e; split; [exact I|right; exists x; auto]].
      apply in_map_iff in K as ([x' f] & E & K). cbn [fst] in E. subst x'.
      destruct (A6 x f K) as [U|(_ & z & _ & Z)]; [|rewrite (Z G) in D; discriminate].
      right. cbn [map fst]. intros m [<-|M]; [|exact (R m M)]. exists x. split; [apply in_map_iff; exists (x, f); auto|exact DP]. }
    destruct Q as [(n & e & I & Q)|Q].
    - exists n, e. split; [apply A1, I|tauto].
    - destruct (cycle (map fst l)) as (n & I & D); [intros E; apply NE; destruct l; [reflexivity|discriminate]|exact Q|].
      apply in_map_iff in I as ([n' e] & E & I). cbn [fst] in E. subst n'. exists n, e. split; [apply A1, I|auto].
  Qed.
  Lemma reason_stuck n e : In (n, e) ps -> (~ plain e \/ (exists x, depends ps given n x /\ ~ In x (map fst ps)) \/ depends ps given n n) ->
    ~ resolvable ps given n.
  Proof.
    intros I H R. destruct H as [H|[(x & D & N)|D]].
    - destruct R as [n f I' PL V]. rewrite (same_value _ _ _ I I') in H. auto.
    - apply (depends_resolvable n x R) in D. destruct D as [x f I' _ _]. apply N, in_map_iff. exists (x, f). auto.
    - apply resolvable_acc in R. induction R as [n _ IH]. exact (IH n D I D).
  Qed.
End Passes.

(** ** Replacement keeps the meaning *)
Section KeepOk.
  Variables (dw0 : nat -> Z) (ds0 : nat -> bool) (junk0 : Z) (pw : nat -> Z) (d : table).
  Variables v1 v2 : nat -> Z.
  Let E1 := mkEnv dw0 ds0 v1 junk0.
  Let E2 := mkEnv dw0 ds0 v2 junk0.
  Definition same_num (e e' : vx) : Prop :=
    swid E1 e = swid E2 e' /\ ssig E1 e = ssig E2 e' /\ forall W S, swid E1 e <= W -> ev E1 W S e = ev E2 W S e'.
  Definition same_bool (e e' : vx) : Prop := truth E1 e = truth E2 e'.
  Lemma num_self e e' : same_num e e' -> self E1 e = self E2 e'.
  Proof. intros (W & S & H). unfold self. rewrite <- W, <- S. apply H. lia. Qed.
  Lemma num_bool e e' : same_num e e' -> same_bool e e'.
  Proof. intros H. unfold same_bool, truth. rewrite (num_self e e' H). reflexivity. Qed.
  Lemma py_env z W S : ev E1 W S (XPy z) = ev E2 W S (XPy z). Proof. reflexivity. Qed.
  Lemma small_literal z : small z -> literal (XPy z) z. Proof. intros H. constructor. exact H. Qed.
  Lemma small_ev z W S : small z -> ev E2 W S (XPy z) = z mod 2 ^ W.
  Proof. intros H. apply literal_ev; [apply small_literal, H|reflexivity]. Qed.
  Lemma py_truth z : small z -> truth E2 (XPy z) = negb (z =? 0).
  Proof. intros H. unfold truth. rewrite (literal_zero E2 _ z (small_literal z H)). reflexivity. Qed.
  Lemma cst_replace e z : cst pw d e = Some z <-> replace pw d e = Some (XPy z).
  Proof. unfold cst. destruct (replace pw d e) as [[]|]; split; congruence. Qed.
  Lemma is_const_some e z : is_const e = Some z <-> e = XPy z.
  Proof. destruct e; cbn; split; congruence. Qed.

  (** congruence of the operators *)
  Lemma un_congr o a a' : (if match o with ULnot => true | _ => false end then same_bool a a' else same_num a a') ->
    same_num (XUn o a) (XUn o a').
  Proof.
    intros H. destruct o; cbn [same_num] in *.
    1,2,4: destruct H as (HW & HS & H); unfold same_num; cbn [swid ssig ev]; split; [exact HW|split; [exact HS|]]; intros W S L; rewrite (H W S L); reflexivity.
    1: { unfold same_num; cbn [swid ssig ev]. repeat split. intros W S _. unfold same_bool, truth, self in H.
         apply (f_equal negb) in H. rewrite !negb_involutive in H. rewrite H. reflexivity. }
    all: pose proof (num_self a a' H) as HS; unfold self in HS; destruct H as (HW & _ & _);
      unfold same_num; cbn [swid ssig ev]; repeat split; intros W S _; rewrite ?HS, ?HW; reflexivity.
  Qed.
  Definition logical (o : bop) : bool := match o with BLand | BLor => true | _ => false end.
  Lemma bin_congr o a a' b b' : (if logical o then same_bool a a' /\ same_bool b b' else same_num a a' /\ same_num b b') ->
    same_num (XBin o a b) (XBin o a' b').
  Proof.
    intros H. destruct (logical o) eqn:LO.
    - destruct H as [HA HB]. unfold same_bool, truth, self in HA, HB.
      destruct o; try discriminate LO; unfold same_num; cbn [swid ssig ev]; repeat split; intros W S _; rewrite HA, HB; reflexivity.
    - destruct H as [HA HB]. pose proof (num_self b b' HB) as SB. destruct HA as (AW & AS & HA), HB as (BW & BS & HB).
      unfold self in SB.
      destruct o; try discriminate LO; unfold same_num; cbn [swid ssig ev]; rewrite ?AW, ?BW, ?AS, ?BS.
      all: split; [reflexivity|split; [reflexivity|]]; intros W S L.
      all: rewrite <- ?AW, <- ?BW, <- ?AS, <- ?BS in *.
      all: try (rewrite (HA W S), (HB W S) by lia; reflexivity).
      all: try (rewrite (HA W S) by lia; rewrite SB; rewrite <- ?BW, <- ?BS; reflexivity).
      all: rewrite HA, HB by lia; reflexivity.
  Qed.
  Lemma cond_congr c c' t t' f f' : same_bool c c' -> same_num t t' -> same_num f f' -> same_num (XCond c t f) (XCond c' t' f').
  Proof.
    intros HC (TW & TS & HT) (FW & FS & HF). unfold same_num; cbn [swid ssig ev]. rewrite TW, FW, TS, FS.
    split; [reflexivity|split; [reflexivity|]]. intros W S L. unfold same_bool, truth, self in HC.
    apply (f_equal negb) in HC. rewrite !negb_involutive in HC. rewrite HC. rewrite (HT W S), (HF W S) by lia. reflexivity.
  Qed.

  Hypothesis V2 : forall x z, d x = Some z -> v1 x = z mod 2 ^ 32.
  Lemma keep_ok e : forall b e', keep dw0 ds0 pw d b e -> replace pw d e = Some e' ->
    (forall x, In x (vars e) -> d x = None -> v1 x = v2 x) -> if b then same_bool e e' else same_num e e'.
  Proof.
    assert (UP : forall (b : bool) e e', same_num e e' -> if b then same_bool e e' else same_num e e').
    { intros [] a a' H; [apply num_bool, H|exact H]. }
    induction e using vx_tree_ind; intros b0 e' K R V; cbn [keep replace vars] in *.
    - injection R as <-. apply UP. repeat split.
    - injection R as <-. destruct b0.
      + destruct K as [L SM]. unfold same_bool, truth. rewrite (literal_zero E1 _ v L), (literal_zero E2 _ v (small_literal v SM)). reflexivity.
      + destruct K as [KW KS]. unfold same_num. cbn [swid ssig ev]. rewrite KW, KS. repeat split.
    - destruct K.
    - injection R as <-. destruct (d x) eqn:D.
      + destruct K as (KW & KS & KR). apply UP. unfold same_num. cbn [swid ssig ev E1]. change (dw E1 x) with (dw0 x). change (ds E1 x) with (ds0 x).
        change (val E1 x) with (v1 x). rewrite KW, KS. split; [reflexivity|split; [reflexivity|]]. intros W S L.
        rewrite (V2 x z D). unfold lit. rewrite (proj2 (Z.ltb_ge z 0)) by lia.
        rewrite (Z.mod_small z (2 ^ 32)) by (change (2 ^ 32) with 4294967296; change (2 ^ 31) with 2147483648 in KR; lia). reflexivity.
      + apply UP. unfold same_num. cbn [swid ssig ev]. repeat split. intros W S L.
        change (val E1 x) with (v1 x). change (val E2 x) with (v2 x). rewrite (V x (or_introl eq_refl) D). reflexivity.
    - destruct (replace pw d e) as [a'|] eqn:RA; [|discriminate].
      destruct (is_const a') as [r|] eqn:CA.
      + apply is_const_some in CA. subst a'. assert (CC : cst pw d e = Some r) by (apply cst_replace; exact RA).
        destruct o; try (destruct K as [_ K]; congruence).
        1,2,4: destruct K as [K KS]; destruct (KS r CC) as [KS1 KS2]; specialize (IHe false (XPy r) K eq_refl V);
           apply UP; cbn [fold_un py option_map] in R; injection R as <-;
           pose proof (un_congr UNot e (XPy r) IHe) as C1; pose proof (un_congr UMinus e (XPy r) IHe) as C2;
           pose proof (un_congr UPlus e (XPy r) IHe) as C3.
        * exact C3.
        * destruct C2 as (CW & CS & C2). split; [exact CW|split; [exact CS|]]. intros W S L. rewrite (C2 W S L).
          rewrite (small_ev (- r)) by (unfold small in *; lia).
          apply (fold_un_ok E2 UMinus (XPy r) r W S (- r) (small_literal r KS1)); [|reflexivity|reflexivity].
          cbn [swid] in CW, L |- *. rewrite <- CW. exact L.
        * destruct C1 as (CW & CS & C1). split; [exact CW|split; [exact CS|]]. intros W S L. rewrite (C1 W S L).
          rewrite (small_ev (Z.lnot r)) by exact KS2.
          apply (fold_un_ok E2 UNot (XPy r) r W S (Z.lnot r) (small_literal r KS1)); [|reflexivity|reflexivity].
          cbn [swid] in CW, L |- *. rewrite <- CW. exact L.
        * destruct K as [K KS]. destruct (KS r CC) as [-> SM]. specialize (IHe true (XPy r) K eq_refl V).
          cbn [fold_un py option_map] in R. injection R as <-.
          unfold same_bool in *. rewrite py_truth in IHe by exact SM.
          rewrite py_truth by (unfold small, b2z; destruct (r =? 0); lia).
          unfold truth, self in *. cbn [ev swid ssig]. apply (f_equal negb) in IHe. rewrite !negb_involutive in IHe. rewrite IHe.
          destruct (r =? 0); reflexivity.
      + injection R as <-. apply UP, un_congr. destruct o; cbn [keep] in K.
        all: destruct K as [K _].
        all: first [exact (IHe true a' K eq_refl V) | exact (IHe false a' K eq_refl V)].
    - destruct (replace pw d e1) as [a'|] eqn:RA; [|discriminate]. destruct (replace pw d e2) as [b'|] eqn:RB; [|discriminate].
      assert (Va : forall x, In x (vars e1) -> d x = None -> v1 x = v2 x) by (intros x I; apply V, in_or_app; auto).
      assert (Vb : forall x, In x (vars e2) -> d x = None -> v1 x = v2 x) by (intros x I; apply V, in_or_app; auto).
      assert (C : same_num (XBin o e1 e2) (XBin o a' b')).
      { apply bin_congr. destruct o; cbn [logical];
          first [exact (conj (IHe1 true a' (proj1 K) eq_refl Va) (IHe2 true b' (proj1 (proj2 K)) eq_refl Vb))
                |exact (conj (IHe1 false a' (proj1 K) eq_refl Va) (IHe2 false b' (proj1 (proj2 K)) eq_refl Vb))]. }
      destruct (is_const a') as [l|] eqn:CA; [|injection R as <-; apply UP, C].
      destruct (is_const b') as [r|] eqn:CB; [|injection R as <-; apply UP, C].
      apply is_const_some in CA, CB. subst a' b'.
      assert (KL : cst pw d e1 = Some l) by (apply cst_replace; exact RA).
      assert (KR : cst pw d e2 = Some r) by (apply cst_replace; exact RB).
      assert (A : o <> BXnor) by (intros ->; destruct K as (_ & _ & [K|K]); congruence).
      assert (F0 : fold_bin o l r (rwidth pw e1) (rwidth pw e2) = fold_bin o l r 32 32) by (destruct o; try reflexivity; congruence).
      rewrite F0 in R. destruct (fold_bin o l r 32 32) as [z|] eqn:F; [|discriminate]. cbn [py option_map] in R. injection R as <-.
      destruct C as (CW & CS & C).
      assert (NUM : small l -> small r -> agrees o false l r -> small z -> swid E1 (XBin o e1 e2) = 32 -> ssig E1 (XBin o e1 e2) = true ->
                    same_num (XBin o e1 e2) (XPy z)).
      { intros SL SR AG SZ WW SS. split; [rewrite WW; reflexivity|split; [rewrite SS; reflexivity|]].
        intros W S L. rewrite (C W S L), (small_ev z W S SZ). rewrite WW in L.
        apply (fold_bin_ok E2 o (XPy l) (XPy r) l r W S z (small_literal l SL) (small_literal r SR)); try exact L; try exact F.
        - split; reflexivity.
        - clear - AG. destruct o, S; cbn [agrees] in *; tauto.
        - congruence. }
      assert (BOOL : small l -> small r -> swid E1 (XBin o e1 e2) = 1 -> ssig E1 (XBin o e1 e2) = false ->
                     match o with BLt | BGt | BLe | BGe | BEq | BNe | BLand | BLor => True | _ => False end ->
                     same_bool (XBin o e1 e2) (XPy z)).
      { intros SL SR WW SS OO. unfold same_bool. assert (Z01 : z = 0 \/ z = 1).
        { clear - F OO. destruct o; try (destruct OO); cbn [fold_bin] in F; injection F as <-;
            match goal with |- context [b2z ?b] => destruct b end; auto. }
        rewrite py_truth by (unfold small; lia). unfold truth, self. rewrite (C _ _ (Z.le_refl _)).
        rewrite WW, SS.
        rewrite (fold_bin_ok E2 o (XPy l) (XPy r) l r 32 false z (small_literal l SL) (small_literal r SR)) || idtac.
        assert (EQ : ev E2 1 false (XBin o (XPy l) (XPy r)) = ev E2 32 false (XBin o (XPy l) (XPy r))) by (clear - OO; destruct o; try (destruct OO); reflexivity).
        rewrite EQ.
        rewrite (fold_bin_ok E2 o (XPy l) (XPy r) l r 32 false z (small_literal l SL) (small_literal r SR)).
        - destruct Z01 as [->| ->]; reflexivity.
        - cbn [swid]. lia.
        - cbn [swid]. lia.
        - discriminate.
        - clear - OO. destruct o; try (destruct OO); cbn [agrees ssig andb]; auto.
        - congruence.
        - exact F. }
      destruct o; try (exfalso; apply A; reflexivity).
      all: try (destruct K as (_ & _ & K); destruct (K l (or_introl KL)) as [SL Q]; destruct (K r (or_intror KR)) as [SR _];
                assert (B0 : b0 = true) by (apply Q; congruence); rewrite B0; apply BOOL; [exact SL|exact SR|reflexivity|reflexivity|exact Logic.I]).
      all: destruct K as (_ & _ & K); specialize (K l r KL KR).
      all: try (destruct K as (SL & SR & B0); rewrite B0; apply BOOL; [exact SL|exact SR|reflexivity|reflexivity|exact Logic.I]).
      all: destruct K as (SL & SR & AG & SZ); apply UP; apply NUM; [exact SL|exact SR|exact AG|exact (SZ z F)|rewrite CW; reflexivity|rewrite CS; reflexivity].
    - destruct K as (KC & KT & KF & KS).
      destruct (replace pw d e1) as [c'|] eqn:RC; [|discriminate]. destruct (replace pw d e2) as [t'|] eqn:RT; [|discriminate].
      destruct (replace pw d e3) as [f'|] eqn:RF; [|discriminate].
      pose proof (IHe1 true c' KC eq_refl ltac:(intros x I; apply V, in_or_app; auto)) as HC.
      pose proof (IHe2 false t' KT eq_refl ltac:(intros x I; apply V, in_or_app; right; apply in_or_app; auto)) as HT.
      pose proof (IHe3 false f' KF eq_refl ltac:(intros x I; apply V, in_or_app; right; apply in_or_app; auto)) as HF.
      pose proof (cond_congr _ _ _ _ _ _ HC HT HF) as C. apply UP.
      destruct (is_const c') as [x|] eqn:CC; [|injection R as <-; exact C].
      destruct (is_const t') as [y|] eqn:CT; [|injection R as <-; exact C].
      destruct (is_const f') as [z|] eqn:CF; [|injection R as <-; exact C].
      injection R as <-. apply is_const_some in CC, CT, CF. subst c' t' f'.
      assert (SX : small x) by (apply KS, cst_replace; exact RC).
      destruct C as (CW & CS & C). split; [exact CW|split; [exact CS|]]. intros W S L. rewrite (C W S L).
      change (ev E2 W S (XCond (XPy x) (XPy y) (XPy z))) with (if self E2 (XPy x) =? 0 then ev E2 W S (XPy z) else ev E2 W S (XPy y)).
      rewrite (literal_zero E2 _ x (small_literal x SX)). unfold fold_cond. destruct (x =? 0); reflexivity.
    - destruct K as [D K]. rewrite D in R. destruct (replace pw d e) as [p'|] eqn:RP; [|discriminate].
      injection R as <-.
      pose proof (IHe false p' K eq_refl ltac:(intros y I; apply V; right; exact I)) as H.
      pose proof (num_self _ _ H) as HS. unfold self in HS. destruct H as (HW & HG & _). apply UP. unfold same_num; cbn [swid ssig ev].
      repeat split. intros W S _. cbv zeta. rewrite HS, HW, HG. change (val E1 x) with (v1 x). change (val E2 x) with (v2 x).
      rewrite (V x (or_introl eq_refl) D). reflexivity.
    - rewrite K in R. injection R as <-. apply UP. unfold same_num; cbn [swid ssig ev]. repeat split. intros W S _.
      change (val E1 x) with (v1 x). change (val E2 x) with (v2 x). rewrite (V x (or_introl eq_refl) K). reflexivity.
    - destruct K as [K (a & I & NC)].
      destruct (all_some (map (replace pw d) es)) as [es'|] eqn:AS; [|discriminate].
      assert (F2 : Forall2 (fun e e' => replace pw d e = Some e') es es').
      { clear - AS. revert es' AS. induction es as [|b es IH]; intros es' AS; cbn [map all_some] in AS; [injection AS as <-; constructor|].
        destruct (replace pw d b) eqn:RB; [|discriminate]. destruct (all_some _) eqn:R2 in AS; [|discriminate]. injection AS as <-. constructor; auto. }
      assert (NA : forallb (fun a => match is_const a with Some _ => true | None => false end) es' = false).
      { clear - F2 I NC. induction F2 as [|b b' r r' H F2 IH]; [destruct I|]. cbn [forallb]. destruct I as [->|I].
        - unfold cst in NC. rewrite H in NC. destruct b'; try reflexivity. discriminate.
        - rewrite (IH I). apply andb_false_r. }
      rewrite NA in R. injection R as <-.
      assert (F3 : Forall2 same_num es es').
      { clear - F2 H K V. induction F2 as [|b b' r r' HB F2 IH]; [constructor|]. inversion H as [|? ? HA HR]; subst. destruct K as [K1 K2].
        constructor; [apply (HA false b' K1 HB); intros x I; apply V; cbn [flat_map]; apply in_or_app; auto|].
        apply IH; auto. intros x I. apply V. cbn [flat_map]. apply in_or_app. auto. }
      apply UP. clear - F3. unfold same_num. split; [|split; [reflexivity|]].
      + cbn [swid]. induction F3 as [|b b' r r' HB F3 IH]; [reflexivity|]. cbn [fold_right]. rewrite IH, (proj1 HB). reflexivity.
      + intros W S _. cbn [ev]. induction F3 as [|b b' r r' HB F3 IH]; [reflexivity|].
        pose proof (num_self _ _ HB) as HS. unfold self in HS. rewrite IH, HS. f_equal. f_equal. f_equal.
        clear - F3. induction F3 as [|b b' r r' HB F3 IH]; [reflexivity|]. cbn [fold_right]. rewrite IH, (proj1 HB). reflexivity.
    - destruct K as [K NC]. destruct (replace pw d e) as [a'|] eqn:RA; [|discriminate].
      destruct (is_const a') as [r|] eqn:CA; [apply is_const_some in CA; subst a'; apply cst_replace in RA; congruence|].
      injection R as <-. pose proof (IHe false a' K eq_refl V) as H. pose proof (num_self _ _ H) as HS. unfold self in HS. destruct H as (HW & _ & _).
      apply UP. unfold same_num; cbn [swid ssig ev]. rewrite HS, HW. repeat split.
    - destruct (replace pw d e) as [a'|] eqn:RA; [|discriminate]. injection R as <-.
      pose proof (IHe false a' K eq_refl V) as H. pose proof (num_self _ _ H) as HS. unfold self in HS. destruct H as (HW & _ & _).
      apply UP. unfold same_num; cbn [swid ssig ev]. rewrite HS, HW. repeat split.
  Qed.
End KeepOk.

(** ** Statements *)
Scheme fine_mind := Minimality for fine Sort Prop
  with fines_mind := Minimality for fines Sort Prop
  with fine_loop_mind := Minimality for fine_loop Sort Prop.
Combined Scheme fine_mutual from fine_mind, fines_mind, fine_loop_mind.
Definition all_loopless (l : list rs) : Prop := Forall loopless l.
Lemma loopless_list l : (fix all l := match l with [] => True | s :: r => loopless s /\ all r end) l <-> all_loopless l.
Proof.
  induction l as [|s r IH]; [split; [constructor|auto]|]. split.
  - intros [H1 H2]. constructor; [exact H1|apply IH, H2].
  - intros H. inversion H; subst. split; [assumption|apply IH; assumption].
Qed.
Lemma many_eq pw fuel d l :
  (fix many (d : table) (l : list rs) : option (list rs) :=
      match l with
      | [] => Some []
      | s :: r => match resolve_stmt pw fuel d s, many d r with Some s', Some r' => Some (s' :: r') | _, _ => None end
      end) d l = resolve_stmts pw fuel d l.
Proof. induction l as [|s r IH]; [reflexivity|]. cbn [resolve_stmts]. rewrite IH. reflexivity. Qed.
Lemma unroll_ext pw n f g d i cond post k : (forall d', f d' = g d') -> unroll pw n f d i cond post k = unroll pw n g d i cond post k.
Proof.
  intros H. revert k. induction n as [|n IH]; intros k; [reflexivity|]. cbn [unroll]. cbv zeta.
  destruct (replace pw (put d i k) cond) as [c|]; [|reflexivity]. destruct (is_const c) as [z|]; [|reflexivity].
  destruct (z =? 0); [reflexivity|]. rewrite H. destruct (g _); [|reflexivity]. destruct (replace pw (put d i k) post) as [p|]; [|reflexivity].
  destruct (is_const p); [|reflexivity]. rewrite IH. reflexivity.
Qed.
Section Stmts.
  Variables (dw0 : nat -> Z) (ds0 : nat -> bool) (junk0 : Z) (pw : nat -> Z) (lv : nat -> bool) (fuel : nat).
  Notation Run := (run dw0 ds0 junk0).
  Notation Loop := (loop dw0 ds0 junk0).
  Notation Env := (env dw0 ds0 junk0).
  Lemma run_cons s l a b c : Run [s] a b -> Run l b c -> Run (s :: l) a c.
  Proof.
    intros H K. inversion H as [|? ? ? ? ? ? R|? ? ? ? ? ? ? R R2|? ? ? ? ? ? ? ? ? R R2|? ? ? ? ? R R2]; subst.
    - inversion R; subst. constructor. exact K.
    - inversion R2; subst. econstructor; eassumption.
    - inversion R2; subst. econstructor; eassumption.
    - inversion R2; subst. econstructor; eassumption.
  Qed.
  Lemma expr_num d e e' s1 s2 : ok_expr dw0 ds0 pw lv false d e -> replace pw d e = Some e' -> tabled d s1 -> same lv s1 s2 ->
    forall w, assigned (Env s1) w e = assigned (Env s2) w e'.
  Proof.
    intros [K R] F T SM w. pose proof (keep_ok dw0 ds0 junk0 pw d (cur s1) (cur s2) T e false e' K F) as H.
    destruct H as (HW & HS & H).
    { intros x I N. apply SM. destruct (lv x) eqn:L; [|reflexivity]. exfalso. exact (R x I L N). }
    unfold assigned, env. rewrite <- HW, <- HS. rewrite H by lia. reflexivity.
  Qed.
  Lemma expr_bool d e e' s1 s2 : ok_expr dw0 ds0 pw lv true d e -> replace pw d e = Some e' -> tabled d s1 -> same lv s1 s2 ->
    truth (Env s1) e = truth (Env s2) e'.
  Proof.
    intros [K R] F T SM. apply (keep_ok dw0 ds0 junk0 pw d (cur s1) (cur s2) T e true e' K F).
    intros x I N. apply SM. destruct (lv x) eqn:L; [|reflexivity]. exfalso. exact (R x I L N).
  Qed.
  Lemma head_ok d cond post cond' post' : keep dw0 ds0 pw d true cond -> keep dw0 ds0 pw d false post ->
    replace pw d cond = Some cond' -> replace pw d post = Some post' -> forall s, tabled d s ->
    truth (Env s) cond = truth (Env s) cond' /\ assigned (Env s) 32 post = assigned (Env s) 32 post'.
  Proof.
    intros KC KP RC RP s Ts. split.
    - apply (keep_ok dw0 ds0 junk0 pw d (cur s) (cur s) Ts cond true cond' KC RC). auto.
    - destruct (keep_ok dw0 ds0 junk0 pw d (cur s) (cur s) Ts post false post' KP RP ltac:(auto)) as (HW & HS & H).
      unfold assigned, env. rewrite <- HW, <- HS. rewrite H by lia. reflexivity.
  Qed.
  Lemma same_refl s : same lv s s. Proof. intros x _. auto. Qed.
  Lemma tabled_set d blk x v s : d x = None -> tabled d s -> tabled d (set blk x v s).
  Proof.
    intros N T y z D. cbn [set cur]. destruct blk; [|exact (T y z D)]. unfold upd.
    destruct (Nat.eqb_spec y x); [congruence|exact (T y z D)].
  Qed.
  Lemma stmts_ok :
    (forall d s, fine dw0 ds0 pw lv d s -> forall s' s1 s2, resolve_stmt pw fuel d s = Some s' -> loopless s' -> tabled d s1 -> same lv s1 s2 ->
       exists t1 t2, Run [s] s1 t1 /\ Run [s'] s2 t2 /\ same lv t1 t2 /\ tabled d t1) /\
    (forall d l, fines dw0 ds0 pw lv d l -> forall l' s1 s2, resolve_stmts pw fuel d l = Some l' -> all_loopless l' -> tabled d s1 -> same lv s1 s2 ->
       exists t1 t2, Run l s1 t1 /\ Run l' s2 t2 /\ same lv t1 t2 /\ tabled d t1) /\
    (forall d i cond post body k, fine_loop dw0 ds0 pw lv d i cond post body k ->
       forall n r s1 s2, d i = None -> lv i = true -> dw0 i = 32 ->
       unroll pw n (fun d' => resolve_stmts pw fuel d' body) d i cond post k = Some (inl r) -> all_loopless r -> tabled d s1 ->
       cur s1 i = k -> same lv s1 s2 ->
       exists t1 t2,
       (forall cond0 post0, (forall s, tabled d s -> truth (Env s) cond0 = truth (Env s) cond /\ assigned (Env s) 32 post0 = assigned (Env s) 32 post) ->
          Loop i cond0 post0 body s1 t1) /\ Run r s2 t2 /\ same lv t1 t2 /\ tabled d t1).
  Proof.
    apply fine_mutual.
    - intros d blk x e OK LV DX s' s1 s2 F LL T SM. cbn [resolve_stmt] in F.
      destruct (replace pw d e) as [e'|] eqn:R; [|discriminate]. injection F as <-.
      pose proof (expr_num d e e' s1 s2 OK R T SM (dw0 x)) as EQ.
      eexists _, _. split; [apply run_sub, run_nil|]. split; [apply run_sub, run_nil|].
      split; [|apply tabled_set; assumption].
      intros y Ly. cbn [set cur nxt]. destruct (SM y Ly) as [C N]. rewrite EQ. unfold upd. destruct blk; cbv beta; destruct (Nat.eqb y x); auto.
    - intros d c t f OK _ IHt _ IHf s' s1 s2 F LL T SM. cbn [resolve_stmt] in F. rewrite !many_eq in F.
      destruct (replace pw d c) as [c'|] eqn:R; [|discriminate].
      destruct (resolve_stmts pw fuel d t) as [t'|] eqn:Rt; [|discriminate]. destruct (resolve_stmts pw fuel d f) as [f'|] eqn:Rf; [|discriminate].
      injection F as <-. cbn [loopless] in LL. destruct LL as [L1 L2]. apply loopless_list in L1, L2.
      pose proof (expr_bool d c c' s1 s2 OK R T SM) as EQ.
      assert (B : exists t1 t2, Run (if truth (Env s1) c then t else f) s1 t1 /\ Run (if truth (Env s2) c' then t' else f') s2 t2 /\ same lv t1 t2 /\ tabled d t1).
      { rewrite <- EQ. destruct (truth (Env s1) c); [apply IHt|apply IHf]; auto. }
      destruct B as (t1 & t2 & B1 & B2 & B3 & B4). exists t1, t2. split; [|split; [|split; assumption]].
      + eapply run_if; [exact B1|apply run_nil].
      + eapply run_if; [exact B2|apply run_nil].
    - intros d i init cond post body k LV DI DW DS OKI RI KC KP FL IH s' s1 s2 F LL T SM. cbn [resolve_stmt] in F.
      rewrite RI in F. destruct (replace pw d cond) as [cond'|] eqn:RC; [|discriminate]. destruct (replace pw d post) as [post'|] eqn:RP; [|discriminate].
      cbn [is_const] in F. specialize (IH cond' post' eq_refl eq_refl).
      rewrite (unroll_ext pw fuel _ (fun d' => resolve_stmts pw fuel d' body)) in F by (intros d'; apply many_eq).
      destruct (unroll pw fuel _ d i cond' post' k) as [[r|c]|] eqn:U; [|injection F as <-; destruct LL|discriminate].
      injection F as <-. cbn [loopless] in LL. apply loopless_list in LL.
      destruct (IH fuel r (set true i (assigned (Env s1) (dw0 i) init) s1) s2 DI LV DW) as (t1 & t2 & B1 & B2 & B3 & B4); try assumption.
      + apply tabled_set; assumption.
      + cbn [set cur]. unfold upd. rewrite Nat.eqb_refl, (expr_num d init (XPy k) s1 s2 OKI RI T SM), DW.
        pose proof (FL cond' post' eq_refl eq_refl) as FK. inversion FK as [? ? ? ? ? ? KR' _ _ _ _ _]; subst.
        unfold assigned. cbn [swid ssig]. change (Z.max 32 32) with 32.
        rewrite (small_ev dw0 ds0 junk0 (cur s2) k) by (unfold small; lia).
        change (2 ^ 31) with 2147483648 in KR'. change (2 ^ 32) with 4294967296. rewrite !Z.mod_small; lia.
      + intros x Lx. cbn [set cur nxt]. unfold upd. destruct (Nat.eqb_spec x i); [congruence|]. apply SM, Lx.
      + exists t1, t2. split; [eapply run_for; [apply B1; apply (head_ok d cond post cond' post'); assumption|apply run_nil]|]. split; [eapply run_seq; [exact B2|apply run_nil]|]. auto.
    - intros d l _ IH s' s1 s2 F LL T SM. cbn [resolve_stmt] in F. rewrite many_eq in F.
      destruct (resolve_stmts pw fuel d l) as [l'|] eqn:R; [|discriminate]. injection F as <-. cbn [loopless] in LL. apply loopless_list in LL.
      destruct (IH l' s1 s2 eq_refl LL T SM) as (t1 & t2 & B1 & B2 & B3 & B4). exists t1, t2.
      split; [eapply run_seq; [exact B1|apply run_nil]|]. split; [eapply run_seq; [exact B2|apply run_nil]|]. auto.
    - intros d l' s1 s2 F LL T SM. cbn [resolve_stmts] in F. injection F as <-. exists s1, s2. repeat split; try constructor; auto; apply SM; assumption.
    - intros d s l _ IHs _ IHl l' s1 s2 F LL T SM. cbn [resolve_stmts] in F.
      destruct (resolve_stmt pw fuel d s) as [s'|] eqn:R1; [|discriminate]. destruct (resolve_stmts pw fuel d l) as [l0|] eqn:R2; [|discriminate].
      injection F as <-. inversion LL; subst.
      destruct (IHs s' s1 s2 eq_refl ltac:(assumption) T SM) as (t1 & t2 & B1 & B2 & B3 & B4).
      destruct (IHl l0 t1 t2 eq_refl ltac:(assumption) B4 B3) as (u1 & u2 & C1 & C2 & C3 & C4).
      exists u1, u2. split; [exact (run_cons _ _ _ _ _ B1 C1)|]. split; [exact (run_cons _ _ _ _ _ B2 C2)|]. auto.
    - intros d i cond post body k KR OKC SC _ IHb OKP FL IHl n r s1 s2 DI LV DW F LL T CI SM.
      destruct n as [|n]; [discriminate|]. cbn [unroll] in F. cbv zeta in F.
      destruct (replace pw (put d i k) cond) as [c|] eqn:RC; [|discriminate].
      destruct (is_const c) as [z|] eqn:CC; [|discriminate]. apply is_const_some in CC. subst c.
      assert (CZ : cst pw (put d i k) cond = Some z) by (apply cst_replace; exact RC).
      assert (T' : tabled (put d i k) s1).
      { intros x y. unfold put. destruct (Nat.eqb_spec x i) as [->|N]; [|apply T]. intros E. injection E as <-. rewrite CI.
        rewrite Z.mod_small; [reflexivity|]. change (2 ^ 32) with 4294967296. change (2 ^ 31) with 2147483648 in KR. lia. }
      assert (TR : truth (Env s1) cond = negb (z =? 0)).
      { rewrite (expr_bool _ _ _ s1 s2 OKC RC T' SM).
        apply (py_truth dw0 ds0 junk0 (cur s2)). exact (SC z CZ). }
      destruct (z =? 0) eqn:Z0.
      + injection F as <-. exists s1, s2. split; [intros cond0 post0 EQ; apply loop_end; rewrite (proj1 (EQ s1 T)); exact TR|]. split; [constructor|]. auto.
      + assert (NZ : exists c, cst pw (put d i k) cond = Some c /\ c <> 0) by (exists z; split; [exact CZ|apply Z.eqb_neq, Z0]).
        specialize (IHb NZ). specialize (OKP NZ).
        destruct (resolve_stmts pw fuel (put d i k) body) as [b|] eqn:RB; [|discriminate].
        destruct (replace pw (put d i k) post) as [p|] eqn:RP; [|discriminate].
        destruct (is_const p) as [k'|] eqn:CP; [|discriminate]. apply is_const_some in CP. subst p.
        assert (CK : cst pw (put d i k) post = Some k') by (apply cst_replace; exact RP).
        destruct (unroll pw n _ d i cond post k') as [[r'|]|] eqn:U; try discriminate. injection F as <-.
        inversion LL as [|? ? L1 L2]; subst. cbn [loopless] in L1. apply loopless_list in L1.
        destruct (IHb b s1 s2 eq_refl L1 T' SM) as (t1 & t2 & B1 & B2 & B3 & B4).
        assert (Td : tabled d t1).
        { intros x y D. apply B4. rewrite put_other; [exact D|congruence]. }
        assert (NX : assigned (Env t1) 32 post = k').
        { rewrite (expr_num _ _ _ t1 t2 OKP RP B4 B3).
          pose proof (FL k' NZ CK) as FK. inversion FK as [? ? ? ? ? ? KR' _ _ _ _ _]; subst.
          unfold assigned. cbn [swid ssig]. change (Z.max 32 32) with 32.
          rewrite (small_ev dw0 ds0 junk0 (cur t2) k') by (unfold small; lia).
          change (2 ^ 31) with 2147483648 in KR'. change (2 ^ 32) with 4294967296. rewrite !Z.mod_small; lia. }
        destruct (IHl k' NZ CK n r' (set true i (assigned (Env t1) 32 post) t1) t2 DI LV DW U L2) as (u1 & u2 & C1 & C2 & C3 & C4).
        * apply tabled_set; assumption.
        * cbn [set cur]. unfold upd. rewrite Nat.eqb_refl. exact NX.
        * intros x Lx. cbn [set cur nxt]. unfold upd. destruct (Nat.eqb_spec x i); [congruence|]. apply B3, Lx.
        * exists u1, u2. split.
          { intros cond0 post0 EQ. eapply loop_step; [rewrite (proj1 (EQ s1 T)); exact TR|exact B1|].
            rewrite DW, (proj2 (EQ t1 Td)). apply C1, EQ. }
          split; [eapply run_seq; [exact B2|exact C2]|]. auto.
  Qed.

  Scheme run_mind := Minimality for run Sort Prop
    with loop_mind := Minimality for loop Sort Prop.
  Combined Scheme run_mutual from run_mind, loop_mind.
  Lemma run_det : (forall l s t, Run l s t -> forall t', Run l s t' -> t' = t) /\
    (forall i cond post body s t, Loop i cond post body s t -> forall t', Loop i cond post body s t' -> t' = t).
  Proof.
    apply (run_mutual dw0 ds0 junk0 (fun l s t => forall t', Run l s t' -> t' = t)
             (fun i cond post body s t => forall t', Loop i cond post body s t' -> t' = t)).
    - intros s t' H. inversion H. reflexivity.
    - intros blk x e l s s' _ IH t' H. inversion H; subst. auto.
    - intros c t f l s s1 s' _ IH1 _ IH2 t' H. inversion H as [| |? ? ? ? ? u ? R1 R2| |]; subst. apply IH1 in R1. subst u. auto.
    - intros i init cond post body l s s1 s' _ IH1 _ IH2 t' H. inversion H as [| | |? ? ? ? ? ? ? u ? R1 R2|]; subst. apply IH1 in R1. subst u. auto.
    - intros b l s s1 s' _ IH1 _ IH2 t' H. inversion H as [| | | |? ? ? u ? R1 R2]; subst. apply IH1 in R1. subst u. auto.
    - intros i cond post body s TR t' H. inversion H; subst; congruence.
    - intros i cond post body s s1 s' TR _ IH1 _ IH2 t' H. inversion H as [|? ? ? ? ? u ? T2 R1 R2]; subst; [congruence|]. apply IH1 in R1. subst u. auto.
  Qed.
  Lemma same_sym a b : same lv a b -> same lv b a.
  Proof. intros H x L. destruct (H x L). auto. Qed.
  Lemma same_trans a b c : same lv a b -> same lv b c -> same lv a c.
  Proof. intros H K x L. destruct (H x L), (K x L). split; congruence. Qed.
  (** the statement as it is left in place in an always block *)
  Lemma in_place_ok d s : fine dw0 ds0 pw lv d s -> (forall x, d x <> None -> lv x = false) ->
    forall s' s'' s1 s2, in_place pw fuel d s = Some s' -> resolve_stmt pw fuel d s = Some s'' -> loopless s'' -> tabled d s1 -> same lv s1 s2 ->
    exists t1 t2, Run [s] s1 t1 /\ Run [s'] s2 t2 /\ same lv t1 t2 /\ tabled d t1.
  Proof.
    intros FI DL s' s'' s1 s2 F R LL T SM.
    assert (ST : forall u, s = u -> in_place pw fuel d u = resolve_stmt pw fuel d u -> exists t1 t2, Run [s] s1 t1 /\ Run [s'] s2 t2 /\ same lv t1 t2 /\ tabled d t1).
    { intros u <- E. rewrite E, R in F. injection F as <-. apply (proj1 stmts_ok d s FI s'' s1 s2 R LL T SM). }
    destruct s as [blk x e|c t f|i init cond post body|l]; try exact (ST _ eq_refl eq_refl). clear ST.
    inversion FI as [| |? ? ? ? ? ? k LV DI DW DS OKI RI KC KP FL|]; subst.
    cbn [in_place] in F. rewrite R, RI in F.
    destruct (replace pw d cond) as [cond'|] eqn:RC; [|destruct s''; discriminate].
    destruct (replace pw d post) as [post'|] eqn:RP; [|destruct s''; discriminate].
    cbn [resolve_stmt] in R. rewrite RI, RC, RP in R. cbn [is_const] in R.
    rewrite (unroll_ext pw fuel _ (fun d' => resolve_stmts pw fuel d' body)) in R by (intros d'; apply many_eq).
    destruct (unroll pw fuel _ d i cond' post' k) as [[r|c]|] eqn:U; [|injection R as <-; destruct LL|discriminate].
    injection R as <-. injection F as <-. cbn [loopless] in LL. apply loopless_list in LL.
    specialize (FL cond' post' eq_refl eq_refl).
    assert (T2 : tabled d s2).
    { intros x z D. rewrite <- (proj1 (SM x (DL x ltac:(congruence)))). exact (T x z D). }
    assert (K1 : forall s, tabled d s -> same lv s s2 -> assigned (Env s) (dw0 i) init = k /\ assigned (Env s) (dw0 i) (XPy k) = k).
    { intros s Ts SMs. rewrite (expr_num d init (XPy k) s s2 OKI RI Ts SMs), DW.
      inversion FL as [? ? ? ? ? ? KR' _ _ _ _ _]; subst. unfold assigned, env. cbn [swid ssig]. change (Z.max 32 32) with 32.
      rewrite !(small_ev dw0 ds0 junk0) by (unfold small; lia).
      change (2 ^ 31) with 2147483648 in KR'. change (2 ^ 32) with 4294967296. rewrite !Z.mod_small; lia. }
    assert (IT : forall s v, same lv s s2 -> same lv (set true i v s) s2).
    { intros s v H x Lx. cbn [set cur nxt]. unfold upd. destruct (Nat.eqb_spec x i); [congruence|]. apply H, Lx. }
    pose proof (proj2 (proj2 stmts_ok) d i cond' post' body k FL) as ST.
    destruct (ST fuel r (set true i k s1) s2 DI LV DW U LL (tabled_set d true i k s1 DI T)) as (t1 & u1 & A1 & A2 & A3 & A4);
      [cbn [set cur]; unfold upd; rewrite Nat.eqb_refl; reflexivity|apply IT, SM|].
    destruct (ST fuel r (set true i k s2) s2 DI LV DW U LL (tabled_set d true i k s2 DI T2)) as (t2 & u2 & B1 & B2 & B3 & B4);
      [cbn [set cur]; unfold upd; rewrite Nat.eqb_refl; reflexivity|apply IT, same_refl|].
    rewrite (proj1 run_det _ _ _ A2 _ B2) in B3.
    exists t1, t2. split; [|split; [|split; [exact (same_trans _ _ _ A3 (same_sym _ _ B3))|exact A4]]].
    - eapply run_for; [|apply run_nil]. rewrite (proj1 (K1 s1 T SM)). apply A1, (head_ok d cond post cond' post' KC KP RC RP).
    - eapply run_for; [|apply run_nil]. rewrite (proj2 (K1 s2 T2 (same_refl s2))). apply B1. auto.
  Qed.
  Lemma always_ok d l : fines dw0 ds0 pw lv d l -> (forall x, d x <> None -> lv x = false) ->
    forall l' l'' s1 s2, resolve_always pw fuel d l = Some l' -> resolve_stmts pw fuel d l = Some l'' -> all_loopless l'' -> tabled d s1 -> same lv s1 s2 ->
    exists t1 t2, Run l s1 t1 /\ Run l' s2 t2 /\ same lv t1 t2 /\ tabled d t1.
  Proof.
    intros FI DL. induction l as [|s l IH]; intros l' l'' s1 s2 F R LL T SM; unfold resolve_always in *; cbn [map all_some resolve_stmts] in F, R.
    - injection F as <-. exists s1, s2. repeat split; try constructor; auto; apply SM; assumption.
    - inversion FI as [|? ? ? F1 F2]; subst.
      destruct (in_place pw fuel d s) as [s'|] eqn:P; [|discriminate]. destruct (all_some _) as [r'|] eqn:Q in F; [|discriminate]. injection F as <-.
      destruct (resolve_stmt pw fuel d s) as [s''|] eqn:P2; [|discriminate]. destruct (resolve_stmts pw fuel d l) as [r''|] eqn:Q2; [|discriminate].
      injection R as <-. inversion LL; subst.
      destruct (in_place_ok d s F1 DL s' s'' s1 s2 P P2 ltac:(assumption) T SM) as (t1 & t2 & B1 & B2 & B3 & B4).
      destruct (IH F2 r' r'' t1 t2 Q eq_refl ltac:(assumption) B4 B3) as (u1 & u2 & C1 & C2 & C3 & C4).
      exists u1, u2. split; [exact (run_cons _ _ _ _ _ B1 C1)|]. split; [exact (run_cons _ _ _ _ _ B2 C2)|]. auto.
  Qed.
End Stmts.

(** ** Order *)
Lemma cvisit_ext pw d d' e : (forall x, In x (vars e) -> d x = d' x) -> cvisit pw d e = cvisit pw d' e.
Proof.
  induction e using vx_tree_ind; cbn [vars cvisit]; intros V.
  - reflexivity.
  - reflexivity.
  - reflexivity.
  - rewrite (V x (or_introl eq_refl)). reflexivity.
  - rewrite (IHe V). reflexivity.
  - rewrite IHe1, IHe2; [reflexivity| |]; intros x I; apply V, in_or_app; auto.
  - rewrite IHe1, IHe2, IHe3; [reflexivity| | |]; intros x I; apply V, in_or_app; [right; apply in_or_app; auto|right; apply in_or_app; auto|auto].
  - rewrite (V x (or_introl eq_refl)), IHe; [reflexivity|]. intros y I. apply V. right. exact I.
  - rewrite (V x (or_introl eq_refl)). reflexivity.
  - assert (EQ : map (cvisit pw d) es = map (cvisit pw d') es).
    { induction H as [|a r Pa Pr IH]; [reflexivity|]. cbn [map flat_map] in *. rewrite Pa, IH; [reflexivity| |]; intros x I; apply V, in_or_app; auto. }
    rewrite EQ. reflexivity.
  - rewrite (IHe V). reflexivity.
  - rewrite (IHe V). reflexivity.
Qed.
Lemma order_ok pw ps ps' given d d' : NoDup (map fst ps) -> (forall p, In p ps <-> In p ps') -> NoDup (map fst ps') ->
  update_const_dict pw ps given = Done d -> update_const_dict pw ps' given = Done d' -> forall x, d x = d' x.
Proof.
  intros ND SP ND' U U'.
  pose proof (update_ok pw ps given ND) as T. rewrite U in T. pose proof (update_ok pw ps' given ND') as T'. rewrite U' in T'.
  destruct T as [_ _ A3 _ A5 A6], T' as [_ _ B3 _ B5 B6].
  assert (R : forall n, resolvable ps given n -> d n = d' n).
  { fix IH 2. intros n R. destruct R as [n e I PL V].
    destruct (given n) as [z|] eqn:G; [rewrite (A3 _ _ G), (B3 _ _ G); reflexivity|].
    destruct (A6 n e I) as [[]|(_ & z & C & D)]. destruct (B6 n e (proj1 (SP _) I)) as [[]|(_ & z' & C' & D')].
    rewrite (D G), (D' G). rewrite (cvisit_ext pw d d' e) in C; [congruence|].
    intros x J. destruct (V x J) as [N|R']; [|exact (IH x R')].
    destruct (given x) eqn:Gx; [rewrite (A3 _ _ Gx), (B3 _ _ Gx); reflexivity|congruence]. }
  assert (R' : forall n, resolvable ps' given n -> exists e, In (n, e) ps).
  { intros n [m e I _ _]. exists e. apply SP, I. }
  intros x. destruct (d x) as [z|] eqn:D.
  - destruct (A5 x ltac:(congruence)) as [G|G]; [|rewrite <- D; apply R, G].
    destruct (given x) eqn:Gx; [|congruence]. rewrite (B3 _ _ Gx). rewrite (A3 _ _ Gx) in D. congruence.
  - destruct (d' x) as [z|] eqn:D'; [|reflexivity]. exfalso.
    destruct (B5 x ltac:(congruence)) as [G|G].
    + destruct (given x) eqn:Gx; [|congruence]. rewrite (A3 _ _ Gx) in D. discriminate.
    + destruct (R' x G) as [e I]. destruct (A6 x e I) as [[]|(Q & _)]. apply R in Q. congruence.
Qed.
