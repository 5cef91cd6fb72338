From Coq Require Import String.
From Verif Require Import Base Bits Vx_Model Vx_Sem Res_Model Res_Spec Res_Proofs Ren_Model Ren_Spec.
Open Scope Z_scope.

Lemma all_some_f2 {A B} (g : A -> option B) l l' : all_some (map g l) = Some l' -> Forall2 (fun a b => g a = Some b) l l'.
Proof.
  revert l'. induction l as [|a l IH]; intros l' H; cbn [map all_some] in H; [injection H as <-; constructor|].
  destruct (g a) eqn:G; [|discriminate]. destruct (all_some _) eqn:R in H; [|discriminate]. injection H as <-. constructor; auto.
Qed.
Lemma rename_ok tasks f E E' e : forall e', rename tasks f e = Some e' -> renamed f (vars e) E E' -> equivalent E E' e e'.
Proof.
  assert (SUB : forall l l', incl l' l -> renamed f l E E' -> renamed f l' E E').
  { intros l l' I [J H]. split; [exact J|]. intros x X. apply H, I, X. }
  induction e using vx_tree_ind; intros e' R V; cbn [rename vars] in *.
  - injection R as <-. repeat split.
  - injection R as <-. repeat split.
  - discriminate.
  - injection R as <-. destruct V as [_ V]. destruct (V x (or_introl eq_refl)) as (A & B & C).
    unfold equivalent. cbn [swid ssig ev]. rewrite A, B, C. repeat split.
  - destruct (rename tasks f e) as [a'|] eqn:RA; [|discriminate]. injection R as <-.
    destruct (IHe a' eq_refl V) as (HW & HS & H). destruct o; unfold equivalent; cbn [swid ssig ev]; rewrite ?HW, ?HS; repeat split; intros; rewrite ?H; reflexivity.
  - destruct (rename tasks f e1) as [a'|] eqn:RA; [|discriminate]. destruct (rename tasks f e2) as [b'|] eqn:RB; [|discriminate]. injection R as <-.
    destruct (IHe1 a' eq_refl (SUB _ _ (incl_appl _ (incl_refl _)) V)) as (AW & AS & HA).
    destruct (IHe2 b' eq_refl (SUB _ _ (incl_appr _ (incl_refl _)) V)) as (BW & BS & HB).
    assert (J : junk E' = junk E) by apply V.
    destruct o; unfold equivalent; cbn [swid ssig ev]; rewrite ?AW, ?AS, ?BW, ?BS; repeat split; intros; rewrite ?HA, ?HB; unfold arith, power; rewrite ?J; reflexivity.
  - destruct (rename tasks f e1) as [c'|] eqn:RC; [|discriminate]. destruct (rename tasks f e2) as [t'|] eqn:RT; [|discriminate].
    destruct (rename tasks f e3) as [g'|] eqn:RG; [|discriminate]. injection R as <-.
    destruct (IHe1 c' eq_refl (SUB _ _ (incl_appl _ (incl_refl _)) V)) as (CW & CS & HC).
    destruct (IHe2 t' eq_refl (SUB _ _ (incl_appr _ (incl_appl _ (incl_refl _))) V)) as (TW & TS & HT).
    destruct (IHe3 g' eq_refl (SUB _ _ (incl_appr _ (incl_appr _ (incl_refl _))) V)) as (GW & GS & HG).
    unfold equivalent; cbn [swid ssig ev]. rewrite CW, CS, TW, TS, GW, GS. repeat split. intros. rewrite HC, HT, HG. reflexivity.
  - destruct (rename tasks f e) as [p'|] eqn:RP; [|discriminate]. injection R as <-.
    destruct (IHe p' eq_refl (SUB _ _ (incl_tl _ (incl_refl _)) V)) as (HW & HS & H).
    destruct V as [J V]. destruct (V x (or_introl eq_refl)) as (A & B & C).
    unfold equivalent; cbn [swid ssig ev]. repeat split. intros. cbv zeta. rewrite HW, HS, H, A, C, J. reflexivity.
  - injection R as <-. destruct V as [J V]. destruct (V x (or_introl eq_refl)) as (A & B & C).
    unfold equivalent; cbn [swid ssig ev]. repeat split. intros. rewrite A, C, J. reflexivity.
  - destruct (all_some (map (rename tasks f) es)) as [es'|] eqn:RE; [|discriminate]. injection R as <-.
    apply all_some_f2 in RE.
    assert (F : Forall2 (equivalent E E') es es').
    { induction RE as [|a a' r r' HA RE IH]; [constructor|]. inversion H as [|? ? PA PR]; subst. cbn [flat_map] in V.
      constructor; [apply PA; [exact HA|exact (SUB _ _ (incl_appl _ (incl_refl _)) V)]|].
      apply IH; [exact PR|exact (SUB _ _ (incl_appr _ (incl_refl _)) V)]. }
    clear - F. assert (WD : fold_right (fun a s => swid E' a + s) 0 es' = fold_right (fun a s => swid E a + s) 0 es).
    { induction F as [|a a' r r' HA F IH]; [reflexivity|]. cbn [fold_right]. rewrite IH, (proj1 HA). reflexivity. }
    unfold equivalent. split; [exact WD|]. split; [reflexivity|]. intros W S. cbn [ev]. clear WD.
    induction F as [|a a' r r' HA F IH]; [reflexivity|]. destruct HA as (HW & HS & HA). rewrite IH, HW, HS, HA. f_equal. f_equal. f_equal.
    clear - F. induction F as [|a a' r r' HA F IH]; [reflexivity|]. cbn [fold_right]. rewrite IH, (proj1 HA). reflexivity.
  - destruct (rename tasks f e) as [a'|] eqn:RA; [|discriminate]. injection R as <-.
    destruct (IHe a' eq_refl V) as (HW & HS & H). unfold equivalent; cbn [swid ssig ev]. rewrite HW, HS, H. repeat split.
  - destruct tasks; [|discriminate]. destruct (rename true f e) as [a'|] eqn:RA; [|discriminate]. injection R as <-.
    destruct (IHe a' eq_refl V) as (HW & HS & H). unfold equivalent; cbn [swid ssig ev]. rewrite HW, HS. repeat split. intros. rewrite H. reflexivity.
Qed.

(** ** Statements *)
Section RsInd.
  Variable P : rs -> Prop.
  Hypothesis Hsub : forall blk x e, P (RSub blk x e).
  Hypothesis Hif : forall c t g, Forall P t -> Forall P g -> P (RIf c t g).
  Hypothesis Hfor : forall i a c p b, Forall P b -> P (RFor i a c p b).
  Hypothesis Hseq : forall l, Forall P l -> P (RSeq l).
  Fixpoint rs_tree_ind (s : rs) : P s :=
    let all := fix all (l : list rs) : Forall P l := match l with [] => Forall_nil P | a :: r => Forall_cons a (rs_tree_ind a) (all r) end in
    match s with
    | RSub blk x e => Hsub blk x e
    | RIf c t g => Hif c t g (all t) (all g)
    | RFor i a c p b => Hfor i a c p b (all b)
    | RSeq l => Hseq l (all l)
    end.
End RsInd.
Lemma simple_list l : (fix all l := match l with [] => True | s :: r => simple s /\ all r end) l <-> Forall simple l.
Proof.
  induction l as [|s r IH]; [split; [constructor|auto]|]. split.
  - intros [H1 H2]. constructor; [exact H1|apply IH, H2].
  - intros H. inversion H; subst. split; [assumption|apply IH; assumption].
Qed.
Section Src.
  Variables (dw0 dw1 : nat -> Z) (ds0 ds1 : nat -> bool) (junk0 : Z) (f : nat -> nat).
  Notation Run0 := (run dw0 ds0 junk0).
  Notation Run1 := (run dw1 ds1 junk0).
  Definition good (l : list nat) (ds : list nat) (s s' : store) : Prop :=
    (forall x, In x l -> dw1 (f x) = dw0 x /\ ds1 (f x) = ds0 x /\ cur s' (f x) = cur s x) /\
    (forall x, In x ds -> dw1 x = dw0 x).
  Lemma good_sub l l' d d' s s' : incl l' l -> incl d' d -> good l d s s' -> good l' d' s s'.
  Proof. intros I J [A B]. split; intros x X; [apply A, I, X|apply B, J, X]. Qed.
  Lemma good_env l d s s' : good l d s s' -> renamed f l (env dw0 ds0 junk0 s) (env dw1 ds1 junk0 s').
  Proof. intros [A _]. split; [reflexivity|]. exact A. Qed.
  Definition sim (s : rs) : Prop := forall s' a b, simple s -> src_rename f s = Some s' -> good (sources s) (dests s) a b -> nxt b = nxt a ->
    exists a' b', Run0 [s] a a' /\ Run1 [s'] b b' /\ cur a' = cur a /\ cur b' = cur b /\ nxt b' = nxt a'.
  Lemma sims l : Forall sim l -> forall l' a b, Forall simple l -> src_renames f l = Some l' ->
    good (flat_map sources l) (flat_map dests l) a b -> nxt b = nxt a ->
    exists a' b', Run0 l a a' /\ Run1 l' b b' /\ cur a' = cur a /\ cur b' = cur b /\ nxt b' = nxt a'.
  Proof.
    unfold src_renames. induction 1 as [|s l HS HL IH]; intros l' a b SI R G N; cbn [map all_some] in R.
    - injection R as <-. exists a, b. repeat split; try constructor. exact N.
    - inversion SI as [|? ? S1 S2]; subst. destruct (src_rename f s) as [s'|] eqn:RS; [|discriminate].
      destruct (all_some _) as [r'|] eqn:RL in R; [|discriminate]. injection R as <-. cbn [flat_map] in G.
      destruct (HS s' a b S1 RS (good_sub _ _ _ _ _ _ (incl_appl _ (incl_refl _)) (incl_appl _ (incl_refl _)) G) N) as (a1 & b1 & A & B & CA & CB & NN).
      destruct (IH r' a1 b1 S2 RL) as (a2 & b2 & A2 & B2 & CA2 & CB2 & NN2); [|exact NN|].
      { apply (good_sub _ _ _ _ _ _ (incl_appr (sources s) (incl_refl _)) (incl_appr (dests s) (incl_refl _))) in G.
        destruct G as [G1 G2]. split; [|exact G2]. intros x X. rewrite CA, CB. apply G1, X. }
      exists a2, b2. split; [exact (run_cons _ _ _ _ _ _ _ _ A A2)|]. split; [exact (run_cons _ _ _ _ _ _ _ _ B B2)|].
      rewrite CA2, CB2. auto.
  Qed.
  Lemma sim_all s : sim s.
  Proof.
    induction s as [blk x e|c t g IHt IHg|i ini c p b IHb|l IHl] using rs_tree_ind; intros s' a b' SI R G N; cbn [src_rename sources dests simple] in *.
    - subst blk. destruct (rename true f e) as [e'|] eqn:RE; [|discriminate]. injection R as <-.
      destruct (rename_ok true f _ _ e e' RE (good_env _ _ _ _ G)) as (HW & HS & H).
      eexists _, _. split; [apply run_sub, run_nil|]. split; [apply run_sub, run_nil|]. split; [reflexivity|]. split; [reflexivity|].
      cbn [set nxt]. rewrite N. unfold assigned. rewrite HW, HS, H, (proj2 G x (or_introl eq_refl)). reflexivity.
    - destruct SI as [St Sg]. apply simple_list in St, Sg.
      destruct (rename true f c) as [c'|] eqn:RC; [|discriminate].
      destruct (all_some (map (src_rename f) t)) as [t'|] eqn:RT; [|discriminate]. destruct (all_some (map (src_rename f) g)) as [g'|] eqn:RG; [|discriminate].
      injection R as <-.
      destruct (rename_ok true f _ _ c c' RC (good_env _ _ _ _ (good_sub _ _ _ _ _ _ (incl_appl _ (incl_refl _)) (incl_refl _) G))) as (HW & HS & H).
      assert (TR : truth (env dw1 ds1 junk0 b') c' = truth (env dw0 ds0 junk0 a) c) by (unfold truth, self; rewrite HW, HS, H; reflexivity).
      assert (B : exists a1 b1, Run0 (if truth (env dw0 ds0 junk0 a) c then t else g) a a1 /\ Run1 (if truth (env dw1 ds1 junk0 b') c' then t' else g') b' b1 /\
                  cur a1 = cur a /\ cur b1 = cur b' /\ nxt b1 = nxt a1).
      { rewrite TR. destruct (truth _ c).
        - apply (sims t IHt t' a b' St RT); [|exact N]. eapply good_sub; [| |exact G]; [apply incl_appr, incl_appl, incl_refl|apply incl_appl, incl_refl].
        - apply (sims g IHg g' a b' Sg RG); [|exact N]. eapply good_sub; [| |exact G]; [apply incl_appr, incl_appr, incl_refl|apply incl_appr, incl_refl]. }
      destruct B as (a1 & b1 & A & B & CA & CB & NN). exists a1, b1.
      split; [eapply run_if; [exact A|apply run_nil]|]. split; [eapply run_if; [exact B|apply run_nil]|]. auto.
    - destruct SI.
    - apply simple_list in SI. destruct (all_some (map (src_rename f) l)) as [l'|] eqn:RL; [|discriminate]. injection R as <-.
      destruct (sims l IHl l' a b' SI RL G N) as (a1 & b1 & A & B & C). exists a1, b1.
      split; [eapply run_seq; [exact A|apply run_nil]|]. split; [eapply run_seq; [exact B|apply run_nil]|]. exact C.
  Qed.
End Src.

(** ** Names *)
Lemma append_inj_l p a b : (p ++ a = p ++ b)%string -> a = b.
Proof. induction p as [|c p IH]; cbn; [auto|]. intros H. injection H. exact IH. Qed.
Lemma append_length a b : String.length (a ++ b) = (String.length a + String.length b)%nat.
Proof. induction a as [|c a IH]; cbn; [reflexivity|]. rewrite IH. reflexivity. Qed.
Lemma append_inj_r p a b : (a ++ p = b ++ p)%string -> a = b.
Proof.
  revert b. induction a as [|c a IH]; intros [|c' b] H; cbn in H.
  - reflexivity.
  - exfalso. apply (f_equal String.length) in H. cbn in H. rewrite append_length in H. lia.
  - exfalso. apply (f_equal String.length) in H. cbn in H. rewrite append_length in H. lia.
  - injection H as -> H. f_equal. apply IH, H.
Qed.
Lemma excluded_iff x l : existsb (String.eqb x) l = true <-> In x l.
Proof.
  rewrite existsb_exists. split.
  - intros (y & I & H). apply String.eqb_eq in H. subst. exact I.
  - intros I. exists x. split; [exact I|apply String.eqb_refl].
Qed.

(** ** The optimizer *)
Lemma make_df_vx E e : forall t, make_df e = Some t -> unsized e -> equivalent E E e (reading t).
Proof.
  induction e using vx_tree_ind; intros t D U; cbn [make_df] in D; try discriminate.
  - injection D as <-. repeat split.
  - injection D as <-. destruct U as [UW US]. unfold equivalent. cbn [reading swid ssig ev]. rewrite UW, US. repeat split.
  - injection D as <-. repeat split.
  - destruct (make_df e) as [t0|] eqn:DE; [|discriminate]. injection D as <-.
    destruct (IHe t0 eq_refl U) as (HW & HS & H).
    destruct o; unfold equivalent; cbn [reading swid ssig ev]; rewrite ?HW, ?HS; repeat split; intros; rewrite ?H; reflexivity.
  - destruct (make_df e1) as [t1|] eqn:D1; [|discriminate]. destruct (make_df e2) as [t2|] eqn:D2; [|discriminate]. injection D as <-.
    destruct (IHe1 t1 eq_refl (proj1 U)) as (AW & AS & HA). destruct (IHe2 t2 eq_refl (proj2 U)) as (BW & BS & HB).
    destruct o; unfold equivalent; cbn [reading swid ssig ev]; rewrite ?AW, ?AS, ?BW, ?BS; repeat split; intros; rewrite ?HA, ?HB; reflexivity.
Qed.
Lemma make_ast_reading t : forall e, make_ast t = Some e -> e = reading t.
Proof.
  induction t as [x|z|o a IH|o a IHa b IHb]; intros e H; cbn [make_ast reading] in *.
  - injection H as <-. reflexivity.
  - injection H as <-. unfold int_node. destruct (z <? 0); reflexivity.
  - destruct (has_op1 o); [|discriminate]. destruct (make_ast a); [|discriminate]. injection H as <-. rewrite <- (IH v eq_refl). reflexivity.
  - destruct (has_op2 o); [|discriminate]. destruct (make_ast a); [|discriminate]. destruct (make_ast b); [|discriminate]. injection H as <-.
    rewrite <- (IHa v eq_refl), <- (IHb v0 eq_refl). reflexivity.
Qed.
Lemma equivalent_trans E e1 e2 e3 : equivalent E E e1 e2 -> equivalent E E e2 e3 -> equivalent E E e1 e3.
Proof. intros (A & B & C) (A' & B' & C'). split; [congruence|]. split; [congruence|]. intros W S. rewrite C'. apply C. Qed.
Lemma foreign_none t : foreign t <-> make_ast t = None.
Proof.
  induction t as [x|z|o a IH|o a IHa b IHb]; cbn [foreign make_ast].
  - split; [intros []|discriminate].
  - split; [intros []|discriminate].
  - rewrite IH. destruct (make_ast a); cbn.
    + split.
      * intros [H|H]; [discriminate|]. destruct o; cbn; reflexivity || (exfalso; intuition congruence).
      * intros H. right. destruct o; cbn in H; try discriminate H; repeat split; discriminate.
    + split; [intros _; destruct (has_op1 o); reflexivity|auto].
  - rewrite IHa, IHb. destruct (make_ast a), (make_ast b); cbn; try (split; [intros _; destruct (has_op2 o); reflexivity|auto]).
    split.
    + intros [H|[H|H]]; [discriminate|discriminate|]. subst o. reflexivity.
    + intros H. right. right. destruct o; cbn in H; try discriminate H; reflexivity.
Qed.
