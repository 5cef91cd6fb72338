(** Reading a written design and writing it again gives the same tree. *)
From Coq Require Import String Ascii.
From Verif Require Import Base Lit_Model Lit_Spec Lit_Proofs Lit_Props Rw_Model Rw_Spec Rw_Proofs.
Open Scope list_scope.
Open Scope Z_scope.

(** ** Objects whose text is read back: unsigned constants, selections from names *)
Definition int_st (c : intc) : Prop :=
  (exists v w b, c = int_num v w b false /\ 0 <= v /\ (forall n, w = Some n -> 0 < n) /\ (b = None \/ b = Some 2 \/ b = Some 8 \/ b = Some 10 \/ b = Some 16)) \/
  (exists w b body, c = mkInt (VS body) w (Some b) false /\ (forall n, w = Some n -> 0 < n) /\ (b = 2 \/ b = 8 \/ b = 10 \/ b = 16) /\
     every (fun c => below b c || xz c) body = true /\ every (below b) body = false /\ (b = 16 -> unprefixed 16 body = body)).
Fixpoint gse (e : gexpr) : Prop :=
  match e with
  | GName _ | GPy _ | GBool _ | GStr _ => True
  | GInt c => int_st c
  | GUn _ a => gse a
  | GSkip a => gse a
  | GPtr a b => selectable a = true /\ gse a /\ gse b
  | GSlice a b c => selectable a = true /\ gse a /\ gse b /\ gse c
  | GBin _ a b | GRep a b => gse a /\ gse b
  | GCond a b c => gse a /\ gse b /\ gse c
  | GCat l | GSys _ l => fold_right (fun e P => gse e /\ P) True l
  end.
Definition gst_delay (m : vmode) (d : option Z) : Prop := match d with None => True | Some z => 0 <= z /\ (m = MAlways -> z = 0) end.
Definition not_list (s : gstmt) : bool := match s with GList _ => false | _ => true end.
Fixpoint gst (gen : bool) (m : vmode) (s : gstmt) : Prop :=
  let body (l : list gstmt) := fold_right (fun s P => gst gen m s /\ P) True l in
  match s with
  | GSubst l r _ ld rd => gse l /\ gse r /\ gst_delay m ld /\ gst_delay m rd
  | GIf c t f => gen = false /\ gse c /\ body t /\ match f with Some l => body l | None => True end
  | GFor p c q b => gen = false /\ gst gen MBlocking p /\ gse c /\ gst gen MBlocking q /\ body b
  | GWhile c b => gse c /\ body b
  | GCase _ c ws =>
      gse c /\ default_last ws = true /\
      fold_right (fun w P => (match fst w with Some es => es <> [] /\ Forall gse es | None => True end /\ body (snd w)) /\ P) True ws
  | GList l => body l
  | GSingle e | GDelay e => gse e
  | GWait c b => gse c /\ match b with Some l => existsb not_list l = true /\ body l | None => True end
  | GForever b => body b
  end.

(** ** Trees that are read and written unchanged *)
Definition nf_const (t : string) : Prop := exists c, int_text t None None false = Some c /\ print_int c = Some t.
Fixpoint nfe (e : aexpr) : Prop :=
  match e with
  | AId _ | AStr _ => True
  | AConst t => nf_const t
  | AUn _ a => nfe a
  | ABin _ a b => nfe a /\ nfe b
  | APointer a b => (match a with AId _ | APointer _ _ => True | _ => False end) /\ nfe a /\ nfe b
  | APart a b c => (match a with AId _ | APointer _ _ => True | _ => False end) /\ nfe a /\ nfe b /\ nfe c
  | ARepeat a b => (match a with AConcat _ => True | _ => False end) /\ nfe a /\ nfe b
  | ACond a b c => nfe a /\ nfe b /\ nfe c
  | AConcat l | ASys _ l => fold_right (fun e P => nfe e /\ P) True l
  end.
Lemma all_st : forall {A B} (f : A -> option B) (P : A -> Prop) (Q : B -> Prop) l r, Forall (fun a => P a -> forall b, f a = Some b -> Q b) l -> Forall P l -> allsome (map f l) = Some r -> Forall Q r.
Proof. intros A B f P Q l r H K E. apply allsome_inv in E. revert H K. induction E as [|a b l r E _ IH]; intros H K; constructor; inversion H; inversion K; subst; auto. Qed.
Lemma fix_list : forall {A B} (f : A -> option B) (g : B -> option A) (P : A -> Prop) l, Forall (fun a => P a -> exists b, f a = Some b /\ g b = Some a) l -> Forall P l ->
  exists r, allsome (map f l) = Some r /\ allsome (map g r) = Some l.
Proof.
  intros A B f g P l H K. assert (Q : Forall (fun a => exists b, f a = Some b /\ g b = Some a) l) by (revert K; induction H; intros K; constructor; inversion K; subst; auto).
  apply allsome_map in Q as (r & R & F). exists r. split; [exact R|]. clear - F. induction F as [|a b l r E _ IH]; [reflexivity|]. cbn [map allsome]. rewrite E, IH. reflexivity.
Qed.
Lemma nf_plain : forall z, nf_const (pystr z).
Proof.
  intros z. unfold pystr. destruct (Z.ltb_spec z 0) as [N|N].
  - exists (mkInt (VI z) None None false). set (n := - z). assert (Hn : 0 <= n) by lia. replace z with (- n) by lia. split.
    + assert (DG : digits_ 10 0 (show 10 n) = Some n) by (apply show_digits; lia). pose proof (show_nonempty 10 n) as NE. pose proof (digits_below _ _ _ _ DG) as E. set (t := show 10 n) in *. clearbody t.
      assert (NO : forall c, below 10 c = false -> Ascii.eqb "-" c = false -> every (no c) ("-" ++ t)%string = true).
      { intros c C C2. cbn [append every]. unfold no at 1. rewrite C2. cbn [negb andb]. apply (every_no (below 10)); assumption. }
      assert (ST : strip ("-" ++ t)%string = ("-" ++ t)%string) by (apply strip_id, NO; reflexivity).
      unfold int_text, str_to_value, str_to_width, str_to_signed, search, search_width. rewrite ST.
      rewrite (after_none _ _ (NO "h"%char eq_refl eq_refl)), (after_none _ _ (NO "d"%char eq_refl eq_refl)), (after_none _ _ (NO "o"%char eq_refl eq_refl)), (after_none _ _ (NO "b"%char eq_refl eq_refl)), (after_none _ _ (NO "s"%char eq_refl eq_refl)).
      rewrite !(fun c => before_none c _ (NO "'"%char eq_refl eq_refl)). cbn [append]. rewrite (pyint_minus 10 t n); [reflexivity|unfold radix_ok; tauto|exact NE|exact DG].
    + unfold print_int. cbn [ival ibase iwidth isigned width_text nonempty]. rewrite (proj2 (Z.ltb_lt (- n) 0)) by lia. cbv beta iota zeta. rewrite Z.abs_neq by lia. cbn [append]. do 4 f_equal; lia.
  - exists (mkInt (VI z) None None false). split; [apply read_plain; lia|]. unfold print_int. cbn [ival ibase iwidth isigned width_text nonempty]. rewrite (proj2 (Z.ltb_ge z 0)) by lia. reflexivity.
Qed.
Lemma nf_int : forall c t, int_st c -> print_int c = Some t -> nf_const t.
Proof.
  intros c t [(v & w & b & -> & V & W & B)|(w & b & body & -> & W & B & X & NX & PX)] P.
  - destruct (C36_unsigned_partial v w b V W B) as (t' & c' & P' & R & _ & _ & _ & _ & P2). rewrite P in P'. injection P' as <-. exists c'. auto.
  - destruct (C36_unknown w false b body W B X NX PX) as (t' & P' & R). rewrite P in P'. injection P' as <-. eexists. split; [exact R|exact P].
Qed.
Ltac inv E := repeat match type of E with
  | option_map _ ?x = _ => destruct x eqn:?; [|discriminate E]; cbn [option_map] in E
  | bindo ?x _ = _ => destruct x eqn:?; [|discriminate E]; cbn [bindo] in E
  end.
Lemma w_nfe : forall e a, gse e -> w_expr e = Some a -> nfe a.
Proof.
  assert (LL : forall l r, Forall (fun e => forall a, gse e -> w_expr e = Some a -> nfe a) l -> Forall gse l -> allsome (map w_expr l) = Some r -> Forall nfe r).
  { intros l r H K E. apply (all_st w_expr gse nfe l r); [|exact K|exact E]. revert H. apply Forall_impl. auto. }
  induction e using gexpr_ind'; intros a K E; cbn [gse] in K; cbn [w_expr] in E; rewrite ?all_fold in K.
  - injection E as <-. exact Logic.I.
  - injection E as <-. apply nf_plain.
  - injection E as <-. destruct b; [apply (nf_plain 1)|apply (nf_plain 0)].
  - inv E. injection E as <-. apply (nf_int c); assumption.
  - injection E as <-. exact Logic.I.
  - inv E. injection E as <-. exact (IHe _ K eq_refl).
  - inv E. injection E as <-. destruct K. split; auto.
  - apply IHe; assumption.
  - inv E. injection E as <-. destruct K as (S & K1 & K2). split; [|split; auto]. destruct e1; try discriminate S; cbn [w_expr] in Heqo; inv Heqo; injection Heqo as <-; exact Logic.I.
  - inv E. injection E as <-. destruct K as (S & K1 & K2 & K3). split; [|split; [|split]; auto]. destruct e1; try discriminate S; cbn [w_expr] in Heqo; inv Heqo; injection Heqo as <-; exact Logic.I.
  - inv E. injection E as <-. cbn [nfe]. apply all_fold. apply (LL l); auto.
  - inv E. injection E as <-. destruct K as [K1 K2].
    assert (Q : (match a0 with AConcat _ => True | _ => False end) /\ nfe a0).
    { destruct e1; try (destruct (w_expr _) eqn:W; [|discriminate Heqo]; injection Heqo as <-; split; [exact Logic.I|]; cbn [nfe fold_right]; split; [apply IHe1; [exact K1|reflexivity]|exact Logic.I]).
      split; [|apply IHe1; assumption]. cbn [w_expr] in Heqo. inv Heqo. injection Heqo as <-. exact Logic.I. }
    destruct Q as [Q1 Q2]. split; [exact Q1|]. split; [exact Q2|auto].
  - inv E. injection E as <-. destruct K as (K1 & K2 & K3). split; [|split]; auto.
  - inv E. injection E as <-. cbn [nfe]. apply all_fold. apply (LL l); auto.
Qed.
Lemma fix_expr : forall e, nfe e -> exists g, r_expr e = Some g /\ w_expr g = Some e.
Proof.
  assert (B : forall o, w_bin (r_bin o) = o) by (destruct o; reflexivity). assert (U : forall o, w_un (r_un o) = o) by (destruct o; reflexivity).
  induction e using aexpr_ind'; intros K; cbn [nfe] in K; rewrite ?all_fold in K; cbn [r_expr].
  - eexists. split; reflexivity.
  - destruct K as (c & R & P). rewrite R. eexists. split; [reflexivity|]. cbn [w_expr]. rewrite P. reflexivity.
  - eexists. split; reflexivity.
  - destruct (IHe K) as (g & R & W). rewrite R. eexists. split; [reflexivity|]. cbn [w_expr]. rewrite W, U. reflexivity.
  - destruct K as [K1 K2]. destruct (IHe1 K1) as (g1 & R1 & W1). destruct (IHe2 K2) as (g2 & R2 & W2). rewrite R1, R2. cbn [bindo]. eexists. split; [reflexivity|]. cbn [w_expr]. rewrite W1, W2, B. reflexivity.
  - destruct K as (S & K1 & K2). destruct (IHe1 K1) as (g1 & R1 & W1). destruct (IHe2 K2) as (g2 & R2 & W2). rewrite R1, R2. cbn [bindo].
    assert (SA : selectable g1 = true).
    { destruct e1; try contradiction; cbn [r_expr] in R1; inv R1; [injection R1 as <-; reflexivity|]. destruct (selectable g); [|discriminate]. injection R1 as <-. reflexivity. }
    rewrite SA. eexists. split; [reflexivity|]. cbn [w_expr]. rewrite W1, W2. reflexivity.
  - destruct K as (S & K1 & K2 & K3). destruct (IHe1 K1) as (g1 & R1 & W1). destruct (IHe2 K2) as (g2 & R2 & W2). destruct (IHe3 K3) as (g3 & R3 & W3). rewrite R1, R2, R3. cbn [bindo].
    assert (SA : selectable g1 = true).
    { destruct e1; try contradiction; cbn [r_expr] in R1; inv R1; [injection R1 as <-; reflexivity|]. destruct (selectable g); [|discriminate]. injection R1 as <-. reflexivity. }
    rewrite SA. eexists. split; [reflexivity|]. cbn [w_expr]. rewrite W1, W2, W3. reflexivity.
  - destruct (fix_list r_expr w_expr nfe l H K) as (r & R & W). rewrite R. eexists. split; [reflexivity|]. cbn [w_expr]. rewrite W. reflexivity.
  - destruct K as (S & K1 & K2). destruct (IHe1 K1) as (g1 & R1 & W1). destruct (IHe2 K2) as (g2 & R2 & W2). rewrite R1, R2. cbn [bindo]. eexists. split; [reflexivity|].
    destruct e1; try contradiction. cbn [r_expr] in R1. inv R1. injection R1 as <-. cbn [w_expr] in *. rewrite W1. cbn [bindo]. rewrite W2. reflexivity.
  - destruct K as (K1 & K2 & K3). destruct (IHe1 K1) as (g1 & R1 & W1). destruct (IHe2 K2) as (g2 & R2 & W2). destruct (IHe3 K3) as (g3 & R3 & W3). rewrite R1, R2, R3. cbn [bindo].
    eexists. split; [reflexivity|]. cbn [w_expr]. rewrite W1, W2, W3. reflexivity.
  - destruct (fix_list r_expr w_expr nfe l H K) as (r & R & W). rewrite R. eexists. split; [reflexivity|]. cbn [w_expr]. rewrite W. reflexivity.
Qed.

(** ** Statements *)
Definition isblk (a : astmt) : bool := match a with ABlock _ _ => true | _ => false end.
Definition nf_delay (m : vmode) (d : option adelay) : Prop :=
  match d with None => True | Some (DStmt (AConst t)) => m = MBlocking /\ exists z, 0 < z /\ t = pystr z | _ => False end.
Section Statements.
Variable resets : aexpr -> bool.
Fixpoint nf (gen : bool) (m : vmode) (a : astmt) : Prop :=
  match a with
  | ABlock l sc => sc = None /\ fold_right (fun s P => (isblk s = false /\ nf gen m s) /\ P) True l
  | ABlk l r ld rd => nfe l /\ nfe r /\ nf_delay m ld /\ nf_delay m rd
  | ANon l r ld rd => m = MAlways /\ nfe l /\ nfe r /\ nf_delay m ld /\ nf_delay m rd
  | AIf c t f =>
      gen = false /\ nfe c /\ isblk t = true /\ nf gen m t /\
      match f with
      | None => True
      | Some b =>
          nf gen m b /\
          match b with AIf _ _ _ => resets c = false | ABlock [AIf _ _ _] _ => resets c = true | ABlock _ _ => True | _ => False end
      end
  | AFor p c q b => gen = false /\ nf gen MBlocking p /\ nfe c /\ nf gen MBlocking q /\ isblk b = true /\ nf gen m b
  | AWhile c b => nfe c /\ isblk b = true /\ nf gen m b
  | ACase _ c ws =>
      nfe c /\ (forall pre b post, ws = pre ++ (None, b) :: post -> post = []) /\
      fold_right (fun w P => (match fst w with Some es => es <> [] /\ Forall nfe es | None => True end /\ isblk (snd w) = true /\ nf gen m (snd w)) /\ P) True ws
  | ASingle e | ADelay e => nfe e
  | AWait c b => m = MBlocking /\ nfe c /\ match b with Some s => isblk s = true /\ nf gen m s /\ s <> ABlock [] None | None => True end
  | AForever b => m = MBlocking /\ isblk b = true /\ nf gen m b
  end.
Lemma fix_delay : forall m d, nf_delay m d -> exists o, r_delay d = Some o /\ w_delay m o = d.
Proof.
  intros m [d|] K; [|exists None; split; reflexivity]. destruct d as [e|e]; [|contradiction]. destruct e; try contradiction. destruct K as (-> & z & Z & ->).
  exists (Some z). cbn [r_delay]. assert (R : int_text (pystr z) None None false = Some (mkInt (VI z) None None false)). { unfold pystr. destruct (Z.ltb_spec z 0); [lia|]. apply read_plain. lia. }
  rewrite R. split; [reflexivity|]. unfold w_delay. destruct (Z.eqb_spec z 0); [lia|]. reflexivity.
Qed.
Lemma w_nf_delay : forall m d, gst_delay m d -> nf_delay m (w_delay m d).
Proof.
  intros m [z|] K; [|exact Logic.I]. destruct K as [Z K]. unfold w_delay. destruct (Z.eqb_spec z 0); [exact Logic.I|]. destruct m; [specialize (K eq_refl); lia|].
  cbn [nf_delay]. split; [reflexivity|]. exists z. split; [lia|reflexivity].
Qed.
Lemma splice_nf : forall l, Forall (fun s => isblk s = false) l -> flat_map splice l = l.
Proof. intros l H. induction H as [|s l E _ IH]; [reflexivity|]. cbn [flat_map]. rewrite IH. destruct s; try discriminate E; reflexivity. Qed.
Lemma block_nf : forall gen m l, nf gen m (optimize_block l) <-> Forall (fun s => isblk s = false /\ nf gen m s) (flat_map splice l).
Proof. intros gen m l. unfold optimize_block. cbn [nf]. rewrite all_fold. tauto. Qed.
Lemma optimize_nf : forall gen m l, Forall (nf gen m) l -> nf gen m (optimize_block l).
Proof.
  intros gen m l H. apply block_nf. induction H as [|s l E _ IH]; [constructor|]. cbn [flat_map]. apply Forall_app. split; [|exact IH].
  destruct s; try (cbn [splice]; constructor; [split; [reflexivity|exact E]|constructor]). destruct E as [-> E]. cbn [splice]. apply all_fold in E. exact E.
Qed.
Lemma body_nf : forall gen m l r, Forall (fun s => forall m a, gst gen m s -> w_stmt resets m s = Some a -> nf gen m a) l ->
  Forall (gst gen m) l -> allsome (map (w_stmt resets m) l) = Some r -> nf gen m (optimize_block r).
Proof. intros gen m l r H K E. apply optimize_nf. apply (all_st (w_stmt resets m) (gst gen m) (nf gen m) l r); [|exact K|exact E]. revert H. apply Forall_impl. auto. Qed.
Lemma w_nf : forall gen s m a, gst gen m s -> w_stmt resets m s = Some a -> nf gen m a.
Proof.
  intros gen. induction s using gstmt_ind'; intros m a K E; cbn [gst] in K; rewrite ?all_fold in K; cbn [w_stmt] in E.
  - destruct K as (KL & KR & KD & KE). inv E. injection E as <-. destruct m; [destruct b|]; cbn [nf]; repeat split; eauto using w_nfe, w_nf_delay.
  - destruct K as (-> & KC & KT & KF). destruct (w_expr c) as [x|] eqn:EX; [|discriminate E]. cbn [bindo] in E. destruct (allsome (map (w_stmt resets m) t)) as [y|] eqn:EY; [|discriminate E]. cbn [bindo] in E.
    assert (NC : nfe x) by (eapply w_nfe; eassumption). assert (NT : nf false m (optimize_block y)) by (eapply body_nf; eassumption).
    destruct f as [f|].
    + apply all_fold in KF. destruct (allsome (map (w_stmt resets m) f)) as [z|] eqn:EZ; [|discriminate E]. cbn [option_map bindo] in E. injection E as <-.
      assert (NF : nf false m (optimize_block z)) by (eapply body_nf; [apply (H0 f eq_refl)|exact KF|exact EZ]).
      cbn [nf]. split; [reflexivity|]. split; [exact NC|]. split; [reflexivity|]. split; [exact NT|].
      unfold w_else. unfold optimize_block in NF |- *. set (k := flat_map splice z) in *. clearbody k. destruct k as [|s [|? ?]].
      * split; [exact NF|exact Logic.I].
      * destruct s; try (split; [exact NF|exact Logic.I]). destruct (resets x) eqn:R; (split; [|assumption || reflexivity]); [exact NF|]. destruct NF as [_ NF]. apply all_fold in NF. inversion NF. tauto.
      * destruct s; (split; [exact NF|exact Logic.I]).
    + cbn [bindo] in E. injection E as <-. cbn [nf w_else]. split; [reflexivity|]. split; [exact NC|]. split; [reflexivity|]. split; [exact NT|exact Logic.I].
  - destruct K as (-> & KP & KC & KQ & KB). inv E. injection E as <-. cbn [nf]. split; [reflexivity|]. split; [eapply IHs1; eauto|]. split; [eapply w_nfe; eassumption|]. split; [eapply IHs2; eauto|].
    split; [reflexivity|]. eapply body_nf; eassumption.
  - destruct K as [KC KB]. inv E. injection E as <-. cbn [nf]. split; [eapply w_nfe; eassumption|]. split; [reflexivity|]. eapply body_nf; eassumption.
  - destruct K as (KC & KD & KW). inv E. injection E as <-. cbn [nf]. split; [eapply w_nfe; eassumption|]. rewrite all_fold. apply allsome_inv in Heqo0.
    assert (Q : Forall2 (fun w v => (fst w = None <-> fst v = None) /\ (match fst v with Some es => es <> [] /\ Forall nfe es | None => True end /\ isblk (snd v) = true /\ nf gen m (snd v))) ws l).
    { clear - H KW Heqo0. revert H KW. induction Heqo0 as [|w v ws l E _ IH]; intros H KW; constructor; inversion H as [|? ? HW HR]; inversion KW as [|? ? KX KR]; subst; [|auto]. destruct KX as [KE KB]. apply all_fold in KB.
      destruct w as [es b]. cbn [fst snd] in *. destruct es as [es|].
      - destruct KE as [NE KE]. destruct es as [|e0 es]; [congruence|]. destruct (allsome (map w_expr (e0 :: es))) as [x|] eqn:EX; [|discriminate E]. cbn [option_map bindo] in E.
        destruct (allsome (map (w_stmt resets m) b)) as [y|] eqn:EY; [|discriminate E]. cbn [bindo] in E. injection E as <-. cbn [fst snd]. split; [split; discriminate|]. split; [|split; [reflexivity|eapply body_nf; eassumption]].
        split. { intros ->. apply allsome_inv in EX. inversion EX. } apply (all_st w_expr gse nfe (e0 :: es)); [|exact KE|exact EX]. apply Forall_forall. intros e _ Ke a Ea. eapply w_nfe; eassumption.
      - cbn [bindo] in E. destruct (allsome (map (w_stmt resets m) b)) as [y|] eqn:EY; [|discriminate E]. cbn [bindo] in E. injection E as <-. cbn [fst snd]. split; [tauto|]. split; [exact Logic.I|]. split; [reflexivity|eapply body_nf; eassumption]. }
    split.
    + clear - Q KD. induction Q as [|w v ws l [E _] Q IH]; intros pre b post P; [destruct pre; discriminate P|]. destruct w as [[es|] wb]; cbn [default_last fst] in KD, E.
      * destruct pre as [|x pre]; [injection P as -> ->; cbn [fst] in E; destruct E as [_ E]; discriminate (E eq_refl)|]. injection P as -> P. exact (IH KD pre b post P).
      * destruct ws; [|discriminate KD]. inversion Q; subst. destruct pre as [|x [|? ?]]; [injection P as _ <-; reflexivity|discriminate P|discriminate P].
    + clear - Q. induction Q; constructor; [apply H|assumption].
  - inv E. injection E as <-. eapply body_nf; eassumption.
  - inv E. injection E as <-. cbn [nf]. eapply w_nfe; eassumption.
  - inv E. injection E as <-. cbn [nf]. eapply w_nfe; eassumption.
  - destruct m; [discriminate E|]. destruct K as [KC KB]. destruct (w_expr c) as [x|] eqn:EX; [|discriminate E]. cbn [bindo] in E. destruct b as [b|].
    + destruct KB as [KE KB]. apply all_fold in KB. destruct (allsome (map (w_stmt resets MBlocking) b)) as [y|] eqn:EY; [|discriminate E]. cbn [option_map bindo] in E. injection E as <-.
      cbn [nf]. split; [reflexivity|]. split; [eapply w_nfe; eassumption|]. split; [reflexivity|]. split; [eapply body_nf; [apply (H b eq_refl)|exact KB|exact EY]|].
      unfold optimize_block. apply allsome_inv in EY. clear - KE EY. intros C. injection C as C. induction EY as [|s t l r E _ IH]; [discriminate KE|]. cbn [flat_map] in C. apply app_eq_nil in C as [C1 C2].
      cbn [existsb] in KE. destruct (not_list s) eqn:N; [|cbn [orb] in KE; auto].
      destruct s; try discriminate N; cbn [w_stmt] in E; inv E; try (injection E as <-; discriminate C1).
    + cbn [bindo] in E. injection E as <-. cbn [nf]. split; [reflexivity|]. split; [eapply w_nfe; eassumption|exact Logic.I].
  - destruct m; [discriminate E|]. inv E. injection E as <-. cbn [nf]. split; [reflexivity|]. split; [reflexivity|]. eapply body_nf; eassumption.
Qed.
Lemma fix_block : forall gen m b s, isblk b = true -> nf gen m b -> r_stmt gen b = Some s -> w_stmt resets m s = Some b ->
  exists y, allsome (map (w_stmt resets m) (to_tuple s)) = Some y /\ optimize_block y = b.
Proof.
  intros gen m b s I K R W. destruct b; try discriminate I. cbn [r_stmt] in R. destruct (allsome (map (r_stmt gen) l)) as [r|]; [|discriminate R]. injection R as <-.
  cbn [w_stmt] in W. destruct (allsome (map (w_stmt resets m) r)) as [y|] eqn:E; [|discriminate W]. injection W as W. exists y. split; [exact E|]. unfold optimize_block. rewrite W. f_equal. destruct sc; [discriminate (proj1 K)|reflexivity].
Qed.
Lemma fix_stmt : forall gen a m, nf gen m a -> exists s, r_stmt gen a = Some s /\ w_stmt resets m s = Some a.
Proof.
  intros gen. induction a using astmt_ind'; intros m K; cbn [nf] in K.
  - destruct K as [-> K]. apply all_fold in K. destruct (fix_list (r_stmt gen) (w_stmt resets m) (nf gen m) l) as (r & R & W).
    { revert H. apply Forall_impl. auto. } { revert K. apply Forall_impl. tauto. }
    cbn [r_stmt]. rewrite R. eexists. split; [reflexivity|]. cbn [w_stmt]. rewrite W. cbn [option_map]. unfold optimize_block. rewrite splice_nf; [reflexivity|]. revert K. apply Forall_impl. tauto.
  - destruct K as (KL & KR & KD & KE). destruct (fix_expr l KL) as (x & RX & WX). destruct (fix_expr r KR) as (y & RY & WY). destruct (fix_delay m _ KD) as (d & RD & WD). destruct (fix_delay m _ KE) as (e & RE & WE).
    cbn [r_stmt]. rewrite RX, RY, RD, RE. eexists. split; [reflexivity|]. cbn [w_stmt]. rewrite WX, WY. cbn [bindo]. rewrite WD, WE. destruct m; reflexivity.
  - destruct K as (-> & KL & KR & KD & KE). destruct (fix_expr l KL) as (x & RX & WX). destruct (fix_expr r KR) as (y & RY & WY). destruct (fix_delay MAlways _ KD) as (d & RD & WD). destruct (fix_delay MAlways _ KE) as (e & RE & WE).
    cbn [r_stmt]. rewrite RX, RY, RD, RE. eexists. split; [reflexivity|]. cbn [w_stmt]. rewrite WX, WY. cbn [bindo]. rewrite WD, WE. reflexivity.
  - destruct K as (-> & KC & BT & KT & KF). destruct (fix_expr c KC) as (x & RX & WX). destruct (IHa m KT) as (t & RT & WT). destruct (fix_block _ _ _ _ BT KT RT WT) as (y & EY & OY).
    cbn [r_stmt]. rewrite RX, RT. cbn [bindo]. destruct f as [b|].
    + destruct KF as [KF SF]. destruct (H b eq_refl m KF) as (s & RS & WS). rewrite RS. cbn [option_map bindo]. eexists. split; [reflexivity|]. cbn [w_stmt]. rewrite WX. cbn [bindo]. rewrite EY. cbn [bindo].
      destruct (isblk b) eqn:B.
      * destruct (fix_block _ _ _ _ B KF RS WS) as (z & EZ & OZ). rewrite EZ. cbn [option_map bindo]. rewrite OY, OZ. do 2 f_equal. destruct b; try discriminate B. cbn [w_else].
        destruct l as [|s0 [|? ?]]; [reflexivity| |destruct s0; reflexivity]. destruct s0; try reflexivity. rewrite SF. reflexivity.
      * destruct b; try discriminate B; try contradiction. assert (NL : to_tuple s = [s]).
        { cbn [r_stmt] in RS. inv RS. injection RS as <-. reflexivity. }
        rewrite NL. cbn [map allsome]. rewrite WS. cbn [option_map bindo]. rewrite OY. cbn [optimize_block flat_map splice app w_else]. rewrite SF. reflexivity.
    + cbn [bindo]. eexists. split; [reflexivity|]. cbn [w_stmt]. rewrite WX. cbn [bindo]. rewrite EY. cbn [bindo w_else]. rewrite OY. reflexivity.
  - destruct K as (-> & KP & KC & KQ & BB & KB). destruct (fix_expr c KC) as (x & RX & WX). destruct (IHa1 _ KP) as (p & RP & WP). destruct (IHa2 _ KQ) as (q & RQ & WQ). destruct (IHa3 _ KB) as (b & RB & WB).
    destruct (fix_block _ _ _ _ BB KB RB WB) as (y & EY & OY). cbn [r_stmt]. rewrite RP, RX, RQ, RB. eexists. split; [reflexivity|]. cbn [w_stmt]. rewrite WP, WX, WQ. cbn [bindo]. rewrite EY. cbn [bindo]. rewrite OY. reflexivity.
  - destruct K as (KC & BB & KB). destruct (fix_expr c KC) as (x & RX & WX). destruct (IHa _ KB) as (b & RB & WB).
    destruct (fix_block _ _ _ _ BB KB RB WB) as (y & EY & OY). cbn [r_stmt]. rewrite RX, RB. eexists. split; [reflexivity|]. cbn [w_stmt]. rewrite WX. cbn [bindo]. rewrite EY. cbn [bindo]. rewrite OY. reflexivity.
  - destruct K as (KC & KD & KW). apply all_fold in KW. destruct (fix_expr c KC) as (x & RX & WX). cbn [r_stmt]. rewrite RX. cbn [bindo].
    assert (Q : Forall (fun w => exists v, (do es <- match fst w with None | Some [] => Some None | Some es => option_map Some (allsome (map r_expr es)) end; do b <- r_stmt gen (snd w); Some (es, to_tuple b)) = Some v /\
      ((fst v = None <-> fst w = None) /\ (do es <- match fst v with None | Some [] => Some None | Some es => option_map Some (allsome (map w_expr es)) end;
              do b <- allsome (map (w_stmt resets m) (snd v)); Some (es, optimize_block b)) = Some w)) ws).
    { clear - H KW. revert KW. induction H as [|w ws IHw _ IH]; intros KW; constructor; inversion KW as [|? ? KX KR]; subst; [|auto]. destruct w as [es b]. cbn [fst snd] in *. destruct KX as (KE & BB & KB).
      destruct (IHw m KB) as (s & RS & WS). destruct (fix_block _ _ _ _ BB KB RS WS) as (y & EY & OY). destruct es as [es|].
      - destruct KE as [NE KE]. destruct (fix_list r_expr w_expr nfe es) as (r & RR & WR); [|exact KE|]. { apply Forall_forall. intros e _. apply fix_expr. }
        destruct es as [|e0 es]; [congruence|]. rewrite RR. cbn [option_map bindo]. rewrite RS. cbn [bindo]. eexists. split; [reflexivity|]. cbn [fst snd]. split; [split; discriminate|].
        destruct r as [|r0 r]; [discriminate WR|]. rewrite WR. cbn [option_map bindo]. rewrite EY. cbn [bindo]. rewrite OY. reflexivity.
      - cbn [bindo]. rewrite RS. cbn [bindo]. eexists. split; [reflexivity|]. cbn [fst snd bindo]. split; [tauto|]. rewrite EY. cbn [bindo]. rewrite OY. reflexivity. }
    apply allsome_map in Q as (r & R & F). rewrite R. cbn [bindo].
    assert (DL : default_last r = true).
    { clear - F KD. induction F as [|w v ws r [E _] F IH]; [reflexivity|]. destruct v as [[vs|] vb]; cbn [default_last].
      - apply IH. intros pre b post P. apply (KD (w :: pre) b post). rewrite P. reflexivity.
      - destruct w as [es wb]. cbn [fst] in E. rewrite (proj1 E eq_refl) in KD. specialize (KD [] wb ws eq_refl). subst. inversion F. reflexivity. }
    rewrite DL. eexists. split; [reflexivity|]. cbn [w_stmt]. rewrite WX. cbn [bindo].
    match goal with |- bindo ?X _ = _ => assert (W : X = Some ws) end.
    { clear - F. induction F as [|w v ws r [_ E] _ IH]; [reflexivity|]. cbn [map allsome]. rewrite E, IH. reflexivity. }
    rewrite W. reflexivity.
  - destruct (fix_expr _ K) as (x & RX & WX). cbn [r_stmt]. rewrite RX. eexists. split; [reflexivity|]. cbn [w_stmt]. rewrite WX. reflexivity.
  - destruct (fix_expr _ K) as (x & RX & WX). cbn [r_stmt]. rewrite RX. eexists. split; [reflexivity|]. cbn [w_stmt]. rewrite WX. reflexivity.
  - destruct K as (-> & KC & KB). destruct (fix_expr c KC) as (x & RX & WX). cbn [r_stmt]. rewrite RX. cbn [bindo]. destruct b as [b|].
    + destruct KB as (BB & KB & NB). destruct (H b eq_refl _ KB) as (s & RS & WS). destruct (fix_block _ _ _ _ BB KB RS WS) as (y & EY & OY). rewrite RS. cbn [option_map bindo]. eexists. split; [reflexivity|].
      destruct (to_tuple s) as [|s0 ss] eqn:T. { cbn [map allsome] in EY. injection EY as <-. exfalso. apply NB. symmetry. exact OY. }
      cbn [w_stmt]. rewrite WX. cbn [bindo]. rewrite EY. cbn [option_map bindo]. rewrite OY. reflexivity.
    + cbn [bindo]. eexists. split; [reflexivity|]. cbn [w_stmt]. rewrite WX. reflexivity.
  - destruct K as (-> & BB & KB). destruct (IHa _ KB) as (s & RS & WS). destruct (fix_block _ _ _ _ BB KB RS WS) as (y & EY & OY). cbn [r_stmt]. rewrite RS. eexists. split; [reflexivity|].
    cbn [w_stmt]. rewrite EY. cbn [option_map]. rewrite OY. reflexivity.
Qed.
End Statements.

(** ** Modules *)
Definition gsw (w : gwidth) : Prop := match w_raw w, w_width w with Some (a, b), _ => gse a /\ gse b | None, Some a => gse a | None, None => True end.
Definition gssens (s : gsens) : Prop := match s with GPos e | GNeg e | GLevel e => gse e | GAll => True end.
Fixpoint gist (p : place) (i : gitem) : Prop :=
  match i with
  | GParam _ v w _ | GLocal _ v w _ => gse v /\ gsw w
  | GVar _ _ w _ => gsw w
  | GAssign l r _ _ => gse l /\ gse r
  | GAlways ss b => Forall gssens ss /\ Forall (gst false MAlways) b
  | GInitial b => Forall (gst (in_gen p) MBlocking) b
  | GInst _ _ ps qs => Forall (fun p => gse (snd p)) ps /\ Forall (fun q => match snd q with Some e => gse e | None => True end) qs
  | GGenFor pre c post _ is => p <> PElse /\ gst true MBlocking pre /\ gse c /\ gst true MBlocking post /\ fold_right (fun i P => gist PGen i /\ P) True is
  | GGenIf c _ tis _ fis => p <> PElse /\ gse c /\ fold_right (fun i P => gist PGen i /\ P) True tis /\ fold_right (fun i P => gist PElse i /\ P) True fis
  end.
Definition gm_st (m : gmod) : Prop := Forall (fun p => gsw (gp_width p)) (gm_ports m) /\ Forall (gist PMod) (gm_items m).

Definition nfw (w : awidth) : Prop := match w with Some (a, b) => nfe a /\ nfe b | None => True end.
Definition nfsens (s : asens) : Prop := match s with APos e | ANeg e | ALevel e => nfe e | AAll => True end.
Definition isparam (a : aitem) : bool := match a with AParam _ _ _ _ => true | _ => false end.
Definition gparam (i : gitem) : bool := match i with GParam _ _ _ _ => true | _ => false end.
Definition isgen (a : aitem) : bool := match a with AGenFor _ _ _ _ _ | AGenIf _ _ _ _ => true | _ => false end.
Definition params_first (l : list aitem) : Prop := exists P X, l = P ++ X /\ Forall (fun a => isparam a = true) P /\ Forall (fun a => isparam a = false) X.
Section Items.
Variable resets : aexpr -> bool.
Variable outs : string -> bool.
Fixpoint nfi (p : place) (a : aitem) : Prop :=
  match a with
  | AParam _ v w _ | ALocal _ v w _ => nfe v /\ nfw w
  | AVar k n w _ => nfw w /\ (k = Reg -> outs n = false)
  | AAssign l r ld rd => nfe l /\ nfe r /\ ld = None /\ rd = None
  | AAlways ss b => ss <> [] /\ Forall nfsens ss /\ isblk b = true /\ nf resets false MAlways b
  | AInitial b => isblk b = true /\ nf resets (in_gen p) MBlocking b
  | AInst _ _ ps qs => Forall (fun p => nfe (snd p)) ps /\ Forall (fun q => match snd q with Some e => nfe e | None => False end) qs
  | AGen is => p = PMod /\ match is with [x] => isgen x = true /\ nfi PGen x | _ => False end
  | AGenFor pre c post _ is => p = PGen /\ nf resets true MBlocking pre /\ nfe c /\ nf resets true MBlocking post /\ params_first is /\ fold_right (fun i P => nfi PGen i /\ P) True is
  | AGenIf c _ tis f =>
      p = PGen /\ nfe c /\ params_first tis /\ fold_right (fun i P => nfi PGen i /\ P) True tis /\
      match f with None => True | Some (ABody _ fis) => fis <> [] /\ params_first fis /\ fold_right (fun i P => nfi PElse i /\ P) True fis | Some (AElse _) => False end
  end.
Definition wrap (a : aitem) : aitem := if isgen a then AGen [a] else a.
Lemma fix_width : forall w, nfw w -> exists y, r_width w = Some y /\ w_width_ y = Some w.
Proof.
  intros [[a b]|] K; [|eexists; split; reflexivity]. destruct K as [KA KB]. destruct (fix_expr a KA) as (x & RX & WX). destruct (fix_expr b KB) as (y & RY & WY). cbn [r_width]. rewrite RX, RY. cbn [bindo].
  eexists. split; [reflexivity|]. unfold w_width_. cbn [w_raw]. rewrite WX, WY. reflexivity.
Qed.
Lemma w_nfw : forall w y, gsw w -> w_width_ w = Some y -> nfw y.
Proof.
  intros [r w] y K E. unfold gsw, w_width_ in *. cbn [w_raw w_width] in *. destruct r as [[a b]|].
  - destruct K. inv E. injection E as <-. split; eauto using w_nfe.
  - destruct w as [a|]; [|injection E as <-; exact Logic.I]. inv E. injection E as <-. cbn [nfw nfe]. split; [split; [eapply w_nfe; eassumption|apply (nf_plain 1)]|apply (nf_plain 0)].
Qed.
Lemma fix_sens : forall s, nfsens s -> exists y, r_sens s = Some y /\ w_sens y = Some s.
Proof. intros [e|e| |e] K; try (destruct (fix_expr e K) as (x & RX & WX); cbn [r_sens]; rewrite RX; eexists; split; [reflexivity|]; cbn [w_sens]; rewrite WX; reflexivity). eexists; split; reflexivity. Qed.
Lemma w_nfsens : forall s y, gssens s -> w_sens s = Some y -> nfsens y.
Proof. intros [e|e| |e] y K E; cbn [w_sens gssens] in *; inv E; injection E as <-; try exact Logic.I; eapply w_nfe; eassumption. Qed.

Definition fixed (p : place) (a : aitem) : Prop := exists i, r_item p a = Some [i] /\ w_item resets outs i = Some (Some (wrap a)) /\ gparam i = isparam a.
Definition blk (is : list gitem) : option (list aitem) :=
  do ps <- allsome (map (fun i => match i with GParam _ _ _ _ => w_item resets outs i | _ => Some None end) is);
  do xs <- allsome (map (fun i => match i with GParam _ _ _ _ => Some None | _ => w_item resets outs i end) is);
  Some (flat_map (fun o => match o with Some a => [a] | None => [] end) ps ++
        flat_map (fun o => match o with Some a => ungen a | None => [] end) xs).
Lemma fixed_list : forall p is, Forall (fixed p) is -> exists l, allsome (map (r_item p) is) = Some (map (fun i => [i]) l) /\
  Forall2 (fun a i => w_item resets outs i = Some (Some (wrap a)) /\ gparam i = isparam a) is l.
Proof.
  intros p is H. induction H as [|a is (i & R & W & P) _ (l & RL & F)]; [exists []; split; [reflexivity|constructor]|]. exists (i :: l). cbn [map allsome]. rewrite R, RL. split; [reflexivity|]. constructor; auto.
Qed.
Lemma concat_ones : forall {A} (l : list A), concat (map (fun i => [i]) l) = l.
Proof. intros A l. induction l; [reflexivity|]. cbn [map concat app]. f_equal. assumption. Qed.
(** the two passes over the items *)
Lemma passes : forall is l, Forall2 (fun a i => w_item resets outs i = Some (Some (wrap a)) /\ gparam i = isparam a) is l ->
  allsome (map (fun i => match i with GParam _ _ _ _ => w_item resets outs i | _ => Some None end) l) = Some (map (fun a => if isparam a then Some a else None) is) /\
  allsome (map (fun i => match i with GParam _ _ _ _ => Some None | _ => w_item resets outs i end) l) = Some (map (fun a => if isparam a then None else Some (wrap a)) is).
Proof.
  intros is l F. induction F as [|a i is l [W P] _ [IH1 IH2]]; [split; reflexivity|]. cbn [map allsome]. rewrite IH1, IH2.
  destruct i; cbn [gparam] in P; rewrite <- P; rewrite ?W; (split; [|reflexivity]); try reflexivity.
  destruct a; try discriminate P. reflexivity.
Qed.
Lemma sorted : forall is, params_first is -> flat_map (fun a => if isparam a then [a] else []) is ++ flat_map (fun a => if isparam a then [] else [a]) is = is.
Proof.
  intros is (P & X & -> & HP & HX). rewrite !flat_map_app.
  assert (E1 : flat_map (fun a => if isparam a then [a] else []) P = P) by (clear - HP; induction HP as [|a P E _ IH]; [reflexivity|]; cbn [flat_map]; rewrite E, IH; reflexivity).
  assert (E2 : flat_map (fun a => if isparam a then [] else [a]) P = []) by (clear - HP; induction HP as [|a P E _ IH]; [reflexivity|]; cbn [flat_map]; rewrite E, IH; reflexivity).
  assert (E3 : flat_map (fun a => if isparam a then [a] else []) X = []) by (clear - HX; induction HX as [|a X E _ IH]; [reflexivity|]; cbn [flat_map]; rewrite E, IH; reflexivity).
  assert (E4 : flat_map (fun a => if isparam a then [] else [a]) X = X) by (clear - HX; induction HX as [|a X E _ IH]; [reflexivity|]; cbn [flat_map]; rewrite E, IH; reflexivity).
  rewrite E1, E2, E3, E4, app_nil_r. reflexivity.
Qed.
Lemma fixed_blk : forall is l, Forall (fun a => match a with AGen _ => False | _ => True end) is -> params_first is ->
  Forall2 (fun a i => w_item resets outs i = Some (Some (wrap a)) /\ gparam i = isparam a) is l -> blk l = Some is.
Proof.
  intros is l N S F. apply passes in F as [E1 E2]. unfold blk. rewrite E1, E2. cbn [bindo]. f_equal. rewrite <- (sorted is S) at 3. rewrite !flat_map_concat_map, !map_map. f_equal; f_equal; apply map_ext_in.
  - intros a _. destruct (isparam a); reflexivity.
  - intros a HA. destruct (isparam a); [reflexivity|]. rewrite Forall_forall in N. specialize (N a HA). destruct a; try contradiction; reflexivity.
Qed.
Lemma fix_item : forall a p, nfi p a -> fixed p a.
Proof.
  assert (BODY : forall m b, isblk b = true -> forall gen, nf resets gen m b -> exists s y, r_stmt gen b = Some s /\ allsome (map (w_stmt resets m) (to_tuple s)) = Some y /\ optimize_block y = b).
  { intros m b B gen K. destruct (fix_stmt resets gen b m K) as (s & R & W). destruct (fix_block resets gen m b s B K R W) as (y & E & O). eauto. }
  assert (LL : forall p is, p <> PMod -> Forall (fun a => forall p, nfi p a -> fixed p a) is -> Forall (nfi p) is -> params_first is -> exists l, option_map (@concat gitem) (allsome (map (r_item p) is)) = Some l /\ blk l = Some is).
  { intros p is NP H K S. destruct (fixed_list p is) as (l & R & F). { apply Forall_forall. rewrite Forall_forall in H, K. auto. }
    exists l. rewrite R. cbn [option_map]. rewrite concat_ones. split; [reflexivity|]. apply fixed_blk; [|exact S|exact F]. revert K. apply Forall_impl. intros a K. destruct a; try exact Logic.I. destruct K as [K _]. congruence. }
  induction a using aitem_ind'; intros p' K; unfold fixed.
  - destruct a; try contradiction; clear H; cbn [nfi] in K; cbn [r_item].
    + destruct K as [KV KW]. destruct (fix_expr v KV) as (x & RX & WX). destruct (fix_width w KW) as (y & RY & WY). rewrite RX, RY. cbn [bindo]. eexists. split; [reflexivity|]. cbn [w_item]. rewrite WX, WY. split; reflexivity.
    + destruct K as [KV KW]. destruct (fix_expr v KV) as (x & RX & WX). destruct (fix_width w KW) as (y & RY & WY). rewrite RX, RY. cbn [bindo]. eexists. split; [reflexivity|]. cbn [w_item]. rewrite WX, WY. split; reflexivity.
    + destruct K as [KW KO]. destruct (fix_width w KW) as (y & RY & WY). rewrite RY. cbn [bindo]. eexists. split; [reflexivity|]. cbn [w_item]. destruct k; [rewrite (KO eq_refl)|..]; rewrite WY; split; reflexivity.
    + destruct K as (KL & KR & -> & ->). destruct (fix_expr l KL) as (x & RX & WX). destruct (fix_expr r KR) as (y & RY & WY). rewrite RX, RY. cbn [bindo]. eexists. split; [reflexivity|]. cbn [w_item]. rewrite WX, WY. split; reflexivity.
    + destruct K as (NE & KS & BB & KB). destruct (fix_list r_sens w_sens nfsens sens) as (x & RX & WX); [|exact KS|]. { apply Forall_forall. intros s _. apply fix_sens. }
      destruct (BODY _ _ BB _ KB) as (s & y & RS & EY & OY). rewrite RX, RS. cbn [bindo]. eexists. split; [reflexivity|]. cbn [w_item]. rewrite WX. cbn [bindo]. rewrite EY. cbn [bindo]. rewrite OY. destruct sens; [congruence|]. split; reflexivity.
    + destruct K as [BB KB]. destruct (BODY _ _ BB _ KB) as (s & y & RS & EY & OY). rewrite RS. cbn [bindo]. eexists. split; [reflexivity|]. cbn [w_item]. rewrite EY. cbn [bindo]. rewrite OY. split; reflexivity.
    + destruct K as [KP KQ].
      destruct (fix_list (fun q => option_map (pair (fst q)) (r_expr (snd q))) (fun q => option_map (pair (fst q)) (w_expr (snd q))) (fun p => nfe (snd p)) ps) as (x & RX & WX); [|exact KP|].
      { apply Forall_forall. intros [q e] _ Ke. cbn [fst snd] in *. destruct (fix_expr e Ke) as (g & R & W). rewrite R. eexists. split; [reflexivity|]. cbn [fst snd]. rewrite W. reflexivity. }
      destruct (fix_list (fun q => option_map (pair (fst q)) (maybe r_expr (snd q))) (fun q => match snd q with Some e => option_map (fun a => (fst q, Some a)) (w_expr e) | None => None end)
        (fun q => match snd q with Some e => nfe e | None => False end) qs) as (y & RY & WY); [|exact KQ|].
      { apply Forall_forall. intros [q [e|]] _ Ke; cbn [fst snd] in *; [|contradiction]. destruct (fix_expr e Ke) as (g & R & W). cbn [maybe]. rewrite R. eexists. split; [reflexivity|]. cbn [fst snd]. rewrite W. reflexivity. }
      rewrite RX, RY. cbn [bindo]. eexists. split; [reflexivity|]. cbn [w_item]. rewrite WX. cbn [bindo]. rewrite WY. split; reflexivity.
  - destruct K as [-> K]. destruct is as [|x [|? ?]]; try contradiction. destruct K as [GX K]. inversion H as [|? ? HX _]; subst. destruct (HX _ K) as (i & R & W & P). exists i. cbn [r_item map].
    assert (E : (match x with AGenFor _ _ _ _ _ | AGenIf _ _ _ _ => r_item PGen x | _ => None end) = Some [i]) by (destruct x; try discriminate GX; exact R).
    rewrite E. cbn [allsome option_map concat app]. split; [reflexivity|]. split; [rewrite W; unfold wrap; rewrite GX; reflexivity|]. destruct x; try discriminate GX; exact P.
  - cbn [nfi] in K. destruct K as (-> & KP & KC & KQ & KS & KI). apply all_fold in KI. destruct (fix_stmt resets true p MBlocking KP) as (x & RX & WX). destruct (fix_expr c KC) as (y & RY & WY). destruct (fix_stmt resets true q MBlocking KQ) as (z & RZ & WZ).
    destruct (LL PGen is ltac:(discriminate) H KI KS) as (l & RL & WL). cbn [r_item in_gen]. rewrite RX. cbn [bindo]. rewrite RY. cbn [bindo]. rewrite RZ. cbn [bindo]. rewrite RL. cbn [bindo]. eexists. split; [reflexivity|].
    cbn [w_item]. fold (blk l). rewrite WX. cbn [bindo]. rewrite WY. cbn [bindo]. rewrite WZ. cbn [bindo]. rewrite WL. split; reflexivity.
  - cbn [nfi] in K. destruct K as (-> & KC & KS & KI & KF). apply all_fold in KI. destruct (fix_expr c KC) as (y & RY & WY). destruct (LL PGen tis ltac:(discriminate) H KI KS) as (l & RL & WL).
    cbn [r_item in_gen]. rewrite RY. cbn [bindo]. rewrite RL. cbn [bindo]. destruct f as [[fs fis|j]|]; [| contradiction|].
    + destruct KF as (NE & KFS & KFI). apply all_fold in KFI. cbn [else_all] in H0. destruct (LL PElse fis ltac:(discriminate) H0 KFI KFS) as (k & RK & WK). rewrite RK. cbn [option_map bindo fst snd]. eexists. split; [reflexivity|].
      cbn [w_item]. fold (blk l) (blk k). rewrite WY. cbn [bindo]. rewrite WL. cbn [bindo]. rewrite WK. cbn [bindo]. destruct fis; [congruence|]. split; reflexivity.
    + cbn [bindo fst snd]. eexists. split; [reflexivity|]. cbn [w_item]. fold (blk l) (blk []). rewrite WY. cbn [bindo]. rewrite WL. split; reflexivity.
Qed.
Definition good (p : place) (i : gitem) (a : aitem) : Prop :=
  (isgen a = false /\ nfi p a /\ isparam a = gparam i /\ ungen a = [a]) \/ (exists x, a = AGen [x] /\ isgen x = true /\ nfi PGen x /\ p <> PElse /\ gparam i = false).
Lemma w_blk : forall p is y, p <> PMod -> Forall (fun i => forall p a, gist p i -> w_item resets outs i = Some (Some a) -> good p i a) is -> Forall (gist p) is -> blk is = Some y ->
  Forall (nfi p) y /\ params_first y.
Proof.
  intros p is y NP H K E. unfold blk in E. destruct (allsome (map (fun i => match i with GParam _ _ _ _ => w_item resets outs i | _ => Some None end) is)) as [ps|] eqn:E1; [|discriminate E].
  cbn [bindo] in E. destruct (allsome (map (fun i => match i with GParam _ _ _ _ => Some None | _ => w_item resets outs i end) is)) as [xs|] eqn:E2; [|discriminate E]. cbn [bindo] in E. injection E as <-.
  apply allsome_inv in E1. apply allsome_inv in E2.
  assert (P1 : Forall (fun a => nfi p a /\ isparam a = true) (flat_map (fun o => match o with Some a => [a] | None => [] end) ps)).
  { clear E2 xs. revert H K. induction E1 as [|i o is ps E _ IH]; intros H K; [constructor|]. inversion H as [|? ? HI HR]. inversion K as [|? ? KI KR]. subst. cbn [flat_map]. apply Forall_app. split; [|auto].
    destruct i; try (injection E as <-; constructor). destruct o as [a|]; [|constructor]. constructor; [|constructor]. destruct (HI p a KI E) as [(_ & N & P & _)|(x & _ & _ & _ & _ & P)]; [|discriminate P]. split; assumption. }
  assert (P2 : Forall (fun a => nfi p a /\ isparam a = false) (flat_map (fun o => match o with Some a => ungen a | None => [] end) xs)).
  { clear P1 E1 ps. revert H K. induction E2 as [|i o is xs E _ IH]; intros H K; [constructor|]. inversion H as [|? ? HI HR]. inversion K as [|? ? KI KR]. subst. cbn [flat_map]. apply Forall_app. split; [|auto].
    destruct o as [a|]; [|constructor]. destruct (gparam i) eqn:GP; [destruct i; try discriminate GP; discriminate E|].
    assert (E' : w_item resets outs i = Some (Some a)) by (destruct i; try discriminate GP; exact E). destruct (HI p a KI E') as [(_ & N & P & U)|(x & -> & GX & NX & PE & _)].
    - rewrite U. constructor; [|constructor]. split; [exact N|congruence].
    - cbn [ungen]. constructor; [|constructor]. destruct p; try congruence. split; [exact NX|]. destruct x; try discriminate GX; reflexivity. }
  split; [|eexists; eexists; split; [reflexivity|]].
  - apply Forall_app. split; [revert P1|revert P2]; apply Forall_impl; tauto.
  - split; [revert P1|revert P2]; apply Forall_impl; tauto.
Qed.
Lemma w_nfi : forall i p a, gist p i -> w_item resets outs i = Some (Some a) -> good p i a.
Proof.
  assert (BODY : forall gen m b y, Forall (gst gen m) b -> allsome (map (w_stmt resets m) b) = Some y -> nf resets gen m (optimize_block y)).
  { intros gen m b y K E. eapply body_nf; [|exact K|exact E]. apply Forall_forall. intros s _. apply w_nf. }
  induction i using gitem_ind'; intros p' a K E; unfold good.
  - left. destruct i; try contradiction; clear H; cbn [gist] in K; cbn [w_item] in E.
    + destruct K. inv E. injection E as <-. cbn [isgen nfi isparam gparam ungen]. repeat split; eauto using w_nfe, w_nfw.
    + destruct K. inv E. injection E as <-. cbn [isgen nfi isparam gparam ungen]. repeat split; eauto using w_nfe, w_nfw.
    + assert (Q : exists y, w_width_ w = Some y /\ a = AVar k n y s /\ (k = Reg -> outs n = false)).
      { destruct k; [destruct (outs n) eqn:O; [discriminate E|]|..]; inv E; injection E as <-; eexists; (split; [reflexivity|]; split; [reflexivity|]); try discriminate; auto. }
      destruct Q as (y & Y & -> & Q). cbn [isgen nfi isparam gparam ungen]. repeat split; eauto using w_nfw.
    + destruct K. inv E. injection E as <-. cbn [isgen nfi isparam gparam ungen]. repeat split; eauto using w_nfe.
    + destruct K as [KS KB]. destruct (allsome (map w_sens sens)) as [x|] eqn:EX; [|discriminate E]. cbn [bindo] in E. destruct (allsome (map (w_stmt resets MAlways) b)) as [y|] eqn:EY; [|discriminate E]. cbn [bindo] in E. injection E as <-.
      cbn [isgen nfi isparam gparam ungen]. split; [reflexivity|]. split; [|split; reflexivity]. assert (Q : Forall nfsens x) by (apply (all_st w_sens gssens nfsens sens x); [|exact KS|exact EX]; apply Forall_forall; intros s _ Ks u Eu; eapply w_nfsens; eassumption).
      split; [destruct x; discriminate|]. split; [destruct x; [constructor; [exact Logic.I|constructor]|exact Q]|]. split; [reflexivity|]. eapply BODY; eassumption.
    + inv E. injection E as <-. cbn [isgen nfi isparam gparam ungen]. split; [reflexivity|]. split; [|split; reflexivity]. split; [reflexivity|]. eapply BODY; eassumption.
    + destruct K as [KP KQ]. inv E. injection E as <-. cbn [isgen nfi isparam gparam ungen]. split; [reflexivity|]. split; [|split; reflexivity]. split.
      * apply (all_st (fun p => option_map (pair (fst p)) (w_expr (snd p))) (fun p => gse (snd p)) (fun p => nfe (snd p)) ps l); [|exact KP|exact Heqo]. apply Forall_forall. intros [q e] _ Ke b Eb. cbn [fst snd] in *. inv Eb. injection Eb as <-. cbn [snd]. eapply w_nfe; eassumption.
      * apply (all_st (fun q => match snd q with Some e => option_map (fun a => (fst q, Some a)) (w_expr e) | None => None end) (fun q => match snd q with Some e => gse e | None => True end)
          (fun q => match snd q with Some e => nfe e | None => False end) qs l0); [|exact KQ|exact Heqo0]. apply Forall_forall. intros [q [e|]] _ Ke b Eb; cbn [fst snd] in *; [|discriminate Eb]. inv Eb. injection Eb as <-. cbn [snd]. eapply w_nfe; eassumption.
  - right. cbn [gist] in K. destruct K as (NP & KP & KC & KQ & KI). apply all_fold in KI. cbn [w_item] in E. fold (blk is) in E.
    destruct (w_stmt resets MBlocking p) as [x|] eqn:EX; [|discriminate E]. cbn [bindo] in E. destruct (w_expr c) as [y|] eqn:EY; [|discriminate E]. cbn [bindo] in E.
    destruct (w_stmt resets MBlocking q) as [z|] eqn:EZ; [|discriminate E]. cbn [bindo] in E. destruct (blk is) as [l|] eqn:EL; [|discriminate E]. cbn [bindo] in E. injection E as <-.
    eexists. split; [reflexivity|]. split; [reflexivity|]. split; [|split; [exact NP|reflexivity]]. destruct (w_blk PGen is l ltac:(discriminate) H KI EL) as [NI S].
    cbn [nfi]. split; [reflexivity|]. split; [exact (w_nf _ _ _ _ _ KP EX)|]. split; [eapply w_nfe; eassumption|]. split; [exact (w_nf _ _ _ _ _ KQ EZ)|]. split; [exact S|]. apply all_fold. exact NI.
  - right. cbn [gist] in K. destruct K as (NP & KC & KT & KF). apply all_fold in KT. apply all_fold in KF. cbn [w_item] in E. fold (blk tis) (blk fis) in E.
    destruct (w_expr c) as [y|] eqn:EY; [|discriminate E]. cbn [bindo] in E. destruct (blk tis) as [l|] eqn:EL; [|discriminate E]. cbn [bindo] in E. destruct (blk fis) as [k|] eqn:EK; [|discriminate E]. cbn [bindo] in E. injection E as <-.
    eexists. split; [reflexivity|]. split; [reflexivity|]. split; [|split; [exact NP|reflexivity]]. destruct (w_blk PGen tis l ltac:(discriminate) H KT EL) as [NI S]. destruct (w_blk PElse fis k ltac:(discriminate) H0 KF EK) as [NK SK].
    cbn [nfi]. split; [reflexivity|]. split; [eapply w_nfe; eassumption|]. split; [exact S|]. split; [apply all_fold; exact NI|]. destruct k as [|k0 k]; [exact Logic.I|]. split; [discriminate|]. split; [exact SK|]. apply all_fold. exact NK.
Qed.
End Items.
Definition reg_of (regs : string -> bool) (p : aport) : option (awidth * bool) :=
  match ap_dir p with Output => if regs (ap_name p) then Some (ap_width p, ap_signed p) else None | _ => None end.
Definition nfm (resets : aexpr -> bool) (a : amod) : Prop :=
  Forall (fun i => nfi resets (a_outs a) PMod i /\ isparam i = true) (am_params a) /\
  Forall (fun i => nfi resets (a_outs a) PMod i /\ isparam i = false) (am_items a) /\
  Forall (fun p => nfw (ap_width p)) (am_ports a) /\
  exists regs, Forall (fun p => ap_reg p = reg_of regs p) (am_ports a).
Lemma nfi_ext : forall resets o1 o2, (forall n, o1 n = o2 n) -> forall a p, nfi resets o1 p a -> nfi resets o2 p a.
Proof.
  intros resets o1 o2 E. assert (LL : forall is p, Forall (fun a => forall p, nfi resets o1 p a -> nfi resets o2 p a) is -> fold_right (fun i P => nfi resets o1 p i /\ P) True is -> fold_right (fun i P => nfi resets o2 p i /\ P) True is).
  { intros is p H K. apply all_fold in K. apply all_fold. apply Forall_forall. rewrite Forall_forall in H, K. auto. }
  induction a using aitem_ind'; intros p' K.
  - destruct a; try contradiction; try exact K. cbn [nfi] in *. rewrite <- E. exact K.
  - destruct K as [P K]. split; [exact P|]. destruct is as [|x [|? ?]]; try contradiction. inversion H; subst. destruct K. split; auto.
  - cbn [nfi] in *. destruct K as (A & B & C & F & G & I). repeat split; auto.
  - cbn [nfi] in *. destruct K as (A & B & C & F & G). repeat split; auto. destruct f as [[fs fis|j]|]; try exact G. destruct G as (G1 & G2 & G3). cbn [else_all] in H0. repeat split; auto.
Qed.
Lemma fix_ports : forall regs l, Forall (fun p => nfw (ap_width p)) l -> Forall (fun p => ap_reg p = reg_of regs p) l ->
  exists qs, allsome (map r_port l) = Some qs /\
    Forall2 (fun p q => ap_dir p = gp_dir (fst q) /\ ap_name p = gp_name (fst q) /\ ap_signed p = gp_signed (fst q) /\ w_width_ (gp_width (fst q)) = Some (ap_width p) /\
      exists v, snd q = match reg_of regs p with Some _ => [GVar Reg (ap_name p) v (ap_signed p)] | None => [] end) l qs.
Proof.
  intros regs l H K. apply allsome_map. apply Forall_forall. intros p HP. rewrite Forall_forall in H, K. specialize (H p HP). specialize (K p HP). cbv beta in K.
  destruct (fix_width _ H) as (y & RY & WY). unfold r_port. rewrite RY. cbn [bindo]. rewrite K.
  assert (Q : reg_of regs p = None \/ reg_of regs p = Some (ap_width p, ap_signed p)) by (unfold reg_of; destruct (ap_dir p); auto; destruct (regs (ap_name p)); auto).
  destruct Q as [-> | ->].
  - cbn [bindo]. eexists. split; [reflexivity|]. cbn [fst snd gp_dir gp_name gp_signed gp_width]. do 3 (split; [reflexivity|]). split; [exact WY|]. exists y. reflexivity.
  - rewrite RY. cbn [bindo]. eexists. split; [reflexivity|]. cbn [fst snd gp_dir gp_name gp_signed gp_width]. do 3 (split; [reflexivity|]). split; [exact WY|]. exists y. reflexivity.
Qed.
Lemma fix_mod : forall resets a, nfm resets a -> exists m, r_mod a = Some m /\ w_mod resets m = Some a.
Proof.
  intros resets a (KP & KI & KW & regs & KR). destruct (fix_ports regs _ KW KR) as (qs & RQ & FQ).
  set (outs := has_output (map fst qs)).
  assert (OE : forall n, a_outs a n = outs n).
  { intros n. unfold outs, a_outs, has_output. clear - FQ. induction FQ as [|p q l r (D & N & _) _ IH]; [reflexivity|]. cbn [existsb map]. rewrite IH, D, N. reflexivity. }
  assert (FX : forall b is, Forall (fun i => nfi resets (a_outs a) PMod i /\ isparam i = b) is -> Forall (fixed resets outs PMod) is).
  { intros b is. apply Forall_impl. intros i [K _]. apply fix_item. exact (nfi_ext _ _ _ OE _ _ K). }
  destruct (fixed_list resets outs PMod _ (FX _ _ KP)) as (ps & RP & FP). destruct (fixed_list resets outs PMod _ (FX _ _ KI)) as (xs & RX & F2).
  unfold r_mod. rewrite RP, RQ, RX. cbn [bindo]. rewrite !concat_ones. eexists. split; [reflexivity|].
  unfold w_mod. cbn [gm_ports gm_items gm_name]. fold outs.
  set (regl := concat (map snd qs)).
  assert (RL : Forall (fun i => exists n v s, i = GVar Reg n v s /\ outs n = true) regl).
  { unfold regl. assert (Q : Forall2 (fun p q => forall n v s, In (GVar Reg n v s) (snd q) -> outs n = true) (am_ports a) qs /\ Forall (fun q => Forall (fun i => exists n v s, i = GVar Reg n v s) (snd q)) qs).
    { unfold outs. assert (G : forall qs0 l0, Forall2 (fun p q => ap_dir p = gp_dir (fst q) /\ ap_name p = gp_name (fst q) /\ ap_signed p = gp_signed (fst q) /\ w_width_ (gp_width (fst q)) = Some (ap_width p) /\
        exists v, snd q = match reg_of regs p with Some _ => [GVar Reg (ap_name p) v (ap_signed p)] | None => [] end) l0 qs0 -> (forall q, In q qs0 -> In q qs) ->
        Forall2 (fun p q => forall n v s, In (GVar Reg n v s) (snd q) -> has_output (map fst qs) n = true) l0 qs0 /\ Forall (fun q => Forall (fun i => exists n v s, i = GVar Reg n v s) (snd q)) qs0).
      { clear. intros qs0 l0 F. induction F as [|p q l r (D & N & _ & _ & v & S) _ IH]; intros HI; [split; constructor|]. destruct IH as [I1 I2]; [intros q' Hq; apply HI; right; exact Hq|].
        split; constructor; try assumption; rewrite S; unfold reg_of; destruct (ap_dir p) eqn:DP; try (intros ? ? ? []); try constructor; destruct (regs (ap_name p)); try (intros ? ? ? []); try constructor.
        - injection H as <- _ _. unfold has_output. apply existsb_exists. exists (fst q). split; [apply in_map, HI; left; reflexivity|]. rewrite <- D, <- N, String.eqb_refl. reflexivity.
        - contradiction.
        - eauto.
        - constructor. }
      apply (G qs _ FQ). auto. }
    destruct Q as [Q1 Q2]. clear - Q1 Q2. clearbody outs. induction Q1 as [|p q l r E _ IH]; [constructor|]. cbn [map concat]. inversion Q2 as [|? ? QA QB]; subst. apply Forall_app. split; [|auto].
    apply Forall_forall. intros i HI. rewrite Forall_forall in QA. destruct (QA i HI) as (n & v & s & ->). exists n, v, s. split; [reflexivity|]. exact (E n v s HI). }
  destruct (passes resets outs _ _ FP) as [P1 P2]. destruct (passes resets outs _ _ F2) as [X1 X2].
  assert (R1 : allsome (map (fun i => match i with GParam _ _ _ _ => w_item resets outs i | _ => Some None end) regl) = Some (map (fun _ => None) regl)).
  { clear - RL. clearbody regl. clearbody outs. induction RL as [|i l (n & v & s & -> & O) _ IH]; [reflexivity|]. cbn [map allsome]. rewrite IH. reflexivity. }
  assert (R2 : allsome (map (fun i => match i with GParam _ _ _ _ => Some None | _ => w_item resets outs i end) regl) = Some (map (fun _ => None) regl)).
  { clear - RL. clearbody regl. clearbody outs. induction RL as [|i l (n & v & s & -> & O) _ IH]; [reflexivity|]. cbn [map allsome w_item]. rewrite O, IH. reflexivity. }
  assert (AA : forall {A} (l k : list (option A)) x y, allsome l = Some x -> allsome k = Some y -> allsome (l ++ k) = Some (x ++ y)).
  { clear. intros A l. induction l as [|[o|] l IH]; intros k x y E F; [injection E as <-; exact F| |discriminate E]. cbn [allsome app] in *. destruct (allsome l) as [z|] eqn:Z; [|discriminate E]. injection E as <-.
    rewrite (IH k z y eq_refl F). reflexivity. }
  rewrite !map_app. rewrite (AA _ _ _ _ _ P1 (AA _ _ _ _ _ R1 X1)), (AA _ _ _ _ _ P2 (AA _ _ _ _ _ R2 X2)). cbn [bindo].
  assert (HR : forall n, outs n = true -> has_reg (ps ++ regl ++ xs) n = existsb (fun p => match reg_of regs p with Some _ => (ap_name p =? n)%string | None => false end) (am_ports a)).
  { intros n O. unfold has_reg. rewrite !existsb_app.
    assert (E1 : existsb (fun i => match i with GVar Reg x _ _ => (x =? n)%string | _ => false end) ps = false).
    { clear - FP KP. induction FP as [|i g l r [_ P] _ IH]; [reflexivity|]. inversion KP as [|? ? [_ B] KR]; subst. cbn [existsb]. rewrite (IH KR). destruct g; cbn [gparam] in P; congruence || reflexivity. }
    assert (E2 : existsb (fun i => match i with GVar Reg x _ _ => (x =? n)%string | _ => false end) xs = false).
    { clear - F2 O. clearbody outs. induction F2 as [|i g l r [W _] _ IH]; [reflexivity|]. cbn [existsb]. rewrite IH. destruct g; try reflexivity. destruct k; try reflexivity. destruct (String.eqb_spec n0 n) as [->|]; [|reflexivity].
      cbn [w_item] in W. rewrite O in W. discriminate W. }
    rewrite E1, E2, orb_false_r. cbn [orb]. unfold regl. clear - FQ. induction FQ as [|p q l r (_ & N & _ & _ & v & S) _ IH]; [reflexivity|]. cbn [map concat existsb]. rewrite existsb_app, IH, S.
    destruct (reg_of regs p); cbn [existsb]; rewrite ?orb_false_r; reflexivity. }
  assert (PE : allsome (map (w_port (has_reg (ps ++ regl ++ xs))) (map fst qs)) = Some (am_ports a)).
  { apply allsome_back. assert (G : forall l0 qs0, Forall2 (fun p q => ap_dir p = gp_dir (fst q) /\ ap_name p = gp_name (fst q) /\ ap_signed p = gp_signed (fst q) /\ w_width_ (gp_width (fst q)) = Some (ap_width p) /\
        exists v, snd q = match reg_of regs p with Some _ => [GVar Reg (ap_name p) v (ap_signed p)] | None => [] end) l0 qs0 -> (forall p, In p l0 -> In p (am_ports a)) ->
        Forall2 (fun g p => w_port (has_reg (ps ++ regl ++ xs)) g = Some p) (map fst qs0) l0).
    { clear - KR HR OE. intros l0 qs0 F. induction F as [|p q l r (D & N & S & W & _) _ IH]; intros HI; [constructor|]. cbn [map]. constructor; [|apply IH; intros p' Hp; apply HI; right; exact Hp].
      unfold w_port. rewrite W. cbn [bindo]. rewrite <- D, <- N, <- S. assert (IP : In p (am_ports a)) by (apply HI; left; reflexivity). rewrite Forall_forall in KR. specialize (KR p IP). cbv beta in KR.
      destruct p as [d n w sg rg]. cbn [ap_dir ap_name ap_width ap_signed ap_reg] in *. do 2 f_equal. rewrite KR. unfold reg_of. cbn [ap_dir ap_name ap_width ap_signed]. destruct d; try reflexivity.
      assert (O : outs n = true). { rewrite <- OE. unfold a_outs. apply existsb_exists. eexists. split; [exact IP|]. cbn [ap_name ap_dir]. rewrite String.eqb_refl. reflexivity. }
      rewrite (HR n O). assert (B : existsb (fun p => match reg_of regs p with Some _ => (ap_name p =? n)%string | None => false end) (am_ports a) = regs n).
      { destruct (regs n) eqn:R.
        - apply existsb_exists. eexists. split; [exact IP|]. unfold reg_of. cbn [ap_dir ap_name]. rewrite R. apply String.eqb_refl.
        - apply not_true_iff_false. intros C. apply existsb_exists in C as (p & _ & C). unfold reg_of in C. destruct (ap_dir p); try discriminate C. destruct (regs (ap_name p)) eqn:R2; [|discriminate C].
          apply String.eqb_eq in C. congruence. }
      rewrite B. destruct (regs n); reflexivity. }
    apply (G _ _ FQ). auto. }
  rewrite PE. cbn [bindo]. f_equal. destruct a as [nm pa po it]. cbn [am_name am_params am_ports am_items] in *. rewrite !flat_map_app.
  assert (NN : flat_map (fun o : option aitem => match o with Some a => [a] | None => [] end) (map (fun _ : gitem => None) regl) = []) by (clear; induction regl; [reflexivity|assumption]).
  rewrite NN. cbn [app]. f_equal.
  - assert (Z : flat_map (fun o : option aitem => match o with Some a => [a] | None => [] end) (map (fun a => if isparam a then Some a else None) it) = []).
    { clear - KI. induction KI as [|i l [_ B] _ IH]; [reflexivity|]. cbn [map flat_map]. rewrite B. exact IH. }
    rewrite Z, app_nil_r. clear - KP. induction KP as [|i l [_ B] _ IH]; [reflexivity|]. cbn [map flat_map]. rewrite B. cbn [app]. f_equal. exact IH.
  - assert (Z : flat_map (fun o : option aitem => match o with Some a => [a] | None => [] end) (map (fun a => if isparam a then None else Some (wrap a)) pa) = []).
    { clear - KP. induction KP as [|i l [_ B] _ IH]; [reflexivity|]. cbn [map flat_map]. rewrite B. exact IH. }
    rewrite Z. cbn [app]. clear - KI. induction KI as [|i l [K B] _ IH]; [reflexivity|]. cbn [map flat_map]. rewrite B. cbn [app]. f_equal; [|exact IH].
    destruct i; try reflexivity; cbn [nfi] in K; destruct K as [K _]; discriminate K.
Qed.
Lemma w_nfm : forall resets m a, gm_st m -> w_mod resets m = Some a -> nfm resets a.
Proof.
  intros resets m a [KP KI] E. unfold w_mod in E. set (outs := has_output (gm_ports m)) in *.
  destruct (allsome (map (fun i => match i with GParam _ _ _ _ => w_item resets outs i | _ => Some None end) (gm_items m))) as [ps|] eqn:E1; [|discriminate E]. cbn [bindo] in E.
  destruct (allsome (map (w_port (has_reg (gm_items m))) (gm_ports m))) as [qs|] eqn:E3; [|discriminate E]. cbn [bindo] in E.
  destruct (allsome (map (fun i => match i with GParam _ _ _ _ => Some None | _ => w_item resets outs i end) (gm_items m))) as [xs|] eqn:E2; [|discriminate E]. cbn [bindo] in E. injection E as <-.
  apply allsome_inv in E1. apply allsome_inv in E2. apply allsome_inv in E3.
  assert (OE : forall n, outs n = a_outs (mkAM (gm_name m) (flat_map (fun o => match o with Some a => [a] | None => [] end) ps) qs (flat_map (fun o => match o with Some a => [a] | None => [] end) xs)) n).
  { intros n. unfold outs, has_output, a_outs. cbn [am_ports]. clear - E3. induction E3 as [|p q l r E _ IH]; [reflexivity|]. cbn [existsb]. rewrite IH. unfold w_port in E. inv E. injection E as <-. reflexivity. }
  unfold nfm. cbn [am_params am_items am_ports]. split; [|split; [|split]].
  - clear - E1 KI OE. assert (G : Forall (fun i => nfi resets outs PMod i /\ isparam i = true) (flat_map (fun o => match o with Some a => [a] | None => [] end) ps)).
    { clear OE. induction E1 as [|i o is ps E _ IH]; [constructor|]. inversion KI as [|? ? KX KR]; subst. cbn [flat_map]. apply Forall_app. split; [|auto].
      destruct i; try (injection E as <-; constructor). destruct o as [b|]; [|constructor]. constructor; [|constructor]. destruct (w_nfi resets outs _ PMod b KX E) as [(_ & N & P & _)|(x & _ & _ & _ & _ & P)]; [|discriminate P]. split; assumption. }
    revert G. apply Forall_impl. intros i [G P]. split; [|exact P]. exact (nfi_ext _ _ _ OE _ _ G).
  - clear - E2 KI OE. assert (G : Forall (fun i => nfi resets outs PMod i /\ isparam i = false) (flat_map (fun o => match o with Some a => [a] | None => [] end) xs)).
    { clear OE. induction E2 as [|i o is xs E _ IH]; [constructor|]. inversion KI as [|? ? KX KR]; subst. cbn [flat_map]. apply Forall_app. split; [|auto].
      destruct o as [b|]; [|constructor]. destruct (gparam i) eqn:GP; [destruct i; try discriminate GP; discriminate E|].
      assert (E' : w_item resets outs i = Some (Some b)) by (destruct i; try discriminate GP; exact E). constructor; [|constructor]. destruct (w_nfi resets outs _ PMod b KX E') as [(_ & N & P & _)|(x & -> & GX & NX & _ & _)].
      - split; [exact N|congruence].
      - split; [|reflexivity]. cbn [nfi]. split; [reflexivity|]. split; assumption. }
    revert G. apply Forall_impl. intros i [G P]. split; [|exact P]. exact (nfi_ext _ _ _ OE _ _ G).
  - clear - E3 KP. induction E3 as [|p q l r E _ IH]; [constructor|]. inversion KP; subst. constructor; [|auto]. unfold w_port in E. inv E. injection E as <-. cbn [ap_width]. eapply w_nfw; eassumption.
  - exists (has_reg (gm_items m)). clear - E3. set (rg := has_reg (gm_items m)) in *. clearbody rg. induction E3 as [|p q l r E _ IH]; [constructor|]. constructor; [|auto]. unfold w_port in E. inv E. injection E as <-. unfold reg_of. cbn [ap_dir ap_name ap_width ap_signed ap_reg]. reflexivity.
Qed.
Lemma stable_mod : forall resets m a, gm_st m -> w_mod resets m = Some a -> exists m', r_mod a = Some m' /\ w_mod resets m' = Some a.
Proof. intros resets m a K E. apply fix_mod. eapply w_nfm; eassumption. Qed.
