(** Proofs about writing and reading Verilog. *)
From Coq Require Import String Ascii Permutation.
From Verif Require Import Base Lit_Model Lit_Spec Lit_Proofs Lit_Props Rw_Model Rw_Spec.
Open Scope list_scope.
Open Scope Z_scope.

(** * Induction over nested trees *)
Section Ind.
  Variable P : gexpr -> Prop.
  Hypothesis Hname : forall n, P (GName n).
  Hypothesis Hpy : forall z, P (GPy z).
  Hypothesis Hbool : forall b, P (GBool b).
  Hypothesis Hint : forall c, P (GInt c).
  Hypothesis Hstr : forall s, P (GStr s).
  Hypothesis Hun : forall o a, P a -> P (GUn o a).
  Hypothesis Hbin : forall o a b, P a -> P b -> P (GBin o a b).
  Hypothesis Hskip : forall a, P a -> P (GSkip a).
  Hypothesis Hptr : forall v p, P v -> P p -> P (GPtr v p).
  Hypothesis Hslice : forall v m l, P v -> P m -> P l -> P (GSlice v m l).
  Hypothesis Hcat : forall l, Forall P l -> P (GCat l).
  Hypothesis Hrep : forall v n, P v -> P n -> P (GRep v n).
  Hypothesis Hcond : forall c t f, P c -> P t -> P f -> P (GCond c t f).
  Hypothesis Hsys : forall c l, Forall P l -> P (GSys c l).
  Fixpoint gexpr_ind' (e : gexpr) : P e :=
    let all := fix all (l : list gexpr) : Forall P l :=
      match l with [] => Forall_nil P | a :: r => Forall_cons a (gexpr_ind' a) (all r) end in
    match e with
    | GName n => Hname n | GPy z => Hpy z | GBool b => Hbool b | GInt c => Hint c | GStr s => Hstr s
    | GUn o a => Hun o a (gexpr_ind' a) | GBin o a b => Hbin o a b (gexpr_ind' a) (gexpr_ind' b)
    | GSkip a => Hskip a (gexpr_ind' a)
    | GPtr v p => Hptr v p (gexpr_ind' v) (gexpr_ind' p)
    | GSlice v m l => Hslice v m l (gexpr_ind' v) (gexpr_ind' m) (gexpr_ind' l)
    | GCat l => Hcat l (all l) | GRep v n => Hrep v n (gexpr_ind' v) (gexpr_ind' n)
    | GCond c t f => Hcond c t f (gexpr_ind' c) (gexpr_ind' t) (gexpr_ind' f)
    | GSys c l => Hsys c l (all l)
    end.
End Ind.
Section AInd.
  Variable P : aexpr -> Prop.
  Hypothesis Hid : forall n, P (AId n).
  Hypothesis Hconst : forall t, P (AConst t).
  Hypothesis Hstr : forall s, P (AStr s).
  Hypothesis Hun : forall o a, P a -> P (AUn o a).
  Hypothesis Hbin : forall o a b, P a -> P b -> P (ABin o a b).
  Hypothesis Hptr : forall v p, P v -> P p -> P (APointer v p).
  Hypothesis Hpart : forall v m l, P v -> P m -> P l -> P (APart v m l).
  Hypothesis Hcat : forall l, Forall P l -> P (AConcat l).
  Hypothesis Hrep : forall v n, P v -> P n -> P (ARepeat v n).
  Hypothesis Hcond : forall c t f, P c -> P t -> P f -> P (ACond c t f).
  Hypothesis Hsys : forall c l, Forall P l -> P (ASys c l).
  Fixpoint aexpr_ind' (e : aexpr) : P e :=
    let all := fix all (l : list aexpr) : Forall P l :=
      match l with [] => Forall_nil P | a :: r => Forall_cons a (aexpr_ind' a) (all r) end in
    match e with
    | AId n => Hid n | AConst t => Hconst t | AStr s => Hstr s
    | AUn o a => Hun o a (aexpr_ind' a) | ABin o a b => Hbin o a b (aexpr_ind' a) (aexpr_ind' b)
    | APointer v p => Hptr v p (aexpr_ind' v) (aexpr_ind' p)
    | APart v m l => Hpart v m l (aexpr_ind' v) (aexpr_ind' m) (aexpr_ind' l)
    | AConcat l => Hcat l (all l) | ARepeat v n => Hrep v n (aexpr_ind' v) (aexpr_ind' n)
    | ACond c t f => Hcond c t f (aexpr_ind' c) (aexpr_ind' t) (aexpr_ind' f)
    | ASys c l => Hsys c l (all l)
    end.
End AInd.
Section SInd.
  Variable P : gstmt -> Prop.
  Hypothesis Hsub : forall l r b ld rd, P (GSubst l r b ld rd).
  Hypothesis Hif : forall c t f, Forall P t -> (forall l, f = Some l -> Forall P l) -> P (GIf c t f).
  Hypothesis Hfor : forall p c q b, P p -> P q -> Forall P b -> P (GFor p c q b).
  Hypothesis Hwhile : forall c b, Forall P b -> P (GWhile c b).
  Hypothesis Hcase : forall k c ws, Forall (fun w => Forall P (snd w)) ws -> P (GCase k c ws).
  Hypothesis Hlist : forall l, Forall P l -> P (GList l).
  Hypothesis Hsingle : forall e, P (GSingle e).
  Hypothesis Hdelay : forall d, P (GDelay d).
  Hypothesis Hwait : forall c b, (forall l, b = Some l -> Forall P l) -> P (GWait c b).
  Hypothesis Hforever : forall b, Forall P b -> P (GForever b).
  Fixpoint gstmt_ind' (s : gstmt) : P s :=
    let all := fix all (l : list gstmt) : Forall P l :=
      match l with [] => Forall_nil P | a :: r => Forall_cons a (gstmt_ind' a) (all r) end in
    let opt (o : option (list gstmt)) : forall l, o = Some l -> Forall P l :=
      match o with
      | None => fun l E => False_ind _ (eq_ind None (fun x => match x with None => True | Some _ => False end) I _ E)
      | Some k => fun l E => eq_ind k (fun l => Forall P l) (all k) l
                              (f_equal (fun o => match o with Some x => x | None => k end) E)
      end in
    match s with
    | GSubst l r b ld rd => Hsub l r b ld rd
    | GIf c t f => Hif c t f (all t) (opt f)
    | GFor p c q b => Hfor p c q b (gstmt_ind' p) (gstmt_ind' q) (all b)
    | GWhile c b => Hwhile c b (all b)
    | GCase k c ws => Hcase k c ws ((fix go ws : Forall (fun w => Forall P (snd w)) ws :=
        match ws with [] => Forall_nil _ | w :: r => Forall_cons w (all (snd w)) (go r) end) ws)
    | GList l => Hlist l (all l)
    | GSingle e => Hsingle e | GDelay d => Hdelay d
    | GWait c b => Hwait c b (opt b)
    | GForever b => Hforever b (all b)
    end.
End SInd.
Section ASInd.
  Variable P : astmt -> Prop.
  Hypothesis Hblock : forall l sc, Forall P l -> P (ABlock l sc).
  Hypothesis Hblk : forall l r ld rd, P (ABlk l r ld rd).
  Hypothesis Hnon : forall l r ld rd, P (ANon l r ld rd).
  Hypothesis Hif : forall c t f, P t -> (forall s, f = Some s -> P s) -> P (AIf c t f).
  Hypothesis Hfor : forall p c q b, P p -> P q -> P b -> P (AFor p c q b).
  Hypothesis Hwhile : forall c b, P b -> P (AWhile c b).
  Hypothesis Hcase : forall k c ws, Forall (fun w => P (snd w)) ws -> P (ACase k c ws).
  Hypothesis Hsingle : forall e, P (ASingle e).
  Hypothesis Hdelay : forall d, P (ADelay d).
  Hypothesis Hwait : forall c b, (forall s, b = Some s -> P s) -> P (AWait c b).
  Hypothesis Hforever : forall b, P b -> P (AForever b).
  Fixpoint astmt_ind' (s : astmt) : P s :=
    let all := fix all (l : list astmt) : Forall P l :=
      match l with [] => Forall_nil P | a :: r => Forall_cons a (astmt_ind' a) (all r) end in
    let opt (o : option astmt) : forall l, o = Some l -> P l :=
      match o with
      | None => fun l E => False_ind _ (eq_ind None (fun x => match x with None => True | Some _ => False end) I _ E)
      | Some k => fun l E => eq_ind k (fun l => P l) (astmt_ind' k) l
                              (f_equal (fun o => match o with Some x => x | None => k end) E)
      end in
    match s with
    | ABlock l sc => Hblock l sc (all l)
    | ABlk l r ld rd => Hblk l r ld rd
    | ANon l r ld rd => Hnon l r ld rd
    | AIf c t f => Hif c t f (astmt_ind' t) (opt f)
    | AFor p c q b => Hfor p c q b (astmt_ind' p) (astmt_ind' q) (astmt_ind' b)
    | AWhile c b => Hwhile c b (astmt_ind' b)
    | ACase k c ws => Hcase k c ws ((fix go ws : Forall (fun w => P (snd w)) ws :=
        match ws with [] => Forall_nil _ | w :: r => Forall_cons w (astmt_ind' (snd w)) (go r) end) ws)
    | ASingle e => Hsingle e | ADelay d => Hdelay d
    | AWait c b => Hwait c b (opt b)
    | AForever b => Hforever b (astmt_ind' b)
    end.
End ASInd.

(** * Lists *)
Lemma allsome_map : forall {A B} (f : A -> option B) (g : A -> B -> Prop) l,
  Forall (fun a => exists b, f a = Some b /\ g a b) l -> exists r, allsome (map f l) = Some r /\ Forall2 g l r.
Proof.
  intros A B f g l H. induction H as [|a l (b & E & G) _ (r & R & F)].
  - exists []. split; [reflexivity|constructor].
  - exists (b :: r). cbn [map allsome]. rewrite E, R. split; [reflexivity|constructor; assumption].
Qed.
Lemma allsome_inv : forall {A B} (f : A -> option B) l r, allsome (map f l) = Some r -> Forall2 (fun a b => f a = Some b) l r.
Proof.
  intros A B f l. induction l as [|a l IH]; intros r H; cbn [map allsome] in H.
  - injection H as <-. constructor.
  - destruct (f a) as [b|] eqn:E; [|discriminate]. destruct (allsome (map f l)) as [q|]; [|discriminate].
    injection H as <-. constructor; [exact E|apply IH; reflexivity].
Qed.
Lemma allsome_back : forall {A B} (f : A -> option B) l r, Forall2 (fun a b => f a = Some b) l r -> allsome (map f l) = Some r.
Proof. intros A B f l r H. induction H as [|a b l r E _ IH]; [reflexivity|]. cbn [map allsome]. rewrite E, IH. reflexivity. Qed.
Lemma Forall2_map_eq : forall {A B C} (f : A -> C) (g : B -> C) l r, Forall2 (fun a b => g b = f a) l r -> map g r = map f l.
Proof. intros A B C f g l r H. induction H; [reflexivity|]. cbn [map]. congruence. Qed.
Lemma Forall_flat : forall {A B} (P : B -> Prop) (f : A -> list B) l, Forall P (flat_map f l) <-> Forall (fun a => Forall P (f a)) l.
Proof.
  intros A B P f l. induction l as [|a l IH]; cbn [flat_map]; [split; constructor|]. rewrite Forall_app, IH. split.
  - intros [H1 H2]. constructor; assumption.
  - intros H. inversion H; subst. split; assumption.
Qed.
Lemma Forall_mp : forall {A} (P Q : A -> Prop) l, Forall (fun a => P a -> Q a) l -> Forall P l -> Forall Q l.
Proof. intros A P Q l H. induction H; intros K; constructor; inversion K; subst; auto. Qed.

(** * Literals *)
Lemma width_text_ok : forall w, (forall n, w = Some n -> 0 < n) -> width_text w = match w with Some w => pystr w | None => ""%string end.
Proof. intros [w|] H; [|reflexivity]. unfold width_text. specialize (H w eq_refl). destruct (Z.eqb_spec w 0); [lia|reflexivity]. Qed.
Lemma app_assoc_s : forall a b c : string, ((a ++ b) ++ c = a ++ b ++ c)%string.
Proof. induction a as [|x a IH]; intros; cbn [append]; [reflexivity|]. rewrite IH. reflexivity. Qed.
Lemma plain_lit : forall z, a_lit (pystr z) = inl (num z).
Proof.
  intros z. unfold a_lit, pystr, num.
  destruct (C36_denotes (Z.abs z) None None false) as (t & P & R); [discriminate|tauto|].
  unfold int_num in P. pose proof (Z.abs_nonneg z) as NN. destruct (Z.ltb_spec (Z.abs z) 0) as [|_]; [lia|]. unfold print_int in P. cbn [ival ibase iwidth isigned] in P.
  destruct (Z.ltb_spec (Z.abs z) 0) as [|_]; [lia|]. cbv beta iota zeta in P. cbn [width_text nonempty append] in P. injection P as <-.
  cbn [orb] in R. rewrite Z.abs_involutive in R.
  destruct (Z.ltb_spec z 0) as [N|N].
  - rewrite Z.abs_neq in R by lia. rewrite Z.abs_neq by lia.
    assert (H : forall s, nonempty s = true -> (forall c r, s = String c r -> Ascii.eqb c "-"%char = false) ->
      read_literal s = Some (mkLit false None true (- z)) -> read_literal ("-" ++ s)%string = Some (mkLit true None true (- z))).
    { clear. intros s NE H R. destruct s as [|c r]; [discriminate|]. unfold read_literal in *. rewrite (H c r eq_refl) in R.
      cbn [append Ascii.eqb Bool.eqb]. change (if Ascii.eqb "-"%char "-"%char then unsigned_literal true (String c r) else unsigned_literal false (String "-"%char (String c r))) with (unsigned_literal true (String c r)).
      unfold unsigned_literal in *. destruct (split (String c r)) as [p [q|]].
      - destruct p.
        + unfold based in *. destruct q as [|d q']; [discriminate|]. destruct (Ascii.eqb d "s"%char || Ascii.eqb d "S"%char).
          * destruct q'; [discriminate|]. destruct (radix a); [|discriminate]. destruct (numeric z0 q'); [|discriminate]. injection R. intros; subst. reflexivity.
          * destruct (radix d); [|discriminate]. destruct (numeric z0 q'); [|discriminate]. injection R. intros; subst. discriminate.
        + destruct (numeric 10 (String a p)); [|discriminate]. destruct (0 <? z0); [|discriminate].
          unfold based in *. destruct q as [|d q']; [discriminate|]. destruct (Ascii.eqb d "s"%char || Ascii.eqb d "S"%char).
          * destruct q'; [discriminate|]. destruct (radix a0); [|discriminate]. destruct (numeric z1 q'); discriminate.
          * destruct (radix d); [|discriminate]. destruct (numeric z1 q'); discriminate.
      - destruct p; [discriminate|]. destruct (numeric 10 (String a p)); [|discriminate]. inversion R; subst. reflexivity. }
    rewrite (H (show 10 (- z))); [reflexivity|apply show_nonempty| |exact R].
    intros c r E. pose proof (show_below 10 (- z) ltac:(lia) ltac:(lia)) as SB. rewrite E in SB. cbn [every] in SB. apply andb_true_iff in SB as [SB _].
    destruct (Ascii.eqb_spec c "-"%char) as [->|]; [discriminate|reflexivity].
  - rewrite Z.abs_eq in R by lia. rewrite R. rewrite Z.abs_eq by lia. reflexivity.
Qed.
Lemma int_printed : forall c, int_ok c -> exists t, print_int c = Some t /\ a_lit t = g_lit c.
Proof.
  intros [v w b sg] [HW H]. cbn [iwidth ival ibase isigned] in *. destruct v as [z|s].
  - destruct H as [HB HN].
    destruct (Bool.bool_dec (z <? 0) true) as [N|N]; [destruct sg|].
    + destruct (C36_denotes z w b true HW HB) as (t & P & R). exists t. unfold int_num in P. rewrite N in P. split; [exact P|].
      unfold a_lit, g_lit. cbn [ival iwidth ibase isigned]. rewrite R, N. reflexivity.
    + destruct (HN ltac:(lia)) as [|[-> ->]]; [discriminate|]. exists (pystr z). split.
      * unfold print_int, pystr. cbn [ival ibase iwidth isigned width_text nonempty]. rewrite N. cbn [append]. rewrite Z.abs_neq by lia. reflexivity.
      * rewrite plain_lit. reflexivity.
    + destruct (C36_denotes z w b sg HW HB) as (t & P & R). exists t. unfold int_num in P. apply not_true_is_false in N. rewrite N in P. split; [exact P|].
      unfold a_lit, g_lit. cbn [ival iwidth ibase isigned]. rewrite R, N. reflexivity.
  - destruct H as (HB & HM & HR). unfold g_lit in *. cbn [ival iwidth ibase isigned] in *.
    set (t := ((match w with Some w0 => pystr w0 | None => "" end) ++ "'" ++ (if sg then "s" else "") ++
                 (match b with Some 2 => "b" | Some 8 => "o" | Some 16 => "h" | _ => "d" end) ++ s)%string) in *.
    exists t. split; [|unfold a_lit; rewrite HR; reflexivity].
    unfold print_int. cbn [ival ibase iwidth isigned]. rewrite HM. cbv beta iota zeta. rewrite (width_text_ok w HW). unfold t.
    destruct HB as [->|[->|[->| ->]]]; cbn [letter Z.eqb Pos.eqb append]; destruct sg; reflexivity.
Qed.

(** * Writing expressions *)
Lemma w_un_ok : forall o, a_un (w_un o) = g_un o.
Proof. destruct o; reflexivity. Qed.
Lemma w_bin_ok : forall o, a_bin (w_bin o) = g_bin o.
Proof. destruct o; reflexivity. Qed.
Lemma w_list : forall l, Forall (fun e => e_ok e -> exists a, w_expr e = Some a /\ forall A, ae A a = ge A e) l -> Forall int_ok (flat_map g_ints l) ->
  exists r, allsome (map w_expr l) = Some r /\ forall A, map (ae A) r = map (ge A) l.
Proof.
  intros l H K. apply Forall_flat in K. pose proof (Forall_mp _ _ _ H K) as Q. apply allsome_map in Q as (r & R & F). exists r. split; [exact R|].
  intros A. apply Forall2_map_eq. revert F. clear. induction 1; constructor; auto.
Qed.
Ltac okapp H := unfold e_ok in H; cbn [g_ints] in H; rewrite ?Forall_app in H.
Lemma w_expr_ok : forall e, e_ok e -> exists a, w_expr e = Some a /\ forall A, ae A a = ge A e.
Proof.
  induction e using gexpr_ind'; intros K; okapp K.
  - exists (AId n). split; reflexivity.
  - exists (AConst (pystr z)). split; [reflexivity|]. intros A. cbn [ae ge]. rewrite plain_lit. reflexivity.
  - exists (AConst (if b then "1" else "0")). split; [reflexivity|]. intros A. cbn [ae ge]. destruct b; reflexivity.
  - inversion K; subst. destruct (int_printed c) as (t & P & R); [assumption|]. exists (AConst t). cbn [w_expr]. rewrite P. split; [reflexivity|].
    intros A. cbn [ae ge]. rewrite R. reflexivity.
  - exists (AStr s). split; reflexivity.
  - destruct (IHe K) as (a & E & S). exists (AUn (w_un o) a). cbn [w_expr]. rewrite E. split; [reflexivity|]. intros A. cbn [ae ge]. rewrite S, w_un_ok. reflexivity.
  - destruct K as [K1 K2]. destruct (IHe1 K1) as (a & E1 & S1). destruct (IHe2 K2) as (b & E2 & S2). exists (ABin (w_bin o) a b).
    cbn [w_expr bindo]. rewrite E1. cbn [bindo]. rewrite E2. split; [reflexivity|]. intros A. cbn [ae ge]. rewrite S1, S2, w_bin_ok. reflexivity.
  - exact (IHe K).
  - destruct K as [K1 K2]. destruct (IHe1 K1) as (a & E1 & S1). destruct (IHe2 K2) as (b & E2 & S2). exists (APointer a b).
    cbn [w_expr bindo]. rewrite E1. cbn [bindo]. rewrite E2. split; [reflexivity|]. intros A. cbn [ae ge]. rewrite S1, S2. reflexivity.
  - destruct K as (K1 & K2 & K3). destruct (IHe1 K1) as (a & E1 & S1). destruct (IHe2 K2) as (b & E2 & S2). destruct (IHe3 K3) as (c & E3 & S3). exists (APart a b c).
    cbn [w_expr bindo]. rewrite E1. cbn [bindo]. rewrite E2. cbn [bindo]. rewrite E3. split; [reflexivity|]. intros A. cbn [ae ge]. rewrite S1, S2, S3. reflexivity.
  - destruct (w_list l H K) as (r & R & S). exists (AConcat r). cbn [w_expr]. rewrite R. split; [reflexivity|]. intros A. cbn [ae ge]. rewrite S. reflexivity.
  - destruct K as [K1 K2]. destruct (IHe1 K1) as (a & E1 & S1). destruct (IHe2 K2) as (b & E2 & S2).
    assert (Q : exists x, match e1 with GCat _ => w_expr e1 | _ => option_map (fun x => AConcat [x]) (w_expr e1) end = Some x /\
      forall A, (match x with AConcat _ => ae A x | _ => d_cat A [ae A x] end) = match e1 with GCat _ => ge A e1 | _ => d_cat A [ge A e1] end).
    { destruct e1 as [| | | | | | | | | |l| | |]; try (exists (AConcat [a]); rewrite E1; split; [reflexivity|]; intros A; cbn [ae map]; rewrite S1; reflexivity).
      exists a. split; [exact E1|]. intros A. cbn [w_expr] in E1. destruct (allsome (map w_expr l)); [|discriminate]. injection E1 as <-. apply S1. }
    destruct Q as (x & Q & S). exists (ARepeat x b). cbn [w_expr]. rewrite Q. cbn [bindo]. rewrite E2. split; [reflexivity|]. intros A. cbn [ae ge]. rewrite S, S2. reflexivity.
  - destruct K as (K1 & K2 & K3). destruct (IHe1 K1) as (a & E1 & S1). destruct (IHe2 K2) as (b & E2 & S2). destruct (IHe3 K3) as (c & E3 & S3). exists (ACond a b c).
    cbn [w_expr bindo]. rewrite E1. cbn [bindo]. rewrite E2. cbn [bindo]. rewrite E3. split; [reflexivity|]. intros A. cbn [ae ge]. rewrite S1, S2, S3. reflexivity.
  - destruct (w_list l H K) as (r & R & S). exists (ASys c r). cbn [w_expr]. rewrite R. split; [reflexivity|]. intros A. cbn [ae ge]. rewrite S. reflexivity.
Qed.

(** * Reading expressions *)
Lemma digits_nonneg : forall b s acc n, 0 <= b -> 0 <= acc -> digits_ b acc s = Some n -> 0 <= n.
Proof.
  intros b. induction s as [|c r IH]; intros acc n B A DG; cbn [digits_] in DG; [injection DG as <-; exact A|].
  destruct (digit c) as [d|] eqn:DC; [|discriminate]. destruct (d <? b); [|discriminate]. apply (IH (acc * b + d) n B); [|exact DG].
  assert (0 <= d); [|nia]. clear - DC. unfold digit in DC. destruct (index 0 (String c "") "0123456789abcdef") as [k|]; [assert (d = Z.of_nat k) by congruence; lia|].
  destruct (index 0 (String c "") "ABCDEF") as [k|]; [assert (d = 10 + Z.of_nat k) by congruence; lia|discriminate].
Qed.
Lemma const_read : forall t, const_ok t -> exists c, int_text t None None false = Some c /\ int_ok c /\ g_lit c = a_lit t.
Proof.
  intros t H. destruct H as [t n H|pre w l b body n HL HW HB|w l b body HL HW X NX PX].
  - exists (mkInt (VI n) None None false).
    pose proof (numeric_digits _ _ _ H) as [NE DG]. pose proof (digits_below _ _ _ _ DG) as E.
    assert (PI : pyint 10 (strip t) = Some n) by (apply pyint_digits; [unfold radix_ok; tauto|exact NE|exact DG]).
    assert (NO : forall c, below 10 c = false -> every (no c) (strip t) = true) by (intros c C; apply (every_no (below 10)); assumption).
    assert (NN : 0 <= n).
    { exact (digits_nonneg 10 _ 0 n ltac:(lia) ltac:(lia) DG). }
    split; [|split].
    + unfold int_text, str_to_value, str_to_width, str_to_signed, search, search_width.
      rewrite !(after_none _ _ (NO "h"%char eq_refl)), (after_none _ _ (NO "d"%char eq_refl)), (after_none _ _ (NO "o"%char eq_refl)), (after_none _ _ (NO "b"%char eq_refl)), (after_none _ _ (NO "s"%char eq_refl)). rewrite !(fun c => before_none c _ (NO "'"%char eq_refl)). rewrite PI. reflexivity.
    + split; [discriminate|]. cbn [ival ibase iwidth isigned]. split; [tauto|]. intros; lia.
    + unfold a_lit, g_lit. cbn [ival ibase iwidth isigned].
      assert (RL : read_literal t = Some (mkLit false None true n)).
      { destruct t as [|c r]; [discriminate|]. pose proof (numeric_no 10 _ n "-"%char ltac:(lia) H eq_refl eq_refl) as Q. cbn [every] in Q.
        apply andb_true_iff in Q as [Q _]. apply negb_true_iff in Q. rewrite read_positive by exact Q. unfold unsigned_literal.
        rewrite split_none by (apply (numeric_no 10 _ n); [lia|exact H|reflexivity|reflexivity]). destruct (numeric 10 (String c r)); [|discriminate]. injection H as <-. reflexivity. }
      rewrite RL. rewrite (proj2 (Z.ltb_ge n 0)) by lia. rewrite Z.abs_eq by lia. reflexivity.
  - destruct (letter_ok b l HL) as [RB RL].
    destruct (C36_parse_partial pre w l b body n) as [A B]; [|exact HW|exact HB|].
    { unfold letter in HL. destruct RB as [->|[->|[->| ->]]]; cbn [Z.eqb Pos.eqb] in HL; injection HL as <-; tauto. }
    assert (NN : 0 <= n).
    { apply numeric_digits in HB as [_ DG]. pose proof (radix_range b RB). exact (digits_nonneg b _ 0 n ltac:(lia) ltac:(lia) DG). }
    exists (mkInt (VI n) w (Some b) false). split; [exact B|]. split.
    + split; [intros k K; cbn [iwidth] in K; destruct HW as [[_ ->]|(k' & _ & P & ->)]; [discriminate|injection K as <-; exact P]|].
      cbn [ival ibase iwidth isigned]. split; [|intros; lia]. destruct RB as [->|[->|[->| ->]]]; tauto.
    + unfold a_lit, g_lit. cbv zeta in A. rewrite A. cbn [ival ibase iwidth isigned]. rewrite (proj2 (Z.ltb_ge n 0)) by lia. rewrite Z.abs_eq by lia. destruct w; reflexivity.
  - destruct (letter_ok b l HL) as [RB RL].
    destruct (C36_unknown w false b body HW RB X NX) as (t & P & R).
    { intros ->. unfold unprefixed. destruct body as [|z [|p q]]; try reflexivity. destruct (Ascii.eqb_spec z "0") as [->|]; [|reflexivity]. unfold base_mark. cbn [Z.eqb Pos.eqb andb].
      destruct (PX eq_refl q) as [P1 P2]. destruct (Ascii.eqb_spec p "x") as [->|]; [exfalso; apply P1; reflexivity|].
      destruct (Ascii.eqb_spec p "X") as [->|]; [exfalso; apply P2; reflexivity|]. reflexivity. }
    assert (NO : after "-"%char body = None).
    { apply after_none. apply (every_no (fun c => below b c || xz c)); [|exact X]. destruct (below b "-") eqn:Q; [|reflexivity].
      apply (below_16 b) in Q; [discriminate|destruct (radix_range b RB); assumption]. }
    assert (T : t = (match w with Some w => pystr w | None => "" end ++ "'" ++ String l body)%string).
    { unfold print_int in P. cbn [ival ibase iwidth isigned] in P. rewrite NO, HL in P. cbv beta iota zeta in P. injection P as <-. rewrite (width_text_ok w HW). reflexivity. }
    rewrite T in *. exists (mkInt (VS body) w (Some b) false). split; [exact R|].
    assert (G : g_lit (mkInt (VS body) w (Some b) false) = inr (match w with Some w => pystr w | None => "" end ++ "'" ++ String l body)%string).
    { unfold g_lit. cbn [ival ibase iwidth isigned]. unfold letter in HL. destruct RB as [->|[->|[->| ->]]]; cbn [Z.eqb Pos.eqb] in HL; injection HL as <-; reflexivity. }
    assert (NB : numeric b body = None).
    { destruct (numeric b body) eqn:Q; [|reflexivity]. apply numeric_digits in Q as [_ Q]. apply digits_below in Q. rewrite strip_id in Q; [congruence|].
      apply (every_no (fun c => below b c || xz c)); [|exact X]. destruct (below b "_") eqn:U; [|reflexivity]. apply (below_16 b) in U; [discriminate|destruct (radix_range b RB); assumption]. }
    assert (SZ : size_ok (width_text w) w) by (apply Lit_Proofs.width_text_ok; destruct w; [apply HW; reflexivity|exact Logic.I]).
    assert (RN : read_literal (match w with Some w => pystr w | None => "" end ++ "'" ++ String l body)%string = None).
    { rewrite <- (width_text_ok w HW). rewrite read_positive by exact (head_ok _ w _ SZ). unfold unsigned_literal. change ("'" ++ String l body)%string with (String "'" (String l body)). rewrite (split_app (width_text w) (String l body)).
      - assert (BN : forall neg sz, based neg sz (String l body) = None).
        { intros neg sz. unfold based. rewrite (letter_s b l HL). rewrite RL, NB. reflexivity. }
        unfold size_ok in SZ. destruct w as [k|]; [|rewrite SZ; apply BN]. destruct SZ as [S1 S2]. destruct (width_text (Some k)); [apply BN|]. rewrite S1, BN. destruct (0 <? k); reflexivity.
      - unfold size_ok in SZ. destruct w as [k|]; [|rewrite SZ; reflexivity]. apply (numeric_no 10 _ k); [lia|apply SZ|reflexivity|reflexivity]. }
    split.
    + split; [exact HW|]. cbn [ival ibase]. split; [destruct RB as [->|[->|[->| ->]]]; tauto|]. split; [exact NO|]. rewrite G. exact RN.
    + rewrite G. unfold a_lit. rewrite RN. reflexivity.
Qed.

Lemma r_un_ok : forall o, g_un (r_un o) = a_un o.
Proof. destruct o; reflexivity. Qed.
Lemma r_bin_ok : forall o, g_bin (r_bin o) = a_bin o.
Proof. destruct o; reflexivity. Qed.
Lemma r_list : forall l, Forall (fun e => ae_ok e -> exists a, r_expr e = Some a /\ forall A, ge A a = ae A e) l ->
  Forall const_ok (flat_map a_consts l) -> forallb sel_ok l = true ->
  exists r, allsome (map r_expr l) = Some r /\ forall A, map (ge A) r = map (ae A) l.
Proof.
  intros l H K1 K2. apply Forall_flat in K1. apply forallb_forall in K2 || idtac.
  assert (Q : Forall ae_ok l).
  { apply Forall_forall. intros x X. split; [exact (proj1 (Forall_forall _ _) K1 x X)|]. rewrite forallb_forall in K2. apply K2, X. }
  pose proof (Forall_mp _ _ _ H Q) as R. apply allsome_map in R as (r & R & F). exists r. split; [exact R|].
  intros A. apply Forall2_map_eq. revert F. clear. induction 1; constructor; auto.
Qed.
Ltac split_ok K := unfold ae_ok in K; cbn [a_consts sel_ok] in K; rewrite ?Forall_app, ?andb_true_iff in K.
Lemma r_expr_ok : forall e, ae_ok e -> exists a, r_expr e = Some a /\ forall A, ge A a = ae A e.
Proof.
  induction e using aexpr_ind'; intros K; split_ok K.
  - exists (GName n). split; reflexivity.
  - destruct K as [K _]. inversion K as [|? ? K1 K2]; subst. destruct (const_read t K1) as (c & P & _ & R). exists (GInt c). cbn [r_expr]. rewrite P. split; [reflexivity|]. intros A. cbn [ge ae]. rewrite R. reflexivity.
  - exists (GStr s). split; reflexivity.
  - destruct (IHe K) as (a & E & S). exists (GUn (r_un o) a). cbn [r_expr]. rewrite E. split; [reflexivity|]. intros A. cbn [ge ae]. rewrite S, r_un_ok. reflexivity.
  - destruct K as [[K1 K2] [K3 K4]]. destruct (IHe1 (conj K1 K3)) as (a & E1 & S1). destruct (IHe2 (conj K2 K4)) as (b & E2 & S2). exists (GBin (r_bin o) a b).
    cbn [r_expr]. rewrite E1. cbn [bindo]. rewrite E2. split; [reflexivity|]. intros A. cbn [ge ae]. rewrite S1, S2, r_bin_ok. reflexivity.
  - destruct K as [[K1 K2] [[KV K3] K4]]. destruct (IHe1 (conj K1 K3)) as (a & E1 & S1). destruct (IHe2 (conj K2 K4)) as (b & E2 & S2).
    exists (GPtr a b). cbn [r_expr]. rewrite E1. cbn [bindo]. rewrite E2. cbn [bindo].
    assert (SA : selectable a = true).
    { destruct e1; try discriminate KV; cbn [r_expr] in E1; [injection E1 as <-; reflexivity|].
      destruct (r_expr e1_1); [|discriminate]. cbn [bindo] in E1. destruct (r_expr e1_2); [|discriminate]. cbn [bindo] in E1. destruct (selectable g); [|discriminate]. injection E1 as <-. reflexivity. }
    rewrite SA. split; [reflexivity|]. intros A. cbn [ge ae]. rewrite S1, S2. reflexivity.
  - destruct K as [(K1 & K2 & K3) [[[KV K4] K5] K6]]. destruct (IHe1 (conj K1 K4)) as (a & E1 & S1). destruct (IHe2 (conj K2 K5)) as (b & E2 & S2). destruct (IHe3 (conj K3 K6)) as (c & E3 & S3).
    exists (GSlice a b c). cbn [r_expr]. rewrite E1. cbn [bindo]. rewrite E2. cbn [bindo]. rewrite E3. cbn [bindo].
    assert (SA : selectable a = true).
    { destruct e1; try discriminate KV; cbn [r_expr] in E1; [injection E1 as <-; reflexivity|].
      destruct (r_expr e1_1); [|discriminate]. cbn [bindo] in E1. destruct (r_expr e1_2); [|discriminate]. cbn [bindo] in E1. destruct (selectable g); [|discriminate]. injection E1 as <-. reflexivity. }
    rewrite SA. split; [reflexivity|]. intros A. cbn [ge ae]. rewrite S1, S2, S3. reflexivity.
  - destruct K as [K1 K2]. destruct (r_list l H K1 K2) as (r & R & S). exists (GCat r). cbn [r_expr]. rewrite R. split; [reflexivity|]. intros A. cbn [ge ae]. rewrite S. reflexivity.
  - destruct K as [[K1 K2] [K3 K4]]. destruct (IHe1 (conj K1 K3)) as (a & E1 & S1). destruct (IHe2 (conj K2 K4)) as (b & E2 & S2). exists (GRep a b).
    cbn [r_expr]. rewrite E1. cbn [bindo]. rewrite E2. split; [reflexivity|]. intros A. cbn [ge ae]. rewrite S2. f_equal.
    destruct e1; cbn [r_expr] in E1;
      repeat match type of E1 with
             | option_map _ ?x = _ => destruct x; [|discriminate E1]; cbn [option_map] in E1
             | bindo ?x _ = _ => destruct x; [|discriminate E1]; cbn [bindo] in E1
             | (if ?x then _ else _) = _ => destruct x; [|discriminate E1]
             end; injection E1 as <-; try (rewrite (S1 A); reflexivity).
  - destruct K as [(K1 & K2 & K3) [[K4 K5] K6]]. destruct (IHe1 (conj K1 K4)) as (a & E1 & S1). destruct (IHe2 (conj K2 K5)) as (b & E2 & S2). destruct (IHe3 (conj K3 K6)) as (c & E3 & S3).
    exists (GCond a b c). cbn [r_expr]. rewrite E1. cbn [bindo]. rewrite E2. cbn [bindo]. rewrite E3. cbn [bindo].
    split; [reflexivity|]. intros A. cbn [ge ae]. rewrite S1, S2, S3. reflexivity.
  - destruct K as [K1 K2]. destruct (r_list l H K1 K2) as (r & R & S). exists (GSys c r). cbn [r_expr]. rewrite R. split; [reflexivity|]. intros A. cbn [ge ae]. rewrite S. reflexivity.
Qed.

Lemma r_expr_eok : forall e a, ae_ok e -> r_expr e = Some a -> e_ok a.
Proof.
  assert (L : forall l g, Forall (fun e => forall a, ae_ok e -> r_expr e = Some a -> e_ok a) l -> Forall const_ok (flat_map a_consts l) -> forallb sel_ok l = true ->
    allsome (map r_expr l) = Some g -> Forall int_ok (flat_map g_ints g)).
  { intros l g H K1 K2 E. apply allsome_inv in E. apply Forall_flat in K1. rewrite forallb_forall in K2. apply Forall_flat.
    induction E as [|x y l g E _ IH]; [constructor|]. inversion H; subst. inversion K1; subst. constructor; [|apply IH; try assumption; intros z Z; apply K2; right; exact Z].
    apply H2; [split; [assumption|apply K2; left; reflexivity]|exact E]. }
  induction e using aexpr_ind'; intros g K E; split_ok K; cbn [r_expr] in E;
    repeat match type of E with
           | option_map _ ?x = _ => destruct x eqn:?; [|discriminate E]; cbn [option_map] in E
           | bindo ?x _ = _ => destruct x eqn:?; [|discriminate E]; cbn [bindo] in E
           | (if ?x then _ else _) = _ => destruct x eqn:?; [|discriminate E]
           end; injection E as <-; unfold e_ok in *; cbn [g_ints]; rewrite ?Forall_app.
  - constructor.
  - destruct K as [K _]. inversion K as [|? ? K1 K2]; subst. destruct (const_read t K1) as (c & P & R & _). rewrite P in Heqo. injection Heqo as <-. constructor; [exact R|constructor].
  - constructor.
  - apply (IHe _ K eq_refl).
  - split; [apply (IHe1 _ (conj (proj1 (proj1 K)) (proj1 (proj2 K))) eq_refl)|apply (IHe2 _ (conj (proj2 (proj1 K)) (proj2 (proj2 K))) eq_refl)].
  - destruct K as [[K1 K2] [[KV K3] K4]]. split; [apply (IHe1 _ (conj K1 K3) eq_refl)|apply (IHe2 _ (conj K2 K4) eq_refl)].
  - destruct K as [(K1 & K2 & K3) [[[KV K4] K5] K6]]. split; [apply (IHe1 _ (conj K1 K4) eq_refl)|]. split; [apply (IHe2 _ (conj K2 K5) eq_refl)|apply (IHe3 _ (conj K3 K6) eq_refl)].
  - exact (L _ _ H (proj1 K) (proj2 K) Heqo).
  - destruct K as [[K1 K2] [K3 K4]]. split; [apply (IHe1 _ (conj K1 K3) eq_refl)|apply (IHe2 _ (conj K2 K4) eq_refl)].
  - destruct K as [(K1 & K2 & K3) [[K4 K5] K6]]. split; [apply (IHe1 _ (conj K1 K4) eq_refl)|]. split; [apply (IHe2 _ (conj K2 K5) eq_refl)|apply (IHe3 _ (conj K3 K6) eq_refl)].
  - exact (L _ _ H (proj1 K) (proj2 K) Heqo).
Qed.
Lemma r_expr_both : forall e, ae_ok e -> exists a, r_expr e = Some a /\ e_ok a /\ forall A, ge A a = ae A e.
Proof. intros e K. destruct (r_expr_ok e K) as (a & E & H). exists a. split; [exact E|]. split; [exact (r_expr_eok e a K E)|exact H]. Qed.

(** * Processes *)
Section Proc.
  Variable A : alg.
  Variable M : machine A.
  Notation proc := (proc A M). Notation same := (@same A M). Notation seqp := (@seqp A M). Notation pick := (@pick A M). Notation loop := (@loop A M).
  Lemma same_refl : forall P, same P P.
  Proof. intros P c l r. reflexivity. Qed.
  Lemma same_sym : forall P Q, same P Q -> same Q P.
  Proof. intros P Q H c l r. symmetry. apply H. Qed.
  Lemma same_trans : forall P Q R, same P Q -> same Q R -> same P R.
  Proof. intros P Q R H K c l r. rewrite (H c l r). apply K. Qed.
  Lemma same_seq : forall P P' Q Q', same P P' -> same Q Q' -> same (seqp P Q) (seqp P' Q').
  Proof.
    intros P P' Q Q' H K c l r. split; intros X; inversion X; subst;
      first [eapply seq_fin; [apply H; eassumption|apply K; eassumption] | apply seq_cut; apply H; assumption].
  Qed.
  Lemma same_pick : forall t u P P' Q Q', (forall c, t c = u c) -> same P P' -> same Q Q' -> same (pick t P Q) (pick u P' Q').
  Proof. intros t u P P' Q Q' E H K c l r. unfold Rw_Spec.pick. rewrite E. destruct (u c); [apply H|apply K]. Qed.
  Lemma same_loop : forall t P P', same P P' -> same (loop t P) (loop t P').
  Proof.
    assert (X : forall t P P', same P P' -> forall c l r, loop t P c l r -> loop t P' c l r).
    { intros t P P' H c l r L. induction L.
      - apply loop_cut.
      - apply loop_end. assumption.
      - eapply loop_step; [assumption|apply H; eassumption|assumption].
      - apply loop_in; [assumption|apply H; assumption]. }
    intros t P P' H c l r. split; apply X; [exact H|apply same_sym, H].
  Qed.
  Lemma skip_l : forall P, same (seqp (skip A M) P) P.
  Proof.
    intros P c l r. split.
    - intros X. inversion X as [? ? c1 ? ? [E F] Q|? ? ? [_ E]]; subst; [injection F as ->; exact Q|discriminate].
    - intros X. change l with ([] ++ l). eapply seq_fin; [split; reflexivity|exact X].
  Qed.
  Lemma skip_r : forall P, same (seqp P (skip A M)) P.
  Proof.
    intros P c l r. split.
    - intros X. inversion X as [? ? c1 ? ? Q [E F]|]; subst; [rewrite app_nil_r; exact Q|assumption].
    - intros X. destruct r as [c1|c1]; [|apply seq_cut; exact X]. rewrite <- (app_nil_r l). eapply seq_fin; [exact X|]. split; reflexivity.
  Qed.
  Lemma seq_assoc : forall P Q R, same (seqp (seqp P Q) R) (seqp P (seqp Q R)).
  Proof.
    intros P Q R c l r. split; intros X.
    - inversion X as [? ? c1 ? ? Y Z|? ? ? Y]; subst.
      + inversion Y; subst. rewrite <- app_assoc. eapply seq_fin; [eassumption|]. eapply seq_fin; eassumption.
      + inversion Y; subst; [eapply seq_fin; [eassumption|apply seq_cut; assumption]|apply seq_cut; assumption].
    - inversion X as [? ? c1 ? ? Y Z|? ? ? Y]; subst.
      + inversion Z; subst; [rewrite app_assoc; eapply seq_fin; [eapply seq_fin; eassumption|assumption]|].
        apply seq_cut. eapply seq_fin; eassumption.
      + apply seq_cut, seq_cut, Y.
  Qed.
  Definition seqs (l : list proc) : proc := fold_right seqp (skip A M) l.
  Lemma same_seqs : forall l l', Forall2 same l l' -> same (seqs l) (seqs l').
  Proof. intros l l' H. induction H; [apply same_refl|]. cbn [seqs fold_right]. apply same_seq; assumption. Qed.
  Lemma seqs_app : forall l l', same (seqs (l ++ l')) (seqp (seqs l) (seqs l')).
  Proof.
    induction l as [|P l IH]; intros l'; [apply same_sym, skip_l|]. cbn [app]. change (same (seqp P (seqs (l ++ l'))) (seqp (seqp P (seqs l)) (seqs l'))).
    eapply same_trans; [apply same_seq; [apply same_refl|apply IH]|]. apply same_sym, seq_assoc.
  Qed.
  Definition both (x y : option (list (D A)) * proc) : Prop := fst x = fst y /\ same (snd x) (snd y).
  Lemma same_cases : forall k d ws ws', Forall2 both ws ws' -> same (cases A M k d ws) (cases A M k d ws').
  Proof.
    intros k d ws ws' H c l r. unfold cases.
    assert (A1 : match arm A M k d ws c, arm A M k d ws' c with Some P, Some Q => same P Q | None, None => True | _, _ => False end).
    { induction H as [|[o P] [o' Q] ws ws' [E S] _ IH]; [exact Logic.I|]. cbn [fst snd] in *. subst o'. destruct o as [es|]; cbn [arm]; [|exact IH].
      destruct (existsb _ es); [exact S|exact IH]. }
    destruct (arm A M k d ws c), (arm A M k d ws' c); try contradiction; [apply A1|].
    clear A1. induction H as [|[o P] [o' Q] ws ws' [E S] _ IH]; [reflexivity|]. cbn [fst snd] in *. subst o'. destruct o as [es|]; cbn [default_arm]; [exact IH|apply S].
  Qed.
  Lemma gss_seqs : forall m l, gss A M m l = seqs (map (gs A M m) l).
  Proof. intros m l. induction l as [|s l IH]; [reflexivity|]. cbn [gss fold_right map seqs] in *. f_equal. exact IH. Qed.
  Lemma as_block : forall l sc, as_ A M (ABlock l sc) = seqs (map (as_ A M) l).
  Proof. intros l sc. cbn [as_]. induction l as [|s l IH]; [reflexivity|]. cbn [fold_right map seqs] in *. f_equal. exact IH. Qed.
  Lemma splice_ok : forall l, same (seqs (map (as_ A M) (flat_map splice l))) (seqs (map (as_ A M) l)).
  Proof.
    induction l as [|s l IH]; [apply same_refl|]. cbn [flat_map]. rewrite map_app. eapply same_trans; [apply seqs_app|]. cbn [map]. cbn [seqs fold_right].
    apply same_seq; [|exact IH]. destruct s as [k [sc|]| | | | | | | | | |]; try apply skip_r. rewrite as_block. apply same_refl.
  Qed.
  Lemma optimized : forall l, same (as_ A M (optimize_block l)) (seqs (map (as_ A M) l)).
  Proof. intros l. unfold optimize_block. rewrite as_block. apply splice_ok. Qed.
  Lemma tuple_ok : forall m s, same (gss A M m (to_tuple s)) (gs A M m s).
  Proof. intros m s. rewrite gss_seqs. destruct s; try apply skip_r. rewrite <- gss_seqs. apply same_refl. Qed.
End Proc.

(** * Writing statements *)
Lemma all_fold : forall {X} (P : X -> Prop) l, fold_right (fun x Q => P x /\ Q) True l <-> Forall P l.
Proof.
  intros X P l. induction l as [|x l IH]; cbn [fold_right]; [split; intros; [constructor|exact Logic.I]|]. rewrite IH. split.
  - intros [H1 H2]. constructor; assumption.
  - intros H. inversion H; subst. split; assumption.
Qed.
Definition means (m : vmode) (s : gstmt) (a : astmt) : Prop := forall A M, same A M (as_ A M a) (gs A M m s).
Lemma body_ok : forall resets m l, Forall (fun s => forall m, sok m s -> exists a, w_stmt resets m s = Some a /\ means m s a) l ->
  Forall (sok m) l -> exists r, allsome (map (w_stmt resets m) l) = Some r /\ forall A M, same A M (as_ A M (optimize_block r)) (gss A M m l).
Proof.
  intros resets m l H K. assert (Q : Forall (fun s => exists a, w_stmt resets m s = Some a /\ means m s a) l).
  { revert K. induction H; intros K; constructor; inversion K; subst; auto. }
  apply allsome_map in Q as (r & R & F). exists r. split; [exact R|]. intros A M. eapply same_trans; [apply optimized|]. rewrite gss_seqs. apply same_seqs.
  clear - F. induction F; cbn [map]; constructor; auto.
Qed.
Lemma else_ok : forall resets x b A M, same A M (match w_else resets x (Some b) with Some s => as_ A M s | None => skip A M end) (as_ A M b).
Proof.
  intros resets x b A M. destruct b as [[|i [|]] sc| | | | | | | | | |]; try apply same_refl; destruct i; try apply same_refl.
  cbn [w_else]. destruct (resets x); [apply same_refl|]. rewrite as_block. cbn [map seqs fold_right]. apply same_sym, skip_r.
Qed.
Lemma delay_da : forall m d, delay_ok m d -> forall A, da A (w_delay m d) = Some (option_map (fun z => d_lit A (num z)) d).
Proof.
  intros m [z|] H A; [|reflexivity]. destruct H as [-> N]. cbn [w_delay]. destruct (Z.eqb_spec z 0); [contradiction|]. cbn [da ae option_map]. rewrite plain_lit. reflexivity.
Qed.
Lemma same_until : forall A M d P Q, same A M P Q -> same A M (seqp A M (until A M d) P) (seqp A M (until A M d) Q).
Proof. intros. apply same_seq; [apply same_refl|assumption]. Qed.
Lemma w_stmt_ok : forall resets s m, sok m s -> exists a, w_stmt resets m s = Some a /\ means m s a.
Proof.
  intros resets. induction s using gstmt_ind'; intros m K; cbn [sok] in K; rewrite ?all_fold in K.
  - destruct K as (KL & KR & KD & KE). destruct (w_expr_ok l KL) as (x & EX & SX). destruct (w_expr_ok r KR) as (y & EY & SY).
    cbn [w_stmt]. rewrite EX. cbn [bindo]. rewrite EY. cbn [bindo]. eexists. split; [reflexivity|]. intros A M. destruct m.
    + destruct b; cbn [as_ gs]; rewrite !delay_da by assumption; rewrite SX, SY; apply same_refl.
    + cbn [as_ gs]; rewrite !delay_da by assumption; rewrite SX, SY; apply same_refl.
  - destruct K as (KC & KT & KF). destruct (w_expr_ok c KC) as (x & EX & SX). destruct (body_ok resets m t H KT) as (y & EY & SY).
    cbn [w_stmt]. rewrite EX. cbn [bindo]. rewrite EY. cbn [bindo]. destruct f as [f|].
    + rewrite all_fold in KF. destruct (body_ok resets m f (H0 f eq_refl) KF) as (z & EZ & SZ). rewrite EZ. cbn [option_map bindo]. eexists. split; [reflexivity|].
      intros A M. cbn [as_ gs]. apply same_pick; [rewrite SX; reflexivity|apply SY|]. eapply same_trans; [apply else_ok|apply SZ].
    + eexists. split; [reflexivity|]. intros A M. cbn [as_ gs w_else]. apply same_pick; [rewrite SX; reflexivity|apply SY|apply same_refl].
  - destruct K as (KP & KC & KQ & KB). destruct (IHs1 _ KP) as (p & EP & SP). destruct (IHs2 _ KQ) as (q & EQ & SQ). destruct (w_expr_ok c KC) as (x & EX & SX).
    destruct (body_ok resets m b H KB) as (y & EY & SY). cbn [w_stmt]. rewrite EP. cbn [bindo]. rewrite EX. cbn [bindo]. rewrite EQ. cbn [bindo]. rewrite EY.
    eexists. split; [reflexivity|]. intros A M. cbn [as_ gs]. rewrite SX. apply same_seq; [apply SP|]. apply same_loop. apply same_seq; [apply SY|apply SQ].
  - destruct K as (KC & KB). destruct (w_expr_ok c KC) as (x & EX & SX). destruct (body_ok resets m b H KB) as (y & EY & SY).
    cbn [w_stmt]. rewrite EX. cbn [bindo]. rewrite EY. eexists. split; [reflexivity|]. intros A M. cbn [as_ gs]. rewrite SX. apply same_loop, SY.
  - destruct K as (KC & KW). match type of KW with fold_right _ _ _ => apply all_fold in KW | _ => idtac end.
    destruct (w_expr_ok c KC) as (x & EX & SX). cbn [w_stmt]. rewrite EX. cbn [bindo].
    match goal with |- context [allsome (map ?f ws)] => set (F := f) end.
    assert (Q : Forall (fun w => exists b, F w = Some b /\ forall A M, both A M (option_map (map (ae A)) (fst b), as_ A M (snd b)) (option_map (map (ge A)) (fst w), gss A M m (snd w))) ws).
    { apply Forall_forall. intros [o l] IN. pose proof (proj1 (Forall_forall _ _) KW _ IN) as KW'. pose proof (proj1 (Forall_forall _ _) H _ IN) as H'. clear KW H. rename KW' into KW. rename H' into H. cbn [fst snd] in *. destruct KW as [KO KL]. rewrite all_fold in KL.
      destruct (body_ok resets m l H KL) as (y & EY & SY). unfold F. cbn [fst snd].
      assert (O : exists r, match o with None | Some [] => Some None | Some es => option_map Some (allsome (map w_expr es)) end = Some r /\
        forall A, option_map (map (ae A)) r = option_map (map (ge A)) o).
      { destruct o as [[|e es]|]; [destruct KO; contradiction| |exists None; split; reflexivity]. destruct KO as [_ KO].
        destruct (w_list (e :: es)) as (r & R & S); [apply Forall_forall; intros e' _; apply w_expr_ok|apply Forall_flat; exact KO|].
        exists (Some r). rewrite R. split; [reflexivity|]. intros A. cbn [option_map]. rewrite S. reflexivity. }
      destruct O as (r & R & S). rewrite R. cbn [bindo]. rewrite EY. cbn [bindo]. eexists. split; [reflexivity|]. intros A M. split; [apply S|apply SY]. }
    apply allsome_map in Q as (y & EY & FY). rewrite EY. cbn [bindo]. eexists. split; [reflexivity|]. intros A M. cbn [as_ gs]. rewrite SX. apply same_cases.
    clear - FY. induction FY; cbn [map]; constructor; auto; exact (H A M).
  - destruct (body_ok resets m l H K) as (y & EY & SY). cbn [w_stmt]. rewrite EY. eexists. split; [reflexivity|]. intros A M. apply SY.
  - destruct (w_expr_ok e K) as (x & EX & SX). cbn [w_stmt]. rewrite EX. eexists. split; [reflexivity|]. intros A M. cbn [as_ gs]. rewrite SX. apply same_refl.
  - destruct (w_expr_ok d K) as (x & EX & SX). cbn [w_stmt]. rewrite EX. eexists. split; [reflexivity|]. intros A M. cbn [as_ gs]. rewrite SX. apply same_refl.
  - destruct K as (-> & KC & KB). destruct (w_expr_ok c KC) as (x & EX & SX). cbn [w_stmt]. rewrite EX. cbn [bindo]. destruct b as [b|].
    + rewrite all_fold in KB. destruct (body_ok resets MBlocking b (H b eq_refl) KB) as (y & EY & SY). rewrite EY. eexists. split; [reflexivity|]. intros A M. cbn [as_ gs]. rewrite SX.
      apply same_until, SY.
    + eexists. split; [reflexivity|]. intros A M. cbn [as_ gs]. rewrite SX. apply same_refl.
  - destruct K as (-> & KB). destruct (body_ok resets MBlocking b H KB) as (y & EY & SY). cbn [w_stmt]. rewrite EY. eexists. split; [reflexivity|]. intros A M. cbn [as_ gs]. apply same_loop, SY.
Qed.

(** * Reading statements *)
Lemma r_delay_ok : forall back m d, adelay_ok back m d -> exists o, r_delay d = Some o /\ (back = true -> delay_ok m o) /\
  forall A, da A d = Some (option_map (fun z => d_lit A (num z)) o).
Proof.
  intros back m [[[| t | | | | | | | | |]|]|] H; try contradiction; [|exists None; split; [reflexivity|split; [intros; exact Logic.I|reflexivity]]].
  destruct H as (n & N & B). destruct (const_read t (ck_dec t n N)) as (c & R & _ & G). cbn [r_delay]. rewrite R.
  assert (C : c = mkInt (VI n) None None false).
  { pose proof (numeric_digits _ _ _ N) as [NE DG]. pose proof (digits_below _ _ _ _ DG) as E.
    assert (NO : forall c, below 10 c = false -> every (no c) (strip t) = true) by (intros c' C; apply (every_no (below 10)); assumption).
    unfold int_text, str_to_value, str_to_width, str_to_signed, search, search_width in R.
    rewrite (after_none _ _ (NO "h"%char eq_refl)), (after_none _ _ (NO "d"%char eq_refl)), (after_none _ _ (NO "o"%char eq_refl)), (after_none _ _ (NO "b"%char eq_refl)), (after_none _ _ (NO "s"%char eq_refl)) in R.
    rewrite !(fun c => before_none c _ (NO "'"%char eq_refl)) in R. rewrite (pyint_digits 10 _ n) in R; [injection R as <-; reflexivity|unfold radix_ok; tauto|exact NE|exact DG]. }
  subst c. cbn [ival]. exists (Some n). split; [reflexivity|]. split; [exact B|]. intros A. cbn [da ae option_map]. rewrite <- G. reflexivity.
Qed.
Lemma tuple_sok : forall m s, sok m s -> Forall (sok m) (to_tuple s).
Proof. intros m s H. destruct s; try (constructor; [exact H|constructor]). apply all_fold in H. exact H. Qed.
Lemma r_defaults : forall (ws : list (option (list aexpr) * astmt)) (y : list (option (list gexpr) * list gstmt)),
  Forall2 (fun w v => fst w = None <-> fst v = None) ws y -> (forall pre b post, ws = pre ++ (None, b) :: post -> post = []) -> default_last y = true.
Proof.
  intros ws y F H. induction F as [|[o b] [o' l] ws y E F IH]; [reflexivity|]. cbn [fst] in E. destruct o' as [es|]; cbn [default_last].
  - apply IH. intros pre c post Q. apply (H ((o, b) :: pre) c). rewrite Q. reflexivity.
  - assert (o = None) by (apply E; reflexivity). subst o. rewrite (H [] b ws eq_refl) in F. inversion F. reflexivity.
Qed.
Lemma r_stmt_ok : forall back gen a m, aok back gen m a -> exists s, r_stmt gen a = Some s /\ (back = true -> sok m s) /\ forall A M, same A M (gs A M m s) (as_ A M a).
Proof.
  intros back gen. induction a using astmt_ind'; intros m K; cbn [aok] in K.
  - apply all_fold in K. assert (Q : Forall (fun a => exists s, r_stmt gen a = Some s /\ ((back = true -> sok m s) /\ forall A M, same A M (gs A M m s) (as_ A M a))) l).
    { revert K. induction H; intros K; constructor; inversion K; subst; auto. }
    apply allsome_map in Q as (r & R & F). cbn [r_stmt]. rewrite R. eexists. split; [reflexivity|]. split.
    + intros B. cbn [sok]. apply all_fold. clear - F B. induction F; constructor; [apply H, B|assumption].
    + intros A M. cbn [gs]. fold (gss A M m r). rewrite gss_seqs, as_block. apply same_seqs. clear - F. induction F; cbn [map]; constructor; [apply H|assumption].
  - destruct K as (KL & KR & KD & KE). destruct (r_expr_both l KL) as (x & EX & OX & SX). destruct (r_expr_both r KR) as (y & EY & OY & SY).
    destruct (r_delay_ok _ _ _ KD) as (d & ED & OD & SD). destruct (r_delay_ok _ _ _ KE) as (e & EE & OE & SE).
    cbn [r_stmt]. rewrite EX. cbn [bindo]. rewrite EY. cbn [bindo]. rewrite ED. cbn [bindo]. rewrite EE. cbn [bindo]. eexists. split; [reflexivity|].
    split; [intros B; cbn [sok]; auto|]. intros A M. cbn [as_ gs]. rewrite SD, SE, SX, SY. destruct m; apply same_refl.
  - destruct K as (-> & KL & KR & KD & KE). destruct (r_expr_both l KL) as (x & EX & OX & SX). destruct (r_expr_both r KR) as (y & EY & OY & SY).
    destruct (r_delay_ok _ _ _ KD) as (d & ED & OD & SD). destruct (r_delay_ok _ _ _ KE) as (e & EE & OE & SE).
    cbn [r_stmt]. rewrite EX. cbn [bindo]. rewrite EY. cbn [bindo]. rewrite ED. cbn [bindo]. rewrite EE. cbn [bindo]. eexists. split; [reflexivity|].
    split; [intros B; cbn [sok]; auto|]. intros A M. cbn [as_ gs]. rewrite SD, SE, SX, SY. apply same_refl.
  - destruct K as (-> & KC & KT & KF). destruct (r_expr_both c KC) as (x & EX & OX & SX). destruct (IHa m KT) as (y & EY & OY & SY).
    cbn [r_stmt]. rewrite EX. cbn [bindo]. rewrite EY. cbn [bindo]. destruct f as [f|].
    + destruct (H f eq_refl m KF) as (z & EZ & OZ & SZ). rewrite EZ. cbn [option_map bindo]. eexists. split; [reflexivity|]. split.
      * intros B. cbn [sok]. rewrite !all_fold. split; [exact OX|]. split; apply tuple_sok; auto.
      * intros A M. cbn [as_ gs]. apply same_pick; [rewrite SX; reflexivity| |]; (eapply same_trans; [apply tuple_ok|auto]).
    + eexists. split; [reflexivity|]. split.
      * intros B. cbn [sok]. rewrite !all_fold. split; [exact OX|]. split; [apply tuple_sok; auto|exact Logic.I].
      * intros A M. cbn [as_ gs]. apply same_pick; [rewrite SX; reflexivity| |apply same_refl]. eapply same_trans; [apply tuple_ok|auto].
  - destruct K as (-> & KP & KC & KQ & KB). destruct (IHa1 _ KP) as (p & EP & OP & SP). destruct (IHa2 _ KQ) as (q & EQ & OQ & SQ).
    destruct (r_expr_both c KC) as (x & EX & OX & SX). destruct (IHa3 _ KB) as (y & EY & OY & SY).
    cbn [r_stmt]. rewrite EP. cbn [bindo]. rewrite EX. cbn [bindo]. rewrite EQ. cbn [bindo]. rewrite EY. cbn [bindo]. eexists. split; [reflexivity|]. split.
    + intros B. cbn [sok]. rewrite !all_fold. split; [auto|]. split; [exact OX|]. split; [auto|]. apply tuple_sok; auto.
    + intros A M. cbn [as_ gs]. rewrite SX. apply same_seq; [apply SP|]. apply same_loop. apply same_seq; [|apply SQ]. eapply same_trans; [apply tuple_ok|auto].
  - destruct K as (KC & KB). destruct (r_expr_both c KC) as (x & EX & OX & SX). destruct (IHa _ KB) as (y & EY & OY & SY).
    cbn [r_stmt]. rewrite EX. cbn [bindo]. rewrite EY. cbn [bindo]. eexists. split; [reflexivity|]. split.
    + intros B. cbn [sok]. rewrite !all_fold. split; [exact OX|]. apply tuple_sok; auto.
    + intros A M. cbn [as_ gs]. rewrite SX. apply same_loop. eapply same_trans; [apply tuple_ok|auto].
  - destruct K as (KC & KD & KW). apply all_fold in KW. destruct (r_expr_both c KC) as (x & EX & OX & SX). cbn [r_stmt]. rewrite EX. cbn [bindo].
    match goal with |- context [allsome (map ?f ws)] => set (F := f) end.
    assert (Q : Forall (fun w => exists v, F w = Some v /\ ((fst w = None <-> fst v = None) /\
      (back = true -> match fst v with Some es => es <> [] /\ Forall e_ok es | None => True end /\ Forall (sok m) (snd v)) /\
      forall A M, both A M (option_map (map (ge A)) (fst v), gss A M m (snd v)) (option_map (map (ae A)) (fst w), as_ A M (snd w)))) ws).
    { apply Forall_forall. intros [o b] IN. pose proof (proj1 (Forall_forall _ _) KW _ IN) as [KO KB]. pose proof (proj1 (Forall_forall _ _) H _ IN) as IH. cbn [fst snd] in *.
      destruct (IH m KB) as (y & EY & OY & SY). unfold F. cbn [fst snd].
      assert (O : exists r, match o with None | Some [] => Some None | Some es => option_map Some (allsome (map r_expr es)) end = Some r /\ (o = None <-> r = None) /\
        (match r with Some es => es <> [] /\ Forall e_ok es | None => True end) /\ forall A, option_map (map (ge A)) r = option_map (map (ae A)) o).
      { destruct o as [[|e es]|]; [destruct KO; contradiction| |exists None; repeat split; reflexivity]. destruct KO as [_ KO].
        assert (Q : Forall (fun e => exists a, r_expr e = Some a /\ (e_ok a /\ forall A, ge A a = ae A e)) (e :: es)) by (revert KO; apply Forall_impl; intros; apply r_expr_both; assumption).
        apply allsome_map in Q as (r & R & Q). exists (Some r). rewrite R. split; [reflexivity|]. split; [split; discriminate|]. split.
        - split; [inversion Q; discriminate|]. clear - Q. induction Q; constructor; [apply H|assumption].
        - intros A. cbn [option_map]. f_equal. apply Forall2_map_eq. clear - Q. induction Q; constructor; [apply H|assumption]. }
      destruct O as (r & R & S1 & S2 & S3). rewrite R. cbn [bindo]. rewrite EY. cbn [bindo]. eexists. split; [reflexivity|]. cbn [fst snd]. split; [exact S1|]. split.
      - intros B. split; [exact S2|apply tuple_sok; auto].
      - intros A M. split; [apply S3|]. cbn [snd]. eapply same_trans; [apply tuple_ok|auto]. }
    apply allsome_map in Q as (y & EY & FY). rewrite EY. cbn [bindo]. rewrite (r_defaults ws y).
    + eexists. split; [reflexivity|]. split.
      * intros B. cbn [sok]. split; [exact OX|]. apply all_fold. clear - FY B. induction FY as [|w v ws y (_ & OK & _) _ IH]; constructor; [|exact IH].
        destruct (OK B) as [O1 O2]. split; [exact O1|apply all_fold; exact O2].
      * intros A M. cbn [as_ gs]. rewrite SX. apply same_cases. clear - FY. induction FY as [|w v ws y (_ & _ & OK) _ IH]; cbn [map]; constructor; [exact (OK A M)|exact IH].
    + clear - FY. induction FY as [|w v ws y (OK & _) _ IH]; constructor; assumption.
    + exact KD.
  - destruct (r_expr_both e K) as (x & EX & OX & SX). cbn [r_stmt]. rewrite EX. eexists. split; [reflexivity|]. split; [intros; exact OX|]. intros A M. cbn [as_ gs]. rewrite SX. apply same_refl.
  - destruct (r_expr_both d K) as (x & EX & OX & SX). cbn [r_stmt]. rewrite EX. eexists. split; [reflexivity|]. split; [intros; exact OX|]. intros A M. cbn [as_ gs]. rewrite SX. apply same_refl.
  - destruct K as (KM & KC & KB). destruct (r_expr_both c KC) as (x & EX & OX & SX). cbn [r_stmt]. rewrite EX. cbn [bindo]. destruct b as [b|].
    + destruct (H b eq_refl m KB) as (y & EY & OY & SY). rewrite EY. cbn [option_map bindo]. eexists. split; [reflexivity|]. split.
      * intros B. cbn [sok]. split; [auto|]. split; [exact OX|]. pose proof (tuple_sok _ _ (OY B)) as T. destruct (to_tuple y); [exact Logic.I|]. apply all_fold. exact T.
      * intros A M. cbn [as_ gs]. rewrite SX. apply same_until. eapply same_trans; [|apply SY]. eapply same_trans; [|apply tuple_ok]. destruct (to_tuple y); apply same_refl.
    + eexists. split; [reflexivity|]. split.
      * intros B. cbn [sok]. split; [auto|]. split; [exact OX|exact Logic.I].
      * intros A M. cbn [as_ gs]. rewrite SX. apply same_refl.
  - destruct K as (KM & KB). destruct (IHa _ KB) as (y & EY & OY & SY). cbn [r_stmt]. rewrite EY. eexists. split; [reflexivity|]. split.
    + intros B. cbn [sok]. rewrite all_fold. split; [auto|]. apply tuple_sok; auto.
    + intros A M. cbn [as_ gs]. apply same_loop. eapply same_trans; [apply tuple_ok|auto].
Qed.
(** read and written again *)
Lemma back_stmt_ok : forall resets gen m a, aok true gen m a -> exists s a', r_stmt gen a = Some s /\ w_stmt resets m s = Some a' /\ forall A M, same A M (as_ A M a') (as_ A M a).
Proof.
  intros resets gen m a K. destruct (r_stmt_ok true gen a m K) as (s & R & O & S1). destruct (w_stmt_ok resets s m (O eq_refl)) as (a' & W & S2).
  exists s, a'. split; [exact R|]. split; [exact W|]. intros A M. eapply same_trans; [apply S2|apply S1].
Qed.

(** * Designs *)
Section IInd.
  Variable P : gitem -> Prop.
  Hypothesis Hleaf : forall i, match i with GGenFor _ _ _ _ _ | GGenIf _ _ _ _ _ => False | _ => True end -> P i.
  Hypothesis Hfor : forall p c q sc is, Forall P is -> P (GGenFor p c q sc is).
  Hypothesis Hif : forall c ts tis fs fis, Forall P tis -> Forall P fis -> P (GGenIf c ts tis fs fis).
  Fixpoint gitem_ind' (i : gitem) : P i :=
    let all := fix all (l : list gitem) : Forall P l :=
      match l with [] => Forall_nil P | a :: r => Forall_cons a (gitem_ind' a) (all r) end in
    match i with
    | GGenFor p c q sc is => Hfor p c q sc is (all is)
    | GGenIf c ts tis fs fis => Hif c ts tis fs fis (all tis) (all fis)
    | GParam n v w s => Hleaf (GParam n v w s) Logic.I | GLocal n v w s => Hleaf (GLocal n v w s) Logic.I
    | GVar k n w s => Hleaf (GVar k n w s) Logic.I | GAssign l r ld rd => Hleaf (GAssign l r ld rd) Logic.I
    | GAlways ss b => Hleaf (GAlways ss b) Logic.I | GInitial b => Hleaf (GInitial b) Logic.I
    | GInst m n ps qs => Hleaf (GInst m n ps qs) Logic.I
    end.
End IInd.
Definition else_all (P : aitem -> Prop) (f : option agblock) : Prop :=
  match f with None => True | Some (ABody _ fis) => Forall P fis | Some (AElse i) => P i end.
Section AIInd.
  Variable P : aitem -> Prop.
  Hypothesis Hleaf : forall i, match i with AGen _ | AGenFor _ _ _ _ _ | AGenIf _ _ _ _ => False | _ => True end -> P i.
  Hypothesis Hgen : forall is, Forall P is -> P (AGen is).
  Hypothesis Hfor : forall p c q sc is, Forall P is -> P (AGenFor p c q sc is).
  Hypothesis Hif : forall c ts tis f, Forall P tis -> else_all P f -> P (AGenIf c ts tis f).
  Fixpoint aitem_ind' (i : aitem) : P i :=
    let all := fix all (l : list aitem) : Forall P l :=
      match l with [] => Forall_nil P | a :: r => Forall_cons a (aitem_ind' a) (all r) end in
    match i with
    | AGen is => Hgen is (all is)
    | AGenFor p c q sc is => Hfor p c q sc is (all is)
    | AGenIf c ts tis f => Hif c ts tis f (all tis)
        (match f as f' return else_all P f' with
         | None => Logic.I
         | Some (ABody _ fis) => all fis
         | Some (AElse i) => aitem_ind' i
         end)
    | AParam n v w s => Hleaf (AParam n v w s) Logic.I | ALocal n v w s => Hleaf (ALocal n v w s) Logic.I
    | AVar k n w s => Hleaf (AVar k n w s) Logic.I | AAssign l r ld rd => Hleaf (AAssign l r ld rd) Logic.I
    | AAlways ss b => Hleaf (AAlways ss b) Logic.I | AInitial b => Hleaf (AInitial b) Logic.I
    | AInst m n ps qs => Hleaf (AInst m n ps qs) Logic.I
    end.
End AIInd.
Section Design.
  Variable A : alg.
  Variable M : machine A.
  Variable G : Type.
  Variable gtest : D A -> G -> bool.
  Variable gset : D A -> D A -> G -> G.
  Notation found := (found A M G). Notation alike := (@alike A M G). Notation eqv := (@eqv A M G). Notation leq := (@leq A M).
  Notation gfound := (gfound A M G gtest gset). Notation afound := (afound A M G gtest gset). Notation ggen := (ggen A M G gtest gset). Notation agen := (agen A M G gtest gset).
  Lemma leq_sym : forall x y, leq x y -> leq y x.
  Proof. intros x y H. destruct H; constructor; apply same_sym; assumption. Qed.
  Lemma leq_trans : forall x y z, leq x y -> leq y z -> leq x z.
  Proof.
    intros x y z H K. destruct H as [x|s P Q H|P Q H]; [exact K| |].
    - inversion K; subst; [constructor; exact H|]. constructor. eapply same_trans; eassumption.
    - inversion K; subst; [constructor; exact H|]. constructor. eapply same_trans; eassumption.
  Qed.
  Definition rel (a b : list (option string * G) * G * leaf A M) : Prop := fst a = fst b /\ leq (snd a) (snd b).
  Lemma rel_list_refl : forall x, Forall2 rel x x.
  Proof. induction x as [|[p l] x IH]; constructor; [split; [reflexivity|apply leq_same]|exact IH]. Qed.
  Lemma rel_list_trans : forall x y, Forall2 rel x y -> forall z, Forall2 rel y z -> Forall2 rel x z.
  Proof.
    intros x y H. induction H as [|a b x y [E R] _ IH]; intros z K; inversion K as [|? c ? z' [E' R'] K']; subst; constructor; [|apply IH; assumption].
    split; [congruence|eapply leq_trans; eassumption].
  Qed.
  Lemma rel_list_sym : forall x y, Forall2 rel x y -> Forall2 rel y x.
  Proof. intros x y H. induction H as [|a b x y [E R] _ IH]; constructor; [split; [congruence|apply leq_sym, R]|exact IH]. Qed.
  Lemma alike_refl : forall x, alike x x.
  Proof. intros x. exists x. split; [apply Permutation_refl|apply rel_list_refl]. Qed.
  Lemma alike_perm : forall x y, Permutation x y -> alike x y.
  Proof. intros x y H. exists y. split; [exact H|apply rel_list_refl]. Qed.
  Lemma alike_rel : forall x y, Forall2 rel x y -> alike x y.
  Proof. intros x y H. exists x. split; [apply Permutation_refl|exact H]. Qed.
  Lemma alike_trans : forall x y z, alike x y -> alike y z -> alike x z.
  Proof.
    intros x y z (u & P1 & R1) (v & P2 & R2).
    destruct (Permutation_Forall2 P2 (rel_list_sym _ _ R1)) as (w & P3 & R3). exists w. split; [eapply Permutation_trans; eassumption|].
    eapply rel_list_trans; [apply rel_list_sym; exact R3|exact R2].
  Qed.
  Lemma alike_sym : forall x y, alike x y -> alike y x.
  Proof. intros x y (z & P & R). destruct (Permutation_Forall2 (Permutation_sym P) R) as (w & P2 & R2). exists w. split; [exact P2|apply rel_list_sym, R2]. Qed.
  Lemma alike_app : forall x y x' y', alike x y -> alike x' y' -> alike (x ++ x') (y ++ y').
  Proof. intros x y x' y' (z & P & R) (z' & P' & R'). exists (z ++ z'). split; [apply Permutation_app; assumption|apply Forall2_app; assumption]. Qed.

  Definition cat (X Y : found -> Prop) : found -> Prop := fun z => exists x y, X x /\ Y y /\ z = x ++ y.
  Lemma eqv_iff : forall X Y : found -> Prop, (forall x, X x <-> Y x) -> eqv X Y.
  Proof. intros X Y H. split; intros x K; exists x; (split; [apply H, K|apply alike_refl]). Qed.
  Lemma eqv_refl : forall X : found -> Prop, eqv X X.
  Proof. intros X. apply eqv_iff. reflexivity. Qed.
  Lemma eqv_sym : forall X Y, eqv X Y -> eqv Y X.
  Proof. intros X Y [H K]. split; intros z Z; [apply K in Z as (x & X1 & X2)|apply H in Z as (x & X1 & X2)]; exists x; (split; [exact X1|apply alike_sym, X2]). Qed.
  Lemma eqv_trans : forall X Y Z, eqv X Y -> eqv Y Z -> eqv X Z.
  Proof.
    intros X Y Z [H1 H2] [K1 K2]. split.
    - intros x Hx. destruct (H1 x Hx) as (y & Hy & A1). destruct (K1 y Hy) as (z & Hz & A2). exists z. split; [exact Hz|eapply alike_trans; eassumption].
    - intros z Hz. destruct (K2 z Hz) as (y & Hy & A1). destruct (H2 y Hy) as (x & Hx & A2). exists x. split; [exact Hx|eapply alike_trans; eassumption].
  Qed.
  Lemma eqv_cat : forall X Y X' Y', eqv X Y -> eqv X' Y' -> eqv (cat X X') (cat Y Y').
  Proof.
    intros X Y X' Y' [H1 H2] [K1 K2]. split.
    - intros z (x & x' & Hx & Hx' & ->). destruct (H1 x Hx) as (y & Hy & A1). destruct (K1 x' Hx') as (y' & Hy' & A2). exists (y ++ y').
      split; [exists y, y'; auto|apply alike_app; assumption].
    - intros z (x & x' & Hx & Hx' & ->). destruct (H2 x Hx) as (y & Hy & A1). destruct (K2 x' Hx') as (y' & Hy' & A2). exists (y ++ y').
      split; [exists y, y'; auto|apply alike_app; assumption].
  Qed.
  Lemma eqv_swap : forall X Y, eqv (cat X Y) (cat Y X).
  Proof. intros X Y. split; intros z (x & y & Hx & Hy & ->); exists (y ++ x); (split; [exists y, x; auto|apply alike_perm, Permutation_app_comm]). Qed.
  Lemma cat_assoc : forall X Y Z z, cat (cat X Y) Z z <-> cat X (cat Y Z) z.
  Proof.
    intros X Y Z z. split.
    - intros (u & w & (x & y & Hx & Hy & ->) & Hw & ->). exists x, (y ++ w). split; [exact Hx|]. split; [exists y, w; auto|apply eq_sym, app_assoc].
    - intros (x & u & Hx & (y & w & Hy & Hw & ->) & ->). exists (x ++ y), w. split; [exists x, y; auto|]. split; [exact Hw|apply app_assoc].
  Qed.
  Lemma gfound_cons : forall g p i r x, gfound g p (i :: r) x <-> cat (gfound g p [i]) (gfound g p r) x.
  Proof.
    intros g p i r x. split.
    - intros H. inversion H; subst.
      + exists [(p, g, f)], x0. split; [apply gf_leaf; [assumption|apply gf_nil]|auto].
      + exists x0, y. split; [rewrite <- (app_nil_r x0); apply gf_if; [assumption|apply gf_nil]|auto].
      + exists x0, y. split; [rewrite <- (app_nil_r x0); apply gf_for; [assumption|apply gf_nil]|auto].
    - intros (u & v & H & K & ->). inversion H; subst.
      + match goal with X : gfound _ _ [] _ |- _ => inversion X; subst end. cbn [app]. apply gf_leaf; assumption.
      + match goal with X : gfound _ _ [] _ |- _ => inversion X; subst end. rewrite app_nil_r. apply gf_if; assumption.
      + match goal with X : gfound _ _ [] _ |- _ => inversion X; subst end. rewrite app_nil_r. apply gf_for; assumption.
  Qed.
  Lemma afound_cons : forall g p i r x, afound g p (i :: r) x <-> cat (afound g p [i]) (afound g p r) x.
  Proof.
    intros g p i r x. split.
    - intros H. inversion H; subst.
      + exists [(p, g, f)], x0. split; [apply af_leaf; [assumption|apply af_nil]|auto].
      + exists x0, y. split; [rewrite <- (app_nil_r x0); apply af_gen; [assumption|apply af_nil]|auto].
      + exists x0, y. split; [rewrite <- (app_nil_r x0); apply af_then; [assumption|assumption|apply af_nil]|auto].
      + exists x0, y. split; [rewrite <- (app_nil_r x0); apply af_else; [assumption|assumption|apply af_nil]|auto].
      + exists x0, y. split; [rewrite <- (app_nil_r x0); apply af_for; [assumption|apply af_nil]|auto].
    - intros (u & v & H & K & ->). inversion H; subst; match goal with X : afound _ _ [] _ |- _ => inversion X; subst end; rewrite ?app_nil_r; cbn [app].
      + apply af_leaf; assumption.
      + apply af_gen; assumption.
      + apply af_then; assumption.
      + apply af_else; assumption.
      + apply af_for; assumption.
  Qed.
  Lemma afound_nil : forall g p x, afound g p [] x <-> x = [].
  Proof. intros g p x. split; [intros H; inversion H; reflexivity|intros ->; apply af_nil]. Qed.
  Lemma gfound_nil : forall g p x, gfound g p [] x <-> x = [].
  Proof. intros g p x. split; [intros H; inversion H; reflexivity|intros ->; apply gf_nil]. Qed.
  Lemma cat_nil_l : forall (X Y : found -> Prop), (forall x, X x <-> x = []) -> forall z, cat X Y z <-> Y z.
  Proof.
    intros X Y H z. split; [intros (x & y & Hx & Hy & ->); apply H in Hx; subst; exact Hy|]. intros Hz. exists [], z. split; [apply H; reflexivity|auto].
  Qed.
  Lemma cat_iff : forall X X' Y Y' : found -> Prop, (forall x, X x <-> X' x) -> (forall x, Y x <-> Y' x) -> forall z, cat X Y z <-> cat X' Y' z.
  Proof. intros X X' Y Y' H K z. split; intros (x & y & Hx & Hy & ->); exists x, y; (split; [apply H, Hx|split; [apply K, Hy|reflexivity]]). Qed.
  Lemma afound_app : forall g p l r x, afound g p (l ++ r) x <-> cat (afound g p l) (afound g p r) x.
  Proof.
    intros g p l r. induction l as [|i l IH]; intros x; cbn [app].
    - symmetry. apply cat_nil_l. intros; apply afound_nil.
    - rewrite afound_cons. rewrite (cat_iff _ (afound g p [i]) _ (cat (afound g p l) (afound g p r))); [|reflexivity|exact IH].
      rewrite <- cat_assoc. apply cat_iff; [|reflexivity]. intros y. symmetry. apply afound_cons.
  Qed.
  Lemma gfound_app : forall g p l r x, gfound g p (l ++ r) x <-> cat (gfound g p l) (gfound g p r) x.
  Proof.
    intros g p l r. induction l as [|i l IH]; intros x; cbn [app].
    - symmetry. apply cat_nil_l. intros; apply gfound_nil.
    - rewrite gfound_cons. rewrite (cat_iff _ (gfound g p [i]) _ (cat (gfound g p l) (gfound g p r))); [|reflexivity|exact IH].
      rewrite <- cat_assoc. apply cat_iff; [|reflexivity]. intros y. symmetry. apply gfound_cons.
  Qed.
  Lemma afound_perm : forall g p l l', Permutation l l' -> eqv (afound g p l) (afound g p l').
  Proof.
    intros g p l l' H. induction H.
    - apply eqv_refl.
    - eapply eqv_trans; [apply eqv_iff; intros; apply afound_cons|]. eapply eqv_trans; [apply eqv_cat; [apply eqv_refl|exact IHPermutation]|].
      apply eqv_iff. intros. symmetry. apply afound_cons.
    - change (y :: x :: l) with ([y; x] ++ l). change (x :: y :: l) with ([x; y] ++ l).
      eapply eqv_trans; [apply eqv_iff; intros; apply afound_app|]. eapply eqv_trans; [|apply eqv_iff; intros; symmetry; apply afound_app].
      apply eqv_cat; [|apply eqv_refl]. eapply eqv_trans; [apply eqv_iff; intros; apply afound_cons|].
      eapply eqv_trans; [apply eqv_swap|]. apply eqv_iff. intros. symmetry. apply afound_cons.
    - eapply eqv_trans; eassumption.
  Qed.
  Lemma ungen_ok : forall g p a x, afound g p (ungen a) x <-> afound g p [a] x.
  Proof.
    intros g p a x. destruct a; try reflexivity. cbn [ungen]. split.
    - intros H. rewrite <- (app_nil_r x). apply af_gen; [exact H|apply af_nil].
    - intros H. inversion H; subst; [discriminate|]. match goal with X : afound _ _ [] _ |- _ => inversion X; subst end. rewrite app_nil_r. assumption.
  Qed.
  (** leaves *)
  Lemma leaf_eqv : forall g p i a f f', gleaf A M i = Some f -> aleaf A M a = Some f' -> leq f f' -> eqv (gfound g p [i]) (afound g p [a]).
  Proof.
    intros g p i a f f' Hi Ha L. split.
    - intros x H. inversion H; subst; [|discriminate|discriminate]. match goal with X : gfound _ _ [] _ |- _ => inversion X; subst end.
      exists [(p, g, f')]. split; [apply af_leaf; [exact Ha|apply af_nil]|]. assert (f0 = f) by congruence. subst f0.
      apply alike_rel. constructor; [split; [reflexivity|exact L]|constructor].
    - intros x H. inversion H; subst; try discriminate. match goal with X : afound _ _ [] _ |- _ => inversion X; subst end.
      exists [(p, g, f)]. split; [apply gf_leaf; [exact Hi|apply gf_nil]|]. assert (f0 = f') by congruence. subst f0.
      apply alike_rel. constructor; [split; [reflexivity|exact L]|constructor].
  Qed.
  (** generate constructs *)
  Lemma if_eqv : forall g p c c' ts tis fs fis y z, ge A c = ae A c' ->
    (forall g p, eqv (gfound g p tis) (afound g p y)) -> (forall g p, eqv (gfound g p fis) (afound g p z)) ->
    eqv (gfound g p [GGenIf c ts tis fs fis]) (afound g p [AGenIf c' ts y (match z with [] => None | _ => Some (ABody fs z) end)]).
  Proof.
    intros g p c c' ts tis fs fis y z E H1 H2.
    assert (EZ : forall g p x, afounde A M G gtest gset g p (match z with [] => None | _ => Some (ABody fs z) end) x <-> afound g ((fs, g) :: p) z x).
    { intros g' p' x. destruct z as [|i z]; split; intros K; inversion K; subst; try constructor; assumption. }
    split.
    - intros x H. inversion H; subst; [discriminate|]. match goal with X : gfound _ _ [] _ |- _ => inversion X; subst end. rewrite app_nil_r. rewrite E in *.
      destruct (gtest (ae A c') g) eqn:T.
      + match goal with X : gfound _ _ tis _ |- _ => apply (proj1 (H1 _ _)) in X as (u & U1 & U2) end. exists u. split; [|exact U2]. rewrite <- (app_nil_r u). apply af_then; [exact T|exact U1|apply af_nil].
      + match goal with X : gfound _ _ fis _ |- _ => apply (proj1 (H2 _ _)) in X as (u & U1 & U2) end. exists u. split; [|exact U2]. rewrite <- (app_nil_r u). apply af_else; [exact T|apply EZ, U1|apply af_nil].
    - intros x H. inversion H; subst; [discriminate| |].
      + match goal with X : afound _ _ [] _ |- _ => inversion X; subst end. rewrite app_nil_r.
        match goal with X : afound _ _ y _ |- _ => apply (proj2 (H1 _ _)) in X as (u & U1 & U2) end. exists u. split; [|exact U2]. rewrite <- (app_nil_r u).
        apply gf_if; [|apply gf_nil]. rewrite E. match goal with X : gtest _ _ = true |- _ => rewrite X end. exact U1.
      + match goal with X : afound _ _ [] _ |- _ => inversion X; subst end. rewrite app_nil_r.
        match goal with X : Rw_Spec.afounde _ _ _ _ _ _ _ _ _ |- _ => apply EZ, (proj2 (H2 _ _)) in X as (u & U1 & U2) end. exists u. split; [|exact U2]. rewrite <- (app_nil_r u).
        apply gf_if; [|apply gf_nil]. rewrite E. match goal with X : gtest _ _ = false |- _ => rewrite X end. exact U1.
  Qed.
  Lemma loop_eqv : forall p c c' l e b l' e' sc is y, ge A c = ae A c' -> ge A l = ae A l' -> ge A e = ae A e' ->
    (forall g p, eqv (gfound g p is) (afound g p y)) ->
    forall g, eqv (ggen g p c (GSubst l e b None None) sc is) (agen g p c' (ABlk l' e' None None) sc y).
  Proof.
    intros p c c' l e b l' e' sc is y EC EL EE H g. split.
    - intros x K. remember (GSubst l e b None None) as post eqn:EP. revert EP. induction K as [g p c post sc is T|g p c l1 e1 b1 sc is x z T F K IH]; intros EP.
      + exists []. split; [apply ag_end; rewrite <- EC; exact T|apply alike_refl].
      + injection EP as -> -> ->. destruct (IH EC H eq_refl) as (v & V1 & V2). destruct (proj1 (H _ _) _ F) as (u & U1 & U2). exists (u ++ v). split; [|apply alike_app; assumption].
        apply ag_step; [rewrite <- EC; exact T|exact U1|]. rewrite <- EL, <- EE. exact V1.
    - intros x K. remember (ABlk l' e' None None) as post eqn:EP. revert EP. induction K as [g p c' post sc y T|g p c' l1 e1 sc y x z T F K IH]; intros EP.
      + exists []. split; [apply gg_end; rewrite EC; exact T|apply alike_refl].
      + injection EP as -> ->. destruct (IH EC H eq_refl) as (v & V1 & V2). destruct (proj2 (H _ _) _ F) as (u & U1 & U2). exists (u ++ v). split; [|apply alike_app; assumption].
        apply gg_step; [rewrite EC; exact T|exact U1|]. rewrite EL, EE. exact V1.
  Qed.
  Lemma for_eqv : forall g p l0 e0 b0 l0' e0' c c' l e b l' e' sc is y, ge A l0 = ae A l0' -> ge A e0 = ae A e0' -> ge A c = ae A c' -> ge A l = ae A l' -> ge A e = ae A e' ->
    (forall g p, eqv (gfound g p is) (afound g p y)) ->
    eqv (gfound g p [GGenFor (GSubst l0 e0 b0 None None) c (GSubst l e b None None) sc is]) (afound g p [AGenFor (ABlk l0' e0' None None) c' (ABlk l' e' None None) sc y]).
  Proof.
    intros g p l0 e0 b0 l0' e0' c c' l e b l' e' sc is y E1 E2 E3 E4 E5 H.
    pose proof (loop_eqv p c c' l e b l' e' sc is y E3 E4 E5 H (gset (ge A l0) (ge A e0) g)) as [L1 L2]. split.
    - intros x K. inversion K; subst; [discriminate|]. match goal with X : gfound _ _ [] _ |- _ => inversion X; subst end. rewrite app_nil_r.
      match goal with X : Rw_Spec.ggen _ _ _ _ _ _ _ _ _ _ _ _ |- _ => apply L1 in X as (u & U1 & U2) end. exists u. split; [|exact U2]. rewrite <- (app_nil_r u).
      apply af_for; [|apply af_nil]. rewrite <- E1, <- E2. exact U1.
    - intros x K. inversion K; subst; [discriminate|]. match goal with X : afound _ _ [] _ |- _ => inversion X; subst end. rewrite app_nil_r.
      match goal with X : Rw_Spec.agen _ _ _ _ _ _ _ _ _ _ _ _ |- _ => rewrite <- E1, <- E2 in X; apply L2 in X as (u & U1 & U2) end. exists u. split; [|exact U2]. rewrite <- (app_nil_r u).
      apply gf_for; [exact U1|apply gf_nil].
  Qed.
End Design.

(** * Writing modules *)
Definition same_items (is : list gitem) (as' : list aitem) : Prop :=
  forall A M G gtest gset g p, eqv A M G (gfound A M G gtest gset g p is) (afound A M G gtest gset g p as').
Lemma w_width_ok : forall w, w_ok w -> exists y, w_width_ w = Some y /\ forall A, aw A y = gw A w.
Proof.
  intros [[[a b]|] [c|]] H; cbn [w_ok w_raw w_width] in H; unfold w_width_; cbn [w_raw w_width].
  - destruct H as [HA HB]. destruct (w_expr_ok a HA) as (x & EX & SX). destruct (w_expr_ok b HB) as (y & EY & SY). rewrite EX, EY. cbn [bindo]. eexists. split; [reflexivity|].
    intros A. unfold aw, gw. cbn [w_raw w_width option_map fst snd]. rewrite SX, SY. reflexivity.
  - destruct H as [HA HB]. destruct (w_expr_ok a HA) as (x & EX & SX). destruct (w_expr_ok b HB) as (y & EY & SY). rewrite EX, EY. cbn [bindo]. eexists. split; [reflexivity|].
    intros A. unfold aw, gw. cbn [w_raw w_width option_map fst snd]. rewrite SX, SY. reflexivity.
  - destruct (w_expr_ok c H) as (x & EX & SX). rewrite EX. cbn [bindo]. eexists. split; [reflexivity|]. intros A. unfold aw, gw. cbn [w_raw w_width option_map fst snd ae a_bin]. rewrite SX. reflexivity.
  - eexists. split; reflexivity.
Qed.
Lemma w_sens_ok : forall ss, Forall sens_ok ss -> exists x, allsome (map w_sens ss) = Some x /\ forall A, asens_ A (match x with [] => [AAll] | _ => x end) = gsens_ A ss.
Proof.
  intros ss H.
  assert (Q : Forall (fun s => exists a, w_sens s = Some a /\ (match a with AAll => true | _ => false end = match s with GAll => true | _ => false end /\
    forall A, match a with APos e => [SPos A (ae A e)] | ANeg e => [SNeg A (ae A e)] | ALevel e => [SLevel A (ae A e)] | AAll => [] end =
              match s with GPos e => [SPos A (ge A e)] | GNeg e => [SNeg A (ge A e)] | GLevel e => [SLevel A (ge A e)] | GAll => [] end)) ss).
  { revert H. apply Forall_impl. intros [e|e| |e] H; cbn [sens_ok] in H; cbn [w_sens]; [..|eexists; split; [reflexivity|]; split; reflexivity|];
      destruct (w_expr_ok e H) as (x & EX & SX); rewrite EX; (eexists; split; [reflexivity|]; split; [reflexivity|]; intros A; rewrite SX; reflexivity). }
  apply allsome_map in Q as (x & R & F). exists x. split; [exact R|]. intros A. unfold asens_, gsens_. destruct F as [|s a ss x [E1 E2] F]; [reflexivity|].
  assert (X : forall ss x, Forall2 (fun s a => match a with AAll => true | _ => false end = match s with GAll => true | _ => false end /\
    forall A, match a with APos e => [SPos A (ae A e)] | ANeg e => [SNeg A (ae A e)] | ALevel e => [SLevel A (ae A e)] | AAll => [] end =
              match s with GPos e => [SPos A (ge A e)] | GNeg e => [SNeg A (ge A e)] | GLevel e => [SLevel A (ge A e)] | GAll => [] end) ss x ->
    existsb (fun s => match s with AAll => true | _ => false end) x = existsb (fun s => match s with GAll => true | _ => false end) ss /\
    flat_map (fun s => match s with APos e => [SPos A (ae A e)] | ANeg e => [SNeg A (ae A e)] | ALevel e => [SLevel A (ae A e)] | AAll => [] end) x =
    flat_map (fun s => match s with GPos e => [SPos A (ge A e)] | GNeg e => [SNeg A (ge A e)] | GLevel e => [SLevel A (ge A e)] | GAll => [] end) ss).
  { clear. intros ss x F. induction F as [|s a ss x [E1 E2] _ [IH1 IH2]]; [split; reflexivity|]. cbn [existsb flat_map]. rewrite E1, IH1, E2, IH2. split; reflexivity. }
  destruct (X (s :: ss) (a :: x)) as [X1 X2]; [constructor; [split; assumption|exact F]|]. rewrite X1, X2. rewrite orb_false_r. reflexivity.
Qed.
Lemma w_bodies : forall resets m b, Forall (sok m) b -> exists r, allsome (map (w_stmt resets m) b) = Some r /\ forall A M, same A M (as_ A M (optimize_block r)) (gss A M m b).
Proof. intros resets m b H. apply body_ok; [|exact H]. apply Forall_forall. intros s _ m' K. apply w_stmt_ok. exact K. Qed.
Lemma single_items : forall i a, (forall A M, exists f f', gleaf A M i = Some f /\ aleaf A M a = Some f' /\ leq A M f f') -> same_items [i] [a].
Proof. intros i a H A M G gtest gset g p. destruct (H A M) as (f & f' & F1 & F2 & L). eapply leaf_eqv; eassumption. Qed.
Section WriteItems.
  Variable resets : aexpr -> bool.
  Variable outs : string -> bool.
  Definition is_param (i : gitem) : bool := match i with GParam _ _ _ _ => true | _ => false end.
  (** what stands for an item that is not written *)
  Definition left_out (i : gitem) : list aitem :=
    match i with GVar Reg n w s => if outs n then match w_width_ w with Some y => [AVar Reg n y s] | None => [] end else [] | _ => [] end.
  Definition written (i : gitem) (o : option aitem) : Prop :=
    w_item resets outs i = Some o /\ match o with Some a => same_items [i] [a] /\ left_out i = [] | None => same_items [i] (left_out i) /\ is_param i = false end.
  Lemma block_ok : forall (f : aitem -> list aitem) is, (forall a A M G gtest gset g p x, afound A M G gtest gset g p (f a) x <-> afound A M G gtest gset g p [a] x) ->
    Forall (fun i => exists o, written i o) is ->
    exists ps xs, allsome (map (fun i => match i with GParam _ _ _ _ => w_item resets outs i | _ => Some None end) is) = Some ps /\
      allsome (map (fun i => match i with GParam _ _ _ _ => Some None | _ => w_item resets outs i end) is) = Some xs /\
      same_items is (flat_map (fun o => match o with Some a => [a] | None => [] end) ps ++ flat_map left_out is ++
                     flat_map (fun o => match o with Some a => f a | None => [] end) xs).
  Proof.
    intros f is HF H. induction H as [|i is (o & W & K) _ (ps & xs & EP & EX & IH)].
    - exists [], []. split; [reflexivity|]. split; [reflexivity|]. intros A M G gtest gset g p. apply eqv_iff. intros x. cbn [flat_map app]. rewrite gfound_nil, afound_nil. reflexivity.
    - cbn [map allsome].
      destruct (is_param i) eqn:IP.
      + destruct i; try discriminate IP. rewrite W. destruct o as [a|]; [|destruct K; discriminate]. destruct K as [K _].
        rewrite EP, EX. cbn [option_map]. exists (Some a :: ps), (None :: xs). split; [reflexivity|]. split; [reflexivity|].
        intros A M G gtest gset g p. cbn [flat_map app left_out]. eapply eqv_trans; [apply eqv_iff; intros; apply gfound_cons|].
        eapply eqv_trans; [apply eqv_cat; [apply K|apply IH]|]. apply eqv_iff. intros. symmetry. apply afound_cons.
      + assert (M1 : (match i with GParam _ _ _ _ => w_item resets outs i | _ => Some None end) = Some None) by (destruct i; try reflexivity; discriminate IP).
        assert (M2 : (match i with GParam _ _ _ _ => Some None | _ => w_item resets outs i end) = Some o) by (rewrite <- W; destruct i; try reflexivity; discriminate IP).
        rewrite M1, M2, EP, EX. cbn [option_map]. exists (None :: ps), (o :: xs). split; [reflexivity|]. split; [reflexivity|].
        intros A M G gtest gset g p. cbn [flat_map]. set (PS := flat_map _ ps) in *. set (XS := flat_map _ xs) in *. clearbody PS XS. cbn [app].
        set (L := flat_map left_out is) in *. clearbody L.
        assert (Q : exists N, same_items [i] N /\ forall A M G gtest gset g p, eqv A M G (afound A M G gtest gset g p (N ++ PS ++ L ++ XS))
          (afound A M G gtest gset g p (PS ++ (left_out i ++ L) ++ (match o with Some a => f a | None => [] end ++ XS)))).
        { destruct o as [a|].
          - destruct K as [K K2]. rewrite K2. exists (f a). split.
            + intros A' M' G' gt' gs' g' p'. eapply eqv_trans; [apply K|]. apply eqv_iff. intros. symmetry. apply HF.
            + intros. apply afound_perm. cbn [app]. rewrite !app_assoc. apply Permutation_app_tail. rewrite <- !app_assoc. rewrite (app_assoc PS L (f a)). apply Permutation_app_comm.
          - destruct K as [K _]. exists (left_out i). split; [exact K|]. intros. apply afound_perm. cbn [app]. rewrite !app_assoc. apply Permutation_app_tail. apply Permutation_app_tail. apply Permutation_app_comm. }
        destruct Q as (N & N1 & N2). eapply eqv_trans; [apply eqv_iff; intros; apply gfound_cons|]. eapply eqv_trans; [apply eqv_cat; [apply N1|apply IH]|].
        eapply eqv_trans; [|apply N2]. apply eqv_iff. intros. symmetry. apply afound_app.
  Qed.
  Lemma nested_none : forall is, Forall (iok outs false) is -> flat_map left_out is = [].
  Proof.
    intros is H. induction H as [|i is K _ IH]; [reflexivity|]. cbn [flat_map]. rewrite IH, app_nil_r. destruct i; try reflexivity. destruct k; try reflexivity. cbn [left_out].
    cbn [iok] in K. destruct K as [_ K]. rewrite (K eq_refl eq_refl). reflexivity.
  Qed.
  Lemma w_nested : forall is, Forall (fun i => forall top, iok outs top i -> exists o, written i o) is -> Forall (iok outs false) is ->
    exists ps xs, allsome (map (fun i => match i with GParam _ _ _ _ => w_item resets outs i | _ => Some None end) is) = Some ps /\
      allsome (map (fun i => match i with GParam _ _ _ _ => Some None | _ => w_item resets outs i end) is) = Some xs /\
      same_items is (flat_map (fun o => match o with Some a => [a] | None => [] end) ps ++ flat_map (fun o => match o with Some a => ungen a | None => [] end) xs).
  Proof.
    intros is H K. destruct (block_ok ungen is) as (ps & xs & EP & EX & S).
    - intros a A M G gtest gset g p x. apply ungen_ok.
    - rewrite Forall_forall in *. intros i IN. apply (H i IN false), K, IN.
    - exists ps, xs. split; [exact EP|]. split; [exact EX|]. rewrite (nested_none is K) in S. exact S.
  Qed.
  Lemma gen_assign : forall s, gen_ok s -> exists l r b x y, s = GSubst l r b None None /\ w_stmt resets MBlocking s = Some (ABlk x y None None) /\
    forall A, ge A l = ae A x /\ ge A r = ae A y.
  Proof.
    intros s H. destruct s as [l r b [d|] [e|]| | | | | | | | |]; try contradiction. destruct H as [HL HR].
    destruct (w_expr_ok l HL) as (x & EX & SX). destruct (w_expr_ok r HR) as (y & EY & SY). exists l, r, b, x, y. split; [reflexivity|].
    cbn [w_stmt]. rewrite EX. cbn [bindo]. rewrite EY. split; [reflexivity|]. intros A. split; symmetry; auto.
  Qed.
  Lemma pairs_ok : forall ps : list (option string * gexpr), Forall (fun p => e_ok (snd p)) ps ->
    exists x, allsome (map (fun p => option_map (pair (fst p)) (w_expr (snd p))) ps) = Some x /\
    forall A, map (fun p => (fst p, ae A (snd p))) x = map (fun p => (fst p, ge A (snd p))) ps.
  Proof.
    intros ps H. assert (Q : Forall (fun p => exists a, option_map (pair (fst p)) (w_expr (snd p)) = Some a /\ forall A, (fst a, ae A (snd a)) = (fst p, ge A (snd p))) ps).
    { revert H. apply Forall_impl. intros p H. destruct (w_expr_ok (snd p) H) as (x & EX & SX). rewrite EX. eexists. split; [reflexivity|]. intros A. cbn [fst snd]. rewrite SX. reflexivity. }
    apply allsome_map in Q as (x & R & F). exists x. split; [exact R|]. intros A. clear - F. induction F; cbn [map]; [reflexivity|]. rewrite H, IHF. reflexivity.
  Qed.
  Lemma ports_ok : forall qs : list (option string * option gexpr), Forall (fun q => match snd q with Some e => e_ok e | None => False end) qs ->
    exists y, allsome (map (fun q => match snd q with Some e => option_map (fun a => (fst q, Some a)) (w_expr e) | None => None end) qs) = Some y /\
    forall A, map (fun q => (fst q, option_map (ae A) (snd q))) y = map (fun q => (fst q, option_map (ge A) (snd q))) qs.
  Proof.
    intros qs H. assert (Q : Forall (fun q => exists a, match snd q with Some e => option_map (fun a => (fst q, Some a)) (w_expr e) | None => None end = Some a /\
      forall A, (fst a, option_map (ae A) (snd a)) = (fst q, option_map (ge A) (snd q))) qs).
    { revert H. apply Forall_impl. intros [n [e|]] H; cbn [snd fst] in *; [|contradiction]. destruct (w_expr_ok e H) as (x & EX & SX). rewrite EX. eexists. split; [reflexivity|].
      intros A. cbn [fst snd option_map]. rewrite SX. reflexivity. }
    apply allsome_map in Q as (x & R & F). exists x. split; [exact R|]. intros A. clear - F. induction F; cbn [map]; [reflexivity|]. rewrite H, IHF. reflexivity.
  Qed.
  Lemma w_item_ok : forall i top, iok outs top i -> exists o, written i o.
  Proof.
    induction i using gitem_ind'; intros top K; cbn [iok] in K.
    - destruct i; try contradiction; clear H; unfold written; cbn [w_item left_out is_param].
      + destruct K as [K1 K2]. destruct (w_expr_ok v K1) as (x & EX & SX). destruct (w_width_ok w K2) as (y & EY & SY). rewrite EX. cbn [bindo]. rewrite EY. cbn [bindo].
        eexists. split; [reflexivity|]. split; [|reflexivity]. apply single_items. intros A M. do 2 eexists. split; [reflexivity|]. split; [reflexivity|]. rewrite SX, SY. apply leq_same.
      + destruct K as [K1 K2]. destruct (w_expr_ok v K1) as (x & EX & SX). destruct (w_width_ok w K2) as (y & EY & SY). rewrite EX. cbn [bindo]. rewrite EY. cbn [bindo].
        eexists. split; [reflexivity|]. split; [|reflexivity]. apply single_items. intros A M. do 2 eexists. split; [reflexivity|]. split; [reflexivity|]. rewrite SX, SY. apply leq_same.
      + destruct K as [K1 K2]. destruct (w_width_ok w K1) as (y & EY & SY).
        assert (S : same_items [GVar k n w s] [AVar k n y s]).
        { apply single_items. intros A M. do 2 eexists. split; [reflexivity|]. split; [reflexivity|]. rewrite SY. apply leq_same. }
        destruct k; [destruct (outs n)|..]; rewrite ?EY; cbn [bindo]; eexists; (split; [reflexivity|]; split; [exact S|reflexivity]).
      + destruct K as (K1 & K2 & -> & ->). destruct (w_expr_ok l K1) as (x & EX & SX). destruct (w_expr_ok r K2) as (y & EY & SY). rewrite EX. cbn [bindo]. rewrite EY. cbn [bindo].
        eexists. split; [reflexivity|]. split; [|reflexivity]. apply single_items. intros A M. do 2 eexists. split; [reflexivity|]. split; [reflexivity|]. rewrite SX, SY. apply leq_same.
      + destruct K as [K1 K2]. destruct (w_sens_ok sens K1) as (x & EX & SX). destruct (w_bodies resets MAlways b K2) as (y & EY & SY). rewrite EX. cbn [bindo]. rewrite EY. cbn [bindo].
        eexists. split; [reflexivity|]. split; [|reflexivity]. apply single_items. intros A M. do 2 eexists. split; [reflexivity|]. split; [reflexivity|]. rewrite SX. apply leq_always.
        apply same_sym, SY.
      + destruct (w_bodies resets MBlocking b K) as (y & EY & SY). rewrite EY. cbn [bindo].
        eexists. split; [reflexivity|]. split; [|reflexivity]. apply single_items. intros A M. do 2 eexists. split; [reflexivity|]. split; [reflexivity|]. apply leq_initial. apply same_sym, SY.
      + destruct K as [K1 K2]. destruct (pairs_ok ps K1) as (x & EX & SX). destruct (ports_ok qs K2) as (y & EY & SY). rewrite EX. cbn [bindo]. rewrite EY. cbn [bindo].
        eexists. split; [reflexivity|]. split; [|reflexivity]. apply single_items. intros A M. do 2 eexists. split; [reflexivity|]. split; [reflexivity|]. rewrite SX, SY. apply leq_same.
    - destruct K as (K1 & K2 & K3 & K4). apply all_fold in K4. destruct (gen_assign p K1) as (l0 & e0 & b0 & l0' & e0' & -> & W1 & S1).
      destruct (gen_assign q K3) as (l1 & e1 & b1 & l1' & e1' & -> & W2 & S2). destruct (w_expr_ok c K2) as (x & EX & SX).
      destruct (w_nested is H K4) as (ps & xs & EP & EQ & S). unfold written. cbn [w_item]. rewrite W1. cbn [bindo]. rewrite EX. cbn [bindo]. rewrite W2. cbn [bindo]. rewrite EP. cbn [bindo]. rewrite EQ. cbn [bindo].
      eexists. split; [reflexivity|]. split; [|reflexivity]. intros A M G gtest gset g p. eapply eqv_trans; [|apply eqv_iff; intros; apply ungen_ok]. cbn [ungen].
      destruct (S1 A), (S2 A). apply for_eqv; try assumption; [symmetry; apply SX|]. intros; apply S.
    - destruct K as (K1 & K2 & K3). apply all_fold in K2, K3. destruct (w_expr_ok c K1) as (x & EX & SX).
      destruct (w_nested tis H K2) as (ps & xs & EP & EQ & S). destruct (w_nested fis H0 K3) as (ps' & xs' & EP' & EQ' & S').
      unfold written. cbn [w_item]. rewrite EX. cbn [bindo]. rewrite EP. cbn [bindo]. rewrite EQ. cbn [bindo]. rewrite EP'. cbn [bindo]. rewrite EQ'. cbn [bindo].
      eexists. split; [reflexivity|]. split; [|reflexivity]. intros A M G gtest gset g p. eapply eqv_trans; [|apply eqv_iff; intros; apply ungen_ok]. cbn [ungen].
      apply if_eqv; [symmetry; apply SX|intros; apply S|intros; apply S'].
  Qed.
End WriteItems.
Lemma w_port_ok : forall regs p, w_ok (gp_width p) -> exists q y, w_port regs p = Some q /\ w_width_ (gp_width p) = Some y /\
  q = mkAP (gp_dir p) (gp_name p) y (gp_signed p) (match gp_dir p with Output => if regs (gp_name p) then Some (y, gp_signed p) else None | _ => None end) /\
  forall A, aw A y = gw A (gp_width p).
Proof. intros regs p H. destruct (w_width_ok _ H) as (y & E & S). unfold w_port. rewrite E. cbn [bindo]. do 2 eexists. split; [reflexivity|]. split; [reflexivity|]. split; [reflexivity|exact S]. Qed.
Lemma out_regs_in : forall m n w s, In (n, w, s) (out_regs m) <-> In (GVar Reg n w s) (gm_items m) /\ has_output (gm_ports m) n = true.
Proof.
  intros m n w s. unfold out_regs. rewrite in_flat_map. split.
  - intros (i & IN & H). destruct i; try contradiction. destruct k; try contradiction. destruct (has_output (gm_ports m) n0) eqn:E; [|contradiction]. destruct H as [H|[]]. injection H as -> -> ->. auto.
  - intros [IN E]. exists (GVar Reg n w s). split; [exact IN|]. rewrite E. left. reflexivity.
Qed.
Lemma NoDup_flat_one : forall {X Y Z} (f : X -> list Y) (g : Y -> Z) (h : X -> Z) l, (forall x, f x = [] \/ exists y, f x = [y] /\ g y = h x) ->
  NoDup (map h l) -> NoDup (map g (flat_map f l)).
Proof.
  intros X Y Z f g h l H N. induction l as [|x l IH]; [constructor|]. cbn [map flat_map] in *. inversion N; subst. rewrite map_app. destruct (H x) as [->|(y & -> & E)]; [apply IH; assumption|].
  cbn [map app]. constructor; [|apply IH; assumption]. rewrite E. intros IN. apply H2. apply in_map_iff in IN as (y' & E' & IN). apply in_flat_map in IN as (x' & IN & IN').
  destruct (H x') as [F|(y'' & F & E'')]; rewrite F in IN'; [contradiction|]. destruct IN' as [->|[]]. apply in_map_iff. exists x'. split; [congruence|exact IN].
Qed.
Lemma NoDup_back : forall {X Y} (f : X -> Y) l, NoDup (map f l) -> NoDup l.
Proof. intros X Y f l. apply NoDup_map_inv. Qed.
Definition name_of (a : aitem) : string := match a with AVar _ n _ _ => n | _ => ""%string end.
Lemma w_mod_ok : forall resets m, mod_ok m -> exists a, w_mod resets m = Some a /\ mod_means m a.
Proof.
  intros resets m (KP & KI & N1 & N2 & KR). set (outs := has_output (gm_ports m)) in *. set (regs := has_reg (gm_items m)).
  destruct (block_ok resets outs (fun a => [a]) (gm_items m)) as (ps & xs & EP & EX & SI).
  { intros a A M G gtest gset g p x. reflexivity. }
  { revert KI. apply Forall_impl. intros i K. apply (w_item_ok resets outs i true K). }
  assert (Q : Forall (fun p => exists q, w_port regs p = Some q /\ (exists y, w_width_ (gp_width p) = Some y /\
    q = mkAP (gp_dir p) (gp_name p) y (gp_signed p) (match gp_dir p with Output => if regs (gp_name p) then Some (y, gp_signed p) else None | _ => None end) /\
    forall A, aw A y = gw A (gp_width p))) (gm_ports m)).
  { revert KP. apply Forall_impl. intros p K. destruct (w_port_ok regs p K) as (q & y & E1 & E2 & E3 & E4). exists q. split; [exact E1|]. exists y. auto. }
  apply allsome_map in Q as (qs & EQ & FQ).
  unfold w_mod. fold outs regs. rewrite EP. cbn [bindo]. rewrite EQ. cbn [bindo]. rewrite EX. cbn [bindo]. eexists. split; [reflexivity|]. split; [reflexivity|].
  intros A. split.
  - unfold gports, aports. cbn [am_ports]. clear - FQ. induction FQ as [|p q l r (y & _ & -> & S) _ IH]; [reflexivity|]. cbn [map ap_dir ap_name ap_width ap_signed]. rewrite S, IH. reflexivity.
  - intros M G gtest gset g p. eapply eqv_trans; [apply SI|]. unfold all_items. cbn [am_params am_ports am_items]. apply afound_perm.
    apply Permutation_app_head, Permutation_app_tail.
    (* the registers left out are those declared by the ports *)
    assert (L1 : forall a, In a (flat_map (left_out outs) (gm_items m)) <-> exists n w s y, In (n, w, s) (out_regs m) /\ w_width_ w = Some y /\ a = AVar Reg n y s).
    { intros a. rewrite in_flat_map. split.
      - intros (i & IN & H). destruct i; try contradiction. destruct k; try contradiction. cbn [left_out] in H. destruct (outs n) eqn:E; [|contradiction].
        destruct (w_width_ w) as [y|] eqn:EW; [|contradiction]. destruct H as [<-|[]]. exists n, w, s, y. split; [apply out_regs_in; auto|auto].
      - intros (n & w & s & y & IN & EW & ->). apply out_regs_in in IN as [IN E]. exists (GVar Reg n w s). split; [exact IN|]. cbn [left_out]. fold outs in E. rewrite E, EW. left. reflexivity. }
    apply NoDup_Permutation.
    + apply (NoDup_back name_of). unfold out_regs in N2.
      assert (X : map name_of (flat_map (left_out outs) (gm_items m)) = map (fun r => fst (fst r)) (flat_map (fun i => match i with GVar Reg n w s => if outs n then [(n, w, s)] else [] | _ => [] end) (gm_items m))).
      { clear - KI. induction KI as [|i l K _ IH]; [reflexivity|]. cbn [flat_map]. rewrite !map_app, IH. f_equal. destruct i; try reflexivity. destruct k; try reflexivity. cbn [left_out].
        destruct (outs n) eqn:E; [|reflexivity]. cbn [iok] in K. destruct (w_width_ok w (proj1 K)) as (y & EW & _). rewrite EW. reflexivity. }
      rewrite X. exact N2.
    + apply (NoDup_back name_of). apply (NoDup_flat_one port_reg name_of ap_name).
      * intros q. unfold port_reg. destruct (ap_reg q) as [[w s]|]; [right; eexists; split; reflexivity|left; reflexivity].
      * assert (X : map ap_name qs = map gp_name (gm_ports m)) by (clear - FQ; induction FQ as [|p q l r (y & _ & -> & S) _ IH]; [reflexivity|]; cbn [map ap_name]; rewrite IH; reflexivity).
        rewrite X. exact N1.
    + intros a. rewrite L1. rewrite in_flat_map. split.
      * intros (n & w & s & y & IN & EW & ->). pose proof (proj1 (out_regs_in _ _ _ _) IN) as [IG E]. unfold has_output in E. apply existsb_exists in E as (q & IQ & E). apply andb_true_iff in E as [E ED].
        apply String.eqb_eq in E. destruct (KR n w s q IN IQ E) as [EW' ES].
        assert (FIN : exists r, In r qs /\ exists y, w_width_ (gp_width q) = Some y /\ r = mkAP (gp_dir q) (gp_name q) y (gp_signed q) (match gp_dir q with Output => if regs (gp_name q) then Some (y, gp_signed q) else None | _ => None end)).
        { clear - FQ IQ. induction FQ as [|p' q' l r (y & Y1 & Y2 & _) _ IH]; [contradiction|]. destruct IQ as [->|IQ]; [exists q'; split; [left; reflexivity|exists y; auto]|].
          destruct (IH IQ) as (r' & R1 & R2). exists r'. split; [right; exact R1|exact R2]. }
        destruct FIN as (r & IR & y' & EY & ->). exists (mkAP (gp_dir q) (gp_name q) y' (gp_signed q) (match gp_dir q with Output => if regs (gp_name q) then Some (y', gp_signed q) else None | _ => None end)).
        split; [exact IR|]. unfold port_reg. cbn [ap_reg ap_name]. destruct (gp_dir q); try discriminate ED.
        assert (RG : regs (gp_name q) = true).
        { unfold regs, has_reg. apply existsb_exists. exists (GVar Reg n w s). split; [exact IG|]. rewrite E. apply String.eqb_refl. }
        rewrite RG. left. rewrite EW' in EY. rewrite EY in EW. injection EW as <-. rewrite E, ES. reflexivity.
      * intros (r & IR & H). assert (FIN : exists q, In q (gm_ports m) /\ exists y, w_width_ (gp_width q) = Some y /\ r = mkAP (gp_dir q) (gp_name q) y (gp_signed q) (match gp_dir q with Output => if regs (gp_name q) then Some (y, gp_signed q) else None | _ => None end)).
        { clear - FQ IR. induction FQ as [|p' q' l r' (y & Y1 & Y2 & _) _ IH]; [contradiction|]. destruct IR as [->|IR]; [exists p'; split; [left; reflexivity|exists y; auto]|].
          destruct (IH IR) as (r'' & R1 & R2). exists r''. split; [right; exact R1|exact R2]. }
        destruct FIN as (q & IQ & y & EY & ->). unfold port_reg in H. cbn [ap_reg ap_name] in H. destruct (gp_dir q) eqn:ED; try contradiction. destruct (regs (gp_name q)) eqn:RG; [|contradiction].
        destruct H as [<-|[]]. unfold regs, has_reg in RG. apply existsb_exists in RG as (i & IN & RG). destruct i; try discriminate RG. destruct k; try discriminate RG. apply String.eqb_eq in RG. subst n.
        assert (O : In (gp_name q, w, s) (out_regs m)).
        { apply out_regs_in. split; [exact IN|]. unfold has_output. apply existsb_exists. exists q. split; [exact IQ|]. rewrite String.eqb_refl, ED. reflexivity. }
        destruct (KR _ _ _ q O IQ eq_refl) as [EW ES]. exists (gp_name q), w, s, y. split; [exact O|]. split; [rewrite <- EW; exact EY|]. rewrite ES. reflexivity.
Qed.

(** * Reading modules *)
Lemma same_nil : same_items [] [].
Proof. intros A M G gtest gset g p. apply eqv_iff. intros x. rewrite gfound_nil, afound_nil. reflexivity. Qed.
Lemma same_cons : forall l i k r, same_items l [i] -> same_items k r -> same_items (l ++ k) (i :: r).
Proof.
  intros l i k r H K A M G gtest gset g p. eapply eqv_trans; [apply eqv_iff; intros; apply gfound_app|].
  eapply eqv_trans; [apply eqv_cat; [apply H|apply K]|]. apply eqv_iff. intros. symmetry. apply afound_cons.
Qed.
Lemma same_app : forall l i k r, same_items l i -> same_items k r -> same_items (l ++ k) (i ++ r).
Proof.
  intros l i k r H K A M G gtest gset g p. eapply eqv_trans; [apply eqv_iff; intros; apply gfound_app|].
  eapply eqv_trans; [apply eqv_cat; [apply H|apply K]|]. apply eqv_iff. intros. symmetry. apply afound_app.
Qed.
Definition top_of (p : place) : bool := match p with PMod => true | _ => false end.
Lemma r_width_ok : forall w, aw_ok w -> exists y, r_width w = Some y /\ w_ok y /\ forall A, gw A y = aw A w.
Proof.
  intros [[a b]|] H; [|exists (mkW None None); split; [reflexivity|]; split; [exact Logic.I|reflexivity]]. destruct H as [HA HB].
  destruct (r_expr_both a HA) as (x & EX & OX & SX). destruct (r_expr_both b HB) as (y & EY & OY & SY). cbn [r_width]. rewrite EX. cbn [bindo]. rewrite EY. cbn [bindo].
  eexists. split; [reflexivity|]. split; [split; assumption|]. intros A. unfold gw, aw. cbn [w_raw option_map fst snd]. rewrite SX, SY. reflexivity.
Qed.
Lemma r_sens_ok : forall ss, ss <> [] -> Forall asens_ok ss -> exists x, allsome (map r_sens ss) = Some x /\ Forall sens_ok x /\ forall A, gsens_ A x = asens_ A ss.
Proof.
  intros ss NE H.
  assert (Q : Forall (fun s => exists a, r_sens s = Some a /\ (sens_ok a /\ match s with AAll => true | _ => false end = match a with GAll => true | _ => false end /\
    forall A, match s with APos e => [SPos A (ae A e)] | ANeg e => [SNeg A (ae A e)] | ALevel e => [SLevel A (ae A e)] | AAll => [] end =
              match a with GPos e => [SPos A (ge A e)] | GNeg e => [SNeg A (ge A e)] | GLevel e => [SLevel A (ge A e)] | GAll => [] end)) ss).
  { revert H. apply Forall_impl. intros [e|e| |e] H; cbn [asens_ok] in H; cbn [r_sens]; [..|eexists; split; [reflexivity|]; split; [exact Logic.I|split; reflexivity]|];
      destruct (r_expr_both e H) as (x & EX & OX & SX); rewrite EX; (eexists; split; [reflexivity|]; split; [exact OX|]; split; [reflexivity|]; intros A; rewrite SX; reflexivity). }
  apply allsome_map in Q as (x & R & F). exists x. split; [exact R|]. split; [clear - F; induction F; constructor; [apply H|assumption]|]. intros A. unfold asens_, gsens_.
  assert (X : existsb (fun s => match s with AAll => true | _ => false end) ss = existsb (fun s => match s with GAll => true | _ => false end) x /\
    flat_map (fun s => match s with APos e => [SPos A (ae A e)] | ANeg e => [SNeg A (ae A e)] | ALevel e => [SLevel A (ae A e)] | AAll => [] end) ss =
    flat_map (fun s => match s with GPos e => [SPos A (ge A e)] | GNeg e => [SNeg A (ge A e)] | GLevel e => [SLevel A (ge A e)] | GAll => [] end) x).
  { clear - F. induction F as [|s a ss x (_ & E1 & E2) _ [IH1 IH2]]; [split; reflexivity|]. cbn [existsb flat_map]. rewrite E1, IH1, E2, IH2. split; reflexivity. }
  destruct X as [-> ->]. destruct F; [contradiction|]. rewrite orb_false_r. reflexivity.
Qed.
Lemma single_read : forall i a, (forall A M, exists f f', gleaf A M i = Some f /\ aleaf A M a = Some f' /\ leq A M f f') -> same_items [i] [a].
Proof. exact single_items. Qed.
Section ReadItems.
  Variables (back : bool) (outs : string -> bool).
  Definition readable (p : place) (a : aitem) : Prop :=
    exists l, r_item p a = Some l /\ (back = true -> Forall (iok outs (top_of p)) l) /\ same_items l [a].
  Lemma items_ok : forall p is, Forall (fun a => forall p, aiok back outs p a -> readable p a) is -> Forall (aiok back outs p) is ->
    exists l, option_map (@concat gitem) (allsome (map (r_item p) is)) = Some l /\ (back = true -> Forall (iok outs (top_of p)) l) /\ same_items l is.
  Proof.
    intros p is H. induction H as [|a is Ha _ IH]; intros K; [exists []; split; [reflexivity|split; [constructor|apply same_nil]]|]. inversion K; subst.
    destruct (Ha p) as (l & E & O & S); [assumption|]. destruct IH as (k & EK & OK & SK); [assumption|]. cbn [map allsome]. rewrite E.
    destruct (allsome (map (r_item p) is)) as [ls|]; [|discriminate]. cbn [option_map concat] in *. injection EK as <-. eexists. split; [reflexivity|].
    split; [intros B; apply Forall_app; auto|]. apply same_cons; assumption.
  Qed.
  Lemma gen_read : forall g s, agen_ok s -> exists l r x y, s = ABlk l r None None /\ r_stmt g s = Some (GSubst x y true None None) /\ e_ok x /\ e_ok y /\
    forall A, ge A x = ae A l /\ ge A y = ae A r.
  Proof.
    intros g s H. destruct s as [|l r [d|] [e|]| | | | | | | | |]; try contradiction. destruct H as [HL HR].
    destruct (r_expr_both l HL) as (x & EX & OX & SX). destruct (r_expr_both r HR) as (y & EY & OY & SY). exists l, r, x, y. split; [reflexivity|].
    cbn [r_stmt]. rewrite EX. cbn [bindo]. rewrite EY. split; [reflexivity|]. split; [exact OX|]. split; [exact OY|]. intros A. split; auto.
  Qed.
  Lemma r_item_ok : forall a p, aiok back outs p a -> readable p a.
  Proof.
    induction a using aitem_ind'; intros pl K; cbn [aiok] in K.
    - destruct a; try contradiction; clear H; unfold readable; cbn [r_item].
      + destruct K as [K1 K2]. destruct (r_expr_both v K1) as (x & EX & OX & SX). destruct (r_width_ok w K2) as (y & EY & OY & SY). rewrite EX. cbn [bindo]. rewrite EY. cbn [bindo].
        eexists. split; [reflexivity|]. split; [intros B; constructor; [split; assumption|constructor]|]. apply single_items. intros A M. do 2 eexists. split; [reflexivity|]. split; [reflexivity|]. rewrite SX, SY. apply leq_same.
      + destruct K as [K1 K2]. destruct (r_expr_both v K1) as (x & EX & OX & SX). destruct (r_width_ok w K2) as (y & EY & OY & SY). rewrite EX. cbn [bindo]. rewrite EY. cbn [bindo].
        eexists. split; [reflexivity|]. split; [intros B; constructor; [split; assumption|constructor]|]. apply single_items. intros A M. do 2 eexists. split; [reflexivity|]. split; [reflexivity|]. rewrite SX, SY. apply leq_same.
      + destruct K as [K1 K2]. destruct (r_width_ok w K1) as (y & EY & OY & SY). rewrite EY. cbn [bindo].
        eexists. split; [reflexivity|]. split.
        * intros B. constructor; [|constructor]. split; [exact OY|]. intros T KR. apply K2; [exact B| |exact KR]. intros ->. discriminate.
        * apply single_items. intros A M. do 2 eexists. split; [reflexivity|]. split; [reflexivity|]. rewrite SY. apply leq_same.
      + destruct K as (K1 & K2 & -> & ->). destruct (r_expr_both l K1) as (x & EX & OX & SX). destruct (r_expr_both r K2) as (y & EY & OY & SY). rewrite EX. cbn [bindo]. rewrite EY. cbn [bindo].
        eexists. split; [reflexivity|]. split; [intros B; constructor; [repeat split; assumption|constructor]|]. apply single_items. intros A M. do 2 eexists. split; [reflexivity|]. split; [reflexivity|]. rewrite SX, SY. apply leq_same.
      + destruct K as (K0 & K1 & K2). destruct (r_sens_ok sens K0 K1) as (x & EX & OX & SX). destruct (r_stmt_ok back false b MAlways K2) as (y & EY & OY & SY). rewrite EX. cbn [bindo]. rewrite EY. cbn [bindo].
        eexists. split; [reflexivity|]. split; [intros B; constructor; [split; [exact OX|apply tuple_sok; auto]|constructor]|].
        apply single_items. intros A M. do 2 eexists. split; [reflexivity|]. split; [reflexivity|]. rewrite SX. apply leq_always. eapply same_trans; [apply tuple_ok|apply SY].
      + destruct (r_stmt_ok back (in_gen pl) b MBlocking K) as (y & EY & OY & SY). rewrite EY. cbn [bindo].
        eexists. split; [reflexivity|]. split; [intros B; constructor; [apply tuple_sok; auto|constructor]|].
        apply single_items. intros A M. do 2 eexists. split; [reflexivity|]. split; [reflexivity|]. apply leq_initial. eapply same_trans; [apply tuple_ok|apply SY].
      + destruct K as [K1 K2].
        assert (Q1 : Forall (fun q => exists x, option_map (pair (fst q)) (r_expr (snd q)) = Some x /\ (e_ok (snd x) /\ forall A, (fst x, ge A (snd x)) = (fst q, ae A (snd q)))) ps).
        { revert K1. apply Forall_impl. intros q H. destruct (r_expr_both (snd q) H) as (x & EX & OX & SX). rewrite EX. eexists. split; [reflexivity|]. split; [exact OX|]. intros A. cbn [fst snd]. rewrite SX. reflexivity. }
        assert (Q2 : Forall (fun q => exists x, option_map (pair (fst q)) (maybe r_expr (snd q)) = Some x /\
          ((back = true -> match snd x with Some e => e_ok e | None => False end) /\ forall A, (fst x, option_map (ge A) (snd x)) = (fst q, option_map (ae A) (snd q)))) qs).
        { revert K2. apply Forall_impl. intros [nm [e|]] H; cbn [snd fst maybe] in *.
          - destruct (r_expr_both e H) as (x & EX & OX & SX). rewrite EX. eexists. split; [reflexivity|]. split; [intros; exact OX|]. intros A. cbn [fst snd option_map]. rewrite SX. reflexivity.
          - eexists. split; [reflexivity|]. split; [intros B; rewrite H in B; discriminate|]. reflexivity. }
        apply allsome_map in Q1 as (x & EX & FX). apply allsome_map in Q2 as (y & EY & FY). rewrite EX. cbn [bindo]. rewrite EY. cbn [bindo].
        eexists. split; [reflexivity|]. split.
        * intros B. constructor; [|constructor]. cbn [iok]. split; [clear - FX; induction FX; constructor; [apply H|assumption]|clear - FY B; induction FY; constructor; [apply H, B|assumption]].
        * apply single_items. intros A M. do 2 eexists. split; [reflexivity|]. split; [reflexivity|].
          replace (map (fun p => (fst p, ge A (snd p))) x) with (map (fun p => (fst p, ae A (snd p))) ps) by (clear - FX; induction FX as [|q v l r [_ E] _ IH]; [reflexivity|]; cbn [map]; rewrite E, IH; reflexivity).
          replace (map (fun q => (fst q, option_map (ge A) (snd q))) y) with (map (fun q => (fst q, option_map (ae A) (snd q))) qs) by (clear - FY; induction FY as [|q v l r [_ E] _ IH]; [reflexivity|]; cbn [map]; rewrite E, IH; reflexivity).
          apply leq_same.
    - apply all_fold in K.
      assert (Q : exists l, option_map (@concat gitem) (allsome (map (fun i => match i with AGenFor _ _ _ _ _ | AGenIf _ _ _ _ => r_item PGen i | _ => None end) is)) = Some l /\
        (back = true -> Forall (iok outs false) l /\ forall x, In x l -> match x with GGenFor _ _ _ _ _ | GGenIf _ _ _ _ _ => True | _ => False end) /\ same_items l is).
      { induction H as [|a is Ha _ IH]; [exists []; split; [reflexivity|split; [intros; split; [constructor|intros ? []]|apply same_nil]]|]. inversion K as [|? ? [KA KB] KC]; subst.
        destruct (Ha PGen KB) as (l & E & O & S). destruct IH as (k & EK & OK & SK); [exact KC|]. cbn [map allsome].
        assert (E' : match a with AGenFor _ _ _ _ _ | AGenIf _ _ _ _ => r_item PGen a | _ => None end = Some l) by (destruct a; try contradiction; exact E). rewrite E'.
        destruct (allsome (map (fun i => match i with AGenFor _ _ _ _ _ | AGenIf _ _ _ _ => r_item PGen i | _ => None end) is)) as [ls|]; [|discriminate]. cbn [option_map concat] in *. injection EK as <-.
        eexists. split; [reflexivity|]. split; [|apply same_cons; assumption]. intros B. destruct (OK B) as [O1 O2]. split; [apply Forall_app; split; [apply O, B|exact O1]|].
        intros x IN. apply in_app_or in IN as [IN|IN]; [|exact (O2 x IN)]. clear - E KA IN. destruct a; try contradiction; cbn [r_item in_gen] in E;
          repeat match type of E with bindo ?x _ = _ => destruct x; [|discriminate E]; cbn [bindo] in E end; injection E as <-; destruct IN as [<-|[]]; exact Logic.I. }
      destruct Q as (l & E & O & S). exists l. split; [exact E|]. split.
      + intros B. destruct (O B) as [O1 O2]. destruct pl; [|exact O1|exact O1]. clear - O1 O2. induction O1 as [|x l Hx _ IH]; constructor; [|apply IH; intros y Hy; apply O2; right; exact Hy].
        specialize (O2 x (or_introl eq_refl)). destruct x; try contradiction; exact Hx.
      + intros A M G gtest gset g p. eapply eqv_trans; [apply S|]. apply eqv_iff. intros x. apply (ungen_ok A M G gtest gset g p (AGen is) x).
    - destruct K as (-> & K1 & K2 & K3 & K4). apply all_fold in K4. destruct (gen_read true p K1) as (l0 & e0 & x0 & y0 & -> & R1 & O1 & O2 & S1).
      destruct (gen_read true q K3) as (l1 & e1 & x1 & y1 & -> & R2 & O3 & O4 & S2). destruct (r_expr_both c K2) as (x & EX & OX & SX).
      destruct (items_ok PGen is H K4) as (l & EL & OL & SL). unfold readable. cbn [r_item in_gen]. rewrite R1. cbn [bindo]. rewrite EX. cbn [bindo]. rewrite R2. cbn [bindo]. rewrite EL. cbn [bindo].
      eexists. split; [reflexivity|]. split.
      + intros B. constructor; [|constructor]. cbn [iok gen_ok]. rewrite all_fold. repeat split; try assumption. exact (OL B).
      + intros A M G gtest gset g p. destruct (S1 A), (S2 A). apply for_eqv; try assumption; [apply SX|]. intros; apply SL.
    - destruct K as (-> & K1 & K2 & K3). apply all_fold in K2. destruct (r_expr_both c K1) as (x & EX & OX & SX). destruct (items_ok PGen tis H K2) as (l & EL & OL & SL).
      unfold readable. cbn [r_item in_gen]. rewrite EX. cbn [bindo]. rewrite EL. cbn [bindo].
      destruct f as [[fs fis|i]|]; [|contradiction|].
      + apply all_fold in K3. destruct (items_ok PElse fis H0 K3) as (k & EK & OK & SK). rewrite EK. cbn [option_map bindo fst snd]. eexists. split; [reflexivity|]. split.
        * intros B. constructor; [|constructor]. cbn [iok]. rewrite !all_fold. split; [exact OX|]. split; [exact (OL B)|exact (OK B)].
        * intros A M G gtest gset g p. eapply eqv_trans; [apply (if_eqv A M G gtest gset g p x c ts l fs k tis fis); [apply SX|intros; apply SL|intros; apply SK]|].
          destruct fis as [|i fis]; [|apply eqv_refl]. apply eqv_iff. intros u.
          assert (Z : forall v, afounde A M G gtest gset g p None v <-> afounde A M G gtest gset g p (Some (ABody fs [])) v).
          { intros v. split; intros Hv; inversion Hv; subst; [constructor; constructor|]. match goal with X : afound _ _ _ _ _ _ _ [] _ |- _ => inversion X; subst end. constructor. }
          split; intros Hu; inversion Hu; subst; try discriminate; try (apply af_then; assumption); (apply af_else; [assumption|apply Z; assumption|assumption]).
      + cbn [bindo fst snd]. eexists. split; [reflexivity|]. split.
        * intros B. constructor; [|constructor]. cbn [iok]. rewrite !all_fold. split; [exact OX|]. split; [exact (OL B)|constructor].
        * intros A M G gtest gset g p. apply (if_eqv A M G gtest gset g p x c ts l None [] tis []); [apply SX|intros; apply SL|intros; apply same_nil].
  Qed.
End ReadItems.
Lemma concat_read : forall back outs p is, Forall (aiok back outs p) is ->
  exists l, allsome (map (r_item p) is) = Some l /\ (back = true -> Forall (iok outs (top_of p)) (concat l)) /\ same_items (concat l) is.
Proof.
  intros back outs p is H. destruct (items_ok back outs p is) as (l & E & O & S); [|exact H|].
  - apply Forall_forall. intros a _ q K. apply r_item_ok. exact K.
  - destruct (allsome (map (r_item p) is)) as [k|]; [|discriminate]. injection E as <-. exists k. auto.
Qed.
Lemma r_mod_reads : forall back a, amod_ok back a -> exists ps qs xs, allsome (map (r_item PMod) (am_params a)) = Some ps /\ allsome (map r_port (am_ports a)) = Some qs /\
  allsome (map (r_item PMod) (am_items a)) = Some xs /\ r_mod a = Some (mkGM (am_name a) (map fst qs) (concat ps ++ concat (map snd qs) ++ concat xs)).
Proof.
  intros back a (KP & K1 & K2). destruct (concat_read back _ PMod _ K1) as (ps & E1 & _). destruct (concat_read back _ PMod _ K2) as (xs & E2 & _).
  assert (Q : Forall (fun p => exists q, r_port p = Some q /\ True) (am_ports a)).
  { revert KP. apply Forall_impl. intros p [W R]. destruct (r_width_ok _ W) as (y & EY & _). unfold r_port. rewrite EY. cbn [bindo]. destruct (ap_reg p) as [[w s]|]; [|eexists; split; [reflexivity|exact Logic.I]].
    destruct (r_width_ok _ R) as (z & EZ & _). rewrite EZ. eexists. split; [reflexivity|exact Logic.I]. }
  apply allsome_map in Q as (qs & E3 & _). exists ps, qs, xs. split; [exact E1|]. split; [exact E3|]. split; [exact E2|]. unfold r_mod. rewrite E1. cbn [bindo]. rewrite E3. cbn [bindo]. rewrite E2. reflexivity.
Qed.
Lemma r_port_ok : forall p, aw_ok (ap_width p) /\ match ap_reg p with Some (w, _) => aw_ok w | None => True end ->
  exists q, r_port p = Some q /\ gp_dir (fst q) = ap_dir p /\ gp_name (fst q) = ap_name p /\ gp_signed (fst q) = ap_signed p /\ r_width (ap_width p) = Some (gp_width (fst q)) /\
  w_ok (gp_width (fst q)) /\ (forall A, gw A (gp_width (fst q)) = aw A (ap_width p)) /\ same_items (snd q) (port_reg p) /\
  Forall2 (fun i j => match i, j with GVar Reg n w s, AVar Reg m v t => n = m /\ s = t /\ r_width v = Some w /\ w_ok w | _, _ => False end) (snd q) (port_reg p).
Proof.
  intros p [W R]. destruct (r_width_ok _ W) as (y & EY & OY & SY). unfold r_port, port_reg. rewrite EY. cbn [bindo]. destruct (ap_reg p) as [[w s]|].
  - destruct (r_width_ok _ R) as (z & EZ & OZ & SZ). rewrite EZ. cbn [bindo]. eexists. split; [reflexivity|]. cbn [fst snd gp_dir gp_name gp_signed gp_width].
    do 4 (split; [reflexivity|]). split; [exact OY|]. split; [exact SY|]. split.
    + apply single_items. intros A M. do 2 eexists. split; [reflexivity|]. split; [reflexivity|]. rewrite SZ. apply leq_same.
    + constructor; [|constructor]. auto.
  - cbn [bindo]. eexists. split; [reflexivity|]. cbn [fst snd gp_dir gp_name gp_signed gp_width]. do 4 (split; [reflexivity|]). split; [exact OY|]. split; [exact SY|]. split; [apply same_nil|constructor].
Qed.
Lemma r_mod_ok : forall back a, amod_ok back a -> exists m, r_mod a = Some m /\ mod_means m a.
Proof.
  intros back a K. pose proof K as (KP & K1 & K2). destruct (r_mod_reads back a K) as (ps & qs & xs & E1 & E2 & E3 & E). exists (mkGM (am_name a) (map fst qs) (concat ps ++ concat (map snd qs) ++ concat xs)).
  split; [exact E|]. clear E. destruct (concat_read back _ PMod _ K1) as (ps' & E1' & _ & S1). rewrite E1 in E1'. injection E1' as <-.
  destruct (concat_read back _ PMod _ K2) as (xs' & E3' & _ & S3). rewrite E3 in E3'. injection E3' as <-. apply allsome_inv in E2. split; [reflexivity|]. intros A. split.
  - unfold gports, aports. cbn [gm_ports]. clear - E2 KP. induction E2 as [|p q l r E _ IH]; [reflexivity|]. inversion KP; subst. destruct (r_port_ok p H1) as (q' & E' & Q1 & Q2 & Q3 & _ & _ & Q4 & _).
    rewrite E in E'. injection E' as <-. cbn [map]. rewrite (IH H2), Q1, Q2, Q3, Q4. reflexivity.
  - intros M G gtest gset g p. unfold all_items. cbn [gm_items]. apply same_app; [exact S1|]. apply same_app; [|exact S3].
    clear - E2 KP. induction E2 as [|p q l r E _ IH]; [apply same_nil|]. inversion KP; subst. destruct (r_port_ok p H1) as (q' & E' & _ & _ & _ & _ & _ & _ & S & _).
    rewrite E in E'. injection E' as <-. cbn [map concat flat_map]. apply same_app; [exact S|exact (IH H2)].
Qed.
(** the registers of outputs before and after *)
Lemma outs_read : forall back a m, amod_ok back a -> r_mod a = Some m -> forall n, has_output (gm_ports m) n = a_outs a n.
Proof.
  intros back a m K E n. pose proof K as (KP & _). destruct (r_mod_reads back a K) as (ps & qs & xs & _ & E2 & _ & E'). rewrite E in E'. injection E' as ->. cbn [gm_ports]. unfold has_output, a_outs.
  apply allsome_inv in E2. clear - E2 KP. induction E2 as [|p q l r E _ IH]; [reflexivity|]. inversion KP; subst. destruct (r_port_ok p H1) as (q' & E' & Q1 & Q2 & _).
  rewrite E in E'. injection E' as <-. cbn [map existsb]. rewrite (IH H2), Q1, Q2. reflexivity.
Qed.
Definition tops (outs : string -> bool) (l : list gitem) : list (string * gwidth * bool) :=
  flat_map (fun i => match i with GVar Reg n w s => if outs n then [(n, w, s)] else [] | _ => [] end) l.
Definition atops (outs : string -> bool) (l : list aitem) : list (string * awidth * bool) :=
  flat_map (fun i => match i with AVar Reg n w s => if outs n then [(n, w, s)] else [] | _ => [] end) l.
Definition like (x : string * gwidth * bool) (y : string * awidth * bool) : Prop := fst (fst x) = fst (fst y) /\ snd x = snd y /\ r_width (snd (fst y)) = Some (snd (fst x)).
Lemma tops_item : forall back outs a l, aiok back outs PMod a -> r_item PMod a = Some l -> Forall2 like (tops outs l) (atops outs [a]).
Proof.
  intros back outs a l K E. unfold tops, atops. destruct a; cbn [aiok] in K.
  1-2: cbn [r_item] in E; repeat match type of E with bindo ?x _ = _ => destruct x eqn:?; [|discriminate E]; cbn [bindo] in E end; injection E as <-; constructor.
  - cbn [r_item] in E. destruct (r_width w) eqn:EW; [|discriminate]. injection E as <-. cbn [flat_map app]. rewrite !app_nil_r. destruct k; try constructor. destruct (outs n); constructor; [|constructor]. split; [reflexivity|]. split; [reflexivity|exact EW].
  - destruct K as (_ & _ & -> & ->). cbn [r_item] in E; repeat match type of E with bindo ?x _ = _ => destruct x eqn:?; [|discriminate E]; cbn [bindo] in E end; injection E as <-; constructor.
  - cbn [r_item] in E; repeat match type of E with bindo ?x _ = _ => destruct x eqn:?; [|discriminate E]; cbn [bindo] in E end; injection E as <-; constructor.
  - cbn [r_item] in E; repeat match type of E with bindo ?x _ = _ => destruct x eqn:?; [|discriminate E]; cbn [bindo] in E end; injection E as <-; constructor.
  - cbn [r_item] in E; repeat match type of E with bindo ?x _ = _ => destruct x eqn:?; [|discriminate E]; cbn [bindo] in E end; injection E as <-; constructor.
  - cbn [r_item] in E. cbn [flat_map app]. apply all_fold in K.
    assert (Q : forall x, In x l -> match x with GGenFor _ _ _ _ _ | GGenIf _ _ _ _ _ => True | _ => False end).
    { revert l E. induction K as [|a is [KA KB] _ IH]; intros l E; cbn [map allsome option_map concat] in E; [injection E as <-; intros x []|].
      destruct (match a with AGenFor _ _ _ _ _ | AGenIf _ _ _ _ => r_item PGen a | _ => None end) as [k|] eqn:EA; [|discriminate].
      destruct (allsome (map (fun i => match i with AGenFor _ _ _ _ _ | AGenIf _ _ _ _ => r_item PGen i | _ => None end) is)) as [ls|]; [|discriminate]. cbn [option_map concat] in E. injection E as <-.
      intros x IN. apply in_app_or in IN as [IN|IN]; [|exact (IH _ eq_refl x IN)]. clear - EA KA IN. destruct a; try contradiction; cbn [r_item in_gen] in EA;
        repeat match type of EA with bindo ?x _ = _ => destruct x; [|discriminate EA]; cbn [bindo] in EA end; injection EA as <-; destruct IN as [<-|[]]; exact Logic.I. }
    assert (N : flat_map (fun i => match i with GVar Reg n w s => if outs n then [(n, w, s)] else [] | _ => [] end) l = []).
    { clear - Q. induction l as [|x l IH]; [reflexivity|]. cbn [flat_map]. rewrite IH by (intros y Hy; apply Q; right; exact Hy). specialize (Q x (or_introl eq_refl)). destruct x; try contradiction; reflexivity. }
    rewrite N. constructor.
  - destruct K as [K _]. discriminate.
  - destruct K as [K _]. discriminate.
Qed.
Lemma tops_items : forall back outs is l, Forall (aiok back outs PMod) is -> allsome (map (r_item PMod) is) = Some l -> Forall2 like (tops outs (concat l)) (atops outs is).
Proof.
  intros back outs is l K E. apply allsome_inv in E. induction E as [|a k is l E _ IH]; [constructor|]. inversion K; subst. cbn [concat]. unfold tops, atops in *. rewrite flat_map_app. cbn [flat_map].
  apply Forall2_app; [|apply IH; assumption]. pose proof (tops_item back outs a k H1 E) as T. unfold tops, atops in T. cbn [flat_map] in T. rewrite app_nil_r in T. exact T.
Qed.
Lemma r_mod_back : forall a m, amod_ok true a -> aregs_ok a -> r_mod a = Some m -> mod_ok m.
Proof.
  intros a m K (N1 & N2 & KR) E. pose proof (outs_read true a m K E) as HO. pose proof K as (KP & K1 & K2).
  destruct (r_mod_reads true a K) as (ps & qs & xs & E1 & E2 & E3 & E'). rewrite E in E'. injection E' as ->. cbn [gm_ports] in HO. clear E.
  destruct (concat_read true _ PMod _ K1) as (ps' & E1' & O1 & _). rewrite E1 in E1'. injection E1' as <-.
  destruct (concat_read true _ PMod _ K2) as (xs' & E3' & O3 & _). rewrite E3 in E3'. injection E3' as <-. specialize (O1 eq_refl). specialize (O3 eq_refl). cbn [top_of] in O1, O3.
  apply allsome_inv in E2.
  assert (PQ : Forall2 (fun p q => gp_dir (fst q) = ap_dir p /\ gp_name (fst q) = ap_name p /\ gp_signed (fst q) = ap_signed p /\ r_width (ap_width p) = Some (gp_width (fst q)) /\ w_ok (gp_width (fst q)) /\
    Forall2 (fun i j => match i, j with GVar Reg n w s, AVar Reg m v t => n = m /\ s = t /\ r_width v = Some w /\ w_ok w | _, _ => False end) (snd q) (port_reg p)) (am_ports a) qs).
  { clear - E2 KP. induction E2 as [|p q l r E _ IH]; [constructor|]. inversion KP; subst. destruct (r_port_ok p H1) as (q' & E' & Q1 & Q2 & Q3 & Q4 & Q5 & _ & _ & Q6). rewrite E in E'. injection E' as <-.
    constructor; [auto 10|apply IH; assumption]. }
  assert (XO : forall top l, Forall (iok (a_outs a) top) l -> Forall (iok (has_output (map fst qs)) top) l).
  { intros top l H. revert H. apply Forall_impl. intros i. revert top. clear - HO. induction i using gitem_ind'; intros top H'.
    - destruct i; try contradiction; cbn [iok] in *; try exact H'. destruct H' as [A B]. split; [exact A|]. intros T R. rewrite HO. exact (B T R).
    - cbn [iok] in *. rewrite all_fold in *. destruct H' as (A & B & C & F). repeat (split; [assumption|]). rewrite Forall_forall in *. intros x IN. apply (H x IN), F, IN.
    - cbn [iok] in *. rewrite !all_fold in *. destruct H' as (A & B & C). split; [exact A|]. split; rewrite Forall_forall in *; intros x IN; [apply (H x IN), B, IN|apply (H0 x IN), C, IN]. }
  assert (TR : Forall2 like (out_regs (mkGM (am_name a) (map fst qs) (concat ps ++ concat (map snd qs) ++ concat xs))) (a_regs a)).
  { unfold out_regs, a_regs, all_items. cbn [gm_ports gm_items].
    assert (EQ : forall l, flat_map (fun i => match i with GVar Reg n w s => if has_output (map fst qs) n then [(n, w, s)] else [] | _ => [] end) l = tops (a_outs a) l).
    { intros l. unfold tops. apply flat_map_ext. intros i. destruct i; try reflexivity. destruct k; try reflexivity. rewrite HO. reflexivity. }
    rewrite EQ. change (flat_map (fun i => match i with AVar Reg n w s => if a_outs a n then [(n, w, s)] else [] | _ => [] end)) with (atops (a_outs a)).
    unfold tops, atops. rewrite !flat_map_app. apply Forall2_app; [exact (tops_items true _ _ _ K1 E1)|]. apply Forall2_app; [|exact (tops_items true _ _ _ K2 E3)].
    clear - PQ. induction PQ as [|p q l r (_ & _ & _ & _ & _ & F) _ IH]; [constructor|]. cbn [map concat flat_map]. rewrite !flat_map_app. apply Forall2_app; [|exact IH].
    induction F as [|i j si sj H _ IHF]; [constructor|]. cbn [flat_map]. apply Forall2_app; [|exact IHF]. destruct i; try contradiction. destruct k; try contradiction. destruct j; try contradiction. destruct k; try contradiction.
    destruct H as (-> & -> & R & _). destruct (a_outs a n0); constructor; [|constructor]. split; [reflexivity|]. split; [reflexivity|exact R]. }
  split; [|split; [|split; [|split]]]; cbn [gm_ports gm_items].
  - apply Forall_map. clear - PQ. induction PQ as [|p q l r (_ & _ & _ & _ & W & _) _ IH]; constructor; assumption.
  - apply XO. apply Forall_app. split; [exact O1|]. apply Forall_app. split; [|exact O3].
    clear - PQ. induction PQ as [|p q l r (_ & _ & _ & _ & _ & F) _ IH]; [constructor|]. cbn [map concat]. apply Forall_app. split; [|exact IH].
    clear IH. induction F as [|i j si sj H _ IHF]; constructor; [|exact IHF]. destruct i; try contradiction. destruct k; try contradiction. destruct j; try contradiction. destruct k; try contradiction.
    cbn [iok]. split; [apply H|discriminate].
  - replace (map gp_name (map fst qs)) with (map ap_name (am_ports a)); [exact N1|]. clear - PQ. induction PQ as [|p q l r (_ & E & _) _ IH]; [reflexivity|]. cbn [map]. rewrite E, IH. reflexivity.
  - match goal with |- NoDup ?x => replace x with (map (fun r => fst (fst r)) (a_regs a)); [exact N2|] end. clear - TR. induction TR as [|x y l r (E & _) _ IH]; [reflexivity|]. cbn [map]. rewrite E, IH. reflexivity.
  - intros n w s p IR IP EN.
    assert (Q1 : exists v, In (n, v, s) (a_regs a) /\ r_width v = Some w).
    { clear - TR IR. induction TR as [|[[n1 w1] s1] [[n2 w2] s2] l r (A1 & A2 & A3) _ IH]; [contradiction|]. cbn [fst snd] in *. destruct IR as [IR|IR].
      - injection IR as -> -> ->. subst n2 s2. exists w2. split; [left; reflexivity|exact A3].
      - destruct (IH IR) as (v & V1 & V2). exists v. split; [right; exact V1|exact V2]. }
    destruct Q1 as (v & V1 & V2).
    assert (Q2 : exists q, In q (am_ports a) /\ gp_name p = ap_name q /\ gp_signed p = ap_signed q /\ r_width (ap_width q) = Some (gp_width p)).
    { clear - PQ IP. induction PQ as [|q p' l r (_ & A1 & A2 & A3 & _) _ IH]; [contradiction|]. cbn [map] in IP. destruct IP as [<-|IP]; [exists q; split; [left; reflexivity|auto]|].
      destruct (IH IP) as (q' & B1 & B2). exists q'. split; [right; exact B1|exact B2]. }
    destruct Q2 as (q & I2 & A1 & A2 & A3). destruct (KR n v s q V1 I2) as [B1 B2]; [congruence|]. subst. split; [congruence|congruence].
Qed.
(** read and written again *)
Lemma mod_back_ok : forall resets a, amod_ok true a -> aregs_ok a -> exists m a', r_mod a = Some m /\ w_mod resets m = Some a' /\ same_mod a a'.
Proof.
  intros resets a K R. destruct (r_mod_ok true a K) as (m & E & N1 & S1). pose proof (r_mod_back a m K R E) as OK. destruct (w_mod_ok resets m OK) as (a' & W & N2 & S2).
  exists m, a'. split; [exact E|]. split; [exact W|]. split; [congruence|]. intros A. destruct (S1 A) as [P1 D1]. destruct (S2 A) as [P2 D2]. split; [congruence|].
  intros M G gtest gset g p. eapply eqv_trans; [apply eqv_sym, D1|apply D2].
Qed.
