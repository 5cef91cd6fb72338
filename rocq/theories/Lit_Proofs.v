From Coq Require Import String Ascii.
From Verif Require Import Base Bits Lit_Model Lit_Spec.
Open Scope string_scope.
Open Scope Z_scope.

(** ** Characters and digits *)
Lemma digit_worth c : digit c = worth c.
Proof. destruct c as [[] [] [] [] [] [] [] []]; reflexivity. Qed.
Lemma digit_numeral d : 0 <= d < 16 -> digit (numeral d) = Some d.
Proof.
  intros H. assert (Q : d = 0 \/ d = 1 \/ d = 2 \/ d = 3 \/ d = 4 \/ d = 5 \/ d = 6 \/ d = 7 \/ d = 8 \/ d = 9 \/ d = 10 \/ d = 11 \/ d = 12 \/ d = 13 \/ d = 14 \/ d = 15) by lia.
  repeat destruct Q as [->|Q]; try reflexivity. subst. reflexivity.
Qed.
Lemma below_16 b c : b <= 16 -> below b c = true -> below 16 c = true.
Proof. unfold below. destruct (digit c); [|discriminate]. rewrite !Z.ltb_lt. lia. Qed.
Lemma below_le a b c : a <= b -> below a c = true -> below b c = true.
Proof. unfold below. destruct (digit c); [|discriminate]. rewrite !Z.ltb_lt. lia. Qed.
Lemma digits_below b s : forall acc n, digits_ b acc s = Some n -> every (below b) s = true.
Proof.
  induction s as [|c r IH]; intros acc n H; [reflexivity|]. cbn [digits_ every] in *. unfold below at 1.
  destruct (digit c) as [d|]; [|discriminate]. destruct (d <? b); [|discriminate]. exact (IH _ _ H).
Qed.
Lemma below_digits b s : every (below b) s = true -> forall acc, exists n, digits_ b acc s = Some n.
Proof.
  induction s as [|c r IH]; intros H acc; [eexists; reflexivity|]. cbn [digits_ every] in *. unfold below at 1 in H.
  destruct (digit c) as [d|]; [|discriminate]. destruct (d <? b); [|discriminate]. apply (IH H).
Qed.
Lemma every_app p a b : every p (a ++ b) = every p a && every p b.
Proof. induction a as [|c a IH]; [reflexivity|]. cbn [append every]. rewrite IH, andb_assoc. reflexivity. Qed.
Lemma every_imp (p q : ascii -> bool) s : (forall c, p c = true -> q c = true) -> every p s = true -> every q s = true.
Proof.
  intros I. induction s as [|c r IH]; [reflexivity|]. cbn [every]. rewrite !andb_true_iff. intros [A B]. split; auto.
Qed.
Definition no (c : ascii) (a : ascii) : bool := negb (Ascii.eqb a c).
Lemma every_no (p : ascii -> bool) c s : p c = false -> every p s = true -> every (no c) s = true.
Proof.
  intros P. apply every_imp. intros a A. unfold no. destruct (Ascii.eqb_spec a c) as [->|N]; [congruence|reflexivity].
Qed.

(** ** [show] *)
Lemma show_ok b s : 2 <= b <= 16 -> forall fuel n, 0 <= n < 2 ^ (Z.of_nat fuel + 1) -> digits_ b 0 (show_ fuel b n s) = digits_ b n s.
Proof.
  intros B fuel. revert s. induction fuel as [|fuel IH]; intros s n N; cbn [show_].
  - change (2 ^ (Z.of_nat 0 + 1)) with 2 in N. cbn [digits_]. rewrite Z.mod_small by lia. rewrite digit_numeral by lia.
    rewrite (proj2 (Z.ltb_lt n b)) by lia. reflexivity.
  - pose proof (Z.mod_pos_bound n b) as M. pose proof (Z.div_mod n b) as D. destruct (Z.eqb_spec (n / b) 0) as [Z0|NZ].
    + cbn [digits_]. rewrite digit_numeral by lia. rewrite (proj2 (Z.ltb_lt (n mod b) b)) by lia. f_equal. lia.
    + rewrite IH.
      * cbn [digits_]. rewrite digit_numeral by lia. rewrite (proj2 (Z.ltb_lt (n mod b) b)) by lia. f_equal. lia.
      * split; [apply Z.div_pos; lia|]. apply Z.div_lt_upper_bound; [lia|].
        replace (Z.of_nat (S fuel) + 1) with (Z.succ (Z.of_nat fuel + 1)) in N by lia. rewrite Z.pow_succ_r in N by lia.
        pose proof (Z.pow_pos_nonneg 2 (Z.of_nat fuel + 1)). nia.
Qed.
Lemma show_digits b n : 2 <= b <= 16 -> 0 <= n -> digits_ b 0 (show b n) = Some n.
Proof.
  intros B N. unfold show. rewrite show_ok; [reflexivity|exact B|]. pose proof (Z.log2_nonneg n). rewrite Z2Nat.id by assumption.
  split; [exact N|]. destruct (Z.eq_dec n 0) as [->|NZ]; [reflexivity|]. pose proof (Z.log2_spec n) as L. unfold Z.succ in L. lia.
Qed.
Lemma show_nonempty_ fuel b : forall n s, nonempty (show_ fuel b n s) = true.
Proof. induction fuel as [|fuel IH]; intros n s; cbn [show_]; [reflexivity|]. destruct (n / b =? 0); [reflexivity|apply IH]. Qed.
Lemma show_nonempty b n : nonempty (show b n) = true.
Proof. apply show_nonempty_. Qed.
Lemma show_below b n : 2 <= b <= 16 -> 0 <= n -> every (below b) (show b n) = true.
Proof. intros B N. exact (digits_below _ _ _ _ (show_digits b n B N)). Qed.

(** ** [int] *)
Definition radix_ok (b : Z) : Prop := b = 2 \/ b = 8 \/ b = 10 \/ b = 16.
Lemma letter_ok b l : letter b = Some l -> radix_ok b /\ radix l = Some b.
Proof.
  unfold letter, radix_ok. destruct (Z.eqb_spec b 2) as [->|]; [intros H; injection H as <-; split; [tauto|reflexivity]|].
  destruct (Z.eqb_spec b 8) as [->|]; [intros H; injection H as <-; split; [tauto|reflexivity]|].
  destruct (Z.eqb_spec b 10) as [->|]; [intros H; injection H as <-; split; [tauto|reflexivity]|].
  destruct (Z.eqb_spec b 16) as [->|]; [intros H; injection H as <-; split; [tauto|reflexivity]|]. discriminate.
Qed.
Lemma mark_no_digit b c : radix_ok b -> below b c = true -> base_mark b c = false.
Proof.
  intros [->|[->|[->| ->]]] H; unfold base_mark; cbn [Z.eqb Pos.eqb].
  - destruct (Ascii.eqb_spec c "b") as [->|]; [discriminate|]. destruct (Ascii.eqb_spec c "B") as [->|]; [discriminate|]. reflexivity.
  - destruct (Ascii.eqb_spec c "o") as [->|]; [discriminate|]. destruct (Ascii.eqb_spec c "O") as [->|]; [discriminate|]. reflexivity.
  - reflexivity.
  - destruct (Ascii.eqb_spec c "x") as [->|]; [discriminate|]. destruct (Ascii.eqb_spec c "X") as [->|]; [discriminate|]. reflexivity.
Qed.
Definition unprefixed (b : Z) (r : string) : string :=
  match r with String z (String p q) => if Ascii.eqb z "0" && base_mark b p then q else r | _ => r end.
Lemma no_prefix b s : radix_ok b -> every (below b) s = true -> unprefixed b s = s.
Proof.
  intros B H. destruct s as [|z [|p q]]; try reflexivity. cbn [unprefixed]. cbn [every] in H. apply andb_true_iff in H as [_ H].
  apply andb_true_iff in H as [H _]. rewrite (mark_no_digit b p B H), andb_false_r. reflexivity.
Qed.
Lemma pyint_digits b s n : radix_ok b -> nonempty s = true -> digits_ b 0 s = Some n -> pyint b s = Some n.
Proof.
  intros B NE D. pose proof (digits_below _ _ _ _ D) as E. unfold pyint. destruct s as [|c r]; [discriminate|].
  assert (C : below b c = true) by (cbn [every] in E; apply andb_true_iff in E as [E _]; exact E).
  destruct (Ascii.eqb_spec c "-") as [->|]; [destruct B as [->|[->|[->| ->]]]; discriminate|].
  destruct (Ascii.eqb_spec c "+") as [->|]; [destruct B as [->|[->|[->| ->]]]; discriminate|].
  cbv beta iota zeta. fold (unprefixed b (String c r)). rewrite (no_prefix b _ B E). rewrite D. reflexivity.
Qed.
Lemma pyint_minus b s n : radix_ok b -> nonempty s = true -> digits_ b 0 s = Some n -> pyint b (String "-" s) = Some (- n).
Proof.
  intros B NE D. pose proof (digits_below _ _ _ _ D) as E. unfold pyint. cbn [Ascii.eqb Bool.eqb].
  cbv beta iota zeta. fold (unprefixed b s). rewrite (no_prefix b _ B E). destruct s as [|c r]; [discriminate|]. rewrite D. reflexivity.
Qed.

(** ** Searching *)
Lemma strip_app a b : strip (a ++ b) = strip a ++ strip b.
Proof. induction a as [|c a IH]; [reflexivity|]. cbn [append strip]. destruct (Ascii.eqb c "_"); [exact IH|]. cbn [append]. rewrite IH. reflexivity. Qed.
Lemma strip_id s : every (no "_") s = true -> strip s = s.
Proof.
  induction s as [|c r IH]; [reflexivity|]. cbn [every strip]. unfold no at 1. intros H. apply andb_true_iff in H as [A B].
  apply negb_true_iff in A. rewrite A, (IH B). reflexivity.
Qed.
Lemma after_app c p s : every (no c) p = true -> after c (p ++ s) = after c s.
Proof.
  induction p as [|a p IH]; [reflexivity|]. cbn [every append after]. unfold no at 1. intros H. apply andb_true_iff in H as [A B].
  apply negb_true_iff in A. rewrite A. exact (IH B).
Qed.
Lemma after_none c p : every (no c) p = true -> after c p = None.
Proof.
  induction p as [|a p IH]; [reflexivity|]. cbn [every after]. unfold no at 1. intros H. apply andb_true_iff in H as [A B].
  apply negb_true_iff in A. rewrite A. exact (IH B).
Qed.
Lemma before_none c p : every (no "'") p = true -> before c p = None.
Proof.
  induction p as [|a p IH]; [reflexivity|]. cbn [every before]. unfold no at 1. intros H. apply andb_true_iff in H as [A B].
  apply negb_true_iff in A. rewrite A, (IH B). destruct p as [|? [|? ?]]; reflexivity.
Qed.
Lemma before_app c p s : every (no "'") p = true -> before c (p ++ s) = option_map (append p) (before c s).
Proof.
  induction p as [|a p IH]; [cbn [append]; destruct (before c s); reflexivity|]. cbn [every append before]. unfold no at 1. intros H. apply andb_true_iff in H as [A B].
  apply negb_true_iff in A. rewrite A, (IH B). destruct (before c s); [reflexivity|]. cbn. destruct (p ++ s) as [|? [|? ?]]; reflexivity.
Qed.
Lemma split_app p s : every (no "'") p = true -> split (p ++ String "'" s) = (p, Some s).
Proof.
  induction p as [|a p IH]; [reflexivity|]. cbn [every append split]. unfold no at 1. intros H. apply andb_true_iff in H as [A B].
  apply negb_true_iff in A. rewrite A, (IH B). reflexivity.
Qed.
Lemma split_none p : every (no "'") p = true -> split p = (p, None).
Proof.
  induction p as [|a p IH]; [reflexivity|]. cbn [every split]. unfold no at 1. intros H. apply andb_true_iff in H as [A B].
  apply negb_true_iff in A. rewrite A, (IH B). reflexivity.
Qed.

(** ** Reading a text *)
(** characters of a body *)
Definition okc (b : Z) (c : ascii) : bool := below b c || xz c || Ascii.eqb c "-".
Definition sg_text (sg : bool) : string := if sg then "s" else "".
Section Read.
  Variables (P B : string) (sg : bool) (b : Z) (l : ascii).
  Hypothesis L : letter b = Some l.
  Hypothesis HP : every (below 10) P = true.
  Hypothesis HB : every (okc b) B = true.
  Hypothesis NB : nonempty B = true.
  Let t := P ++ "'" ++ sg_text sg ++ String l B.
  Lemma P_no c : below 10 c = false -> every (no c) P = true.
  Proof. intros H. exact (every_no _ c P H HP). Qed.
  Lemma B_no c : okc b c = false -> every (no c) B = true.
  Proof. intros H. exact (every_no _ c B H HB). Qed.
  Lemma search_B c : after c B = None -> search c (String l B) = if Ascii.eqb l c then Some B else None.
  Proof. intros H. unfold search. cbn [after]. destruct (Ascii.eqb l c); [destruct B; [discriminate|reflexivity]|rewrite H; reflexivity]. Qed.
  Lemma search_t c : below 10 c = false -> Ascii.eqb "'" c = false -> Ascii.eqb "s" c = false -> Ascii.eqb l c = false -> okc b c = false -> search c t = None.
  Proof.
    intros H1 H2 H3 H4 H5. unfold search, t. rewrite after_app by (apply P_no; exact H1). cbn [append after]. rewrite H2.
    assert (A : after c (String l B) = None) by (cbn [after]; rewrite H4; apply after_none, B_no, H5).
    unfold sg_text. destruct sg; cbn [append after]; [rewrite H3|]; cbn [after] in A; rewrite A; reflexivity.
  Qed.
  Lemma search_l c : below 10 c = false -> Ascii.eqb "'" c = false -> Ascii.eqb "s" c = false -> Ascii.eqb l c = true -> search c t = Some B.
  Proof.
    intros H1 H2 H3 H4. unfold search, t. rewrite after_app by (apply P_no; exact H1). cbn [append after]. rewrite H2.
    assert (A : after c (String l B) = Some B) by (cbn [after]; rewrite H4; reflexivity).
    unfold sg_text. destruct sg; cbn [append after]; [rewrite H3|]; cbn [after] in A; rewrite A; destruct B; try discriminate; reflexivity.
  Qed.
  Lemma strip_t : strip t = t.
  Proof.
    apply strip_id. unfold t. rewrite !every_app. rewrite P_no by reflexivity. cbn [every andb].
    assert (Q : every (no "_") B = true).
    { apply B_no. destruct (letter_ok b l L) as [[->|[->|[->| ->]]] _]; reflexivity. }
    rewrite Q. unfold sg_text. destruct (letter_ok b l L) as [_ R].
    destruct sg; cbn [every andb]; unfold no; destruct (Ascii.eqb_spec l "_") as [->|]; try discriminate; reflexivity.
  Qed.
  Lemma read_value : str_to_value t = value_of b B.
  Proof.
    unfold str_to_value. rewrite strip_t. pose proof L as L'. unfold letter in L'.
    destruct (Z.eqb_spec b 2) as [Eb|_]; [injection L' as El; rewrite (search_t "h"), (search_t "d"), (search_t "o"), (search_l "b") by (rewrite <- ?El, ?Eb; reflexivity); rewrite Eb; reflexivity|].
    destruct (Z.eqb_spec b 8) as [Eb|_]; [injection L' as El; rewrite (search_t "h"), (search_t "d"), (search_l "o") by (rewrite <- ?El, ?Eb; reflexivity); rewrite Eb; reflexivity|].
    destruct (Z.eqb_spec b 10) as [Eb|_]; [injection L' as El; rewrite (search_t "h"), (search_l "d") by (rewrite <- ?El, ?Eb; reflexivity); rewrite Eb; reflexivity|].
    destruct (Z.eqb_spec b 16) as [Eb|_]; [injection L' as El; rewrite (search_l "h") by (rewrite <- ?El, ?Eb; reflexivity); rewrite Eb; reflexivity|]. discriminate.
  Qed.
  Lemma read_sign : str_to_signed t = sg.
  Proof.
    unfold str_to_signed. rewrite strip_t. unfold search, t. rewrite after_app by (apply P_no; reflexivity). cbn [append after Ascii.eqb Bool.eqb].
    destruct (letter_ok b l L) as [RB RL].
    destruct sg; cbn [sg_text append after]; [cbn; reflexivity|].
    destruct (Ascii.eqb_spec l "s") as [->|_]; [discriminate|].
    rewrite after_none; [reflexivity|]. apply B_no. destruct RB as [->|[->|[->| ->]]]; reflexivity.
  Qed.
  Lemma before_t c : Ascii.eqb "s" c = false -> before c t = if sg then None else if Ascii.eqb l c then Some P else None.
  Proof.
    intros NS. unfold t. rewrite before_app by (apply P_no; reflexivity).
    assert (NQ : every (no "'") (String l B) = true).
    { cbn [every]. rewrite B_no by (destruct (letter_ok b l L) as [[->|[->|[->| ->]]] _]; reflexivity).
      destruct (letter_ok b l L) as [_ R]. unfold no. destruct (Ascii.eqb_spec l "'") as [->|]; [discriminate|reflexivity]. }
    destruct sg; cbn [sg_text append].
    - assert (N2 : every (no "'") (String "s" (String l B)) = true) by (cbn [every] in *; rewrite NQ; reflexivity).
      remember (String "s" (String l B)) as r eqn:R. cbn [before]. rewrite (before_none c r N2). subst r.
      rewrite NS, andb_false_r. reflexivity.
    - remember (String l B) as r eqn:R. cbn [before]. rewrite (before_none c r NQ). subst r.
      destruct B as [|c0 r0]; [discriminate|]. cbn [andb Ascii.eqb Bool.eqb].
      destruct (Ascii.eqb l c); cbn; [|reflexivity]. f_equal. clear. induction P; cbn; congruence.
  Qed.
End Read.
Lemma read_width P B sg b l : letter b = Some l -> every (below 10) P = true -> every (okc b) B = true -> nonempty B = true ->
  forall W, (if nonempty P then option_map Some (pyint 10 P) else Some None) = Some W ->
  str_to_width (P ++ "'" ++ sg_text sg ++ String l B) = Some (if sg then None else W).
Proof.
  intros L HP HB NB W HW. unfold str_to_width. rewrite (strip_t P B sg b l L HP HB). unfold search_width.
  rewrite !(before_t P B sg b l L HP HB NB) by reflexivity. destruct sg; [reflexivity|].
  assert (Q : match (match P with "" => None | _ => Some P end) with Some v => option_map Some (pyint 10 v) | None => Some None end = Some W).
  { destruct P as [|c r]; exact HW. }
  unfold letter in L.
  destruct (Z.eqb_spec b 2) as [_|_]; [injection L as <-; cbn [Ascii.eqb Bool.eqb]; destruct P; exact Q|].
  destruct (Z.eqb_spec b 8) as [_|_]; [injection L as <-; cbn [Ascii.eqb Bool.eqb]; destruct P; exact Q|].
  destruct (Z.eqb_spec b 10) as [_|_]; [injection L as <-; cbn [Ascii.eqb Bool.eqb]; destruct P; exact Q|].
  destruct (Z.eqb_spec b 16) as [_|_]; [injection L as <-; cbn [Ascii.eqb Bool.eqb]; destruct P; exact Q|]. discriminate.
Qed.
Lemma read_text P B sg b l v W : letter b = Some l -> every (below 10) P = true -> every (okc b) B = true -> nonempty B = true ->
  (if nonempty P then option_map Some (pyint 10 P) else Some None) = Some W -> value_of b B = Some (v, Some b) ->
  int_text (P ++ "'" ++ sg_text sg ++ String l B) None None false = Some (mkInt v (if sg then None else W) (Some b) sg).
Proof.
  intros L HP HB NB HW V. unfold int_text. rewrite (read_value P B sg b l L HP HB NB), V. cbv beta iota zeta.
  assert (OK : match v with VI _ => true | VS t => if (b =? 16) || (b =? 10) || (b =? 8) || (b =? 2) then check b t else false end = true).
  { destruct v as [z|t]; [reflexivity|]. unfold value_of in V. destruct (pyint b B); [discriminate|].
    destruct (check b B) eqn:C; [|discriminate]. injection V as <-. destruct (letter_ok b l L) as [[->|[->|[->| ->]]] _]; exact C. }
  rewrite OK. rewrite (read_width P B sg b l L HP HB NB W HW), (read_sign P B sg b l L HP HB). reflexivity.
Qed.
Lemma int_text_strip s : strip (strip s) = strip s -> int_text s None None false = int_text (strip s) None None false.
Proof. intros I. unfold int_text, str_to_value, str_to_width, str_to_signed. rewrite I. reflexivity. Qed.

(** ** Against the reading of literals *)
Lemma number_digits b s : forall acc, number b acc s = digits_ b acc (strip s).
Proof.
  induction s as [|c r IH]; intros acc; [reflexivity|]. cbn [number strip]. destruct (Ascii.eqb c "_"); [apply IH|].
  cbn [digits_]. rewrite digit_worth. destruct (worth c) as [d|]; [|reflexivity]. destruct (d <? b); [|reflexivity].
  rewrite IH. f_equal. lia.
Qed.
Lemma numeric_digits b s n : numeric b s = Some n -> nonempty (strip s) = true /\ digits_ b 0 (strip s) = Some n.
Proof.
  unfold numeric. destruct s as [|c r]; [discriminate|]. destruct (Ascii.eqb c "_") eqn:U; [discriminate|].
  rewrite number_digits. intros H. split; [cbn [strip]; rewrite U; reflexivity|exact H].
Qed.
Lemma below_no_ b s : every (below b) s = true -> b <= 16 -> strip s = s.
Proof.
  intros H L. apply strip_id. apply (every_no (below 16)); [reflexivity|]. revert H. apply every_imp. intros c. apply below_16, L.
Qed.
Lemma digits_numeric b s n : b <= 16 -> nonempty s = true -> digits_ b 0 s = Some n -> numeric b s = Some n.
Proof.
  intros L N D. pose proof (digits_below _ _ _ _ D) as E. unfold numeric. rewrite number_digits, (below_no_ b s E L). destruct s as [|c r]; [discriminate|].
  cbn [every] in E. apply andb_true_iff in E as [E _]. destruct (Ascii.eqb_spec c "_") as [->|]; [|exact D].
  apply (below_16 b _ L) in E. discriminate.
Qed.
Lemma strip_every p s : p "_"%char = true -> every p (strip s) = true -> every p s = true.
Proof.
  intros U. induction s as [|c r IH]; [reflexivity|]. cbn [strip every]. destruct (Ascii.eqb_spec c "_") as [->|N].
  - intros H. rewrite U. exact (IH H).
  - cbn [every]. rewrite !andb_true_iff. intros [A B]. split; [exact A|exact (IH B)].
Qed.
Lemma numeric_no b s n c : b <= 16 -> numeric b s = Some n -> below 16 c = false -> Ascii.eqb "_" c = false -> every (no c) s = true.
Proof.
  intros L H C U. apply numeric_digits in H as [_ H]. apply digits_below in H. apply strip_every; [unfold no; rewrite U; reflexivity|].
  apply (every_no (below 16)); [exact C|]. revert H. apply every_imp. intros a. apply below_16, L.
Qed.
Definition size_ok (pre : string) (w : option Z) : Prop :=
  match w with None => pre = "" | Some n => numeric 10 pre = Some n /\ 0 < n end.
Lemma unsigned_lit pre w neg sg b l body n : size_ok pre w -> radix l = Some b -> Ascii.eqb l "s" || Ascii.eqb l "S" = false -> numeric b body = Some n ->
  unsigned_literal neg (pre ++ "'" ++ sg_text sg ++ String l body) = Some (mkLit neg w sg n).
Proof.
  intros SZ R NS NB. unfold unsigned_literal.
  assert (Q : every (no "'") pre = true).
  { unfold size_ok in SZ. destruct w as [k|]; [|subst; reflexivity]. destruct SZ as [SZ _]. exact (numeric_no 10 pre k "'" ltac:(lia) SZ eq_refl eq_refl). }
  change ("'" ++ sg_text sg ++ String l body) with (String "'" (sg_text sg ++ String l body)). rewrite (split_app pre _ Q).
  assert (BB : forall o, based neg o (sg_text sg ++ String l body) = Some (mkLit neg o sg n)).
  { intros o. unfold based. destruct sg; cbn [sg_text append].
    - cbn [Ascii.eqb Bool.eqb orb]. rewrite R, NB. reflexivity.
    - rewrite NS, R, NB. reflexivity. }
  unfold size_ok in SZ. destruct w as [k|]; [|subst; apply BB]. destruct SZ as [SZ SP]. destruct pre as [|c r] eqn:EP; [discriminate|].
  rewrite SZ, (proj2 (Z.ltb_lt 0 k) SP). apply BB.
Qed.
Lemma letter_s b l : letter b = Some l -> Ascii.eqb l "s" || Ascii.eqb l "S" = false.
Proof.
  intros L. destruct (letter_ok b l L) as [_ R]. destruct (Ascii.eqb_spec l "s") as [->|]; [discriminate|].
  destruct (Ascii.eqb_spec l "S") as [->|]; [discriminate|]. reflexivity.
Qed.
Lemma read_positive s : match s with String c _ => Ascii.eqb c "-" = false | "" => False end -> read_literal s = unsigned_literal false s.
Proof. destruct s as [|c r]; [intros []|]. intros H. cbn [read_literal]. rewrite H. reflexivity. Qed.
Lemma head_ok pre w r : size_ok pre w -> match (pre ++ String "'" r)%string with String c _ => Ascii.eqb c "-" = false | "" => False end.
Proof.
  unfold size_ok. destruct w as [k|]; [|intros ->; reflexivity]. intros [SZ _]. destruct pre as [|c p]; [discriminate|]. cbn [append].
  pose proof (numeric_no 10 _ k "-" ltac:(lia) SZ eq_refl eq_refl) as H. cbn [every] in H. apply andb_true_iff in H as [H _].
  unfold no in H. apply negb_true_iff in H. exact H.
Qed.
Lemma width_text_ok w : match w with Some n => 0 < n | None => True end -> size_ok (width_text w) w /\ every (below 10) (width_text w) = true /\
  (if nonempty (width_text w) then option_map Some (pyint 10 (width_text w)) else Some None) = Some w.
Proof.
  intros H. unfold width_text, size_ok. destruct w as [n|]; [|repeat split].
  destruct (Z.eqb_spec n 0) as [->|_]; [lia|]. unfold pystr. rewrite (proj2 (Z.ltb_ge n 0)) by lia.
  assert (D : digits_ 10 0 (show 10 n) = Some n) by (apply show_digits; lia).
  split; [split; [apply digits_numeric; [lia|apply show_nonempty|exact D]|exact H]|].
  split; [apply show_below; lia|]. rewrite show_nonempty. rewrite (pyint_digits 10 _ n); [reflexivity|unfold radix_ok; tauto|apply show_nonempty|exact D].
Qed.
Lemma width_text_nonempty w : match w with Some n => 0 < n | None => True end -> nonempty (width_text w) = match w with Some _ => true | None => false end.
Proof.
  intros H. destruct w as [n|]; [|reflexivity]. unfold width_text. destruct (Z.eqb_spec n 0) as [->|_]; [lia|]. unfold pystr.
  rewrite (proj2 (Z.ltb_ge n 0)) by lia. apply show_nonempty.
Qed.
Lemma below_okc b s : every (below b) s = true -> every (okc b) s = true.
Proof. apply every_imp. intros c H. unfold okc. rewrite H. reflexivity. Qed.
Lemma radix_range b : radix_ok b -> 2 <= b <= 16.
Proof. unfold radix_ok. lia. Qed.
Lemma show_value b n : radix_ok b -> 0 <= n -> value_of b (show b n) = Some (VI n, Some b).
Proof.
  intros B N. unfold value_of. rewrite (pyint_digits b _ n B (show_nonempty b n)); [reflexivity|]. apply show_digits; [apply radix_range, B|exact N].
Qed.
Lemma show_numeric b n : radix_ok b -> 0 <= n -> numeric b (show b n) = Some n.
Proof. intros B N. pose proof (radix_range b B). apply digits_numeric; [lia|apply show_nonempty|apply show_digits; lia]. Qed.
Definition effective (w b : option Z) (sg : bool) : option Z :=
  match b with Some _ => b | None => if sg then Some 10 else match w with Some _ => Some 10 | None => None end end.
Definition mark (k : Z) : ascii := match letter k with Some l => l | None => "?"%char end.
Lemma mark_ok k : radix_ok k -> letter k = Some (mark k).
Proof. intros [->|[->|[->| ->]]]; reflexivity. Qed.
Definition base_ok (b : option Z) : Prop := match b with Some k => radix_ok k | None => True end.
Definition width_ok (w : option Z) : Prop := match w with Some n => 0 < n | None => True end.
Definition signed_ (v : Z) (sg : bool) : bool := if v <? 0 then true else sg.
(** all printed texts: a decimal number, or the general form *)
Lemma print_form v w b sg : width_ok w -> base_ok b ->
  print_int (int_num v w b sg) =
    Some ((if v <? 0 then "-" else "") ++ match effective w b (signed_ v sg) with
          | Some k => width_text w ++ "'" ++ sg_text (signed_ v sg) ++ String (mark k) (show k (Z.abs v))
          | None => show 10 (Z.abs v)
          end).
Proof.
  intros HW HB. unfold print_int, int_num, signed_. cbn [ival ibase iwidth isigned].
  assert (AV : (v <? 0) = false -> Z.abs v = v) by (rewrite Z.ltb_ge; lia).
  destruct b as [k|]; cbn [effective].
  - cbn [base_ok] in HB. rewrite (mark_ok k HB). destruct (v <? 0) eqn:N; [reflexivity|]. rewrite AV by reflexivity. destruct sg; reflexivity.
  - rewrite (width_text_nonempty w HW). destruct (v <? 0) eqn:N; [reflexivity|]. rewrite AV by reflexivity.
    destruct sg; [reflexivity|]. destruct w; reflexivity.
Qed.
Lemma str_form v w b sg : width_ok w -> base_ok b ->
  str_int (int_num v w b sg) =
    Some (match effective w b (signed_ v sg) with
          | Some k => width_text w ++ "'" ++ sg_text (signed_ v sg) ++ String (mark k) ((if v <? 0 then "-" else "") ++ show k (Z.abs v))
          | None => show 10 v
          end).
Proof.
  intros HW HB. unfold str_int, int_num, signed_. cbn [ival ibase iwidth isigned].
  assert (AV : (v <? 0) = false -> Z.abs v = v) by (rewrite Z.ltb_ge; lia).
  assert (AN : (v <? 0) = true -> Z.abs v = - v) by (rewrite Z.ltb_lt; lia).
  destruct b as [k|]; cbn [effective].
  - cbn [base_ok] in HB. rewrite (mark_ok k HB). destruct (v <? 0) eqn:N; [rewrite AN by reflexivity; reflexivity|]. rewrite AV by reflexivity. destruct sg; reflexivity.
  - rewrite (width_text_nonempty w HW). destruct (v <? 0) eqn:N; [rewrite AN by reflexivity; reflexivity|]. rewrite AV by reflexivity.
    destruct sg; [reflexivity|]. destruct w; reflexivity.
Qed.
Lemma effective_ok w b sg k : base_ok b -> effective w b sg = Some k -> radix_ok k.
Proof.
  unfold effective, base_ok. destruct b as [k'|]; [intros H E; injection E as <-; exact H|]. intros _. destruct sg; [intros E; injection E as <-; unfold radix_ok; tauto|].
  destruct w; [|discriminate]. intros E. injection E as <-. unfold radix_ok; tauto.
Qed.
(** plain decimal numbers *)
Lemma read_plain n : 0 <= n -> int_text (show 10 n) None None false = Some (mkInt (VI n) None None false) /\ read_literal (show 10 n) = Some (mkLit false None true n).
Proof.
  intros N. assert (D : digits_ 10 0 (show 10 n) = Some n) by (apply show_digits; lia). pose proof (show_nonempty 10 n) as NE.
  pose proof (digits_below _ _ _ _ D) as E. set (t := show 10 n) in *. clearbody t.
  assert (NO : forall c, below 10 c = false -> every (no c) t = true) by (intros c C; exact (every_no _ c t C E)).
  assert (SE : forall c, below 10 c = false -> search c t = None) by (intros c C; unfold search; rewrite after_none by (apply NO, C); reflexivity).
  assert (SW : forall c, search_width c t = None) by (intros c; unfold search_width; rewrite before_none by (apply NO; reflexivity); reflexivity).
  assert (ST : strip t = t) by (apply strip_id, NO; reflexivity).
  split.
  - unfold int_text, str_to_value, str_to_width, str_to_signed. rewrite ST. rewrite !SE, !SW by reflexivity.
    rewrite (pyint_digits 10 t n); [reflexivity|unfold radix_ok; tauto|exact NE|exact D].
  - rewrite read_positive.
    + unfold unsigned_literal. rewrite split_none by (apply NO; reflexivity). pose proof (digits_numeric 10 t n ltac:(lia) NE D) as ND.
      destruct t; [discriminate|]. rewrite ND. reflexivity.
    + destruct t as [|c r]; [discriminate|]. pose proof (NO "-"%char eq_refl) as Q. cbn [every] in Q. apply andb_true_iff in Q as [Q _].
      unfold no in Q. apply negb_true_iff in Q. exact Q.
Qed.
Lemma read_back w sg k v B : width_ok w -> radix_ok k -> every (okc k) B = true -> nonempty B = true -> value_of k B = Some (v, Some k) ->
  int_text (width_text w ++ "'" ++ sg_text sg ++ String (mark k) B) None None false = Some (mkInt v (if sg then None else w) (Some k) sg).
Proof.
  intros HW HK OK NE V. destruct (width_text_ok w HW) as (_ & A & C). exact (read_text _ _ sg k (mark k) v w (mark_ok k HK) A OK NE C V).
Qed.
Lemma lit_back (neg : bool) w sg k n : width_ok w -> radix_ok k -> 0 <= n ->
  read_literal ((if neg then "-" else "") ++ width_text w ++ "'" ++ sg_text sg ++ String (mark k) (show k n)) = Some (mkLit neg w sg n).
Proof.
  intros HW HK N. destruct (width_text_ok w HW) as (A & _ & _). destruct (letter_ok k _ (mark_ok k HK)) as [_ R].
  assert (U : forall neg, unsigned_literal neg (width_text w ++ "'" ++ sg_text sg ++ String (mark k) (show k n)) = Some (mkLit neg w sg n)).
  { intros g. exact (unsigned_lit _ w g sg k _ _ n A R (letter_s k _ (mark_ok k HK)) (show_numeric k n HK N)). }
  destruct neg; [exact (U true)|]. cbn [append]. rewrite read_positive; [apply U|]. exact (head_ok _ w _ A).
Qed.
