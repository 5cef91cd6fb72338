(** C36: integer literals. *)
From Coq Require Import String Ascii.
From Verif Require Import Base Bits Vx_Model Vx_Sem Lit_Model Lit_Spec Lit_Proofs.
Open Scope string_scope.
Open Scope Z_scope.

(** The emitted text is a literal with the size, sign and magnitude of the constant. *)
Theorem C36_denotes : forall v w b sg, (forall n, w = Some n -> 0 < n) -> (b = None \/ b = Some 2 \/ b = Some 8 \/ b = Some 10 \/ b = Some 16) ->
  exists text, print_int (int_num v w b sg) = Some text /\
  read_literal text = Some (mkLit (v <? 0) w (match w, b with None, None => true | _, _ => (v <? 0) || sg end) (Z.abs v)).
Proof.
  intros v w b sg HW HB.
  assert (W : width_ok w) by (unfold width_ok; destruct w; [apply HW; reflexivity|exact Logic.I]).
  assert (B : base_ok b) by (unfold base_ok, radix_ok; destruct HB as [->|[->|[->|[->| ->]]]]; tauto).
  eexists. split; [exact (print_form v w b sg W B)|].
  assert (SG : signed_ v sg = (v <? 0) || sg) by (unfold signed_; destruct (v <? 0); reflexivity).
  destruct (effective w b (signed_ v sg)) as [k|] eqn:E.
  - rewrite (lit_back _ w _ k (Z.abs v) W (effective_ok _ _ _ _ B E) (Z.abs_nonneg v)). do 2 f_equal. rewrite SG in *.
    destruct w; [reflexivity|]. destruct b; [reflexivity|]. cbn [effective] in E. destruct ((v <? 0) || sg); [reflexivity|discriminate].
  - rewrite SG in E. unfold effective in E. destruct b; [discriminate|]. destruct (v <? 0); [discriminate|]. cbn [orb] in E. destruct sg; [discriminate|].
    destruct w; [discriminate|]. cbn [append]. apply read_plain, Z.abs_nonneg.
Qed.
(** The meaning given to constants in expressions is that of this text. *)
Theorem C36_meaning : forall v w b sg text L, (forall n, w = Some n -> 0 < n) -> (b = None \/ b = Some 2 \/ b = Some 8 \/ b = Some 10 \/ b = Some 16) ->
  print_int (int_num v w b sg) = Some text -> read_literal text = Some L ->
  forall E, let n := match size L with Some n => n | None => 32 end in
  swid E (int_node v w b sg) = n /\ ssig E (int_node v w b sg) = lsigned L /\
  forall W S, ev E W S (int_node v w b sg) = ((if negated L then -1 else 1) * value n S (magnitude L)) mod 2 ^ W.
Proof.
  intros v w b sg text L HW HB P R E n. destruct (C36_denotes v w b sg HW HB) as (t & P' & R'). rewrite P in P'. injection P' as <-.
  rewrite R in R'. injection R' as ->. subst n. unfold int_node. cbn [size lsigned negated magnitude swid ssig ev].
  split; [destruct w; reflexivity|]. split.
  - unfold lit_signed. destruct w; [|destruct b; [|reflexivity]]; destruct (v <? 0); reflexivity.
  - intros W S. unfold lit. destruct (Z.ltb_spec v 0).
    + rewrite Z.abs_neq by lia. destruct w; (f_equal; cbn [wd]; lia).
    + rewrite Z.abs_eq by lia. destruct w; (f_equal; cbn [wd]; lia).
Qed.
(** So a constant that fits in its size has its value. *)
Theorem C36_value : forall v n b sg text L, 0 < n -> (b = None \/ b = Some 2 \/ b = Some 8 \/ b = Some 10 \/ b = Some 16) ->
  print_int (int_num v (Some n) b sg) = Some text -> read_literal text = Some L ->
  (if (v <? 0) || sg then - 2 ^ (n - 1) <= v < 2 ^ (n - 1) else v < 2 ^ n) ->
  value n (lsigned L) ((if negated L then -1 else 1) * magnitude L) = v.
Proof.
  intros v n b sg text L HN HB P R F. destruct (C36_denotes v (Some n) b sg) as (t & P' & R').
  - intros k K. injection K as <-. exact HN.
  - exact HB.
  - rewrite P in P'. injection P' as <-. rewrite R in R'. injection R' as ->. cbn [negated magnitude lsigned].
    assert (EQ : (if v <? 0 then -1 else 1) * Z.abs v = v) by (destruct (Z.ltb_spec v 0); lia). rewrite EQ.
    pose proof (pow_split n ltac:(lia)) as SP. pose proof (pow_pos (n - 1) ltac:(lia)) as PP.
    destruct ((v <? 0) || sg) eqn:S; cbn [value].
    + unfold sgn. destruct (Z.ltb_spec v 0) as [NV|NV].
      * replace (v mod 2 ^ n) with (v + 2 ^ n) by (apply Z.mod_unique with (q := -1); [left; lia|lia]).
        destruct (Z.ltb_spec (v + 2 ^ n) (2 ^ (n - 1))); lia.
      * rewrite Z.mod_small by lia. rewrite (proj2 (Z.ltb_lt _ _)) by lia. reflexivity.
    + unfold uns. apply orb_false_iff in S as [S _]. apply Z.ltb_ge in S. apply Z.mod_small. lia.
Qed.
(** Reading the text of an unsigned constant back gives the constant (the base, if it was left open,
    is decimal); printing it again gives the same text. *)
Theorem C36_unsigned_partial : forall v w b, 0 <= v -> (forall n, w = Some n -> 0 < n) -> (b = None \/ b = Some 2 \/ b = Some 8 \/ b = Some 10 \/ b = Some 16) ->
  exists text c, print_int (int_num v w b false) = Some text /\ int_text text None None false = Some c /\
  ival c = VI v /\ iwidth c = w /\ isigned c = false /\ ibase c = (match b, w with None, Some _ => Some 10 | _, _ => b end) /\
  print_int c = Some text.
Proof.
  intros v w b V HW HB.
  assert (W : width_ok w) by (unfold width_ok; destruct w; [apply HW; reflexivity|exact Logic.I]).
  assert (B : base_ok b) by (unfold base_ok, radix_ok; destruct HB as [->|[->|[->|[->| ->]]]]; tauto).
  assert (NV : (v <? 0) = false) by (apply Z.ltb_ge; exact V).
  assert (SG : signed_ v false = false) by (unfold signed_; rewrite NV; reflexivity).
  pose proof (print_form v w b false W B) as PF. rewrite SG, NV in PF. rewrite (Z.abs_eq v V) in PF. cbn [append] in PF.
  destruct (effective w b false) as [k|] eqn:E.
  - pose proof (effective_ok _ _ _ _ B E) as K. pose proof (radix_range k K) as KR.
    eexists. exists (mkInt (VI v) w (Some k) false). split; [exact PF|].
    split; [exact (read_back w false k (VI v) (show k v) W K (below_okc _ _ (show_below k v KR V)) (show_nonempty k v) (show_value k v K V))|].
    cbn [ival iwidth isigned ibase]. split; [reflexivity|]. split; [reflexivity|]. split; [reflexivity|].
    split; [rewrite <- E; unfold effective; destruct b; [reflexivity|]; destruct w; reflexivity|].
    pose proof (print_form v w (Some k) false W K) as PK. unfold int_num in PK. rewrite NV, SG, (Z.abs_eq v V) in PK. cbn [append effective] in PK. exact PK.
  - unfold effective in E. destruct b; [discriminate|]. destruct w; [discriminate|].
    eexists. exists (mkInt (VI v) None None false). split; [exact PF|]. split; [apply read_plain, V|]. repeat split.
    unfold int_num in PF. rewrite NV in PF. exact PF.
Qed.
(** Of signed constants value, base and sign come back, the width does not. *)
Theorem C36_signed_partial : forall v w b, 0 <= v -> (forall n, w = Some n -> 0 < n) -> (b = None \/ b = Some 2 \/ b = Some 8 \/ b = Some 10 \/ b = Some 16) ->
  exists text c, print_int (int_num v w b true) = Some text /\ int_text text None None false = Some c /\
  ival c = VI v /\ iwidth c = None /\ isigned c = true /\ ibase c = (match b with None => Some 10 | _ => b end).
Proof.
  intros v w b V HW HB.
  assert (W : width_ok w) by (unfold width_ok; destruct w; [apply HW; reflexivity|exact Logic.I]).
  assert (B : base_ok b) by (unfold base_ok, radix_ok; destruct HB as [->|[->|[->|[->| ->]]]]; tauto).
  assert (NV : (v <? 0) = false) by (apply Z.ltb_ge; exact V).
  assert (SG : signed_ v true = true) by (unfold signed_; destruct (v <? 0); reflexivity).
  pose proof (print_form v w b true W B) as PF. rewrite SG, NV, (Z.abs_eq v V) in PF. cbn [append] in PF.
  destruct (effective w b true) as [k|] eqn:E; [|destruct b; discriminate].
  pose proof (effective_ok _ _ _ _ B E) as K. pose proof (radix_range k K) as KR.
  eexists. exists (mkInt (VI v) None (Some k) true). split; [exact PF|].
  split; [exact (read_back w true k (VI v) (show k v) W K (below_okc _ _ (show_below k v KR V)) (show_nonempty k v) (show_value k v K V))|].
  cbn. repeat split. rewrite <- E. unfold effective. destruct b; reflexivity.
Qed.
Theorem C36_width_refuted : exists c text c', print_int c = Some text /\ int_text text None None false = Some c' /\
  c = int_num 5 (Some 8) (Some 16) true /\ iwidth c' <> iwidth c.
Proof.
  exists (int_num 5 (Some 8) (Some 16) true), "8'sh5", (mkInt (VI 5) None (Some 16) true).
  split; [reflexivity|]. split; [reflexivity|]. split; [reflexivity|]. discriminate.
Qed.
(** Negative constants come back positive. *)
Theorem C36_negative_refuted : exists c text c', print_int c = Some text /\ int_text text None None false = Some c' /\
  c = int_num (-5) (Some 8) (Some 10) true /\ ival c' = VI 5.
Proof.
  exists (int_num (-5) (Some 8) (Some 10) true), "-8'sd5", (mkInt (VI 5) None (Some 10) true). repeat split; reflexivity.
Qed.
(** The text made by [str] of a constant is read back with value, base and sign also if negative,
    and with the width if unsigned. *)
Theorem C36_str_partial : forall v w b sg, (forall n, w = Some n -> 0 < n) -> (b = None \/ b = Some 2 \/ b = Some 8 \/ b = Some 10 \/ b = Some 16) ->
  exists text c, str_int (int_num v w b sg) = Some text /\ int_text text None None false = Some c /\
  ival c = VI v /\ isigned c = ((v <? 0) || sg) /\ iwidth c = (if (v <? 0) || sg then None else w) /\
  (forall k, b = Some k -> ibase c = b).
Proof.
  intros v w b sg HW HB.
  assert (W : width_ok w) by (unfold width_ok; destruct w; [apply HW; reflexivity|exact Logic.I]).
  assert (B : base_ok b) by (unfold base_ok, radix_ok; destruct HB as [->|[->|[->|[->| ->]]]]; tauto).
  assert (SG : signed_ v sg = (v <? 0) || sg) by (unfold signed_; destruct (v <? 0); reflexivity).
  pose proof (str_form v w b sg W B) as PF. rewrite SG in PF.
  destruct (effective w b ((v <? 0) || sg)) as [k|] eqn:E.
  - pose proof (effective_ok _ _ _ _ B E) as K. pose proof (radix_range k K) as KR.
    eexists. exists (mkInt (VI v) (if (v <? 0) || sg then None else w) (Some k) ((v <? 0) || sg)). split; [exact PF|]. split.
    + apply (read_back w _ k (VI v)); try assumption.
      * rewrite every_app, (below_okc _ _ (show_below k (Z.abs v) KR (Z.abs_nonneg v))). destruct (v <? 0); [|reflexivity].
        cbn [every]. unfold okc. rewrite !orb_true_r. reflexivity.
      * destruct (v <? 0); [reflexivity|]. apply show_nonempty.
      * destruct (Z.ltb_spec v 0); cbn [append].
        -- unfold value_of. rewrite (pyint_minus k _ (Z.abs v) K (show_nonempty _ _) (show_digits k (Z.abs v) KR (Z.abs_nonneg v))). do 4 f_equal. lia.
        -- rewrite Z.abs_eq by lia. apply show_value; [exact K|lia].
    + cbn [ival iwidth isigned ibase]. repeat split. intros k' ->. unfold effective in E. symmetry. exact E.
  - unfold effective in E. destruct b; [discriminate|]. destruct (Z.ltb_spec v 0) as [|V]; [discriminate|]. cbn [orb] in *. destruct sg; [discriminate|].
    destruct w; [discriminate|]. eexists. exists (mkInt (VI v) None None false). split; [exact PF|]. split; [apply read_plain, V|]. repeat split.
Qed.
(** [Int] of any literal with a lower-case base and no sign mark has the value and size of the literal. *)
Theorem C36_parse_partial : forall pre w l b body n, (b = 2 /\ l = "b"%char \/ b = 8 /\ l = "o"%char \/ b = 10 /\ l = "d"%char \/ b = 16 /\ l = "h"%char) ->
  (pre = "" /\ w = None \/ exists k, numeric 10 pre = Some k /\ 0 < k /\ w = Some k) -> numeric b body = Some n ->
  let text := pre ++ "'" ++ String l body in
  read_literal text = Some (mkLit false w false n) /\ int_text text None None false = Some (mkInt (VI n) w (Some b) false).
Proof.
  intros pre w l b body n HL HW HB text.
  assert (L : letter b = Some l) by (destruct HL as [[-> ->]|[[-> ->]|[[-> ->]|[-> ->]]]]; reflexivity).
  destruct (letter_ok b l L) as [RB RL]. pose proof (radix_range b RB) as BR.
  assert (SZ : size_ok pre w) by (unfold size_ok; destruct HW as [[-> ->]|(k & A & C & ->)]; auto).
  split.
  - unfold text. rewrite read_positive by exact (head_ok pre w _ SZ). exact (unsigned_lit pre w false false b l body n SZ RL (letter_s b l L) HB).
  - apply numeric_digits in HB as [NB DB]. pose proof (below_okc _ _ (digits_below _ _ _ _ DB)) as OB.
    assert (P : every (below 10) (strip pre) = true /\ (if nonempty (strip pre) then option_map Some (pyint 10 (strip pre)) else Some None) = Some w).
    { destruct HW as [[-> ->]|(k & A & C & ->)]; [split; reflexivity|]. apply numeric_digits in A as [A1 A2]. split; [exact (digits_below _ _ _ _ A2)|].
      rewrite A1, (pyint_digits 10 _ k); [reflexivity|unfold radix_ok; tauto|exact A1|exact A2]. }
    destruct P as [P1 P2].
    assert (ST : strip text = strip pre ++ "'" ++ sg_text false ++ String l (strip body)).
    { unfold text. rewrite !strip_app. f_equal. cbn [strip append sg_text Ascii.eqb Bool.eqb]. f_equal.
      destruct (Ascii.eqb_spec l "_") as [->|]; [discriminate|reflexivity]. }
    rewrite int_text_strip.
    + rewrite ST. apply (read_text _ _ false b l (VI n) w L P1 OB NB P2). unfold value_of. rewrite (pyint_digits b _ n RB NB DB). reflexivity.
    + rewrite ST. exact (strip_t _ _ false b l L P1 OB).
Qed.
(** Texts with unknown digits come back as they are, unless they look like a Python prefix. *)
Theorem C36_unknown : forall w sg b body, (forall n, w = Some n -> 0 < n) -> (b = 2 \/ b = 8 \/ b = 10 \/ b = 16) ->
  every (fun c => below b c || xz c) body = true -> every (below b) body = false -> (b = 16 -> unprefixed 16 body = body) ->
  exists text, print_int (mkInt (VS body) w (Some b) sg) = Some text /\
  int_text text None None false = Some (mkInt (VS body) (if sg then None else w) (Some b) sg).
Proof.
  intros w sg b body HW HB X NX PX.
  assert (W : width_ok w) by (unfold width_ok; destruct w; [apply HW; reflexivity|exact Logic.I]).
  assert (B : radix_ok b) by (unfold radix_ok; tauto).
  assert (OK : every (okc b) body = true).
  { revert X. apply every_imp. intros c C. unfold okc. rewrite C. reflexivity. }
  assert (NE : nonempty body = true) by (destruct body; [discriminate|reflexivity]).
  assert (NO : forall c, below 16 c = false -> xz c = false -> every (no c) body = true).
  { intros c C1 C2. apply (every_no (fun c => below b c || xz c)); [|exact X].
    destruct (below b c) eqn:Q; [|exact C2]. apply (below_16 b) in Q; [congruence|]. destruct (radix_range b B); assumption. }
  assert (PI : pyint b body = None).
  { unfold pyint. destruct body as [|c r] eqn:EB; [reflexivity|]. rewrite <- EB in *.
    assert (C1 : Ascii.eqb c "-" = false).
    { pose proof (NO "-"%char eq_refl eq_refl) as Q. rewrite EB in Q. cbn [every] in Q. apply andb_true_iff in Q as [Q _]. apply negb_true_iff in Q. exact Q. }
    assert (C2 : Ascii.eqb c "+" = false).
    { pose proof (NO "+"%char eq_refl eq_refl) as Q. rewrite EB in Q. cbn [every] in Q. apply andb_true_iff in Q as [Q _]. apply negb_true_iff in Q. exact Q. }
    rewrite C1, C2. cbv beta iota zeta. fold (unprefixed b body).
    assert (U : unprefixed b body = body).
    { destruct B as [->|[->|[->| ->]]]; [| | |apply PX; reflexivity].
      - unfold unprefixed. rewrite EB. destruct r as [|p q]; [reflexivity|]. rewrite EB in X. cbn [every] in X. apply andb_true_iff in X as [_ X]. apply andb_true_iff in X as [X _].
        unfold base_mark. cbn [Z.eqb Pos.eqb]. destruct (Ascii.eqb_spec p "b") as [->|]; [discriminate|]. destruct (Ascii.eqb_spec p "B") as [->|]; [discriminate|].
        rewrite andb_false_r. reflexivity.
      - unfold unprefixed. rewrite EB. destruct r as [|p q]; [reflexivity|]. rewrite EB in X. cbn [every] in X. apply andb_true_iff in X as [_ X]. apply andb_true_iff in X as [X _].
        unfold base_mark. cbn [Z.eqb Pos.eqb]. destruct (Ascii.eqb_spec p "o") as [->|]; [discriminate|]. destruct (Ascii.eqb_spec p "O") as [->|]; [discriminate|].
        rewrite andb_false_r. reflexivity.
      - unfold unprefixed. rewrite EB. destruct r as [|p q]; [reflexivity|]. unfold base_mark. cbn [Z.eqb Pos.eqb]. rewrite andb_false_r. reflexivity. }
    rewrite U. destruct (digits_ b 0 body) eqn:D; [apply digits_below in D; congruence|]. destruct body; reflexivity. }
  assert (V : value_of b body = Some (VS body, Some b)) by (unfold value_of, check; rewrite PI, NE, X; reflexivity).
  eexists. split; [|exact (read_back w sg b (VS body) body W B OK NE V)].
  unfold print_int. cbn [ival ibase iwidth isigned]. rewrite after_none by (apply NO; reflexivity). cbv beta iota zeta. rewrite (mark_ok b B).
  cbn [append]. destruct sg; reflexivity.
Qed.
(** [8'h0x1] is read as the number 1. *)
Theorem C36_prefix_refuted : int_text "8'h0x1" None None false = Some (mkInt (VI 1) (Some 8) (Some 16) false).
Proof. reflexivity. Qed.
(** With an upper-case base a literal of value 213 is read as 5. *)
Theorem C36_uppercase_refuted : read_literal "8'Hd5" = Some (mkLit false (Some 8) false 213) /\
  int_text "8'Hd5" None None false = Some (mkInt (VI 5) None (Some 10) false).
Proof. split; reflexivity. Qed.

Example C36_examples :
  print_int (int_num 255 (Some 8) (Some 16) false) = Some "8'hff" /\ print_int (int_num (-3) (Some 8) None false) = Some "-8'sd3" /\
  print_int (int_num 1000 None None false) = Some "1000" /\ print_int (int_num 6 (Some 4) (Some 2) true) = Some "4'sb110" /\
  int_text "16'hDE_AD" None None false = Some (mkInt (VI 57005) (Some 16) (Some 16) false) /\
  int_text "8'b10x_z" None None false = Some (mkInt (VS "10xz") (Some 8) (Some 2) false) /\
  read_literal "-8'sd3" = Some (mkLit true (Some 8) true 3) /\ str_int (int_num (-200) (Some 12) (Some 16) true) = Some "12'sh-c8".
Proof. repeat split; reflexivity. Qed.
Example C36_parse_example : numeric 10 "1_6" = Some 16 /\ numeric 16 "dE_aD" = Some 57005 /\
  every (fun c => below 2 c || xz c) "1xZ0" = true /\ every (below 2) "1xZ0" = false.
Proof. repeat split; reflexivity. Qed.
Print Assumptions C36_denotes. Print Assumptions C36_meaning. Print Assumptions C36_value. Print Assumptions C36_unsigned_partial. Print Assumptions C36_signed_partial.
Print Assumptions C36_width_refuted. Print Assumptions C36_negative_refuted. Print Assumptions C36_str_partial. Print Assumptions C36_parse_partial. Print Assumptions C36_unknown.
Print Assumptions C36_prefix_refuted. Print Assumptions C36_uppercase_refuted.
