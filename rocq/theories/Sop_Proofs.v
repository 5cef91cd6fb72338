(** Proofs for Sop_Props.v. *)
From Coq Require Import QArith Qround Qabs.
From Verif Require Import Base Bits Vx_Model Vx_Sem Vx_Spec Vx_Proofs Fix_Model Fix_Spec Fix_Proofs Tree_Model Mult_Model Mult_Spec Mult_Props Div_Model Div_Spec Div_Props Sop_Model Sop_Spec.
Open Scope Z_scope.

(** ** Constants *)
Lemma int_width_pos z : 1 <= int_width z.
Proof. unfold int_width. destruct (Z.eqb_spec z 0); [lia|]. pose proof (Z.log2_nonneg (Z.abs z)). lia. Qed.
Lemma int_width_fits z : - 2 ^ (int_width z - 1) < z < 2 ^ (int_width z - 1).
Proof.
  unfold int_width. destruct (Z.eqb_spec z 0) as [->|N]; [cbn; lia|].
  replace (Z.log2 (Z.abs z) + 2 - 1) with (Z.succ (Z.log2 (Z.abs z))) by lia.
  destruct (Z.log2_spec (Z.abs z) ltac:(lia)) as [_ H]. lia.
Qed.
Lemma literal_of z b : Vx_Spec.literal (XInt z (Some (int_width z)) None (if z <? 0 then true else b)) z.
Proof.
  pose proof (int_width_pos z) as P. pose proof (int_width_fits z) as F. pose proof (pow_split (int_width z) P). pose proof (pow_pos (int_width z - 1) ltac:(lia)).
  constructor; cbn [wd lit_signed]; [exact P| |lia]. unfold Vx_Spec.fits. destruct (Z.ltb_spec z 0); [lia|]. destruct b; lia.
Qed.
(** a literal of that width reads as its value in every context *)
Lemma sized_ev E W S z b : ev E W S (int_node z (Some (int_width z)) None b) = z mod 2 ^ W.
Proof.
  unfold int_node. cbn [ev wd]. pose proof (int_width_pos z) as P. pose proof (int_width_fits z) as F. pose proof (pow_split (int_width z) P). pose proof (pow_pos (int_width z - 1) ltac:(lia)).
  unfold lit. f_equal. destruct S; cbn [value].
  - destruct (Z.ltb_spec z 0); rewrite sgn_small by lia; lia.
  - destruct (Z.ltb_spec z 0); rewrite uns_small by lia; lia.
Qed.
Lemma small_ev E W S z : - 2 ^ 31 < z < 2 ^ 31 -> ev E W S (XPy z) = z mod 2 ^ W.
Proof.
  intros H. cbn [ev]. unfold lit. f_equal. destruct S; cbn [value].
  - destruct (Z.ltb_spec z 0); rewrite sgn_small by lia; lia.
  - destruct (Z.ltb_spec z 0); rewrite uns_small by lia; lia.
Qed.
Lemma small_int_ev E W S z b : - 2 ^ 31 < z < 2 ^ 31 -> ev E W S (int_node z None None b) = z mod 2 ^ W.
Proof. intros H. pose proof (small_ev E W S z H) as X. exact X. Qed.

(** ** Operands *)
Lemma owidth_pos E o : wf E o -> 1 <= owidth o.
Proof. destruct o; cbn [wf owidth]; intros H; [lia|apply int_width_pos|apply int_width_pos]. Qed.
Lemma oraw_fits E o : wf E o -> Vx_Spec.fits (owidth o) (osigned o) (oraw E o).
Proof.
  destruct o as [x w p s|z s|z p s]; cbn [wf owidth osigned oraw]; intros H.
  - unfold Vx_Spec.fits. destruct s; [apply sgn_range; lia|apply uns_range; lia].
  - pose proof (int_width_pos z) as P. pose proof (int_width_fits z). pose proof (pow_split (int_width z) P). unfold Vx_Spec.fits. destruct s; [lia|]. specialize (H eq_refl). lia.
  - pose proof (int_width_pos z) as P. pose proof (int_width_fits z). pose proof (pow_split (int_width z) P). unfold Vx_Spec.fits. destruct s; [lia|]. specialize (H eq_refl). lia.
Qed.
Lemma odata_width E o : wf E o -> swid E (odata o) = owidth o.
Proof. destruct o; cbn [wf odata int_node swid owidth wd]; intros H; [apply H|reflexivity|reflexivity]. Qed.
Lemma odata_sign E o : wf E o -> ssig E (odata o) = printed_signed o.
Proof.
  destruct o as [x w p s|z s|z p s]; cbn [wf odata printed_signed]; unfold int_node; cbn [ssig lit_signed]; intros H.
  - apply H.
  - destruct (Z.ltb_spec z 0); [|reflexivity]. destruct s; [reflexivity|]. specialize (H eq_refl). lia.
  - destruct (z <? 0); reflexivity.
Qed.
Lemma osign_eq E o : wf E o -> osign o = printed_signed o.
Proof.
  destruct o as [x w p s|z s|z p s]; cbn [wf osign printed_signed]; intros H; auto.
  destruct (Z.ltb_spec z 0); [|reflexivity]. destruct s; [reflexivity|]. specialize (H eq_refl). lia.
Qed.
Lemma printed_osigned E o : wf E o -> printed_signed o = true -> osigned o = true.
Proof.
  destruct o as [x w p s|z s|z p s]; cbn [wf printed_signed osigned]; intros H P; auto.
  apply Z.ltb_lt in P. destruct s; [reflexivity|]. specialize (H eq_refl). lia.
Qed.
Lemma unsigned_nonneg E o : wf E o -> osigned o = false -> 0 <= oraw E o.
Proof. intros H S. pose proof (oraw_fits E o H) as F. rewrite S in F. unfold Vx_Spec.fits in F. lia. Qed.
Lemma value_nonneg w x s : 1 <= w -> 0 <= value w s x -> value w false x = value w s x.
Proof.
  intros W N. destruct s; [|reflexivity]. cbn [value] in *. unfold sgn, uns in *. pose proof (Z.mod_pos_bound x (2 ^ w) ltac:(apply pow_pos; lia)).
  destruct (_ <? _); lia.
Qed.
Lemma mod_congr_le a b u w : 0 <= u <= w -> a mod 2 ^ w = b mod 2 ^ w -> a mod 2 ^ u = b mod 2 ^ u.
Proof. intros H X. rewrite <- (mod_mod_le a w u), <- (mod_mod_le b w u) by lia. rewrite X. reflexivity. Qed.
(** what an operand gives in a context: exact modulo 2^w *)
Lemma odata_ev E W S o w : wf E o -> 0 <= w <= W -> (S = true -> printed_signed o = true) ->
  S = true \/ 0 <= oraw E o \/ w <= owidth o -> ev E W S (odata o) mod 2 ^ w = oraw E o mod 2 ^ w.
Proof.
  intros H Hw HS C. destruct o as [x n p s|z s|z p s]; cbn [wf odata oraw owidth printed_signed] in *.
  - destruct H as (H1 & H2 & H3). cbn [ev]. rewrite H2. rewrite mod_mod_le by lia. destruct S.
    + rewrite HS by reflexivity. reflexivity.
    + destruct C as [C|[C|C]]; [discriminate| |].
      * rewrite (value_nonneg n _ s) by assumption. reflexivity.
      * apply (mod_congr_le _ _ w n); [lia|]. rewrite !value_mod by lia. reflexivity.
  - rewrite sized_ev. apply mod_mod_le. lia.
  - rewrite sized_ev. apply mod_mod_le. lia.
Qed.
Lemma port_ok E o : wf E o -> port E (owidth o) o = oraw E o mod 2 ^ owidth o.
Proof.
  intros H. unfold port, assigned. pose proof (owidth_pos E o H). rewrite (odata_width E o H), (odata_sign E o H), Z.max_id.
  apply odata_ev; auto; [lia|]. right. right. lia.
Qed.
Lemma port_value E o : wf E o -> value (owidth o) (osigned o) (port E (owidth o) o) = oraw E o.
Proof. intros H. rewrite port_ok by assumption. apply value_fits; [eapply owidth_pos, H|apply oraw_fits, H]. Qed.

(** ** Alignment *)
Lemma adjust_gap l r lp rp signed : adjust l r lp rp signed = (data_of signed l (gap lp rp), data_of signed r (gap rp lp)).
Proof.
  unfold adjust, data_of, gap.
  replace (if rp <? lp then 0 else rp - lp) with (Z.max 0 (rp - lp)) by (destruct (Z.ltb_spec rp lp); lia).
  replace (if lp <? rp then 0 else lp - rp) with (Z.max 0 (lp - rp)) by (destruct (Z.ltb_spec lp rp); lia).
  reflexivity.
Qed.
(** the aligned operand: itself, a shifted signal, or a shifted literal *)
Definition aligned_data (o : operand) (d : Z) (sg : bool) : vx :=
  if d =? 0 then odata o else
  match o with
  | Sig x _ _ _ => XBin BSll (XVar x) (XPy d)
  | Cst z _ | Fxd z _ _ => if sg then int_node (z * 2 ^ d) None None true else XPy (z * 2 ^ d)
  end.
Lemma aligned_eq E o d sg : wf E o -> (sg = true -> osigned o = true) -> fe (data_of sg (obj o) d) = aligned_data o d sg.
Proof.
  intros H S. unfold data_of, aligned_data, obj. destruct (d =? 0); cbn [negb]; [rewrite andb_false_r; reflexivity|]. rewrite andb_true_r.
  destruct o as [x w p s|z s|z p s]; unfold shift_left, int_node; cbn [fe odata osign fs].
  - destruct sg; [|reflexivity]. unfold to_signed. cbn [fe fs]. cbn [osigned] in S. rewrite (S eq_refl). reflexivity.
  - destruct sg; reflexivity.
  - destruct sg; reflexivity.
Qed.
Lemma aligned_width E o d sg : wf E o -> swid E (aligned_data o d sg) = printed_width o d.
Proof.
  intros H. unfold aligned_data, printed_width. destruct (Z.eqb_spec d 0) as [->|N].
  - rewrite (odata_width E o H). destruct o; reflexivity.
  - destruct o as [x w p s|z s|z p s]; cbn [swid owidth]; [apply H|destruct sg; reflexivity|destruct sg; reflexivity].
Qed.
Lemma aligned_sign E o d sg : wf E o -> ssig E (aligned_data o d sg) = entered_signed o d.
Proof.
  intros H. unfold aligned_data, entered_signed. destruct (Z.eqb_spec d 0) as [->|N].
  - rewrite (odata_sign E o H). destruct o; reflexivity.
  - destruct o as [x w p s|z s|z p s]; cbn [ssig]; [apply H|destruct sg; reflexivity|destruct sg; reflexivity].
Qed.
Lemma aligned_ev E W S o d sg w : wf E o -> 1 <= w <= W -> 0 <= d < 2 ^ 31 -> literal_room o d ->
  (S = true -> entered_signed o d = true) -> S = true \/ 0 <= oraw E o \/ w <= owidth o + d ->
  ev E W S (aligned_data o d sg) mod 2 ^ w = (oraw E o * 2 ^ d) mod 2 ^ w.
Proof.
  intros H Hw D L HS C. unfold aligned_data, entered_signed in *. destruct (Z.eqb_spec d 0) as [->|N].
  - rewrite Z.mul_1_r. apply odata_ev; auto; [lia| |].
    + intros X. specialize (HS X). destruct o; exact HS.
    + destruct C as [C|[C|C]]; auto. right. right. lia.
  - destruct o as [x n p s|z s|z p s]; cbn [literal_room oraw owidth wf] in *.
    + destruct H as (H1 & H2 & H3). rewrite ev_shift by auto. cbn [shift]. rewrite (shift_amount E d) by lia. cbn [ev]. rewrite H2.
      pose proof (pow_pos W ltac:(lia)). rewrite Z.mul_mod_idemp_l by lia. rewrite mod_mod_le by lia. destruct S.
      * rewrite HS by reflexivity. reflexivity.
      * destruct C as [C|[C|C]]; [discriminate| |].
        -- rewrite (value_nonneg n _ s) by assumption. reflexivity.
        -- apply (mod_congr_le _ _ w (n + d)); [lia|]. rewrite Z.pow_add_r by lia.
           pose proof (pow_pos n ltac:(lia)). pose proof (pow_pos d ltac:(lia)).
           rewrite !Z.mul_mod_distr_r by lia. f_equal. rewrite !value_mod by lia. reflexivity.
    + destruct L as [L|L]; [lia|]. destruct sg; [rewrite small_int_ev by assumption|rewrite small_ev by assumption]; apply mod_mod_le; lia.
    + destruct L as [L|L]; [lia|]. destruct sg; [rewrite small_int_ev by assumption|rewrite small_ev by assumption]; apply mod_mod_le; lia.
Qed.
Lemma gap_range p q : Z.abs (p - q) < 2 ^ 31 -> 0 <= gap p q < 2 ^ 31 /\ 0 <= gap q p < 2 ^ 31.
Proof. unfold gap. lia. Qed.
Lemma common_width_l E l r : wf E l -> owidth l + gap (opoint l) (opoint r) <= common_width l r /\ 1 <= common_width l r.
Proof. intros H. pose proof (owidth_pos E l H). unfold common_width, common_point, gap. lia. Qed.
Lemma common_point_gap l r z : (fval (z * 2 ^ gap (opoint l) (opoint r)) (common_point l r) == fval z (opoint l))%Q.
Proof. unfold common_point. replace (Z.max (opoint l) (opoint r)) with (fmax (opoint l) (opoint r)) by (unfold fmax; destruct (Z.ltb_spec (opoint r) (opoint l)); lia). apply gap_value. Qed.
Lemma common_point_comm l r : common_point l r = common_point r l.
Proof. unfold common_point. apply Z.max_comm. Qed.
Lemma common_width_comm l r : common_width l r = common_width r l.
Proof. unfold common_width. rewrite common_point_comm. f_equal. apply Z.max_comm. Qed.

(** ** Sums *)
Lemma entered_of_printed o d : printed_signed o = true -> entered_signed o d = true.
Proof. destruct o; cbn [printed_signed entered_signed]; auto; intros ->; destruct (d =? 0); reflexivity. Qed.
Definition total (o : bop) (x y : Z) : Z := match o with BMinus => x - y | _ => x + y end.
Lemma sum_ok E o l r : o = BPlus \/ o = BMinus -> wf E l -> wf E r -> Z.abs (opoint l - opoint r) < 2 ^ 31 ->
  let gl := gap (opoint l) (opoint r) in let gr := gap (opoint r) (opoint l) in
  literal_room l gl -> literal_room r gr -> sign_kept E l r (common_width l r) l gl -> sign_kept E l r (common_width l r) r gr ->
  stored E (sum o l r) = total o (oraw E l * 2 ^ gl) (oraw E r * 2 ^ gr) mod 2 ^ common_width l r.
Proof.
  intros O Hl Hr G gl gr Ll Lr Kl Kr. destruct (gap_range _ _ G) as [Gl Gr]. fold gl gr in Gl, Gr.
  destruct (common_width_l E l r Hl) as [_ Wp].
  assert (T : exists a b, re (sum o l r) = XBin o a b /\ a = aligned_data l gl (both_signed l r) /\ b = aligned_data r gr (both_signed l r)).
  { unfold sum. rewrite adjust_gap. cbn [re]. do 2 eexists. split; [reflexivity|]. unfold both_signed.
    split; (rewrite (aligned_eq E); [reflexivity|assumption|]); intros X; apply andb_prop in X; apply X. }
  destruct T as (a & b & T & Ta & Tb).
  assert (Rw : rw (sum o l r) = common_width l r) by (unfold sum; destruct (adjust _ _ _ _ _); reflexivity).
  unfold stored, assigned. rewrite Rw, T. clear T Rw.
  assert (Sw : swid E (XBin o a b) = Z.max (swid E a) (swid E b) /\ ssig E (XBin o a b) = ssig E a && ssig E b) by (destruct O as [->| ->]; split; reflexivity).
  destruct Sw as [-> ->]. set (W := Z.max (common_width l r) _). assert (HW : common_width l r <= W) by apply Z.le_max_l. clearbody W.
  set (S := ssig E a && ssig E b).
  assert (Sa : S = true -> entered_signed l gl = true /\ entered_signed r gr = true).
  { unfold S. rewrite Ta, Tb, !aligned_sign by assumption. apply andb_prop. }
  assert (Sk : printed_signed l && printed_signed r = true -> S = true).
  { intros P. apply andb_prop in P as [P1 P2]. unfold S. rewrite Ta, Tb, !aligned_sign by assumption.
    rewrite !entered_of_printed by assumption. reflexivity. }
  clearbody S.
  assert (A : ev E W S a mod 2 ^ common_width l r = (oraw E l * 2 ^ gl) mod 2 ^ common_width l r).
  { rewrite Ta. apply aligned_ev; auto; [intros X; apply Sa, X|]. destruct Kl as [K|K]; [left; auto|right; exact K]. }
  assert (B : ev E W S b mod 2 ^ common_width l r = (oraw E r * 2 ^ gr) mod 2 ^ common_width l r).
  { rewrite Tb. apply aligned_ev; auto; [intros X; apply Sa, X|]. destruct Kr as [K|K]; [left; auto|right; exact K]. }
  pose proof (pow_pos (common_width l r) ltac:(lia)).
  destruct O as [->| ->]; cbn [ev Vx_Sem.arith total]; rewrite mod_mod_le by lia.
  - rewrite Z.add_mod, A, B, <- Z.add_mod by lia. reflexivity.
  - rewrite Zminus_mod, A, B, <- Zminus_mod. reflexivity.
Qed.
Definition qtotal (o : bop) (x y : Q) : Q := match o with BMinus => (x - y)%Q | _ => (x + y)%Q end.
Lemma sum_number o E l r :
  let gl := gap (opoint l) (opoint r) in let gr := gap (opoint r) (opoint l) in
  (fval (total o (oraw E l * 2 ^ gl) (oraw E r * 2 ^ gr)) (common_point l r) == qtotal o (number E l) (number E r))%Q.
Proof.
  intros gl gr. unfold number. pose proof (common_point_gap l r (oraw E l)) as A. pose proof (common_point_gap r l (oraw E r)) as B. rewrite common_point_comm in B.
  fold gl in A. fold gr in B. unfold total, qtotal. destruct o; rewrite ?fval_plus, ?fval_minus, A, B; reflexivity.
Qed.

(** ** Comparisons *)
Lemma compare_op_ok E o l r : Fix_Spec.comparison o -> wf E l -> wf E r -> Z.abs (opoint l - opoint r) < 2 ^ 31 ->
  let gl := gap (opoint l) (opoint r) in let gr := gap (opoint r) (opoint l) in
  let W := Z.max (printed_width l gl) (printed_width r gr) in let s := entered_signed l gl && entered_signed r gr in
  literal_room l gl -> literal_room r gr -> Vx_Spec.fits W s (oraw E l * 2 ^ gl) -> Vx_Spec.fits W s (oraw E r * 2 ^ gr) ->
  stored E (compare_op o l r) = b2z (qcompare o (number E l) (number E r)).
Proof.
  intros O Hl Hr G gl gr W s Ll Lr Fl Fr. destruct (gap_range _ _ G) as [Gl Gr]. fold gl gr in Gl, Gr.
  unfold stored, compare_op. rewrite adjust_gap. cbn [rw re]. fold gl gr. rewrite !(aligned_eq E) by (auto; discriminate).
  set (a := aligned_data l gl false). set (b := aligned_data r gr false).
  assert (T : truth E (XBin o a b) = qcompare o (number E l) (number E r)).
  { rewrite truth_cmp by assumption. unfold a, b. rewrite !aligned_width, !aligned_sign by assumption. fold W s. fold a b.
    assert (W1 : 1 <= W). { unfold W, printed_width. pose proof (owidth_pos E l Hl) as P. destruct l; cbn [owidth] in *; try destruct (_ =? 0); lia. }
    assert (V : forall q d sg, wf E q -> 0 <= d < 2 ^ 31 -> literal_room q d -> (s = true -> entered_signed q d = true) ->
                Vx_Spec.fits W s (oraw E q * 2 ^ d) -> value W s (ev E W s (aligned_data q d sg)) = oraw E q * 2 ^ d).
    { intros q d sg Hq Hd Lq Sq Fq. rewrite <- (value_fits W s (oraw E q * 2 ^ d)) by assumption.
      assert (X : ev E W s (aligned_data q d sg) mod 2 ^ W = (oraw E q * 2 ^ d) mod 2 ^ W).
      { apply aligned_ev; auto; [lia|]. destruct s; [left; reflexivity|]. right. left. unfold Vx_Spec.fits in Fq. pose proof (pow_pos d ltac:(lia)). nia. }
      rewrite <- X. unfold value. destruct s; [symmetry; apply sgn_of_mod; lia|]. unfold uns. rewrite Z.mod_mod; [reflexivity|]. pose proof (pow_pos W ltac:(lia)). lia. }
    unfold a, b. rewrite !V; auto; try (intros X; apply andb_prop in X; apply X).
    rewrite (compare_q o _ _ (common_point l r) O). apply qcompare_proper.
    - apply common_point_gap.
    - rewrite common_point_comm. apply common_point_gap. }
  rewrite <- T. unfold assigned, truth, self.
  replace (Z.max 1 (swid E (XBin o a b))) with 1 by (destruct O as [->|[->|[->|[->|[->| ->]]]]]; reflexivity).
  replace (swid E (XBin o a b)) with 1 by (destruct O as [->|[->|[->|[->|[->| ->]]]]]; reflexivity).
  replace (ssig E (XBin o a b)) with false by (destruct O as [->|[->|[->|[->|[->| ->]]]]]; reflexivity).
  destruct O as [->|[->|[->|[->|[->| ->]]]]]; cbn [ev]; match goal with |- context [compare ?o ?x ?y] => destruct (compare o x y) end; reflexivity.
Qed.

(** ** More on operands *)
Lemma pow_nz w : 0 <= w -> 2 ^ w <> 0.
Proof. intros H. pose proof (pow_pos w H). lia. Qed.
Lemma unprinted_nonneg E o : wf E o -> printed_signed o = false -> 0 <= oraw E o.
Proof.
  intros H P. destruct o as [x w p s|z s|z p s]; cbn [printed_signed] in P.
  - apply (unsigned_nonneg E (Sig x w p s) H). exact P.
  - apply H. exact P.
  - apply Z.ltb_ge in P. exact P.
Qed.
Lemma printed_fits E o : wf E o -> Vx_Spec.fits (owidth o) (printed_signed o) (oraw E o).
Proof.
  intros H. pose proof (oraw_fits E o H) as F. pose proof (owidth_pos E o H) as P. pose proof (pow_split _ P). pose proof (pow_pos (owidth o - 1) ltac:(lia)).
  destruct (printed_signed o) eqn:S.
  - rewrite (printed_osigned E o H S) in F. exact F.
  - pose proof (unprinted_nonneg E o H S). unfold Vx_Spec.fits in *. destruct (osigned o); lia.
Qed.
Lemma own_ev E W o w : wf E o -> 0 <= w <= W -> ev E W (printed_signed o) (odata o) mod 2 ^ w = oraw E o mod 2 ^ w.
Proof.
  intros H Hw. apply odata_ev; auto. destruct (printed_signed o) eqn:S; [auto|]. right. left. eapply unprinted_nonneg; eassumption.
Qed.
Lemma ev_mod E W S o : 0 <= W -> wf E o -> ev E W S (odata o) mod 2 ^ W = ev E W S (odata o).
Proof.
  intros HW H. pose proof (pow_pos W HW). destruct o; cbn [odata]; unfold int_node; cbn [ev]; unfold lit; apply Z.mod_mod; lia.
Qed.
Lemma own_at E W o : 0 <= W -> wf E o -> is_at E W (printed_signed o) (odata o) (oraw E o).
Proof. intros HW H. unfold is_at. rewrite <- ev_mod by assumption. apply own_ev; [assumption|lia]. Qed.
Lemma self_ok E o : wf E o -> self E (odata o) = oraw E o mod 2 ^ owidth o.
Proof. intros H. pose proof (owidth_pos E o H). unfold self. rewrite (odata_width E o H), (odata_sign E o H). apply own_at; [lia|assumption]. Qed.
Lemma self_amount E o : wf E o -> self E (odata o) = amount E o.
Proof. exact (self_ok E o). Qed.
Lemma amount_range E o : wf E o -> 0 <= amount E o < 2 ^ owidth o.
Proof. intros H. apply Z.mod_pos_bound, pow_pos. pose proof (owidth_pos E o H). lia. Qed.
Lemma self_zero E o : wf E o -> (self E (odata o) =? 0) = (oraw E o =? 0).
Proof. intros H. rewrite self_ok by assumption. eapply fits_zero; [eapply owidth_pos, H|apply oraw_fits, H]. Qed.
Lemma oraw_mod_bit E o i : wf E o -> 0 <= i < owidth o -> Z.testbit (oraw E o mod 2 ^ owidth o) i = Z.testbit (oraw E o) i.
Proof. intros H I. apply Z.mod_pow2_bits_low. lia. Qed.

(** ** Bitwise and logical operators *)
Lemma bitwise_mod o a b a' b' w : is_bitwise o -> 0 <= w -> a mod 2 ^ w = a' mod 2 ^ w -> b mod 2 ^ w = b' mod 2 ^ w ->
  bitwise o a b mod 2 ^ w = bitwise o a' b' mod 2 ^ w.
Proof.
  intros O W A B. destruct o; try contradiction; cbn [bitwise].
  - rewrite <- (land_mod a b), <- (land_mod a' b') by assumption. rewrite A, B. reflexivity.
  - rewrite <- (lxor_mod a b), <- (lxor_mod a' b') by assumption. rewrite A, B. reflexivity.
  - rewrite <- (lnot_mod (Z.lxor a b)), <- (lnot_mod (Z.lxor a' b')) by assumption.
    rewrite <- (lxor_mod a b), <- (lxor_mod a' b') by assumption. rewrite A, B. reflexivity.
  - rewrite <- (lor_mod a b), <- (lor_mod a' b') by assumption. rewrite A, B. reflexivity.
Qed.
Lemma bitwise_bit o a b i : is_bitwise o -> 0 <= i -> Z.testbit (bitwise o a b) i = bit_fun o (Z.testbit a i) (Z.testbit b i).
Proof.
  intros O I. destruct o; try contradiction; cbn [bitwise bit_fun]; rewrite ?Z.land_spec, ?Z.lor_spec, ?Z.lnot_spec, ?Z.lxor_spec by assumption; reflexivity.
Qed.
Lemma bitwise_ok E o l r : is_bitwise o -> wf E l -> wf E r -> let w := Z.max (owidth l) (owidth r) in
  sign_kept E l r w l 0 -> sign_kept E l r w r 0 -> stored E (logical o l r) = bitwise o (oraw E l) (oraw E r) mod 2 ^ w.
Proof.
  intros O Hl Hr w Kl Kr. pose proof (owidth_pos E l Hl). pose proof (owidth_pos E r Hr).
  assert (Rw : rw (logical o l r) = w) by (destruct o; try contradiction; reflexivity).
  unfold stored, assigned. rewrite Rw. unfold logical. cbn [re].
  assert (Sw : swid E (XBin o (odata l) (odata r)) = w /\ ssig E (XBin o (odata l) (odata r)) = printed_signed l && printed_signed r).
  { unfold w. rewrite <- (odata_width E l Hl), <- (odata_width E r Hr), <- (odata_sign E l Hl), <- (odata_sign E r Hr). destruct o; try contradiction; split; reflexivity. }
  destruct Sw as [-> ->]. rewrite Z.max_id. set (S := printed_signed l && printed_signed r) in *.
  assert (HS : S = true -> printed_signed l = true /\ printed_signed r = true) by apply andb_prop.
  assert (A : ev E w S (odata l) mod 2 ^ w = oraw E l mod 2 ^ w).
  { apply odata_ev; auto; [clear - H H0 w; unfold w; lia|intros X; apply HS, X|]. destruct Kl as [K|[K|K]]; auto. right. right. clear - K. lia. }
  assert (B : ev E w S (odata r) mod 2 ^ w = oraw E r mod 2 ^ w).
  { apply odata_ev; auto; [clear - H H0 w; unfold w; lia|intros X; apply HS, X|]. destruct Kr as [K|[K|K]]; auto. right. right. clear - K. lia. }
  assert (X : ev E w S (XBin o (odata l) (odata r)) = bitwise o (ev E w S (odata l)) (ev E w S (odata r)) mod 2 ^ w) by (destruct o; try contradiction; reflexivity).
  assert (W0 : 0 <= w) by (clear - H H0 w; unfold w; lia).
  rewrite X. rewrite Z.mod_mod by (apply pow_nz, W0). apply bitwise_mod; auto.
Qed.
Lemma connective_ok E o l r : o = BLand \/ o = BLor -> wf E l -> wf E r ->
  stored E (logical o l r) = b2z ((if match o with BLand => true | _ => false end then andb else orb) (negb (oraw E l =? 0)) (negb (oraw E r =? 0))).
Proof.
  intros O Hl Hr. pose proof (self_zero E l Hl) as A. pose proof (self_zero E r Hr) as B. unfold self in A, B.
  unfold stored, assigned, logical. destruct O as [->| ->]; cbn [rw re swid ssig ev]; rewrite A, B; destruct (oraw E l =? 0), (oraw E r =? 0); reflexivity.
Qed.

(** ** Shifts *)
Lemma fits_scale w s x n k : 1 <= w -> 0 <= n <= k -> Vx_Spec.fits w s x -> Vx_Spec.fits (w + k) s (x * 2 ^ n).
Proof.
  intros W N F. assert (M : 2 ^ n <= 2 ^ k) by (apply Z.pow_le_mono_r; lia). pose proof (pow_pos n ltac:(lia)). pose proof (pow_pos (w - 1) ltac:(lia)). pose proof (pow_pos w ltac:(lia)).
  unfold Vx_Spec.fits in *. replace (w + k - 1) with (w - 1 + k) by lia. rewrite !Z.pow_add_r by lia. destruct s; nia.
Qed.
Lemma fits_div w s x n : 1 <= w -> 0 <= n -> Vx_Spec.fits w s x -> Vx_Spec.fits w s (x / 2 ^ n).
Proof.
  intros W N F. pose proof (pow_pos n N) as P. pose proof (Z.div_mod x (2 ^ n) ltac:(lia)). pose proof (Z.mod_pos_bound x (2 ^ n) P). pose proof (pow_pos (w - 1) ltac:(lia)).
  unfold Vx_Spec.fits in *. destruct s; nia.
Qed.
Lemma sll_ok E l r res : wf E l -> wf E r -> 0 <= oraw E r \/ (exists x w p s, r = Sig x w p s) -> shift_op BSll l r = Some res ->
  rs res = osigned l /\ rp res = opoint l /\ value (rw res) (rs res) (stored E res) = oraw E l * 2 ^ amount E r.
Proof.
  intros Hl Hr C H. unfold shift_op in H. destruct (1024 <? sll_width l r); [discriminate|]. destruct (negb _); [discriminate|]. injection H as <-.
  cbn [rw rp rs re]. split; [reflexivity|]. split; [reflexivity|].
  pose proof (owidth_pos E l Hl) as Pl. pose proof (amount_range E r Hr) as Ra.
  assert (K : exists k, sll_width l r = owidth l + k /\ amount E r <= k).
  { unfold sll_width. eexists. split; [reflexivity|]. destruct r as [x w p s|z s|z p s]; cbn [owidth] in *; [lia| |].
    - destruct C as [C|(x & w & p & s' & C)]; [|discriminate]. cbn [oraw] in C. unfold amount. cbn [oraw owidth]. apply Z.mod_le; [exact C|apply pow_pos; pose proof (int_width_pos z); lia].
    - destruct C as [C|(x & w & p' & s' & C)]; [|discriminate]. cbn [oraw] in C. unfold amount. cbn [oraw owidth]. apply Z.mod_le; [exact C|apply pow_pos; pose proof (int_width_pos z); lia]. }
  destruct K as (k & -> & Kn). unfold stored, assigned. cbn [rw re swid ssig]. rewrite (odata_width E l Hl), (odata_sign E l Hl), Z.max_l by lia.
  assert (A : is_at E (owidth l + k) (printed_signed l) (XBin BSll (odata l) (odata r)) (oraw E l * 2 ^ amount E r)).
  { apply at_sll; [lia|lia|apply self_amount, Hr|]. apply own_at; [lia|assumption]. }
  rewrite A. rewrite Z.mod_mod by (pose proof (pow_pos (owidth l + k) ltac:(lia)); lia). apply value_fits; [lia|]. apply fits_scale; [assumption|lia|apply oraw_fits, Hl].
Qed.
Lemma sra_ok E l r res : wf E l -> wf E r -> shift_op BSra l r = Some res ->
  rw res = owidth l /\ rs res = osigned l /\ rp res = opoint l /\ value (rw res) (rs res) (stored E res) = oraw E l / 2 ^ amount E r.
Proof.
  intros Hl Hr H. unfold shift_op in H. destruct (negb _); [discriminate|]. injection H as <-.
  cbn [rw rp rs re]. split; [reflexivity|]. split; [reflexivity|]. split; [reflexivity|].
  pose proof (owidth_pos E l Hl) as Pl. pose proof (amount_range E r Hr) as Ra.
  unfold stored, assigned. cbn [rw re swid ssig]. rewrite (odata_width E l Hl), (odata_sign E l Hl), Z.max_id.
  assert (A : is_at E (owidth l) (printed_signed l) (XBin BSra (odata l) (odata r)) (oraw E l / 2 ^ amount E r)).
  { apply at_sra; [lia|lia|apply self_amount, Hr|apply printed_fits, Hl|]. apply own_at; [lia|assumption]. }
  rewrite A. rewrite Z.mod_mod by (pose proof (pow_pos (owidth l) ltac:(lia)); lia). apply value_fits; [lia|]. apply fits_div; [assumption|lia|apply oraw_fits, Hl].
Qed.
Lemma srl_ok E l r res : wf E l -> wf E r -> shift_op BSrl l r = Some res ->
  rw res = owidth l /\ rs res = false /\ rp res = opoint l /\ stored E res = (oraw E l mod 2 ^ owidth l) / 2 ^ amount E r.
Proof.
  intros Hl Hr H. unfold shift_op in H. destruct (negb _); [discriminate|]. injection H as <-.
  cbn [rw rp rs re]. split; [reflexivity|]. split; [reflexivity|]. split; [reflexivity|].
  pose proof (owidth_pos E l Hl) as Pl. pose proof (amount_range E r Hr) as Ra. pose proof (Z.mod_pos_bound (oraw E l) (2 ^ owidth l) ltac:(apply pow_pos; lia)).
  unfold stored, assigned. cbn [rw re swid ssig]. rewrite (odata_width E l Hl), (odata_sign E l Hl), Z.max_id.
  rewrite ev_shift by auto. cbn [shift]. rewrite (self_amount E r Hr). rewrite own_at by (try assumption; lia).
  apply Z.mod_small. pose proof (pow_pos (amount E r) ltac:(lia)). split; [apply Z.div_pos; lia|]. apply Z.div_lt_upper_bound; nia.
Qed.
Lemma shift_defined o l r : o = BSrl \/ o = BSra \/ (o = BSll /\ sll_width l r <= 1024) -> opoint r = 0 -> exists res, shift_op o l r = Some res.
Proof.
  intros O P. unfold shift_op. rewrite P. cbn [Z.eqb negb]. destruct O as [->|[->|[-> H]]]; eauto. destruct (Z.ltb_spec 1024 (sll_width l r)); [lia|]. eauto.
Qed.

(** ** Products *)
Lemma tape_repeat a b d : tape_of (repeat (mkMulIn true a b true false) d) = repeat (a, b, true) d.
Proof.
  unfold tape_of. assert (X : forall n t, fold_left tape_step (repeat (mkMulIn true a b true false) n) t = repeat (a, b, true) n ++ t).
  { induction n as [|n IH]; intros t; [reflexivity|]. cbn [repeat fold_left]. rewrite IH. unfold tape_step. cbn [mi_rst mi_update mi_a mi_b mi_enable andb negb].
    change ((a, b, true) :: t) with ([(a, b, true)] ++ t). rewrite app_assoc. f_equal. symmetry. change ((a, b, true) :: repeat (a, b, true) n) with (repeat (a, b, true) (S n)). rewrite <- repeat_cons. reflexivity. }
  rewrite X. apply app_nil_r.
Qed.
Lemma nth_repeat' {A} (x : A) n k : (k < n)%nat -> nth_error (repeat x n) k = Some x.
Proof. revert k. induction n as [|n IH]; intros k H; [lia|]. destruct k; [reflexivity|]. apply IH. lia. Qed.
Lemma product_ok E d l r : (2 <= d)%nat -> wf E l -> wf E r -> product E d l r = (oraw E l * oraw E r) mod 2 ^ (owidth l + owidth r).
Proof.
  intros D Hl Hr. unfold product.
  pose proof (C17_product (owidth l) (owidth r) (osigned l) (osigned r) d (mkMul 0 0 (repeat 0 (d - 1)))
    (repeat (mkMulIn true (port E (owidth l) l) (port E (owidth r) r) true false) d) (owidth_pos E l Hl) (owidth_pos E r Hr) D (repeat_length _ _)) as H.
  cbv zeta in H. rewrite tape_repeat, nth_repeat' in H by lia. destruct H as [H _]. rewrite H, !port_value by assumption. reflexivity.
Qed.
Lemma div_mod_bits x a k w : 0 <= k -> 0 <= w -> k + w <= a -> (x mod 2 ^ a) / 2 ^ k mod 2 ^ w = x / 2 ^ k mod 2 ^ w.
Proof.
  intros K W H. apply Z.bits_inj'. intros i I. destruct (Z.ltb_spec i w).
  - rewrite !Z.mod_pow2_bits_low by lia. rewrite !Z.div_pow2_bits by lia. apply Z.mod_pow2_bits_low. lia.
  - rewrite !Z.mod_pow2_bits_high by lia. reflexivity.
Qed.
Lemma wire_ev w s v W S : ev (wire w s v) W S (XVar 0) = value w S v mod 2 ^ W.
Proof. reflexivity. Qed.
Lemma wire_assigned w s v u : 1 <= w -> 0 <= u -> assigned (wire w s v) u (XVar 0) = value w s v mod 2 ^ u.
Proof. intros W U. unfold assigned. cbn [swid ssig wire dw ds]. rewrite wire_ev. apply mod_mod_le. lia. Qed.
Lemma times_point_le l r : times_point l r <= opoint l + opoint r.
Proof. unfold times_point. lia. Qed.
Lemma times_ok' E d l r : (2 <= d)%nat -> wf E l -> wf E r ->
  let size := opoint l + opoint r - times_point l r in size < 2 ^ 31 ->
  both_signed l r = true \/ 0 <= oraw E l * oraw E r \/ size <= Z.min (owidth l) (owidth r) ->
  times E d l r = (oraw E l * oraw E r) / 2 ^ size mod 2 ^ times_width l r.
Proof.
  intros D Hl Hr size B C. pose proof (times_point_le l r) as Sz. fold size in Sz. assert (S0 : 0 <= size) by (unfold size; lia). clear Sz.
  pose proof (owidth_pos E l Hl) as Pl. pose proof (owidth_pos E r Hr) as Pr. unfold times. fold size. rewrite product_ok by assumption.
  set (x := oraw E l * oraw E r) in *. set (w := owidth l + owidth r). set (s := both_signed l r) in *.
  assert (Tw : 0 <= times_width l r <= w) by (unfold times_width, w; lia).
  assert (Fx : s = true -> Vx_Spec.fits w true x).
  { intros S. unfold s, both_signed in S. apply andb_prop in S as [S1 S2]. pose proof (oraw_fits E l Hl) as F1. pose proof (oraw_fits E r Hr) as F2. rewrite S1 in F1. rewrite S2 in F2.
    unfold Vx_Spec.fits in *. unfold x, w. replace (owidth l + owidth r - 1) with (1 + ((owidth l - 1) + (owidth r - 1))) by lia. rewrite !Z.pow_add_r by lia.
    pose proof (pow_pos (owidth l - 1) ltac:(lia)). pose proof (pow_pos (owidth r - 1) ltac:(lia)). change (2 ^ 1) with 2. clear - F1 F2 H H0.
    set (a := 2 ^ (owidth l - 1)) in *. set (b := 2 ^ (owidth r - 1)) in *. clearbody a b. generalize dependent (oraw E l). generalize dependent (oraw E r). intros y Fy x Fx. nia. }
  assert (Fn : 0 <= x -> x < 2 ^ w).
  { intros N. pose proof (oraw_fits E l Hl) as F1. pose proof (oraw_fits E r Hr) as F2. unfold Vx_Spec.fits in *. unfold x, w in *. rewrite Z.pow_add_r by lia.
    pose proof (pow_split _ Pl). pose proof (pow_split _ Pr). pose proof (pow_pos (owidth l - 1) ltac:(lia)). pose proof (pow_pos (owidth r - 1) ltac:(lia)).
    clear - F1 F2 H H0 H1 H2 N. generalize dependent (oraw E l). generalize dependent (oraw E r). intros y Fy x Fx N.
    set (a := 2 ^ (owidth l - 1)) in *. set (b := 2 ^ (owidth r - 1)) in *. rewrite H, H0 in *. clearbody a b.
    assert (- (2 * a) < x < 2 * a) by (destruct (osigned l); lia). assert (- (2 * b) < y < 2 * b) by (destruct (osigned r); lia). nia. }
  assert (V : assigned (wire w s (x mod 2 ^ w)) w (if 0 <? size then fe (shift_right (mkF (XVar 0) 0 s) size s) else XVar 0) mod 2 ^ times_width l r = x / 2 ^ size mod 2 ^ times_width l r /\
              (forall v, assigned (wire w s v) (times_width l r) (XVar 0) = v mod 2 ^ times_width l r)).
  { split.
    - destruct (Z.ltb_spec 0 size) as [Z|Z].
      + unfold assigned, shift_right. cbn [fe]. destruct s eqn:Es; cbn [fe swid ssig wire dw ds]; rewrite Z.max_id.
        * assert (A : is_at (wire w true (x mod 2 ^ w)) w true (XBin BSra (XVar 0) (XPy size)) (x / 2 ^ size)).
          { apply at_sra; [lia|lia|apply shift_amount; lia|auto|]. unfold is_at. rewrite wire_ev. f_equal. apply value_fits; [lia|auto]. }
          rewrite A, !mod_mod_le by lia. reflexivity.
        * rewrite ev_shift by auto. cbn [shift]. rewrite shift_amount by lia. rewrite wire_ev. cbn [value]. unfold uns. rewrite !Z.mod_mod by (pose proof (pow_pos w ltac:(lia)); lia).
          rewrite mod_mod_le by lia. destruct C as [C|[C|C]]; [discriminate| |].
          -- rewrite (Z.mod_small x) by auto. reflexivity.
          -- apply div_mod_bits; [lia|lia|]. unfold times_width, w. lia.
      + replace size with 0 by lia. rewrite Z.div_1_r. rewrite wire_assigned by lia. rewrite value_mod by lia. rewrite !mod_mod_le by lia. reflexivity.
    - intros v. rewrite wire_assigned by lia. apply (mod_congr_le _ _ _ w); [lia|]. apply value_mod. lia. }
  destruct V as [V1 V2]. rewrite V2. exact V1.
Qed.
Lemma madd_repeat a b c d : madd_tape (repeat (mkMaddIn true a b c) d) = repeat (a, b, c) d.
Proof.
  unfold madd_tape. assert (X : flat_map (fun i => if ai_update i then [(ai_a i, ai_b i, ai_c i)] else []) (repeat (mkMaddIn true a b c) d) = repeat (a, b, c) d).
  { induction d as [|d IH]; [reflexivity|]. cbn [repeat flat_map ai_update ai_a ai_b ai_c app]. rewrite IH. reflexivity. }
  rewrite X. clear X. induction d as [|d IH]; [reflexivity|]. cbn [repeat rev]. rewrite IH. rewrite <- repeat_cons. reflexivity.
Qed.
Lemma muladd_ok E d a b c v : (2 <= d)%nat -> wf E a -> wf E b -> wf E c -> muladd E d a b c = Some v ->
  opoint a + opoint b = opoint c /\ v = (oraw E a * oraw E b + oraw E c) mod 2 ^ muladd_width a b c.
Proof.
  intros D Ha Hb Hc H. unfold muladd in H. destruct (Z.eqb_spec (opoint a + opoint b) (opoint c)) as [P|]; [|discriminate]. cbn [negb] in H. split; [exact P|].
  pose proof (owidth_pos E a Ha) as Pa. pose proof (owidth_pos E b Hb) as Pb. pose proof (owidth_pos E c Hc) as Pc.
  rewrite (C17_madd (owidth a) (owidth b) (owidth c) (osigned a) (osigned b) (osigned c) d _ _ (port E (owidth a) a) (port E (owidth b) b) (port E (owidth c) c) Pa Pb Pc D) in H;
    [|apply repeat_length|rewrite madd_repeat; apply nth_repeat'; lia].
  rewrite !port_value in H by assumption. injection H as <-. set (w := Z.max (owidth a + owidth b) (owidth c)).
  assert (M : 0 <= muladd_width a b c <= w) by (unfold muladd_width, w; lia).
  rewrite wire_assigned by lia. apply (mod_congr_le _ _ _ w); [lia|]. rewrite value_mod by lia. rewrite wire_assigned by lia. rewrite Z.mod_mod by (pose proof (pow_pos w ltac:(lia)); lia).
  rewrite value_mod by lia. apply Z.mod_mod. pose proof (pow_pos w ltac:(lia)). lia.
Qed.

(** ** Division *)
Lemma dtape_repeat a b d : dtape (repeat (mkDivIn false true true a b) d) = repeat (a, b, true) d.
Proof.
  unfold dtape. assert (X : forall n t, fold_left dtape_step (repeat (mkDivIn false true true a b) n) t = repeat (a, b, true) n ++ t).
  { induction n as [|n IH]; intros t; [reflexivity|]. cbn [repeat fold_left]. rewrite IH. unfold dtape_step. cbn [di_rst di_update di_a di_b di_enable].
    change ((a, b, true) :: t) with ([(a, b, true)] ++ t). rewrite app_assoc. f_equal. symmetry. change ((a, b, true) :: repeat (a, b, true) n) with (repeat (a, b, true) (S n)). rewrite <- repeat_cons. reflexivity. }
  rewrite X. apply app_nil_r.
Qed.
Lemma stage0_idle W : idle W (mkDiv (repeat stage0 (Z.to_nat (W + 1))) 0 0 false).
Proof.
  unfold idle. cbn. split; [apply repeat_length|]. split; [|reflexivity]. intros g I. apply repeat_spec in I. subst g. reflexivity.
Qed.
Lemma signed_ev E W a : ev E W true (XSigned a) = sgn (swid E a) (self E a) mod 2 ^ W.
Proof. reflexivity. Qed.
Lemma div_input_ok E w o d : wf E o -> 0 <= d < 2 ^ 31 -> literal_room o d -> owidth o + d <= w ->
  (osigned o = true -> Vx_Spec.fits (printed_width o d) true (oraw E o * 2 ^ d)) ->
  forall sg, div_input E w (osigned o) (mkF (aligned_data o d sg) 0 (osign o)) = (oraw E o * 2 ^ d) mod 2 ^ w.
Proof.
  intros H D L Hw F sg. pose proof (owidth_pos E o H) as P. unfold div_input. cbn [fe].
  assert (Pw : 1 <= printed_width o d) by (unfold printed_width; destruct o; cbn [owidth] in *; try destruct (_ =? 0); lia).
  assert (Own : ev E (printed_width o d) (entered_signed o d) (aligned_data o d sg) mod 2 ^ printed_width o d = (oraw E o * 2 ^ d) mod 2 ^ printed_width o d).
  { apply aligned_ev; auto; [lia|]. destruct (entered_signed o d) eqn:S; [auto|]. right. left. unfold entered_signed in S. destruct o; [apply (unprinted_nonneg E _ H), S| |];
      destruct (d =? 0); try discriminate; apply (unprinted_nonneg E _ H), S. }
  destruct (osigned o) eqn:S.
  - specialize (F eq_refl). unfold assigned. cbn [swid ssig]. rewrite signed_ev. rewrite mod_mod_le by lia. unfold self. rewrite aligned_width, aligned_sign by assumption.
    rewrite <- (sgn_of_mod (printed_width o d)) by lia. rewrite Own. change (sgn (printed_width o d)) with (value (printed_width o d) true). rewrite value_fits by assumption. reflexivity.
  - unfold assigned. apply aligned_ev; auto; [lia|rewrite aligned_sign by assumption; auto|].
    right. left. apply unsigned_nonneg; assumption.
Qed.
Lemma divider_ok E l r : wf E l -> wf E r -> Z.abs (opoint l - opoint r) < 2 ^ 31 -> osigned l = osigned r ->
  let gl := gap (opoint l) (opoint r) in let gr := gap (opoint r) (opoint l) in
  let x := oraw E l * 2 ^ gl in let y := oraw E r * 2 ^ gr in
  literal_room l gl -> literal_room r gr ->
  (osigned l = true -> Vx_Spec.fits (printed_width l gl) true x /\ Vx_Spec.fits (printed_width r gr) true y) -> oraw E r <> 0 ->
  divide E l r = Z.quot x y mod 2 ^ common_width l r /\ modulo E l r = Z.rem x y mod 2 ^ common_width l r.
Proof.
  intros Hl Hr G Sg gl gr x y Ll Lr F N. destruct (gap_range _ _ G) as [Gl Gr]. fold gl gr in Gl, Gr.
  destruct (common_width_l E l r Hl) as [Wl Wp]. destruct (common_width_l E r l Hr) as [Wr _]. fold gl in Wl. fold gr in Wr. rewrite common_width_comm in Wr.
  unfold divide, modulo, divider. rewrite adjust_gap. fold gl gr. set (w := common_width l r) in *.
  assert (A : div_input E w (osigned l) (data_of (both_signed l r) (obj l) gl) = x mod 2 ^ w).
  { transitivity (div_input E w (osigned l) (mkF (aligned_data l gl (both_signed l r)) 0 (osign l))).
    - unfold div_input. rewrite (aligned_eq E); [reflexivity|assumption|]. intros X. apply andb_prop in X. apply X.
    - apply div_input_ok; auto. intros X; apply F in X; apply X. }
  assert (B : div_input E w (osigned r) (data_of (both_signed l r) (obj r) gr) = y mod 2 ^ w).
  { transitivity (div_input E w (osigned r) (mkF (aligned_data r gr (both_signed l r)) 0 (osign r))).
    - unfold div_input. rewrite (aligned_eq E); [reflexivity|assumption|]. intros X. apply andb_prop in X. apply X.
    - apply div_input_ok; auto. intros X; rewrite <- Sg in X; apply F in X; apply X. }
  cbv beta iota zeta. rewrite A, B.
  assert (Fx : Vx_Spec.fits w (osigned l) x).
  { pose proof (fits_scale _ _ _ gl gl (owidth_pos E l Hl) ltac:(lia) (oraw_fits E l Hl)) as Q. fold x in Q. clear - Q Wl Gl Hl. pose proof (owidth_pos E l Hl).
    unfold Vx_Spec.fits in *. pose proof (Z.pow_le_mono_r 2 (owidth l + gl - 1) (w - 1) ltac:(lia) ltac:(lia)). pose proof (Z.pow_le_mono_r 2 (owidth l + gl) w ltac:(lia) ltac:(lia)). destruct (osigned l); lia. }
  assert (Fy : Vx_Spec.fits w (osigned r) y).
  { pose proof (fits_scale _ _ _ gr gr (owidth_pos E r Hr) ltac:(lia) (oraw_fits E r Hr)) as Q. fold y in Q. clear - Q Wr Gr Hr. pose proof (owidth_pos E r Hr).
    unfold Vx_Spec.fits in *. pose proof (Z.pow_le_mono_r 2 (owidth r + gr - 1) (w - 1) ltac:(lia) ltac:(lia)). pose proof (Z.pow_le_mono_r 2 (owidth r + gr) w ltac:(lia) ltac:(lia)). destruct (osigned r); lia. }
  assert (Ny : y <> 0) by (unfold y; pose proof (pow_pos gr ltac:(lia)); clear - N H; nia).
  set (ins := repeat _ (Z.to_nat (w + 2))). assert (T : nth_error (dtape ins) (Z.to_nat (w + 1)) = Some (x mod 2 ^ w, y mod 2 ^ w, true)).
  { unfold ins. rewrite dtape_repeat. apply nth_repeat'. lia. }
  assert (K : forall v, assigned (wire w (both_signed l r) v) w (XVar 0) = v mod 2 ^ w) by (intros v; rewrite wire_assigned by lia; apply value_mod; lia).
  rewrite !K. unfold both_signed. rewrite <- Sg in *. destruct (osigned l); cbn [andb].
  - pose proof (C18_signed_partial w _ ins Wp (stage0_idle w)) as H. cbv zeta in H. rewrite T in H. destruct H as [_ H].
    pose proof (value_fits w true x Wp Fx) as Vx. pose proof (value_fits w true y Wp Fy) as Vy. cbn [value] in Vx, Vy. rewrite Vx, Vy in H. destruct (H Ny) as [-> ->].
    rewrite !Z.mod_mod by (apply pow_nz; lia). split; reflexivity.
  - pose proof (C18_unsigned_partial w _ ins Wp (stage0_idle w)) as H. cbv zeta in H. rewrite T in H. destruct H as [_ H].
    pose proof (value_fits w false x Wp Fx) as Vx. pose proof (value_fits w false y Wp Fy) as Vy. cbn [value] in Vx, Vy. rewrite Vx, Vy in H. destruct (H Ny) as [-> ->].
    unfold Vx_Spec.fits in Fx, Fy. rewrite Z.quot_div_nonneg, Z.rem_mod_nonneg by lia. split; reflexivity.
Qed.

(** ** Unary operators *)
Lemma unary_ok E o r : wf E r -> o = UPlus \/ o = UMinus \/ o = UNot ->
  stored E (unary o r) = (match o with UPlus => oraw E r | UMinus => - oraw E r | _ => Z.lnot (oraw E r) end) mod 2 ^ owidth r.
Proof.
  intros H O. pose proof (owidth_pos E r H). pose proof (own_at E (owidth r) r ltac:(lia) H) as A. unfold is_at in A.
  assert (W0 : 0 <= owidth r) by lia. pose proof (pow_nz _ W0) as Nz.
  destruct O as [->|[->| ->]]; unfold stored, assigned, unary; cbn [rw re swid ssig ev]; rewrite (odata_width E r H), (odata_sign E r H), Z.max_id, A.
  - apply Z.mod_mod, Nz.
  - rewrite Z.mod_mod by exact Nz. rewrite <- !Z.sub_0_l. apply Zminus_mod_idemp_r.
  - rewrite Z.mod_mod by exact Nz. apply lnot_mod, W0.
Qed.
Lemma reduction_ok E o r : wf E r -> is_reduction o -> stored E (unary o r) = b2z (reduction o (bits (owidth r) (oraw E r))).
Proof.
  intros H O. pose proof (owidth_pos E r H). pose proof (self_ok E r H) as A. pose proof (odata_width E r H) as Wd.
  assert (B : bits (owidth r) (oraw E r) = map (fun i => Z.testbit (oraw E r mod 2 ^ owidth r) (Z.of_nat i)) (seq 0 (Z.to_nat (owidth r)))).
  { apply map_ext_in. intros i I. apply in_seq in I. symmetry. apply Z.mod_pow2_bits_low. lia. }
  pose proof (Z.mod_pos_bound (oraw E r) (2 ^ owidth r) (pow_pos (owidth r) ltac:(lia))) as R. rewrite B.
  assert (G : forall b, b2z b mod 2 ^ 1 = b2z b) by (intros b; apply b2z_small; lia).
  assert (X : fold_left xorb (map (fun i => Z.testbit (oraw E r mod 2 ^ owidth r) (Z.of_nat i)) (seq 0 (Z.to_nat (owidth r)))) false = parity (owidth r) (oraw E r mod 2 ^ owidth r)).
  { rewrite fold_left_map'. reflexivity. }
  unfold stored, assigned. destruct o; try contradiction; cbn [unary rw re swid ssig ev reduction]; fold (self E (odata r)); rewrite A, ?Wd, ?all_ones, ?any_ones, ?X by (try lia; exact R); rewrite ?negb_involutive; apply G.
Qed.

(** ** Casts *)
Lemma source_at E r W : wf E r -> is_at (source E r) W (osigned r) (XVar 0) (oraw E r).
Proof.
  intros H. unfold is_at, source. rewrite wire_ev. f_equal. change (assigned E (owidth r) (odata r)) with (port E (owidth r) r). apply port_value, H.
Qed.
Definition rescaled (x p q : Z) : Z := if q <? p then x / 2 ^ (p - q) else x * 2 ^ (q - p).
Lemma cast_ok E r w p : wf E r -> 1 <= dflt w (owidth r) -> Z.abs (dflt p (opoint r) - opoint r) < 2 ^ 31 ->
  cast E r w p = rescaled (oraw E r) (opoint r) (dflt p (opoint r)) mod 2 ^ dflt w (owidth r).
Proof.
  intros H Hw G. pose proof (owidth_pos E r H). set (w' := dflt w (owidth r)) in *. set (p' := dflt p (opoint r)) in *. unfold cast. fold w' p'.
  pose proof (oraw_fits E r H) as F. unfold rescaled. set (W := Z.max w' (owidth r)).
  assert (FW : Vx_Spec.fits W (osigned r) (oraw E r)).
  { unfold Vx_Spec.fits in *. pose proof (Z.pow_le_mono_r 2 (owidth r) W ltac:(lia) ltac:(unfold W; lia)). pose proof (Z.pow_le_mono_r 2 (owidth r - 1) (W - 1) ltac:(lia) ltac:(unfold W; lia)). destruct (osigned r); lia. }
  assert (W1 : 1 <= W /\ w' <= W) by (unfold W; lia).
  assert (M : forall e z, swid (source E r) e = owidth r -> ssig (source E r) e = osigned r -> is_at (source E r) W (osigned r) e z -> assigned (source E r) w' e = z mod 2 ^ w').
  { intros e z S1 S2 A. unfold assigned. rewrite S1, S2. fold W. rewrite A. apply mod_mod_le. lia. }
  destruct (Z.ltb_spec p' (opoint r)) as [P|P].
  - unfold shift_right. cbn [fe]. destruct (osigned r) eqn:S; cbn [fe]; apply M; try reflexivity; try (cbn [ssig source wire ds]; assumption).
    + apply at_sra; [lia|lia|apply shift_amount; lia|exact FW|]. rewrite <- S. apply source_at, H.
    + apply at_srl; [lia|lia|apply shift_amount; lia|exact FW|]. rewrite <- S. apply source_at, H.
  - destruct (Z.ltb_spec (opoint r) p') as [Q|Q].
    + unfold shift_left. cbn [fe]. apply M; try reflexivity. apply at_sll; [lia|lia|apply shift_amount; lia|apply source_at, H].
    + replace (p' - opoint r) with 0 by lia. rewrite Z.mul_1_r. apply M; try reflexivity. apply source_at, H.
Qed.
Lemma reinterpret_ok E r w : wf E r -> 1 <= dflt w (owidth r) -> reinterpret E r w = oraw E r mod 2 ^ dflt w (owidth r).
Proof.
  intros H Hw. unfold reinterpret, assigned. cbn [swid ssig source wire dw ds]. pose proof (owidth_pos E r H). rewrite (source_at E r _ H). apply mod_mod_le. lia.
Qed.
Lemma rescaled_number x p q : (fval (rescaled x p q) q <= fval x p < fval (rescaled x p q + 1) q)%Q /\ (p <= q -> (fval (rescaled x p q) q == fval x p)%Q).
Proof.
  unfold rescaled. destruct (Z.ltb_spec q p) as [P|P].
  - split; [|lia]. pose proof (fval_drop x q (p - q) ltac:(lia)) as F. replace (q + (p - q)) with p in F by lia. exact F.
  - assert (X : (fval (x * 2 ^ (q - p)) q == fval x p)%Q). { pose proof (fval_shift x p (q - p) ltac:(lia)) as F. replace (p + (q - p)) with q in F by lia. exact F. }
    split; [|auto]. split; [rewrite X; apply Qle_refl|]. rewrite <- X. apply fval_lt. lia.
Qed.

(** ** Bits *)
Lemma pointer_ok E x w p s pos : wf E (Sig x w p s) -> wf E pos -> 0 <= oraw E pos < w ->
  stored E (pointer x pos) = b2z (Z.testbit (oraw E (Sig x w p s)) (oraw E pos)).
Proof.
  intros H Hp I. pose proof (printed_fits E pos Hp) as F. pose proof (owidth_pos E pos Hp) as P. pose proof (self_ok E pos Hp) as A. unfold self in A.
  unfold stored, assigned, pointer. cbn [rw re swid ssig ev]. rewrite A, (odata_width E pos Hp), (odata_sign E pos Hp), value_fits by assumption.
  destruct H as (H1 & H2 & H3). rewrite H2. destruct (Z.leb_spec 0 (oraw E pos)); [|lia]. destruct (Z.ltb_spec (oraw E pos) w); [|lia]. cbn [andb].
  cbn [oraw]. assert (T : Z.testbit (value w s (val E x)) (oraw E pos) = Z.testbit (val E x) (oraw E pos)).
  { rewrite <- (Z.mod_pow2_bits_low (value w s (val E x)) w) by lia. rewrite value_mod by lia. apply Z.mod_pow2_bits_low. lia. }
  rewrite T. unfold bit. destruct (Z.testbit (val E x) (oraw E pos)); reflexivity.
Qed.
Lemma slice_ok E x w p s m l res : wf E (Sig x w p s) -> 0 <= l -> m < w -> slice x m l = Some res ->
  rw res = m - l + 1 /\ rs res = false /\ stored E res = (oraw E (Sig x w p s) / 2 ^ l) mod 2 ^ (m - l + 1).
Proof.
  intros H L M R. unfold slice in R. destruct (Z.ltb_spec (m - l + 1) 1); [discriminate|]. injection R as <-. cbn [rw rs]. split; [reflexivity|]. split; [reflexivity|].
  unfold stored, assigned. cbn [rw re swid ssig ev]. destruct H as (H1 & H2 & H3). rewrite H2. destruct (Z.leb_spec 0 l); [|lia]. destruct (Z.leb_spec l m); [|lia]. destruct (Z.ltb_spec m w); [|lia].
  cbn [andb]. rewrite Z.mod_mod by (apply pow_nz; lia). cbn [oraw].
  rewrite <- (div_mod_bits (val E x) w l) by lia. rewrite <- (div_mod_bits (value w s (val E x)) w l) by lia. rewrite value_mod by lia. reflexivity.
Qed.
Lemma slice_defined x m l : l <= m -> exists res, slice x m l = Some res.
Proof. intros H. unfold slice. destruct (Z.ltb_spec (m - l + 1) 1); [lia|]. eauto. Qed.
Lemma joined_range l : Forall (fun p => 0 <= fst p /\ 0 <= snd p < 2 ^ fst p) l -> 0 <= fold_right (fun p s => fst p + s) 0 l /\ 0 <= joined l < 2 ^ fold_right (fun p s => fst p + s) 0 l.
Proof.
  induction 1 as [|[w x] l [P1 P2] H [IH1 IH2]]; cbn [fold_right joined fst snd] in *; [cbn; lia|]. split; [lia|]. rewrite Z.pow_add_r by lia.
  pose proof (pow_pos (fold_right (fun p s => fst p + s) 0 l) IH1). set (q := 2 ^ fold_right _ 0 l) in *. nia.
Qed.
Definition laid (E : venv) (o : operand) : Z * Z := (owidth o, oraw E o mod 2 ^ owidth o).
Lemma laid_ok E os : Forall (wf E) os -> Forall (fun p => 0 <= fst p /\ 0 <= snd p < 2 ^ fst p) (map (laid E) os).
Proof.
  intros H. apply Forall_map. eapply Forall_impl; [|exact H]. intros o Ho. unfold laid. cbn [fst snd]. pose proof (owidth_pos E o Ho). split; [lia|]. apply Z.mod_pos_bound, pow_pos. lia.
Qed.
Lemma cat_ok E os : Forall (wf E) os -> stored E (cat os) = joined (map (laid E) os).
Proof.
  intros H. pose proof (joined_range _ (laid_ok E os H)) as [R1 R2].
  assert (W : cat_width E (map odata os) = fold_right (fun p s => fst p + s) 0 (map (laid E) os)).
  { clear - H. induction H as [|o os Ho H IH]; [reflexivity|]. change (cat_width E (map odata (o :: os))) with (swid E (odata o) + cat_width E (map odata os)).
    cbn [map fold_right fst laid]. rewrite IH, (odata_width E o Ho). reflexivity. }
  assert (V : cat_bits E (map odata os) = joined (map (laid E) os)).
  { clear - H. induction H as [|o os Ho H IH]; [reflexivity|]. cbn [map cat_bits joined laid]. rewrite IH, (self_ok E o Ho). do 3 f_equal.
    clear - H. induction H as [|o os Ho H IH]; [reflexivity|]. change (cat_width E (map odata (o :: os))) with (swid E (odata o) + cat_width E (map odata os)).
    cbn [map fold_right fst laid]. rewrite IH, (odata_width E o Ho). reflexivity. }
  assert (Rw : rw (cat os) = fold_right (fun p s => fst p + s) 0 (map (laid E) os)).
  { clear. cbn [rw cat]. induction os as [|o os IH]; [reflexivity|]. cbn [map fold_right fst laid]. rewrite IH. reflexivity. }
  unfold stored, assigned. rewrite Rw. cbn [re cat]. rewrite cat_self, V. apply Z.mod_small. exact R2.
Qed.
Lemma repeated_joined n w x : 0 <= w -> repeated n w x = joined (repeat (w, x) n) /\ fold_right (fun p s => fst p + s) 0 (repeat (w, x) n) = Z.of_nat n * w.
Proof.
  intros W. assert (A : forall k, fold_right (fun p s => fst p + s) 0 (repeat (w, x) k) = Z.of_nat k * w) by (induction k as [|k IH]; cbn [repeat fold_right fst]; lia).
  split; [|apply A].
  assert (B : forall k, joined (repeat (w, x) (S k)) = joined (repeat (w, x) k) * 2 ^ w + x).
  { assert (C : forall k, joined (repeat (w, x) (S k)) = x * 2 ^ (Z.of_nat k * w) + joined (repeat (w, x) k)) by (intros k; cbn [repeat joined]; rewrite A; reflexivity).
    induction k as [|k IH]; [cbn; lia|]. pose proof (C k) as D. rewrite (C (S k)), Nat2Z.inj_succ. replace (Z.succ (Z.of_nat k) * w) with (Z.of_nat k * w + w) by lia.
    rewrite Z.pow_add_r by lia. rewrite D at 2. rewrite IH. ring. }
  induction n as [|n IH]; [reflexivity|]. rewrite B, <- IH. reflexivity.
Qed.
Lemma repeat_ok E o n : wf E o -> 0 <= n -> stored E (repeat_op o n) = joined (repeat (laid E o) (Z.to_nat n)).
Proof.
  intros H N. pose proof (owidth_pos E o H) as P. unfold stored, assigned, repeat_op. cbn [rw re swid ssig ev]. fold (self E (odata o)). rewrite (self_ok E o H), (odata_width E o H).
  destruct (repeated_joined (Z.to_nat n) (owidth o) (oraw E o mod 2 ^ owidth o) ltac:(lia)) as [-> Q]. fold (laid E o) in *.
  assert (F : Forall (fun p => 0 <= fst p /\ 0 <= snd p < 2 ^ fst p) (repeat (laid E o) (Z.to_nat n))).
  { apply Forall_forall. intros p I. apply repeat_spec in I. subst p. pose proof (laid_ok E [o] ltac:(repeat constructor; exact H)) as L. inversion L; assumption. }
  pose proof (joined_range _ F) as [_ R]. rewrite Q, Z2Nat.id in R by lia. apply Z.mod_small. replace (owidth o * n) with (n * owidth o) by lia. exact R.
Qed.

(** ** Split *)
Lemma ceil_div_bounds a b : 1 <= b -> a <= b * ceil_div a b < a + b.
Proof. intros B. unfold ceil_div. pose proof (Z.div_mod (- a) b ltac:(lia)). pose proof (Z.mod_pos_bound (- a) b ltac:(lia)). lia. Qed.
Lemma shape_total dw width num w n : 1 <= dw -> split_shape dw width num = Some (w, n) ->
  match width with Some w => 1 <= w | None => True end -> match num with Some n => 1 <= n | None => True end -> 1 <= w /\ 1 <= n /\ dw <= w * n.
Proof.
  intros D H A B. unfold split_shape in H. destruct width as [v|], num as [m|]; try discriminate; injection H as <- <-.
  - pose proof (ceil_div_bounds dw v A). nia.
  - pose proof (ceil_div_bounds dw m B). nia.
Qed.
Lemma repeated_bit n b : repeated n 1 (b2z b) = b2z b * (2 ^ Z.of_nat n - 1).
Proof.
  destruct b; cbn [b2z]; [rewrite repeated_ones; lia|]. induction n as [|n IH]; [reflexivity|]. cbn [repeated]. rewrite IH. lia.
Qed.
Lemma neg_top w x : 1 <= w -> Vx_Spec.fits w true x -> Z.testbit x (w - 1) = (x <? 0) /\ x = x mod 2 ^ w - b2z (x <? 0) * 2 ^ w.
Proof.
  intros W F. unfold Vx_Spec.fits in F. pose proof (pow_split w W). pose proof (pow_pos (w - 1) ltac:(lia)).
  destruct (Z.ltb_spec x 0); cbn [b2z].
  - split; [|rewrite <- (Z.mod_add x 1) by lia; rewrite (Z.mod_small (x + 1 * 2 ^ w)) by lia; lia].
    rewrite <- (Z.mod_pow2_bits_low x w) by lia. rewrite <- (Z.mod_add x 1) by lia. rewrite Z.mod_small by lia.
    replace (x + 1 * 2 ^ w) with (x + 2 ^ (w - 1) + 1 * 2 ^ (w - 1)) by lia. rewrite Z.testbit_true by lia. rewrite Z.div_add by lia. rewrite Z.div_small by lia. reflexivity.
  - split; [|rewrite Z.mod_small by lia; lia]. rewrite Z.testbit_false by lia. rewrite Z.div_small by lia. reflexivity.
Qed.
Lemma chunk_ok E x dw p s width total i : wf E (Sig x dw p s) -> dw <= 2 ^ 31 -> 1 <= width -> 0 <= i < dw -> i + width <= total ->
  chunk E x dw width total s i = Some ((oraw E (Sig x dw p s) / 2 ^ i) mod 2 ^ width).
Proof.
  intros H Big W I T. set (raw := oraw E (Sig x dw p s)). assert (D1 : 1 <= dw) by apply H.
  assert (Rc : forall w v, 1 <= w -> reinterpret (wire w false v) (Sig 0 w 0 false) (Some width) = (v mod 2 ^ w) mod 2 ^ width).
  { intros w v Hw. rewrite reinterpret_ok; [reflexivity| |exact W]. cbn. auto. }
  unfold chunk. destruct (Z.ltb_spec dw (i + width)) as [L|L].
  - destruct (slice_defined x (dw - 1) i ltac:(lia)) as [slc Sl]. rewrite Sl. destruct (slice_ok E x dw p s (dw - 1) i slc H ltac:(lia) ltac:(lia) Sl) as (Sw & _ & Sv).
    fold raw in Sv. replace (dw - 1 - i + 1) with (dw - i) in * by lia. rewrite Sw, Sv. set (pw := total - dw). cbn [option_map fst snd]. f_equal. rewrite Rc by (unfold pw; lia).
    set (pad := if s then _ else _). set (low := (raw / 2 ^ i) mod 2 ^ (dw - i)).
    assert (Pd : pad mod 2 ^ pw = b2z (raw <? 0) * (2 ^ pw - 1) /\ 0 <= pad mod 2 ^ pw < 2 ^ pw).
    { split; [|apply Z.mod_pos_bound, pow_pos; unfold pw; lia]. unfold pad. destruct s eqn:Es.
      - rewrite (pointer_ok E x dw p true) by (try exact H; cbn; try discriminate; lia). fold raw. cbn [oraw].
        destruct (neg_top dw raw D1) as [Tb _]; [apply (oraw_fits E (Sig x dw p true) H)|]. rewrite Tb.
        unfold assigned. cbn [swid ssig ev wire Vx_Sem.dw ds val value]. unfold uns. rewrite !(b2z_small _ 1) by lia. rewrite repeated_bit, Z2Nat.id by (unfold pw; lia).
        rewrite Z.mod_mod by (apply pow_nz; unfold pw; lia). apply Z.mod_small. pose proof (pow_pos pw ltac:(unfold pw; lia)). destruct (raw <? 0); cbn [b2z]; lia.
      - assert (N : 0 <= raw) by (apply (unsigned_nonneg E (Sig x dw p false) H); reflexivity). destruct (Z.ltb_spec raw 0); [lia|]. cbn [b2z].
        unfold assigned, int_node. cbn [ev]. unfold lit. cbn [Z.ltb Z.compare value ssig lit_signed]. unfold uns. rewrite !Z.mod_0_l; try reflexivity; apply pow_nz; unfold pw; cbn [swid wd]; lia. }
    destruct Pd as [Pd Pr]. assert (Lr : 0 <= low < 2 ^ (dw - i)) by (apply Z.mod_pos_bound, pow_pos; lia).
    assert (P0 : 0 <= pw) by (clear - L T; unfold pw; lia).
    assert (Cr : 0 <= (pad mod 2 ^ pw) * 2 ^ (dw - i) + low < 2 ^ (pw + (dw - i))).
    { rewrite Z.pow_add_r by (clear - P0 I; lia). clear - Pr Lr. set (u := pad mod 2 ^ pw) in *. clearbody u low. generalize dependent (2 ^ pw). generalize dependent (2 ^ (dw - i)). intros a La b Lb. nia. }
    assert (Cat : assigned (mkEnv (fun k => match k with O => pw | _ => dw - i end) (fun _ => false) (fun k => match k with O => pad | _ => low end) 0) (pw + (dw - i)) (XCat [XVar 0; XVar 1])
                  = (pad mod 2 ^ pw) * 2 ^ (dw - i) + low).
    { unfold assigned. rewrite cat_self. cbn [cat_bits]. unfold cat_width, self. cbn [fold_right swid ssig ev Vx_Sem.dw ds val value]. unfold uns. rewrite !Z.mod_mod by (apply pow_nz; lia).
      rewrite (Z.mod_small low) by exact Lr. rewrite !Z.add_0_r, Z.mul_1_r. apply Z.mod_small, Cr. }
    rewrite Cat. rewrite (Z.mod_small (_ + low)) by exact Cr. rewrite Pd. unfold low.
    assert (Q : exists c, raw / 2 ^ i = b2z (raw <? 0) * (2 ^ pw - 1) * 2 ^ (dw - i) + (raw / 2 ^ i) mod 2 ^ (dw - i) + c * 2 ^ width).
    { assert (E1 : raw / 2 ^ i = (raw / 2 ^ i) mod 2 ^ (dw - i) - b2z (raw <? 0) * 2 ^ (dw - i)).
      { pose proof (oraw_fits E (Sig x dw p s) H) as F. fold raw in F. cbn [owidth osigned] in F.
        assert (X : raw = raw mod 2 ^ dw - b2z (raw <? 0) * 2 ^ dw).
        { destruct s; [apply neg_top; assumption|]. unfold Vx_Spec.fits in F. destruct (Z.ltb_spec raw 0); [lia|]. cbn [b2z]. rewrite Z.mod_small by lia. lia. }
        set (u := raw mod 2 ^ dw) in X. assert (U : 0 <= u < 2 ^ dw) by (apply Z.mod_pos_bound, pow_pos; lia). set (n := b2z (raw <? 0)) in *.
        assert (Y : raw / 2 ^ i = u / 2 ^ i - n * 2 ^ (dw - i)).
        { rewrite X. replace (u - n * 2 ^ dw) with (u + (- (n * 2 ^ (dw - i))) * 2 ^ i) by (replace dw with ((dw - i) + i) at 2 by lia; rewrite Z.pow_add_r by lia; ring).
          rewrite Z.div_add by (apply pow_nz; lia). ring. }
        rewrite Y. replace (u / 2 ^ i - n * 2 ^ (dw - i)) with (u / 2 ^ i + (- n) * 2 ^ (dw - i)) by ring. rewrite Z.mod_add by (apply pow_nz; lia).
        rewrite Z.mod_small; [ring|]. split; [apply Z.div_pos; [lia|apply pow_pos; lia]|]. apply Z.div_lt_upper_bound; [apply pow_pos; lia|]. rewrite <- Z.pow_add_r by lia. replace (i + (dw - i)) with dw by lia. lia. }
      exists (- b2z (raw <? 0) * 2 ^ (pw + (dw - i) - width)).
      assert (E2 : 2 ^ (pw + (dw - i) - width) * 2 ^ width = 2 ^ pw * 2 ^ (dw - i)) by (rewrite <- !Z.pow_add_r by (unfold pw; lia); f_equal; unfold pw; lia).
      replace (- b2z (raw <? 0) * 2 ^ (pw + (dw - i) - width) * 2 ^ width) with (- b2z (raw <? 0) * (2 ^ pw * 2 ^ (dw - i))) by (rewrite <- E2; ring). rewrite E1 at 1. ring. }
    destruct Q as [c Q]. rewrite Q at 2. rewrite Z.mod_add by (apply pow_nz; lia). reflexivity.
  - destruct (slice_defined x (i + width - 1) i ltac:(lia)) as [slc Sl]. rewrite Sl. destruct (slice_ok E x dw p s (i + width - 1) i slc H ltac:(lia) ltac:(lia) Sl) as (Sw & _ & Sv).
    fold raw in Sv. replace (i + width - 1 - i + 1) with width in * by lia. cbn [option_map fst snd]. f_equal. rewrite Rc by lia. rewrite Sw, Sv. rewrite !Z.mod_mod by (apply pow_nz; lia). reflexivity.
Qed.
Lemma stacked_chunks w x n : 0 <= w -> forall k, stacked w (map (fun j => (x / 2 ^ (Z.of_nat j * w)) mod 2 ^ w) (seq k n)) = (x / 2 ^ (Z.of_nat k * w)) mod 2 ^ (w * Z.of_nat n).
Proof.
  intros W. induction n as [|n IH]; intros k; [cbn [seq map stacked]; rewrite Z.mul_0_r, Z.mod_1_r; reflexivity|].
  cbn [seq map stacked]. rewrite IH. replace (w * Z.of_nat (S n)) with (w + w * Z.of_nat n) by lia. rewrite Z.pow_add_r by lia.
  rewrite Z.rem_mul_r by (try apply pow_nz; try apply pow_pos; lia). do 2 f_equal. rewrite Z.div_div by (try apply pow_nz; try apply pow_pos; lia).
  rewrite <- Z.pow_add_r by lia. do 3 f_equal. lia.
Qed.
Lemma split_ok E x dw p s width num w n : wf E (Sig x dw p s) -> dw <= 2 ^ 31 -> split_shape dw width num = Some (w, n) ->
  match width with Some w => 1 <= w | None => True end -> match num with Some n => 1 <= n | None => True end -> (n - 1) * w < dw ->
  exists cs, split E x dw s width num = Some (map Some cs) /\ Z.of_nat (length cs) = n /\ Forall (fun c => 0 <= c < 2 ^ w) cs /\
             stacked w cs = oraw E (Sig x dw p s) mod 2 ^ (w * n) /\ dw <= w * n.
Proof.
  intros H Big Sh A B C. destruct (shape_total dw width num w n (proj1 H) Sh A B) as (W1 & N1 & T). set (raw := oraw E (Sig x dw p s)).
  exists (map (fun j => (raw / 2 ^ (Z.of_nat j * w)) mod 2 ^ w) (seq 0 (Z.to_nat n))). split.
  - unfold split. rewrite Sh. cbn [option_map]. f_equal. rewrite map_map. apply map_ext_in. intros k K. apply in_seq in K. unfold raw. apply chunk_ok; auto.
    + assert (Z.of_nat k <= n - 1) by lia. split; [lia|]. nia.
    + assert (Z.of_nat k + 1 <= n) by lia. nia.
  - split; [rewrite map_length, seq_length; lia|]. split.
    + apply Forall_map, Forall_forall. intros k _. apply Z.mod_pos_bound, pow_pos. lia.
    + split; [|exact T]. rewrite stacked_chunks by lia. rewrite Z.div_1_r, Z2Nat.id by lia. reflexivity.
Qed.

(** ** Selection, sign and tables *)
Lemma cond_ok E c t f : wf E c -> wf E t -> wf E f -> let o := if oraw E c =? 0 then f else t in sign_kept E t f (common_width t f) o 0 ->
  stored E (cond c t f) = oraw E o mod 2 ^ common_width t f.
Proof.
  intros Hc Ht Hf o K. assert (Ho : wf E o) by (unfold o; destruct (_ =? 0); assumption). destruct (common_width_l E t f Ht) as [_ Wp].
  pose proof (self_zero E c Hc) as A. unfold self in A. unfold stored, assigned, cond. cbn [rw re swid ssig ev]. rewrite A.
  rewrite (odata_sign E t Ht), (odata_sign E f Hf). set (W := Z.max _ _). assert (common_width t f <= W) by (unfold W; lia).
  set (S := printed_signed t && printed_signed f) in *.
  assert (X : ev E W S (odata o) mod 2 ^ common_width t f = oraw E o mod 2 ^ common_width t f).
  { apply odata_ev; auto; [lia| |].
    - intros Q. apply andb_prop in Q. unfold o. destruct (_ =? 0); apply Q.
    - destruct K as [K|[K|K]]; auto. right. right. lia. }
  unfold o in X at 1. destruct (oraw E c =? 0); exact X.
Qed.
Lemma py_small E W S v : - 2 ^ 31 < v < 2 ^ 31 -> 0 <= W -> ev E W S (XPy v) = v mod 2 ^ W.
Proof. intros H HW. apply small_ev. assumption. Qed.
Lemma negative_ok E r : wf E r -> forall W S, ev E W S (negative (odata r)) = b2z (oraw E r <? 0).
Proof.
  intros H W S. pose proof (owidth_pos E r H). pose proof (printed_fits E r H) as F. unfold negative. cbn [ev].
  assert (Z0 : forall w s, ev E w s (int_node 0 None None true) = 0) by (intros; unfold int_node; cbn [ev]; unfold lit; cbn [Z.ltb Z.compare]; destruct s; reflexivity).
  assert (Z1 : swid E (int_node 0 None None true) = 32 /\ ssig E (int_node 0 None None true) = true) by (split; reflexivity). destruct Z1 as [-> ->].
  rewrite Z0, (odata_width E r H), (odata_sign E r H), andb_true_r. set (w := Z.max (owidth r) 32).
  rewrite (own_at E w r ltac:(unfold w; lia) H). rewrite value_fits.
  - replace (value w (printed_signed r) 0) with 0; [reflexivity|]. symmetry. apply value_fits'; [unfold w; lia|]. unfold Vx_Spec.fits. pose proof (pow_pos w ltac:(unfold w; lia)). pose proof (pow_pos (w - 1) ltac:(unfold w; lia)). destruct (printed_signed r); lia.
  - unfold w. lia.
  - eapply (fits_widen (owidth r) (printed_signed r)); [unfold w; lia|exact F|auto|]. intros X. eapply unprinted_nonneg; eassumption.
Qed.
Lemma complement_ev E r W w : wf E r -> 1 <= w <= W -> forall S, S = printed_signed r -> ev E W S (complement (odata r)) mod 2 ^ w = (- oraw E r) mod 2 ^ w.
Proof.
  intros H Hw S ->. unfold complement. cbn [ev Vx_Sem.arith]. rewrite (own_at E W r ltac:(lia) H).
  assert (O : ev E W (printed_signed r) (int_node 1 None None false) = 1).
  { unfold int_node. cbn [ev]. unfold lit. cbn [Z.ltb Z.compare wd]. replace (value 32 (printed_signed r) 1) with 1 by (destruct (printed_signed r); reflexivity).
    apply Z.mod_small. pose proof (pow_split W ltac:(lia)). pose proof (pow_pos (W - 1) ltac:(lia)). lia. }
  rewrite O. rewrite lnot_mod by lia. rewrite mod_mod_le by lia. rewrite Z.add_mod by (apply pow_nz; lia). rewrite mod_mod_le by lia. rewrite <- Z.add_mod by (apply pow_nz; lia).
  f_equal. unfold Z.lnot. lia.
Qed.
Lemma complement_sign E r : wf E r -> ssig E (complement (odata r)) = printed_signed r.
Proof. intros H. unfold complement. cbn [ssig]. rewrite (odata_sign E r H). apply andb_true_r. Qed.
Lemma complement2_ok E r : wf E r -> stored E (complement2 r) = (- oraw E r) mod 2 ^ owidth r.
Proof.
  intros H. pose proof (owidth_pos E r H). unfold stored, assigned, complement2. cbn [rw re]. apply complement_ev; auto; [lia|]. apply complement_sign, H.
Qed.
Lemma sign_ok E r : wf E r -> stored E (sign r) = b2z (oraw E r <? 0).
Proof.
  intros H. pose proof (owidth_pos E r H). unfold stored, assigned, sign. cbn [rw re]. rewrite negative_ok by assumption. apply b2z_small. assumption.
Qed.
Lemma abs_ok E r : wf E r -> stored E (abs r) = Z.abs (oraw E r) mod 2 ^ owidth r.
Proof.
  intros H. pose proof (owidth_pos E r H). unfold stored, assigned, abs. cbn [rw re].
  assert (Sg : ssig E (mk_mux (negative (odata r)) (complement (odata r)) (odata r)) = printed_signed r).
  { unfold negative. cbn [mk_mux ssig]. rewrite complement_sign, (odata_sign E r H) by assumption. apply andb_diag. }
  rewrite Sg. set (W := Z.max _ _). assert (owidth r <= W) by (unfold W; lia). rewrite mk_mux_ev. unfold negative at 1. cbn [holds]. fold (negative (odata r)).
  unfold truth, self. rewrite negative_ok by assumption. destruct (Z.ltb_spec (oraw E r) 0); cbn [b2z Z.eqb negb].
  - rewrite complement_ev by (auto; lia). f_equal. lia.
  - rewrite own_ev by (auto; lia). f_equal. lia.
Qed.
Lemma lut_ok E a patterns w old v : wf E a -> let i := oraw E a mod 2 ^ lut_size (length patterns) in
  nth_error patterns (Z.to_nat i) = Some v -> - 2 ^ 31 < v < 2 ^ 31 -> 1 <= w -> lut E a patterns w old = v mod 2 ^ w.
Proof.
  intros H i N V W. assert (A : assigned E (lut_size (length patterns)) (odata a) = i).
  { unfold assigned. rewrite (odata_sign E a H). apply own_ev; [assumption|]. pose proof (Z.log2_nonneg (Z.of_nat (length patterns))). unfold lut_size. lia. }
  unfold lut. rewrite A, N. unfold assigned. rewrite py_small by (try assumption; lia). apply mod_mod_le. lia.
Qed.
Lemma lut_covers (patterns : list Z) i : patterns <> [] -> 0 <= i < 2 ^ lut_size (length patterns) -> exists v, nth_error patterns (Z.to_nat i) = Some v.
Proof.
  intros N I. assert (L : 0 < Z.of_nat (length patterns)) by (destruct patterns; [congruence|cbn [length]; lia]). unfold lut_size in I. pose proof (Z.log2_spec _ L).
  destruct (nth_error patterns (Z.to_nat i)) as [v|] eqn:X; [eauto|]. apply nth_error_None in X. lia.
Qed.
