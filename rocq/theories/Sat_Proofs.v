(** Proofs for Sat_Props.v. *)
From Verif Require Import Base Bits Vx_Model Vx_Sem Vx_Spec Vx_Proofs Sat_Model Sat_Spec.
Open Scope Z_scope.

(** numbers a comparison of sign [s] of at least 32 bits can hold *)
Definition small (s : bool) (z : Z) : Prop := if s then - 2 ^ 31 <= z < 2 ^ 31 else 0 <= z < 2 ^ 32.
Lemma small_value W s z : 32 <= W -> small s z -> value W s (z mod 2 ^ W) = z.
Proof.
  intros H R. unfold small in R. pose proof (Z.pow_le_mono_r 2 32 W ltac:(lia) H). pose proof (Z.pow_le_mono_r 2 31 (W - 1) ltac:(lia) ltac:(lia)).
  destruct s; cbn [value].
  - rewrite sgn_of_mod by lia. apply sgn_small; lia.
  - unfold uns. rewrite Z.mod_mod by lia. apply Z.mod_small. lia.
Qed.
Definition lits (s : bool) (z : Z) : Prop := if s then - 2 ^ 31 < z < 2 ^ 31 else 0 <= z < 2 ^ 32.
Lemma lit_ok s W z : 32 <= W -> lits s z -> lit 32 W s z = z mod 2 ^ W.
Proof.
  intros H R. unfold lit, lits in *. f_equal. destruct s; cbn [value].
  - destruct (Z.ltb_spec z 0); [rewrite sgn_small; lia|apply sgn_small; lia].
  - destruct (Z.ltb_spec z 0); [lia|]. unfold uns. apply Z.mod_small. lia.
Qed.
Lemma py_denotes E s z : lits s z -> denotes E s (XPy z) z.
Proof. intros R W HW. cbn [swid] in HW. cbn [ev]. apply lit_ok; [lia|exact R]. Qed.
Lemma int_denotes E s z b : lits s z -> denotes E s (XInt z None None b) z.
Proof. intros R W HW. cbn [swid wd] in HW. cbn [ev wd]. apply lit_ok; [lia|exact R]. Qed.
Lemma plus_denotes E s a b x y : denotes E s a x -> denotes E s b y -> denotes E s (XBin BPlus a b) (x + y).
Proof.
  intros A B W HW. cbn [swid] in HW. cbn [ev arith]. rewrite (A W), (B W) by lia. symmetry. apply Z.add_mod.
  pose proof (pow_pos W ltac:(lia)). lia.
Qed.
Lemma minus_denotes E s a b x y : denotes E s a x -> denotes E s b y -> denotes E s (XBin BMinus a b) (x - y).
Proof.
  intros A B W HW. cbn [swid] in HW. cbn [ev arith]. rewrite (A W), (B W) by lia. symmetry. apply Zminus_mod.
Qed.
Lemma neg_denotes E s a x : denotes E s a x -> denotes E s (XUn UMinus a) (- x).
Proof.
  intros A W HW. cbn [swid] in HW. cbn [ev]. rewrite (A W) by lia. pose proof (pow_pos W ltac:(lia)).
  rewrite <- (Z.sub_0_l x), <- (Z.sub_0_l (x mod _)), Zminus_mod_idemp_r. reflexivity.
Qed.
Lemma cond_denotes E s c t f z : denotes E s t z -> denotes E s f z -> denotes E s (XCond c t f) z.
Proof. intros A B W HW. cbn [swid] in HW. cbn [ev]. destruct (_ =? 0); [apply B|apply A]; lia. Qed.
Lemma mux_denotes E s c (b : bool) t f z : holds E c = b -> (b = true -> denotes E s t z) -> (b = false -> denotes E s f z) ->
  Z.max 32 (swid E (mk_mux c t f)) >= swid E (if b then t else f) -> denotes E s (mk_mux c t f) z.
Proof.
  intros C T F G W HW. rewrite mk_mux_ev, C. destruct b; [apply T|apply F]; try reflexivity; lia.
Qed.
Lemma mux_swid E c t f : swid E t <= Z.max 32 (swid E (mk_mux c t f)) /\ swid E f <= Z.max 32 (swid E (mk_mux c t f)) \/
  exists z, c = XPy z /\ mk_mux c t f = if z =? 0 then f else t.
Proof. destruct c; cbn [mk_mux swid]; try (left; lia). right. eauto. Qed.
Lemma mux_denotes' E s c (b : bool) t f z : holds E c = b -> (b = true -> denotes E s t z) -> (b = false -> denotes E s f z) ->
  denotes E s (mk_mux c t f) z.
Proof.
  intros C T F. destruct (mux_swid E c t f) as [L|(y & -> & L)].
  - apply (mux_denotes E s c b); auto. destruct b; lia.
  - rewrite L. cbn [holds] in C. destruct (y =? 0); cbn [negb] in C; [apply F|apply T]; auto.
Qed.

(** comparisons *)
Definition cmp (o : bop) : bool := match o with BLt | BGt => true | _ => false end.
Lemma cmp_holds E s o a b x y : cmp o = true -> denotes E s a x -> denotes E s b y -> ssig E a && ssig E b = s -> small s x -> small s y ->
  32 <= swid E a \/ 32 <= swid E b -> holds E (XBin o a b) = compare o x y.
Proof.
  intros O A B G X Y L. unfold holds, truth, self.
  assert (V : forall v, ev E (swid E (XBin o a b)) (ssig E (XBin o a b)) (XBin o a b) = b2z v -> negb (ev E (swid E (XBin o a b)) (ssig E (XBin o a b)) (XBin o a b) =? 0) = v).
  { intros [] ->; reflexivity. }
  apply V. destruct o; try discriminate O; cbn [ev]; rewrite G, (A (Z.max _ _)), (B (Z.max _ _)), !small_value by (try assumption; lia); reflexivity.
Qed.
Lemma lits_small s z : lits s z -> small s z.
Proof. unfold lits, small. destruct s; lia. Qed.
Definition num E s e z : Prop := (e = XPy z /\ lits s z) \/ ((forall y, e <> XPy y) /\ denotes E s e z).
Lemma num_denotes E s e z : num E s e z -> denotes E s e z.
Proof. intros [[-> L]|[_ D]]; [apply py_denotes, L|exact D]. Qed.

Lemma less_ok E s a b x y : num E s a x -> num E s b y -> ssig E a && ssig E b = s -> small s x -> small s y ->
  32 <= swid E a \/ 32 <= swid E b -> holds E (less a b) = (x <? y).
Proof.
  intros A B G X Y L. pose proof (num_denotes E s a x A) as DA. pose proof (num_denotes E s b y B) as DB.
  destruct A as [[-> _]|[NA _]].
  - destruct B as [[-> _]|[NB _]].
    + cbn [less holds]. destruct (x <? y); reflexivity.
    + assert (less (XPy x) b = XBin BGt b (XPy x)) as -> by (destruct b; try reflexivity; exfalso; eapply NB; eauto).
      change (x <? y) with (compare BGt y x). apply (cmp_holds E s); try assumption; [reflexivity|rewrite andb_comm; exact G|tauto].
  - assert (less a b = XBin BLt a b) as -> by (destruct a; try reflexivity; exfalso; eapply NA; eauto).
    change (x <? y) with (compare BLt x y). apply (cmp_holds E s); try assumption; reflexivity.
Qed.
Lemma greater_ok E s a b x y : num E s a x -> num E s b y -> ssig E a && ssig E b = s -> small s x -> small s y ->
  32 <= swid E a \/ 32 <= swid E b -> holds E (greater a b) = (y <? x).
Proof.
  intros A B G X Y L. pose proof (num_denotes E s a x A) as DA. pose proof (num_denotes E s b y B) as DB.
  destruct A as [[-> _]|[NA _]].
  - destruct B as [[-> _]|[NB _]].
    + cbn [greater holds]. destruct (y <? x); reflexivity.
    + assert (greater (XPy x) b = XBin BLt b (XPy x)) as -> by (destruct b; try reflexivity; exfalso; eapply NB; eauto).
      change (y <? x) with (compare BLt y x). apply (cmp_holds E s); try assumption; [reflexivity|rewrite andb_comm; exact G|tauto].
  - assert (greater a b = XBin BGt a b) as -> by (destruct a; try reflexivity; exfalso; eapply NA; eauto).
    change (y <? x) with (compare BGt x y). apply (cmp_holds E s); try assumption; reflexivity.
Qed.
Lemma plus_num E s a b x y : num E s a x -> num E s b y -> (is_py a = true -> is_py b = true -> lits s (x + y)) -> num E s (plus a b) (x + y).
Proof.
  intros A B P. pose proof (num_denotes E s a x A) as DA. pose proof (num_denotes E s b y B) as DB.
  assert (D : denotes E s (XBin BPlus a b) (x + y)) by (apply plus_denotes; assumption).
  destruct A as [[-> _]|[NA _]]; [destruct B as [[-> _]|[NB _]]; [left; auto|]|].
  - right. assert (plus (XPy x) b = XBin BPlus (XPy x) b) as -> by (destruct b; try reflexivity; exfalso; eapply NB; eauto).
    split; [discriminate|exact D].
  - right. assert (plus a b = XBin BPlus a b) as -> by (destruct a; try reflexivity; exfalso; eapply NA; eauto).
    split; [discriminate|exact D].
Qed.
Lemma minus_num E s a b x y : num E s a x -> num E s b y -> (is_py a = true -> is_py b = true -> lits s (x - y)) -> num E s (minus a b) (x - y).
Proof.
  intros A B P. pose proof (num_denotes E s a x A) as DA. pose proof (num_denotes E s b y B) as DB.
  assert (D : denotes E s (XBin BMinus a b) (x - y)) by (apply minus_denotes; assumption).
  destruct A as [[-> _]|[NA _]]; [destruct B as [[-> _]|[NB _]]; [left; auto|]|].
  - right. assert (minus (XPy x) b = XBin BMinus (XPy x) b) as -> by (destruct b; try reflexivity; exfalso; eapply NB; eauto).
    split; [discriminate|exact D].
  - right. assert (minus a b = XBin BMinus a b) as -> by (destruct a; try reflexivity; exfalso; eapply NA; eauto).
    split; [discriminate|exact D].
Qed.
Lemma neg_num E a x : num E true a x -> num E true (neg a) (- x).
Proof.
  intros [[-> L]|[NA D]]; [left; split; [reflexivity|unfold lits in *; lia]|].
  assert (neg a = XUn UMinus a) as -> by (destruct a; try reflexivity; exfalso; eapply NA; eauto).
  right. split; [discriminate|apply neg_denotes, D].
Qed.
Lemma plus_ssig E a b : ssig E (plus a b) = ssig E a && ssig E b.
Proof. destruct a, b; reflexivity. Qed.
Lemma minus_ssig E a b : ssig E (minus a b) = ssig E a && ssig E b.
Proof. destruct a, b; reflexivity. Qed.
Lemma neg_ssig E a : ssig E (neg a) = ssig E a.
Proof. destruct a; reflexivity. Qed.
Lemma neg_py a : is_py (neg a) = is_py a.
Proof. destruct a; reflexivity. Qed.
Lemma plus_py_wide E a z : 32 <= swid E (plus a (XPy z)).
Proof. destruct a; cbn [plus swid]; lia. Qed.

(** the upper bound: an unsized constant *)
Definition hi_of w mx sg : Z := match mx with None => max_of w sg | Some m => m end.
Definition lo_of w mn sg : Z := match mn with None => min_of w sg | Some m => m end.
Lemma the_max_num E s rs raw w mx sgn : lits s (hi_of w mx sgn) -> num E s (the_max rs raw w mx sgn) (hi_of w mx sgn).
Proof.
  intros L. unfold the_max. fold (hi_of w mx sgn). destruct (negb (is_py raw) && rs); [|left; auto].
  right. split; [discriminate|]. unfold int_node. apply int_denotes, L.
Qed.
Lemma the_max_wide E rs raw w mx sgn : swid E (the_max rs raw w mx sgn) = 32 /\ ssig E (the_max rs raw w mx sgn) = true.
Proof. unfold the_max, int_node. destruct (negb (is_py raw) && rs); cbn; auto. Qed.

Lemma mux_num E s c (b : bool) t f z : holds E c = b -> (b = true -> num E s t z) -> (b = false -> num E s f z) ->
  num E s (mk_mux c t f) z.
Proof.
  intros C T F.
  assert (D : denotes E s (mk_mux c t f) z) by (apply (mux_denotes' E s c b); auto using num_denotes).
  destruct c; cbn [mk_mux] in *; try (right; split; [discriminate|exact D]).
  cbn [holds] in C. destruct (z0 =? 0); cbn [negb] in C; auto.
Qed.
Lemma overflow_ok E s rs raw w mx sgn x : num E s raw x -> ssig E raw = s -> small s x -> lits s (hi_of w mx sgn) ->
  num E s (overflow rs raw w mx sgn) (Z.min (hi_of w mx sgn) x).
Proof.
  intros R G X M. pose proof (the_max_num E s rs raw w mx sgn M) as D. destruct (the_max_wide E rs raw w mx sgn) as [W V].
  unfold overflow. set (m := the_max _ _ _ _ _) in *. set (hi := hi_of w mx sgn) in *.
  pose proof (greater_ok E s raw m x hi R D ltac:(rewrite V, andb_true_r; exact G) X (lits_small _ _ M) ltac:(rewrite W; lia)) as C.
  apply (mux_num E s _ (hi <? x)); [exact C| |]; intros B.
  - apply Z.ltb_lt in B. rewrite Z.min_l by lia. assumption.
  - apply Z.ltb_ge in B. rewrite Z.min_r by lia. assumption.
Qed.
Lemma overflow_ssig E rs raw w mx sgn : ssig E (overflow rs raw w mx sgn) = ssig E raw.
Proof.
  destruct (the_max_wide E rs raw w mx sgn) as [_ V]. unfold overflow. destruct raw; try (cbn [greater mk_mux ssig]; rewrite V; reflexivity).
  unfold the_max. cbn [is_py negb andb greater mk_mux]. destruct (_ =? 0); reflexivity.
Qed.
Lemma overflow_wide E rs raw w mx sgn : 32 <= swid E (overflow rs raw w mx sgn).
Proof.
  destruct (the_max_wide E rs raw w mx sgn) as [V _]. unfold overflow. destruct raw; try (cbn [greater mk_mux swid]; rewrite V; lia).
  unfold the_max. cbn [is_py negb andb greater mk_mux]. destruct (_ =? 0); cbn [swid]; lia.
Qed.
Lemma both_ok E s rs raw cond w mx mn lo sgn x : num E s raw x -> ssig E raw = s -> small s x -> lits s (hi_of w mx sgn) ->
  holds E cond = (x <? lo) -> num E s mn lo -> lo <= hi_of w mx sgn ->
  num E s (both rs raw cond w mx mn sgn) (clamp lo (hi_of w mx sgn) x).
Proof.
  intros R G X M C N LE. unfold both, clamp.
  apply (mux_num E s _ (x <? lo)); auto; intros B.
  - apply Z.ltb_lt in B. rewrite Z.max_l by lia. exact N.
  - apply Z.ltb_ge in B. rewrite Z.max_r by lia. apply overflow_ok; assumption.
Qed.
Lemma both_ssig E rs raw cond w mx mn sgn : ssig E mn = true -> ssig E raw = true -> ssig E (both rs raw cond w mx mn sgn) = true.
Proof.
  intros N R. unfold both. fold (overflow rs raw w mx sgn). pose proof (overflow_ssig E rs raw w mx sgn).
  destruct cond; cbn [mk_mux ssig]; try (rewrite N, H, R; reflexivity). destruct (z =? 0); congruence.
Qed.
Lemma both_wide E rs raw cond w mx mn sgn : swid E mn = 32 -> 32 <= swid E (both rs raw cond w mx mn sgn).
Proof.
  intros N. unfold both. fold (overflow rs raw w mx sgn). pose proof (overflow_wide E rs raw w mx sgn).
  destruct cond; cbn [mk_mux swid]; try lia. destruct (z =? 0); lia.
Qed.
Lemma underflow_ok E s raw cond mn lo x : num E s raw x -> holds E cond = (x <? lo) -> num E s mn lo ->
  num E s (underflow raw cond mn) (Z.max lo x).
Proof.
  intros R C N. unfold underflow. apply (mux_num E s _ (x <? lo)); auto; intros B.
  - apply Z.ltb_lt in B. rewrite Z.max_l by lia. exact N.
  - apply Z.ltb_ge in B. rewrite Z.max_r by lia. exact R.
Qed.

(** operands of one operation *)
Definition opnd (s py : bool) (z : Z) : Prop := if s then - 2 ^ 30 <= z < 2 ^ 30 /\ (py = true -> - 2 ^ 30 < z) else 0 <= z < 2 ^ 31.
Lemma opnd_lits s py z : opnd s py z -> lits s z.
Proof. unfold opnd, lits. destruct s; lia. Qed.

Section One.
  Variable E : venv.
  Variables (raw l r : vx) (w : Z) (mx mn : option Z) (x y : Z).

  Lemma add_signed : num E true l x -> num E true r y -> opnd true (is_py l) x -> opnd true (is_py r) y ->
    ssig E l = true -> ssig E r = true -> num E true raw (x + y) -> ssig E raw = true ->
    opnd true false (lo_of w mn true) -> opnd true false (hi_of w mx true) -> lo_of w mn true <= hi_of w mx true ->
    num E true (add_ true raw l r w mx mn) (clamp (lo_of w mn true) (hi_of w mx true) (x + y)).
  Proof.
    intros L R X Y SL SR RAW SRAW LO HI LE. unfold add_. fold (lo_of w mn true).
    pose proof (opnd_lits _ _ _ LO). pose proof (opnd_lits _ _ _ HI). unfold opnd in *.
    assert (C : holds E (less l (plus (neg r) (XPy (lo_of w mn true)))) = (x <? - y + lo_of w mn true)).
    { apply (less_ok E true); auto.
      - apply plus_num; [apply neg_num, R|left; auto|]. rewrite neg_py. intros P _. unfold lits. lia.
      - rewrite plus_ssig, neg_ssig, SL, SR. reflexivity.
      - unfold small. lia.
      - unfold small. lia.
      - right. apply plus_py_wide. }
    apply both_ok; auto; [unfold small; lia| |left; auto].
    rewrite C. destruct (Z.ltb_spec x (- y + lo_of w mn true)), (Z.ltb_spec (x + y) (lo_of w mn true)); auto; lia.
  Qed.
  Lemma sub_signed : num E true l x -> num E true r y -> opnd true (is_py l) x -> opnd true (is_py r) y ->
    ssig E l = true -> ssig E r = true -> num E true raw (x - y) -> ssig E raw = true ->
    opnd true false (lo_of w mn true) -> opnd true false (hi_of w mx true) -> lo_of w mn true <= hi_of w mx true ->
    num E true (sub_ true raw l r w mx mn) (clamp (lo_of w mn true) (hi_of w mx true) (x - y)).
  Proof.
    intros L R X Y SL SR RAW SRAW LO HI LE. unfold sub_. fold (lo_of w mn true).
    pose proof (opnd_lits _ _ _ LO). pose proof (opnd_lits _ _ _ HI). unfold opnd in *.
    assert (C : holds E (less l (plus r (XPy (lo_of w mn true)))) = (x <? y + lo_of w mn true)).
    { apply (less_ok E true); auto.
      - apply plus_num; [exact R|left; auto|]. intros P _. unfold lits. lia.
      - rewrite plus_ssig, SL, SR. reflexivity.
      - unfold small. lia.
      - unfold small. lia.
      - right. apply plus_py_wide. }
    apply both_ok; auto; [unfold small; lia| |left; auto].
    rewrite C. destruct (Z.ltb_spec x (y + lo_of w mn true)), (Z.ltb_spec (x - y) (lo_of w mn true)); auto; lia.
  Qed.
  Lemma add_unsigned : num E false raw (x + y) -> ssig E raw = false -> opnd false false x -> opnd false false y ->
    opnd false false (hi_of w mx false) ->
    num E false (add_ false raw l r w mx mn) (Z.min (hi_of w mx false) (x + y)).
  Proof.
    intros RAW SRAW X Y HI. unfold add_. apply overflow_ok; auto; [unfold small, opnd in *; lia|eapply opnd_lits, HI].
  Qed.
  Lemma sub_unsigned : num E false l x -> num E false r y -> ssig E l && ssig E r = false ->
    num E false raw (x - y) -> opnd false false x -> opnd false false y -> opnd false false (lo_of w mn false) ->
    num E false (sub_ false raw l r w mx mn) (Z.max (lo_of w mn false) (x - y)).
  Proof.
    intros L R S RAW X Y LO. unfold sub_. fold (lo_of w mn false). pose proof (opnd_lits _ _ _ LO). unfold opnd in *.
    assert (C : holds E (less l (plus r (XPy (lo_of w mn false)))) = (x <? y + lo_of w mn false)).
    { apply (less_ok E false); auto.
      - apply plus_num; [exact R|left; auto|]. intros P _. unfold lits. lia.
      - rewrite plus_ssig. cbn [ssig]. rewrite andb_true_r. exact S.
      - unfold small. lia.
      - unfold small. lia.
      - right. apply plus_py_wide. }
    apply underflow_ok; auto; [|left; auto].
    rewrite C. destruct (Z.ltb_spec x (y + lo_of w mn false)), (Z.ltb_spec (x - y) (lo_of w mn false)); auto; lia.
  Qed.
End One.

Lemma operand_num E s e z : operand E s e z -> num E s e z /\ opnd s (is_py e) z.
Proof.
  intros [y R|f y N G D R].
  - split; [left; split; [reflexivity|]|]; unfold lits, opnd in *; cbn [is_py]; destruct s; lia.
  - split; [right; auto|]. unfold opnd. assert (is_py f = false) as -> by (destruct f; try reflexivity; exfalso; eapply N; eauto).
    destruct s; [split; [lia|discriminate]|lia].
Qed.
Lemma hi_small w s : 1 <= w <= 31 -> opnd s false (highest w s) /\ opnd s false (lowest w s) /\ lowest w s <= highest w s.
Proof.
  intros H. pose proof (Z.pow_le_mono_r 2 w 31 ltac:(lia) ltac:(lia)). pose proof (Z.pow_le_mono_r 2 (w - 1) 30 ltac:(lia) ltac:(lia)).
  pose proof (pow_pos w ltac:(lia)). pose proof (pow_pos (w - 1) ltac:(lia)).
  unfold opnd, highest, lowest. destruct s; repeat split; try lia; discriminate.
Qed.
Lemma default_hi w s : hi_of w None s = highest w s.
Proof. reflexivity. Qed.
Lemma default_lo w s : lo_of w None s = lowest w s.
Proof. unfold lo_of, min_of, lowest. destruct s; lia. Qed.
Lemma sat_range w s z : lowest w s <= highest w s -> lowest w s <= saturated w s z <= highest w s.
Proof. unfold saturated, clamp. lia. Qed.
Lemma opnd_sat w s z : 1 <= w <= 31 -> opnd s false (saturated w s z).
Proof.
  intros H. destruct (hi_small w s H) as (A & B & C). pose proof (sat_range w s z C). unfold opnd in *. destruct s; [split; [lia|discriminate]|lia].
Qed.

Lemma psig_plus sg a b : psig sg (plus a b) = psig sg a && psig sg b.
Proof. destruct a, b; reflexivity. Qed.
Lemma psig_minus sg a b : psig sg (minus a b) = psig sg a && psig sg b.
Proof. destruct a, b; reflexivity. Qed.
Lemma and_true a b : a && b = true -> a = true /\ b = true.
Proof. destruct a, b; auto. Qed.

(** what the caller knows of the operands of one operation *)
Record pair E (s : bool) (l r : vx) (x y : Z) : Prop := mkPair {
  p_l : num E s l x; p_r : num E s r y; p_x : opnd s (is_py l) x; p_y : opnd s (is_py r) y; p_s : ssig E l && ssig E r = s }.
Lemma unsigned_bound py z : opnd false py z -> opnd false false z.
Proof. auto. Qed.

Lemma add_pair E s l r x y raw w mx mn : pair E s l r x y -> num E s raw (x + y) -> ssig E raw = s ->
  opnd s false (lo_of w mn s) -> opnd s false (hi_of w mx s) -> lo_of w mn s <= hi_of w mx s -> (s = false -> lo_of w mn s = 0) ->
  let e := add_ s raw l r w mx mn in num E s e (clamp (lo_of w mn s) (hi_of w mx s) (x + y)) /\ ssig E e = s /\ 32 <= swid E e.
Proof.
  intros [L R X Y G] RAW SR LO HI LE U. destruct s; cbn zeta.
  - apply and_true in G as [GL GR]. split; [apply add_signed; assumption|]. unfold add_.
    split; [apply both_ssig; [reflexivity|exact SR]|apply both_wide; reflexivity].
  - specialize (U eq_refl). split; [|unfold add_; split; [rewrite overflow_ssig; exact SR|apply overflow_wide]].
    replace (clamp _ _ _) with (Z.min (hi_of w mx false) (x + y)) by (unfold clamp, opnd in *; lia).
    apply add_unsigned; assumption.
Qed.
Lemma sub_pair E s l r x y raw w mx mn : pair E s l r x y -> num E s raw (x - y) -> ssig E raw = s -> is_py raw = false \/ s = true ->
  opnd s false (lo_of w mn s) -> opnd s false (hi_of w mx s) -> lo_of w mn s <= hi_of w mx s -> (s = false -> x - y <= hi_of w mx s) ->
  let e := sub_ s raw l r w mx mn in num E s e (clamp (lo_of w mn s) (hi_of w mx s) (x - y)) /\ ssig E e = s /\ 32 <= swid E e.
Proof.
  intros [L R X Y G] RAW SR NP LO HI LE U. destruct s; cbn zeta.
  - apply and_true in G as [GL GR]. split; [apply sub_signed; assumption|]. unfold sub_.
    split; [apply both_ssig; [reflexivity|exact SR]|apply both_wide; reflexivity].
  - specialize (U eq_refl). split.
    + replace (clamp _ _ _) with (Z.max (lo_of w mn false) (x - y)) by (unfold clamp, opnd in *; lia).
      apply sub_unsigned; assumption.
    + assert (C : exists o a b, less l (plus r (XPy (lo_of w mn false))) = XBin o a b).
      { destruct l; cbn [less]; try (eexists _, _, _; reflexivity). destruct r; cbn [plus]; try (eexists _, _, _; reflexivity). discriminate G. }
      destruct C as (o & a & b & C). unfold sub_, underflow. fold (lo_of w mn false). rewrite C. cbn [mk_mux ssig swid]. rewrite SR. split; [reflexivity|lia].
Qed.

Lemma assigned_num E s w e z : 1 <= w -> num E s e z -> (ssig E e = s \/ e = XPy z /\ lits true z) -> 32 <= swid E e -> assigned E w e = z mod 2 ^ w.
Proof.
  intros H N G L. unfold assigned.
  assert (D : denotes E (ssig E e) e z).
  { destruct G as [->|[-> G]]; [apply num_denotes, N|apply py_denotes, G]. }
  rewrite (D (Z.max w (swid E e))) by lia. apply mod_mod_le. lia.
Qed.
Lemma sat_value w s z : 1 <= w -> value w s (saturated w s z mod 2 ^ w) = saturated w s z.
Proof.
  intros H. pose proof (pow_pos w ltac:(lia)). pose proof (pow_pos (w - 1) ltac:(lia)).
  pose proof (sat_range w s z ltac:(unfold lowest, highest; destruct s; lia)) as R. apply value_fits; [exact H|].
  unfold lowest, highest in R. unfold Vx_Spec.fits. destruct s; lia.
Qed.

Lemma both_py_raw a b : is_py (plus a b) = true -> is_py a = true /\ is_py b = true.
Proof. destruct a, b; cbn; auto; discriminate. Qed.
Lemma add_whole E s l r x y w mx mn : operand E s l x -> operand E s r y -> psig (ds E) l = ssig E l -> psig (ds E) r = ssig E r ->
  ssig E l && ssig E r = s ->
  opnd s false (lo_of w mn s) -> opnd s false (hi_of w mx s) -> lo_of w mn s <= hi_of w mx s -> (s = false -> lo_of w mn s = 0) ->
  let e := add (ds E) l r w mx mn in num E s e (clamp (lo_of w mn s) (hi_of w mx s) (x + y)) /\ ssig E e = s /\ 32 <= swid E e.
Proof.
  intros L R PL PR G LO HI LE U. destruct (operand_num _ _ _ _ L) as [NL OL], (operand_num _ _ _ _ R) as [NR OR].
  cbn zeta. unfold add. rewrite psig_plus, PL, PR, G.
  apply add_pair; auto; [constructor; assumption| |rewrite plus_ssig; exact G].
  apply plus_num; auto. intros P Q. destruct l; try discriminate P. destruct r; try discriminate Q. subst s. cbn in *. unfold lits. lia.
Qed.
Lemma sub_whole E s l r x y w mx mn : operand E s l x -> operand E s r y -> psig (ds E) l = ssig E l -> psig (ds E) r = ssig E r ->
  ssig E l && ssig E r = s ->
  opnd s false (lo_of w mn s) -> opnd s false (hi_of w mx s) -> lo_of w mn s <= hi_of w mx s -> (s = false -> x - y <= hi_of w mx s) ->
  let e := sub (ds E) l r w mx mn in num E s e (clamp (lo_of w mn s) (hi_of w mx s) (x - y)) /\ ssig E e = s /\ 32 <= swid E e.
Proof.
  intros L R PL PR G LO HI LE U. destruct (operand_num _ _ _ _ L) as [NL OL], (operand_num _ _ _ _ R) as [NR OR].
  cbn zeta. unfold sub. rewrite psig_minus, PL, PR, G.
  apply sub_pair; auto; [constructor; assumption| |rewrite minus_ssig; exact G|].
  - apply minus_num; auto. intros P Q. destruct l; try discriminate P. destruct r; try discriminate Q. subst s. cbn in *. unfold lits. lia.
  - destruct l, r; cbn; auto.
Qed.

(** ** Trees *)
Lemma psig_node E s a b : ssig E a && ssig E b = s -> psig (ds E) a = ssig E a -> psig (ds E) b = ssig E b -> psig (ds E) a && psig (ds E) b = s.
Proof. congruence. Qed.
Lemma signs_eq E e : signs E e -> psig (ds E) e = ssig E e.
Proof.
  induction e; cbn [signs]; auto. destruct o; auto; intros [A B]; cbn [psig ssig]; rewrite IHe1, IHe2 by assumption; reflexivity.
Qed.
Lemma mark_ok e r : mark e = Some r -> r = e /\ is_py e = false.
Proof. destruct e; cbn; intros H; try discriminate; injection H as <-; auto. Qed.

(** the bounds [write] passes, or those of the operands of a subtraction *)
Definition bounds (w : Z) (s : bool) (mx mn : option Z) : Prop := hi_of w mx s = highest w s /\ lo_of w mn s = lowest w s.
Lemma bounds_none w s mx mn : bounds w s mx mn -> bounds w s mx None.
Proof. intros [A _]. split; [exact A|apply default_lo]. Qed.

Lemma sat_op_ok E w s : 1 <= w <= 31 -> forall e z, sum E w s e z -> signs E e -> forall mx mn r, bounds w s mx mn -> sat_op (ds E) w mx mn e = Some r ->
  num E s r z /\ ssig E r = ssig E e /\ opnd s (is_py r) z /\ (s = false -> z <= highest w s) /\ (is_sum e -> 32 <= swid E r /\ exists y, z = saturated w s y).
Proof.
  intros H e z T. induction T as [e z NS O U|a b x y TA IA TB IB G|a b x y TA IA TB IB G]; intros SG mx mn r BD R.
  - assert (r = e) as ->.
    { destruct e; cbn [sat_op] in R; try congruence. destruct o; cbn [sat_op] in R; try congruence; exfalso; apply NS; repeat eexists; auto. }
    destruct (operand_num _ _ _ _ O) as [N P]. split; [exact N|]. split; [reflexivity|]. split; [exact P|]. split; [exact U|]. intros X. contradiction.
  - cbn [signs] in SG. destruct SG as [SA SB]. cbn [sat_op] in R.
    destruct (sat_op (ds E) w mx mn a) as [a'|] eqn:RA; [|discriminate]. destruct (sat_op (ds E) w mx mn b) as [b'|] eqn:RB; [|discriminate].
    apply mark_ok in R as [-> NP].
    destruct (IA SA mx mn a' BD RA) as (NA & GA & OA & UA & _). destruct (IB SB mx mn b' BD RB) as (NB & GB & OB & UB & _).
    assert (PS : psig (ds E) (XBin BPlus a b) = s) by (cbn [psig]; apply psig_node; auto using signs_eq). rewrite PS in *.
    destruct (hi_small w s H) as (HH & HL & LE). destruct BD as [BH BL].
    destruct (add_pair E s a' b' x y (XBin BPlus a' b') w mx mn) as (N & G' & W'); try (rewrite BH || rewrite BL; assumption).
    + constructor; auto. congruence.
    + right. split; [discriminate|]. apply plus_denotes; apply num_denotes; assumption.
    + cbn [ssig]. congruence.
    + rewrite BL, BH. exact LE.
    + intros ->. rewrite BL. reflexivity.
    + rewrite BH, BL in N. fold (saturated w s (x + y)) in N. split; [exact N|]. split; [cbn [ssig]; congruence|]. rewrite NP.
      split; [apply opnd_sat, H|]. split; [intros _; apply sat_range, LE|]. intros _. split; [exact W'|eauto].
  - cbn [signs] in SG. destruct SG as [SA SB]. cbn [sat_op] in R.
    destruct (sat_op (ds E) w mx None a) as [a'|] eqn:RA; [|discriminate]. destruct (sat_op (ds E) w mx None b) as [b'|] eqn:RB; [|discriminate].
    apply mark_ok in R as [-> NP]. pose proof (bounds_none _ _ _ _ BD) as BD'.
    destruct (IA SA mx None a' BD' RA) as (NA & GA & OA & UA & _). destruct (IB SB mx None b' BD' RB) as (NB & GB & OB & UB & _).
    assert (PS : psig (ds E) (XBin BMinus a b) = s) by (cbn [psig]; apply psig_node; auto using signs_eq). rewrite PS in *.
    destruct (hi_small w s H) as (HH & HL & LE). destruct BD as [BH BL].
    destruct (sub_pair E s a' b' x y (XBin BMinus a' b') w mx mn) as (N & G' & W'); try (rewrite BH || rewrite BL; assumption).
    + constructor; auto. congruence.
    + right. split; [discriminate|]. apply minus_denotes; apply num_denotes; assumption.
    + cbn [ssig]. congruence.
    + left. reflexivity.
    + rewrite BL, BH. exact LE.
    + intros Es. rewrite BH. specialize (UA Es). unfold opnd in OB. rewrite Es in OB. lia.
    + rewrite BH, BL in N. fold (saturated w s (x - y)) in N. split; [exact N|]. split; [cbn [ssig]; congruence|]. rewrite NP.
      split; [apply opnd_sat, H|]. split; [intros _; apply sat_range, LE|]. intros _. split; [exact W'|eauto].
Qed.

(** [write] *)
Lemma write_bounds w s : 1 <= w -> bounds w s (Some (if s then 2 ^ (w - 1) - 1 else 2 ^ w - 1)) (Some (if s then 2 ^ (w - 1) * -1 else 0)).
Proof. intros H. unfold bounds, hi_of, lo_of, highest, lowest. destruct s; lia. Qed.
Lemma write_eq sg w s v : write sg w s v = to_saturate sg v w (Some (if s then 2 ^ (w - 1) - 1 else 2 ^ w - 1)) (Some (if s then 2 ^ (w - 1) * -1 else 0)) s.
Proof. destruct s; reflexivity. Qed.
Lemma sum_dec e : {is_sum e} + {~ is_sum e}.
Proof.
  destruct e; try (right; intros (o' & a' & b' & H & _); discriminate).
  destruct o; try (right; intros (o' & a' & b' & H & [-> | ->]); discriminate); left; repeat eexists; auto.
Qed.
Lemma write_sum E w s e z r : 1 <= w <= 31 -> is_sum e -> sum E w s e z -> signs E e -> write (ds E) w s e = Some r ->
  num E s r z /\ value w s (assigned E w r) = z.
Proof.
  intros H S T SG R. rewrite write_eq in R.
  assert (R' : sat_op (ds E) w (Some (if s then 2 ^ (w - 1) - 1 else 2 ^ w - 1)) (Some (if s then 2 ^ (w - 1) * -1 else 0)) e = Some r).
  { destruct S as (o & a & b & -> & [-> | ->]); exact R. }
  destruct (sat_op_ok E w s H e z T SG _ _ r (write_bounds w s ltac:(lia)) R') as (N & G & _ & _ & X). destruct (X S) as [W (y & ->)].
  split; [exact N|]. rewrite (assigned_num E s w r (saturated w s y)); auto; [apply sat_value; lia|lia|].
  left. rewrite G. inversion T; subst; [contradiction|reflexivity|reflexivity].
Qed.
Lemma write_leaf E w s e z : 1 <= w <= 31 -> ~ is_sum e -> operand E s e z -> psig (ds E) e = ssig E e ->
  exists r, write (ds E) w s e = Some r /\ num E s r (saturated w s z) /\ value w s (assigned E w r) = saturated w s z.
Proof.
  intros H NS O PS. destruct (operand_num _ _ _ _ O) as [N P]. pose proof (hi_small w s H) as (HH & HL & LE).
  destruct (write_bounds w s ltac:(lia)) as [BH BL]. set (mx := if s then 2 ^ (w - 1) - 1 else _) in *. set (mn := if s then 2 ^ (w - 1) * -1 else 0) in *.
  assert (W : write (ds E) w s e = single (ds E) e w (Some mx) (Some mn) s).
  { rewrite write_eq. destruct e; try reflexivity. destruct o; try reflexivity; exfalso; apply NS; repeat eexists; auto. }
  rewrite W. cbn [hi_of lo_of] in BH, BL.
  assert (SIG : ssig E e = s \/ is_py e = true) by (destruct O; auto).
  unfold single. destruct s; cbn [orb].
  - eexists. split; [reflexivity|]. set (m := if is_py e then XPy mn else int_node mn None None true).
    assert (NM : num E true m mn).
    { rewrite BL. unfold m. rewrite BL. destruct (is_py e); [left; split; [reflexivity|]|right; split; [discriminate|unfold int_node; apply int_denotes]]; eapply opnd_lits, HL. }
    assert (SE : ssig E e = true) by (destruct SIG as [|X]; [assumption|destruct e; try discriminate X; reflexivity]).
    assert (SM : ssig E m = true /\ swid E m = 32) by (unfold m; destruct (is_py e); split; reflexivity).
    destruct SM as [SM WM].
    assert (C : holds E (less e m) = (z <? mn)).
    { apply (less_ok E true); auto; try (rewrite SE, SM; reflexivity); try (unfold opnd, small in *; rewrite ?BL; lia). }
    assert (Q : num E true (both (psig (ds E) e) e (less e m) w (Some mx) m true) (saturated w true z)).
    { unfold saturated. rewrite <- BL. rewrite <- BH. apply (both_ok E true (psig (ds E) e) e (less e m) w (Some mx) m mn true z); auto.
      - unfold opnd, small in *; lia.
      - cbn [hi_of]. rewrite BH. eapply opnd_lits, HH.
      - cbn [hi_of]. lia. }
    split; [exact Q|]. rewrite (assigned_num E true w _ (saturated w true z)); auto; [apply sat_value; lia|lia| |apply both_wide, WM].
    left. apply both_ssig; assumption.
  - assert (NN : match e with XPy y => y <? 0 | _ => false end = false).
    { destruct e; try reflexivity. apply Z.ltb_ge. destruct N as [[N _]|[N _]]; [injection N as ->; unfold opnd in P; lia|exfalso; eapply N; eauto]. }
    rewrite NN. eexists. split; [reflexivity|].
    assert (Z0 : Z.min (highest w false) z = saturated w false z) by (unfold saturated, clamp, lowest, opnd in *; lia).
    destruct SIG as [SE|PY].
    + assert (Q : num E false (overflow (psig (ds E) e) e w (Some mx) false) (saturated w false z)).
      { rewrite <- Z0, <- BH. apply (overflow_ok E false (psig (ds E) e) e w (Some mx) false z); auto.
        - unfold opnd, small in *; lia.
        - cbn [hi_of]. rewrite BH. eapply opnd_lits, HH. }
      split; [exact Q|]. rewrite (assigned_num E false w _ (saturated w false z)); auto; [apply sat_value; lia|lia| |apply overflow_wide].
      left. rewrite overflow_ssig. exact SE.
    + destruct e as [y| | | | | | | | | | |]; try discriminate PY. destruct N as [[N _]|[N _]]; [injection N as ->|exfalso; eapply N; eauto].
      unfold overflow, the_max. cbn [is_py negb andb greater mk_mux psig]. rewrite BH.
      assert (K : (if b2z (highest w false <? z) =? 0 then XPy z else XPy (highest w false)) = XPy (saturated w false z)).
      { rewrite <- Z0. destruct (Z.ltb_spec (highest w false) z); cbn [b2z Z.eqb]; f_equal; lia. }
      rewrite K. pose proof (opnd_sat w false z H) as OS.
      assert (Q : num E false (XPy (saturated w false z)) (saturated w false z)) by (left; split; [reflexivity|eapply opnd_lits, OS]).
      split; [exact Q|]. rewrite (assigned_num E false w _ (saturated w false z)); auto; [apply sat_value; lia|lia| |cbn [swid]; lia].
      right. split; [reflexivity|]. unfold opnd, lits in *. lia.
Qed.

Lemma sat_op_some sg w e : built e -> forall mx mn, exists r, sat_op sg w mx mn e = Some r /\ is_py r = is_py e.
Proof.
  assert (C : forall l r m, is_py l && is_py r = false -> exists o a b, less l (plus r m) = XBin o a b).
  { intros l r m H. destruct l; cbn [less]; try (eexists _, _, _; reflexivity). destruct r; cbn [plus]; try (eexists _, _, _; reflexivity). discriminate H. }
  assert (N : forall r, is_py (neg r) = is_py r) by (intros []; reflexivity).
  assert (G : forall o a b m, greater (XBin o a b) m = XBin BGt (XBin o a b) m) by reflexivity.
  induction e; intros B mx mn; try (eexists; split; reflexivity).
  destruct o; try (eexists; split; reflexivity); cbn [built] in B; destruct B as (BA & BB & NC); cbn [sat_op].
  - destruct (IHe1 BA mx mn) as (a' & -> & PA), (IHe2 BB mx mn) as (b' & -> & PB). rewrite <- PA, <- PB in NC.
    set (rs := psig sg _). unfold add_. destruct rs.
    + unfold both. destruct (C a' (neg b') (XPy (match mn with Some m => m | None => min_of w true end)) ltac:(rewrite N; exact NC)) as (o & x & y & ->).
      cbn [mk_mux mark]. eexists. split; reflexivity.
    + unfold overflow. rewrite G. cbn [mk_mux mark]. eexists. split; reflexivity.
  - destruct (IHe1 BA mx None) as (a' & -> & PA), (IHe2 BB mx None) as (b' & -> & PB). rewrite <- PA, <- PB in NC.
    set (rs := psig sg _). unfold sub_. destruct (C a' b' (XPy (match mn with Some m => m | None => min_of w rs end)) NC) as (o & x & y & ->).
    destruct rs; unfold both, underflow; cbn [mk_mux mark]; eexists; split; reflexivity.
Qed.
