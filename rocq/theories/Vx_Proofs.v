(** Proofs about selections, slices and constant evaluation. *)
From Verif Require Import Base Bits Vx_Model Vx_Sem Vx_Spec.
Open Scope Z_scope.

(** ** Selections *)
Lemma mk_mux_ev E W S c t f : ev E W S (mk_mux c t f) = if holds E c then ev E W S t else ev E W S f.
Proof.
  destruct c; cbn [mk_mux holds]; try (destruct (z =? 0); reflexivity);
    cbn [ev]; unfold truth, self; destruct (_ =? 0); reflexivity.
Qed.

Lemma list_eq_nil {A} (l : list A) : l = [] \/ l <> [].
Proof. destruct l; [left|right]; congruence. Qed.
Lemma mux_fold_none l : fold_left mux_step l None = None.
Proof. induction l; auto. Qed.
Lemma find_app' {A} (f : A -> bool) l m : find f (l ++ m) = match find f l with Some x => Some x | None => find f m end.
Proof. induction l as [|a l IH]; cbn; [reflexivity|]. destruct (f a); auto. Qed.
(** from the last pattern backwards, once the default is there *)
Lemma mux_fold E W S l q r : fold_left mux_step l (Some (Some q)) = Some r ->
  exists e, r = Some e /\ Forall (fun p => fst p <> None) l /\
  ev E W S e = match first_match (holds E) (rev l) with Some v => ev E W S v | None => ev E W S q end.
Proof.
  revert q. induction l as [|[c v] l IH]; intros q H; cbn in H.
  - exists q. inversion H. repeat split; constructor.
  - destruct c as [c|]; [|rewrite mux_fold_none in H; discriminate].
    apply IH in H as (e & -> & F & X). exists e. split; [reflexivity|]. split; [constructor; [discriminate|exact F]|].
    rewrite X. cbn [rev]. unfold first_match. rewrite find_app'. destruct (find _ (rev l)) as [[p w]|]; [reflexivity|].
    cbn. rewrite mk_mux_ev. destruct (holds E c); reflexivity.
Qed.
Lemma mux_ok E W S ps e : pattern_mux ps = Some e ->
  exists v, first_match (holds E) ps = Some v /\ ev E W S e = ev E W S v.
Proof.
  unfold pattern_mux. destruct (rev ps) as [|[[c|] d] l] eqn:R; [discriminate| |]; cbn.
  - rewrite mux_fold_none. discriminate.
  - destruct (fold_left mux_step l _) as [r|] eqn:F; [|discriminate]. intros ->.
    destruct (mux_fold E W S _ _ _ F) as (e' & X & Fa & V). inversion X; subst e'.
    assert (P : ps = rev l ++ [(None, d)]) by (rewrite <- (rev_involutive ps), R; reflexivity).
    rewrite P. unfold first_match in *. rewrite find_app'. rewrite V. destruct (find _ (rev l)) as [[p w]|]; cbn; eauto.
Qed.
Lemma mux_fold_some l q : Forall (fun p => fst p <> None) l -> exists e, fold_left mux_step l (Some (Some q)) = Some (Some e).
Proof.
  revert q. induction l as [|[[c|] v] l IH]; intros q H; inversion H; subst; cbn in *; [eauto|auto|congruence].
Qed.
Lemma mux_accepts ps : well_formed ps <-> exists e, pattern_mux ps = Some e.
Proof.
  unfold pattern_mux. split.
  - intros (init & d & -> & F). rewrite rev_app_distr. cbn.
    destruct (mux_fold_some (rev init) d) as [e X]; [apply Forall_rev, F|]. rewrite X. eauto.
  - intros [e H]. destruct (rev ps) as [|[[c|] d] l] eqn:R; [discriminate| |]; cbn in H.
    + rewrite mux_fold_none in H. discriminate.
    + destruct (fold_left mux_step l _) as [r|] eqn:F; [|discriminate].
      destruct (mux_fold (mkEnv (fun _ => 0) (fun _ => false) (fun _ => 0) 0) 0 false _ _ _ F) as (e' & X & Fa & _).
      exists (rev l), d. split; [rewrite <- (rev_involutive ps), R; reflexivity|apply Forall_rev, Fa].
Qed.

Section StmtProofs.
  Context {St : Type} (env : St -> venv) (leaf : nat -> St -> St).
  Notation exec := (exec env leaf). Notation execs := (execs env leaf).
  Lemma exec_block l st : exec (SBlock l) st = execs l st.
  Proof. cbn. revert st. induction l; intros; cbn; auto. Qed.
  Lemma inner_execs l st :
    (fix execs (l : list vs) (st : St) : St := match l with [] => st | s :: r => execs r (exec s st) end) l st = execs l st.
  Proof. revert st. induction l; intros; cbn; auto. Qed.
  Lemma exec_if c t f st : exec (SIf c t f) st = if truth (env st) c then execs t st else match f with Some f => execs f st | None => st end.
  Proof. cbn. destruct (truth _ _); [apply inner_execs|]. destruct f; [apply inner_execs|reflexivity]. Qed.
  Lemma pattern_if_ok n i ps r st : pattern_if_go n i ps = Some r ->
    match r with Some body => execs body st | None => st end
    = match first_match (truth (env st)) ps with Some b => execs b st | None => st end.
  Proof.
    revert i r. induction ps as [|[[c|] b] ps IH]; intros i r H; cbn [pattern_if_go] in H.
    - inversion H. reflexivity.
    - destruct (pattern_if_go n (S i) ps) as [rest|] eqn:G; [|discriminate]. inversion H; subst r. cbn [Vx_Sem.execs].
      rewrite exec_if. unfold first_match. cbn [find fst]. destruct (truth (env st) c); [reflexivity|].
      apply (IH _ _ G).
    - destruct (i <? n - 1)%nat; [discriminate|]. inversion H; subst r. cbn [Vx_Sem.execs]. rewrite exec_block. reflexivity.
  Qed.
  (** the case statement *)
  Lemma exec_case_eq c ws st : exec (SCase c ws) st =
    (fix find (ws' : list (option (list vx) * list vs)) (dflt : option St) : St :=
       match ws' with
       | [] => match dflt with Some r => r | None => st end
       | (None, b) :: r => find r (Some (execs b st))
       | (Some l, b) :: r => if existsb (case_match (env st) c ws) l then execs b st else find r dflt
       end) ws None.
  Proof.
    cbn [Vx_Sem.exec]. generalize (case_match (env st) c ws) as m. intros m. generalize (@None St) as d.
    induction ws as [|[[l|] b] ws IH]; intros d; [reflexivity| |].
    - rewrite IH. rewrite inner_execs. reflexivity.
    - rewrite IH. rewrite inner_execs. reflexivity.
  Qed.
  Lemma exec_case c ws st : default_last ws ->
    exec (SCase c ws) st =
    match find (fun w => match fst w with Some l => existsb (case_match (env st) c ws) l | None => true end) ws with
    | Some w => execs (snd w) st | None => st end.
  Proof.
    intros D. rewrite exec_case_eq. generalize (case_match (env st) c ws) as m. intros m.
    destruct (list_eq_nil ws) as [->|N]; [reflexivity|]. rewrite (app_removelast_last (None, []) N).
    set (w0 := last ws (None, [])). clearbody w0. unfold default_last in D. set (l := removelast ws) in *. clearbody l.
    clear N.
    enough (G : forall d, (fix find (ws' : list (option (list vx) * list vs)) (dflt : option St) : St :=
       match ws' with
       | [] => match dflt with Some r => r | None => st end
       | (None, b) :: r => find r (Some (execs b st))
       | (Some l, b) :: r => if existsb m l then execs b st else find r dflt
       end) (l ++ [w0]) d = match find (fun w => match fst w with Some l => existsb m l | None => true end) (l ++ [w0]) with
    | Some w => execs (snd w) st | None => match d with Some r => r | None => st end end) by apply G.
    intros d. induction D as [|[[l0|] b] l N F IH]; [| |cbn in N; congruence].
    - cbn. destruct w0 as [[l|] b]; cbn; [destruct (existsb m l); reflexivity|reflexivity].
    - cbn [app find fst]. destruct (existsb m l0); [reflexivity|exact IH].
  Qed.
End StmtProofs.

Lemma case_fold_none ws : fold_left case_add ws None = None.
Proof. induction ws; auto. Qed.
Lemma case_fold ws : forall acc, fold_left case_add ws (Some (false, acc)) =
  if forallb (fun w => match fst w with None => false | _ => true end) (removelast ws)
  then Some (match last ws (Some [], []) with (None, _) => true | _ => false end, acc ++ ws) else None.
Proof.
  induction ws as [|w ws IH]; intros acc; [cbn; rewrite app_nil_r; reflexivity|].
  cbn [fold_left case_add]. destruct ws as [|w' ws].
  - cbn. destruct w as [[c|] b]; reflexivity.
  - destruct w as [[c|] b]; cbn [fst].
    + rewrite IH. rewrite <- app_assoc. reflexivity.
    + cbn. apply case_fold_none.
Qed.
Lemma case_accepts c ws s : case_build c ws = Some s <-> s = SCase c ws /\ default_last ws.
Proof.
  unfold case_build, default_last. rewrite case_fold. cbn [app].
  assert (X : forallb (fun w : option (list vx) * list vs => match fst w with None => false | _ => true end) (removelast ws) = true
    <-> Forall (fun w => fst w <> None) (removelast ws)).
  { rewrite forallb_forall, Forall_forall. split; intros H w I; specialize (H w I); destruct (fst w); congruence. }
  destruct (forallb _ _).
  - split; [intros H; inversion H; split; [reflexivity|apply X; reflexivity]|intros [-> _]; reflexivity].
  - split; [discriminate|]. intros [_ H]. apply X in H. discriminate.
Qed.

Lemma pattern_if_accepts n i ps : pattern_if_go n i ps <> None <->
  (forall k b, nth_error ps k = Some (None, b) -> (forall j b', (j < k)%nat -> nth_error ps j <> Some (None, b')) -> (n - 1 <= i + k)%nat).
Proof.
  revert i. induction ps as [|[[c|] b] ps IH]; intros i; cbn [pattern_if_go].
  - split; [|discriminate]. intros _ [|k] b H; discriminate.
  - destruct (pattern_if_go n (S i) ps) as [rest|] eqn:G.
    + split; [|discriminate]. intros _ [|k] b' H F; [discriminate|]. cbn in H.
      rewrite <- Nat.add_succ_comm. apply (proj1 (IH (S i))) with (k := k) (b := b'); [congruence|exact H|].
      intros j b'' J. apply (F (S j) b''). lia.
    + split; [congruence|]. intros H. exfalso. apply (proj2 (IH (S i))); [|exact G].
      intros k b' K F. rewrite Nat.add_succ_comm. apply (H (S k) b' K).
      intros [|j] b'' J; [discriminate|]. apply F. lia.
  - destruct (Nat.ltb_spec i (n - 1)).
    + split; [congruence|]. intros H'. specialize (H' 0%nat b eq_refl ltac:(lia)). lia.
    + split; [|discriminate]. intros _ [|k] b' K F; [lia|]. destruct (F 0%nat b ltac:(lia)). reflexivity.
Qed.

(** ** add_mux and friends *)
Lemma add_all_app f l cv : add_all f (l ++ [cv]) = Some (f (add_all f l) (fst cv) (snd cv)).
Proof. unfold add_all. rewrite fold_left_app. reflexivity. Qed.
Lemma last_match_app ok l cv : last_match ok (l ++ [cv]) = if ok (fst cv) then Some (snd cv) else last_match ok l.
Proof. unfold last_match. rewrite rev_app_distr. cbn. destruct (ok (fst cv)); reflexivity. Qed.
Lemma add_mux_all E W S l e : add_all add_mux l = Some e ->
  ev E W S e = match last_match (holds E) l with Some v => ev E W S v | None => junk E mod 2 ^ W end.
Proof.
  revert e. induction l as [|cv l IH] using rev_ind; intros e H; [discriminate|].
  rewrite add_all_app in H. inversion H; subst e. rewrite last_match_app. destruct (add_all add_mux l) as [p|] eqn:P; cbn [add_mux].
  - rewrite mk_mux_ev. destruct (holds E (fst cv)); [reflexivity|]. apply IH, eq_refl.
  - rewrite mk_mux_ev. destruct (holds E (fst cv)); [reflexivity|]. destruct l using rev_ind; [reflexivity|].
    rewrite add_all_app in P. discriminate.
Qed.
Lemma add_enable_all E W S l e : add_all add_enable_cond l = Some e ->
  ev E W S e = match last_match (holds E) l with Some v => ev E W S v | None => 0 end.
Proof.
  revert e. induction l as [|cv l IH] using rev_ind; intros e H; [discriminate|].
  rewrite add_all_app in H. inversion H; subst e. rewrite last_match_app. destruct (add_all add_enable_cond l) as [p|] eqn:P; cbn [add_enable_cond].
  - rewrite mk_mux_ev. destruct (holds E (fst cv)); [reflexivity|]. apply IH, eq_refl.
  - rewrite mk_mux_ev. destruct (holds E (fst cv)); [reflexivity|]. destruct l using rev_ind.
    + cbn. unfold lit. cbn. destruct S; reflexivity.
    + rewrite add_all_app in P. discriminate.
Qed.
Lemma ev_one E W S : 1 <= W -> ev E W S (XPy 1) = 1.
Proof.
  intros H. cbn. unfold lit. cbn. pose proof (Z.pow_le_mono_r 2 1 W ltac:(lia) H). destruct S; cbn; apply Z.mod_small; lia.
Qed.
(** one term of the conjunction built by [add_disable_cond] *)
Lemma gate_ok E c v : 1 <= swid E v -> stable E v ->
  truth E (mk_mux c v (XPy 1)) = negb (holds E c) || truth E v.
Proof.
  intros H S. unfold truth at 1, self at 1. rewrite mk_mux_ev. destruct (holds E c) eqn:C; cbn [negb orb].
  - set (m := mk_mux c v (XPy 1)). assert (X : swid E v <= swid E m).
    { unfold m. destruct c; cbn [mk_mux swid]; try lia. cbn in C. destruct (z =? 0); [discriminate|lia]. }
    rewrite (S _ _ X). apply negb_involutive.
  - set (m := mk_mux c v (XPy 1)). assert (X : 1 <= swid E m).
    { unfold m. destruct c; cbn [mk_mux swid]; try lia. destruct (z =? 0); cbn; lia. }
    rewrite ev_one by exact X. reflexivity.
Qed.
Lemma add_disable_truth E l e : Forall (fun cv => 1 <= swid E (snd cv) /\ stable E (snd cv)) l ->
  add_all add_disable_cond l = Some e -> truth E e = gates E l.
Proof.
  revert e. induction l as [|cv l IH] using rev_ind; intros e F H; [discriminate|].
  apply Forall_app in F as [F F1]. apply Forall_inv in F1 as [W1 S1].
  rewrite add_all_app in H. inversion H; subst e. unfold gates. rewrite forallb_app. cbn [forallb]. rewrite andb_true_r.
  destruct (add_all add_disable_cond l) as [p|] eqn:P; cbn [add_disable_cond].
  - specialize (IH p F eq_refl). cbn [and_list fold_left]. unfold truth at 1, self at 1. cbn [ev swid ssig].
    fold (self E (mk_mux (fst cv) (snd cv) (XPy 1))). fold (self E p). fold (truth E (mk_mux (fst cv) (snd cv) (XPy 1))). fold (truth E p).
    rewrite gate_ok by assumption. rewrite IH. fold (gates E l). rewrite andb_comm. destruct (gates E l && _); reflexivity.
  - destruct l using rev_ind; [|rewrite add_all_app in P; discriminate]. cbn. rewrite gate_ok by assumption. reflexivity.
Qed.
Lemma add_disable_all E W S l e : Forall (fun cv => 1 <= swid E (snd cv) /\ stable E (snd cv)) l -> (2 <= length l)%nat ->
  add_all add_disable_cond l = Some e -> ev E W S e = b2z (gates E l).
Proof.
  intros F L H. pose proof (add_disable_truth E l e F H) as T. destruct l as [|cv l] using rev_ind; [discriminate|]. clear IHl.
  rewrite add_all_app in H. destruct (add_all add_disable_cond l) as [p|] eqn:P.
  - inversion H; subst e. rewrite <- T. unfold truth at 1, self at 1. cbn [add_disable_cond and_list fold_left ev swid ssig].
    destruct (_ && _); reflexivity.
  - destruct l as [|x l] using rev_ind; [cbn in L; lia|]. rewrite add_all_app in P. discriminate.
Qed.

(** values assigned to a target *)
Lemma var_assigned E W S x w : 0 <= w <= dw E x -> w <= W -> ev E W S (XVar x) mod 2 ^ w = val E x mod 2 ^ w.
Proof.
  intros H1 H2. cbn [ev]. rewrite mod_mod_le by lia. rewrite <- (mod_mod_le (val E x) (dw E x) w) by lia.
  rewrite <- (value_mod (dw E x) S (val E x)) by lia. symmetry. apply mod_mod_le. lia.
Qed.
Lemma value_zero w S x : 1 <= w -> (value w S x =? 0) = (x mod 2 ^ w =? 0).
Proof.
  intros H. pose proof (pow_pos (w - 1) ltac:(lia)). pose proof (pow_split w H). pose proof (uns_range w x ltac:(lia)). unfold value, sgn, uns in *.
  destruct S; [|reflexivity]. destruct (Z.ltb_spec (x mod 2 ^ w) (2 ^ (w - 1))); [reflexivity|].
  apply eq_true_iff_eq. rewrite !Z.eqb_eq. lia.
Qed.
Lemma mod_zero_le v w W : 0 <= w <= W -> (v mod 2 ^ W =? 0) = true -> (v mod 2 ^ w =? 0) = true.
Proof. intros H X. apply Z.eqb_eq in X. apply Z.eqb_eq. rewrite <- (mod_mod_le v W) by lia. rewrite X. reflexivity. Qed.
Lemma var_stable E x : 1 <= dw E x -> stable E (XVar x).
Proof.
  intros H W S L. unfold truth, self. cbn [swid ssig ev] in *. rewrite negb_involutive. rewrite value_mod by lia.
  pose proof (value_zero (dw E x) S (val E x) H) as V. destruct (val E x mod 2 ^ dw E x =? 0) eqn:Z0.
  - apply Z.eqb_eq in V. rewrite V. rewrite Z.mod_0_l; [reflexivity|]. pose proof (pow_pos W ltac:(lia)). lia.
  - destruct (_ mod 2 ^ W =? 0) eqn:X; [|reflexivity]. apply (mod_zero_le _ (dw E x)) in X; [|lia].
    rewrite value_mod in X by lia. congruence.
Qed.

(** ** Slices *)
Lemma number_py E z : - 2 ^ 31 < z < 2 ^ 31 -> number E (XPy z) = z.
Proof.
  intros H. unfold number, self. cbn [swid ssig ev]. unfold lit.
  assert (X : (if z <? 0 then - value 32 true (- z) else value 32 true z) = z).
  { unfold value. destruct (Z.ltb_spec z 0); rewrite sgn_small; try lia; change (2 ^ (32 - 1)) with (2 ^ 31); lia. }
  rewrite X. unfold value. rewrite sgn_of_mod by lia. apply sgn_small; [lia|]. change (2 ^ (32 - 1)) with (2 ^ 31). lia.
Qed.
Lemma ptr_ok E x i : 0 <= i < dw E x -> dw E x <= 2 ^ 31 -> self E (XPtr x (XPy i)) = bit (val E x) i.
Proof.
  intros H1 H2. pose proof (number_py E i) as N. unfold number, self in N. unfold self. cbn [ev swid ssig] in *.
  change (2 ^ 31) with 2147483648 in *. rewrite N by lia.
  destruct (Z.leb_spec 0 i); [|lia]. destruct (Z.ltb_spec i (dw E x)); [reflexivity|lia].
Qed.
Definition cat_width E (es : list vx) := fold_right (fun b s => swid E b + s) 0 es.
Fixpoint cat_bits E (es : list vx) : Z := match es with [] => 0 | a :: r => self E a * 2 ^ cat_width E r + cat_bits E r end.
Lemma cat_self E W S es : ev E W S (XCat es) = cat_bits E es.
Proof. cbn. induction es as [|a r IH]; [reflexivity|]. cbn. rewrite <- IH. reflexivity. Qed.
Lemma cat_width_app E a b : cat_width E (a ++ b) = cat_width E a + cat_width E b.
Proof. unfold cat_width in *. induction a as [|x a IH]; cbn [app fold_right]; [reflexivity|]. rewrite IH. lia. Qed.
Lemma cat_bits_snoc E l a : 0 <= swid E a -> (forall b, In b l -> 0 <= swid E b) -> cat_bits E (l ++ [a]) = cat_bits E l * 2 ^ swid E a + self E a.
Proof.
  intros H F. induction l as [|x l IH]; cbn [app cat_bits].
  - cbn. lia.
  - rewrite IH by (intros; apply F; right; assumption). rewrite cat_width_app.
    assert (0 <= cat_width E l). { clear - F. induction l as [|y l IH]; cbn; [lia|].
      pose proof (F y ltac:(right; left; reflexivity)). assert (0 <= cat_width E l); [|unfold cat_width in *; lia].
      apply IH. intros b [I|I]; apply F; [left; exact I|right; right; exact I]. }
    change (cat_width E [a]) with (swid E a + 0). rewrite Z.add_0_r, Z.pow_add_r by lia. ring.
Qed.
Lemma bit_range x i : bit x i = 0 \/ bit x i = 1.
Proof. unfold bit. destruct (Z.testbit x i); auto. Qed.
Lemma ptr_cat E x js : (forall j, In j js -> 0 <= j < dw E x) -> dw E x <= 2 ^ 31 ->
  let e := XCat (map (fun i => XPtr x (XPy i)) (rev js)) in
  swid E e = Z.of_nat (length js) /\
  forall k, (k < length js)%nat -> Z.testbit (self E e) (Z.of_nat k) = Z.testbit (val E x) (nth k js 0).
Proof.
  intros R L. unfold self. cbn zeta. rewrite cat_self. cbn [swid]. induction js as [|j js IH].
  - split; [reflexivity|]. cbn. lia.
  - destruct IH as [IW IB]; [intros; apply R; right; assumption|]. cbn [rev]. rewrite map_app. cbn [map]. split.
    + transitivity (cat_width E (map (fun i => XPtr x (XPy i)) (rev js) ++ [XPtr x (XPy j)])); [reflexivity|].
      rewrite cat_width_app. unfold cat_width at 1. rewrite IW. cbn. lia.
    + rewrite cat_bits_snoc; [|cbn; lia|].
      2:{ intros b I. apply in_map_iff in I as (i & <- & _). cbn. lia. }
      cbn [swid]. rewrite ptr_ok; [|apply R; left; reflexivity|exact L].
      intros [|k] K.
      * change (Z.of_nat 0) with 0. cbn [nth]. rewrite Z.bit0_odd, Z.odd_add, Z.odd_mul. change (Z.odd (2 ^ 1)) with false.
        rewrite andb_false_r. unfold bit. destruct (Z.testbit (val E x) j); reflexivity.
      * cbn [nth]. rewrite Nat2Z.inj_succ, <- Z.add_1_r. rewrite <- Z.div_pow2_bits by lia.
        rewrite <- IB by (cbn in K; lia). f_equal. pose proof (bit_range (val E x) j).
        rewrite Z.add_comm, Z.div_add by (cbn; lia). rewrite Z.div_small by (change (2 ^ 1) with 2; lia). reflexivity.
Qed.
Lemma py_range_in a b s j : s <> 0 -> In j (py_range a b s) -> if 0 <? s then a <= j < b else b < j <= a.
Proof.
  intros Hs. unfold py_range. rewrite in_map_iff. intros (k & <- & K). apply in_seq in K. destruct (Z.ltb_spec 0 s).
  - assert (Z.of_nat k < (b - a + s - 1) / s) by lia.
    assert (Z.of_nat k + 1 <= (b - a + s - 1) / s) by lia. pose proof (Z.mul_div_le (b - a + s - 1) s ltac:(lia)). nia.
  - assert (Z.of_nat k + 1 <= (a - b + - s - 1) / - s) by lia. pose proof (Z.mul_div_le (a - b + - s - 1) (- s) ltac:(lia)). nia.
Qed.
Lemma py_range_one a b k : (k < length (py_range a b 1))%nat -> nth k (py_range a b 1) 0 = a + Z.of_nat k.
Proof.
  unfold py_range. rewrite map_length, seq_length. intros K. cbn [Z.ltb Z.compare] in *.
  rewrite (nth_indep _ 0 (a + Z.of_nat 0 * 1)) by (rewrite map_length, seq_length; exact K).
  rewrite map_nth with (f := fun k => a + Z.of_nat k * 1). rewrite seq_nth by exact K. lia.
Qed.
Lemma py_range_one_length a b : Z.of_nat (length (py_range a b 1)) = Z.max 0 (b - a).
Proof. unfold py_range. rewrite map_length, seq_length. cbn [Z.ltb Z.compare]. rewrite Z.div_1_r. lia. Qed.

Lemma getitem_slice E x size start stop step : 1 <= size <= 2 ^ 31 -> dw E x = size ->
  in_bounds size start stop step -> let js := py_slice size start stop step in js <> [] ->
  exists e, getitem x size (Sl start stop step) = Some e /\ swid E e = Z.of_nat (length js) /\
  forall k, (k < length js)%nat -> Z.testbit (self E e) (Z.of_nat k) = Z.testbit (val E x) (nth k js 0).
Proof.
  intros Hs Hw (B1 & B2 & B3 & B4) js N. unfold getitem.
  set (right := match start with None => 0 | Some i => if i <? 0 then size - Z.abs i else i end).
  set (stop' := match stop with None => size | Some i => if i <? 0 then size - Z.abs i else i end).
  assert (J : js = py_range right stop' (match step with None => 1 | Some s => s end)
            /\ 0 <= right < size /\ 0 <= stop' <= size /\ (forall s, step = Some s -> s < 0 -> 1 <= stop')).
  { unfold js, py_slice. set (s := match step with None => 1 | Some s => s end).
    assert (S0 : s <> 0) by (unfold s; destruct step; congruence).
    destruct (Z.ltb_spec 0 s) as [P|P].
    - split; [|split; [|split]].
      + unfold right, stop', adjust. f_equal; [destruct start as [i|]|destruct stop as [i|]]; try reflexivity; [specialize (B1 i eq_refl)|specialize (B2 i eq_refl)];
          destruct (Z.ltb_spec i 0); lia.
      + unfold right. destruct start as [i|]; [specialize (B1 i eq_refl); destruct (Z.ltb_spec i 0)|]; lia.
      + unfold stop'. destruct stop as [i|]; [specialize (B2 i eq_refl); destruct (Z.ltb_spec i 0)|]; lia.
      + intros s' E' L. subst s. rewrite E' in P. lia.
    - assert (step = Some s) as Es by (unfold s in *; destruct step; [reflexivity|lia]).
      destruct (B4 s Es ltac:(lia)) as (N1 & i & -> & I0 & I1). destruct start as [a|]; [|congruence]. specialize (B1 a eq_refl).
      split; [|split; [|split]].
      + unfold right, stop', adjust. destruct (Z.ltb_spec a 0), (Z.ltb_spec i 0); f_equal; lia.
      + unfold right. destruct (Z.ltb_spec a 0); lia.
      + unfold stop'. destruct (Z.ltb_spec i 0); lia.
      + intros _ _ _. unfold stop'. destruct (Z.ltb_spec i 0); lia. }
  destruct J as (J & R1 & R2 & R3). clearbody right stop' js.
  assert (exists j, In j js) as [j Ij] by (destruct js as [|j ?]; [congruence|exists j; left; reflexivity]).
  assert (SP : 1 <= stop').
  { rewrite J in Ij. destruct step as [s|]; [|apply py_range_in in Ij; [cbn in Ij; lia|lia]].
    destruct (Z.ltb_spec 0 s) as [P|P].
    - apply py_range_in in Ij; [|lia]. destruct (Z.ltb_spec 0 s); lia.
    - apply (R3 s eq_refl). assert (s <> 0) by congruence. lia. }
  destruct (Z.ltb_spec (stop' - 1) 0); [lia|]. destruct step as [s|].
  - destruct (Z.eqb_spec s 0) as [->|S0]; [congruence|]. replace (stop' - 1 + 1) with stop' by lia.
    rewrite <- J. eexists. split; [reflexivity|]. apply ptr_cat; [|lia].
    intros k Ik. rewrite J in Ik. apply py_range_in in Ik; [|exact S0]. destruct (0 <? s); lia.
  - eexists. split; [reflexivity|]. pose proof (py_range_one_length right stop') as LN. rewrite <- J in LN.
    assert (right < stop') by (rewrite J in Ij; apply py_range_in in Ij; [cbn in Ij; lia|lia]).
    split; [cbn; lia|]. intros k K. unfold self. cbn [ev].
    destruct (Z.leb_spec 0 right); [|lia]. destruct (Z.leb_spec right (stop' - 1)); [|lia]. destruct (Z.ltb_spec (stop' - 1) (dw E x)); [|lia].
    cbn [andb]. rewrite J, py_range_one by (rewrite <- J; exact K). rewrite Z.mod_pow2_bits_low by lia. rewrite Z.div_pow2_bits by lia. f_equal. lia.
Qed.
Lemma getitem_at E x size i : 1 <= size <= 2 ^ 31 -> dw E x = size -> - size <= i < size ->
  exists e, getitem x size (At i) = Some e /\ swid E e = 1 /\
  self E e = b2z (Z.testbit (val E x) (if i <? 0 then size + i else i)).
Proof.
  intros Hs Hw Hi. unfold getitem. eexists. split; [reflexivity|]. split; [reflexivity|].
  replace (size - Z.abs i) with (size - Z.abs i) by reflexivity. destruct (Z.ltb_spec i 0).
  - rewrite ptr_ok by lia. replace (size - Z.abs i) with (size + i) by lia. unfold bit. destruct (Z.testbit _ _); reflexivity.
  - rewrite ptr_ok by lia. unfold bit. destruct (Z.testbit _ _); reflexivity.
Qed.

(** ** Constant evaluation *)
Lemma value_fits w s x : 1 <= w -> fits w s x -> value w s (x mod 2 ^ w) = x.
Proof.
  intros H F. unfold value, fits in *. destruct s; [rewrite sgn_of_mod by lia; apply sgn_small; assumption|].
  unfold uns. rewrite Z.mod_mod by (pose proof (pow_pos w); lia). apply Z.mod_small, F.
Qed.
Lemma value_fits' w s x : 1 <= w -> fits w s x -> value w s x = x.
Proof. intros H F. unfold value, fits in *. destruct s; [apply sgn_small; assumption|apply uns_small, F]. Qed.
Lemma lit_ev w W s S v : 1 <= w -> fits w s v -> v <> - 2 ^ (w - 1) -> (S = true -> s = true) -> lit w W S v = v mod 2 ^ W.
Proof.
  intros H F N Hs. unfold lit. f_equal. pose proof (pow_split w H). pose proof (pow_pos (w - 1) ltac:(lia)).
  assert (G : 0 <= Z.abs v < 2 ^ w /\ (S = true -> Z.abs v < 2 ^ (w - 1))).
  { unfold fits in F. destruct s; split; try lia; intros ->; specialize (Hs eq_refl); congruence. }
  destruct G as [G1 G2]. assert (V : forall u, 0 <= u < 2 ^ w -> (S = true -> u < 2 ^ (w - 1)) -> value w S u = u).
  { intros u U1 U2. apply value_fits'; [exact H|]. unfold fits. destruct S; [specialize (U2 eq_refl)|]; lia. }
  destruct (Z.ltb_spec v 0); rewrite V; try lia; intros HS; specialize (G2 HS); lia.
Qed.
Lemma literal_ev E L l W S : literal L l -> (S = true -> ssig E L = true) -> ev E W S L = l mod 2 ^ W.
Proof.
  intros H HS. destruct H as [z H|v w base sg H F N]; cbn [ev ssig] in *.
  - apply (lit_ev 32 W true); [lia| |change (2 ^ (32 - 1)) with (2 ^ 31); lia|auto]. unfold fits. change (2 ^ (32 - 1)) with (2 ^ 31). lia.
  - apply (lit_ev _ W (lit_signed w base sg)); assumption.
Qed.
Lemma literal_fits E L l : literal L l -> 1 <= swid E L /\ fits (swid E L) (ssig E L) l.
Proof.
  intros [z H|v w base sg H F N]; cbn [swid ssig]; [|auto]. split; [lia|]. unfold fits. change (2 ^ (32 - 1)) with (2 ^ 31). lia.
Qed.
Lemma fits_widen w s W S x : 1 <= w <= W -> fits w s x -> (S = true -> s = true) -> (S = false -> 0 <= x) -> fits W S x.
Proof.
  intros H F HS HN. unfold fits in *. pose proof (pow_split w ltac:(lia)). pose proof (pow_split W ltac:(lia)).
  pose proof (pow_pos (w - 1) ltac:(lia)).
  pose proof (Z.pow_le_mono_r 2 (w - 1) (W - 1) ltac:(lia) ltac:(lia)).
  destruct S, s; lia.
Qed.
Lemma literal_self E L l : literal L l -> self E L = l mod 2 ^ swid E L.
Proof. intros H. apply literal_ev; auto. Qed.
Lemma literal_number E L l : literal L l -> number E L = l.
Proof. intros H. unfold number. rewrite (literal_self _ _ _ H). destruct (literal_fits E _ _ H). apply value_fits; assumption. Qed.
Lemma literal_zero E L l : literal L l -> (self E L =? 0) = (l =? 0).
Proof.
  intros H. rewrite (literal_self _ _ _ H). destruct (literal_fits E _ _ H) as [W F].
  rewrite <- (value_fits (swid E L) (ssig E L) l) at 2 by assumption. rewrite value_zero by exact W.
  rewrite Z.mod_mod by (pose proof (pow_pos (swid E L)); lia). reflexivity.
Qed.
Lemma fits_zero w s x : 1 <= w -> fits w s x -> (x mod 2 ^ w =? 0) = (x =? 0).
Proof.
  intros H F. rewrite <- (value_fits w s x) at 2 by assumption. rewrite value_zero by exact H.
  rewrite Z.mod_mod by (pose proof (pow_pos w); lia). reflexivity.
Qed.
Lemma value_congr w s x : 0 <= w -> value w s x mod 2 ^ w = x mod 2 ^ w.
Proof. apply value_mod. Qed.
Lemma pow_mod_congr a b n m : 0 < m -> 0 <= n -> a mod m = b mod m -> a ^ n mod m = b ^ n mod m.
Proof.
  intros Hm Hn H. revert n Hn. apply natlike_ind; [reflexivity|]. intros n Hn IH. rewrite !Z.pow_succ_r by exact Hn.
  rewrite Z.mul_mod, IH, H, <- Z.mul_mod by lia. reflexivity.
Qed.
Lemma land_mod a b W : 0 <= W -> Z.land (a mod 2 ^ W) (b mod 2 ^ W) mod 2 ^ W = Z.land a b mod 2 ^ W.
Proof.
  intros H. rewrite <- !Z.land_ones by exact H. apply Z.bits_inj. intros k. rewrite !Z.land_spec.
  destruct (Z.testbit (Z.ones W) k), (Z.testbit a k), (Z.testbit b k); reflexivity.
Qed.
Lemma lor_mod a b W : 0 <= W -> Z.lor (a mod 2 ^ W) (b mod 2 ^ W) mod 2 ^ W = Z.lor a b mod 2 ^ W.
Proof.
  intros H. rewrite <- !Z.land_ones by exact H. apply Z.bits_inj. intros k. rewrite ?Z.land_spec, ?Z.lor_spec, ?Z.land_spec.
  destruct (Z.testbit (Z.ones W) k), (Z.testbit a k), (Z.testbit b k); reflexivity.
Qed.
Lemma lxor_mod a b W : 0 <= W -> Z.lxor (a mod 2 ^ W) (b mod 2 ^ W) mod 2 ^ W = Z.lxor a b mod 2 ^ W.
Proof.
  intros H. rewrite <- !Z.land_ones by exact H. apply Z.bits_inj. intros k. rewrite ?Z.land_spec, ?Z.lxor_spec, ?Z.land_spec.
  destruct (Z.testbit (Z.ones W) k), (Z.testbit a k), (Z.testbit b k); reflexivity.
Qed.
Lemma lnot_mod a W : 0 <= W -> Z.lnot (a mod 2 ^ W) mod 2 ^ W = Z.lnot a mod 2 ^ W.
Proof.
  intros H. rewrite <- !Z.land_ones by exact H. apply Z.bits_inj'. intros k K. rewrite ?Z.land_spec, ?Z.lnot_spec, ?Z.land_spec by exact K.
  destruct (Z.testbit (Z.ones W) k), (Z.testbit a k); reflexivity.
Qed.
Lemma mask_ones n : fold_left (fun m i => Z.lor (Z.shiftl 1 (Z.of_nat i)) m) (seq 0 n) 0 = Z.ones (Z.of_nat n).
Proof.
  induction n as [|n IH]; [reflexivity|]. rewrite seq_S, fold_left_app, IH. cbn [fold_left]. rewrite Z.shiftl_1_l.
  rewrite Nat.add_0_l. apply Z.bits_inj'. intros k K. rewrite Z.lor_spec, Z.pow2_bits_eqb by lia. rewrite !Z.testbit_ones by lia.
  destruct (Z.leb_spec 0 k); [|lia]. cbn [andb]. apply eq_true_iff_eq. rewrite orb_true_iff, Z.eqb_eq, !Z.ltb_lt. lia.
Qed.
Lemma div_same_sign l r : r <> 0 -> (0 <= l /\ 0 <= r) \/ (l < 0 /\ r < 0) \/ (r | l) -> Z.quot l r = l / r /\ Z.rem l r = l mod r.
Proof.
  intros N [[A B]|[[A B]|[q ->]]].
  - split; [apply Z.quot_div_nonneg; lia|apply Z.rem_mod_nonneg; lia].
  - split.
    + rewrite <- (Z.quot_opp_opp l r) by lia. rewrite Z.quot_div_nonneg by lia. apply Z.div_opp_opp. lia.
    + pose proof (Z.rem_opp_l' l r) as R1. rewrite <- (Z.rem_opp_r' l r). pose proof (Z.rem_opp_l' l (- r)) as R2.
      pose proof (Z.rem_mod_nonneg (- l) (- r) ltac:(lia) ltac:(lia)) as R3. rewrite Z.mod_opp_opp in R3 by lia. lia.
  - split; [rewrite Z.quot_mul, Z.div_mul by exact N; reflexivity|rewrite Z.rem_mul, Z.mod_mul by exact N; reflexivity].
Qed.
Lemma b2z_small b W : 1 <= W -> b2z b mod 2 ^ W = b2z b.
Proof. intros H. pose proof (Z.pow_le_mono_r 2 1 W ltac:(lia) H). apply Z.mod_small. destruct b; cbn; lia. Qed.

Lemma cmp_vals E L R l r : literal L l -> literal R r -> (0 <= l /\ 0 <= r) \/ ssig E L && ssig E R = true ->
  let w := Z.max (swid E L) (swid E R) in let s := ssig E L && ssig E R in
  value w s (ev E w s L) = l /\ value w s (ev E w s R) = r.
Proof.
  intros HL HR A w s. destruct (literal_fits E L l HL) as [L1 LF]. destruct (literal_fits E R r HR) as [R1 RF].
  assert (SL : s = true -> ssig E L = true) by (unfold s; intros X; apply andb_prop in X; tauto).
  assert (SR : s = true -> ssig E R = true) by (unfold s; intros X; apply andb_prop in X; tauto).
  fold s in A. clearbody s. rewrite (literal_ev E L l w s HL SL), (literal_ev E R r w s HR SR). unfold w.
  split; apply value_fits; try lia; [apply (fits_widen (swid E L) (ssig E L))|apply (fits_widen (swid E R) (ssig E R))]; try assumption; try lia;
    intros ->; destruct A; try congruence; lia.
Qed.
Lemma fold_bin_ok E o L R l r W S z : literal L l -> literal R r ->
  swid E L <= W -> swid E R <= W -> (S = true -> ssig E L = true /\ ssig E R = true) ->
  agrees o (match o with BLt | BGt | BLe | BGe | BEq | BNe => ssig E L && ssig E R | _ => S end) l r ->
  (o = BXnor -> W = Z.max (swid E L) (swid E R)) ->
  fold_bin o l r (swid E L) (swid E R) = Some z -> ev E W S (XBin o L R) = z mod 2 ^ W.
Proof.
  intros HL HR WL WR HS A HX F.
  destruct (literal_fits E L l HL) as [L1 LF]. destruct (literal_fits E R r HR) as [R1 RF].
  pose proof (literal_ev E L l W S HL ltac:(intros; apply HS; assumption)) as VL.
  pose proof (pow_pos W ltac:(lia)) as PW.
  assert (FL : S = true \/ 0 <= l -> value W S (l mod 2 ^ W) = l).
  { intros C. apply value_fits; [lia|]. apply (fits_widen (swid E L) (ssig E L)); [lia|exact LF|intros X; apply HS, X|].
    intros X. destruct C; [congruence|assumption]. }
  assert (RS : 0 <= r -> self E R = r).
  { intros P. rewrite (literal_self E R r HR). apply Z.mod_small. unfold fits in RF. pose proof (pow_split (swid E R) R1). destruct (ssig E R); lia. }
  destruct o; cbn [fold_bin ev] in *; fold (self E L); fold (self E R).
  - (* power *) destruct (Z.ltb_spec r 0); [discriminate|]. inversion F; subst z. fold (number E R). rewrite (literal_number E R r HR).
    rewrite VL. unfold power. destruct (Z.leb_spec 0 r); [|lia]. apply pow_mod_congr; [exact PW|lia|].
    rewrite value_mod by lia. apply Z.mod_mod. lia.
  - pose proof (literal_ev E R r W S HR ltac:(intros; apply HS; assumption)) as VR. inversion F. cbn. rewrite VL, VR, <- Z.mul_mod by lia. reflexivity.
  - pose proof (literal_ev E R r W S HR ltac:(intros; apply HS; assumption)) as VR.
    destruct (Z.eqb_spec r 0) as [|N]; [discriminate|]. inversion F; subst z. cbn [arith]. rewrite VL, VR.
    cbn [agrees] in A.
    assert (C : S = true \/ 0 <= l /\ 0 <= r) by (destruct A as [|[X _]]; auto).
    assert (RW : fits W S r).
    { apply (fits_widen (swid E R) (ssig E R)); [lia|exact RF|intros X; apply HS, X|intros X; destruct C; [congruence|lia]]. }
    rewrite (fits_zero W S) by (try lia; assumption). destruct (Z.eqb_spec r 0); [lia|].
    rewrite FL by tauto. rewrite value_fits by (try lia; assumption). f_equal. apply div_same_sign; [exact N|tauto].
  - pose proof (literal_ev E R r W S HR ltac:(intros; apply HS; assumption)) as VR.
    destruct (Z.eqb_spec r 0) as [|N]; [discriminate|]. inversion F; subst z. cbn [arith]. rewrite VL, VR.
    cbn [agrees] in A.
    assert (C : S = true \/ 0 <= l /\ 0 <= r) by (destruct A as [|[X _]]; auto).
    assert (RW : fits W S r).
    { apply (fits_widen (swid E R) (ssig E R)); [lia|exact RF|intros X; apply HS, X|intros X; destruct C; [congruence|lia]]. }
    rewrite (fits_zero W S) by (try lia; assumption). destruct (Z.eqb_spec r 0); [lia|].
    rewrite FL by tauto. rewrite value_fits by (try lia; assumption). f_equal. apply div_same_sign; [exact N|tauto].
  - pose proof (literal_ev E R r W S HR ltac:(intros; apply HS; assumption)) as VR. inversion F. cbn. rewrite VL, VR, <- Z.add_mod by lia. reflexivity.
  - pose proof (literal_ev E R r W S HR ltac:(intros; apply HS; assumption)) as VR. inversion F. cbn. rewrite VL, VR, <- Zminus_mod. reflexivity.
  - destruct (Z.ltb_spec r 0); [discriminate|]. inversion F; subst z. cbn [shift]. rewrite VL, RS by lia.
    rewrite Z.shiftl_mul_pow2 by lia. rewrite Z.mul_mod_idemp_l by lia. reflexivity.
  - destruct (Z.ltb_spec r 0); [discriminate|]. inversion F; subst z. cbn [shift agrees] in *. rewrite VL, RS by lia.
    rewrite Z.shiftr_div_pow2 by lia. pose proof (pow_pos r ltac:(lia)).
    assert (l < 2 ^ W). { unfold fits in LF. pose proof (pow_split (swid E L) L1). pose proof (pow_pos (swid E L - 1) ltac:(lia)).
      pose proof (Z.pow_le_mono_r 2 (swid E L) W ltac:(lia) ltac:(lia)). destruct (ssig E L); lia. }
    rewrite (Z.mod_small l) by lia. symmetry. apply Z.mod_small. split; [apply Z.div_pos; lia|]. pose proof (Z.div_le_upper_bound l (2 ^ r) l ltac:(lia) ltac:(nia)). lia.
  - destruct (Z.ltb_spec r 0); [discriminate|]. apply (f_equal (fun x => match x with Some y => y | None => 0 end)) in F. cbv beta iota in F. subst z. cbn [shift agrees] in *. rewrite VL, RS by lia.
    rewrite FL by tauto. f_equal. rewrite Z.shiftr_div_pow2 by lia. destruct (Z.leb_spec 0 l); [rewrite Z.abs_eq by lia; reflexivity|].
    destruct A as [|[_ [q ->]]]; [lia|]. pose proof (pow_pos r ltac:(lia)). rewrite Z.abs_mul, (Z.abs_eq (2 ^ r)) by lia. rewrite !Z.div_mul by lia.
    assert (q < 0) by nia. lia.
  - destruct (cmp_vals E L R l r HL HR A) as [-> ->]. inversion F. rewrite b2z_small by lia. reflexivity.
  - destruct (cmp_vals E L R l r HL HR A) as [-> ->]. inversion F. rewrite b2z_small by lia. reflexivity.
  - destruct (cmp_vals E L R l r HL HR A) as [-> ->]. inversion F. rewrite b2z_small by lia. reflexivity.
  - destruct (cmp_vals E L R l r HL HR A) as [-> ->]. inversion F. rewrite b2z_small by lia. reflexivity.
  - destruct (cmp_vals E L R l r HL HR A) as [-> ->]. inversion F. rewrite b2z_small by lia. reflexivity.
  - destruct (cmp_vals E L R l r HL HR A) as [-> ->]. inversion F. rewrite b2z_small by lia. reflexivity.
  - pose proof (literal_ev E R r W S HR ltac:(intros; apply HS; assumption)) as VR. inversion F. cbn [arith bitwise]. rewrite VL, VR. apply land_mod. lia.
  - pose proof (literal_ev E R r W S HR ltac:(intros; apply HS; assumption)) as VR. inversion F. cbn [arith bitwise]. rewrite VL, VR. apply lxor_mod. lia.
  - pose proof (literal_ev E R r W S HR ltac:(intros; apply HS; assumption)) as VR. inversion F as [F']. cbn [arith bitwise]. rewrite VL, VR.
    rewrite mask_ones. rewrite Z2Nat.id by lia. rewrite <- (HX eq_refl). rewrite Z.land_comm, Z.land_ones, Z.mod_mod by lia.
    rewrite <- lnot_mod, lxor_mod, lnot_mod by lia. reflexivity.
  - pose proof (literal_ev E R r W S HR ltac:(intros; apply HS; assumption)) as VR. inversion F. cbn [arith bitwise]. rewrite VL, VR. apply lor_mod. lia.
  - inversion F. rewrite !(literal_zero E) with (l := l) by exact HL. rewrite (literal_zero E R r HR). rewrite b2z_small by lia. reflexivity.
  - inversion F. rewrite !(literal_zero E) with (l := l) by exact HL. rewrite (literal_zero E R r HR). rewrite b2z_small by lia. reflexivity.
Qed.

Lemma land1 x : negb (Z.land x 1 =? 0) = Z.odd x.
Proof. change 1 with (Z.ones 1). rewrite Z.land_ones by lia. change (2 ^ 1) with 2. rewrite Zmod_odd. destruct (Z.odd x); reflexivity. Qed.
Lemma testbit_land1 r i : 0 <= i -> negb (Z.land (Z.shiftr r i) 1 =? 0) = Z.testbit r i.
Proof. intros H. rewrite land1, <- Z.bit0_odd, Z.shiftr_spec by lia. f_equal. Qed.
Lemma bits_of_mod r w : 0 <= w -> bits_of r w = map (fun i => Z.testbit (r mod 2 ^ w) (Z.of_nat i)) (seq 0 (Z.to_nat w)).
Proof.
  intros H. apply map_ext_in. intros i I. apply in_seq in I. rewrite testbit_land1 by lia. symmetry. apply Z.mod_pow2_bits_low. lia.
Qed.
Lemma all_ones x w : 0 <= w -> 0 <= x < 2 ^ w ->
  forallb (fun b => b) (map (fun i => Z.testbit x (Z.of_nat i)) (seq 0 (Z.to_nat w))) = (x =? 2 ^ w - 1).
Proof.
  intros H R. apply eq_true_iff_eq. rewrite forallb_forall, Z.eqb_eq. replace (2 ^ w - 1) with (Z.ones w) by (rewrite Z.ones_equiv; lia). split.
  - intros F. apply Z.bits_inj'. intros k K. rewrite Z.testbit_ones by exact H. destruct (Z.leb_spec 0 k); [|lia]. destruct (Z.ltb_spec k w).
    + cbn. apply F. apply in_map_iff. exists (Z.to_nat k). rewrite Z2Nat.id by lia. split; [reflexivity|]. apply in_seq. lia.
    + cbn. rewrite <- (Z.mod_small x (2 ^ w)) by exact R. apply Z.mod_pow2_bits_high. lia.
  - intros -> b I. apply in_map_iff in I as (i & <- & I). apply in_seq in I. apply Z.ones_spec_low. lia.
Qed.
Lemma any_ones x w : 0 <= w -> 0 <= x < 2 ^ w ->
  existsb (fun b => b) (map (fun i => Z.testbit x (Z.of_nat i)) (seq 0 (Z.to_nat w))) = negb (x =? 0).
Proof.
  intros H R. destruct (Z.eqb_spec x 0) as [->|N]; cbn [negb].
  - rewrite <- not_true_iff_false. intros X. apply existsb_exists in X as (b & I & B). apply in_map_iff in I as (i & <- & _). rewrite Z.testbit_0_l in B. discriminate.
  - apply existsb_exists. exists true. split; [|reflexivity]. apply in_map_iff. exists (Z.to_nat (Z.log2 x)).
    pose proof (Z.log2_nonneg x). rewrite Z2Nat.id by lia. split; [apply Z.bit_log2; lia|]. apply in_seq.
    pose proof (proj1 (Z.log2_lt_pow2 x w ltac:(lia)) ltac:(lia)). lia.
Qed.
Lemma fold_left_map' {A B C} (f : C -> B -> C) (g : A -> B) l c : fold_left f (map g l) c = fold_left (fun c a => f c (g a)) l c.
Proof. revert c. induction l; intros; cbn; auto. Qed.
Lemma xor_true l : fold_left xorb l true = negb (fold_left xorb l false).
Proof.
  assert (G : forall b, fold_left xorb l (negb b) = negb (fold_left xorb l b)).
  { induction l as [|x l IH]; intros b; cbn; [reflexivity|]. rewrite <- IH. f_equal. destruct b, x; reflexivity. }
  apply (G false).
Qed.
Lemma fold_un_ok E o R r W S z : literal R r -> swid E R <= W -> (S = true -> ssig E R = true) ->
  fold_un o r (swid E R) = Some z -> ev E W S (XUn o R) = z mod 2 ^ W.
Proof.
  intros HR WR HS F. destruct (literal_fits E R r HR) as [R1 RF].
  pose proof (literal_ev E R r W S HR HS) as VR. pose proof (literal_self E R r HR) as SR.
  pose proof (pow_pos W ltac:(lia)) as PW. pose proof (Z.mod_pos_bound r (2 ^ swid E R) (pow_pos (swid E R) ltac:(lia))) as RR.
  destruct o; cbn [fold_un ev] in *; fold (self E R); apply (f_equal (fun x => match x with Some y => y | None => 0 end)) in F; cbv beta iota in F; subst z.
  - exact VR.
  - rewrite VR. rewrite <- (Z.sub_0_l (r mod 2 ^ W)), <- (Z.sub_0_l r). rewrite Zminus_mod_idemp_r. reflexivity.
  - rewrite (literal_zero E R r HR). symmetry. apply b2z_small. lia.
  - rewrite VR. apply lnot_mod. lia.
  - rewrite bits_of_mod, all_ones by (try lia; exact RR). rewrite b2z_small by lia. rewrite SR. reflexivity.
  - rewrite bits_of_mod, all_ones by (try lia; exact RR). rewrite b2z_small by lia. rewrite SR. reflexivity.
  - rewrite bits_of_mod, any_ones by (try lia; exact RR). rewrite b2z_small by lia. rewrite SR. reflexivity.
  - rewrite bits_of_mod, any_ones by (try lia; exact RR). rewrite b2z_small by lia. rewrite SR, negb_involutive. reflexivity.
  - rewrite bits_of_mod, fold_left_map' by lia. rewrite b2z_small by lia. rewrite SR. reflexivity.
  - rewrite bits_of_mod, xor_true, fold_left_map' by lia. rewrite b2z_small by lia. rewrite SR. reflexivity.
Qed.

(** selections of constants *)
Lemma lor_shift acc w v : 0 <= w -> 0 <= v < 2 ^ w -> Z.lor (Z.shiftl acc w) v = acc * 2 ^ w + v.
Proof.
  intros W V. assert (D : Z.land (Z.shiftl acc w) v = 0).
  { apply Z.bits_inj'. intros k K. rewrite Z.land_spec, Z.testbit_0_l, Z.shiftl_spec by lia. destruct (Z.ltb_spec k w).
    - rewrite Z.testbit_neg_r by lia. reflexivity.
    - rewrite <- (Z.mod_small v (2 ^ w)) by exact V. rewrite Z.mod_pow2_bits_high by lia. apply andb_false_r. }
  rewrite <- Z.lxor_lor by exact D. rewrite <- Z.add_nocarry_lxor by exact D. rewrite Z.shiftl_mul_pow2 by exact W. reflexivity.
Qed.
Lemma fold_cat_ok E es vs : Forall2 literal es vs -> Forall (fun v => 0 <= v) vs ->
  fold_cat vs (map (swid E) es) = cat_bits E es /\ Forall (fun e => 0 <= swid E e) es.
Proof.
  intros H N. unfold fold_cat.
  assert (G : forall acc, fold_left (fun r vw => Z.lor (Z.shiftl r (snd vw)) (fst vw)) (combine vs (map (swid E) es)) acc
    = acc * 2 ^ cat_width E es + cat_bits E es /\ Forall (fun e => 0 <= swid E e) es /\ 0 <= cat_width E es).
  { induction H as [|e v es vs L H IH]; intros acc; [cbn; split; [lia|split; [constructor|lia]]|].
    inversion N as [|? ? Nv N']; subst. destruct (literal_fits E e v L) as [W F]. cbn [combine map fold_left fst snd].
    assert (V : self E e = v /\ 0 <= v < 2 ^ swid E e).
    { pose proof (literal_self E e v L) as X. unfold fits in F. pose proof (pow_split (swid E e) W).
      assert (R : 0 <= v < 2 ^ swid E e) by (destruct (ssig E e); lia). rewrite Z.mod_small in X by exact R. tauto. }
    destruct V as [V VR]. rewrite lor_shift by (try lia; exact VR).
    destruct (IH N' (acc * 2 ^ swid E e + v)) as (I1 & I2 & I3). rewrite I1. split; [|split; [constructor; [lia|exact I2]|]].
    - cbn [cat_bits]. rewrite V. change (cat_width E (e :: es)) with (swid E e + cat_width E es). rewrite Z.pow_add_r by lia. ring.
    - change (cat_width E (e :: es)) with (swid E e + cat_width E es). lia. }
  destruct (G 0) as (G1 & G2 & _). split; [|exact G2]. rewrite G1. lia.
Qed.
Lemma fold_rep_ok E e v n : literal e v -> 0 <= v -> fold_rep v (swid E e) n = self E (XRep e n).
Proof.
  intros L N. unfold fold_rep, self. cbn [ev swid]. fold (self E e). destruct (literal_fits E e v L) as [W F].
  assert (V : self E e = v /\ 0 <= v < 2 ^ swid E e).
  { pose proof (literal_self E e v L) as X. unfold fits in F. pose proof (pow_split (swid E e) W).
    assert (R : 0 <= v < 2 ^ swid E e) by (destruct (ssig E e); lia). rewrite Z.mod_small in X by exact R. tauto. }
  destruct V as [-> VR]. generalize 0%nat at 1. induction (Z.to_nat n) as [|k IH]; intros i; [reflexivity|].
  rewrite seq_S, fold_left_app, IH. cbn [fold_left repeated]. apply lor_shift; [lia|exact VR].
Qed.
Lemma fold_ptr_ok E x p : 0 <= p < dw E x -> dw E x <= 2 ^ 31 -> fold_ptr (val E x) p = Some (self E (XPtr x (XPy p))).
Proof.
  intros H1 H2. rewrite ptr_ok by assumption. unfold fold_ptr. destruct (Z.ltb_spec p 0); [lia|]. f_equal. unfold bit.
  rewrite <- testbit_land1 by lia. change 1 with (Z.ones 1) at 1 2. rewrite Z.land_ones by lia. change (2 ^ 1) with 2.
  rewrite Zmod_odd. destruct (Z.odd _); reflexivity.
Qed.
Lemma slice_mask n : fold_left (fun k (_ : nat) => Z.lor (Z.shiftl k 1) 1) (seq 0 n) 0 = Z.ones (Z.of_nat n).
Proof.
  generalize 0%nat at 1. induction n as [|n IH]; intros i; [reflexivity|]. rewrite seq_S, fold_left_app, IH. cbn [fold_left].
  rewrite lor_shift by (cbn; lia). rewrite !Z.ones_equiv. rewrite Nat2Z.inj_succ, Z.pow_succ_r by lia. change (2 ^ 1) with 2. lia.
Qed.
Lemma fold_slice_ok E x m l : 0 <= l <= m -> m < dw E x -> fold_slice (val E x) m l = Some (self E (XSlice x m l)).
Proof.
  intros H1 H2. unfold fold_slice, self. cbn [ev swid]. destruct (Z.ltb_spec l 0); [lia|]. rewrite slice_mask, Z2Nat.id by lia.
  destruct (Z.leb_spec 0 l); [|lia]. destruct (Z.leb_spec l m); [|lia]. destruct (Z.ltb_spec m (dw E x)); [|lia]. cbn [andb].
  rewrite Z.land_ones, Z.shiftr_div_pow2 by lia. reflexivity.
Qed.
