From Coq Require Import String Ascii Permutation.
From Verif Require Import Base Lit_Model Lit_Proofs Mod_Model Mod_Spec.
Open Scope string_scope.
Open Scope nat_scope.
Open Scope list_scope.

Lemma kinds_app n l1 l2 : kinds_of n (l1 ++ l2) = (kinds_of n l1 ++ kinds_of n l2)%list.
Proof. unfold kinds_of. rewrite filter_app, map_app. reflexivity. Qed.
Lemma kinds_one n k : kinds_of n [(n, k)] = [k].
Proof. unfold kinds_of. cbn. rewrite String.eqb_refl. reflexivity. Qed.
Lemma kinds_other n m k : m <> n -> kinds_of n [(m, k)] = [].
Proof. intros N. unfold kinds_of. cbn. apply String.eqb_neq in N. rewrite N. reflexivity. Qed.

(** ** The shape of the declarations of one name *)
Definition var_entry (a b : nat) : option kind := match b with S _ => Some KReg | O => match a with S _ => Some KWire | O => None end end.
Inductive shape (L : list kind) (T : table -> option kind) : Prop :=
  | Sh_none : L = [] -> (forall t, T t = None) -> shape L T
  | Sh_one k : ~ is_port k -> L = [k] -> (forall t, T t = if table_eqb t (table_of k) then Some k else None) -> shape L T
  | Sh_port p pre post a b : is_port p -> L = (pre ++ p :: post)%list -> (pre ++ post = repeat KWire a ++ repeat KReg b)%list -> length pre <= 1 ->
      (p = KInput -> b = 0) -> (p = KInout -> post = [] /\ b = 0) ->
      (forall t, T t = match t with Tio => Some p | Tvar => var_entry a b | _ => None end) -> shape L T.
Definition inv (s : mstate) : Prop := forall n, shape (kinds_of n (items s)) (fun t => tables s t n).

Lemma shape_ext L T T' : (forall t, T' t = T t) -> shape L T -> shape L T'.
Proof.
  intros E [A B|k A B C|p pre post a b A B C D F G H].
  - apply Sh_none; [exact A|]. intros t. rewrite E. apply B.
  - apply (Sh_one _ _ k A B). intros t. rewrite E. apply C.
  - apply (Sh_port _ _ p pre post a b A B C D F G). intros t. rewrite E. apply H.
Qed.
Lemma shape_allowed L T : shape L T -> allowed L.
Proof.
  intros [-> _|k _ -> _|p pre post a b A B C D F G _]; [left; cbn; lia|left; cbn; lia|right].
  exists p, pre, post, a, b. auto 7.
Qed.
Lemma find_shape s n : inv s -> find s n =
  match tables s Tio n with Some p => Some p | None => match kinds_of n (items s) with k :: _ => Some k | [] => None end end.
Proof.
  intros I. unfold find, first. cbn [map fold_right]. destruct (I n) as [A B|k A B C|p pre post a b A B C D F G H].
  - rewrite !B, A. reflexivity.
  - rewrite !C, B. destruct k; cbn; reflexivity || (exfalso; apply A; unfold is_port; tauto).
  - rewrite !H. reflexivity.
Qed.
Lemma table_eqb_refl t : table_eqb t t = true.
Proof. destruct t; reflexivity. Qed.
Lemma find_tables s s' n : (forall t, tables s t n = tables s' t n) -> find s n = find s' n.
Proof. intros E. unfold find. f_equal. apply map_ext. intros t. apply E. Qed.

Lemma existsb_kind k l : existsb (kind_eqb k) l = true <-> In k l.
Proof.
  rewrite existsb_exists. split.
  - intros (x & X & E). assert (k = x) by (destruct k, x; try discriminate E; reflexivity). subst. exact X.
  - intros X. exists k. split; [exact X|]. destruct k; reflexivity.
Qed.
Lemma declare_inv s n k : inv s ->
  shape (kinds_of n (items s) ++ [k]) (fun t => if table_eqb t (table_of k) then Some k else tables s t n) -> inv (declare n k s).
Proof.
  intros I H m. unfold declare. cbn [items tables]. rewrite kinds_app.
  destruct (String.eqb_spec m n) as [->|N].
  - rewrite kinds_one. eapply shape_ext; [|exact H]. intros t. cbn. rewrite andb_true_r. reflexivity.
  - rewrite kinds_other by congruence. rewrite app_nil_r. eapply shape_ext; [|exact (I m)]. intros t. cbn. rewrite andb_false_r. reflexivity.
Qed.
Lemma snoc_wire a : (repeat KWire a ++ [KWire] = repeat KWire (S a))%list.
Proof. induction a as [|a IH]; [reflexivity|]. cbn [repeat app]. rewrite IH. reflexivity. Qed.
Lemma snoc_reg b : (repeat KReg b ++ [KReg] = repeat KReg (S b))%list.
Proof. induction b as [|b IH]; [reflexivity|]. cbn [repeat app]. rewrite IH. reflexivity. Qed.
Lemma method_inv s n k s' : inv s -> method none k n s = Some s' -> inv s'.
Proof.
  intros I M. unfold method in M. destruct (check_id none s n (permits k)) eqn:C; [|discriminate].
  assert (D : s' = declare n k s /\ (k = KWire -> is_reg s n = false)).
  { destruct k; try (injection M as <-; split; [reflexivity|discriminate]). destruct (is_reg s n); [discriminate|]. injection M as <-. auto. }
  destruct D as [-> R]. clear M. apply declare_inv; [exact I|].
  unfold check_id, find_in in C. rewrite (find_shape s n I) in C.
  pose proof (I n) as [A B|k0 A B T|p pre post a b A B T D F G H].
  - rewrite A, app_nil_l. assert (PD : is_port k \/ ~ is_port k) by (unfold is_port; destruct k; (left; tauto) || (right; intros [|[|]]; discriminate)).
    destruct PD as [P|P].
    + apply (Sh_port _ _ k [] [] 0 0); try reflexivity; try exact P; [cbn; lia|auto|].
      intros t. rewrite B. destruct P as [->|[->| ->]]; destruct t; reflexivity.
    + apply (Sh_one _ _ k P eq_refl). intros t. rewrite B. reflexivity.
  - rewrite B in C |- *. rewrite T in C.
    assert (E : (if table_eqb Tio (table_of k0) then Some k0 else None) = None).
    { destruct k0; cbn; reflexivity || (exfalso; apply A; unfold is_port; tauto). }
    rewrite E in C. apply existsb_kind in C.
    assert (K : (k = KInput /\ k0 = KWire) \/ (k = KOutput /\ k0 = KWire) \/ (k = KOutput /\ k0 = KReg) \/ (k = KInout /\ k0 = KWire)).
    { unfold is_port in A. clear - C A. destruct k; cbn in C; intuition congruence. }
    clear C. destruct K as [[-> ->]|[[-> ->]|[[-> ->]|[-> ->]]]].
    + apply (Sh_port _ _ KInput [KWire] [] 1 0); try reflexivity; try (unfold is_port; tauto); try (intros; discriminate); try (split; reflexivity); try (intros t; rewrite T; destruct t; reflexivity).
    + apply (Sh_port _ _ KOutput [KWire] [] 1 0); try reflexivity; try (unfold is_port; tauto); try (intros; discriminate); try (split; reflexivity); try (intros t; rewrite T; destruct t; reflexivity).
    + apply (Sh_port _ _ KOutput [KReg] [] 0 1); try reflexivity; try (unfold is_port; tauto); try (intros; discriminate); try (split; reflexivity); try (intros t; rewrite T; destruct t; reflexivity).
    + apply (Sh_port _ _ KInout [KWire] [] 1 0); try reflexivity; try (unfold is_port; tauto); try (intros; discriminate); try (split; reflexivity); try (intros t; rewrite T; destruct t; reflexivity).
  - rewrite H in C. apply existsb_kind in C. rewrite B.
    assert (K : (k = KWire /\ (p = KInput \/ p = KOutput)) \/ (k = KReg /\ p = KOutput)).
    { destruct A as [->|[->| ->]]; destruct k; cbn in C; intuition discriminate. }
    destruct K as [[-> P]|[-> ->]].
    + assert (b0 : b = 0). { specialize (R eq_refl). unfold is_reg in R. rewrite H in R. destruct b; [reflexivity|discriminate]. }
      subst b. cbn [repeat] in T. rewrite app_nil_r in T.
      apply (Sh_port _ _ p pre (post ++ [KWire]) (S a) 0); try assumption.
      * rewrite <- app_assoc. reflexivity.
      * cbn [repeat]. rewrite app_nil_r, app_assoc, T. apply snoc_wire.
      * intros ->. destruct P; discriminate.
      * intros t. rewrite H. destruct t; reflexivity.
    + apply (Sh_port _ _ KOutput pre (post ++ [KReg]) a (S b)); try assumption; try discriminate.
      * rewrite <- app_assoc. reflexivity.
      * rewrite app_assoc, T, <- app_assoc, snoc_reg. reflexivity.
      * intros t. rewrite H. destruct t; reflexivity.
Qed.
Lemma count_inv s c : inv s -> inv (mkM (tables s) (items s) c).
Proof. intros I. exact I. Qed.
Lemma exec_inv s c : inv s -> inv (fst (exec none s c)).
Proof.
  intros I. destruct c as [k n|n|k p]; cbn [exec].
  - destruct (method none k n s) eqn:M; [exact (method_inv _ _ _ _ I M)|exact I].
  - destruct (check_id none s n []) eqn:C; [|exact I]. cbn [fst].
    assert (F : find s n = None). { unfold check_id, find_in in C. destruct (find s n); [discriminate C|reflexivity]. }
    apply (method_inv (declare n KOutput s) n KReg).
    + apply (method_inv s n KOutput); [exact I|]. unfold method, check_id, find_in. rewrite F. reflexivity.
    + unfold method, check_id, find_in, find, first, declare. cbn [map fold_right tables table_of table_eqb]. rewrite String.eqb_refl. reflexivity.
  - cbv zeta. destruct (method none k _ _) eqn:M; [exact (method_inv _ _ _ _ (count_inv s _ I) M)|exact I].
Qed.
Lemma execs_inv l : forall s, inv s -> inv (execs s (top_level l)).
Proof. induction l as [|c r IH]; intros s I; [exact I|]. cbn [top_level map execs]. apply IH. exact (exec_inv s c I). Qed.
Lemma empty_inv : inv empty.
Proof. intros n. apply Sh_none; reflexivity. Qed.

(** ** Every permitted list occurs *)
Lemma declare_ok s n k o : inv s -> tables s Tio n = Some o -> In o (permits k) -> (k = KWire -> is_reg s n = false) ->
  exec none s (Declare k n) = (declare n k s, true).
Proof.
  intros I T P R. cbn [exec]. unfold method, check_id, find_in. rewrite (find_shape s n I), T.
  rewrite (proj2 (existsb_kind o (permits k)) P). destruct k; try reflexivity. rewrite R by reflexivity. reflexivity.
Qed.
Lemma execs_app l1 : forall s l2, execs s (l1 ++ l2) = execs (execs s l1) l2.
Proof. induction l1 as [|[o c] r IH]; intros s l2; [reflexivity|]. cbn [app execs]. apply IH. Qed.
Definition decls (n : string) (L : list kind) : list call := map (fun k => Declare k n) L.
Lemma wires_ok n p : p = KInput \/ p = KOutput -> forall a s, inv s -> tables s Tio n = Some p -> is_reg s n = false ->
  let s' := execs s (top_level (decls n (repeat KWire a))) in
  inv s' /\ tables s' Tio n = Some p /\ is_reg s' n = false /\ items s' = (items s ++ map (pair n) (repeat KWire a))%list.
Proof.
  intros P a. induction a as [|a IH]; intros s I T R; [cbn; rewrite app_nil_r; auto|].
  cbn [repeat decls map top_level execs]. rewrite (declare_ok s n KWire p I T); [|cbn; destruct P as [->| ->]; tauto|auto]. cbn [fst].
  destruct (IH (declare n KWire s)) as (A & B & C & D).
  - pose proof (exec_inv s (Declare KWire n) I) as Q. rewrite (declare_ok s n KWire p I T) in Q; [exact Q|cbn; destruct P as [->| ->]; tauto|auto].
  - cbn. exact T.
  - unfold is_reg. cbn. rewrite String.eqb_refl. reflexivity.
  - split; [exact A|]. split; [exact B|]. split; [exact C|]. unfold decls, top_level in D. rewrite D. cbn. rewrite <- app_assoc. reflexivity.
Qed.
Lemma regs_ok n : forall b s, inv s -> tables s Tio n = Some KOutput ->
  items (execs s (top_level (decls n (repeat KReg b)))) = (items s ++ map (pair n) (repeat KReg b))%list.
Proof.
  intros b. induction b as [|b IH]; intros s I T; [cbn; rewrite app_nil_r; auto|].
  cbn [repeat decls map top_level execs]. rewrite (declare_ok s n KReg KOutput I T); [|cbn; tauto|discriminate]. cbn [fst].
  pose proof (IH (declare n KReg s)) as D. unfold decls, top_level in D. rewrite D.
  - cbn. rewrite <- app_assoc. reflexivity.
  - pose proof (exec_inv s (Declare KReg n) I) as Q. rewrite (declare_ok s n KReg KOutput I T) in Q; [exact Q|cbn; tauto|discriminate].
  - cbn. exact T.
Qed.
Lemma tail_ok n p a b s : (p = KInput \/ p = KOutput) -> (p = KInput -> b = 0) -> inv s -> tables s Tio n = Some p -> (0 < a -> is_reg s n = false) ->
  items (execs s (top_level (decls n (repeat KWire a ++ repeat KReg b)))) = (items s ++ map (pair n) (repeat KWire a ++ repeat KReg b))%list.
Proof.
  intros P B0 I T R. unfold top_level, decls. rewrite !map_app, execs_app. fold (decls n (repeat KWire a)). fold (decls n (repeat KReg b)).
  fold (top_level (decls n (repeat KWire a))). fold (top_level (decls n (repeat KReg b))).
  assert (Q : let s' := execs s (top_level (decls n (repeat KWire a))) in
    inv s' /\ tables s' Tio n = Some p /\ items s' = (items s ++ map (pair n) (repeat KWire a))%list).
  { destruct a as [|a]; [cbn; rewrite app_nil_r; auto|]. destruct (wires_ok n p P (S a) s I T) as (A & B & _ & D); [apply R; lia|auto]. }
  cbv zeta in Q. destruct Q as (A & B & D).
  destruct b as [|b]; [cbn [repeat decls map top_level execs]; rewrite D, !app_nil_r; reflexivity|].
  destruct P as [->| ->]; [specialize (B0 eq_refl); discriminate|].
  rewrite (regs_ok n (S b) _ A B), D, app_assoc. reflexivity.
Qed.
Lemma first_ok n k : exec none empty (Declare k n) = (declare n k empty, true).
Proof. cbn [exec]. unfold method, check_id, find_in, find, first. cbn. destruct k; reflexivity. Qed.
Lemma second_ok n k p : In k (permits p) -> ~ is_port k -> table_of k = Tvar -> p <> KWire ->
  exec none (declare n k empty) (Declare p n) = (declare n p (declare n k empty), true).
Proof.
  intros P K T W. cbn [exec]. unfold method, check_id, find_in, find, first, declare. cbn [map fold_right tables]. rewrite T. cbn [table_eqb andb empty tables].
  rewrite String.eqb_refl. rewrite (proj2 (existsb_kind k (permits p)) P). destruct p; try reflexivity. congruence.
Qed.
Lemma tail_split a b x post : (x :: post = repeat KWire a ++ repeat KReg b)%list ->
  (x = KWire /\ exists a', a = S a' /\ (post = repeat KWire a' ++ repeat KReg b)%list) \/ (x = KReg /\ a = 0 /\ exists b', b = S b' /\ post = repeat KReg b').
Proof.
  intros H. destruct a as [|a]; cbn in H.
  - right. destruct b as [|b]; [discriminate|]. cbn in H. injection H as -> ->. eauto.
  - left. injection H as -> ->. eauto.
Qed.
Lemma allowed_occurs n L : allowed L -> exists calls, items (execs empty (top_level calls)) = map (pair n) L.
Proof.
  intros [H|(p & pre & post & a & b & P & -> & E & LP & B0 & N0)].
  - destruct L as [|k [|]]; [exists []; reflexivity| |cbn in H; lia]. exists [Declare k n]. cbn [top_level map execs]. rewrite first_ok. reflexivity.
  - exists (decls n (pre ++ p :: post)).
    assert (I1 : forall k, inv (declare n k empty)). { intros k. pose proof (exec_inv empty (Declare k n) empty_inv) as Q. rewrite first_ok in Q. exact Q. }
    assert (TP : forall s, tables (declare n p s) Tio n = Some p).
    { intros s. cbn. destruct P as [->|[->| ->]]; cbn; rewrite String.eqb_refl; reflexivity. }
    destruct pre as [|x [|]]; [| |cbn in LP; lia].
    + cbn [app] in *. unfold top_level, decls. cbn [map execs]. rewrite first_ok. cbn [fst].
      fold (decls n post). change (map (pair none) (decls n post)) with (top_level (decls n post)).
      destruct P as [->|[->| ->]].
      * rewrite E. rewrite (tail_ok n KInput a b); auto.
      * rewrite E. rewrite (tail_ok n KOutput a b); auto.
      * destruct (N0 eq_refl) as [-> _]. reflexivity.
    + cbn [app] in *. unfold top_level, decls. cbn [map execs]. rewrite first_ok. cbn [fst].
      destruct (tail_split a b x post E) as [(-> & a' & -> & EP)|(-> & -> & b' & -> & EP)].
      * assert (S2 : exec none (declare n KWire empty) (Declare p n) = (declare n p (declare n KWire empty), true)).
        { apply second_ok; [destruct P as [->|[->| ->]]; cbn; tauto|intros [|[|]]; discriminate|reflexivity|destruct P as [->|[->| ->]]; discriminate]. }
        rewrite S2. cbn [fst]. change (map (pair none) (map (fun k => Declare k n) post)) with (top_level (decls n post)).
        assert (I2 : inv (declare n p (declare n KWire empty))). { pose proof (exec_inv _ (Declare p n) (I1 KWire)) as Q. rewrite S2 in Q. exact Q. }
        assert (R2 : is_reg (declare n p (declare n KWire empty)) n = false).
        { unfold is_reg. destruct P as [->|[->| ->]]; cbn; rewrite String.eqb_refl; reflexivity. }
        destruct P as [->|[->| ->]].
        -- rewrite EP. rewrite (tail_ok n KInput a' b); auto.
        -- rewrite EP. rewrite (tail_ok n KOutput a' b); auto.
        -- destruct (N0 eq_refl) as [-> _]. reflexivity.
      * assert (p = KOutput). { destruct P as [->|[->| ->]]; [specialize (B0 eq_refl); discriminate|reflexivity|destruct (N0 eq_refl); discriminate]. }
        subst p.
        assert (S2 : exec none (declare n KReg empty) (Declare KOutput n) = (declare n KOutput (declare n KReg empty), true)).
        { apply second_ok; [cbn; tauto|intros [|[|]]; discriminate|reflexivity|discriminate]. }
        rewrite S2. cbn [fst]. change (map (pair none) (map (fun k => Declare k n) post)) with (top_level (decls n post)).
        assert (I2 : inv (declare n KOutput (declare n KReg empty))). { pose proof (exec_inv _ (Declare KOutput n) (I1 KReg)) as Q. rewrite S2 in Q. exact Q. }
        rewrite EP. rewrite (regs_ok n b'); auto.
Qed.

(** ** Generate blocks *)
Definition inv1 (s : mstate) : Prop := forall n, let L := kinds_of n (items s) in
  (L = [] /\ find s n = None) \/ exists k, L = [k] /\ ~ is_port k /\ find s n = Some k.
Lemma find_declare s n k m : find (declare n k s) m = if String.eqb m n then find (declare n k s) n else find s m.
Proof.
  destruct (String.eqb_spec m n) as [->|N]; [reflexivity|]. apply find_tables. intros t. cbn. apply String.eqb_neq in N. rewrite N, andb_false_r. reflexivity.
Qed.
Lemma find_empty s n : find s n = None -> forall t, tables s t n = None.
Proof.
  unfold find, first. cbn [map fold_right]. intros H t.
  destruct (tables s Tio n) eqn:E1; [discriminate|]. destruct (tables s Tvar n) eqn:E2; [discriminate|]. destruct (tables s Tglobal n) eqn:E3; [discriminate|].
  destruct (tables s Tlocal n) eqn:E4; [discriminate|]. destruct (tables s Tfun n) eqn:E5; [discriminate|]. destruct (tables s Ttask n) eqn:E6; [discriminate|].
  destruct (tables s Tinst n) eqn:E7; [discriminate|]. destruct (tables s Tgen n) eqn:E8; [discriminate|]. destruct t; assumption.
Qed.
Lemma method_inv1 o s n k s' : ~ is_port k -> inv1 s -> method o k n s = Some s' -> inv1 s'.
Proof.
  intros P I M. unfold method in M. destruct (check_id o s n (permits k)) eqn:C; [|discriminate].
  assert (D : s' = declare n k s). { destruct k; try (injection M as <-; reflexivity). destruct (is_reg s n); [discriminate|]. injection M as <-. reflexivity. }
  subst s'. intros m. cbv zeta. rewrite (find_declare s n k m). unfold declare at 1 3. cbn [items]. rewrite kinds_app.
  destruct (String.eqb_spec m n) as [->|N].
  - rewrite kinds_one. right. exists k. destruct (I n) as [[A F]|(k0 & A & Q & F)].
    + rewrite A. split; [reflexivity|]. split; [exact P|]. pose proof (find_empty s n F) as E. unfold find, first. cbn [map fold_right declare tables].
      rewrite !E, String.eqb_refl, !andb_true_r. destruct k; reflexivity.
    + exfalso. unfold check_id, find_in in C. rewrite F in C. apply existsb_kind in C.
      destruct k; cbn in C; unfold is_port in *; intuition (subst; intuition discriminate).
  - rewrite kinds_other by congruence. rewrite app_nil_r. exact (I m).
Qed.
Lemma execs_inv1 l : forall s, (forall o c, In (o, c) l -> no_port_call c) -> inv1 s -> inv1 (execs s l).
Proof.
  induction l as [|[o c] r IH]; intros s H I; [exact I|]. cbn [execs]. apply IH; [intros o' c' X; exact (H o' c' (or_intror X))|].
  pose proof (H o c (or_introl eq_refl)) as N. destruct c as [k n|n|k p]; cbn [no_port_call] in N; [| destruct N|]; cbn [exec].
  - destruct (method o k n s) eqn:M; [exact (method_inv1 _ _ _ _ _ N I M)|exact I].
  - cbv zeta. destruct (method o k _ _) eqn:M; [|exact I]. cbn [fst].
    assert (I' : inv1 (mkM (tables s) (items s) (tmp_count s + 1)%Z)) by exact I. exact (method_inv1 _ _ _ _ _ N I' M).
Qed.
Lemma nodup_kinds (l : list (string * kind)) : (forall n, length (kinds_of n l) <= 1) -> NoDup (map fst l).
Proof.
  induction l as [|[n k] r IH]; intros H; [constructor|]. cbn [map fst]. constructor.
  - intros X. apply in_map_iff in X as ([m k'] & E & X). cbn in E. subst m. specialize (H n). unfold kinds_of in H. cbn [filter fst] in H.
    rewrite String.eqb_refl in H. cbn [map length] in H. rewrite map_length in H.
    assert (Q : In (n, k') (filter (fun e => String.eqb (fst e) n) r)) by (apply filter_In; split; [exact X|apply String.eqb_refl]).
    destruct (filter _ r); [exact Q|]. cbn in H. lia.
  - apply IH. intros m. specialize (H m). unfold kinds_of in *. cbn [filter fst] in H. destruct (String.eqb n m); cbn [map length] in H; lia.
Qed.

(** ** Temporaries *)
Fixpoint last_part (s : string) : option string :=
  match s with "" => None | String c r => match last_part r with Some t => Some t | None => if Ascii.eqb c "_" then Some r else None end end.
Lemma last_part_none s : every (no "_") s = true -> last_part s = None.
Proof.
  induction s as [|c r IH]; [reflexivity|]. cbn [every last_part]. unfold no at 1. intros H. apply andb_true_iff in H as [A B].
  apply negb_true_iff in A. rewrite (IH B), A. reflexivity.
Qed.
Lemma last_part_app p s : every (no "_") s = true -> last_part (p ++ String "_" s)%string = Some s.
Proof.
  intros H. induction p as [|c p IH]; cbn [append last_part]; [rewrite (last_part_none s H); reflexivity|]. rewrite IH. reflexivity.
Qed.
Lemma tmp_name_count p q c d : (0 <= c)%Z -> (0 <= d)%Z -> tmp_name p c = tmp_name q d -> c = d.
Proof.
  intros C D H. assert (N : forall z, (0 <= z)%Z -> every (no "_") (show 10 z) = true).
  { intros z Z. exact (every_no (below 10) "_"%char _ eq_refl (show_below 10 z ltac:(lia) Z)). }
  unfold tmp_name in H. apply (f_equal last_part) in H. cbn [append] in H. rewrite !last_part_app in H by (apply N; assumption). injection H as H.
  pose proof (show_digits 10 c ltac:(lia) C) as A. rewrite H, (show_digits 10 d ltac:(lia) D) in A. injection A as ->. reflexivity.
Qed.
Lemma exec_count o s c : (tmp_count (fst (exec o s c)) = tmp_count s + match c with Tmp _ _ => 1 | _ => 0 end)%Z.
Proof.
  assert (M : forall k n s s', method o k n s = Some s' -> tmp_count s' = tmp_count s).
  { intros k n s0 s' H. unfold method in H. destruct (check_id _ _ _ _); [|discriminate]. destruct k; try (injection H as <-; reflexivity).
    destruct (is_reg s0 n); [discriminate|]. injection H as <-. reflexivity. }
  destruct c as [k n|n|k p]; cbn [exec].
  - destruct (method o k n s) eqn:E; cbn [fst]; [rewrite (M _ _ _ _ E)|]; lia.
  - destruct (check_id _ _ _ _); cbn; lia.
  - cbv zeta. destruct (method o k _ _) eqn:E; cbn [fst]; [rewrite (M _ _ _ _ E)|]; reflexivity.
Qed.
Lemma tmps_later l : forall s n, (0 <= tmp_count s)%Z -> In n (tmps s l) -> exists p c, (tmp_count s <= c)%Z /\ n = tmp_name p c.
Proof.
  induction l as [|[o c] r IH]; intros s n C H; [destruct H|]. cbn [tmps] in H. pose proof (exec_count o s c) as E.
  destruct (exec o s c) as [s' ok]. cbn [fst] in E.
  assert (R : In n (tmps s' r) -> exists p d, (tmp_count s <= d)%Z /\ n = tmp_name p d).
  { intros X. destruct (IH s' n) as (p & d & A & B); [destruct c; lia|exact X|]. exists p, d. split; [destruct c; lia|exact B]. }
  destruct c as [k m|m|k p]; try (exact (R H)). destruct ok; [|exact (R H)]. destruct H as [<-|H]; [|exact (R H)]. exists p, (tmp_count s). split; [lia|reflexivity].
Qed.
Lemma tmps_nodup l : forall s, (0 <= tmp_count s)%Z -> NoDup (tmps s l).
Proof.
  induction l as [|[o c] r IH]; intros s C; [constructor|]. cbn [tmps]. pose proof (exec_count o s c) as E.
  destruct (exec o s c) as [s' ok]. cbn [fst] in E. assert (C' : (0 <= tmp_count s')%Z) by (destruct c; lia).
  destruct c as [k m|m|k p]; try (apply IH; exact C'). destruct ok; [|apply IH; exact C']. constructor; [|apply IH; exact C'].
  intros X. destruct (tmps_later r s' _ C' X) as (q & d & A & B). apply tmp_name_count in B; lia.
Qed.

(** ** Submodules *)
Lemma lookup_put l n x m : lookup (put_sub l n x) m = if String.eqb n m then Some x else lookup l m.
Proof.
  induction l as [|[a y] r IH]; cbn [put_sub lookup]; [reflexivity|].
  destruct (String.eqb_spec a n) as [->|N]; cbn [lookup].
  - destruct (String.eqb n m); reflexivity.
  - rewrite IH. destruct (String.eqb_spec a m) as [->|]; [|reflexivity]. destruct (String.eqb_spec n m) as [->|]; [congruence|reflexivity].
Qed.
Lemma keys_put l n x : map fst (put_sub l n x) = if existsb (String.eqb n) (map fst l) then map fst l else (map fst l ++ [n])%list.
Proof.
  induction l as [|[a y] r IH]; cbn [put_sub map existsb fst]; [reflexivity|].
  destruct (String.eqb_spec a n) as [->|N]; cbn [map fst].
  - rewrite String.eqb_refl. reflexivity.
  - rewrite IH. destruct (String.eqb_spec n a) as [->|]; [congruence|]. cbn [orb]. destruct (existsb _ _); reflexivity.
Qed.
Lemma in_existsb n l : existsb (String.eqb n) l = true <-> In n l.
Proof. rewrite existsb_exists. split; [intros (x & X & E); apply String.eqb_eq in E; subst; exact X|intros X; exists n; split; [exact X|apply String.eqb_refl]]. Qed.
Lemma nodup_put l n x : NoDup (map fst l) -> NoDup (map fst (put_sub l n x)).
Proof.
  intros H. rewrite keys_put. destruct (existsb (String.eqb n) (map fst l)) eqn:E; [exact H|].
  apply (Permutation_NoDup (Permutation_cons_append _ _)). constructor; [|exact H]. intros X. apply in_existsb in X. congruence.
Qed.
Lemma lookup_in l n x : NoDup (map fst l) -> (lookup l n = Some x <-> In (n, x) l).
Proof.
  induction l as [|[a y] r IH]; cbn [lookup map fst In]; intros N; [split; [discriminate|intros []]|]. inversion N as [|? ? N1 N2]; subst.
  destruct (String.eqb_spec a n) as [->|NE].
  - split; [intros H; injection H as ->; auto|]. intros [H|H]; [injection H as ->; reflexivity|]. exfalso. apply N1. apply in_map_iff. exists (n, x). auto.
  - rewrite (IH N2). split; [auto|]. intros [H|H]; [injection H as -> _; congruence|exact H].
Qed.
Lemma lookup_key l n : lookup l n <> None <-> In n (map fst l).
Proof.
  induction l as [|[a y] r IH]; cbn [lookup map fst In]; [tauto|]. destruct (String.eqb_spec a n) as [->|NE]; [split; [auto|discriminate]|].
  rewrite IH. split; [auto|]. intros [H|H]; [congruence|exact H].
Qed.
Record minv (s : mods) : Prop := {
  mi_names : NoDup (map fst (subs s));
  mi_entries : forall n x, In (n, x) (subs s) -> mname s x = n /\ In x (instanced s);
  mi_inst : forall x, In x (instanced s) -> lookup (subs s) (mname s x) = Some x }.
Lemma entries_put l n x m y : NoDup (map fst l) -> In (m, y) (put_sub l n x) -> (m = n /\ y = x) \/ (m <> n /\ In (m, y) l).
Proof.
  intros N H. apply (lookup_in _ _ _ (nodup_put l n x N)) in H. rewrite lookup_put in H. destruct (String.eqb_spec n m) as [->|NE].
  - injection H as ->. auto.
  - right. split; [congruence|]. apply (lookup_in _ _ _ N), H.
Qed.
Lemma instance_inv x s : minv s -> fits x s -> minv (instance x s).
Proof.
  intros [N E L] F. unfold instance. destruct (lookup (subs s) (mname s x)) as [y|] eqn:LK.
  - destruct (Nat.eqb_spec y x) as [->|NE].
    + split; cbn [subs mname instanced].
      * exact N.
      * intros n z H. destruct (E n z H). auto with datatypes.
      * intros z [<-|Z]; [exact LK|exact (L z Z)].
    + assert (FREE : lookup (subs s) (mname s x ++ "_")%string = None \/ lookup (subs s) (mname s x ++ "_")%string = Some x).
      { destruct F as [[F|F]|F]; [congruence|congruence|exact F]. }
      assert (NX : ~ In x (instanced s)) by (intros X; apply L in X; congruence).
      assert (FR : lookup (subs s) (mname s x ++ "_")%string = None).
      { destruct FREE as [F0|F0]; [exact F0|]. apply (lookup_in _ _ _ N) in F0. exfalso. apply NX. exact (proj2 (E _ _ F0)). }
      assert (O : forall z, In z (instanced s) -> rename_mod (mname s) x (mname s x ++ "_")%string z = mname s z).
      { intros z Z. unfold rename_mod. destruct (Nat.eqb_spec z x) as [->|]; [contradiction|reflexivity]. }
      assert (OX : rename_mod (mname s) x (mname s x ++ "_")%string x = (mname s x ++ "_")%string) by (unfold rename_mod; rewrite Nat.eqb_refl; reflexivity).
      split; cbn [subs mname instanced].
      * apply nodup_put, N.
      * intros n z H. apply (entries_put _ _ _ _ _ N) in H. destruct H as [[-> ->]|[M H]]; [split; [exact OX|left; reflexivity]|].
        destruct (E n z H) as [A B]. rewrite (O z B). auto with datatypes.
      * intros z [<-|Z]; [rewrite OX, lookup_put, String.eqb_refl; reflexivity|]. rewrite (O z Z), lookup_put.
        pose proof (L z Z) as Q. destruct (String.eqb_spec (mname s x ++ "_")%string (mname s z)) as [EQ|]; [rewrite EQ in FR; congruence|exact Q].
  - split; cbn [subs mname instanced].
    + apply nodup_put, N.
    + intros n z H. apply (entries_put _ _ _ _ _ N) in H. destruct H as [[-> ->]|[M H]]; [auto with datatypes|]. destruct (E n z H). auto with datatypes.
    + intros z [<-|Z]; [rewrite lookup_put, String.eqb_refl; reflexivity|]. rewrite lookup_put. pose proof (L z Z) as Q.
      destruct (String.eqb_spec (mname s x) (mname s z)) as [EQ|]; [rewrite EQ in LK; congruence|exact Q].
Qed.
Lemma instances_inv l : forall s, minv s -> all_fit l s -> minv (fold_left (fun s x => instance x s) l s).
Proof. induction l as [|x r IH]; intros s M F; [exact M|]. destruct F as [F1 F2]. cbn [fold_left]. apply IH; [apply instance_inv; assumption|exact F2]. Qed.
Lemma instanced_all l : forall s x, In x l \/ In x (instanced s) -> In x (instanced (fold_left (fun s x => instance x s) l s)).
Proof.
  induction l as [|y r IH]; intros s x H; cbn [fold_left]; [destruct H as [[]|H]; exact H|]. apply IH.
  assert (I : instanced (instance y s) = y :: instanced s).
  { unfold instance. destruct (lookup _ _) as [z|]; [|reflexivity]. destruct (Nat.eqb z y); reflexivity. }
  rewrite I. destruct H as [[->|H]|H]; cbn; auto.
Qed.
Lemma put_fresh l n x : ~ In n (map fst l) -> put_sub l n x = l ++ [(n, x)].
Proof.
  induction l as [|[a y] r IH]; cbn [map fst In put_sub app]; intros H; [reflexivity|]. destruct (String.eqb_spec a n) as [->|]; [tauto|]. rewrite IH by tauto. reflexivity.
Qed.
Lemma printed_ok f l : forall acc, (forall n x, In (n, x) l -> f x = n) -> NoDup (map fst l) -> (forall n, In n (map fst l) -> ~ In n (map fst acc)) ->
  fold_left (fun l (e : string * nat) => put_sub l (f (snd e)) (snd e)) l acc = acc ++ l.
Proof.
  induction l as [|[n x] r IH]; intros acc E N D; [rewrite app_nil_r; reflexivity|]. cbn [fold_left snd]. rewrite (E n x (or_introl eq_refl)).
  inversion N as [|? ? N1 N2]; subst. rewrite put_fresh by (apply D; left; reflexivity). rewrite IH.
  - rewrite <- app_assoc. reflexivity.
  - intros m y H. apply E. right. exact H.
  - exact N2.
  - intros m M. rewrite map_app, in_app_iff. intros [H|[H|[]]]; [exact (D m (or_intror M) H)|]. cbn in H. subst. contradiction.
Qed.
