(** C41 (identifiers of a module), C42 (temporaries), C55 (names of submodules). *)
From Coq Require Import String Ascii.
From Verif Require Import Base Lit_Model Mod_Model Mod_Spec Mod_Proofs.
Open Scope string_scope.
Open Scope nat_scope.
Open Scope list_scope.

(** Whatever is called, also after errors, the declarations of a name are one declaration, or one
    port with wires and registers. *)
Theorem C41_names_partial : forall calls n, allowed (kinds_of n (items (execs empty (top_level calls)))).
Proof. intros calls n. exact (shape_allowed _ _ (execs_inv calls empty empty_inv n)). Qed.
(** Nothing more can be said: all these lists occur. *)
Theorem C41_exact : forall n l, allowed l -> exists calls, items (execs empty (top_level calls)) = map (pair n) l.
Proof. exact allowed_occurs. Qed.
(** So anything but wires and registers of ports is declared once. *)
Theorem C41_once : forall calls n k, let l := kinds_of n (items (execs empty (top_level calls))) in
  In k l -> k <> KWire -> k <> KReg -> count_occ kind_dec l k = 1 /\ (~ is_port k -> l = [k]).
Proof.
  intros calls n k l I W R. destruct (C41_names_partial calls n) as [H|(p & pre & post & a & b & P & E & Q & _)]; fold l in H || fold l in E.
  - destruct l as [|x [|]]; [destruct I| |cbn in H; lia]. destruct I as [->|[]]. split; [|reflexivity]. cbn. destruct (kind_dec k k); [reflexivity|congruence].
  - assert (NI : forall l', (forall x, In x l' -> x = KWire \/ x = KReg) -> forall d, count_occ d l' k = 0).
    { intros l' H d. apply count_occ_not_In. intros X. destruct (H k X); congruence. }
    assert (WR : forall x, In x (pre ++ post) -> x = KWire \/ x = KReg).
    { intros x X. rewrite Q in X. apply in_app_iff in X as [X|X]; apply repeat_spec in X; auto. }
    assert (KP : k = p).
    { rewrite E in I. apply in_app_iff in I as [X|[X|X]]; [|auto|]; exfalso; (destruct (WR k); [apply in_app_iff; auto|congruence|congruence]). }
    subst p. split; [|tauto]. rewrite E, count_occ_app. cbn [count_occ]. rewrite !NI.
    + destruct (kind_dec k k); [reflexivity|congruence].
    + intros x X. apply WR, in_app_iff. auto.
    + intros x X. apply WR, in_app_iff. auto.
Qed.
(** In a generate block, whatever the module around it declares meanwhile, all names differ. *)
Theorem C41_generate : forall calls, (forall o c, In (o, c) calls -> no_port_call c) -> NoDup (map fst (items (execs empty calls))).
Proof.
  intros calls H. apply nodup_kinds. intros n. assert (I : inv1 (execs empty calls)).
  { apply execs_inv1; [exact H|]. intros m. left. split; reflexivity. }
  destruct (I n) as [[-> _]|(k & -> & _)]; cbn; lia.
Qed.
(** A call that raises an error declares nothing. *)
Theorem C41_error : forall o s c, snd (exec o s c) = false -> items (fst (exec o s c)) = items s /\ tables (fst (exec o s c)) = tables s.
Proof.
  intros o s c H. destruct c as [k n|n|k p]; cbn [exec] in *.
  - destruct (method o k n s); [discriminate|]. split; reflexivity.
  - destruct (check_id o s n []); [discriminate|]. split; reflexivity.
  - cbv zeta in *. destruct (method o k _ _); [discriminate|]. split; reflexivity.
Qed.
(** A call without error declares at least one new item, of the name asked for. *)
Theorem C41_success : forall o s c, snd (exec o s c) = true -> exists ks, ks <> [] /\
  items (fst (exec o s c)) = items s ++ map (pair (match c with Declare _ n | OutputReg n => n | Tmp _ p => tmp_name p (tmp_count s) end)) ks.
Proof.
  assert (M : forall o k n s s', method o k n s = Some s' -> items s' = items s ++ [(n, k)]).
  { intros o k n s s' H. unfold method in H. destruct (check_id _ _ _ _); [|discriminate].
    destruct k; try (injection H as <-; reflexivity). destruct (is_reg s n); [discriminate|]. injection H as <-. reflexivity. }
  intros o s c H. destruct c as [k n|n|k p]; cbn [exec] in *.
  - destruct (method o k n s) eqn:E; [|discriminate]. exists [k]. split; [discriminate|]. exact (M _ _ _ _ _ E).
  - destruct (check_id o s n []); [|discriminate]. exists [KOutput; KReg]. split; [discriminate|]. cbn [fst declare items map]. rewrite <- app_assoc. reflexivity.
  - cbv zeta in *. destruct (method o k _ _) eqn:E; [|discriminate]. exists [k]. split; [discriminate|]. exact (M _ _ _ _ _ E).
Qed.
(** A name of the enclosing module is an error in a generate block. *)
Theorem C41_enclosing : forall calls o k k0 n, (forall o c, In (o, c) calls -> no_port_call c) -> o n = Some k0 -> ~ is_port k0 -> ~ is_port k ->
  snd (exec o (execs empty calls) (Declare k n)) = false.
Proof.
  intros calls o k k0 n H O P K. set (s := execs empty calls). assert (I : inv1 s).
  { apply execs_inv1; [exact H|]. intros m. left. split; reflexivity. }
  cbn [exec]. assert (X : exists k1, find_in o s n = Some k1 /\ ~ is_port k1).
  { unfold find_in. destruct (I n) as [[_ ->]|(k1 & _ & Q & ->)]; eauto. }
  destruct X as (k1 & F & Q). unfold method, check_id. rewrite F.
  assert (X : existsb (kind_eqb k1) (permits k) = false).
  { destruct (existsb _ _) eqn:E; [|reflexivity]. apply existsb_kind in E. exfalso.
    destruct k; cbn in E; unfold is_port in *; intuition (subst; intuition discriminate). }
  rewrite X. reflexivity.
Qed.
(** A register of an output can be declared any number of times, also after a wire. *)
Theorem C41_register_refuted : exists calls, items (execs empty (top_level calls)) = [("a", KOutput); ("a", KReg); ("a", KReg)] /\ length calls = 3.
Proof. exists [Declare KOutput "a"; Declare KReg "a"; Declare KReg "a"]. split; reflexivity. Qed.
Theorem C41_wire_refuted : exists calls, items (execs empty (top_level calls)) = [("a", KOutput); ("a", KWire); ("a", KReg)] /\ length calls = 3.
Proof. exists [Declare KOutput "a"; Declare KWire "a"; Declare KReg "a"]. split; reflexivity. Qed.

(** All temporaries of a module have different names, whatever the prefixes. *)
Theorem C42_distinct : forall calls, NoDup (tmps empty calls).
Proof. intros calls. apply tmps_nodup. cbn. lia. Qed.
(** The number in the name is the number of the temporary. *)
Theorem C42_number : forall p q c d, (0 <= c)%Z -> (0 <= d)%Z -> tmp_name p c = tmp_name q d -> c = d.
Proof. exact tmp_name_count. Qed.
(** A temporary takes a name not declared before, unless it is a wire or register and the name a port. *)
Theorem C42_new : forall calls k p, let s := execs empty (top_level calls) in let n := tmp_name p (tmp_count s) in
  snd (exec none s (Tmp k p)) = true -> ~ is_port k ->
  kinds_of n (items s) = [] \/ ((k = KWire \/ k = KReg) /\ (In KInput (kinds_of n (items s)) \/ In KOutput (kinds_of n (items s)))).
Proof.
  intros calls k p s n H K. pose proof (execs_inv calls empty empty_inv) as I. fold s in I. cbn [exec] in H. cbv zeta in H. fold n in H.
  set (s1 := mkM (tables s) (items s) (tmp_count s + 1)%Z) in *. assert (I1 : inv s1) by exact I.
  destruct (method none k n s1) eqn:M; [|discriminate]. unfold method in M. destruct (check_id none s1 n (permits k)) eqn:C; [|discriminate].
  unfold check_id, find_in in C. rewrite (find_shape s1 n I1) in C. change (items s1) with (items s) in C. change (tables s1) with (tables s) in C.
  destruct (I n) as [A B|k0 A B T|q pre post a b A B T D F G HT].
  - left. exact A.
  - right. rewrite T, B in C. assert (E : (if table_eqb Tio (table_of k0) then Some k0 else None) = None).
    { destruct k0; cbn; reflexivity || (exfalso; apply A; unfold is_port; tauto). }
    rewrite E in C. apply existsb_kind in C. exfalso. unfold is_port in *. clear - C A K. destruct k; cbn in C; intuition congruence.
  - right. rewrite HT in C. apply existsb_kind in C. rewrite B. assert (Q : In q (pre ++ q :: post)) by (apply in_app_iff; right; left; reflexivity).
    unfold is_port in K. clear - C K Q. destruct k; cbn in C; intuition (subst; auto).
Qed.
(** ... and then the temporary is the port. *)
Theorem C42_port_refuted : exists calls, items (execs empty (top_level calls)) = [("_tmp_0", KOutput); ("_tmp_0", KReg)] /\
  calls = [Declare KOutput "_tmp_0"; Tmp KReg "_tmp"].
Proof. eexists. split; [|reflexivity]. reflexivity. Qed.

(** If an instance never meets two different modules under its name and its name with an underscore,
    the modules printed have different names and every instantiated module is among them. *)
Theorem C55_printed_partial : forall f l top t, all_fit l (no_mods f) ->
  let s := fold_left (fun s x => instance x s) l (no_mods f) in
  (forall x, In x l -> mname s x <> top) ->
  NoDup (map fst (printed top t s)) /\ In (top, t) (printed top t s) /\
  (forall x, In x l -> In (mname s x, x) (printed top t s)) /\ (forall n x, In (n, x) (printed top t s) -> (n, x) = (top, t) \/ (In x l /\ n = mname s x)).
Proof.
  intros f l top t F s T.
  assert (M : minv s). { apply instances_inv; [|exact F]. split; cbn; [constructor|intros ? ? []|intros ? []]. }
  assert (IL : forall x, In x (instanced s) -> In x l).
  { intros x X. assert (G : forall l s0, In x (instanced (fold_left (fun s x => instance x s) l s0)) -> In x l \/ In x (instanced s0)).
    { clear. induction l as [|y r IH]; intros s0 H; cbn [fold_left] in H; [auto|]. apply IH in H as [H|H]; [left; right; exact H|].
      unfold instance in H. destruct (lookup _ _) as [z|]; [destruct (Nat.eqb z y)|]; cbn [instanced] in H; destruct H as [->|H]; cbn; auto. }
    destruct (G l _ X) as [H|[]]; exact H. }
  destruct M as [N E L].
  assert (P : printed top t s = [(top, t)] ++ subs s).
  { unfold printed. apply printed_ok; [intros n x H; exact (proj1 (E n x H))|exact N|]. intros n H [X|[]]. cbn in X. subst n.
    apply in_map_iff in H as ([n x] & EQ & H). cbn in EQ. subst n. destruct (E _ _ H) as [A B]. exact (T x (IL x B) A). }
  rewrite P. cbn [app map fst]. split; [constructor; [|exact N]|].
  - intros H. apply in_map_iff in H as ([n x] & EQ & H). cbn in EQ. subst n. destruct (E _ _ H) as [A B]. exact (T x (IL x B) A).
  - split; [left; reflexivity|]. split.
    + intros x X. right. apply (lookup_in _ _ _ N). apply L. apply instanced_all. left. exact X.
    + intros n x [H|H]; [left; congruence|right]. destruct (E n x H) as [A B]. auto.
Qed.
(** Of three different modules with one name the second is not printed; its instance gets the third. *)
Theorem C55_three_refuted : let s := fold_left (fun s x => instance x s) [0; 1; 2] (no_mods (fun _ => "sub")) in
  printed "top" 9 s = [("top", 9); ("sub", 0); ("sub_", 2)] /\ mname s 1 = "sub_".
Proof. split; reflexivity. Qed.
(** A submodule called like the module replaces it. *)
Theorem C55_top_refuted : printed "sub" 9 (fold_left (fun s x => instance x s) [0] (no_mods (fun _ => "sub"))) = [("sub", 0)].
Proof. reflexivity. Qed.

(** ** Examples *)
Example C41_example : kinds_of "b" (items (execs empty (top_level [Declare KInput "b"; Declare KReg "b"; Declare KWire "b"; OutputReg "c"; Declare KInstance "b"]))) = [KInput; KWire].
Proof. reflexivity. Qed.
Example C41_enclosing_example : snd (exec (fun n => if String.eqb n "a" then Some KReg else None) (execs empty (top_level [Declare KWire "b"])) (Declare KWire "a")) = false.
Proof. reflexivity. Qed.
Example C42_example : tmps empty (top_level [Tmp KReg "_tmp"; Declare KReg "_tmp_1"; Tmp KWire "_tmp"; Tmp KWire "x_1"; Tmp KWire "x"]) = ["_tmp_0"; "x_1_2"; "x_3"].
Proof. reflexivity. Qed.
Example C55_example : all_fit [0; 1; 2; 0; 1] (no_mods (fun x => match x with 2 => "other" | _ => "sub" end)).
Proof. cbn. unfold fits. cbn. tauto. Qed.
Print Assumptions C41_names_partial. Print Assumptions C41_exact. Print Assumptions C41_once. Print Assumptions C41_generate. Print Assumptions C41_error. Print Assumptions C41_success. Print Assumptions C41_enclosing.
Print Assumptions C41_register_refuted. Print Assumptions C41_wire_refuted. Print Assumptions C42_distinct. Print Assumptions C42_number. Print Assumptions C42_new.
Print Assumptions C42_port_refuted. Print Assumptions C55_printed_partial. Print Assumptions C55_three_refuted. Print Assumptions C55_top_refuted.
