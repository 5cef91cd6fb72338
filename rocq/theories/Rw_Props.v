(** C57-C59: writing Verilog trees, reading them, and both.  pyverilog's printer and parser (the text
    of operators, blocks and declarations) are outside of the model, number literals are inside. *)
From Coq Require Import String Ascii Permutation.
From Verif Require Import Base Lit_Model Lit_Spec Rw_Model Rw_Spec Rw_Proofs Rw_Stable.
Open Scope string_scope.
Open Scope list_scope.
Open Scope Z_scope.

(** ** Examples *)
Definition ex_resets (a : aexpr) : bool := match a with AId n => (n =? "rst")%string | _ => false end.
Definition ex_q0 : gstmt := GSubst (GName "q") (GInt (int_num 0 (Some 8) (Some 10) false)) false None None.
Definition ex_case : gstmt :=
  GCase false (GName "q")
    [(Some [GPy 3; GInt (int_num 255 (Some 8) (Some 16) false)], [ex_q0]);
     (None, [GSubst (GName "q") (GBin GPlus (GName "q") (GRep (GPtr (GName "d") (GPy 0)) (GPy 2))) false None None])].
Definition ex_mod : gmod := mkGM "m"
  [mkGP Input "clk" (mkW None None) false; mkGP Input "rst" (mkW None None) false; mkGP Input "d" (mkW None (Some (GName "N"))) false;
   mkGP Output "q" (mkW None (Some (GName "N"))) false]
  [GParam "N" (GPy 8) (mkW None None) false;
   GVar Reg "q" (mkW None (Some (GName "N"))) false;
   GVar Genvar "i" (mkW None None) false;
   GGenFor (GSubst (GName "i") (GPy 0) true None None) (GBin GLessThan (GName "i") (GName "N")) (GSubst (GName "i") (GBin GPlus (GName "i") (GPy 1)) true None None)
     (Some "loop")
     [GVar Wire "w" (mkW None None) false; GLocal "L" (GBin GTimes (GName "i") (GPy 2)) (mkW None None) false;
      GGenIf (GBin GEq (GName "i") (GPy 0)) (Some "first") [GAssign (GName "w") (GPtr (GName "d") (GName "i")) None None]
        (Some "other") [GInst "sub" "s" [(Some "W", GPy (-1))] [(Some "a", Some (GName "w")); (Some "b", Some (GCat [GName "d"; GStr "t"]))]]];
   GAlways [GPos (GName "clk")] [GIf (GName "rst") [ex_q0] (Some [GList [GIf (GUn GUor (GName "d")) [ex_case] (Some [GIf (GName "q") [ex_q0] None])]])];
   GInitial [GSubst (GName "q") (GPy 0) false None (Some 5); GWait (GName "rst") None; GForever [GDelay (GPy 10); GSingle (GSys "display" [GStr "q=%d"; GName "q"])]]].

Example ex_mod_ok : mod_ok ex_mod.
Proof.
  assert (NI : forall e, g_ints e = [] -> e_ok e) by (intros e E; unfold e_ok; rewrite E; constructor).
  assert (N8 : forall v b, 0 <= v -> b = 10 \/ b = 16 -> int_ok (int_num v (Some 8) (Some b) false)).
  { intros v b V B. unfold int_num. rewrite (proj2 (Z.ltb_ge v 0)) by lia. split; cbn; [intros n E; injection E as <-; lia|]. split; [destruct B as [-> | ->]; auto|]. lia. }
  assert (N0 : int_ok (int_num 0 (Some 8) (Some 10) false)) by (apply N8; [lia|auto]). assert (NF : int_ok (int_num 255 (Some 8) (Some 16) false)) by (apply N8; [lia|auto]).
  assert (Q0 : forall m, sok m ex_q0). { intros m. cbn. split; [apply NI; reflexivity|]. split; [|auto]. unfold e_ok. constructor; [exact N0|constructor]. }
  assert (CS : sok MAlways ex_case).
  { cbn [sok ex_case]. split; [apply NI; reflexivity|]. split.
    - cbn [fst snd]. split; [split; [discriminate|]|split; [apply Q0|exact Logic.I]]. constructor; [apply NI; reflexivity|]. constructor; [|constructor]. unfold e_ok. constructor; [exact NF|constructor].
    - cbn. repeat split; auto; apply NI; reflexivity. }
  unfold mod_ok. cbn [ex_mod gm_ports gm_items]. split; [|split; [|split; [|split]]].
  - repeat constructor; cbn; auto.
  - constructor; [cbn; auto|]. constructor; [cbn; split; [auto|discriminate]|]. constructor; [cbn; auto|]. constructor; [|constructor; [|constructor; [|constructor]]].
    + cbn. repeat split; auto; try (apply NI; reflexivity); try discriminate; repeat constructor.
    + cbn [iok]. split; [repeat constructor|]. constructor; [|constructor]. cbn [sok fold_right]. repeat split; auto; try (apply NI; reflexivity); try apply CS; try apply Q0.
    + cbn. repeat constructor; auto; discriminate.
  - repeat constructor; cbn; intuition discriminate.
  - cbn. repeat constructor; cbn; intuition discriminate.
  - intros n w s p H HP E. cbn in H. destruct H as [H|[]]. injection H as <- <- <-. cbn in HP. destruct HP as [<-|[<-|[<-|[<-|[]]]]]; try discriminate E. split; reflexivity.
Qed.
Example ex_mod_st : gm_st ex_mod.
Proof.
  assert (N8 : forall v b, 0 <= v -> b = 10 \/ b = 16 -> int_st (int_num v (Some 8) (Some b) false)).
  { intros v b V B. left. exists v, (Some 8), (Some b). split; [reflexivity|]. split; [exact V|]. split; [intros n E; injection E as <-; lia|]. destruct B as [-> | ->]; auto. }
  assert (N0 : int_st (int_num 0 (Some 8) (Some 10) false)) by (apply N8; [lia|auto]). assert (NF : int_st (int_num 255 (Some 8) (Some 16) false)) by (apply N8; [lia|auto]).
  assert (Q0 : gst false MAlways ex_q0). { cbn [gst ex_q0 gse gst_delay]. auto. }
  assert (CS : gst false MAlways ex_case).
  { cbn [gst ex_case gse fold_right fst snd default_last]. split; [auto|]. split; [reflexivity|]. split.
    - split; [split; [discriminate|]|split; [exact Q0|exact Logic.I]]. constructor; [exact Logic.I|]. constructor; [exact NF|constructor].
    - split; [|exact Logic.I]. split; [exact Logic.I|]. split; [|exact Logic.I]. cbn. auto 10. }
  unfold gm_st. cbn [ex_mod gm_ports gm_items]. split; [repeat constructor|].
  constructor; [cbn; auto|]. constructor; [cbn; auto|]. constructor; [cbn; auto|]. constructor; [|constructor; [|constructor; [|constructor]]].
  - cbn. repeat split; auto; try discriminate; repeat constructor.
  - cbn [gist]. split; [repeat constructor|]. constructor; [|constructor]. cbn [gst gse fold_right]. repeat split; auto; try apply CS; try apply Q0.
  - cbn. repeat constructor; lia || discriminate.
Qed.
(** a tree that is read and written: if ... else if, a loop, a generate block *)
Definition ex_tree : amod := mkAM "t" [AParam "N" (AConst "4") None false]
  [mkAP Input "clk" None false None; mkAP Output "q" (Some (ABin AMinus (AId "N") (AConst "1"), AConst "0")) true (Some (Some (ABin AMinus (AId "N") (AConst "1"), AConst "0"), true))]
  [AVar Integer "i" None true; AVar Genvar "g" None false;
   AGen [AGenIf (ABin AGreaterThan (AId "N") (AConst "2")) (Some "big")
           [AGenFor (ABlk (AId "g") (AConst "0") None None) (ABin ALessThan (AId "g") (AId "N")) (ABlk (AId "g") (ABin APlus (AId "g") (AConst "1")) None None) (Some "l")
              [AVar Wire "w" (Some (AConst "7", AConst "0")) false; AAssign (AId "w") (AConst "8'hxz") None None]]
           (Some (ABody None [AInst "sub" "s" [] [(None, Some (AId "clk"))]]))];
   AAlways [APos (AId "clk"); ANeg (AId "rst")]
     (AIf (AId "rst") (ANon (AId "q") (AConst "4'b0") None None)
        (Some (AIf (APointer (AId "q") (AConst "0")) (ABlock [ABlk (AId "i") (APart (AId "q") (AConst "1") (AConst "0")) None None; ABlock [ANon (AId "q") (AId "i") None None] (Some "b")] None) None)));
   AInitial (ABlock [ABlk (AId "q") (AConst "1_0") (Some (DStmt (AConst "5"))) None;
                     AFor (ABlk (AId "i") (AConst "0") None None) (ABin ALessThan (AId "i") (AConst "3")) (ABlk (AId "i") (ABin APlus (AId "i") (AConst "1")) None None) (ASingle (ASys "display" [AId "i"]))] None)].
Example ex_tree_ok : amod_ok true ex_tree /\ aregs_ok ex_tree.
Proof.
  assert (D : forall t n, numeric 10 t = Some n -> const_ok t) by (intros t n; apply ck_dec).
  assert (C0 : const_ok "0") by (apply (D _ 0); reflexivity). assert (C1 : const_ok "1") by (apply (D _ 1); reflexivity). assert (C2 : const_ok "2") by (apply (D _ 2); reflexivity).
  assert (C3 : const_ok "3") by (apply (D _ 3); reflexivity). assert (C4 : const_ok "4") by (apply (D _ 4); reflexivity). assert (C7 : const_ok "7") by (apply (D _ 7); reflexivity).
  assert (C10 : const_ok "1_0") by (apply (D _ 10); reflexivity).
  assert (CX : const_ok "8'hxz"). { refine (ck_unknown (Some 8) "h" 16 "xz" eq_refl _ eq_refl eq_refl _); [intros n E; injection E as <-; lia|intros _ q; split; discriminate]. }
  assert (CB : const_ok "4'b0"). { refine (ck_based "4" (Some 4) "b" 2 "0" 0 eq_refl _ eq_refl). right. exists 4. split; [reflexivity|]. split; [lia|reflexivity]. }
  assert (EX : forall e, sel_ok e = true -> Forall const_ok (a_consts e) -> ae_ok e) by (intros; split; assumption).
  Ltac exs EX := apply EX; [reflexivity|cbn [a_consts app]; repeat constructor; assumption].
  split; [|split; [|split]].
  - unfold amod_ok. cbn [ex_tree am_ports am_params am_items]. split; [|split].
    + constructor; [cbn; auto|]. constructor; [|constructor]. cbn [ap_width ap_reg aw_ok]. repeat split; exs EX.
    + constructor; [|constructor]. cbn [aiok aw_ok]. split; [exs EX|exact Logic.I].
    + constructor; [cbn; auto|]. constructor; [cbn; auto|]. constructor; [|constructor; [|constructor; [|constructor]]].
      * cbn [aiok fold_right in_gen agen_ok aw_ok snd]. repeat split; try discriminate; try (exs EX); constructor; try constructor; cbn [snd]; exs EX.
      * cbn [aiok]. split; [discriminate|]. split; [constructor; [|constructor; [|constructor]]; cbn [asens_ok]; exs EX|]. cbn [aok fold_right adelay_ok in_gen]. repeat split; exs EX.
      * cbn [aiok aok fold_right adelay_ok in_gen]. repeat split; try (exs EX). exists 5. split; [reflexivity|]. intros _. split; [reflexivity|discriminate].
  - cbn. repeat constructor; cbn; intuition discriminate.
  - cbn. repeat constructor; cbn; intuition discriminate.
  - intros n w s p H HP E. cbn in H. destruct H as [H|[]]. injection H as <- <- <-. cbn in HP. destruct HP as [<-|[<-|[]]]; try discriminate E. split; reflexivity.
Qed.

(** ** C57: what is written means what the objects mean *)
Theorem C57_expressions_partial : forall e, e_ok e -> exists a, w_expr e = Some a /\ forall A, ae A a = ge A e.
Proof. exact w_expr_ok. Qed.
Theorem C57_statements_partial : forall resets s m, sok m s -> exists a, w_stmt resets m s = Some a /\ forall A M, same A M (as_ A M a) (gs A M m s).
Proof. exact w_stmt_ok. Qed.
Theorem C57_modules_partial : forall resets m, mod_ok m -> exists a, w_mod resets m = Some a /\ mod_means m a.
Proof. exact w_mod_ok. Qed.

(** A delay in an always block is printed as a bare number: no Verilog at all. *)
Theorem C57_always_delay_refuted : exists s a, w_stmt (fun _ => false) MAlways s = Some a /\ s = GSubst (GName "q") (GName "d") false (Some 3) None /\
  forall A M c l r, ~ as_ A M a c l r.
Proof. exists (GSubst (GName "q") (GName "d") false (Some 3) None). eexists. split; [reflexivity|]. split; [reflexivity|]. intros A M c l r H. exact H. Qed.
(** A delay of 0 is lost: the object lets the other processes go first, the text does not. *)
Theorem C57_zero_delay_refuted : exists s a, w_stmt (fun _ => false) MBlocking s = Some a /\ s = GSubst (GName "q") (GName "d") true (Some 0) None /\
  forall A M c, gs A M MBlocking s c [] (Cut A M c) /\ ~ as_ A M a c [] (Cut A M c).
Proof.
  exists (GSubst (GName "q") (GName "d") true (Some 0) None). eexists. split; [reflexivity|]. split; [reflexivity|]. intros A M c. split.
  - cbn. apply seq_cut. left. split; reflexivity.
  - cbn. intros [_ H]. discriminate H.
Qed.
(** Delays of continuous assignments are lost. *)
Theorem C57_assign_delay_refuted : exists i a, w_item (fun _ => false) (fun _ => false) i = Some (Some a) /\ i = GAssign (GName "w") (GName "d") (Some 3) None /\
  forall A M f, gleaf A M i = Some f -> aleaf A M a <> Some f.
Proof.
  exists (GAssign (GName "w") (GName "d") (Some 3) None). eexists. split; [reflexivity|]. split; [reflexivity|]. intros A M f H C. cbn in H, C. injection H as <-. discriminate C.
Qed.
(** An instance with an unconnected port cannot be written. *)
Theorem C57_unconnected_refuted : forall resets outs, w_item resets outs (GInst "sub" "s" [] [(Some "a", None)]) = None.
Proof. reflexivity. Qed.

(** one value, states are numbers counting the assignments *)
Definition A0 : alg := mkAlg unit (fun _ => tt) (fun _ => tt) (fun _ => tt) (fun _ => tt) (fun _ _ => tt) (fun _ _ _ => tt) (fun _ _ => tt) (fun _ _ _ => tt)
  (fun _ => tt) (fun _ _ => tt) (fun _ _ _ => tt) (fun _ _ => tt).
Definition M0 : machine A0 := mkMachine A0 nat unit (fun _ _ => true) (fun _ _ _ n => S n) (fun _ _ _ _ => tt) (fun _ _ _ _ => true).
Definition test0 : D A0 -> nat -> bool := fun _ _ => false.
Definition set0 : D A0 -> D A0 -> nat -> nat := fun _ _ n => S n.
Lemma aleaf_only : forall i f x, aleaf A0 M0 i = Some f -> afound A0 M0 nat test0 set0 0%nat [] [i] x -> x = [([], 0%nat, f)].
Proof. intros i f x E H. inversion H; subst; try discriminate E. match goal with R : afound _ _ _ _ _ _ _ [] _ |- _ => inversion R; subst end.
  match goal with F : aleaf _ _ i = Some ?g |- context [?g] => rewrite E in F; injection F as <- end. reflexivity. Qed.
(** A signed register behind an unsigned output is printed as unsigned. *)
Theorem C57_output_sign_refuted : exists m a, w_mod (fun _ => false) m = Some a /\
  m = mkGM "m" [mkGP Output "q" (mkW None (Some (GPy 8))) false] [GVar Reg "q" (mkW None (Some (GPy 8))) true] /\ ~ mod_means m a.
Proof.
  eexists. eexists. split; [|split; [reflexivity|]]; [reflexivity|]. intros [_ H]. destruct (H A0) as [_ E]. destruct (E M0 nat test0 set0 0%nat []) as [F _]. clear H E.
  destruct (F [([], 0%nat, LfVar A0 M0 Reg "q" (Some (tt, tt)) true)]) as (y & Y & z & P & Q).
  { cbn [gm_items]. apply gf_leaf; [reflexivity|constructor]. }
  eapply aleaf_only in Y; [|reflexivity]. subst y. apply Permutation_length_1_inv in P. subst z. inversion Q as [|? ? ? ? [_ L] _]; subst. inversion L.
Qed.
(** A register of a generate block that is named like an output of the module is not declared. *)
Theorem C57_generate_reg_refuted : exists m a, w_mod (fun _ => false) m = Some a /\
  m = mkGM "m" [mkGP Output "q" (mkW None None) false] [GGenIf (GName "c") None [] (Some "s") [GVar Reg "q" (mkW None None) false]] /\ ~ mod_means m a.
Proof.
  eexists. eexists. split; [|split; [reflexivity|]]; [reflexivity|]. intros [_ H]. destruct (H A0) as [_ E]. destruct (E M0 nat test0 set0 0%nat []) as [F _]. clear H E.
  destruct (F [([(Some "s", 0%nat)], 0%nat, LfVar A0 M0 Reg "q" None false)]) as (y & Y & z & P & Q).
  { cbn [gm_items]. apply (gf_if A0 M0 nat test0 set0 0%nat [] (GName "c") None [] (Some "s") _ [] [_] []); [|constructor]. cbn. apply gf_leaf; [reflexivity|constructor]. }
  cbn in Y. inversion Y; subst; try discriminate. match goal with R : afound _ _ _ _ _ _ _ [] _ |- _ => inversion R; subst end.
  match goal with R : afound _ _ _ _ _ _ _ [AGenIf _ _ _ _] _ |- _ => inversion R; subst; try discriminate end.
  match goal with R : afounde _ _ _ _ _ _ _ _ _ |- _ => inversion R; subst end. repeat match goal with R : afound _ _ _ _ _ _ _ [] _ |- _ => inversion R; subst; clear R end.
  cbn [app] in Q. inversion Q; subst. apply Permutation_sym, Permutation_nil in P. discriminate P.
Qed.

(** ** C58: what is read means what the text means; also after writing it again *)
Theorem C58_expressions_partial : forall e, ae_ok e -> exists a, r_expr e = Some a /\ forall A, ge A a = ae A e.
Proof. exact r_expr_ok. Qed.
Theorem C58_statements_partial : forall gen a m, aok false gen m a -> exists s, r_stmt gen a = Some s /\ forall A M, same A M (gs A M m s) (as_ A M a).
Proof. intros gen a m K. destruct (r_stmt_ok false gen a m K) as (s & R & _ & S). eauto. Qed.
Theorem C58_modules_partial : forall a, amod_ok false a -> exists m, r_mod a = Some m /\ mod_means m a.
Proof. exact (r_mod_ok false). Qed.
Theorem C58_statements_back_partial : forall resets gen m a, aok true gen m a ->
  exists s a', r_stmt gen a = Some s /\ w_stmt resets m s = Some a' /\ forall A M, same A M (as_ A M a') (as_ A M a).
Proof. exact back_stmt_ok. Qed.
Theorem C58_modules_back_partial : forall resets a, amod_ok true a -> aregs_ok a -> exists m a', r_mod a = Some m /\ w_mod resets m = Some a' /\ same_mod a a'.
Proof. exact mod_back_ok. Qed.
(** A non-blocking assignment in an initial block becomes a blocking one. *)
Theorem C58_initial_nonblocking_refuted : exists a s a', r_stmt false a = Some s /\ w_stmt (fun _ => false) MBlocking s = Some a' /\ a = ANon (AId "q") (AId "d") None None /\
  ~ same A0 M0 (as_ A0 M0 a') (as_ A0 M0 a).
Proof.
  eexists. eexists. eexists. split; [|split; [|split; [reflexivity|]]]; [reflexivity|reflexivity|]. intros H. specialize (H (0%nat, []) [] (Fin A0 M0 (1%nat, []))). destruct H as [H _].
  destruct H as [_ H]; [split; reflexivity|]. discriminate H.
Qed.
(** The condition of an else-if in a generate block is lost: its items are always there. *)
Theorem C58_generate_elif_refuted : exists a m, r_mod a = Some m /\
  a = mkAM "m" [] [] [AGen [AGenIf (AId "c") None [] (Some (AElse (AGenIf (AId "d") None [AVar Wire "w" None false] None)))]] /\
  gm_items m = [GGenIf (GName "c") None [] None [GVar Wire "w" (mkW None None) false]] /\ ~ mod_means m a.
Proof.
  eexists. eexists. split; [|split; [reflexivity|]]; [reflexivity|]. split; [reflexivity|]. intros [_ H]. destruct (H A0) as [_ E]. destruct (E M0 nat test0 set0 0%nat []) as [F _]. clear H E.
  destruct (F [([(None, 0%nat)], 0%nat, LfVar A0 M0 Wire "w" None false)]) as (y & Y & z & P & Q).
  { cbn [gm_items]. apply (gf_if A0 M0 nat test0 set0 0%nat [] (GName "c") None [] None _ [] [_] []); [|constructor]. cbn. apply gf_leaf; [reflexivity|constructor]. }
  cbn in Y. inversion Y; subst; try discriminate. match goal with R : afound _ _ _ _ _ _ _ [] _ |- _ => inversion R; subst; clear R end.
  match goal with R : afound _ _ _ _ _ _ _ [AGenIf _ _ _ _] _ |- _ => inversion R; subst; try discriminate; clear R end.
  match goal with R : afounde _ _ _ _ _ _ _ _ _ |- _ => inversion R; subst; clear R end. repeat match goal with R : afound _ _ _ _ _ _ _ [] _ |- _ => inversion R; subst; clear R end.
  match goal with R : afound _ _ _ _ _ _ _ [AGenIf _ _ _ _] _ |- _ => inversion R; subst; try discriminate; clear R end.
  match goal with R : afounde _ _ _ _ _ _ _ _ _ |- _ => inversion R; subst; clear R end. repeat match goal with R : afound _ _ _ _ _ _ _ [] _ |- _ => inversion R; subst; clear R end.
  cbn [app] in Q. inversion Q; subst. apply Permutation_sym, Permutation_nil in P. discriminate P.
Qed.
(** Verilog that cannot be read: if in an initial block of a generate block, a default that is not
    the last case item, a delay of a continuous assignment. *)
Theorem C58_unreadable_refuted :
  r_item PMod (AGen [AGenIf (AId "c") None [AInitial (ABlock [AIf (AId "a") (ABlock [] None) None] None)] None]) = None /\
  r_stmt false (ACase false (AId "a") [(None, ABlock [] None); (Some [AConst "1"], ABlock [] None)]) = None /\
  r_item PMod (AAssign (AId "w") (AId "d") (Some (DStmt (AConst "3"))) None) = None.
Proof. repeat split; reflexivity. Qed.
(** An unconnected port can be read, but not be written again. *)
Theorem C58_unconnected_refuted : exists i, r_item PMod (AInst "sub" "s" [] [(Some "a", None)]) = Some [i] /\ forall resets outs, w_item resets outs i = None.
Proof. eexists. split; [reflexivity|]. reflexivity. Qed.
(** The width attribute of a vector [0:7] is negative (the range itself is kept beside it). *)
Theorem C58_ascending_refuted : exists w, r_width (Some (AConst "0", AConst "7")) = Some w /\ w_width w = Some (GPy (-6)).
Proof. eexists. split; reflexivity. Qed.

(** ** C59: a written module is read and written again as the same tree *)
Theorem C59_expressions_partial : forall e a, gse e -> w_expr e = Some a -> exists e', r_expr a = Some e' /\ w_expr e' = Some a.
Proof. intros e a K E. apply fix_expr. exact (w_nfe e a K E). Qed.
Theorem C59_statements_partial : forall resets gen m s a, gst gen m s -> w_stmt resets m s = Some a -> exists s', r_stmt gen a = Some s' /\ w_stmt resets m s' = Some a.
Proof. intros resets gen m s a K E. apply fix_stmt. exact (w_nf resets gen s m a K E). Qed.
Theorem C59_modules_partial : forall resets m a, gm_st m -> w_mod resets m = Some a -> exists m', r_mod a = Some m' /\ w_mod resets m' = Some a.
Proof. exact stable_mod. Qed.
(** Signed constants with a width lose it, and negative ones their sign. *)
Theorem C59_signed_refuted : exists e a e' a', w_expr e = Some a /\ r_expr a = Some e' /\ w_expr e' = Some a' /\
  e = GInt (int_num (-5) (Some 8) (Some 10) true) /\ a = AConst "-8'sd5" /\ a' = AConst "'sd5".
Proof. do 4 eexists. repeat split; reflexivity. Qed.
(** An empty body of a wait is dropped the second time. *)
Theorem C59_wait_refuted : exists s a s' a', w_stmt (fun _ => false) MBlocking s = Some a /\ r_stmt false a = Some s' /\ w_stmt (fun _ => false) MBlocking s' = Some a' /\
  s = GWait (GName "c") (Some []) /\ a <> a'.
Proof. do 4 eexists. split; [|split; [|split; [|split; [reflexivity|]]]]; try reflexivity. discriminate. Qed.

Example C57_example : exists a, w_mod ex_resets ex_mod = Some a /\ mod_means ex_mod a /\
  am_params a = [AParam "N" (AConst "8") None false] /\ map ap_reg (am_ports a) = [None; None; None; Some (Some (ABin AMinus (AId "N") (AConst "1"), AConst "0"), false)] /\
  length (am_items a) = 4%nat.
Proof.
  destruct (C57_modules_partial ex_resets ex_mod ex_mod_ok) as (a & E & M). exists a. split; [exact E|]. split; [exact M|]. cbn in E. injection E as <-. repeat split; reflexivity.
Qed.
Example C58_example : exists m a', r_mod ex_tree = Some m /\ w_mod ex_resets m = Some a' /\ same_mod ex_tree a' /\ ex_tree <> a'.
Proof.
  destruct (C58_modules_back_partial ex_resets ex_tree (proj1 ex_tree_ok) (proj2 ex_tree_ok)) as (m & a' & R & W & S). exists m, a'. do 3 (split; [assumption|]).
  cbn in R. injection R as <-. cbn in W. injection W as <-. discriminate.
Qed.
Example C59_example : exists a m, w_mod ex_resets ex_mod = Some a /\ r_mod a = Some m /\ w_mod ex_resets m = Some a /\ m <> ex_mod.
Proof.
  destruct (C57_modules_partial ex_resets ex_mod ex_mod_ok) as (a & E & _). destruct (C59_modules_partial ex_resets ex_mod a ex_mod_st E) as (m & R & W). exists a, m. do 3 (split; [assumption|]).
  cbn in E. injection E as <-. cbn in R. injection R as <-. discriminate.
Qed.
Print Assumptions C57_expressions_partial. Print Assumptions C57_statements_partial. Print Assumptions C57_modules_partial. Print Assumptions C57_always_delay_refuted. Print Assumptions C57_zero_delay_refuted.
Print Assumptions C57_assign_delay_refuted. Print Assumptions C57_unconnected_refuted. Print Assumptions C57_output_sign_refuted. Print Assumptions C57_generate_reg_refuted.
Print Assumptions C58_expressions_partial. Print Assumptions C58_statements_partial. Print Assumptions C58_modules_partial. Print Assumptions C58_statements_back_partial. Print Assumptions C58_modules_back_partial.
Print Assumptions C58_initial_nonblocking_refuted. Print Assumptions C58_generate_elif_refuted. Print Assumptions C58_unreadable_refuted. Print Assumptions C58_unconnected_refuted. Print Assumptions C58_ascending_refuted.
Print Assumptions C59_expressions_partial. Print Assumptions C59_statements_partial. Print Assumptions C59_modules_partial. Print Assumptions C59_signed_refuted. Print Assumptions C59_wait_refuted.
