(** C39: resolving parameters. *)
From Verif Require Import Base Bits Vx_Model Vx_Sem Vx_Spec Vx_Proofs Res_Model Res_Spec Res_Proofs.
Open Scope Z_scope.

(** If the table is completed, values given from outside are kept and every other parameter has the
    value of its expression in the final table. *)
Theorem C39_table : forall pw ps given d, NoDup (map fst ps) -> update_const_dict pw ps given = Done d ->
  (forall x z, given x = Some z -> d x = Some z) /\
  (forall x z, d x = Some z -> given x = Some z \/ In x (map fst ps)) /\
  forall n e, In (n, e) ps -> exists z, cvisit pw d e = Known z /\ (given n = None -> d n = Some z).
Proof.
  intros pw ps given d ND U. pose proof (update_ok pw ps given ND) as T. rewrite U in T. destruct T as [_ _ A3 _ A5 A6].
  split; [exact A3|]. split.
  - intros x z D. destruct (A5 x ltac:(congruence)) as [G|G].
    + destruct (given x) eqn:Gx; [|congruence]. rewrite (A3 _ _ Gx) in D. auto.
    + right. destruct G as [x e I _ _]. apply in_map_iff. exists (x, e). auto.
  - intros n e I. destruct (A6 n e I) as [[]|(_ & z & C & D)]. eauto.
Qed.
(** An error is reported exactly if a parameter depends on itself or on an undefined name (or uses
    [$signed], which is never evaluated); the only other outcome is an exception of an operator. *)
Theorem C39_error : forall pw ps given, NoDup (map fst ps) ->
  match update_const_dict pw ps given with
  | Done _ => ~ exists n e, In (n, e) ps /\
      (~ plain e \/ (exists x, depends ps given n x /\ ~ In x (map fst ps)) \/ depends ps given n n)
  | Unresolved _ _ => exists n e, In (n, e) ps /\
      (~ plain e \/ (exists x, depends ps given n x /\ ~ In x (map fst ps)) \/ depends ps given n n)
  | Failed => exists n e d, In (n, e) ps /\ cvisit pw d e = Raised
  end.
Proof.
  intros pw ps given ND. pose proof (update_ok pw ps given ND) as T. destruct (update_const_dict pw ps given) as [d|l d|].
  - intros (n & e & I & H). apply (reason_stuck ps given ND n e I H). destruct (ti_done _ _ _ _ _ T n e I) as [[]|(R & _)]. exact R.
  - destruct T as (NE & T & F). exact (stuck_reason pw ps given l d NE T F).
  - exact T.
Qed.
(** The values do not depend on the order of the declarations. *)
Theorem C39_order : forall pw ps ps' given d d', NoDup (map fst ps) -> NoDup (map fst ps') -> (forall p, In p ps <-> In p ps') ->
  update_const_dict pw ps given = Done d -> update_const_dict pw ps' given = Done d' -> forall x, d x = d' x.
Proof. intros. eapply (order_ok pw ps ps'); eassumption. Qed.
(** The value of a parameter is the value of its expression in Verilog, when all constants are
    nonnegative 32-bit numbers and no operation overflows. *)
Theorem C39_value : forall dw ds pw d v junk e z W S, cvisit pw d e = Known z -> small z ->
  keep dw ds pw d false e -> (forall x y, d x = Some y -> v x = y mod 2 ^ 32) ->
  swid (mkEnv dw ds v junk) e = 32 /\ (32 <= W -> ev (mkEnv dw ds v junk) W S e = z mod 2 ^ W).
Proof.
  intros dw ds pw d v junk e z W S C SM K V. apply cvisit_replace in C.
  destruct (keep_ok dw ds junk pw d v v V e false (XPy z) K C ltac:(auto)) as (HW & HS & H).
  split; [exact HW|]. intros L. rewrite H by (rewrite HW; exact L). apply small_ev, SM.
Qed.
(** Replacing parameters in an expression keeps its width, its sign and its value in every context
    (conditions: whether it is zero). *)
Theorem C39_replace_partial : forall dw ds pw d v junk e e', replace pw d e = Some e' ->
  (forall x z, d x = Some z -> v x = z mod 2 ^ 32) ->
  let E := mkEnv dw ds v junk in
  (keep dw ds pw d false e -> swid E e' = swid E e /\ ssig E e' = ssig E e /\ forall W S, swid E e <= W -> ev E W S e' = ev E W S e) /\
  (keep dw ds pw d true e -> truth E e' = truth E e).
Proof.
  intros dw ds pw d v junk e e' R V E. split; intros K.
  - destruct (keep_ok dw ds junk pw d v v V e false e' K R ltac:(auto)) as (HW & HS & H). split; [auto|]. split; [auto|].
    intros W S L. symmetry. apply H, L.
  - symmetry. exact (keep_ok dw ds junk pw d v v V e true e' K R ltac:(auto)).
Qed.
(** Statements with constant loops have the same effect after unrolling, but for the loop variables. *)
Theorem C39_statements_partial : forall dw ds junk pw lv fuel d l l' s, fines dw ds pw lv d l ->
  resolve_stmts pw fuel d l = Some l' -> Forall loopless l' -> tabled d s ->
  exists t t', run dw ds junk l s t /\ run dw ds junk l' s t' /\ same lv t t' /\
  (forall u, run dw ds junk l s u -> u = t) /\ (forall u, run dw ds junk l' s u -> u = t').
Proof.
  intros dw ds junk pw lv fuel d l l' s FI R LL T.
  destruct (proj1 (proj2 (stmts_ok dw ds junk pw lv fuel)) d l FI l' s s R LL T (same_refl lv s)) as (t & t' & A & B & C & _).
  exists t, t'. split; [exact A|]. split; [exact B|]. split; [exact C|]. split; intros u U; eapply (proj1 (run_det dw ds junk)); eassumption.
Qed.
(** An always block keeps the loops directly in it, with their heads replaced, and its effect. *)
Theorem C39_always_partial : forall dw ds junk pw lv fuel d l l' l'' s, fines dw ds pw lv d l -> (forall x, d x <> None -> lv x = false) ->
  resolve_always pw fuel d l = Some l' -> resolve_stmts pw fuel d l = Some l'' -> Forall loopless l'' -> tabled d s ->
  exists t t', run dw ds junk l s t /\ run dw ds junk l' s t' /\ same lv t t'.
Proof.
  intros dw ds junk pw lv fuel d l l' l'' s FI DL R R2 LL T.
  destruct (always_ok dw ds junk pw lv fuel d l FI DL l' l'' s s R R2 LL T (same_refl lv s)) as (t & t' & A & B & C & _). eauto.
Qed.

(** ** Where the meaning changes *)
(** a sized constant becomes 32 bits wide: [{x, 1'd1}] becomes [{x, 1}] *)
Theorem C39_width_refuted : exists dw ds pw v e e', replace pw (fun _ => None) e = Some e' /\
  (let E := mkEnv dw ds v 0 in assigned E 9 e <> assigned E 9 e').
Proof.
  exists (fun _ => 8), (fun _ => false), (fun _ => 8), (fun _ => 7), (XCat [XVar 0; XInt 1 (Some 1) None false]), (XCat [XVar 0; XPy 1]).
  split; [reflexivity|]. vm_compute. discriminate.
Qed.
(** a negative parameter in an unsigned sum of more than 32 bits: [x + P] becomes [x + -1] *)
Theorem C39_negative_refuted : exists dw ds pw d v e e', replace pw d e = Some e' /\ (forall x z, d x = Some z -> v x = z mod 2 ^ 32) /\
  dw 1%nat = 32 /\ ds 1%nat = true /\ (let E := mkEnv dw ds v 0 in assigned E 40 e <> assigned E 40 e').
Proof.
  exists (fun x => if Nat.eqb x 1 then 32 else 40), (fun x => Nat.eqb x 1), (fun x => if Nat.eqb x 1 then 32 else 40),
    (fun x => if Nat.eqb x 1 then Some (-1) else None), (fun x => if Nat.eqb x 1 then 2 ^ 32 - 1 else 5),
    (XBin BPlus (XVar 0) (XVar 1)), (XBin BPlus (XVar 0) (XPy (-1))).
  split; [reflexivity|]. split; [|split; [reflexivity|split; [reflexivity|vm_compute; discriminate]]].
  intros x z. destruct (Nat.eqb x 1) eqn:E; [|discriminate]. intros H. injection H as <-. reflexivity.
Qed.
(** a loop with a bound that is not constant: [for (i = 0; i < n; i = i + 1)] becomes
    [for (i = 0; 0 < n; i = i + 1)], which never ends *)
Lemma stuck_loop dw ds junk i post body s t : (forall a b, run dw ds junk body a b -> cur b 1%nat = cur a 1%nat) -> i <> 1%nat -> dw 1%nat = 8 -> ds 1%nat = false ->
  cur s 1%nat = 3 -> ~ loop dw ds junk i (XBin BLt (XPy 0) (XVar 1)) post body s t.
Proof.
  intros HB NI DW DS C H. remember (XBin BLt (XPy 0) (XVar 1)) as c eqn:EC.
  induction H as [i c post body s TR|i c post body s s1 s' TR R L IH]; subst c.
  - unfold truth, self, env in TR. cbn [ev swid ssig Vx_Sem.dw Vx_Sem.ds Vx_Sem.val] in TR. rewrite DW, DS, C in TR. vm_compute in TR. discriminate.
  - apply IH; auto. cbn [set cur]. unfold upd. destruct (Nat.eqb_spec 1 i); [congruence|]. rewrite (HB _ _ R). exact C.
Qed.
Theorem C39_loop_refuted : exists dw ds pw s l l' t, resolve_stmts pw 100 (fun _ => None) l = Some l' /\
  run dw ds 0 l s t /\ forall u, ~ run dw ds 0 l' s u.
Proof.
  exists (fun x => if Nat.eqb x 0 then 32 else 8), (fun x => Nat.eqb x 0), (fun x => if Nat.eqb x 0 then 32 else 8),
    (mkStore (fun _ => 3) (fun _ => 3)), [RFor 0 (XPy 0) (XBin BLt (XVar 0) (XVar 1)) (XBin BPlus (XVar 0) (XPy 1)) [RSub true 2 (XVar 0)]],
    [RFor 0 (XPy 0) (XBin BLt (XPy 0) (XVar 1)) (XBin BPlus (XVar 0) (XPy 1)) [RSub true 2 (XVar 0)]].
  eexists. split; [reflexivity|]. split.
  - eapply run_for; [|apply run_nil]. do 3 (eapply loop_step; [reflexivity|apply run_sub, run_nil|]). apply loop_end. reflexivity.
  - intros u H. inversion H as [| | |? ? ? ? ? ? ? s1 ? L R|]; subst. revert L. apply stuck_loop; try reflexivity; try discriminate.
    intros a b RB. inversion RB as [|? ? ? ? ? ? RN| | |]; subst. inversion RN; subst. reflexivity.
Qed.

(** ** Examples *)
(** C = A * 2 declared before A = B + 1 before B = 3; an instance may override B *)
Definition ex_ps : list (nat * vx) := [(2%nat, XBin BTimes (XVar 0) (XPy 2)); (0%nat, XBin BPlus (XVar 1) (XPy 1)); (1%nat, XPy 3)].
Definition lookup (o : outcome) (x : nat) : option Z := match o with Done d => d x | _ => None end.
Example C39_table_example : NoDup (map fst ex_ps) /\
  map (lookup (update_const_dict (fun _ => 32) ex_ps (fun _ => None))) [0; 1; 2]%nat = [Some 4; Some 3; Some 8] /\
  map (lookup (update_const_dict (fun _ => 32) ex_ps (fun x => if Nat.eqb x 1 then Some 10 else None))) [0; 1; 2]%nat = [Some 11; Some 10; Some 22].
Proof. split; [|split; reflexivity]. repeat constructor; cbn; intuition congruence. Qed.
Example C39_error_example : exists l d, update_const_dict (fun _ => 32) [(0%nat, XBin BPlus (XVar 1) (XPy 1)); (1%nat, XVar 0); (2%nat, XPy 5)] (fun _ => None) = Unresolved l d /\
  map fst l = [0; 1]%nat.
Proof. eexists _, _. split; reflexivity. Qed.
(** an unrolled loop: for (i = 0; i < 2; i = i + 1) if (i == 1 && x[i]) y <= x + i + P *)
Definition ex_body : list rs :=
  [RIf (XBin BLand (XBin BEq (XVar 0) (XPy 1)) (XPtr 1 (XVar 0))) [RSub false 2 (XBin BPlus (XVar 1) (XBin BPlus (XVar 0) (XVar 3)))] []].
Definition ex_loop : rs := RFor 0 (XPy 0) (XBin BLt (XVar 0) (XPy 2)) (XBin BPlus (XVar 0) (XPy 1)) ex_body.
Definition ex_dw (x : nat) : Z := match x with 0%nat | 3%nat => 32 | _ => 8 end.
Definition ex_ds (x : nat) : bool := match x with 0%nat | 3%nat => true | _ => false end.
Definition ex_d (x : nat) : option Z := match x with 3%nat => Some 5 | _ => None end.
Definition ex_lv (x : nat) : bool := Nat.eqb x 0.
Definition ex_unrolled : rs := RSeq
  [RSeq [RIf (XBin BLand (XPy 0) (XPtr 1 (XPy 0))) [RSub false 2 (XBin BPlus (XVar 1) (XPy 5))] []];
   RSeq [RIf (XBin BLand (XPy 1) (XPtr 1 (XPy 1))) [RSub false 2 (XBin BPlus (XVar 1) (XPy 6))] []]].
Example C39_statements_example : resolve_stmts ex_dw 10 ex_d [ex_loop] = Some [ex_unrolled] /\ Forall loopless [ex_unrolled] /\
  fines ex_dw ex_ds ex_dw ex_lv ex_d [ex_loop].
Proof.
  split; [reflexivity|]. split; [repeat constructor|]. constructor; [|constructor].
  assert (SM : forall z, (-1000 <? z) && (z <? 1000) = true -> small z).
  { intros z H. apply andb_true_iff in H as [H1 H2]. apply Z.ltb_lt in H1, H2. unfold small. change (2 ^ 31) with 2147483648. lia. }
  assert (RD : forall k e, reads ex_lv (put ex_d 0 k) e).
  { intros k e x _ L. apply Nat.eqb_eq in L. subst x. discriminate. }
  assert (BK : forall k, k = 0 \/ k = 1 -> fines ex_dw ex_ds ex_dw ex_lv (put ex_d 0 k) ex_body).
  { intros k HK. constructor; [|constructor]. constructor; [split; [|apply RD]| |constructor].
    - destruct HK as [-> | ->]; (cbn; split; [|split]);
        [split; [intuition|split; [exact Logic.I|intros l r E1 E2; injection E1 as <-; injection E2 as <-; split; [apply SM; reflexivity|split; [apply SM; reflexivity|reflexivity]]]]
        |intuition
        |intros l [E|E]; [injection E as <-|discriminate E]; split; [apply SM; reflexivity|intros _ N; exfalso; apply N; reflexivity]
        |split; [intuition|split; [exact Logic.I|intros l r E1 E2; injection E1 as <-; injection E2 as <-; split; [apply SM; reflexivity|split; [apply SM; reflexivity|reflexivity]]]]
        |intuition
        |intros l [E|E]; [injection E as <-|discriminate E]; split; [apply SM; reflexivity|intros _ N; exfalso; apply N; reflexivity]].
    - constructor; [|constructor]. constructor; [split; [|apply RD]|reflexivity|reflexivity].
      destruct HK as [-> | ->]; (cbn; split; [exact Logic.I|split]);
        [split; [intuition|split; [intuition|intros l r E1 E2; injection E1 as <-; injection E2 as <-; split; [apply SM; reflexivity|split; [apply SM; reflexivity|split; [exact Logic.I|intros z E; injection E as <-; apply SM; reflexivity]]]]]
        |intros l r E; discriminate E
        |split; [intuition|split; [intuition|intros l r E1 E2; injection E1 as <-; injection E2 as <-; split; [apply SM; reflexivity|split; [apply SM; reflexivity|split; [exact Logic.I|intros z E; injection E as <-; apply SM; reflexivity]]]]]
        |intros l r E; discriminate E]. }
  assert (LK : forall k, k = 0 \/ k = 1 \/ k = 2 ->
     keep ex_dw ex_ds ex_dw (put ex_d 0 k) true (XBin BLt (XVar 0) (XPy 2)) /\ keep ex_dw ex_ds ex_dw (put ex_d 0 k) false (XBin BPlus (XVar 0) (XPy 1))).
  { intros k HK. assert (R : 0 <= k < 2147483648) by lia.
    split; cbn; (split; [intuition|split; [exact Logic.I|]]); intros l r E1 E2; injection E1 as <-; injection E2 as <-.
    - repeat split; apply SM; destruct HK as [-> |[-> | ->]]; reflexivity.
    - split; [apply SM; destruct HK as [-> |[-> | ->]]; reflexivity|]. split; [apply SM; reflexivity|]. split; [exact Logic.I|].
      intros z E. injection E as <-. apply SM. destruct HK as [-> |[-> | ->]]; reflexivity. }
  apply (fine_for _ _ _ _ _ _ _ _ _ _ 0); try reflexivity.
  - split; [exact Logic.I|]. intros x [].
  - cbn. repeat split; intros; discriminate.
  - cbn. repeat split; intros; discriminate.
  - intros c p EC EP. injection EC as <-. injection EP as <-.
    assert (ST : forall k, k = 0 \/ k = 1 \/ k = 2 -> (k <> 2 -> fine_loop ex_dw ex_ds ex_dw ex_lv ex_d 0 (XBin BLt (XVar 0) (XPy 2)) (XBin BPlus (XVar 0) (XPy 1)) ex_body (k + 1)) ->
      fine_loop ex_dw ex_ds ex_dw ex_lv ex_d 0 (XBin BLt (XVar 0) (XPy 2)) (XBin BPlus (XVar 0) (XPy 1)) ex_body k).
    { intros k HK NX. assert (N2 : (exists c, cst ex_dw (put ex_d 0 k) (XBin BLt (XVar 0) (XPy 2)) = Some c /\ c <> 0) -> k <> 2).
      { intros (c & C & NZ) ->. injection C as <-. apply NZ. reflexivity. }
      constructor.
      - change (2 ^ 31) with 2147483648. lia.
      - split; [apply LK, HK|apply RD].
      - intros c C. injection C as <-. apply SM. destruct HK as [-> |[-> | ->]]; reflexivity.
      - intros H. apply BK. specialize (N2 H). tauto.
      - intros H. split; [apply LK, HK|apply RD].
      - intros k' H C. injection C as <-. apply NX, N2, H. }
    apply ST; [auto|intros _]. apply ST; [auto|intros _]. apply ST; [auto|]. intros H. exfalso. apply H. reflexivity.
Qed.
Print Assumptions C39_table. Print Assumptions C39_error. Print Assumptions C39_order. Print Assumptions C39_value.
Print Assumptions C39_replace_partial. Print Assumptions C39_statements_partial. Print Assumptions C39_always_partial.
Print Assumptions C39_width_refuted. Print Assumptions C39_negative_refuted. Print Assumptions C39_loop_refuted.
