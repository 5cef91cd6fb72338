(** C28, C29: scheduled stream pipelines. *)
From Verif Require Import Base Stream_Model Stream_Spec Stream_Proofs.

Lemma F2_nth {A B} (R : A -> B -> Prop) l l' j a b : Forall2 R l l' -> nth_error l j = Some a -> nth_error l' j = Some b -> R a b.
Proof. intros F. revert j. induction F as [|x y lx ly H F IH]; intros [|j] HA HB; try discriminate; cbn in *; [congruence|eauto]. Qed.

(** Every graph a user can build is scheduled without error, and when an element enters together with
    [length xs] earlier ones, each output carries the value of its expression for the element that
    entered [m] enabled cycles ago.  Enable may drop at any time (a disabled cycle leaves no trace in
    [xs]).  Accumulators need the stream to have an ivalid signal. *)
Theorem C28_pipeline :
  forall g outs hv, user_graph g -> Forall (fun n => n < length g) outs ->
    (hv = true \/ forall n d, get g n = Some d -> is_acc (n_kind d) = false) ->
    exists h m rs, build g outs = Some (h, m, rs) /\ length rs = length outs /\
      forall par xs s x v, exec h hv par m xs s -> wires_ok h par x s v ->
        forall j n r k y, nth_error outs j = Some n -> nth_error rs j = Some r ->
          k + m = length xs -> den g par (fun t => nth t xs x) n k y -> v r = y.
Proof.
  intros g outs hv UG F HV. destruct (build_ok g UG outs F) as (h & m & rs & B & I & D & E). exists h, m, rs. split; [exact B|].
  split; [symmetry; clear - D; induction D; cbn; congruence|]. intros par xs s x v EX W j n r k y Hn Hr Hk Hd.
  destruct (exec_trace h m hv par xs s EX x v W) as (rg & vs & TO & Rl & Vl). rewrite <- Vl.
  destruct (F2_nth _ _ _ _ _ _ D Hn Hr) as (DD & AS).
  assert (MS : forall n d, get h n = Some d -> is_acc (n_kind d) = true -> forall st, n_start d = Some st -> st <= m).
  { intros q d G A st St. destruct (proj2 I q d G) as [(d0 & G0 & U)|(_ & Kd & _)]; [|rewrite Kd in A; discriminate].
    pose proof (get_some_lt _ _ _ G0) as Lq. destruct U as (K & T & _ & _ & _ & EE). destruct (n_end d) as [e|] eqn:En; [|destruct EE as (_ & EE & _); congruence].
    assert (Le : e <= m) by (apply (E q e Lq); unfold end_of; rewrite G; exact En). destruct EE as (_ & EE).
    destruct (n_kind d); try discriminate. destruct EE as (s' & -> & _ & S'). specialize (S' eq_refl). rewrite St in S'. inversion S'. lia. }
  rewrite <- Hk in *.
  apply (carries_at g h I (k + m) vs r m k y); [|exact AS|lia].
  apply (carries_delay g UG h m hv par I (k + m) _ rg vs TO n r k y DD).
  exact (den_carries g UG h m hv par I (k + m) _ rg vs TO HV MS n k y Hd).
Qed.
Print Assumptions C28_pipeline.

(** All operands of an operator are at the same stage (constants and parameters are at every stage). *)
Theorem C28_operands_aligned :
  forall g outs h m rs, user_graph g -> Forall (fun n => n < length g) outs -> build g outs = Some (h, m, rs) ->
    forall n d e a, get h n = Some d -> n_end d = Some e -> (forall i, n_kind d <> KVar i) -> In a (n_args d) ->
      exists da, get h (fst a) = Some da /\ (is_const (n_kind da) = true \/ n_end da = Some (e - n_lat d)).
Proof.
  intros g outs h m rs UG F B n d e a G E NV Ha. destruct (build_ok g UG outs F) as (h' & m' & rs' & B' & I & _). rewrite B in B'. inversion B'; subst h' m' rs'.
  destruct (proj2 I n d G) as [(d0 & G0 & U)|(_ & _ & T & p & al & i & A & En & Ep)].
  - destruct U as (_ & _ & _ & _ & _ & EE). rewrite E in EE. destruct EE as (_ & EE).
    assert (Q : exists s, e = s + n_lat d /\ Forall2 (fed h s) (n_args d0) (n_args d)).
    { destruct (n_kind d); try (destruct EE as (s & E1 & E2 & _); exists s; auto; fail). exfalso. exact (NV _ eq_refl). }
    destruct Q as (s & -> & FF). replace (s + n_lat d - n_lat d) with s by lia. clear - FF Ha.
    induction FF as [|x y lx ly (_ & H) FF IH]; [destruct Ha|]. destruct Ha as [->|Ha]; [|exact (IH Ha)]. destruct H as (da & Ga & [H|H]); exists da; auto.
  - rewrite A in Ha. destruct Ha as [<-|[]]. rewrite En in E. inversion E; subst e. rewrite T. replace (S i - 1) with i by lia.
    unfold end_of in Ep. cbn [fst]. destruct (get h p) as [dp|]; [|discriminate]. exists dp. auto.
Qed.
Print Assumptions C28_operands_aligned.

(** The combinational part can always be evaluated, so executions exist from every state. *)
Theorem C28_wires_solvable :
  forall g outs h m rs par x s, user_graph g -> Forall (fun n => n < length g) outs -> build g outs = Some (h, m, rs) ->
    exists v, wires_ok h par x s v.
Proof.
  intros g outs h m rs par x s UG F B. destruct (build_ok g UG outs F) as (h' & m' & rs' & B' & I & _). rewrite B in B'. inversion B'; subst h' m' rs'.
  eexists. exact (wires_solve g UG h par x s I).
Qed.
Print Assumptions C28_wires_solvable.

Theorem C29_valid :
  forall h hv par m xs s x v, exec h hv par m xs s -> wires_ok h par x s v ->
    ovalid m x s = (if length xs <? m then false else e_valid (nth (length xs - m) xs x)).
Proof.
  intros h hv par m xs s x v EX W. destruct (exec_trace h m hv par xs s EX x v W) as (rs & vs & TO & Rl & Vl).
  rewrite <- Rl. unfold ovalid. pose proof (valid_chain h m hv par (length xs) (fun t => nth t xs x) rs vs TO m (le_n m) (length xs) (le_n _)) as H.
  cbv beta in H. rewrite (nth_overflow xs x (le_n (length xs))) in H. exact H.
Qed.
Print Assumptions C29_valid.

(** * Examples *)
Definition f_add (l : list Z) : Z := match l with [a; b] => a + b | _ => 0 end.
Definition f_mul (l : list Z) : Z := match l with [a; b] => a * b | _ => 0 end.
Definition acc_add : kind := KAcc [0%Z] (fun s a => match s, a with [s], [a] => [(s + a)%Z] | _, _ => s end) (fun s => hd 0%Z s).
Definition op f lat l := fresh (KOp f) lat (map (fun a => (a, false)) l) [].
(** z = acc(x * y + x.prev) and w = y + 5 *)
Definition ex_g : heap :=
  [ fresh (KVar 0) 0 [] []; fresh (KVar 1) 0 [] []; op f_mul 3 [0; 1];
    fresh KPrev 0 [(0, false)] []; op f_add 1 [2; 3];
    fresh acc_add 1 [(4, false)] [];
    fresh (KConst 5) 0 [] []; op f_add 1 [1; 6] ].
Definition ex_outs := [5; 7].
Lemma ex_user : user_graph ex_g.
Proof.
  intros n d G. unfold get in G.
  do 8 (destruct n as [|n]; [cbn in G; inversion G; subst d; clear G; repeat split; cbn; try lia; try reflexivity;
    repeat constructor; cbn; try lia; intros H; discriminate H|]).
  cbn in G. destruct n; discriminate.
Qed.
(** depth 5: delays for y + 5 (four), for prev x (three) *)
Example ex_build : match build ex_g ex_outs with Some (h, m, rs) => (length h, m, rs) | None => (0, 0, []) end = (15, 5, [5; 14]).
Proof. vm_compute. reflexivity. Qed.

Definition ex_h : heap := match build ex_g ex_outs with Some (h, _, _) => h | None => [] end.
(** [run h hv m fuel]: the hardware driven by (enable, element) pairs; the list of accepted elements *)
Fixpoint run (h : heap) (hv : bool) (fuel : nat) (l : list (bool * elem)) (s : regs) : regs :=
  match l with
  | [] => s
  | (en, x) :: r => run h hv fuel r (tick h hv en x (sig h (fun _ => 0%Z) x s fuel) s)
  end.
Fixpoint accepted (l : list (bool * elem)) : list elem :=
  match l with [] => [] | (en, x) :: r => if en then x :: accepted r else accepted r end.
Definition el (x y : Z) (va : bool) : elem := mkElem (fun i => match i with O => x | _ => y end) va.
Definition ex_in : list (bool * elem) :=
  [(true, el 2 3 true); (false, el 9 9 true); (true, el 4 5 true); (true, el 100 100 false); (true, el 6 7 true);
   (true, el 1 1 false); (false, el 0 0 false); (true, el 1 1 false); (true, el 0 0 false); (true, el 0 0 false)].
Definition ex_at (k : nat) (n : nat) : Z :=
  let s := run ex_h true 10 (firstn k ex_in) (init_regs ex_h 5) in sig ex_h (fun _ => 0%Z) (snd (nth k ex_in (true, el 0 0 false))) s 10 n.
(** after 6 enabled cycles (8 cycles) element 1 = (4,5) is at the output: 0 + 6 + (20 + 2) and 5 + 5;
    element 2 is invalid and not summed *)
Example ex_values : (length (accepted (firstn 8 ex_in)), ex_at 8 5, ex_at 8 14) = (6, (6 + 0 + (20 + 2))%Z, 10%Z) /\
  ex_at 9 5 = 28%Z /\ ex_at 9 14 = 105%Z /\ ex_at 10 5 = (28 + 42 + 100)%Z.
Proof. vm_compute. repeat split. Qed.
(** the hypotheses of [C28_pipeline] are met by this run: the element-wise meaning of [z] for element 1 *)
Example ex_den : forall par x, den ex_g par (fun t => nth t (accepted (firstn 8 ex_in)) x) 7 1 10%Z.
Proof.
  intros par x. apply (den_op ex_g par _ 7 (op f_add 1 [1; 6]) f_add 1 [5; 5]%Z); [reflexivity|reflexivity|].
  constructor; [|constructor; [|constructor]].
  - exact (den_var ex_g par (fun t => nth t (accepted (firstn 8 ex_in)) x) 1 (fresh (KVar 1) 0 [] []) 1 1 eq_refl eq_refl).
  - exact (den_const ex_g par _ 6 (fresh (KConst 5) 0 [] []) 5 1 eq_refl eq_refl).
Qed.

(** ** Where it fails *)
(** An accumulator reached first through a wrapping variable gets the wrong start stage and looks at
    the valid bit of the stage after it: it drops the first valid element and takes one too many. *)
Definition weak_user (g : heap) : Prop := forall n d, get g n = Some d ->
  Forall (fun a => fst a < n) (n_args d ++ n_deps d) /\ n_start d = None /\ n_end d = None /\ n_delayed d = [] /\ is_delay (n_kind d) = false /\
  match n_kind d with KPrev => n_lat d = 0 /\ length (n_args d) = 1 | KAcc _ _ _ => n_lat d = 1 | _ => True end.
Definition al_g (wrapped : bool) : heap :=
  [ fresh (KVar 0) 0 [] []; fresh acc_add 1 [(0, false)] []; fresh (KOp (fun l => hd 0%Z l)) 1 [(1, wrapped)] [] ].
Definition al_h (wrapped : bool) : heap := match build (al_g wrapped) [2] with Some (h, _, _) => h | None => [] end.
Definition al_in : list elem := [el 5 0 true; el 7 0 false].
Definition al_regs (w hv : bool) : regs := run (al_h w) hv 5 (map (pair true) al_in) (init_regs (al_h w) 2).
Example al_stages : map (fun n => match get (al_h false) n with Some d => n_start d | None => None end) [0; 1; 2] = [Some 0; Some 0; Some 1] /\
                    map (fun n => match get (al_h true) n with Some d => n_start d | None => None end) [0; 1; 2] = [Some 0; Some 1; Some 1].
Proof. vm_compute. split; reflexivity. Qed.

Lemma al_wires w x s : wires_ok (al_h w) (fun _ => 0%Z) x s (sig (al_h w) (fun _ => 0%Z) x s 5).
Proof. intros n d G. destruct w; do 3 (destruct n as [|n]; [vm_compute in G; inversion G; subst d; reflexivity|]); destruct n; discriminate G. Qed.
Lemma exec_run h hv m fuel : (forall x s, wires_ok h (fun _ => 0%Z) x s (sig h (fun _ => 0%Z) x s fuel)) ->
  forall l xs s, exec h hv (fun _ => 0%Z) m xs s -> exec h hv (fun _ => 0%Z) m (xs ++ l) (run h hv fuel (map (pair true) l) s).
Proof.
  intros W. induction l as [|x l IH]; intros xs s E; [rewrite app_nil_r; exact E|]. cbn [map run].
  replace (xs ++ x :: l) with ((xs ++ [x]) ++ l) by (rewrite <- app_assoc; reflexivity). apply IH.
  exact (exec_tick h hv (fun _ => 0%Z) m true x _ xs s E (W x s)).
Qed.
Lemma al_den w par x : den (al_g w) par (fun t => nth t al_in x) 2 0 5%Z.
Proof.
  apply (den_op (al_g w) par _ 2 (fresh (KOp (fun l => hd 0%Z l)) 1 [(1, w)] []) (fun l => hd 0%Z l) 0 [5%Z]); [reflexivity|reflexivity|].
  constructor; [|constructor]. cbn [fst].
  apply (den_acc (al_g w) par _ 1 (fresh acc_add 1 [(0, false)] []) [0%Z] (fun s a => match s, a with [s], [a] => [(s + a)%Z] | _, _ => s end) (fun s => hd 0%Z s) 0 [5%Z]); [reflexivity|reflexivity|].
  apply (state_valid (al_g w) par (fun t => nth t al_in x) 1 (fresh acc_add 1 [(0, false)] []) [0%Z] (fun s a => match s, a with [s], [a] => [(s + a)%Z] | _, _ => s end) (fun s => hd 0%Z s) 0 [0%Z] [5%Z]);
    [reflexivity|reflexivity| |reflexivity|].
  - eapply state_0; [reflexivity|reflexivity].
  - constructor; [|constructor]. exact (den_var (al_g w) par (fun t => nth t al_in x) 0 (fresh (KVar 0) 0 [] []) 0 0 eq_refl eq_refl).
Qed.
Theorem C28_wrapped_accumulator_refuted :
  ~ (forall g outs h m rs par xs s x v, weak_user g -> Forall (fun n => n < length g) outs -> build g outs = Some (h, m, rs) ->
       exec h true par m xs s -> wires_ok h par x s v ->
       forall j n r k y, nth_error outs j = Some n -> nth_error rs j = Some r -> k + m = length xs ->
         den g par (fun t => nth t xs x) n k y -> v r = y).
Proof.
  intros H.
  specialize (H (al_g true) [2] (al_h true) 2 [2] (fun _ => 0%Z) (al_in) (run (al_h true) true 5 (map (pair true) al_in) (init_regs (al_h true) 2)) (el 0 0 false)
    (sig (al_h true) (fun _ => 0%Z) (el 0 0 false) (run (al_h true) true 5 (map (pair true) al_in) (init_regs (al_h true) 2)) 5)).
  assert (v7 : 0%Z = 5%Z); [|discriminate].
  rewrite <- (H ltac:(
    intros n d G; do 3 (destruct n as [|n]; [vm_compute in G; inversion G; subst d; clear G; repeat split; cbn; repeat constructor; cbn; lia|]); destruct n; discriminate G)
    ltac:(repeat constructor) ltac:(vm_compute; reflexivity)
    ltac:(exact (exec_run (al_h true) true 2 5 (al_wires true) (al_in) [] _ (exec_reset _ _ _ _))) (al_wires true _ _) 0 2 2 0 5%Z eq_refl eq_refl eq_refl (al_den true _ _)).
  vm_compute. reflexivity.
Qed.
Print Assumptions C28_wrapped_accumulator_refuted.

(** Without ivalid an accumulator also takes what is in the pipeline before the first element:
    here x + 1 + 1 with x = 5 in every cycle; the sum for the first element is 8, not 7. *)
Definition nv_g : heap :=
  [ fresh (KVar 0) 0 [] []; fresh (KConst 1) 0 [] []; op f_add 1 [0; 1]; op f_add 1 [2; 1]; fresh acc_add 1 [(3, false)] [] ].
Definition nv_h : heap := match build nv_g [4] with Some (h, _, _) => h | None => [] end.
Definition nv_in : list elem := repeat (el 5 0 true) 3.
Definition nv_regs := run nv_h false 6 (map (pair true) nv_in) (init_regs nv_h 3).
Lemma nv_wires x s : wires_ok nv_h (fun _ => 0%Z) x s (sig nv_h (fun _ => 0%Z) x s 6).
Proof. intros n d G. do 5 (destruct n as [|n]; [vm_compute in G; inversion G; subst d; reflexivity|]). destruct n; discriminate G. Qed.
Lemma nv_den par x : den nv_g par (fun t => nth t nv_in x) 4 0 7%Z.
Proof.
  apply (den_acc nv_g par _ 4 (fresh acc_add 1 [(3, false)] []) [0%Z] (fun s a => match s, a with [s], [a] => [(s + a)%Z] | _, _ => s end) (fun s => hd 0%Z s) 0 [7%Z]); [reflexivity|reflexivity|].
  apply (state_valid nv_g par (fun t => nth t nv_in x) 4 (fresh acc_add 1 [(3, false)] []) [0%Z] (fun s a => match s, a with [s], [a] => [(s + a)%Z] | _, _ => s end) (fun s => hd 0%Z s) 0 [0%Z] [7%Z]);
    [reflexivity|reflexivity| |reflexivity|].
  - eapply state_0; [reflexivity|reflexivity].
  - constructor; [|constructor]. apply (den_op nv_g par _ 3 (op f_add 1 [2; 1]) f_add 0 [6; 1]%Z); [reflexivity|reflexivity|].
    constructor; [|constructor; [|constructor]].
    + apply (den_op nv_g par _ 2 (op f_add 1 [0; 1]) f_add 0 [5; 1]%Z); [reflexivity|reflexivity|]. constructor; [|constructor; [|constructor]].
      * exact (den_var nv_g par (fun t => nth t nv_in x) 0 (fresh (KVar 0) 0 [] []) 0 0 eq_refl eq_refl).
      * exact (den_const nv_g par _ 1 (fresh (KConst 1) 0 [] []) 1 0 eq_refl eq_refl).
    + exact (den_const nv_g par _ 1 (fresh (KConst 1) 0 [] []) 1 0 eq_refl eq_refl).
Qed.
Theorem C28_no_valid_refuted :
  ~ (forall g outs h m rs par xs s x v, user_graph g -> Forall (fun n => n < length g) outs -> build g outs = Some (h, m, rs) ->
       exec h false par m xs s -> wires_ok h par x s v ->
       forall j n r k y, nth_error outs j = Some n -> nth_error rs j = Some r -> k + m = length xs ->
         den g par (fun t => nth t xs x) n k y -> v r = y).
Proof.
  intros H.
  specialize (H nv_g [4] nv_h 3 [4] (fun _ => 0%Z) nv_in nv_regs (el 5 0 true) (sig nv_h (fun _ => 0%Z) (el 5 0 true) nv_regs 6)).
  assert (v7 : 8%Z = 7%Z); [|discriminate].
  rewrite <- (H ltac:(
    intros n d G; do 5 (destruct n as [|n]; [vm_compute in G; inversion G; subst d; clear G; repeat split; cbn; repeat constructor; cbn; try lia; intros X; discriminate X|]); destruct n; discriminate G)
    ltac:(repeat constructor) ltac:(vm_compute; reflexivity)
    ltac:(exact (exec_run nv_h false 3 6 nv_wires nv_in [] _ (exec_reset _ _ _ _))) (nv_wires _ _) 0 4 4 0 7%Z eq_refl eq_refl eq_refl (nv_den _ _)).
  vm_compute. reflexivity.
Qed.
Print Assumptions C28_no_valid_refuted.
