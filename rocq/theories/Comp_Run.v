(** From the compiler's correctness to statements about whole runs of a thread. *)
From Verif Require Import Base Vlog Seq_Model Fsm_Model Py_Spec Py_Proofs Comp_Model Comp_Base Comp_Frag Bv_Sem Bv_Run Comp_Expr Comp_Stmt Comp_Call.
Open Scope Z_scope.

(** ** The hardware's registers: a variable is a [w]-bit signed register ([compiler.py:1132-1136]),
    the state register has 32 bits ([fsm/fsm.py:43-51]). *)
Definition hw (w : Z) (v : var) (z : Z) : Z :=
  match v with
  | User _ => (z + 2 ^ (w - 1)) mod 2 ^ w - 2 ^ (w - 1)
  | _ => z mod 2 ^ 32
  end.
Lemma hw_user (w : mode) r z : 1 <= w -> fits w z = true -> hw w (User r) z = z.
Proof.
  intros Hw H. apply fits_range in H.
  unfold hw. set (u := mw w) in *. clearbody u. assert (E : 2 ^ u = 2 * 2 ^ (u - 1)). { replace u with (1 + (u - 1)) at 1 by lia. rewrite Z.pow_add_r by lia. reflexivity. }
  rewrite Z.mod_small; lia.
Qed.
Lemma hw_state w N i : Z.of_nat N < 2 ^ 32 -> (i <= N)%nat -> hw w FState (Z.of_nat i) = Z.of_nat i.
Proof. intros HN H. unfold hw. apply Z.mod_small. lia. Qed.

(** One clock of the thread's state machine, [k] clocks. *)
Definition clocks (w : Z) (m : compiled) (k : nat) (s : env) : env := run (hw w) (m_fsm m) k s.

(** ** What Python says *)
Definition py_main (w : mode) (fns : name -> option func) (main : name) (args : list Z) (n : nat) : res outcome :=
  match fns main with
  | None => Stuck
  | Some (params, body) =>
      if Nat.eqb (length params) (length args) then exb w fns n (psets pempty params args) body else Stuck
  end.
(** the call main(args) ends with local variables [r], returning [v] *)
Definition finishes w fns main args (r : penv) (v : option Z) : Prop :=
  exists n, py_main w fns main args n = Val (ORet r v) \/ (v = None /\ py_main w fns main args n = Val (ONorm r)).
(** the call runs forever *)
Definition diverges w fns main args : Prop := forall n, py_main w fns main args n = Time.

(** every function is of the covered form *)
Definition covered (fns : name -> option func) : Prop :=
  forall f fn, fns f = Some fn -> wf_block false (snd fn) = true /\ escapess (snd fn) = false.

(** no truth value is used as a number *)
Definition kinded (fns : name -> option func) : Prop := forall f fn, fns f = Some fn -> ty_block (snd fn) = true.

(** constant folding keeps the value of an expression *)
Definition folds_soundly (opt : expr -> expr) : Prop := forall s e, eval s (opt e) = eval s e.

Section R.
  Variable w : mode.
  Hypothesis w_pos : 1 <= w.

  Lemma stays B i s : plain B -> at_ s i -> jumps_at B i = [] -> body_at B i = [] -> forall j, run (hw w) B j s = s.
  Proof.
    intros P Hs Hj Hb. assert (E : mstep (hw w) B s = s).
    { rewrite (step_code _ _ P s i Hs), Hj, Hb. reflexivity. }
    induction j; cbn [run]; [reflexivity|]. rewrite E. exact IHj.
  Qed.
  Lemma reach_run B p q k s s' : reach w (hw w) B p q k s s' -> run (hw w) B k s = s'.
  Proof. induction 1; cbn [run]; auto. Qed.

  Lemma thread_reaches opt fns d main args m s :
    folds_soundly opt -> (mtight w = true -> folds_bits w opt /\ kinded fns /\ Forall (fun z => - 2 ^ 31 < z < 2 ^ 31) args) ->
    covered fns -> compile opt fns d main args = Some m -> Z.of_nat (m_end m) < 2 ^ 32 ->
    forallb (fits w) args = true -> s FState = 0 ->
    plain (m_fsm m) /\ jumps_at (m_fsm m) (m_end m) = [] /\ body_at (m_fsm m) (m_end m) = [] /\
    (forall i, user_only (body_at (m_fsm m) i)) /\
    (forall r v, finishes w fns main args r v ->
       exists k s', reach w (hw w) (m_fsm m) 0 (m_end m) k s s' /\ at_ s' (m_end m) /\
         (forall x z, r x = Some z -> exists g, m_reg m x = Some g /\ s' (User g) = z) /\
         (forall z, v = Some z -> eval s' (cve (m_val m)) = z)) /\
    (diverges w fns main args -> forall k, clocks w m k s FState <> Z.of_nat (m_end m)).
  Proof.
    intros Ho Hb Hc E HN Hf Hs.
    assert (Hfu : forall r z, fits w z = true -> hw w (User r) z = z) by (intros; apply hw_user; assumption).
    destruct (fns main) as [[params body]|] eqn:Ef.
    2:{ unfold compile in E. destruct d; [discriminate|]. rewrite Ef in E. discriminate. }
    destruct (compile_ok opt Ho w (fun Q => conj w_pos (proj1 (Hb Q))) fns (hw w) (m_end m) Hfu (fun i => hw_state w (m_end m) i HN) Hc
                (fun Q => proj1 (proj2 (Hb Q))) d main args m params body E Ef (le_n _) Hf (fun Q => proj2 (proj2 (Hb Q))))
      as (Hl & P & Hj & Hbd & H0 & Hu & Y).
    destruct (Y s Hs) as [Y1 Y2]. clear Y.
    assert (Em : forall n, py_main w fns main args n = exb w fns n (psets pempty params args) body).
    { intros n. unfold py_main. rewrite Ef, Hl, Nat.eqb_refl. reflexivity. }
    split; [exact P|]. split; [exact Hj|]. split; [exact Hbd|]. split; [exact Hu|]. split.
    - intros r v [n Hn].
      assert (exists o, exb w fns n (psets pempty params args) body = Val o /\ oenv o = r /\
                (forall z, v = Some z -> o = ORet r (Some z))) as (o & Eo & Er & Ev).
      { rewrite Em in Hn. destruct Hn as [Hn|[-> Hn]]; eexists; (split; [exact Hn|split; [reflexivity|]]); intros z; congruence. }
      destruct (Y1 n o Eo) as (k & s' & R & A & Ag & Rv & _). exists k, s'. split; [exact R|]. split; [exact A|]. split.
      + intros x z Hx. apply Ag. rewrite Er. exact Hx.
      + intros z Hz. exact (Rv r z (Ev z Hz)).
    - intros D k Hk.
      assert (L : leaves (hw w) (m_fsm m) 0 (m_end m) k s).
      { exists k. split; [lia|]. intros i Hi. unfold at_ in Hi. unfold clocks in Hk. rewrite Hk in Hi. lia. }
      destruct (Y2 k L) as [n Hn]. apply Hn. rewrite <- Em. apply D.
  Qed.
End R.

(** Python without limits on intermediate results *)
Definition loose (w : Z) : mode := mkMode w false.
(** Python with every number inside the width Verilog computes it with *)
Definition tight (w : Z) : mode := mkMode w true.

Theorem thread_runs w opt fns d main args m s : 1 <= w ->
    folds_soundly opt -> covered fns -> compile opt fns d main args = Some m -> Z.of_nat (m_end m) < 2 ^ 32 ->
    forallb (fits (loose w)) args = true -> s FState = 0 ->
    (forall r v, finishes (loose w) fns main args r v ->
       exists k, forall j, (k <= j)%nat ->
         let s' := clocks w m j s in
         s' FState = Z.of_nat (m_end m) /\
         (forall x z, r x = Some z -> exists g, m_reg m x = Some g /\ s' (User g) = z) /\
         (forall z, v = Some z -> eval s' (cve (m_val m)) = z)) /\
    (diverges (loose w) fns main args -> forall k, clocks w m k s FState <> Z.of_nat (m_end m)).
Proof.
  intros Hw Ho Hc E HN Hf Hs.
  destruct (thread_reaches (loose w) Hw opt fns d main args m s Ho ltac:(discriminate) Hc E HN Hf Hs) as (P & Hj & Hb & _ & Y1 & Y2).
  split; [|exact Y2]. intros r v H. destruct (Y1 r v H) as (k & s' & R & A & Ag & Rv). exists k. intros j Hkj.
  assert (Es : clocks w m j s = s').
  { unfold clocks. replace j with (k + (j - k))%nat by lia. rewrite run_add.
    replace (run (hw w) (m_fsm m) k s) with s' by (symmetry; exact (reach_run (loose w) _ _ _ _ _ _ R)).
    exact (stays (loose w) _ _ _ P A Hj Hb (j - k)). }
  rewrite Es. split; [exact A|]. split; [exact Ag|exact Rv].
Qed.

(** the same with the state machine in bits *)
Theorem thread_runs_bits w opt fns d main args m s : 1 <= w ->
    folds_soundly opt -> folds_bits w opt -> covered fns -> kinded fns ->
    compile opt fns d main args = Some m -> Z.of_nat (m_end m) < 2 ^ 32 ->
    forallb (fits (tight w)) args = true -> Forall (fun z => - 2 ^ 31 < z < 2 ^ 31) args -> s FState = 0 ->
    forall r v, finishes (tight w) fns main args r v ->
       exists k, forall n j, (k <= n)%nat ->
         let s' := brun w j (m_fsm m) n s in
         s' FState = Z.of_nat (m_end m) /\
         (forall x z, r x = Some z -> exists g, m_reg m x = Some g /\ s' (User g) = z) /\
         (forall z, v = Some z -> eval s' (cve (m_val m)) = z).
Proof.
  intros Hw Ho Hfb Hc Hk E HN Hf Hl Hs r v H.
  destruct (thread_reaches (tight w) Hw opt fns d main args m s Ho (fun _ => conj Hfb (conj Hk Hl)) Hc E HN Hf Hs) as (P & Hj & Hb & Hu & Y1 & _).
  destruct (Y1 r v H) as (k & s' & R & A & Ag & Rv). exists k. intros n j Hkn.
  assert (Es : brun w j (m_fsm m) n s = s').
  { replace n with (k + (n - k))%nat by lia. change w with (mw (tight w)). rewrite brun_add.
    rewrite (reach_brun (tight w) (hw w) ltac:(reflexivity) (m_fsm m) 0 (m_end m) k s s' P ltac:(lia) Hu eq_refl R).
    apply (bstays (tight w) (hw w) ltac:(reflexivity) (m_fsm m) (m_end m)); assumption. }
  rewrite Es. split; [exact A|]. split; [exact Ag|exact Rv].
Qed.

(** ** for-range written out *)
Fixpoint bapp (b c : pblock) : pblock := match b with PNil => c | PCons s b => PCons s (bapp b c) end.
(** x = v1; body; x = v2; body; ... *)
Fixpoint written_out (x : name) (l : list Z) (body : pblock) : pblock :=
  match l with [] => PNil | v :: l => PCons (PAssign [x] (XInt v)) (bapp body (written_out x l body)) end.

Section U.
  Variable w0 : Z.
  Notation w := (loose w0).
  Variable fns : name -> option func.
  Notation ev := (ev w fns). Notation exb := (exb w fns). Notation forl := (forl w fns). Notation ex := (ex w fns).

  Lemma exb_app c : forall b n r o, exb n r (bapp b c) = Val o ->
    exists o1 n1, exb n1 r b = Val o1 /\ match o1 with ONorm r1 => exists n2, exb n2 r1 c = Val o | _ => o1 = o end.
  Proof.
    refine (pblock_mut (fun _ => True) _ _ _ _ _ _ _ _ _ _ _ _ _ _); try (intros; exact I).
    - intros n r o H. exists (ONorm r), 1%nat. split; [reflexivity|]. exists n. exact H.
    - intros s _ b IHb n r o H. cbn [bapp] in H. destruct n as [|n]; [discriminate|]. rewrite exb_S in H.
      destruct (ex n r s) as [o0| |] eqn:E0; try discriminate. cbn [rbind] in H.
      destruct o0 as [r0|r0|r0|r0 v0].
      + destruct (IHb n r0 o H) as (o1 & n1 & H1 & H2). exists o1, (S (Nat.max n n1)). split; [|exact H2].
        rewrite exb_S. rewrite (ex_mono w fns n (Nat.max n n1)) by (try lia; congruence). rewrite E0. cbn [rbind].
        rewrite (exb_mono w fns n1 (Nat.max n n1)) by (try lia; congruence). exact H1.
      + exists (OBrk r0), (S n). rewrite exb_S, E0. split; [reflexivity|congruence].
      + exists (OCont r0), (S n). rewrite exb_S, E0. split; [reflexivity|congruence].
      + exists (ORet r0 v0), (S n). rewrite exb_S, E0. split; [reflexivity|congruence].
  Qed.

  Lemma written_forl x body : escapess body = false -> forall l n r o, exb n r (written_out x l body) = Val o ->
    exists n', forl n' r x l body = Val (match o with ONorm r' => ONorm (pset r' x None) | _ => o end) /\ no_esc o.
  Proof.
    intros Hb. induction l as [|v l IH]; intros n r o H; cbn [written_out] in H.
    - destruct n; [discriminate|]. rewrite exb_S in H. inversion H. exists 1%nat. split; [reflexivity|exact I].
    - destruct n as [|n]; [discriminate|]. rewrite exb_S in H. destruct n as [|n]; [discriminate|]. rewrite ex_S in H.
      destruct n as [|n]; [discriminate|]. rewrite ev_S in H. change (room w (XInt v) v) with true in H. cbn [guard rbind] in H. unfold guard in H.
      destruct (fits w v); [|discriminate]. cbn [rbind fold_left] in H.
      destruct (exb_app _ _ _ _ _ H) as (o1 & n1 & H1 & H2).
      pose proof (proj1 (proj2 (escape_out w fns n1)) _ _ _ H1 Hb) as Ne.
      destruct o1 as [r1|r1|r1|r1 u]; cbn in Ne; try contradiction.
      + destruct H2 as [n2 H2]. destruct (IH _ _ _ H2) as (n3 & H3 & N3). exists (S (Nat.max n1 n3)). split; [|exact N3].
        rewrite forl_S. rewrite (exb_mono w fns n1 (Nat.max n1 n3)) by (try lia; congruence). rewrite H1. cbn [rbind].
        rewrite (forl_mono w fns n3 (Nat.max n1 n3)) by (try lia; congruence). exact H3.
      + subst o. exists (S n1). rewrite forl_S, H1. split; [reflexivity|exact I].
  Qed.

  (** a range loop does what the written-out assignments and bodies do *)
  Lemma for_written r x ea eb es body n0 n1 n2 a b s : ev n0 r ea = Val a -> ev n1 r eb = Val b -> ev n2 r es = Val s ->
    0 < s -> fits w a = true -> fits w (a + Z.of_nat (range_count a b s) * s) = true -> escapess body = false ->
    forall n o, exb n r (written_out x (py_range a b s) body) = Val o ->
    exists n', exb n' r (PCons (PFor x (Some ea) eb (Some es) body) PNil) =
               Val (match o with ONorm r' => ONorm (pset r' x None) | _ => o end).
  Proof.
    intros Ha Hb Hs Ps Fa Fe He n o H. destruct (written_forl x body He _ _ _ _ H) as (n3 & H3 & _).
    set (m := Nat.max (Nat.max n0 n1) (Nat.max n2 n3)).
    assert (E : ex (S m) r (PFor x (Some ea) eb (Some es) body) = Val (match o with ONorm r' => ONorm (pset r' x None) | _ => o end)).
    { rewrite ex_S. rewrite (ev_mono w fns n0 m) by (try (unfold m; lia); congruence). rewrite Ha. cbn [rbind].
      rewrite (ev_mono w fns n1 m) by (try (unfold m; lia); congruence). rewrite Hb. cbn [rbind].
      rewrite (ev_mono w fns n2 m) by (try (unfold m; lia); congruence). rewrite Hs. cbn [rbind].
      apply Z.ltb_lt in Ps. rewrite Ps, Fa, Fe. cbn [andb guard].
      rewrite (forl_mono w fns n3 m) by (try (unfold m; lia); congruence). exact H3. }
    exists (S (S m)). rewrite exb_S, E. cbn [rbind]. destruct o; reflexivity.
  Qed.
End U.

(** ** A call with its result kept *)
Fixpoint xnames (xs : list name) : pexprs := match xs with [] => XNil | x :: xs => XCons (XName x) (xnames xs) end.
(** z = f(xs); return z *)
Definition call_it (f : name) (xs : list name) (z : name) : pblock :=
  PCons (PAssign [z] (XCall f (xnames xs))) (PCons (PReturn (Some (XName z))) PNil).

Lemma psets_other y xs : forall vs r, ~ In y xs -> psets r xs vs y = r y.
Proof.
  unfold psets. induction xs as [|x xs IH]; intros vs r H; [reflexivity|]. destruct vs as [|v vs]; [reflexivity|].
  cbn [combine fold_left fst snd]. cbn in H. rewrite IH by tauto. apply pset_other. intuition.
Qed.
Lemma psets_nth xs : forall vs r, NoDup xs -> length xs = length vs ->
  forall i x v, nth_error xs i = Some x -> nth_error vs i = Some v -> psets r xs vs x = Some v.
Proof.
  induction xs as [|x0 xs IH]; intros vs r Hn Hl i x v Hx Hv; [destruct i; discriminate|].
  destruct vs as [|v0 vs]; [discriminate|]. inversion Hn; subst. injection Hl as Hl.
  change (psets r (x0 :: xs) (v0 :: vs)) with (psets (pset r x0 (Some v0)) xs vs).
  destruct i as [|i]; cbn in Hx, Hv.
  - injection Hx as <-. injection Hv as <-. rewrite psets_other by assumption. apply pset_same.
  - eapply IH; eassumption.
Qed.
Lemma evs_names w fns r : forall xs vs, length xs = length vs ->
  (forall i x v, nth_error xs i = Some x -> nth_error vs i = Some v -> r x = Some v) ->
  exists n, evs (loose w) fns n r (xnames xs) = Val vs.
Proof.
  induction xs as [|x xs IH]; intros vs Hl H.
  - destruct vs; [|discriminate]. exists 1%nat. reflexivity.
  - destruct vs as [|v vs]; [discriminate|]. injection Hl as Hl.
    destruct (IH vs Hl) as [n Hn]; [intros i y u; exact (H (S i) y u)|].
    exists (S (S n)). cbn [xnames]. rewrite evs_S, ev_S. rewrite (H 0%nat x v) by reflexivity. change (room (loose w) (XName x) v) with true. cbn [guard rbind].
    rewrite (evs_mono (loose w) fns n (S n)) by (try lia; congruence). rewrite Hn. reflexivity.
Qed.

Lemma call_it_runs w fns main f xs z args r v : fns main = Some (xs, call_it f xs z) ->
  NoDup xs -> ~ In z xs -> length xs = length args -> forallb (fits (loose w)) args = true -> fits (loose w) v = true ->
  finishes (loose w) fns f args r (Some v) ->
  finishes (loose w) fns main args (pset (psets pempty xs args) z (Some v)) (Some v).
Proof.
  intros Em Hn Hz Hl Hf Hv [n [H|[? _]]]; [|discriminate].
  unfold py_main in H. destruct (fns f) as [[params body]|] eqn:Ef; [|discriminate].
  destruct (Nat.eqb_spec (length params) (length args)) as [Hp|]; [|discriminate].
  assert (Hc : call (loose w) fns (S n) f args = Val (Some v)).
  { rewrite call_S, Ef. rewrite Hp, Nat.eqb_refl, Hf. cbn [andb guard]. rewrite H. reflexivity. }
  destruct (evs_names w fns (psets pempty xs args) xs args Hl) as [n1 H1].
  { intros i x u. apply psets_nth; assumption. }
  set (m := Nat.max (S n) n1).
  assert (He : ev (loose w) fns (S m) (psets pempty xs args) (XCall f (xnames xs)) = Val v).
  { rewrite ev_S. rewrite (evs_mono (loose w) fns n1 m) by (try (unfold m; lia); congruence). rewrite H1. cbn [rbind].
    rewrite (call_mono (loose w) fns (S n) m) by (try (unfold m; lia); congruence). rewrite Hc. reflexivity. }
  exists (S (S (S m))). left. unfold py_main. rewrite Em, Hl, Nat.eqb_refl. unfold call_it.
  rewrite exb_S, ex_S, He. cbn [rbind]. rewrite Hv. cbn [guard rbind fold_left].
  rewrite exb_S, ex_S. assert (E3 : exists k, m = S k) by (exists (pred m); unfold m; lia). destruct E3 as [k Ek]. rewrite Ek at 1.
  rewrite ev_S, pset_same. change (room (loose w) (XName z) v) with true. cbn [guard rbind]. rewrite Hv. reflexivity.
Qed.
