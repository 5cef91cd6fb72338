(** Thread properties: compiled threads run like their Python source (C01), break/continue (C02),
    calls (C03), for-range (C04).  [covered] (Py_Spec) lists the restrictions; the [_refuted]
    theorems show programs outside it for which the hardware differs from Python. *)
From Verif Require Import Base Vlog Seq_Model Fsm_Model Py_Spec Py_Proofs Comp_Model Comp_Base Bv_Sem Comp_Run.
Open Scope Z_scope.

(** C01.  Whenever main(args) finishes in Python with local variables [r] and result [v], the
    state machine, started in state 0 with arbitrary register contents, arrives in its end state
    and stays there, every variable's register holding the variable's value and the return
    register the result; whenever the source runs forever, the end state is never entered. *)
Theorem C01_thread_runs_like_python w opt fns d main args m s : 1 <= w ->
  folds_soundly opt -> covered fns -> compile opt fns d main args = Some m -> Z.of_nat (m_end m) < 2 ^ 32 ->
  forallb (fits (loose w)) args = true -> s FState = 0 ->
  (forall r v, finishes (loose w) fns main args r v ->
     exists k, forall j, (k <= j)%nat ->
       let s' := clocks w m j s in
       s' FState = Z.of_nat (m_end m) /\
       (forall x z, r x = Some z -> exists g, m_reg m x = Some g /\ s' (User g) = z) /\
       (forall z, v = Some z -> eval s' (cve (m_val m)) = z)) /\
  (diverges (loose w) fns main args -> forall k, clocks w m k s FState <> Z.of_nat (m_end m)).
Proof. exact (thread_runs w opt fns d main args m s). Qed.
Print Assumptions C01_thread_runs_like_python.

(** Concrete programs.  A function table, the start state, the observations. *)
Definition table (l : list (name * func)) (f : name) : option func :=
  match find (fun p => Nat.eqb (fst p) f) l with Some p => Some (snd p) | None => None end.
Definition all_covered (l : list (name * func)) : bool :=
  forallb (fun p => wf_block false (snd (snd p)) && negb (escapess (snd (snd p)))) l.
Lemma covered_table l : all_covered l = true -> covered (table l).
Proof.
  intros H f fn E. unfold table in E. match type of E with context [find ?q l] => destruct (find q l) as [p|] eqn:Ef; [|discriminate] end. injection E as <-.
  apply find_some in Ef. destruct Ef as [Hin _]. unfold all_covered in H. rewrite forallb_forall in H. specialize (H p Hin).
  apply andb_true_iff in H. destruct H as [H1 H2]. split; [exact H1|]. apply negb_true_iff. exact H2.
Qed.
Definition noopt (e : expr) := e.
Lemma noopt_sound : folds_soundly noopt.
Proof. intros s e. reflexivity. Qed.
Definition start : env := fun v => match v with FState => 0 | User _ => 77 | _ => 0 end.
Definition block (l : list pstmt) : pblock := fold_right PCons PNil l.
Definition args_ (l : list pexpr) : pexprs := fold_right XCons XNil l.
(** Python's result: the value returned and the values of the variables [xs] *)
Definition py (l : list (name * func)) (main : name) (args : list Z) (xs : list name) (n : nat) : res (option Z * list (option Z)) :=
  match py_main (loose 32) (table l) main args n with
  | Val (ORet r v) => Val (v, map r xs)
  | Val (ONorm r) => Val (None, map r xs)
  | Val _ | Stuck => Stuck
  | Time => Time
  end.
(** the hardware after [k] clocks: arrived?, result, variables *)
Definition thw (l : list (name * func)) (main : name) (args : list Z) (xs : list name) (k : nat)
  : option (bool * Z * list (option Z)) :=
  match compile noopt (table l) 5 main args with
  | None => None
  | Some m =>
      let s := clocks 32 m k start in
      Some (s FState =? Z.of_nat (m_end m), eval s (cve (m_val m)),
            map (fun x => match m_reg m x with Some g => Some (s (User g)) | None => None end) xs)
  end.

Arguments py l main%nat_scope args xs%nat_scope n%nat_scope. Arguments thw l main%nat_scope args xs%nat_scope k%nat_scope.
Arguments compile opt fns d%nat_scope main%nat_scope args. Arguments finishes w fns main%nat_scope args r v.
Arguments diverges w fns main%nat_scope args. Arguments py_main w fns main%nat_scope args n%nat_scope.
Arguments XName x%nat_scope. Arguments XInt z%Z_scope.
Arguments written_out x%nat_scope l body. Arguments C01_thread_runs_like_python w opt fns d%nat_scope main%nat_scope args m s.

(** gcd(48, 36) by Euclid; collatz steps of 6 with nested if; a loop forever *)
Definition p_gcd : list (name * func) :=
  [(9, ([0; 1], block [PWhile (XCmp PNe (XName 1) (XInt 0))
                         (block [PTuple [0; 1] (args_ [XName 1; XBin PMod (XName 0) (XName 1)])]);
                       PReturn (Some (XName 0))]))]%nat.
Example ex_gcd : all_covered p_gcd = true /\ py p_gcd 9 [48; 36] [0; 1]%nat 50 = Val (Some 12, [Some 12; Some 0])
  /\ thw p_gcd 9 [48; 36] [0; 1]%nat 60 = Some (true, 12, [Some 12; Some 0]).
Proof. repeat split; vm_compute; reflexivity. Qed.
Definition p_collatz : list (name * func) :=
  [(9, ([0], block [PAssign [1] (XInt 0);
                    PWhile (XCmp PNe (XName 0) (XInt 1))
                      (block [PIf (XCmp PEq (XBin PMod (XName 0) (XInt 2)) (XInt 0))
                                (block [PAug 0 PFloorDiv (XInt 2)])
                                (block [PAssign [0] (XBin PAdd (XBin PMul (XInt 3) (XName 0)) (XInt 1))]);
                              PAug 1 PAdd (XInt 1)]);
                    PReturn (Some (XName 1))]))]%nat.
Example ex_collatz : all_covered p_collatz = true /\ py p_collatz 9 [6] [0; 1]%nat 80 = Val (Some 8, [Some 1; Some 8])
  /\ thw p_collatz 9 [6] [0; 1]%nat 100 = Some (true, 8, [Some 1; Some 8]).
Proof. repeat split; vm_compute; reflexivity. Qed.
Example ex_C01_applies : exists k, forall j, (k <= j)%nat ->
  match compile noopt (table p_collatz) 5 9 [6] with
  | Some m => clocks 32 m j start FState = Z.of_nat (m_end m) /\ eval (clocks 32 m j start) (cve (m_val m)) = 8
  | None => False
  end.
Proof.
  destruct (compile noopt (table p_collatz) 5 9 [6]) as [m|] eqn:E; [|vm_compute in E; discriminate].
  assert (He : Z.of_nat (m_end m) < 2 ^ 32).
  { assert (H : match compile noopt (table p_collatz) 5 9 [6] with Some m => Z.of_nat (m_end m) <? 2 ^ 32 | None => false end = true)
      by (vm_compute; reflexivity). rewrite E in H. apply Z.ltb_lt. exact H. }
  assert (HF : exists r, finishes (loose 32) (table p_collatz) 9 [6] r (Some 8)).
  { assert (H : py p_collatz 9 [6] [] 80 = Val (Some 8, [])) by (vm_compute; reflexivity).
    unfold py in H. destruct (py_main _ _ _ _ 80) as [[r|r|r|r u]| |] eqn:Ep; try discriminate.
    exists r. exists 80%nat. left. rewrite Ep. congruence. }
  destruct HF as [r HF].
  destruct (C01_thread_runs_like_python 32 noopt _ 5 9 [6] m start ltac:(lia) noopt_sound
              (covered_table p_collatz eq_refl) E He eq_refl eq_refl) as [H _].
  destruct (H r (Some 8) HF) as [k Hk]. exists k. intros j Hj. destruct (Hk j Hj) as (A & _ & B). split; [exact A|apply B; reflexivity].
Qed.
Definition p_forever : list (name * func) :=
  [(9, ([0], block [PWhile (XCmp PGt (XName 0) (XInt 0)) (block [PAssign [0] (XInt 1)])]))]%nat.
Example ex_forever : all_covered p_forever = true /\ diverges (loose 32) (table p_forever) 9 [5].
Proof.
  split; [reflexivity|]. set (W := PWhile (XCmp PGt (XName 0) (XInt 0)) (block [PAssign [0%nat] (XInt 1)])).
  assert (H : forall n r z, 0 < z -> r 0%nat = Some z -> ex (loose 32) (table p_forever) n r W = Time).
  { induction n as [n IH] using lt_wf_ind. intros r z Hz Hr. destruct n as [|n]; [reflexivity|]. rewrite ex_S. unfold W at 1.
    destruct n as [|n]; [reflexivity|]. change (tv (loose 32) (table p_forever) (S n) r (XCmp PGt (XName 0%nat) (XInt 0)))
      with (x <- ev (loose 32) (table p_forever) n r (XCmp PGt (XName 0%nat) (XInt 0)) ;; Val (negb (x =? 0))).
    destruct n as [|n]; [reflexivity|]. rewrite ev_S. destruct n as [|n]; [reflexivity|]. rewrite !ev_S, Hr.
    repeat match goal with |- context [room ?a ?b ?c] => change (room a b c) with true end. cbn [guard rbind py_cmp].
    destruct (Z.ltb_spec 0 z); [|lia]. cbn [b2z Z.eqb negb]. cbv iota. cbn [block fold_right].
    rewrite exb_S, ex_S, ev_S. match goal with |- context [room ?a ?b ?c] => change (room a b c) with true end. cbn [guard rbind]. change (fits (loose 32) 1) with true. cbn [guard rbind fold_left].
    rewrite exb_S. cbn [rbind]. apply (IH (S (S (S n))) ltac:(lia) _ 1); [lia|reflexivity]. }
  intros n. destruct n as [|n]; [reflexivity|]. unfold py_main. cbn [table p_forever find fst snd Nat.eqb length].
  cbn [block fold_right]. rewrite exb_S. change (PWhile _ _) with W. rewrite (H n _ 5); [reflexivity|lia|reflexivity].
Qed.

(** C01 with Verilog's widths and signs.  In the theorem above expressions have integer values; here
    the state machine runs in bits (Bv_Sem.v: every operator at the width and with the sign IEEE
    1364-2005 gives it, [w]-bit signed registers, whatever [j] undefined results give).  If no truth
    value is used as a number ([kinded]) and every number of the Python run is inside the width of
    its expression ([tight]), the machine still ends with Python's values. *)
Theorem C01_thread_runs_in_bits w opt fns d main args m s : 1 <= w ->
  folds_soundly opt -> folds_bits w opt -> covered fns -> kinded fns ->
  compile opt fns d main args = Some m -> Z.of_nat (m_end m) < 2 ^ 32 ->
  forallb (fits (tight w)) args = true -> Forall (fun z => - 2 ^ 31 < z < 2 ^ 31) args -> s FState = 0 ->
  forall r v, finishes (tight w) fns main args r v ->
  exists k, forall n j, (k <= n)%nat ->
    let s' := brun w j (m_fsm m) n s in
    s' FState = Z.of_nat (m_end m) /\
    (forall x z, r x = Some z -> exists g, m_reg m x = Some g /\ s' (User g) = z) /\
    (forall z, v = Some z -> eval s' (cve (m_val m)) = z).
Proof. exact (thread_runs_bits w opt fns d main args m s). Qed.
Print Assumptions C01_thread_runs_in_bits.

Lemma noopt_bits w : folds_bits w noopt.
Proof. split; try (intros; assumption); [intros e; apply incl_refl|intros e H; split; [exact H|reflexivity]]. Qed.
Definition all_kinded (l : list (name * func)) : bool := forallb (fun p => ty_block (snd (snd p))) l.
Lemma kinded_table l : all_kinded l = true -> kinded (table l).
Proof.
  intros H f fn E. unfold table in E. match type of E with context [find ?q l] => destruct (find q l) as [p|] eqn:Ef; [|discriminate] end. injection E as <-.
  apply find_some in Ef. destruct Ef as [Hin _]. unfold all_kinded in H. rewrite forallb_forall in H. exact (H p Hin).
Qed.
(** the hardware in bits after [k] clocks, [w]-bit variables *)
Definition bhw (w : Z) (l : list (name * func)) (main : name) (args : list Z) (xs : list name) (k : nat)
  : option (bool * list (option Z)) :=
  match compile noopt (table l) 5 main args with
  | None => None
  | Some m =>
      let s := brun w (fun _ => 0) (m_fsm m) k start in
      Some (s FState =? Z.of_nat (m_end m),
            map (fun x => match m_reg m x with Some g => Some (s (User g)) | None => None end) xs)
  end.
Arguments bhw w l main%nat_scope args xs%nat_scope k%nat_scope.
(** the collatz thread with 12-bit variables (its widest number is 16) *)
Example ex_collatz_bits : all_kinded p_collatz = true /\ bhw 12 p_collatz 9 [6] [0; 1]%nat 100 = Some (true, [Some 1; Some 8]).
Proof. split; vm_compute; reflexivity. Qed.
Example ex_C01_bits_applies : exists k, forall n j, (k <= n)%nat ->
  match compile noopt (table p_collatz) 5 9 [6] with
  | Some m => brun 12 j (m_fsm m) n start FState = Z.of_nat (m_end m) /\ eval (brun 12 j (m_fsm m) n start) (cve (m_val m)) = 8
  | None => False
  end.
Proof.
  destruct (compile noopt (table p_collatz) 5 9 [6]) as [m|] eqn:E; [|vm_compute in E; discriminate].
  assert (He : Z.of_nat (m_end m) < 2 ^ 32).
  { assert (H : match compile noopt (table p_collatz) 5 9 [6] with Some m => Z.of_nat (m_end m) <? 2 ^ 32 | None => false end = true)
      by (vm_compute; reflexivity). rewrite E in H. apply Z.ltb_lt. exact H. }
  assert (HF : exists r, finishes (tight 12) (table p_collatz) 9 [6] r (Some 8)).
  { assert (H : match py_main (tight 12) (table p_collatz) 9 [6] 80 with Val (ORet r v) => v | _ => None end = Some 8) by (vm_compute; reflexivity).
    destruct (py_main _ _ _ _ 80) as [[r|r|r|r u]| |] eqn:Ep; try discriminate.
    exists r. exists 80%nat. left. rewrite Ep. congruence. }
  destruct HF as [r HF].
  destruct (C01_thread_runs_in_bits 12 noopt _ 5%nat 9%nat [6] m start ltac:(lia) noopt_sound (noopt_bits 12)
              (covered_table p_collatz eq_refl) (kinded_table p_collatz eq_refl) E He eq_refl
              ltac:(repeat constructor; lia) eq_refl r (Some 8) HF) as [k Hk].
  exists k. intros n j Hj. destruct (Hk n j Hj) as (A & _ & B). split; [exact A|apply B; reflexivity].
Qed.
(** Necessary: a comparison is unsigned in Verilog and makes the sum around it unsigned, so
      if (x < y) + x < 0: r = 1; else: r = 2
    takes the wrong branch for x = -5, y = 3; both restrictions of [covered] hold and all numbers are
    small. *)
Definition p_mix : list (name * func) :=
  [(9, ([0; 1], block [PIf (XCmp PLt (XBin PAdd (XCmp PLt (XName 0) (XName 1)) (XName 0)) (XInt 0))
                         (block [PAssign [2] (XInt 1)]) (block [PAssign [2] (XInt 2)])]))]%nat.
Theorem C01_truth_value_as_number_refuted : all_covered p_mix = true /\ all_kinded p_mix = false /\
  py p_mix 9 [-5; 3] [2]%nat 30 = Val (None, [Some 1]) /\ bhw 32 p_mix 9 [-5; 3] [2]%nat 30 = Some (true, [Some 2]).
Proof. repeat split; vm_compute; reflexivity. Qed.
(** Necessary: intermediate results are cut to the width of their expression.
      q = (x * x) // x   with x = 100 in 12-bit variables and q = 100 in Python *)
Definition p_cut : list (name * func) :=
  [(9, ([0], block [PAssign [1] (XBin PFloorDiv (XBin PMul (XName 0) (XName 0)) (XName 0))]))]%nat.
Theorem C01_intermediate_width_refuted : all_kinded p_cut = true /\
  py p_cut 9 [100] [1]%nat 30 = Val (None, [Some 100]) /\ bhw 12 p_cut 9 [100] [1]%nat 30 = Some (true, [Some 18]).
Proof. repeat split; vm_compute; reflexivity. Qed.

(** C02.  break and continue, at any depth, act as in Python (the interpreter's [OBrk]/[OCont] are
    consumed by the innermost enclosing loop) for every program in which no block has a loop after
    a statement containing a pending break or continue. *)
Theorem C02_break_continue_partial w opt fns d main args m s : 1 <= w ->
  folds_soundly opt -> covered fns -> compile opt fns d main args = Some m -> Z.of_nat (m_end m) < 2 ^ 32 ->
  forallb (fits (loose w)) args = true -> s FState = 0 ->
  forall r v, finishes (loose w) fns main args r v ->
  exists k, clocks w m k s FState = Z.of_nat (m_end m) /\
    forall x z, r x = Some z -> exists g, m_reg m x = Some g /\ clocks w m k s (User g) = z.
Proof.
  intros Hw Ho Hc E He Hf Hs r v H. destruct (thread_runs w opt fns d main args m s Hw Ho Hc E He Hf Hs) as [Y _].
  destruct (Y r v H) as [k Hk]. exists k. destruct (Hk k (le_n _)) as (A & B & _). split; assumption.
Qed.
Print Assumptions C02_break_continue_partial.

(** two nested loops, break and continue in both, after and before the inner loop's end *)
Definition p_brk : list (name * func) :=
  [(9, ([0], block [PAssign [1; 2] (XInt 0);
     PFor 3 None (XInt 10) None (block [
       PWhile (XCmp PLt (XName 1) (XInt 100)) (block [
         PAug 1 PAdd (XInt 1);
         PIf (XCmp PEq (XBin PMod (XName 1) (XInt 3)) (XInt 0)) (block [PContinue]) (block []);
         PIf (XCmp PGt (XBin PMod (XName 1) (XInt 7)) (XInt 4)) (block [PBreak]) (block []);
         PAug 2 PAdd (XInt 1)]);
       PIf (XCmp PEq (XName 3) (XInt 1)) (block [PContinue]) (block []);
       PIf (XCmp PEq (XName 3) (XInt 4)) (block [PBreak]) (block []);
       PAug 2 PAdd (XInt 100)]);
     PReturn (Some (XName 2))]))]%nat.
Example ex_brk : all_covered p_brk = true /\ py p_brk 9 [0] [1; 2]%nat 100 = Val (Some 313, [Some 26; Some 313])
  /\ thw p_brk 9 [0] [1; 2]%nat 400 = Some (true, 313, [Some 26; Some 313]).
Proof. repeat split; vm_compute; reflexivity. Qed.

(** Without the restriction the property is false: a break before a nested loop leaves the nested
    loop only ([scope.py:142-150] collects the unresolved breaks of the whole enclosing frame).
      while i < 3: i += 1; (if i == 2: break); (while j < 0: pass); j += 1 *)
Definition p_brk2 : list (name * func) :=
  [(9, ([], block [PAssign [0; 1] (XInt 0);
     PWhile (XCmp PLt (XName 0) (XInt 3)) (block [
       PAug 0 PAdd (XInt 1);
       PIf (XCmp PEq (XName 0) (XInt 2)) (block [PBreak]) (block []);
       PWhile (XCmp PLt (XName 1) (XInt 0)) (block [PPass]);
       PAug 1 PAdd (XInt 1)])]))]%nat.
Theorem C02_break_before_loop_refuted :
  py p_brk2 9 [] [0; 1]%nat 100 = Val (None, [Some 2; Some 1]) /\
  exists r, thw p_brk2 9 [] [0; 1]%nat 100 = Some (true, r, [Some 3; Some 3]).
Proof. split; [vm_compute; reflexivity|]. eexists. vm_compute. reflexivity. Qed.
(** likewise continue *)
Definition p_cont2 : list (name * func) :=
  [(9, ([], block [PAssign [0; 1] (XInt 0);
     PWhile (XCmp PLt (XName 0) (XInt 3)) (block [
       PAug 0 PAdd (XInt 1);
       PIf (XCmp PEq (XName 0) (XInt 2)) (block [PContinue]) (block []);
       PWhile (XCmp PLt (XName 1) (XInt 0)) (block [PPass]);
       PAug 1 PAdd (XInt 1)])]))]%nat.
Theorem C02_continue_before_loop_refuted :
  py p_cont2 9 [] [0; 1]%nat 100 = Val (None, [Some 3; Some 2]) /\
  exists r, thw p_cont2 9 [] [0; 1]%nat 100 = Some (true, r, [Some 3; Some 3]).
Proof. split; [vm_compute; reflexivity|]. eexists. vm_compute. reflexivity. Qed.

(** C03.  The thread  main(xs): z = f(xs); return z  ends with [z] and the result equal to what f
    returns in Python, and the caller's own variables untouched, whatever f's body is: its locals
    may have the caller's names, its returns stand anywhere, it may call further functions. *)
Theorem C03_call_returns_value w opt fns d main f xs z args m s r v : 1 <= w ->
  folds_soundly opt -> covered fns -> fns main = Some (xs, call_it f xs z) ->
  NoDup xs -> ~ In z xs -> length xs = length args ->
  compile opt fns d main args = Some m -> Z.of_nat (m_end m) < 2 ^ 32 ->
  forallb (fits (loose w)) args = true -> fits (loose w) v = true -> s FState = 0 ->
  finishes (loose w) fns f args r (Some v) ->
  exists k, let s' := clocks w m k s in
    s' FState = Z.of_nat (m_end m) /\ eval s' (cve (m_val m)) = v /\
    (exists g, m_reg m z = Some g /\ s' (User g) = v) /\
    forall i x a, nth_error xs i = Some x -> nth_error args i = Some a ->
      exists g, m_reg m x = Some g /\ s' (User g) = a.
Proof.
  intros Hw Ho Hc Em Hn Hz Hl E He Hf Hv Hs H.
  pose proof (call_it_runs w fns main f xs z args r v Em Hn Hz Hl Hf Hv H) as H'.
  destruct (thread_runs w opt fns d main args m s Hw Ho Hc E He Hf Hs) as [Y _].
  destruct (Y _ _ H') as [k Hk]. exists k. destruct (Hk k (le_n _)) as (A & B & C). split; [exact A|]. split; [apply C; reflexivity|].
  split; [apply B; apply pset_same|]. intros i x a Hx Ha. apply B. rewrite pset_other.
  - eapply psets_nth; eassumption.
  - intros ->. apply Hz. eapply nth_error_In. exact Hx.
Qed.
Print Assumptions C03_call_returns_value.

(** f(x, y): local y reused, return inside a loop inside a branch, a nested call *)
Definition p_call : list (name * func) :=
  [(9, ([0; 1], call_it 8 [0; 1] 2));
   (8, ([0; 1], block [
      PFor 2 None (XName 0) None (block [
        PIf (XCmp PEq (XBin PMul (XName 2) (XName 2)) (XName 0)) (block [PReturn (Some (XBin PAdd (XCall 7 (args_ [XName 2])) (XName 1)))])
            (block [PAssign [1] (XCall 7 (args_ [XName 1]))])]);
      PReturn (Some (XInt (-1)))]));
   (7, ([3], block [PIf (XCmp PGt (XName 3) (XInt 10)) (block [PReturn (Some (XInt 10))]) (block []);
                    PReturn (Some (XBin PAdd (XName 3) (XInt 1)))]))]%nat.
Example ex_call : all_covered p_call = true /\ py p_call 9 [9; 4] [0; 1; 2]%nat 60 = Val (Some 11, [Some 9; Some 4; Some 11])
  /\ thw p_call 9 [9; 4] [0; 1; 2]%nat 300 = Some (true, 11, [Some 9; Some 4; Some 11]).
Proof. repeat split; vm_compute; reflexivity. Qed.
Example ex_call_none : py p_call 9 [8; 4] [0; 1; 2]%nat 60 = Val (Some (-1), [Some 8; Some 4; Some (-1)])
  /\ thw p_call 9 [8; 4] [0; 1; 2]%nat 300 = Some (true, -1, [Some 8; Some 4; Some (-1)]).
Proof. repeat split; vm_compute; reflexivity. Qed.

(** A call in a while test is inlined once, before the loop ([compiler.py:257-293] visits the test
    outside the loop's states): the test is never evaluated again.
      while g(i): i += 1; (if i == 5: break)     with g(x) = x < 2 *)
Definition p_wcall : list (name * func) :=
  [(9, ([], block [PAssign [0] (XInt 0);
      PWhile (XCall 8 (args_ [XName 0])) (block [PAug 0 PAdd (XInt 1);
         PIf (XCmp PEq (XName 0) (XInt 5)) (block [PBreak]) (block [])]);
      PReturn (Some (XName 0))]));
   (8, ([0], block [PReturn (Some (XCmp PLt (XName 0) (XInt 2)))]))]%nat.
Theorem C03_call_in_while_test_refuted :
  py p_wcall 9 [] [0]%nat 100 = Val (Some 2, [Some 2]) /\
  thw p_wcall 9 [] [0]%nat 100 = Some (true, 5, [Some 5]).
Proof. split; vm_compute; reflexivity. Qed.
(** A call in an unexecuted arm of a conditional expression still runs: main(a) = g(a) if a else 1
    with g looping forever never ends in hardware (2000 clocks shown). *)
Definition p_ifcall : list (name * func) :=
  [(9, ([0], block [PReturn (Some (XIf (XName 0) (XCall 8 (args_ [XName 0])) (XInt 1)))]));
   (8, ([0], block [PWhile (XInt 1) (block [PPass]); PReturn (Some (XInt 2))]))]%nat.
Theorem C03_call_in_arm_refuted :
  py p_ifcall 9 [0] []%nat 20 = Val (Some 1, []) /\
  exists r, thw p_ifcall 9 [0] []%nat 2000 = Some (false, r, []).
Proof. split; [vm_compute; reflexivity|]. eexists. vm_compute. reflexivity. Qed.

(** C04.  for x in range(ea, eb, es): body, with es positive, does exactly what the assignments
    x = v; body  written out for the values v of range(a, b, s) in order do (all variables but the
    loop variable, which Python leaves at the last value and the hardware one step further). *)
Theorem C04_for_range_partial w opt fns d main params x ea eb es body args m s a b st n0 n1 n2 : 1 <= w ->
  folds_soundly opt -> covered fns ->
  fns main = Some (params, PCons (PFor x (Some ea) eb (Some es) body) PNil) -> length params = length args ->
  compile opt fns d main args = Some m -> Z.of_nat (m_end m) < 2 ^ 32 ->
  forallb (fits (loose w)) args = true -> s FState = 0 -> escapess body = false ->
  let r0 := psets pempty params args in
  ev (loose w) fns n0 r0 ea = Val a -> ev (loose w) fns n1 r0 eb = Val b -> ev (loose w) fns n2 r0 es = Val st ->
  0 < st -> fits (loose w) a = true -> fits (loose w) (a + Z.of_nat (range_count a b st) * st) = true ->
  forall n r, exb (loose w) fns n r0 (written_out x (py_range a b st) body) = Val (ONorm r) ->
  exists k, let s' := clocks w m k s in
    s' FState = Z.of_nat (m_end m) /\
    forall y z, y <> x -> r y = Some z -> exists g, m_reg m y = Some g /\ s' (User g) = z.
Proof.
  intros Hw Ho Hc Em Hl E He Hf Hs Hb r0 Ea Eb Es Ps Fa Fe n r H.
  destruct (for_written w fns r0 x ea eb es body n0 n1 n2 a b st Ea Eb Es Ps Fa Fe Hb n _ H) as [n' H'].
  destruct (thread_runs w opt fns d main args m s Hw Ho Hc E He Hf Hs) as [Y _].
  destruct (Y (pset r x None) None) as [k Hk].
  { exists n'. right. split; [reflexivity|]. unfold py_main. rewrite Em, Hl, Nat.eqb_refl. exact H'. }
  exists k. destruct (Hk k (le_n _)) as (A & B & _). split; [exact A|]. intros y z Hy Hr. apply B. rewrite pset_other by exact Hy. exact Hr.
Qed.
Print Assumptions C04_for_range_partial.
(** the values are those of Python's range: from a while below b, in steps of s *)
Theorem C04_range_values a b s : 0 < s ->
  py_range a b s = (if a <? b then a :: py_range (a + s) b s else []).
Proof. intros Hs. destruct (Z.ltb_spec a b); [apply range_cons|apply range_nil]; assumption. Qed.

(** for i in range(a, b, 3): acc = acc * 10 + i *)
Definition p_for : list (name * func) :=
  [(9, ([0; 1; 2], PCons (PFor 3 (Some (XName 0)) (XName 1) (Some (XInt 3))
                       (block [PAssign [2] (XBin PAdd (XBin PMul (XName 2) (XInt 10)) (XName 3))])) PNil))]%nat.
Example ex_for : all_covered p_for = true /\
  exb (loose 32) (table p_for) 20 (psets pempty [0; 1; 2]%nat [-1; 9; 0]) (written_out 3 (py_range (-1) 9 3)
     (block [PAssign [2%nat] (XBin PAdd (XBin PMul (XName 2) (XInt 10)) (XName 3))])) <> Stuck /\
  py_range (-1) 9 3 = [-1; 2; 5; 8] /\
  exists r, thw p_for 9 [-1; 9; 0] [2]%nat 60 = Some (true, r, [Some (-742)]).
Proof. repeat split; try (vm_compute; congruence). eexists. vm_compute. reflexivity. Qed.
Example ex_for_empty : exists r, thw p_for 9 [9; 9; 5] [2]%nat 60 = Some (true, r, [Some 5]).
Proof. eexists. vm_compute. reflexivity. Qed.

(** A negative step never iterates: the loop test is always [i < end] ([compiler.py:338-391]).
      n = 0; for i in range(3, 0, -1): n += 1   gives n = 3 in Python. *)
Definition p_down : list (name * func) :=
  [(9, ([], block [PAssign [0] (XInt 0);
      PFor 1 (Some (XInt 3)) (XInt 0) (Some (XInt (-1))) (block [PAug 0 PAdd (XInt 1)])]))]%nat.
(** Python's range for either sign of the step *)
Definition any_range (a b s : Z) : list Z := if 0 <? s then py_range a b s else map Z.opp (py_range (- a) (- b) (- s)).
Theorem C04_negative_step_refuted : any_range 3 0 (-1) = [3; 2; 1] /\
  exists r, thw p_down 9 [] [0]%nat 60 = Some (true, r, [Some 0]).
Proof. split; [reflexivity|]. eexists. vm_compute. reflexivity. Qed.
(** The end of the range is evaluated before each iteration, not once.
      n = 2; c = 0; for i in range(n): c += 1; n = 1 *)
Definition p_end : list (name * func) :=
  [(9, ([], block [PAssign [0] (XInt 2); PAssign [1] (XInt 0);
      PFor 2 None (XName 0) None (block [PAug 1 PAdd (XInt 1); PAssign [0] (XInt 1)])]))]%nat.
Theorem C04_range_end_refuted : py p_end 9 [] [1]%nat 60 = Val (None, [Some 2]) /\
  exists r, thw p_end 9 [] [1]%nat 60 = Some (true, r, [Some 1]).
Proof. split; [reflexivity|]. eexists. vm_compute. reflexivity. Qed.
(** Assigning the loop variable changes the iteration: for i in range(4): c += 1; i = i + 1 *)
Definition p_lv : list (name * func) :=
  [(9, ([], block [PAssign [1] (XInt 0);
      PFor 2 None (XInt 4) None (block [PAug 1 PAdd (XInt 1); PAug 2 PAdd (XInt 1)])]))]%nat.
Theorem C04_loop_variable_assigned_refuted : py p_lv 9 [] [1]%nat 60 = Val (None, [Some 4]) /\
  exists r, thw p_lv 9 [] [1]%nat 60 = Some (true, r, [Some 2]).
Proof. split; [reflexivity|]. eexists. vm_compute. reflexivity. Qed.
(** After the loop the variable is one step further than Python's: for i in range(3): pass; return i *)
Definition p_after : list (name * func) :=
  [(9, ([], block [PFor 0 None (XInt 3) None (block [PPass]); PReturn (Some (XName 0))]))]%nat.
Theorem C04_loop_variable_after_refuted : last (py_range 0 3 1) 0 = 2 /\
  thw p_after 9 [] [0]%nat 60 = Some (true, 3, [Some 3]).
Proof. split; vm_compute; reflexivity. Qed.

(** Operators outside the covered range: [2 and 3] is 1 (not 3); [-7 // 2] is -3 (not -4);
    [-7 % 2] is -1 (not 1). *)
Definition p_ops : list (name * func) :=
  [(9, ([0; 1; 2], block [PAssign [3] (XAnd (XName 1) (XName 2));
                          PAssign [4] (XBin PFloorDiv (XName 0) (XName 1));
                          PAssign [5] (XBin PMod (XName 0) (XName 1))]))]%nat.
Theorem C01_operators_refuted : py_bin PFloorDiv (-7) 2 = -4 /\ py_bin PMod (-7) 2 = 1 /\
  exists r, thw p_ops 9 [-7; 2; 3] [3; 4; 5]%nat 60 = Some (true, r, [Some 1; Some (-3); Some (-1)]).
Proof. split; [reflexivity|]. split; [reflexivity|]. eexists. vm_compute. reflexivity. Qed.
