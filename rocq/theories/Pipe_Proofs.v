(** Proofs for Pipe_Props.v. *)
From Verif Require Import Base Pipe_Model Pipe_Spec.
Open Scope nat_scope.

Section PeInd.
  Variable P : pe -> Prop.
  Hypothesis (HV : forall v, P (PVar v)) (HI : forall z, P (PInt z)) (HU : forall o a, P a -> P (PUn o a))
    (HO : forall o l, Forall P l -> P (POp o l)).
  Fixpoint pe_tree_ind (e : pe) : P e :=
    match e with
    | PVar v => HV v | PInt z => HI z | PUn o a => HU o a (pe_tree_ind a)
    | POp o l => HO o l ((fix go l : Forall P l := match l with [] => Forall_nil P | a :: l => Forall_cons a (pe_tree_ind a) (go l) end) l)
    end.
End PeInd.

(** ** Stages *)
Definition omax (x y : option nat) : option nat :=
  match x, y with None, y => y | x, None => x | Some a, Some b => Some (Nat.max a b) end.
Lemma omax_none x : omax x None = x.
Proof. destruct x; reflexivity. Qed.
Lemma omax_assoc x y z : omax x (omax y z) = omax (omax x y) z.
Proof. destruct x, y, z; cbn; try reflexivity. f_equal. lia. Qed.
Definition omaxs (l : list (option nat)) : option nat := fold_right omax None l.
Lemma omaxs_app a b : omaxs (a ++ b) = omax (omaxs a) (omaxs b).
Proof. induction a as [|x a IH]; [reflexivity|]. unfold omaxs in *. cbn [fold_right app]. rewrite IH. apply omax_assoc. Qed.
Lemma max_stage_eq l : max_stage l = omaxs (map sstage l).
Proof.
  assert (H : forall x, fold_left (fun x r => match x, sstage r with None, y => y | x, None => x | Some a, Some b => Some (Nat.max a b) end) l x = omax x (omaxs (map sstage l))).
  { induction l as [|r l IH]; intros x; cbn [fold_left map omaxs fold_right]; [symmetry; apply omax_none|]. rewrite IH. fold (omaxs (map sstage l)).
    rewrite omax_assoc. destruct x, (sstage r); reflexivity. }
  unfold max_stage. rewrite H. reflexivity.
Qed.
Definition stage_of (s : pl) (e : pe) : option nat := omaxs (map (fun v => nstage (get s v)) (vars e)).
Lemma omaxs_none l k : omaxs l = None -> ~ In (Some k) l.
Proof.
  induction l as [|y l IH]; intros H I; [exact I|]. cbn in H, I. fold (omaxs l) in H. destruct y as [y|]; [destruct (omaxs l); discriminate|].
  destruct I as [I|I]; [discriminate|]. exact (IH H I).
Qed.
Lemma omaxs_le l k m : omaxs l = Some m -> In (Some k) l -> k <= m.
Proof.
  revert m. induction l as [|x l IH]; intros m; cbn; [contradiction|]. fold (omaxs l). intros H [->|I].
  - destruct (omaxs l); injection H as <-; lia.
  - destruct (omaxs l) as [b|] eqn:E; [|exfalso; exact (omaxs_none _ _ E I)].
    specialize (IH b eq_refl I). destruct x; injection H as <-; lia.
Qed.
Lemma omaxs_all l m : l <> [] -> (forall x, In x l -> x = Some m) -> omaxs l = Some m.
Proof.
  induction l as [|x l IH]; intros N H; [contradiction|]. cbn. fold (omaxs l). rewrite (H x (or_introl eq_refl)). destruct l as [|y l]; [reflexivity|].
  rewrite IH; [cbn; f_equal; lia|discriminate|]. intros z I. apply H. right. exact I.
Qed.

Lemma omaxs_some l : l <> [] -> omaxs (map Some l) = Some (list_max l).
Proof.
  induction l as [|x l IH]; intros N; [contradiction|]. destruct l as [|y l]; [cbn; f_equal; lia|].
  change (omaxs (map Some (x :: y :: l))) with (omax (Some x) (omaxs (map Some (y :: l)))). rewrite IH by discriminate. reflexivity.
Qed.

(** ** Nets *)
Definition ext (s s' : pl) : Prop := exists l, nodes s' = nodes s ++ l.
Lemma ext_refl s : ext s s.
Proof. exists []. symmetry. apply app_nil_r. Qed.
Lemma ext_trans a b c : ext a b -> ext b c -> ext a c.
Proof. intros [l H] [m G]. exists (l ++ m). rewrite G, H, app_assoc. reflexivity. Qed.
Lemma ext_len s s' : ext s s' -> length (nodes s) <= length (nodes s').
Proof. intros [l H]. rewrite H, app_length. lia. Qed.
Lemma ext_get s s' v : ext s s' -> v < length (nodes s) -> get s' v = get s v.
Proof. intros [l H] L. unfold get. rewrite H. apply app_nth1, L. Qed.
Lemma get_none s v : length (nodes s) <= v -> get s v = no_node.
Proof. intros L. unfold get. apply nth_overflow, L. Qed.

Lemma get_snoc_old s n l m v : v < length (nodes s) -> get (mkP (nodes s ++ [n]) l m) v = get s v.
Proof. intros L. unfold get. cbn [nodes]. apply app_nth1, L. Qed.
Lemma get_snoc_new s n l m : get (mkP (nodes s ++ [n]) l m) (length (nodes s)) = n.
Proof. unfold get. cbn [nodes]. rewrite app_nth2, Nat.sub_diag by lia. reflexivity. Qed.
Lemma get_reg_lt s j r : nreg (get s j) = Some r -> j < length (nodes s).
Proof. intros E. destruct (Nat.lt_ge_cases j (length (nodes s))) as [L|L]; [exact L|]. rewrite get_none in E by exact L. discriminate. Qed.

Section Inputs.
(** what inputs look like; whether there are accumulators *)
Variables (Pin : bool -> bool -> Prop) (Acc_ok : bool).
Definition lt_all (n : nat) (l : list nat) : Prop := forall v, In v l -> v < n.
Record okres (s : pl) (r : res) : Prop := mkOk {
  ok_lt : lt_all (length (nodes s)) (vars (sdata r));
  ok_valid : forall v, In v (svalid r) <-> In v (vars (sdata r)) /\ nvalid (get s v) = true;
  ok_ready : forall v, In v (sready r) <-> In v (vars (sdata r)) /\ nready (get s v) = true;
  ok_stage : forall m, sstage r = Some m -> forall v, In v (vars (sdata r)) -> nstage (get s v) = Some m;
  ok_none : sstage r = None <-> vars (sdata r) = []
}.
Record okreg (s : pl) (j : nat) (r : reg) : Prop := mkOkr {
  kr_lt : lt_all j (vars (rdata r));
  kr_some : vars (rdata r) <> [];
  kr_valid : forall v, In v (rvalid r) <-> In v (vars (rdata r)) /\ nvalid (get s v) = true;
  kr_ready : forall v, In v (rready r) <-> In v (vars (rdata r)) /\ nready (get s v) = true;
  kr_nv : nvalid (get s j) = notnil (rvalid r);
  kr_nr : nready (get s j) = notnil (rready r);
  kr_stage : exists m, nstage (get s j) = Some (S m) /\ forall v, In v (vars (rdata r)) -> nstage (get s v) = Some m;
  kr_acc : Acc_ok = false -> racc r = []
}.
Record wfn (s : pl) : Prop := mkWf {
  wf_reg : forall j r, nreg (get s j) = Some r -> j < length (nodes s) /\ okreg s j r;
  wf_in : forall j, j < length (nodes s) -> nreg (get s j) = None -> nstage (get s j) = Some 0 /\ Pin (nvalid (get s j)) (nready (get s j));
  wf_link : forall i j, In (i, COrdy j) (links s) <-> exists r, nreg (get s j) = Some r /\ In i (rready r);
  wf_lt : forall i c, In (i, c) (links s) -> i < length (nodes s);
  wf_max : Acc_ok = false -> forall v k, nstage (get s v) = Some k -> k <= maxst s
}.
Lemma okres_ext s s' r : ext s s' -> okres s r -> okres s' r.
Proof.
  intros X O. pose proof (ext_len _ _ X). assert (G : forall v, In v (vars (sdata r)) -> get s' v = get s v) by (intros v I; apply ext_get; [exact X|exact (ok_lt _ _ O v I)]).
  split.
  - intros v I. pose proof (ok_lt _ _ O v I). lia.
  - intros v. rewrite (ok_valid _ _ O v). split; intros [I V]; split; try exact I; rewrite (G v I) in *; exact V.
  - intros v. rewrite (ok_ready _ _ O v). split; intros [I V]; split; try exact I; rewrite (G v I) in *; exact V.
  - intros m E v I. rewrite (G v I). exact (ok_stage _ _ O m E v I).
  - exact (ok_none _ _ O).
Qed.
Lemma stage_of_ext s s' e : ext s s' -> lt_all (length (nodes s)) (vars e) -> stage_of s' e = stage_of s e.
Proof.
  intros X L. unfold stage_of. f_equal. apply map_ext_in. intros v I. rewrite (ext_get _ _ _ X (L v I)). reflexivity.
Qed.
Lemma wf_stage s v : wfn s -> v < length (nodes s) -> exists k, nstage (get s v) = Some k.
Proof.
  intros W L. destruct (nreg (get s v)) as [r|] eqn:E; [|exists 0; exact (proj1 (wf_in _ W v L E))].
  destruct (wf_reg _ W v r E) as [_ K]. destruct (kr_stage _ _ _ K) as (m & H & _). eauto.
Qed.

(** ** Streams of a net *)
Section Den.
  Context {Elt : Type}.
  Variables (sem : nat -> list Elt -> Elt) (semu : nat -> Elt -> Elt) (cst : Z -> Elt).
  Notation value := (value sem semu cst). Notation stream := (stream Elt).
  Definition zero : stream := fun _ => cst 0.
  Definition reg_stream (prev : list stream) (r : reg) : stream :=
    running sem semu cst (racc r) (rinit r) (fun k => value (fun v => nth v prev zero k) (rdata r)).
  Definition nets (l : list node) (ins : nat -> stream) : list stream :=
    fold_left (fun acc n => acc ++ [match nreg n with None => ins (length acc) | Some r => reg_stream acc r end]) l [].
  Lemma nets_snoc l n ins : nets (l ++ [n]) ins = nets l ins ++ [match nreg n with None => ins (length (nets l ins)) | Some r => reg_stream (nets l ins) r end].
  Proof. unfold nets. rewrite fold_left_app. reflexivity. Qed.
  Lemma nets_length l ins : length (nets l ins) = length l.
  Proof. induction l as [|n l IH] using rev_ind; [reflexivity|]. rewrite nets_snoc, !app_length, IH. reflexivity. Qed.
  Definition net_stream (s : pl) (ins : nat -> stream) (v : nat) : stream := nth v (nets (nodes s) ins) zero.
  Lemma nets_prefix l m ins : exists t, nets (l ++ m) ins = nets l ins ++ t.
  Proof.
    induction m as [|n m IH] using rev_ind; [exists []; rewrite !app_nil_r; reflexivity|]. destruct IH as [t IH].
    rewrite app_assoc, nets_snoc, IH, <- app_assoc. eauto.
  Qed.
  Lemma str_ext s s' ins v : ext s s' -> v < length (nodes s) -> net_stream s' ins v = net_stream s ins v.
  Proof. intros [l H] L. unfold net_stream. rewrite H. destruct (nets_prefix (nodes s) l ins) as [t ->]. apply app_nth1. rewrite nets_length. exact L. Qed.
  Lemma value_ext d d' e : (forall v, In v (vars e) -> d v = d' v) -> value d e = value d' e.
  Proof.
    induction e as [v|z|o a IH|o l IH] using pe_tree_ind; intros H; cbn [Pipe_Spec.value].
    - apply H. left. reflexivity.
    - reflexivity.
    - rewrite IH by exact H. reflexivity.
    - f_equal. apply map_ext_in. intros a I. rewrite Forall_forall in IH. apply (IH a I). intros v J. apply H. cbn. apply in_flat_map. eauto.
  Qed.
  Lemma running_nil init x k : running sem semu cst [] init x k = x k.
  Proof. destruct k; reflexivity. Qed.
  Lemma running_ext ops init x y k : (forall k, x k = y k) -> running sem semu cst ops init x k = running sem semu cst ops init y k.
  Proof. intros H. induction k as [|k IH]; cbn [running]; rewrite ?IH, H; reflexivity. Qed.
End Den.

(** ** Construction *)
Definition same (s s' : pl) : Prop := nodes s = nodes s' /\ links s = links s' /\ maxst s <= maxst s'.
Lemma okreg_same s s' j r : (forall v, v <= j -> get s' v = get s v) -> okreg s j r -> okreg s' j r.
Proof.
  intros G K. assert (G' : forall v, In v (vars (rdata r)) -> get s' v = get s v) by (intros v I; apply G; pose proof (kr_lt _ _ _ K v I); lia).
  split.
  - exact (kr_lt _ _ _ K).
  - exact (kr_some _ _ _ K).
  - intros v. rewrite (kr_valid _ _ _ K v). split; intros [I V]; split; try exact I; rewrite (G' v I) in *; exact V.
  - intros v. rewrite (kr_ready _ _ _ K v). split; intros [I V]; split; try exact I; rewrite (G' v I) in *; exact V.
  - rewrite (G j (le_n j)). exact (kr_nv _ _ _ K).
  - rewrite (G j (le_n j)). exact (kr_nr _ _ _ K).
  - destruct (kr_stage _ _ _ K) as (m & A & B). exists m. rewrite (G j (le_n j)). split; [exact A|]. intros v I. rewrite (G' v I). auto.
  - exact (kr_acc _ _ _ K).
Qed.
Lemma same_get s s' v : same s s' -> get s' v = get s v.
Proof. intros [H _]. unfold get. rewrite H. reflexivity. Qed.
Lemma wfn_same s s' : same s s' -> wfn s -> wfn s'.
Proof.
  intros X W. pose proof (fun v => same_get _ _ v X) as G. destruct X as (N & L & M). split.
  - intros j r E. rewrite G in E. destruct (wf_reg _ W j r E) as [A B]. rewrite <- N. split; [exact A|]. apply (okreg_same s); auto.
  - intros j J E. rewrite G in *. rewrite <- N in J. exact (wf_in _ W j J E).
  - intros i j. rewrite <- L. rewrite (wf_link _ W i j). rewrite G. reflexivity.
  - intros i c. rewrite <- L, <- N. apply (wf_lt _ W).
  - intros A v k. rewrite G. intros E. pose proof (wf_max _ W A v k E). lia.
Qed.

Lemma add_reg_wf s r init acc m mx : wfn s -> okres s r -> sstage r = Some m -> maxst s <= mx -> (Acc_ok = false -> acc = [] /\ S m <= mx) ->
  let s' := snd (add_reg s r init acc) in wfn (mkP (nodes s') (links s') mx).
Proof.
  intros W O M LM AC. unfold add_reg. cbn [snd nodes links].
  set (n := mkN (option_map S (sstage r)) (notnil (svalid r)) (notnil (sready r)) (Some (mkR (sdata r) (svalid r) (sready r) init acc))).
  set (lk := links s ++ map (fun i => (i, COrdy (length (nodes s)))) (sready r)).
  set (s' := mkP (nodes s ++ [n]) lk mx).
  assert (Old : forall v, v < length (nodes s) -> get s' v = get s v) by (intros v L; apply get_snoc_old, L).
  assert (New : get s' (length (nodes s)) = n) by apply get_snoc_new.
  assert (Len : length (nodes s') = S (length (nodes s))) by (cbn; rewrite app_length; cbn; lia).
  assert (Cases : forall j, j < length (nodes s') -> j < length (nodes s) \/ j = length (nodes s)) by (intros j; rewrite Len; lia).
  split.
  - intros j r0 E. pose proof (get_reg_lt _ _ _ E) as L. split; [exact L|]. destruct (Cases j L) as [J|J].
    + rewrite Old in E by exact J. destruct (wf_reg _ W j r0 E) as [_ K]. apply (okreg_same s); [|exact K]. intros v V. apply Old. lia.
    + rewrite J in *. rewrite New in E. injection E as <-.
      assert (G : forall v, In v (vars (sdata r)) -> get s' v = get s v) by (intros v I; apply Old, (ok_lt _ _ O v I)).
      split; cbn [rdata rvalid rready].
      * exact (ok_lt _ _ O).
      * intros X. apply (ok_none _ _ O) in X. congruence.
      * intros v. rewrite (ok_valid _ _ O v). split; intros [I V]; split; try exact I; rewrite (G v I) in *; exact V.
      * intros v. rewrite (ok_ready _ _ O v). split; intros [I V]; split; try exact I; rewrite (G v I) in *; exact V.
      * rewrite New. reflexivity.
      * rewrite New. reflexivity.
      * exists m. rewrite New. unfold n. cbn [nstage]. rewrite M. split; [reflexivity|]. intros v I. rewrite (G v I). exact (ok_stage _ _ O m M v I).
      * intros A. exact (proj1 (AC A)).
  - intros j L E. destruct (Cases j L) as [J|J]; [|subst j; rewrite New in E; discriminate]. rewrite Old in * by exact J. exact (wf_in _ W j J E).
  - intros i j. change (links s') with lk. unfold lk. rewrite in_app_iff, in_map_iff. split.
    + intros [I|(x & [= -> <-] & I)].
      * apply (wf_link _ W) in I as (r0 & E & I). exists r0. rewrite Old by exact (get_reg_lt _ _ _ E). auto.
      * eexists. rewrite New. split; [reflexivity|exact I].
    + intros (r0 & E & I). destruct (Cases j (get_reg_lt _ _ _ E)) as [J|J].
      * rewrite Old in E by exact J. left. apply (wf_link _ W). eauto.
      * subst j. rewrite New in E. injection E as <-. right. exists i. auto.
  - intros i c. change (links s') with lk. unfold lk. rewrite Len, in_app_iff, in_map_iff. intros [I|(x & [= -> <-] & I)].
    + pose proof (wf_lt _ W _ _ I). lia.
    + apply (ok_ready _ _ O) in I as [I _]. pose proof (ok_lt _ _ O i I). lia.
  - intros A v k. change (maxst s') with mx. destruct (AC A) as [_ B]. destruct (Nat.lt_ge_cases v (length (nodes s'))) as [L|L]; [|rewrite get_none by exact L; discriminate].
    destruct (Cases v L) as [J|J]; [rewrite Old by exact J; intros E; pose proof (wf_max _ W A v k E); lia|].
    rewrite J, New. unfold n. cbn [nstage]. rewrite M. cbn. intros [= <-]. exact B.
Qed.
Lemma add_reg_ext s r init acc : ext s (snd (add_reg s r init acc)).
Proof. eexists. reflexivity. Qed.
Lemma empty_wf : wfn new_pl.
Proof.
  assert (G : forall v, get new_pl v = no_node) by (intros [|v]; reflexivity).
  split; try (intros j r E; rewrite G in E; discriminate); try (intros j L; cbn in L; lia).
  - intros i j. split; [intros []|]. intros (r & E & _). rewrite G in E. discriminate.
  - intros i c [].
  - intros _ v k. rewrite G. discriminate.
Qed.
Section Con.
  Context {Elt : Type}.
  Variables (sem : nat -> list Elt -> Elt) (semu : nat -> Elt -> Elt) (cst : Z -> Elt).
  Notation value := (value sem semu cst). Notation str := (net_stream sem semu cst). Notation stream := (stream Elt).
  Definition elems (s : pl) (ins : nat -> stream) (k : nat) (v : nat) : Elt := str s ins v k.
  Lemma str_new s n l m ins : str (mkP (nodes s ++ [n]) l m) ins (length (nodes s)) =
    match nreg n with None => ins (length (nodes s)) | Some r => reg_stream sem semu cst (nets sem semu cst (nodes s) ins) r end.
  Proof. unfold net_stream. cbn [nodes]. rewrite nets_snoc. rewrite app_nth2; rewrite nets_length; [|lia]. rewrite Nat.sub_diag. reflexivity. Qed.
  Lemma add_reg_str s r init acc ins k : str (snd (add_reg s r init acc)) ins (length (nodes s)) k =
    running sem semu cst acc init (fun k => value (elems s ins k) (sdata r)) k.
  Proof. unfold add_reg. cbn [snd]. rewrite str_new. reflexivity. Qed.

  Definition good (s s' : pl) : Prop := wfn s' /\ ext s s'.
  Lemma good_trans a b c : good a b -> good b c -> good a c.
  Proof. intros [_ X] [W Y]. split; [exact W|eapply ext_trans; eassumption]. Qed.
  (** a variable of stage [m] with the stream of [e] *)
  Definition var_is (s s' : pl) (e : pe) (m v : nat) : Prop :=
    v < length (nodes s') /\ nstage (get s' v) = Some m /\ forall ins k, str s' ins v k = value (elems s ins k) e.
  Definition res_is (s s' : pl) (e : pe) (r : res) : Prop :=
    okres s' r /\ sstage r = stage_of s e /\ forall ins k, value (elems s' ins k) (sdata r) = value (elems s ins k) e.
  Lemma elems_ext s s' ins k v : ext s s' -> v < length (nodes s) -> elems s' ins k v = elems s ins k v.
  Proof. intros X L. unfold elems. rewrite (str_ext _ _ _ _ _ _ _ X L). reflexivity. Qed.
  Lemma value_in s s' ins k e : ext s s' -> lt_all (length (nodes s)) (vars e) -> value (elems s' ins k) e = value (elems s ins k) e.
  Proof. intros X L. apply value_ext. intros v I. apply elems_ext; auto. Qed.
  Lemma res_is_ext s s1 s2 e r : ext s1 s2 -> res_is s s1 e r -> res_is s s2 e r.
  Proof. intros X (A & B & C). split; [eapply okres_ext; eassumption|]. split; [exact B|]. intros ins k. rewrite <- C. apply value_in; [exact X|exact (ok_lt _ _ A)]. Qed.
  Lemma res_is_back s s1 s2 e r : ext s s1 -> lt_all (length (nodes s)) (vars e) -> res_is s1 s2 e r -> res_is s s2 e r.
  Proof.
    intros X L (A & B & C). split; [exact A|]. split; [rewrite B; apply stage_of_ext; assumption|]. intros ins k. rewrite C. apply value_in; assumption.
  Qed.
  Lemma var_is_ext s s1 s2 e m v : ext s1 s2 -> var_is s s1 e m v -> var_is s s2 e m v.
  Proof.
    intros X (A & B & C). pose proof (ext_len _ _ X). split; [lia|]. split; [rewrite (ext_get _ _ _ X A); exact B|].
    intros ins k. rewrite (str_ext _ _ _ _ _ _ _ X A). apply C.
  Qed.
  Lemma var_is_back s s1 s2 e m v : ext s s1 -> lt_all (length (nodes s)) (vars e) -> var_is s1 s2 e m v -> var_is s s2 e m v.
  Proof. intros X L (A & B & C). split; [exact A|]. split; [exact B|]. intros ins k. rewrite C. apply value_in; assumption. Qed.

  Lemma stage_res_ok s r init e s0 m : wfn s -> res_is s0 s e r -> stage_of s0 e = Some m ->
    let '(v, s') := stage_res s r init in good s s' /\ var_is s0 s' e (S m) v.
  Proof.
    intros W (O & ST & V) M. unfold stage_res. rewrite ST, M.
    pose proof (add_reg_wf s r init [] m (Nat.max (S m) (maxst s)) W O ltac:(congruence) ltac:(lia) ltac:(intros _; split; [reflexivity|lia])) as W'. cbv zeta in W'.
    pose proof (fun ins k => add_reg_str s r init [] ins k) as SR. pose proof (add_reg_ext s r init []) as X.
    destruct (add_reg s r init []) as [v s'] eqn:E. cbn [snd] in *.
    assert (MX : maxst s' = maxst s) by (unfold add_reg in E; injection E as <- <-; reflexivity). rewrite MX.
    split; [split; [exact W'|exact X]|].
    unfold add_reg in E. injection E as <- <-. split; [|split].
    - cbn [nodes]. rewrite app_length. cbn. lia.
    - cbn [nodes links]. rewrite get_snoc_new. cbn [nstage]. rewrite ST, M. reflexivity.
    - intros ins k. specialize (SR ins k). rewrite running_nil, V in SR. exact SR.
  Qed.
  Lemma visit_var_ok s v : wfn s -> v < length (nodes s) -> res_is s s (PVar v) (visit_var s v).
  Proof.
    intros W L. destruct (wf_stage s v W L) as [k K]. unfold visit_var. split; [|split].
    - split; cbn [sdata svalid sready sstage vars].
      + intros x [<-|[]]. exact L.
      + intros x. destruct (nvalid (get s v)) eqn:E; cbn; split; [intros [<-|[]]; auto|intros [[<-|[]] _]; auto|contradiction|intros [[<-|[]] H]; congruence].
      + intros x. destruct (nready (get s v)) eqn:E; cbn; split; [intros [<-|[]]; auto|intros [[<-|[]] _]; auto|contradiction|intros [[<-|[]] H]; congruence].
      + intros m H x [<-|[]]. exact H.
      + rewrite K. split; discriminate.
    - cbn [sstage]. unfold stage_of. cbn. rewrite omax_none. reflexivity.
    - intros ins k'. reflexivity.
  Qed.
  Lemma delays_ok n : forall s v s0 e m, wfn s -> var_is s0 s e m v ->
    let '(v', s') := delays n s v in good s s' /\ var_is s0 s' e (m + n) v'.
  Proof.
    induction n as [|n IH]; intros s v s0 e m W V; cbn [delays].
    - split; [split; [exact W|apply ext_refl]|]. rewrite Nat.add_0_r. exact V.
    - destruct V as (L & K & C). pose proof (visit_var_ok s v W L) as R.
      pose proof (stage_res_ok s (visit_var s v) 0 (PVar v) s m W R ltac:(unfold stage_of; cbn; rewrite omax_none; exact K)) as H.
      destruct (stage_res s (visit_var s v) 0) as [v' s']. destruct H as [[W' X] V'].
      assert (V2 : var_is s0 s' e (S m) v').
      { destruct V' as (A & B & D). split; [exact A|]. split; [exact B|]. intros ins k. rewrite D. cbn. unfold elems. apply C. }
      specialize (IH s' v' s0 e (S m) W' V2). destruct (delays n s' v') as [v2 s2]. destruct IH as [G V3].
      split; [eapply good_trans; [split; eassumption|exact G]|]. replace (m + S n) with (S m + n) by lia. exact V3.
  Qed.

  Section VisitOk.
    Variable vis : pe -> pl -> res * pl.
    Definition fine (a : pe) : Prop := no_unary a -> forall s, wfn s -> lt_all (length (nodes s)) (vars a) ->
      let '(r, s') := vis a s in good s s' /\ res_is s s' a r.
    Definition scoped (s : pl) (l : list pe) : Prop := forall a, In a l -> no_unary a /\ lt_all (length (nodes s)) (vars a).
    Lemma scoped_ext s s' l : ext s s' -> scoped s l -> scoped s' l.
    Proof. intros X H a I. destruct (H a I) as [A B]. split; [exact A|]. intros v V. pose proof (B v V). pose proof (ext_len _ _ X). lia. Qed.
    Lemma visits_ok l : Forall fine l -> forall s, wfn s -> scoped s l ->
      let '(rs, s') := visits vis l s in good s s' /\ Forall2 (res_is s s') l rs.
    Proof.
      induction 1 as [|a l F _ IH]; intros s W C; cbn [visits]; [split; [split; [exact W|apply ext_refl]|constructor]|].
      destruct (C a (or_introl eq_refl)) as [U L]. specialize (F U s W L). destruct (vis a s) as [r s1]. destruct F as [[W1 X1] R].
      assert (C' : scoped s l) by (intros b I; apply C; right; exact I).
      specialize (IH s1 W1 (scoped_ext _ _ _ X1 C')). destruct (visits vis l s1) as [rs s2]. destruct IH as [[W2 X2] RS].
      split; [split; [exact W2|eapply ext_trans; eassumption]|]. constructor; [eapply res_is_ext; eassumption|].
      clear - RS X1 C'. induction RS as [|b x l rs H _ IH]; constructor.
      - eapply res_is_back; [exact X1|apply C'; left; reflexivity|exact H].
      - apply IH. intros c I. apply C'. right. exact I.
    Qed.
    Definition delayed_is (s0 s : pl) (m : nat) (a : pe) (x : option nat) : Prop :=
      match x with None => stage_of s0 a = None \/ stage_of s0 a = Some m | Some v => stage_of s0 a <> None /\ var_is s0 s a m v end.
    Lemma delay_arg_ok s0 m a r s : fine a -> no_unary a -> lt_all (length (nodes s0)) (vars a) -> wfn s -> ext s0 s ->
      sstage r = stage_of s0 a -> (forall k, stage_of s0 a = Some k -> k <= m) ->
      let '(x, s') := delay_arg vis m a r s in good s s' /\ delayed_is s0 s' m a x.
    Proof.
      intros F U L W X E B. unfold delay_arg. rewrite E. destruct (stage_of s0 a) as [k|] eqn:K; [|split; [split; [exact W|apply ext_refl]|left; exact K]].
      destruct (Nat.eqb_spec k m) as [->|N]; [split; [split; [exact W|apply ext_refl]|right; exact K]|].
      specialize (B k eq_refl). assert (L' : lt_all (length (nodes s)) (vars a)) by (intros v V; pose proof (L v V); pose proof (ext_len _ _ X); lia).
      specialize (F U s W L'). destruct (vis a s) as [r' s1]. destruct F as [[W1 X1] R].
      assert (R0 : res_is s0 s1 a r') by (eapply res_is_back; eassumption).
      pose proof (stage_res_ok s1 r' 0 a s0 k W1 R0 K) as H. destruct (stage_res s1 r' 0) as [v s2]. destruct H as [[W2 X2] V2].
      pose proof (delays_ok (m - k - 1) s2 v s0 a (S k) W2 V2) as H. destruct (delays (m - k - 1) s2 v) as [v' s3]. destruct H as [[W3 X3] V3].
      split; [split; [exact W3|]|].
      - eapply ext_trans; [exact X1|]. eapply ext_trans; eassumption.
      - split; [congruence|]. replace (S k + (m - k - 1)) with m in V3 by lia. exact V3.
    Qed.
    Lemma delayed_is_ext s0 s s' m a x : ext s s' -> delayed_is s0 s m a x -> delayed_is s0 s' m a x.
    Proof. intros X. destruct x as [v|]; cbn; [|auto]. intros [A B]. split; [exact A|]. eapply var_is_ext; eassumption. Qed.
    Lemma delay_args_ok s0 m l : Forall fine l -> scoped s0 l -> forall rs s, wfn s -> ext s0 s ->
      Forall2 (fun a r => sstage r = stage_of s0 a /\ forall k, stage_of s0 a = Some k -> k <= m) l rs ->
      let '(xs, s') := delay_args vis m l rs s in good s s' /\ Forall2 (delayed_is s0 s' m) l xs.
    Proof.
      induction 1 as [|a l F _ IH]; intros C rs s W X R; inversion R as [|? r ? rs' [E B] R']; subst; cbn [delay_args]; [split; [split; [exact W|apply ext_refl]|constructor]|].
      destruct (C a (or_introl eq_refl)) as [U L]. assert (C' : scoped s0 l) by (intros b I; apply C; right; exact I).
      pose proof (delay_arg_ok s0 m a r s F U L W X E B) as H. destruct (delay_arg vis m a r s) as [x s1]. destruct H as [[W1 X1] D].
      specialize (IH C' rs' s1 W1 (ext_trans _ _ _ X X1) R'). destruct (delay_args vis m l rs' s1) as [xs s2]. destruct IH as [[W2 X2] DS].
      split; [split; [exact W2|eapply ext_trans; eassumption]|]. constructor; [eapply delayed_is_ext; eassumption|exact DS].
    Qed.
    Definition again (s0 s : pl) (m : nat) (a : pe) (r : res) : Prop :=
      okres s r /\ sstage r = (match stage_of s0 a with None => None | Some _ => Some m end) /\
      forall ins k, value (elems s ins k) (sdata r) = value (elems s0 ins k) a.
    Lemma again_ext s0 s s' m a r : ext s s' -> again s0 s m a r -> again s0 s' m a r.
    Proof. intros X (A & B & C). split; [eapply okres_ext; eassumption|]. split; [exact B|]. intros ins k. rewrite <- C. apply value_in; [exact X|exact (ok_lt _ _ A)]. Qed.
    Lemma revisits_ok s0 m l : Forall fine l -> scoped s0 l -> forall xs s, wfn s -> ext s0 s -> Forall2 (delayed_is s0 s m) l xs ->
      let '(rs, s') := revisits vis l xs s in good s s' /\ Forall2 (again s0 s' m) l rs.
    Proof.
      induction 1 as [|a l F _ IH]; intros C xs s W X R; inversion R as [|? x ? xs' D R']; subst; cbn [revisits]; [split; [split; [exact W|apply ext_refl]|constructor]|].
      destruct (C a (or_introl eq_refl)) as [U L]. assert (C' : scoped s0 l) by (intros b I; apply C; right; exact I).
      assert (H : let '(r, s1) := match x with Some v => (visit_var s v, s) | None => vis a s end in good s s1 /\ again s0 s1 m a r).
      { destruct x as [v|].
        - destruct D as (N & A & B & V). split; [split; [exact W|apply ext_refl]|]. destruct (visit_var_ok s v W A) as (O & ST & VV).
          split; [exact O|]. split; [|intros ins k; rewrite VV; cbn; unfold elems; apply V].
          rewrite ST. unfold stage_of at 1. cbn. rewrite omax_none, B. destruct (stage_of s0 a); [reflexivity|contradiction].
        - assert (L' : lt_all (length (nodes s)) (vars a)) by (intros v V; pose proof (L v V); pose proof (ext_len _ _ X); lia).
          specialize (F U s W L'). destruct (vis a s) as [r s1]. destruct F as [G R1]. split; [exact G|].
          destruct (res_is_back s0 s s1 a r X L R1) as (O & ST & V). split; [exact O|]. split; [|exact V]. rewrite ST. destruct D as [-> | ->]; reflexivity. }
      destruct (match x with Some v => (visit_var s v, s) | None => vis a s end) as [r s1]. destruct H as [[W1 X1] A].
      assert (R1 : Forall2 (delayed_is s0 s1 m) l xs').
      { clear - Pin Acc_ok R' X1. induction R'; constructor; auto. eapply delayed_is_ext; eassumption. }
      specialize (IH C' xs' s1 W1 (ext_trans _ _ _ X X1) R1). destruct (revisits vis l xs' s1) as [rs s2]. destruct IH as [[W2 X2] AS].
      split; [split; [exact W2|eapply ext_trans; eassumption]|]. constructor; [eapply again_ext; eassumption|exact AS].
    Qed.
    Lemma stage_op s o l : stage_of s (POp o l) = omaxs (map (stage_of s) l).
    Proof.
      unfold stage_of at 1. cbn [vars]. induction l as [|a l IH]; [reflexivity|]. cbn [flat_map]. rewrite map_app, omaxs_app, IH. reflexivity.
    Qed.
    Lemma packed_vars st o rs v : In v (vars (sdata (packed st o rs))) <-> exists r, In r rs /\ In v (vars (sdata r)).
    Proof.
      cbn. rewrite in_flat_map. split.
      - intros (d & I & V). apply in_map_iff in I as (r & <- & I). eauto.
      - intros (r & I & V). exists (sdata r). split; [apply in_map, I|exact V].
    Qed.
    Lemma packed_ok s st o rs : (forall r, In r rs -> okres s r) ->
      (forall r, In r rs -> sstage r = None \/ sstage r = st) -> (st <> None -> exists r, In r rs /\ sstage r <> None) -> okres s (packed st o rs).
    Proof.
      intros O ST SM. split; try (cbn [svalid sready sstage packed]).
      - intros v I. apply packed_vars in I as (r & I & V). exact (ok_lt _ _ (O r I) v V).
      - intros v. rewrite packed_vars, in_flat_map. split.
        + intros (r & I & V). apply (ok_valid _ _ (O r I)) in V as [V E]. eauto.
        + intros [(r & I & V) E]. exists r. split; [exact I|]. apply (ok_valid _ _ (O r I)). auto.
      - intros v. rewrite packed_vars, in_flat_map. split.
        + intros (r & I & V). apply (ok_ready _ _ (O r I)) in V as [V E]. eauto.
        + intros [(r & I & V) E]. exists r. split; [exact I|]. apply (ok_ready _ _ (O r I)). auto.
      - intros m E v I. apply packed_vars in I as (r & I & V). destruct (ST r I) as [N|N].
        + apply (ok_none _ _ (O r I)) in N. rewrite N in V. contradiction.
        + rewrite E in N. exact (ok_stage _ _ (O r I) m N v V).
      - split.
        + intros ->. assert (E : forall v, ~ In v (vars (sdata (packed None o rs)))).
          { intros v I. apply packed_vars in I as (r & I & V). assert (N : sstage r = None) by (destruct (ST r I); assumption).
            apply (ok_none _ _ (O r I)) in N. rewrite N in V. exact V. }
          destruct (vars (sdata (packed None o rs))) as [|v l]; [reflexivity|]. exfalso. apply (E v). left. reflexivity.
        + intros E. destruct st as [m|]; [|reflexivity]. exfalso. destruct (SM ltac:(discriminate)) as (r & I & N). apply N. apply (ok_none _ _ (O r I)).
          destruct (vars (sdata r)) as [|v l] eqn:V; [reflexivity|]. exfalso.
          assert (J : In v (vars (sdata (packed (Some m) o rs)))) by (apply packed_vars; exists r; split; [exact I|]; rewrite V; left; reflexivity).
          rewrite E in J. exact J.
    Qed.
    Lemma pack_ok o l : Forall fine l -> forall s, wfn s -> scoped s l ->
      let '(r, s') := pack vis o l s in good s s' /\ res_is s s' (POp o l) r.
    Proof.
      intros F s W C. unfold pack. pose proof (visits_ok l F s W C) as H. destruct (visits vis l s) as [rs s1]. destruct H as [[W1 X1] R].
      assert (MS : map sstage rs = map (stage_of s) l) by (clear - R; induction R as [|a r l rs H _ IH]; [reflexivity|]; cbn; rewrite IH; f_equal; apply H).
      rewrite max_stage_eq, MS, <- (stage_op s o l). destruct (stage_of s (POp o l)) as [m|] eqn:M.
      - assert (R1 : Forall2 (fun a r => sstage r = stage_of s a /\ forall k, stage_of s a = Some k -> k <= m) l rs).
        { assert (B : forall a k, In a l -> stage_of s a = Some k -> k <= m).
          { intros a k I E. apply (omaxs_le (map (stage_of s) l)); [rewrite <- (stage_op s o); exact M|]. rewrite <- E. apply in_map, I. }
          clear - R B. induction R as [|a r l rs H _ IH]; constructor.
          - split; [apply H|]. intros k. apply B. left. reflexivity.
          - apply IH. intros b k I. apply B. right. exact I. }
        pose proof (delay_args_ok s m l F C rs s1 W1 X1 R1) as H. destruct (delay_args vis m l rs s1) as [xs s2]. destruct H as [[W2 X2] D].
        pose proof (revisits_ok s m l F C xs s2 W2 (ext_trans _ _ _ X1 X2) D) as H. destruct (revisits vis l xs s2) as [rs' s3]. destruct H as [[W3 X3] A].
        assert (Z : exists a, In a l /\ stage_of s a <> None).
        { assert (Y : omaxs (map (stage_of s) l) = Some m) by (rewrite <- (stage_op s o); exact M). clear - Y.
          induction l as [|a l IH]; [discriminate|]. cbn in Y. destruct (stage_of s a) eqn:E; [exists a; split; [left; reflexivity|congruence]|].
          destruct (IH Y) as (b & I & N). exists b. split; [right; exact I|exact N]. }
        split; [split; [exact W3|eapply ext_trans; [exact X1|]; eapply ext_trans; eassumption]|]. split; [|split].
        + apply packed_ok.
          * intros r I. clear - A I. induction A as [|a x l rs H _ IH]; [contradiction|]. destruct I as [<-|I]; [apply H|auto].
          * intros r I. clear - A I. induction A as [|a x l rs H _ IH]; [contradiction|]. destruct I as [<-|I]; [|auto].
            destruct H as (_ & -> & _). destruct (stage_of s a); auto.
          * intros _. destruct Z as (a & I & N). clear - A I N. induction A as [|b x l rs H _ IH]; [contradiction|]. destruct I as [<-|I].
            -- exists x. split; [left; reflexivity|]. destruct H as (_ & -> & _). destruct (stage_of s b); [discriminate|contradiction].
            -- destruct (IH I) as (y & J & K). exists y. split; [right; exact J|exact K].
        + cbn [packed sstage]. symmetry. exact M.
        + intros ins k. cbn [packed sdata Pipe_Spec.value]. f_equal. rewrite map_map.
          clear - A. induction A as [|a x l rs H _ IH]; [reflexivity|]. cbn [map]. rewrite IH. f_equal. apply H.
      - split; [split; assumption|]. split; [|split].
        + apply packed_ok; [| |contradiction].
          * intros r I. clear - R I. induction R as [|a x l rs H _ IH]; [contradiction|]. destruct I as [<-|I]; [apply H|auto].
          * intros r I. left. rewrite stage_op in M. rewrite <- MS in M. destruct (sstage r) as [k|] eqn:E; [|reflexivity].
            exfalso. apply (omaxs_none _ k M). rewrite <- E. apply in_map, I.
        + cbn [packed sstage]. symmetry. exact M.
        + intros ins k. cbn [packed sdata Pipe_Spec.value]. f_equal. rewrite map_map.
          clear - R. induction R as [|a x l rs H _ IH]; [reflexivity|]. cbn [map]. rewrite IH. f_equal. apply H.
    Qed.
  End VisitOk.
  Lemma unary_all o l : no_unary (POp o l) -> forall a, In a l -> no_unary a.
  Proof. cbn. induction l as [|b l IH]; cbn; intros H a I; [contradiction|]. destruct H as [A B]. destruct I as [<-|I]; [exact A|]. exact (IH B a I). Qed.
  Lemma visit_ok e : no_unary e -> forall s, wfn s -> lt_all (length (nodes s)) (vars e) ->
    let '(r, s') := visit e s in good s s' /\ res_is s s' e r.
  Proof.
    induction e as [v|z|o a IH|o l IH] using pe_tree_ind; intros U s W L; cbn [visit].
    - split; [split; [exact W|apply ext_refl]|]. apply visit_var_ok; [exact W|]. apply L. left. reflexivity.
    - split; [split; [exact W|apply ext_refl]|]. split; [|split; reflexivity]. split; cbn.
      + intros v [].
      + intros v. split; [contradiction|intros [[] _]].
      + intros v. split; [contradiction|intros [[] _]].
      + intros m _ v [].
      + split; reflexivity.
    - contradiction.
    - apply pack_ok; [exact IH|exact W|]. intros a I. split; [exact (unary_all o l U a I)|]. intros v V. apply L. cbn. apply in_flat_map. eauto.
  Qed.

  (** ** The streams of a net are determined by its registers *)
  Lemma split_nodes s j : j < length (nodes s) -> exists l m, nodes s = l ++ get s j :: m /\ length l = j.
  Proof. intros L. destruct (nth_split (nodes s) no_node L) as (l & m & H & E). exists l, m. split; [exact H|exact E]. Qed.
  Lemma str_at s j ins : j < length (nodes s) -> exists l, str s ins j =
    (match nreg (get s j) with None => ins j | Some r => reg_stream sem semu cst (nets sem semu cst l ins) r end) /\ length l = j /\ exists m, nodes s = l ++ m.
  Proof.
    intros L. destruct (split_nodes s j L) as (l & m & H & E). exists l. split; [|split; [exact E|eauto]].
    assert (X : ext (mkP (l ++ [get s j]) [] 0) s) by (exists m; cbn [nodes]; rewrite <- app_assoc; exact H).
    rewrite (str_ext _ _ _ _ _ _ _ X) by (cbn [nodes]; rewrite app_length; cbn; lia).
    pose proof (str_new (mkP l [] 0) (get s j) [] 0 ins) as N. cbn [nodes] in N. rewrite E in N. exact N.
  Qed.
  Lemma str_in s j ins : j < length (nodes s) -> nreg (get s j) = None -> str s ins j = ins j.
  Proof. intros L E. destruct (str_at s j ins L) as (l & H & _). rewrite E in H. exact H. Qed.
  Lemma str_reg s j r ins k : wfn s -> nreg (get s j) = Some r ->
    str s ins j k = running sem semu cst (racc r) (rinit r) (fun k => value (elems s ins k) (rdata r)) k.
  Proof.
    intros W E. destruct (wf_reg _ W j r E) as [L K]. destruct (str_at s j ins L) as (l & H & Len & m & N). rewrite E in H. rewrite H.
    unfold reg_stream. apply running_ext. intros k'. apply value_ext. intros v I. pose proof (kr_lt _ _ _ K v I) as V.
    assert (X : ext (mkP l [] 0) s) by (exists m; exact N). unfold elems. rewrite (str_ext _ _ _ _ _ _ _ X) by (cbn [nodes]; lia). reflexivity.
  Qed.

  (** ** Programs *)
  Lemma value_rename d f e : value d (rename f e) = value (fun u => d (f u)) e.
  Proof.
    induction e as [v|z|o a IH|o l IH] using pe_tree_ind; cbn [rename Pipe_Spec.value]; try reflexivity.
    - rewrite IH. reflexivity.
    - f_equal. rewrite map_map. apply map_ext_in. rewrite Forall_forall in IH. exact IH.
  Qed.
  Lemma vars_rename f e : vars (rename f e) = map f (vars e).
  Proof.
    induction e as [v|z|o a IH|o l IH] using pe_tree_ind; cbn [rename vars map]; try reflexivity; [exact IH|].
    induction IH as [|a l H _ IH]; [reflexivity|]. cbn [flat_map map]. rewrite map_app, H, IH. reflexivity.
  Qed.
  Lemma unary_rename f e : no_unary e -> no_unary (rename f e).
  Proof.
    induction e as [v|z|o a IH|o l IH] using pe_tree_ind; cbn [rename no_unary]; auto. intros H.
    induction IH as [|a l F _ IH]; cbn [fold_right map] in *; [exact Logic.I|]. destruct H as [A B]. split; [exact (F A)|exact (IH B)].
  Qed.
  Definition rel (ins : nat -> stream) (ids : list nat) (s : pl) (vs : list stream) (ls : list nat) : Prop :=
    (length ls = length ids /\ forall u, u < length ids -> nstage (get s (nth u ids 0)) = Some (nth u ls 0)) /\ length vs = length ids /\ lt_all (length (nodes s)) ids /\ forall u k, u < length ids -> str s ins (nth u ids 0) k = element cst vs k u.
  Lemma rel_ext ins ids s s' vs ls : ext s s' -> rel ins ids s vs ls -> rel ins ids s' vs ls.
  Proof.
    intros X ((SL & SG) & A & B & C). pose proof (ext_len _ _ X) as LE. split.
    { split; [exact SL|]. intros u L. rewrite (ext_get _ _ _ X) by (apply B, nth_In, L). apply SG, L. }
    split; [exact A|]. split; [intros v I; pose proof (B v I); lia|].
    intros u k L. rewrite (str_ext _ _ _ _ _ _ _ X) by (apply B, nth_In, L). apply C, L.
  Qed.
  Lemma rel_snoc ins ids s vs ls v x m : rel ins ids s vs ls -> v < length (nodes s) -> nstage (get s v) = Some m -> (forall k, str s ins v k = x k) ->
    rel ins (ids ++ [v]) s (vs ++ [x]) (ls ++ [m]).
  Proof.
    intros ((SL & SG) & A & B & C) L M H. split.
    { split; [rewrite !app_length; cbn; lia|]. intros u. rewrite app_length. cbn. intros U. destruct (Nat.eq_dec u (length ids)) as [->|N].
      - rewrite !app_nth2 by lia. rewrite SL, !Nat.sub_diag. exact M.
      - rewrite !app_nth1 by lia. apply SG. lia. }
    split; [rewrite !app_length; cbn; lia|]. split.
    - intros w I. apply in_app_iff in I as [I|[<-|[]]]; [apply B, I|exact L].
    - intros u k. rewrite app_length. cbn. intros U. unfold element. destruct (Nat.eq_dec u (length ids)) as [->|N].
      + rewrite !app_nth2 by lia. rewrite A, !Nat.sub_diag. apply H.
      + rewrite !app_nth1 by lia. apply C. lia.
  Qed.
  Definition cmd_ok (n : nat) (c : cmd) : Prop :=
    match c with
    | Input v r => Pin v r
    | Stage e _ => no_unary e /\ vars e <> [] /\ Forall (fun u => u < n) (vars e)
    | Acc e _ _ => (no_unary e /\ vars e <> [] /\ Forall (fun u => u < n) (vars e)) /\ Acc_ok = true
    end.
  Lemma input_wf s v r : Pin v r -> wfn s -> wfn (snd (input s v r)).
  Proof.
    intros P W. unfold input. cbn [snd].
    assert (Cases : forall j, j < length (nodes s ++ [mkN (Some 0) v r None]) -> j < length (nodes s) \/ j = length (nodes s)) by (intros j; rewrite app_length; cbn; lia).
    split.
    - intros j r0 E. pose proof (get_reg_lt _ _ _ E) as L. split; [exact L|]. destruct (Cases j L) as [J| ->]; [|rewrite get_snoc_new in E; discriminate].
      rewrite get_snoc_old in E by exact J. destruct (wf_reg _ W j r0 E) as [_ K]. apply (okreg_same s); [|exact K]. intros x X. apply get_snoc_old. lia.
    - intros j L E. destruct (Cases j L) as [J| ->]; [rewrite get_snoc_old in * by exact J; exact (wf_in _ W j J E)|]. rewrite get_snoc_new. cbn. auto.
    - intros i j. cbn [links]. rewrite (wf_link _ W i j). split; intros (r0 & E & I); exists r0; split; try exact I.
      + rewrite get_snoc_old by exact (get_reg_lt _ _ _ E). exact E.
      + destruct (Cases j (get_reg_lt _ _ _ E)) as [J| ->]; [rewrite get_snoc_old in E by exact J; exact E|rewrite get_snoc_new in E; discriminate].
    - intros i c I. cbn [links nodes] in *. rewrite app_length. pose proof (wf_lt _ W i c I). lia.
    - intros A x k. cbn [maxst]. match goal with |- nstage (get ?s' x) = _ -> _ => destruct (Nat.lt_ge_cases x (length (nodes s'))) as [L|L]; [|rewrite get_none by exact L; discriminate] end.
      destruct (Cases x L) as [J| ->]; [rewrite get_snoc_old by exact J; exact (wf_max _ W A x k)|rewrite get_snoc_new; cbn; intros [= <-]; lia].
  Qed.
  Lemma visit_program ids s vs ls ins e : wfn s -> rel ins ids s vs ls -> no_unary e -> vars e <> [] -> Forall (fun u => u < length ids) (vars e) ->
    let e' := rename (fun u => nth u ids 0) e in
    (no_unary e' /\ lt_all (length (nodes s)) (vars e')) /\ stage_of s e' = Some (list_max (map (fun u => nth u ls 0) (vars e))) /\ forall k, value (elems s ins k) e' = value (element cst vs k) e.
  Proof.
    intros W ((SL & SG) & A & B & C) U N L e'. rewrite Forall_forall in L.
    assert (V : lt_all (length (nodes s)) (vars e')).
    { intros v I. unfold e' in I. rewrite vars_rename in I. apply in_map_iff in I as (u & <- & I). apply B, nth_In, L, I. }
    split; [split; [apply unary_rename, U|exact V]|]. split.
    - unfold e', stage_of. rewrite vars_rename. rewrite <- omaxs_some by (destruct (vars e); [contradiction|discriminate]).
      f_equal. rewrite !map_map. apply map_ext_in. intros u I. apply SG, L, I.
    - intros k. unfold e'. rewrite value_rename. apply value_ext. intros u I. unfold elems. apply C, L, I.
  Qed.
  Definition cmd_stream (ins : nat -> stream) (vs : list stream) (v : nat) (c : cmd) : stream :=
    match c with
    | Input _ _ => ins v
    | Stage e _ => fun k => value (element cst vs k) e
    | Acc e ops init => running sem semu cst ops init (fun k => value (element cst vs k) e)
    end.
  Definition level (ls : list nat) (c : cmd) : nat := match c with Input _ _ => 0 | Stage e _ | Acc e _ _ => S (list_max (map (fun u => nth u ls 0) (vars e))) end.
  Lemma exec_ok ins ids s vs ls c : wfn s -> rel ins ids s vs ls -> cmd_ok (length ids) c ->
    let '(ids', s') := exec c (ids, s) in good s s' /\ exists v, ids' = ids ++ [v] /\ rel ins ids' s' (vs ++ [cmd_stream ins vs v c]) (ls ++ [level ls c]).
  Proof.
    intros W R O. unfold exec. destruct c as [va re|e init|e ops init]; cbn [cmd_ok] in O.
    - pose proof (input_wf s va re O W) as W'. unfold input in *. cbn [snd] in W'.
      set (s' := mkP _ _ _) in *. assert (X : ext s s') by (eexists; reflexivity).
      split; [split; assumption|]. exists (length (nodes s)). split; [reflexivity|]. apply rel_snoc.
      + eapply rel_ext; eassumption.
      + cbn. rewrite app_length. cbn. lia.
      + unfold s'. rewrite get_snoc_new. reflexivity.
      + intros k. unfold s'. rewrite str_new. reflexivity.
    - destruct O as (U & N & L). destruct (visit_program ids s vs ls ins e W R U N L) as ([U' L'] & M & V). cbv zeta in *. set (m := list_max _) in M.
      unfold stage. pose proof (visit_ok _ U' s W L') as H. destruct (visit _ s) as [r s1]. destruct H as [[W1 X1] RI].
      pose proof (stage_res_ok s1 r init _ s m W1 RI M) as H. destruct (stage_res s1 r init) as [v s2]. destruct H as [[W2 X2] (VL & VM & VS)].
      assert (X : ext s s2) by (eapply ext_trans; eassumption).
      split; [split; assumption|]. exists v. split; [reflexivity|]. apply rel_snoc; [eapply rel_ext; eassumption|exact VL|exact VM|].
      intros k. rewrite VS. apply V.
    - destruct O as ((U & N & L) & OA). destruct (visit_program ids s vs ls ins e W R U N L) as ([U' L'] & M & V). cbv zeta in *. set (m := list_max _) in M.
      unfold accumulate. pose proof (visit_ok _ U' s W L') as H. destruct (visit _ s) as [r s1]. destruct H as [[W1 X1] (RO & RS & RV)].
      pose proof (add_reg_wf s1 r init ops m (maxst s1) W1 RO ltac:(congruence) (le_n _) ltac:(congruence)) as W2. cbv zeta in W2.
      change (mkP (nodes (snd (add_reg s1 r init ops))) (links (snd (add_reg s1 r init ops))) (maxst s1)) with (snd (add_reg s1 r init ops)) in W2. pose proof (add_reg_ext s1 r init ops) as X2.
      pose proof (add_reg_str s1 r init ops ins) as VS.
      assert (VM : nstage (get (snd (add_reg s1 r init ops)) (length (nodes s1))) = Some (S m)) by (unfold add_reg; cbn [snd]; rewrite get_snoc_new; cbn [nstage]; rewrite RS, M; reflexivity).
      assert (Id : fst (add_reg s1 r init ops) = length (nodes s1)) by reflexivity.
      assert (Ln : length (nodes (snd (add_reg s1 r init ops))) = S (length (nodes s1))) by (cbn; rewrite app_length; cbn; lia).
      destruct (add_reg s1 r init ops) as [v s2]. cbn [fst snd] in *. subst v.
      assert (X : ext s s2) by (eapply ext_trans; eassumption).
      split; [split; assumption|]. exists (length (nodes s1)). split; [reflexivity|]. apply rel_snoc; [eapply rel_ext; eassumption|lia|exact VM|].
      intros k. rewrite VS. cbn [cmd_stream]. apply running_ext. intros k'. rewrite RV. apply V.
  Qed.
  Fixpoint cmds_ok (n : nat) (cs : list cmd) : Prop := match cs with [] => True | c :: cs => cmd_ok n c /\ cmds_ok (S n) cs end.
  Lemma build_ok ins cs : forall ids s vs ls, wfn s -> rel ins ids s vs ls -> cmds_ok (length ids) cs ->
    let '(ids', s') := fold_left (fun p c => exec c p) cs (ids, s) in
    good s s' /\ (exists t, ids' = ids ++ t /\ length t = length cs) /\ rel ins ids' s' (meaning sem semu cst cs (fun u => ins (nth u ids' 0)) vs) (levels cs ls).
  Proof.
    induction cs as [|c cs IH]; intros ids s vs ls W R O; cbn [fold_left].
    - split; [split; [exact W|apply ext_refl]|]. split; [exists []; rewrite app_nil_r; auto|exact R].
    - destruct O as [O OS]. pose proof (exec_ok ins ids s vs ls c W R O) as H. destruct (exec c (ids, s)) as [ids1 s1].
      destruct H as [[W1 X1] (v & E & R1)]. assert (Ln : length ids1 = S (length ids)) by (rewrite E, app_length; cbn; lia).
      specialize (IH ids1 s1 _ _ W1 R1 ltac:(rewrite Ln; exact OS)).
      destruct (fold_left (fun p c => exec c p) cs (ids1, s1)) as [ids' s']. destruct IH as (G & (t & T & TL) & RR).
      split; [eapply good_trans; [split; eassumption|exact G]|]. split; [exists (v :: t); rewrite T, E, <- app_assoc; cbn; auto|].
      cbn [meaning levels].
      assert (Eq : match c with Input _ _ => ins (nth (length vs) ids' 0) | Stage e _ => fun k => value (element cst vs k) e
                   | Acc e ops init => running sem semu cst ops init (fun k => value (element cst vs k) e) end = cmd_stream ins vs v c).
      { destruct c; cbn [cmd_stream]; try reflexivity. f_equal. destruct R as (_ & A & _). rewrite A, T, E, <- app_assoc. rewrite app_nth2 by lia. rewrite Nat.sub_diag. reflexivity. }
      rewrite Eq. exact RR.
  Qed.
  Lemma delays_max n : forall s v m, wfn s -> nstage (get s v) = Some m -> m + n <= maxst s \/ n = 0 -> maxst (snd (delays n s v)) = maxst s.
  Proof.
    induction n as [|n IH]; intros s v m W K L; cbn [delays]; [reflexivity|]. destruct L as [L|L]; [|discriminate].
    assert (VL : v < length (nodes s)) by (destruct (Nat.lt_ge_cases v (length (nodes s))) as [H|H]; [exact H|rewrite get_none in K by exact H; discriminate]).
    pose proof (stage_res_ok s (visit_var s v) 0 (PVar v) s m W (visit_var_ok s v W VL) ltac:(unfold stage_of; cbn; rewrite omax_none; exact K)) as H.
    assert (M : maxst (snd (stage_res s (visit_var s v) 0)) = maxst s) by (unfold stage_res, add_reg; cbn [snd maxst sstage visit_var]; rewrite K; lia).
    destruct (stage_res s (visit_var s v) 0) as [v' s']. destruct H as [[W' X] (_ & V' & _)]. cbn [snd] in M. rewrite <- M.
    apply (IH s' v' (S m) W' V'). left. lia.
  Qed.
  Lemma output_ok ins ids s vs ls u k : wfn s -> rel ins ids s vs ls -> u < length ids ->
    let '(o, s') := make_output s (nth u ids 0) k in (good s s' /\ maxst s' = maxst s) /\ (o < length (nodes s') /\ nstage (get s' o) = Some (Nat.max (maxst s) (nth u ls 0))) /\ forall t, str s' ins o t = element cst vs t u.
  Proof.
    intros W ((SL & SG) & A & B & C) L. unfold make_output. assert (V : nth u ids 0 < length (nodes s)) by (apply B, nth_In, L).
    pose proof (SG u L) as I. set (i := nth u ls 0) in *. rewrite I.
    assert (V1 : var_is s s (PVar (nth u ids 0)) i (nth u ids 0)) by (split; [exact V|]; split; [exact I|]; reflexivity).
    pose proof (delays_max (maxst s - i) s _ i W I ltac:(lia)) as MX.
    pose proof (delays_ok (maxst s - i) s _ s _ i W V1) as H. destruct (delays (maxst s - i) s (nth u ids 0)) as [o s1]. destruct H as [[W1 X1] (VL & VM & VS)]. cbn [snd] in MX.
    split; [split; [split|exact MX]|].
    - split.
      + intros j r E. change (get (mkP (nodes s1) _ _) j) with (get s1 j) in E. destruct (wf_reg _ W1 j r E) as [P Q]. split; [exact P|]. apply (okreg_same s1); [reflexivity|exact Q].
      + intros j J E. exact (wf_in _ W1 j J E).
      + intros x j. cbn [links]. rewrite in_app_iff. rewrite (wf_link _ W1 x j). split; [|auto]. intros [H|H]; [exact H|].
        destruct k as [k|]; [|contradiction]. destruct (nready (get s1 o)); [|contradiction]. destruct H as [H|[]]. discriminate.
      + intros x c. cbn [links nodes]. rewrite in_app_iff. intros [H|H]; [exact (wf_lt _ W1 x c H)|].
        destruct k as [k|]; [|contradiction]. destruct (nready (get s1 o)); [|contradiction]. destruct H as [[= <- <-]|[]]. exact VL.
      + exact (wf_max _ W1).
    - destruct X1 as [l X1]. exists l. exact X1.
    - split; [split; [exact VL|]; replace (Nat.max (maxst s) i) with (i + (maxst s - i)) by lia; exact VM|]. intros t. change (str (mkP (nodes s1) _ _) ins o t) with (str s1 ins o t). rewrite VS. cbn. unfold elems. apply C, L.
  Qed.
  Lemma outputs_ok ins ids vs ls outs : forall s l, wfn s -> rel ins ids s vs ls -> Forall (fun o => fst o < length ids) outs ->
    let '(os, s') := fold_left (fun p o => let '(l, s) := p in let '(v, s) := make_output s (nth (fst o) ids 0) (snd o) in (l ++ [v], s)) outs (l, s) in
    (good s s' /\ maxst s' = maxst s) /\ exists t, os = l ++ t /\ Forall2 (fun o v => (v < length (nodes s') /\ nstage (get s' v) = Some (Nat.max (maxst s) (nth (fst o) ls 0))) /\ forall k, str s' ins v k = element cst vs k (fst o)) outs t.
  Proof.
    induction outs as [|o outs IH]; intros s l W R F; cbn [fold_left].
    - split; [split; [split; [exact W|apply ext_refl]|reflexivity]|]. exists []. rewrite app_nil_r. split; [reflexivity|constructor].
    - inversion F as [|? ? F1 F2]; subst. pose proof (output_ok ins ids s vs ls (fst o) (snd o) W R F1) as H.
      destruct (make_output s (nth (fst o) ids 0) (snd o)) as [v s1]. destruct H as ([[W1 X1] M1] & [VL VM] & VS).
      specialize (IH s1 (l ++ [v]) W1 (rel_ext _ _ _ _ _ _ X1 R) F2).
      destruct (fold_left _ outs (l ++ [v], s1)) as [os s2]. destruct IH as ([[W2 X2] M2] & t & T & FF). rewrite M1 in *.
      split; [split; [split; [exact W2|eapply ext_trans; eassumption]|exact M2]|]. exists (v :: t). split; [rewrite T, <- app_assoc; reflexivity|].
      constructor; [|exact FF]. pose proof (ext_len _ _ X2). split; [split; [lia|rewrite (ext_get _ _ _ X2 VL); exact VM]|]. intros k. rewrite (str_ext _ _ _ _ _ _ _ X2) by exact VL. apply VS.
  Qed.
End Con.
End Inputs.

(** ** Runs *)
Lemma in_conds s v c : In c (conds s v) <-> In (v, c) (links s).
Proof.
  unfold conds. rewrite in_map_iff. split.
  - intros ([w d] & E & I). apply filter_In in I as [I Q]. cbn in *. apply Nat.eqb_eq in Q. subst. exact I.
  - intros I. exists (v, c). split; [reflexivity|]. apply filter_In. split; [exact I|]. cbn. apply Nat.eqb_refl.
Qed.
Lemma ev_value sem semu d e : ev sem semu d e = value sem semu int_const d e.
Proof.
  reflexivity.
Qed.
Definition hs (v r : bool) : Prop := v = true /\ r = true.
Section Run.
  Variables (acc : bool) (s : pl) (W : wfn hs acc s).
  Notation N := (length (nodes s)).
  Lemma all_hs v : v < N -> nvalid (get s v) = true /\ nready (get s v) = true.
  Proof.
    induction v as [v IH] using lt_wf_ind. intros L. destruct (nreg (get s v)) as [r|] eqn:E.
    - destruct (wf_reg _ _ _ W v r E) as [_ K]. rewrite (kr_nv _ _ _ _ K), (kr_nr _ _ _ _ K).
      destruct (vars (rdata r)) as [|w l] eqn:V; [destruct (kr_some _ _ _ _ K V)|].
      assert (I : In w (vars (rdata r))) by (rewrite V; left; reflexivity). pose proof (kr_lt _ _ _ _ K w I) as WL.
      destruct (IH w WL ltac:(lia)) as [A B].
      assert (I1 : In w (rvalid r)) by (apply (kr_valid _ _ _ _ K); auto). assert (I2 : In w (rready r)) by (apply (kr_ready _ _ _ _ K); auto).
      destruct (rvalid r), (rready r); try contradiction; auto.
    - exact (proj2 (wf_in _ _ _ W v L E)).
  Qed.
  Section Reg.
    Variables (j : nat) (r : reg).
    Hypothesis E : nreg (get s j) = Some r.
    Lemma reg_lt : j < N.
    Proof. exact (proj1 (wf_reg _ _ _ W j r E)). Qed.
    Lemma src_lt v : In v (vars (rdata r)) -> v < j.
    Proof. apply (kr_lt _ _ _ _ (proj2 (wf_reg _ _ _ W j r E))). Qed.
    Lemma src_valid v : In v (rvalid r) <-> In v (vars (rdata r)).
    Proof.
      rewrite (kr_valid _ _ _ _ (proj2 (wf_reg _ _ _ W j r E))). split; [tauto|]. intros I. split; [exact I|].
      pose proof (src_lt v I). pose proof reg_lt. apply all_hs. lia.
    Qed.
    Lemma src_ready v : In v (rready r) <-> In v (vars (rdata r)).
    Proof.
      rewrite (kr_ready _ _ _ _ (proj2 (wf_reg _ _ _ W j r E))). split; [tauto|]. intros I. split; [exact I|].
      pose proof (src_lt v I). pose proof reg_lt. apply all_hs. lia.
    Qed.
    Lemma reads v : In v (vars (rdata r)) -> In (COrdy j) (conds s v).
    Proof. intros I. apply in_conds, (wf_link _ _ _ W). exists r. split; [exact E|]. apply src_ready, I. Qed.
    Lemma src_some : exists v, In v (vars (rdata r)).
    Proof. destruct (vars (rdata r)) as [|v l] eqn:V; [destruct (kr_some _ _ _ _ (proj2 (wf_reg _ _ _ W j r E)) V)|]. exists v. left. reflexivity. Qed.
    (** a ready source: the register is free and all its sources are valid *)
    Lemma ready_src x i rd v : wires s x i rd -> In v (vars (rdata r)) -> rd v = true ->
      (rd j = true \/ vld x j = false) /\ forall w, In w (vars (rdata r)) -> valid s x i w = true.
    Proof.
      intros WI I R. rewrite WI in R. rewrite forallb_forall in R. specialize (R _ (reads v I)). cbn in R. rewrite E in R.
      apply andb_true_iff in R as [F V]. split.
      - unfold free in F. rewrite (proj1 (all_hs j reg_lt)) in F. apply orb_true_iff in F as [F|F]; [auto|]. right. destruct (vld x j); [discriminate|reflexivity].
      - intros w J. unfold vin in V. rewrite forallb_forall in V. apply V, src_valid, J.
    Qed.
  End Reg.
  Variables (sem : nat -> list Z -> Z) (semu : nat -> Z -> Z).
  Notation str := (net_stream sem semu int_const s). Notation next := (next sem semu s).
  Section Reg2.
    Variables (j : nat) (r : reg).
    Hypothesis E : nreg (get s j) = Some r.
    (** what a register does in a cycle in which its sources are ready together *)
    Lemma reg_step x i rd : wires s x i rd -> (forall a b, In a (vars (rdata r)) -> In b (vars (rdata r)) -> rd a = rd b) ->
      ((forall v, In v (vars (rdata r)) -> valid s x i v = true /\ rd v = true) /\ (vld x j = true -> rd j = true) /\
        vld (next x i rd) j = true /\ dat (next x i rd) j = combine sem semu (racc r) (dat x j) (value sem semu int_const (data s x i) (rdata r)))
      \/ ((forall v, In v (vars (rdata r)) -> rd v = false) /\ vld (next x i rd) j = (vld x j && negb (rd j)) /\ dat (next x i rd) j = dat x j).
    Proof.
      intros WI T. destruct (src_some j r E) as [v0 I0]. pose proof (all_hs j (reg_lt j r E)) as [NV NR].
      unfold next. cbn [vld dat]. rewrite E, NV, NR. destruct (rd v0) eqn:R0.
      - left. destruct (ready_src j r E x i rd v0 WI I0 R0) as [F V].
        assert (A : all_ready rd r = true) by (apply forallb_forall; intros v I; apply (src_ready j r E) in I; rewrite (T v v0 I I0); exact R0).
        assert (FR : free s x rd j = true) by (unfold free; rewrite NV; destruct F as [-> | ->]; [reflexivity|apply orb_true_r]).
        assert (VI : vin s x i r = true) by (apply forallb_forall; intros v I; apply V, (src_valid j r E), I).
        rewrite A, FR, VI. cbn [andb]. split; [|split; [|split]].
        + intros v I. split; [apply V, I|]. rewrite (T v v0 I I0). exact R0.
        + intros X. destruct F as [F|F]; [exact F|congruence].
        + reflexivity.
        + rewrite ev_value. reflexivity.
      - right. assert (A : all_ready rd r = false).
        { destruct (all_ready rd r) eqn:A; [|reflexivity]. unfold all_ready in A. rewrite forallb_forall in A. rewrite (A v0) in R0 by (apply (src_ready j r E), I0). discriminate. }
        rewrite A. cbn [andb]. rewrite andb_false_r. split; [|split; [|reflexivity]].
        + intros v I. rewrite (T v v0 I I0). exact R0.
        + destruct (vld x j), (rd j); reflexivity.
    Qed.
  End Reg2.

  (** number of elements that have left each variable; contents of the registers *)
  Variable ins : nat -> stream Z.
  Definition prev (j : nat) (r : reg) (m : nat) : Z := match m with O => rinit r | S m => str ins j m end.
  Definition Inv (x : st) (n : nat -> nat) : Prop := forall j r, nreg (get s j) = Some r ->
    (forall v, In v (vars (rdata r)) -> n v = n j + Nat.b2n (vld x j)) /\ dat x j = prev j r (n j + Nat.b2n (vld x j)).
  Definition pass (x : st) (i : drive) (rd : nat -> bool) (v : nat) : bool := valid s x i v && rd v.
  Lemma inv_data x i n v : Inv x n -> v < N -> valid s x i v = true -> (nreg (get s v) = None -> idat i v = ins v (n v)) -> data s x i v = str ins v (n v).
  Proof.
    intros IV L V H. unfold data, valid, is_input in *. destruct (nreg (get s v)) as [r|] eqn:E.
    - destruct (IV v r E) as [_ D]. rewrite D, V. cbn [Nat.b2n]. rewrite Nat.add_1_r. reflexivity.
    - rewrite (str_in hs acc sem semu int_const s v ins L E). apply H. reflexivity.
  Qed.
  Lemma inv_step x i rd n : wires s x i rd -> together s rd -> Inv x n ->
    (forall u, u < N -> nreg (get s u) = None -> pass x i rd u = true -> idat i u = ins u (n u)) ->
    Inv (next x i rd) (fun v => n v + Nat.b2n (pass x i rd v)).
  Proof.
    intros WI T IV H j r E. destruct (IV j r E) as [C D].
    assert (PJ : pass x i rd j = vld x j && rd j) by (unfold pass, valid, is_input; rewrite E; reflexivity).
    assert (T' : forall a b, In a (vars (rdata r)) -> In b (vars (rdata r)) -> rd a = rd b) by (intros a b A B; apply (T j r a b E); apply (src_ready j r E); assumption).
    destruct (reg_step j r E x i rd WI T') as [(P & F & V & DD)|(P & V & DD)]; rewrite V, DD.
    - assert (Same : forall v, In v (vars (rdata r)) -> n v = n j + Nat.b2n (vld x j)) by exact C.
      assert (PN : n j + Nat.b2n (pass x i rd j) = n j + Nat.b2n (vld x j)).
      { rewrite PJ. destruct (vld x j); [rewrite F by reflexivity|]; reflexivity. }
      split.
      + intros v I. destruct (P v I) as [PV PR]. unfold pass at 1. rewrite PV, PR. rewrite (Same v I), PN. reflexivity.
      + rewrite PN. cbn [Nat.b2n]. rewrite Nat.add_1_r. cbn [prev]. rewrite (str_reg hs acc sem semu int_const s j r ins _ W E).
        set (m := n j + Nat.b2n (vld x j)) in *.
        assert (VE : value sem semu int_const (data s x i) (rdata r) = value sem semu int_const (elems sem semu int_const s ins m) (rdata r)).
        { apply value_ext. intros v I. destruct (P v I) as [PV PR]. unfold elems. rewrite <- (Same v I).
          pose proof (src_lt j r E v I). pose proof (reg_lt j r E). assert (v < N) by lia.
          apply inv_data; try assumption. intros NR. apply H; try assumption. unfold pass. rewrite PV, PR. reflexivity. }
        rewrite VE, D. clearbody m. destruct m as [|m]; [reflexivity|]. cbn [prev running].
        rewrite (str_reg hs acc sem semu int_const s j r ins _ W E). reflexivity.
    - assert (S1 : n j + Nat.b2n (pass x i rd j) + Nat.b2n (vld x j && negb (rd j)) = n j + Nat.b2n (vld x j)).
      { rewrite PJ. destruct (vld x j), (rd j); cbn; lia. }
      rewrite S1. split; [|exact D]. intros v I. unfold pass at 1. rewrite (P v I), andb_false_r. cbn. rewrite (C v I). lia.
  Qed.
  Lemma first_cons n (x : stream Z) y l : y :: l = map x (seq n (length (y :: l))) -> y = x n /\ l = map x (seq (S n) (length l)).
  Proof. cbn [length seq map]. intros H. injection H as A B. auto. Qed.
  Lemma run_inv tr : forall x n, legal sem semu s x tr -> always sem semu s (fun _ _ rd => together s rd) x tr -> Inv x n ->
    (forall u, u < N -> nreg (get s u) = None -> passed sem semu s u x tr = map (ins u) (seq (n u) (length (passed sem semu s u x tr)))) ->
    Inv (after sem semu s x tr) (fun v => n v + length (passed sem semu s v x tr)) /\
    forall v, v < N -> passed sem semu s v x tr = map (str ins v) (seq (n v) (length (passed sem semu s v x tr))).
  Proof.
    induction tr as [|[i rd] tr IH]; intros x n; cbn [legal always passed after].
    - intros _ _ IV _. split; [|reflexivity]. intros j r E. destruct (IV j r E) as [C D]. cbn [length]. rewrite Nat.add_0_r. split; [|exact D].
      intros v I. rewrite Nat.add_0_r. auto.
    - intros [WI L] [T A] IV H. fold (pass x i rd) in *.
      assert (H1 : forall u, u < N -> nreg (get s u) = None -> pass x i rd u = true -> idat i u = ins u (n u)).
      { intros u UL UN P. specialize (H u UL UN). fold (pass x i rd u) in H. rewrite P in H. cbn [app] in H. apply first_cons in H as [H _].
        rewrite <- H. unfold data, is_input. rewrite UN. reflexivity. }
      pose proof (inv_step x i rd n WI T IV H1) as IV'.
      assert (H2 : forall u, u < N -> nreg (get s u) = None -> passed sem semu s u (next x i rd) tr =
        map (ins u) (seq (n u + Nat.b2n (pass x i rd u)) (length (passed sem semu s u (next x i rd) tr)))).
      { intros u UL UN. specialize (H u UL UN). fold (pass x i rd u) in H. destruct (pass x i rd u); cbn [app Nat.b2n] in *.
        - apply first_cons in H as [_ H]. rewrite Nat.add_1_r. exact H.
        - rewrite Nat.add_0_r. exact H. }
      destruct (IH (next x i rd) _ L A IV' H2) as [I1 I2]. split.
      + assert (Eq : forall v, n v + Nat.b2n (pass x i rd v) + length (passed sem semu s v (next x i rd) tr) =
          n v + length ((if valid s x i v && rd v then [data s x i v] else []) ++ passed sem semu s v (next x i rd) tr)).
        { intros v. fold (pass x i rd v). destruct (pass x i rd v); cbn [Nat.b2n length app]; lia. }
        intros j r E. destruct (I1 j r E) as [C D]. rewrite <- Eq. split; [|exact D]. intros v I. rewrite <- Eq. apply C, I.
      + intros v VL. specialize (I2 v VL). fold (pass x i rd v). destruct (pass x i rd v) eqn:P; cbn [Nat.b2n app length seq map] in *.
        * rewrite Nat.add_1_r in I2. rewrite <- I2. f_equal. apply inv_data; try assumption.
          -- unfold pass in P. apply andb_true_iff in P. apply P.
          -- intros NR. apply H1; assumption.
        * rewrite Nat.add_0_r in I2. exact I2.
  Qed.
  Lemma inv_start : Inv (start s) (fun _ => 0).
  Proof. intros j r E. split; [intros; reflexivity|]. unfold start. cbn [vld dat]. rewrite E. reflexivity. Qed.
End Run.

(** ** Counts *)
Section Count.
  Variables (sem : nat -> list Z -> Z) (semu : nat -> Z -> Z) (acc : bool) (s : pl) (W : wfn hs acc s).
  Variable tr : trace.
  Hypothesis (L : legal sem semu s (start s) tr) (A : always sem semu s (fun _ _ rd => together s rd) (start s) tr).
  Notation p v := (passed sem semu s v (start s) tr).
  Lemma nth_seq (l : list Z) : l = map (fun k => nth k l 0%Z) (seq 0 (length l)).
  Proof. induction l as [|y l IH]; [reflexivity|]. cbn [length seq map nth]. f_equal. rewrite <- seq_shift, map_map. exact IH. Qed.
  Lemma count_reg j r v : nreg (get s j) = Some r -> In v (vars (rdata r)) -> length (p v) = length (p j) + Nat.b2n (vld (after sem semu s (start s) tr) j).
  Proof.
    intros E I.
    destruct (run_inv acc s W sem semu (fun v k => nth k (p v) 0%Z) tr (start s) (fun _ => 0) L A (inv_start _ _ _ _)) as [IV _].
    - intros u _ _. apply nth_seq.
    - destruct (IV j r E) as [C _]. exact (C v I).
  Qed.
  Lemma count_feeds u v a b : feeds s u v -> nstage (get s u) = Some a -> nstage (get s v) = Some b ->
    a <= b /\ length (p v) <= length (p u) /\ length (p u) <= length (p v) + (b - a).
  Proof.
    intros F SA. revert b. induction F as [|v j r F IH E I]; intros b SB; [rewrite SA in SB; injection SB as <-; lia|].
    destruct (kr_stage _ _ _ _ (proj2 (wf_reg _ _ _ W j r E))) as (m & SM & SV). rewrite SB in SM. injection SM as ->.
    destruct (IH m (SV v I)) as (B & C & D). pose proof (count_reg j r v E I) as Q. destruct (vld _ j); cbn [Nat.b2n] in Q; lia.
  Qed.
End Count.

(** ** When the sources of a register are ready together *)
Lemma uniform_together s x i rd : uniform s -> wires s x i rd -> together s rd.
Proof.
  intros U WI j r a b E A B. rewrite (WI a), (WI b).
  assert (H : forall a b, In a (rready r) -> In b (rready r) -> forallb (holds s x i rd) (conds s b) = true -> forallb (holds s x i rd) (conds s a) = true).
  { intros a' b' A' B'. rewrite !forallb_forall. intros H c I. apply H. exact (U j r a' b' E A' B' c I). }
  destruct (forallb (holds s x i rd) (conds s a)) eqn:QA, (forallb (holds s x i rd) (conds s b)) eqn:QB; try reflexivity.
  - rewrite (H b a B A QA) in QB. discriminate.
  - rewrite (H a b A B QB) in QA. discriminate.
Qed.
Lemma forallb_const {A} (f : A -> bool) l b : l <> [] -> (forall c, In c l -> f c = b) -> forallb f l = b.
Proof.
  intros N H. destruct b; [apply forallb_forall, H|]. destruct l as [|c l]; [contradiction|]. cbn. rewrite (H c (or_introl eq_refl)). reflexivity.
Qed.
Section Step.
  Variables (sem : nat -> list Z -> Z) (semu : nat -> Z -> Z) (acc : bool) (s : pl) (W : wfn hs acc s) (M : nat) (TI : tight s M).
  Notation N := (length (nodes s)).
  (** validity depends on the stage only *)
  Definition staged (x : st) (g : nat -> bool) : Prop := forall j r k, nreg (get s j) = Some r -> nstage (get s j) = Some k -> vld x j = g k.
  Definition stvalid (b : bool) (g : nat -> bool) (k : nat) : bool := match k with O => b | _ => g k end.
  Fixpoint stready (b o : bool) (g : nat -> bool) (d : nat) : bool :=
    match d with O => o | S d => (stready b o g d || negb (g (M - d))) && stvalid b g (M - S d) end.
  Lemma ready_valid b o g d : o = true -> d <= M -> stvalid b g (M - d) = true -> stready b o g d = true.
  Proof.
    intros O1. induction d as [|d IH]; intros DL V; [exact O1|]. cbn [stready]. rewrite V, andb_true_r.
    destruct (g (M - d)) eqn:Q; [|apply orb_true_r]. rewrite IH; [reflexivity|lia|]. unfold stvalid. destruct (M - d) eqn:Z; [lia|exact Q].
  Qed.
  Section At.
    Variables (x : st) (i : drive) (rd : nat -> bool) (g : nat -> bool) (b o : bool).
    Hypothesis (SG : staged x g) (IB : forall u, u < N -> is_input s u = true -> ivld i u = b) (OB : forall k, ordy i k = o) (WI : wires s x i rd).
    Lemma valid_stage v k : v < N -> nstage (get s v) = Some k -> valid s x i v = stvalid b g k.
    Proof.
      intros L K. unfold valid, is_input. destruct (nreg (get s v)) as [r|] eqn:E.
      - destruct (kr_stage _ _ _ _ (proj2 (wf_reg _ _ _ W v r E))) as (m & SM & _). rewrite K in SM. injection SM as ->. cbn. exact (SG v r _ E K).
      - rewrite (proj1 (wf_in _ _ _ W v L E)) in K. injection K as <-. cbn. apply IB; [exact L|]. unfold is_input. rewrite E. reflexivity.
    Qed.
    Lemma vin_stage j r k : nreg (get s j) = Some r -> nstage (get s j) = Some (S k) -> vin s x i r = stvalid b g k.
    Proof.
      intros E K. destruct (kr_stage _ _ _ _ (proj2 (wf_reg _ _ _ W j r E))) as (m & SM & SV). rewrite K in SM. injection SM as <-.
      apply forallb_const.
      - destruct (src_some acc s W j r E) as [v I]. apply (src_valid acc s W j r E) in I. intros X. rewrite X in I. exact I.
      - intros v I. apply (src_valid acc s W j r E) in I. pose proof (src_lt acc s W j r E v I). pose proof (reg_lt acc s W j r E).
        apply valid_stage; [lia|exact (SV v I)].
    Qed.
    Lemma ready_stage d : d <= M -> forall v, v < N -> nstage (get s v) = Some (M - d) -> rd v = stready b o g d.
    Proof.
      induction d as [|d IH]; intros DL v L K; rewrite (WI v); apply forallb_const; try (apply (ti_read _ _ TI v L)); intros c I.
      - rewrite Nat.sub_0_r in K. destruct c as [j|k]; [|cbn; apply OB]. exfalso. apply in_conds, (wf_link _ _ _ W) in I as (r & E & I).
        apply (src_ready acc s W j r E) in I. destruct (kr_stage _ _ _ _ (proj2 (wf_reg _ _ _ W j r E))) as (m & SM & SV).
        rewrite (SV v I) in K. injection K as ->. pose proof (ti_stage _ _ TI _ _ SM). lia.
      - destruct c as [j|k].
        + apply in_conds, (wf_link _ _ _ W) in I as (r & E & I). apply (src_ready acc s W j r E) in I.
          destruct (kr_stage _ _ _ _ (proj2 (wf_reg _ _ _ W j r E))) as (m & SM & SV). rewrite (SV v I) in K. injection K as ->.
          cbn [holds stready]. rewrite E, (vin_stage j r _ E SM). unfold free. rewrite (proj1 (all_hs acc s W j (reg_lt acc s W j r E))).
          replace (S (M - S d)) with (M - d) in SM by lia. rewrite (IH ltac:(lia) j (reg_lt acc s W j r E) SM), (SG j r _ E SM). reflexivity.
        + apply (ti_out _ _ TI) in I. rewrite I in K. injection K as K. lia.
    Qed.
    Lemma ready_at v k : v < N -> nstage (get s v) = Some k -> rd v = stready b o g (M - k).
    Proof. intros L K. pose proof (ti_stage _ _ TI v k K). apply ready_stage; [lia|exact L|]. rewrite K. f_equal. lia. Qed.
    Lemma step_together : together s rd.
    Proof.
      intros j r u w E A B. apply (src_ready acc s W j r E) in A, B. pose proof (src_lt acc s W j r E u A). pose proof (src_lt acc s W j r E w B).
      pose proof (reg_lt acc s W j r E). destruct (kr_stage _ _ _ _ (proj2 (wf_reg _ _ _ W j r E))) as (m & SM & SV).
      rewrite (ready_at u m ltac:(lia) (SV u A)), (ready_at w m ltac:(lia) (SV w B)). reflexivity.
    Qed.
    Definition gnext (k : nat) : bool :=
      match k with
      | O => false
      | S m => if stready b o g (M - m) && (stready b o g (M - S m) || negb (g (S m))) then stvalid b g m
               else if g (S m) && stready b o g (M - S m) then false else g (S m)
      end.
    Lemma next_staged : staged (next sem semu s x i rd) gnext.
    Proof.
      intros j r k E K. destruct (kr_stage _ _ _ _ (proj2 (wf_reg _ _ _ W j r E))) as (m & SM & SV). rewrite K in SM. injection SM as ->.
      pose proof (reg_lt acc s W j r E) as JL. cbn [next vld gnext]. rewrite E. rewrite (proj1 (all_hs acc s W j JL)), (proj2 (all_hs acc s W j JL)).
      rewrite (vin_stage j r m E K). unfold free. rewrite (proj1 (all_hs acc s W j JL)), (ready_at j (S m) JL K), (SG j r _ E K).
      assert (AR : all_ready rd r = stready b o g (M - m)).
      { apply forallb_const.
        - destruct (src_some acc s W j r E) as [v I]. apply (src_ready acc s W j r E) in I. intros X. rewrite X in I. exact I.
        - intros v I. apply (src_ready acc s W j r E) in I. pose proof (src_lt acc s W j r E v I). apply ready_at; [lia|exact (SV v I)]. }
      rewrite AR. reflexivity.
    Qed.
  End At.
  Lemma in_step_vals i : in_step s i -> exists b o, (forall u, u < N -> is_input s u = true -> ivld i u = b) /\ forall k, ordy i k = o.
  Proof.
    intros [A B]. exists (forallb (fun u => if is_input s u then ivld i u else true) (seq 0 N)), (ordy i 0). split; [|intros k; apply B].
    intros u L U. destruct (ivld i u) eqn:Q.
    - symmetry. apply forallb_forall. intros w _. destruct (is_input s w) eqn:X; [|reflexivity]. rewrite (A w u X U). exact Q.
    - symmetry. destruct (forallb _ _) eqn:F; [|reflexivity]. rewrite forallb_forall in F. specialize (F u). rewrite U, Q in F. symmetry. apply F. apply in_seq. lia.
  Qed.
  Lemma in_step_together tr : forall x g, staged x g -> legal sem semu s x tr -> always sem semu s (fun _ i _ => in_step s i) x tr ->
    always sem semu s (fun _ _ rd => together s rd) x tr /\ exists g', staged (after sem semu s x tr) g'.
  Proof.
    induction tr as [|[i rd] tr IH]; intros x g SG; cbn [legal always after]; [intros _ _; split; [exact Logic.I|exists g; exact SG]|].
    intros [WI L] [ST A]. destruct (in_step_vals i ST) as (b & o & IB & OB).
    destruct (IH _ _ (next_staged x i rd g b o SG IB OB WI) L A) as [B C]. split; [split; [|exact B]|exact C].
    exact (step_together x i rd g b o SG IB OB WI).
  Qed.
  Lemma start_staged : staged (start s) (fun _ => false).
  Proof. intros j r k _ _. reflexivity. Qed.
  Lemma progress tr i rd v : legal sem semu s (start s) tr -> always sem semu s (fun _ i _ => in_step s i) (start s) tr ->
    wires s (after sem semu s (start s) tr) i rd -> in_step s i -> (forall k, ordy i k = true) -> v < N ->
    valid s (after sem semu s (start s) tr) i v = true -> rd v = true.
  Proof.
    intros L A WI ST O VL V. destruct (in_step_together tr _ _ start_staged L A) as [_ [g SG]]. destruct (in_step_vals i ST) as (b & o & IB & OB).
    destruct (wf_stage hs acc s v W VL) as [k K]. rewrite (ready_at _ _ _ _ _ _ SG IB OB WI v k VL K).
    pose proof (ti_stage _ _ TI v k K). apply ready_valid; [rewrite <- (OB 0); apply O|lia|].
    rewrite (valid_stage _ i g b SG IB v k VL K) in V. replace (M - (M - k)) with k by lia. exact V.
  Qed.
End Step.

(** ** The ready wires are determined *)
Section Wires.
  Variables (P : bool -> bool -> Prop) (acc : bool) (s : pl) (W : wfn P acc s) (x : st) (i : drive).
  Notation N := (length (nodes s)).
  Fixpoint rdf (f : nat) (v : nat) : bool := match f with O => true | S f => forallb (holds s x i (rdf f)) (conds s v) end.
  Lemma conds_none v : N <= v -> conds s v = [].
  Proof. intros L. destruct (conds s v) as [|c l] eqn:E; [reflexivity|]. assert (I : In c (conds s v)) by (rewrite E; left; reflexivity).
    apply in_conds in I. pose proof (wf_lt _ _ _ W v c I). lia. Qed.
  Lemma cond_later v j : In (COrdy j) (conds s v) -> v < j < N.
  Proof.
    intros I. apply in_conds, (wf_link _ _ _ W) in I as (r & E & I). destruct (wf_reg _ _ _ W j r E) as [L K].
    apply (kr_ready _ _ _ _ K) in I as [I _]. split; [exact (kr_lt _ _ _ _ K v I)|exact L].
  Qed.
  Lemma forallb_ext_in {A} (f g : A -> bool) l : (forall c, In c l -> f c = g c) -> forallb f l = forallb g l.
  Proof. intros H. induction l as [|c l IH]; [reflexivity|]. cbn. rewrite (H c (or_introl eq_refl)), IH; [reflexivity|]. intros d I. apply H. right. exact I. Qed.
  Lemma holds_ext rd rd' v : (forall j, v < j < N -> rd j = rd' j) -> forall c, In c (conds s v) -> holds s x i rd c = holds s x i rd' c.
  Proof. intros H c I. destruct c as [j|k]; [|reflexivity]. cbn. unfold free. rewrite (H j (cond_later v j I)). reflexivity. Qed.
  Lemma rdf_stable f : forall v, N <= v + f -> rdf (S f) v = rdf f v.
  Proof.
    induction f as [|f IH]; intros v L; [cbn; rewrite conds_none by lia; reflexivity|].
    cbn [rdf]. apply forallb_ext_in, holds_ext. intros j J. apply IH. lia.
  Qed.
  Lemma wires_exist : exists rd, wires s x i rd.
  Proof. exists (rdf N). intros v. rewrite <- (rdf_stable N v) by lia. reflexivity. Qed.
  Lemma wires_unique rd rd' : wires s x i rd -> wires s x i rd' -> forall v, rd v = rd' v.
  Proof.
    intros A B. assert (H : forall d v, N <= v + d -> rd v = rd' v).
    { induction d as [|d IH]; intros v L; rewrite (A v), (B v); [rewrite conds_none by lia; reflexivity|].
      apply forallb_ext_in, holds_ext. intros j J. apply IH. lia. }
    intros v. apply (H N). lia.
  Qed.
End Wires.

(** ** Without ready *)
Definition no_rdy (v r : bool) : Prop := r = false.
Section NoReady.
  Variables (sem : nat -> list Z -> Z) (semu : nat -> Z -> Z) (s : pl) (W : wfn no_rdy false s).
  Notation N := (length (nodes s)). Notation lsem := (lift sem). Notation lsemu := (liftu semu).
  Variable e : nat -> drive * (nat -> bool).
  Definition sees (t : nat) (v : nat) : option Z := shows s (at_cycle sem semu s e t) (fst (e t)) v.
  Lemma no_ready v : nready (get s v) = false.
  Proof.
    induction v as [v IH] using lt_wf_ind. destruct (Nat.lt_ge_cases v N) as [L|L]; [|rewrite get_none by exact L; reflexivity].
    destruct (nreg (get s v)) as [r|] eqn:E.
    - destruct (wf_reg _ _ _ W v r E) as [_ K]. rewrite (kr_nr _ _ _ _ K). destruct (rready r) as [|w l] eqn:Q; [reflexivity|].
      assert (I : In w (rready r)) by (rewrite Q; left; reflexivity). apply (kr_ready _ _ _ _ K) in I as [I R]. rewrite IH in R by exact (kr_lt _ _ _ _ K w I). discriminate.
    - exact (proj2 (wf_in _ _ _ W v L E)).
  Qed.
  (** the value of an expression over optional elements *)
  Lemma all_some_map {B} (f : B -> option Z) (g : B -> Z) l : (forall b, In b l -> f b = Some (g b)) -> all_some (map f l) = Some (map g l).
  Proof. intros H. induction l as [|b l IH]; [reflexivity|]. cbn. rewrite (H b (or_introl eq_refl)), IH; [reflexivity|]. intros c I. apply H. right. exact I. Qed.
  Lemma all_some_none l : In None l -> all_some l = None.
  Proof. induction l as [|x l IH]; [contradiction|]. intros [->|I]; [reflexivity|]. cbn. rewrite (IH I). destruct x; reflexivity. Qed.
  Lemma value_some d d' a : (forall v, In v (vars a) -> d v = Some (d' v)) -> value lsem lsemu Some d a = Some (value sem semu int_const d' a).
  Proof.
    induction a as [v|z|o a IH|o l IH] using pe_tree_ind; intros H; cbn [value].
    - apply H. left. reflexivity.
    - reflexivity.
    - rewrite IH by exact H. reflexivity.
    - unfold lift. rewrite (all_some_map _ (value sem semu int_const d')); [reflexivity|]. intros a I. rewrite Forall_forall in IH. apply (IH a I).
      intros v V. apply H. cbn. apply in_flat_map. eauto.
  Qed.
  Lemma value_none d a v : In v (vars a) -> d v = None -> value lsem lsemu Some d a = None.
  Proof.
    induction a as [w|z|o a IH|o l IH] using pe_tree_ind; cbn [value vars]; intros I D.
    - destruct I as [->|[]]. exact D.
    - contradiction.
    - rewrite IH by assumption. reflexivity.
    - unfold lift. rewrite all_some_none; [reflexivity|]. apply in_flat_map in I as (a & I & V). apply in_map_iff. exists a. split; [|exact I].
      rewrite Forall_forall in IH. exact (IH a I V D).
  Qed.
  Lemma sees_reg t j r : nreg (get s j) = Some r -> sees (S t) j = value lsem lsemu Some (sees t) (rdata r).
  Proof.
    intros E. destruct (wf_reg _ _ _ W j r E) as [_ K]. unfold sees at 1, shows. cbn [at_cycle]. set (x := at_cycle sem semu s e t). set (i := fst (e t)).
    unfold valid at 1, data at 1, is_input. rewrite E. cbn [next vld dat]. rewrite E, (no_ready j), (kr_acc _ _ _ _ K eq_refl), andb_true_r. cbn [accum fold_left].
    assert (NV : nvalid (get s j) = notnil (rvalid r)) by exact (kr_nv _ _ _ _ K).
    destruct (vin s x i r) eqn:V.
    - rewrite (value_some _ (data s x i)).
      + rewrite NV, ev_value. destruct (rvalid r); reflexivity.
      + intros v I. unfold sees, shows. fold x i. destruct (nvalid (get s v)) eqn:Q; [|reflexivity].
        unfold vin in V. rewrite forallb_forall in V. rewrite (V v) by (apply (kr_valid _ _ _ _ K); auto). reflexivity.
    - assert (exists v, In v (rvalid r) /\ valid s x i v = false) as (v & I & Q).
      { unfold vin in V. clear - V. induction (rvalid r) as [|v l IH]; [discriminate|]. cbn in V. destruct (valid s x i v) eqn:Q; [|exists v; split; [left; reflexivity|exact Q]].
        destruct (IH V) as (w & I & R). exists w. split; [right; exact I|exact R]. }
      rewrite NV. destruct (rvalid r) as [|w l] eqn:R; [contradiction|]. cbn [notnil andb negb]. symmetry. rewrite <- R in I. apply (kr_valid _ _ _ _ K) in I as [I NI].
      apply (value_none _ _ v I). unfold sees, shows. fold x i. rewrite NI, Q. reflexivity.
  Qed.
  Lemma sees_stage v k t : v < N -> nstage (get s v) = Some k -> sees (t + k) v = net_stream lsem lsemu Some s (fun u t => sees t u) v t.
  Proof.
    revert k t. induction v as [v IH] using lt_wf_ind. intros k t L K. destruct (nreg (get s v)) as [r|] eqn:E.
    - destruct (wf_reg _ _ _ W v r E) as [_ KR]. destruct (kr_stage _ _ _ _ KR) as (m & SM & SV). rewrite K in SM. injection SM as ->.
      rewrite Nat.add_succ_r, (sees_reg _ _ _ E), (str_reg no_rdy false _ _ _ s v r _ _ W E), (kr_acc _ _ _ _ KR eq_refl), running_nil.
      apply value_ext. intros w I. pose proof (kr_lt _ _ _ _ KR w I). unfold elems. apply IH; [lia|lia|exact (SV w I)].
    - rewrite (proj1 (wf_in _ _ _ W v L E)) in K. injection K as <-. rewrite Nat.add_0_r. rewrite (str_in no_rdy false _ _ _ s v _ L E). reflexivity.
  Qed.
End NoReady.

(** ** Nets without dead ends *)
(** what holds of every added register holds of [visit] *)
Section Pre.
  Variable R : pl -> pl -> Prop.
  Hypothesis (R_refl : forall s, R s s) (R_trans : forall a b c, R a b -> R b c -> R a c) (R_reg : forall s r i, R s (snd (stage_res s r i))).
  Lemma delays_pre n : forall s v, R s (snd (delays n s v)).
  Proof.
    induction n as [|n IH]; intros s v; cbn [delays]; [apply R_refl|]. pose proof (R_reg s (visit_var s v) 0) as A.
    destruct (stage_res s (visit_var s v) 0) as [v' s']. exact (R_trans _ _ _ A (IH s' v')).
  Qed.
  Definition vis_pre (a : pe) : Prop := forall s, R s (snd (visit a s)).
  Lemma visits_pre l : Forall vis_pre l -> forall s, R s (snd (visits visit l s)).
  Proof.
    induction 1 as [|a l F _ IH]; intros s; cbn [visits]; [apply R_refl|]. specialize (F s). destruct (visit a s) as [r s1].
    specialize (IH s1). destruct (visits visit l s1) as [rs s2]. exact (R_trans _ _ _ F IH).
  Qed.
  Lemma delay_args_pre m l : Forall vis_pre l -> forall rs s, R s (snd (delay_args visit m l rs s)).
  Proof.
    induction 1 as [|a l F _ IH]; intros rs s; cbn [delay_args]; [apply R_refl|]. destruct rs as [|r rs]; [apply R_refl|].
    assert (A : R s (snd (delay_arg visit m a r s))).
    { unfold delay_arg. destruct (sstage r) as [k|]; [|apply R_refl]. destruct (k =? m); [apply R_refl|]. specialize (F s). destruct (visit a s) as [r' s1].
      pose proof (R_reg s1 r' 0) as B. destruct (stage_res s1 r' 0) as [v s2]. pose proof (delays_pre (m - k - 1) s2 v) as C.
      destruct (delays (m - k - 1) s2 v) as [v' s3]. cbn [snd] in *. eauto. }
    destruct (delay_arg visit m a r s) as [x s1]. specialize (IH rs s1). destruct (delay_args visit m l rs s1) as [xs s2]. exact (R_trans _ _ _ A IH).
  Qed.
  Lemma revisits_pre l : Forall vis_pre l -> forall xs s, R s (snd (revisits visit l xs s)).
  Proof.
    induction 1 as [|a l F _ IH]; intros xs s; cbn [revisits]; [apply R_refl|]. destruct xs as [|x xs]; [apply R_refl|].
    assert (A : R s (snd (match x with Some v => (visit_var s v, s) | None => visit a s end))) by (destruct x; [apply R_refl|apply F]).
    destruct (match x with Some v => (visit_var s v, s) | None => visit a s end) as [r s1]. specialize (IH xs s1).
    destruct (revisits visit l xs s1) as [rs s2]. exact (R_trans _ _ _ A IH).
  Qed.
  Lemma visit_pre a : vis_pre a.
  Proof.
    induction a as [v|z|o a IH|o l IH] using pe_tree_ind; intros s; cbn [visit]; try apply R_refl; [apply IH|]. unfold pack.
    pose proof (visits_pre l IH s) as A. destruct (visits visit l s) as [rs s1]. destruct (max_stage rs) as [m|]; [|exact A].
    pose proof (delay_args_pre m l IH rs s1) as B. destruct (delay_args visit m l rs s1) as [xs s2].
    pose proof (revisits_pre l IH xs s2) as C. destruct (revisits visit l xs s2) as [rs' s3]. cbn [snd] in *. eauto.
  Qed.
End Pre.
Definition outs_same (s s' : pl) : Prop := forall v k, In (v, COut k) (links s') -> In (v, COut k) (links s).
Lemma reg_outs s r init acc : outs_same s (snd (add_reg s r init acc)).
Proof. intros v k. cbn. rewrite in_app_iff, in_map_iff. intros [I|(x & E & _)]; [exact I|discriminate]. Qed.
Lemma outs_trans a b c : outs_same a b -> outs_same b c -> outs_same a c.
Proof. intros A B v k I. apply A, B, I. Qed.
Lemma stage_outs s r init : outs_same s (snd (stage_res s r init)).
Proof. exact (reg_outs s r init []). Qed.
Lemma visit_outs e s : outs_same s (snd (visit e s)).
Proof. apply (visit_pre outs_same); [intros x v k I; exact I|exact outs_trans|intros; apply stage_outs]. Qed.
Lemma delays_outs n s v : outs_same s (snd (delays n s v)).
Proof. apply (delays_pre outs_same); [intros x w k I; exact I|exact outs_trans|intros; apply stage_outs]. Qed.

Section Flat.
  Variable acc : bool.
  Notation wf := (wfn hs acc).
  (** all variables without readers are in [D] *)
  Definition opens (s : pl) (D : list nat) : Prop := forall v, v < length (nodes s) -> conds s v = [] -> In v D.
  Lemma opens_incl s D D' : incl D D' -> opens s D -> opens s D'.
  Proof. intros H O v L C. apply H, O; assumption. Qed.
  Lemma opens_reg s r init ac D m : opens s (sready r ++ D) -> let s' := snd (add_reg s r init ac) in opens (mkP (nodes s') (links s') m) (length (nodes s) :: D).
  Proof.
    intros O s' v L C. cbn [nodes] in L. unfold s' in *. cbn [add_reg snd nodes] in L. rewrite app_length in L. cbn in L.
    destruct (Nat.eq_dec v (length (nodes s))) as [->|N]; [left; reflexivity|]. right.
    assert (NO : forall c, ~ In (v, c) (links s ++ map (fun i => (i, COrdy (length (nodes s)))) (sready r))).
    { intros c I. assert (J : In c (conds (mkP (nodes (snd (add_reg s r init ac))) (links (snd (add_reg s r init ac))) m) v)) by (apply in_conds; exact I). rewrite C in J. exact J. }
    assert (I : In v (sready r ++ D)).
    { apply O; [lia|]. destruct (conds s v) as [|c l] eqn:Q; [reflexivity|]. exfalso. apply (NO c). apply in_app_iff. left. apply in_conds. rewrite Q. left. reflexivity. }
    apply in_app_iff in I as [I|I]; [|exact I]. exfalso. apply (NO (COrdy (length (nodes s)))). apply in_app_iff. right. apply in_map_iff. exists v. auto.
  Qed.
  Lemma opens_stage s r init D : opens s (sready r ++ D) -> opens (snd (stage_res s r init)) (fst (stage_res s r init) :: D).
  Proof. apply opens_reg. Qed.
  Lemma wf_nready s v : wf s -> v < length (nodes s) -> nready (get s v) = true.
  Proof. intros W L. exact (proj2 (all_hs acc s W v L)). Qed.
  Lemma opens_delays n : forall s v D, wf s -> v < length (nodes s) -> opens s (v :: D) -> opens (snd (delays n s v)) (fst (delays n s v) :: D).
  Proof.
    induction n as [|n IH]; intros s v D W L O; cbn [delays]; [exact O|]. destruct (wf_stage hs acc s v W L) as [k K].
    pose proof (stage_res_ok hs acc (fun _ _ => 0%Z) (fun _ z => z) int_const s (visit_var s v) 0 (PVar v) s k W (visit_var_ok hs acc _ _ _ s v W L)
      ltac:(unfold stage_of; cbn; rewrite omax_none; exact K)) as H.
    assert (O' : opens s (sready (visit_var s v) ++ D)) by (cbn; rewrite (wf_nready s v W L); exact O).
    pose proof (opens_stage s (visit_var s v) 0 D O') as O2. destruct (stage_res s (visit_var s v) 0) as [v' s']. destruct H as [[W' _] (L' & _)]. apply IH; assumption.
  Qed.
  (** expressions of one stage add nothing *)
  Definition level_is (s : pl) (a : pe) : Prop := forall u w, In u (vars a) -> In w (vars a) -> nstage (get s u) = nstage (get s w).
  Lemma stage_all s a m : level_is s a -> stage_of s a = Some m -> wf s -> lt_all (length (nodes s)) (vars a) -> forall u, In u (vars a) -> nstage (get s u) = Some m.
  Proof.
    intros LV ST W L u I. destruct (wf_stage hs acc s u W (L u I)) as [k K]. rewrite K. f_equal.
    unfold stage_of in ST. rewrite (omaxs_all _ k) in ST; [injection ST as <-; reflexivity| |].
    - intros X. destruct (vars a); [contradiction|discriminate].
    - intros x J. apply in_map_iff in J as (w & <- & J). rewrite <- K. apply LV; assumption.
  Qed.
  Definition quiet (s : pl) (a : pe) (r : res) : Prop := visit a s = (r, s) /\ vars (sdata r) = vars a /\ okres s r /\ sstage r = stage_of s a.
  Lemma visit_quiet a : no_unary a -> forall s, wf s -> lt_all (length (nodes s)) (vars a) -> level_is s a -> exists r, quiet s a r.
  Proof.
    induction a as [v|z|o a IH|o l IH] using pe_tree_ind; intros U s W L LV.
    - eexists. split; [reflexivity|]. split; [reflexivity|]. destruct (visit_var_ok hs acc (fun _ _ => 0%Z) (fun _ z => z) int_const s v W (L v (or_introl eq_refl))) as (A & B & _). auto.
    - pose proof (visit_ok hs acc (fun _ _ => 0%Z) (fun _ z => z) int_const (PInt z) U s W L) as H. cbn [visit] in H. destruct H as (_ & A & B & _). eexists. split; [reflexivity|]. auto.
    - destruct U.
    - assert (UL : forall a, In a l -> no_unary a) by (clear - U; induction l as [|a l IH]; intros b I; [contradiction|]; destruct U as [A B]; destruct I as [<-|I]; auto).
      assert (LL : forall a, In a l -> lt_all (length (nodes s)) (vars a)) by (intros a I v V; apply L; cbn; apply in_flat_map; eauto).
      assert (LVL : forall a, In a l -> level_is s a) by (intros a I u w P Q; apply LV; cbn; apply in_flat_map; eauto).
      assert (V : exists rs, visits visit l s = (rs, s) /\ Forall2 (quiet s) l rs).
      { clear LV. induction IH as [|a l F _ IHl]; [exists []; split; [reflexivity|constructor]|].
        destruct (F (UL a (or_introl eq_refl)) s W (LL a (or_introl eq_refl)) (LVL a (or_introl eq_refl))) as [r Q].
        destruct IHl as (rs & A & B).
        - cbn in U. apply U.
        - intros v I. apply L. cbn. apply in_app_iff. right. exact I.
        - intros b I. apply UL. right. exact I.
        - intros b I. apply LL. right. exact I.
        - intros b I. apply LVL. right. exact I.
        - exists (r :: rs). cbn [visits]. rewrite (proj1 Q), A. split; [reflexivity|]. constructor; assumption. }
      destruct V as (rs & VE & Q).
      pose proof (visit_ok hs acc (fun _ _ => 0%Z) (fun _ z => z) int_const (POp o l) U s W L) as H.
      assert (E : visit (POp o l) s = (packed (max_stage rs) o rs, s)).
      { cbn [visit]. unfold pack. rewrite VE. destruct (max_stage rs) as [m|] eqn:M; [|reflexivity].
        assert (ST : stage_of s (POp o l) = Some m).
        { rewrite stage_op, <- M, max_stage_eq. f_equal. clear - Q. induction Q as [|a r l rs A _ IH]; [reflexivity|]. cbn. rewrite IH. f_equal. symmetry. apply A. }
        assert (SL : forall a, In a l -> stage_of s a = None \/ stage_of s a = Some m).
        { intros a I. destruct (stage_of s a) as [k|] eqn:SA; [|auto]. right. destruct (vars a) as [|u t] eqn:VA; [unfold stage_of in SA; rewrite VA in SA; discriminate|].
          assert (IU : In u (vars a)) by (rewrite VA; left; reflexivity).
          rewrite <- (stage_all s a k (LVL a I) SA W (LL a I) u IU). apply (stage_all s _ m LV ST W L). cbn. apply in_flat_map. eauto. }
        assert (D : exists xs, delay_args visit m l rs s = (xs, s) /\ Forall (fun x => x = None) xs /\ length xs = length l).
        { clear - Q SL. induction Q as [|a r l rs A _ IH]; [exists []; split; [reflexivity|split; [constructor|reflexivity]]|].
          destruct IH as (xs & B & C & D); [intros b I; apply SL; right; exact I|]. exists (None :: xs). cbn [delay_args].
          assert (DA : delay_arg visit m a r s = (None, s)).
          { unfold delay_arg. destruct A as (_ & _ & _ & ->). destruct (SL a (or_introl eq_refl)) as [-> | ->]; [reflexivity|]. rewrite Nat.eqb_refl. reflexivity. }
          rewrite DA, B. cbn. auto. }
        destruct D as (xs & DE & XN & XL). rewrite DE.
        assert (RV : revisits visit l xs s = (rs, s)).
        { clear - Q XN XL. revert xs XN XL. induction Q as [|a r l rs A _ IH]; intros xs XN XL; cbn [revisits]; [reflexivity|].
          destruct xs as [|x xs]; [discriminate|]. inversion XN as [|? ? X1 X2]; subst. rewrite (proj1 A), (IH xs X2) by (cbn in XL; lia). reflexivity. }
        rewrite RV. reflexivity. }
      rewrite E in H. destruct H as (_ & A & B & _). exists (packed (max_stage rs) o rs). split; [exact E|]. split; [|auto].
      cbn. clear - Q. induction Q as [|a r l rs A _ IH]; [reflexivity|]. cbn. rewrite IH. f_equal. apply A.
  Qed.
  Lemma level_is_ext s s' a : ext s s' -> lt_all (length (nodes s)) (vars a) -> level_is s a -> level_is s' a.
  Proof. intros X L H u w A B. rewrite !(ext_get _ _ _ X) by (apply L; assumption). apply H; assumption. Qed.
  Lemma okres_ready s r v : wf s -> okres s r -> In v (vars (sdata r)) -> In v (sready r).
  Proof. intros W O I. apply (ok_ready _ _ O). split; [exact I|]. apply wf_nready; [exact W|]. exact (ok_lt _ _ O v I). Qed.
  Lemma lt_ext s s' l : ext s s' -> lt_all (length (nodes s)) l -> lt_all (length (nodes s')) l.
  Proof. intros X L v I. pose proof (L v I). pose proof (ext_len _ _ X). lia. Qed.
  Definition left_open (a : pe) (x : option nat) : list nat := match x with Some v => [v] | None => vars a end.
  Definition arg_ok (s : pl) (a : pe) : Prop := no_unary a /\ lt_all (length (nodes s)) (vars a) /\ level_is s a.
  Lemma arg_ok_ext s s' a : ext s s' -> arg_ok s a -> arg_ok s' a.
  Proof. intros X (A & B & C). split; [exact A|]. split; [eapply lt_ext; eassumption|eapply level_is_ext; eassumption]. Qed.
  Lemma delay_open m a r s D : arg_ok s a -> sstage r = stage_of s a -> (forall k, stage_of s a = Some k -> k <= m) -> wf s -> opens s (vars a ++ D) ->
    let '(x, s') := delay_arg visit m a r s in (wf s' /\ ext s s') /\ opens s' (left_open a x ++ D) /\ (forall v, x = Some v -> v < length (nodes s')).
  Proof.
    intros (U & L & LV) E B W O. unfold delay_arg. rewrite E. destruct (stage_of s a) as [k|] eqn:K; [|split; [split; [exact W|apply ext_refl]|split; [exact O|discriminate]]].
    destruct (Nat.eqb_spec k m) as [->|N]; [split; [split; [exact W|apply ext_refl]|split; [exact O|discriminate]]|].
    destruct (visit_quiet a U s W L LV) as (r' & VE & VV & OK & ST). rewrite VE.
    assert (RI : res_is (fun _ _ => 0%Z) (fun _ z => z) int_const s s a r').
    { pose proof (visit_ok hs acc (fun _ _ => 0%Z) (fun _ z => z) int_const a U s W L) as H. rewrite VE in H. apply H. }
    pose proof (stage_res_ok hs acc (fun _ _ => 0%Z) (fun _ z => z) int_const s r' 0 a s k W RI K) as H.
    assert (O1 : opens s (sready r' ++ D)).
    { apply (opens_incl s (vars a ++ D)); [|exact O]. intros v I. apply in_app_iff in I as [I|I]; apply in_app_iff; [left|right; exact I].
      apply (okres_ready s r' v W OK). rewrite VV. exact I. }
    pose proof (opens_stage s r' 0 D O1) as O2. destruct (stage_res s r' 0) as [v s1]. destruct H as [[W1 X1] V1].
    pose proof (delays_ok hs acc (fun _ _ => 0%Z) (fun _ z => z) int_const (m - k - 1) s1 v s a (S k) W1 V1) as H.
    pose proof (opens_delays (m - k - 1) s1 v D W1 (proj1 V1) O2) as O3. destruct (delays (m - k - 1) s1 v) as [v' s2]. destruct H as [[W2 X2] V2]. cbn [fst snd] in O3.
    split; [split; [exact W2|eapply ext_trans; eassumption]|]. split; [exact O3|]. intros w [= <-]. apply V2.
  Qed.
  Fixpoint lefts (l : list pe) (xs : list (option nat)) : list nat :=
    match l, xs with a :: l, x :: xs => left_open a x ++ lefts l xs | _, _ => [] end.
  Lemma delay_args_open m l : forall rs s D, (forall a, In a l -> arg_ok s a) -> Forall2 (fun a r => sstage r = stage_of s a /\ forall k, stage_of s a = Some k -> k <= m) l rs ->
    wf s -> opens s (flat_map vars l ++ D) ->
    let '(xs, s') := delay_args visit m l rs s in (wf s' /\ ext s s') /\ opens s' (lefts l xs ++ D) /\ Forall (fun x => forall v, x = Some v -> v < length (nodes s')) xs /\ length xs = length l.
  Proof.
    induction l as [|a l IH]; intros rs s D AO R W O; inversion R as [|? r ? rs' [E B] R']; subst; cbn [delay_args].
    - split; [split; [exact W|apply ext_refl]|]. split; [exact O|]. split; [constructor|reflexivity].
    - assert (O1 : opens s (vars a ++ flat_map vars l ++ D)) by (cbn [flat_map] in O; rewrite <- app_assoc in O; exact O).
      pose proof (delay_open m a r s _ (AO a (or_introl eq_refl)) E B W O1) as H. destruct (delay_arg visit m a r s) as [x s1]. destruct H as ([W1 X1] & O2 & XV).
      assert (O3 : opens s1 (flat_map vars l ++ left_open a x ++ D)).
      { apply (opens_incl s1 (left_open a x ++ flat_map vars l ++ D)); [|exact O2]. intros v I. rewrite !in_app_iff in *. tauto. }
      assert (AO1 : forall b, In b l -> arg_ok s1 b) by (intros b I; eapply arg_ok_ext; [exact X1|]; apply AO; right; exact I).
      assert (R1 : Forall2 (fun a r => sstage r = stage_of s1 a /\ forall k, stage_of s1 a = Some k -> k <= m) l rs').
      { assert (AO2 : forall b, In b l -> arg_ok s b) by (intros b I; apply AO; right; exact I). clear - R' AO2 X1.
        induction R' as [|b q l rs H _ IH]; constructor.
        - rewrite (stage_of_ext _ _ _ X1); [exact H|]. apply (AO2 b (or_introl eq_refl)).
        - apply IH. intros c I. apply AO2. right. exact I. }
      specialize (IH rs' s1 _ AO1 R1 W1 O3). destruct (delay_args visit m l rs' s1) as [xs s2]. destruct IH as ([W2 X2] & O4 & XS & XL).
      split; [split; [exact W2|eapply ext_trans; eassumption]|]. split; [|split; [|cbn; lia]].
      + cbn [lefts]. apply (opens_incl s2 (lefts l xs ++ left_open a x ++ D)); [|exact O4]. intros v I. rewrite !in_app_iff in *. tauto.
      + constructor; [|exact XS]. intros v Q. pose proof (XV v Q). pose proof (ext_len _ _ X2). lia.
  Qed.
  Lemma revisits_open l : forall xs s, (forall a, In a l -> arg_ok s a) -> wf s -> Forall (fun x => forall v, x = Some v -> v < length (nodes s)) xs -> length xs = length l ->
    exists rs, revisits visit l xs s = (rs, s) /\ incl (lefts l xs) (flat_map sready rs).
  Proof.
    induction l as [|a l IH]; intros xs s AO W X XL; destruct xs as [|x xs]; try discriminate; cbn [revisits lefts].
    - exists []. split; [reflexivity|]. intros v [].
    - inversion X as [|? ? X1 X2]; subst. destruct (AO a (or_introl eq_refl)) as (U & L & LV).
      assert (H : exists r, match x with Some v => (visit_var s v, s) | None => visit a s end = (r, s) /\ incl (left_open a x) (sready r)).
      { destruct x as [v|].
        - eexists. split; [reflexivity|]. cbn. rewrite (wf_nready s v W (X1 v eq_refl)). apply incl_refl.
        - destruct (visit_quiet a U s W L LV) as (r & VE & VV & OK & _). exists r. split; [exact VE|]. intros v I. apply (okres_ready s r v W OK). rewrite VV. exact I. }
      destruct H as (r & HE & HI). rewrite HE. destruct (IH xs s) as (rs & RE & RI); [intros b I; apply AO; right; exact I|exact W|exact X2|cbn in XL; lia|].
      rewrite RE. exists (r :: rs). split; [reflexivity|]. cbn [flat_map]. intros v I. rewrite in_app_iff in *. destruct I as [I|I]; [left; apply HI, I|right; apply RI, I].
  Qed.
  Definition flat_in (s : pl) (e : pe) : Prop := match e with POp _ args => forall a, In a args -> level_is s a | _ => True end.
  Lemma visit_flat e s D : no_unary e -> lt_all (length (nodes s)) (vars e) -> flat_in s e -> wf s -> opens s (vars e ++ D) ->
    let '(r, s') := visit e s in opens s' (sready r ++ D).
  Proof.
    destruct e as [v|z|o a|o l]; intros U L F W O; cbn [visit].
    - cbn. rewrite (wf_nready s v W (L v (or_introl eq_refl))). exact O.
    - exact O.
    - destruct U.
    - assert (UL : forall a, In a l -> no_unary a) by (clear - U; induction l as [|a l IH]; intros b I; [contradiction|]; destruct U as [A B]; destruct I as [<-|I]; auto).
      assert (AO : forall a, In a l -> arg_ok s a).
      { intros a I. split; [apply UL, I|]. split; [|apply F, I]. intros v V. apply L. cbn. apply in_flat_map. eauto. }
      unfold pack.
      assert (V : exists rs, visits visit l s = (rs, s) /\ Forall2 (quiet s) l rs).
      { clear - AO W. induction l as [|a l IH]; [exists []; split; [reflexivity|constructor]|].
        destruct (AO a (or_introl eq_refl)) as (U & L & LV). destruct (visit_quiet a U s W L LV) as [r Q].
        destruct IH as (rs & A & B); [intros b I; apply AO; right; exact I|]. exists (r :: rs). cbn [visits]. rewrite (proj1 Q), A. split; [reflexivity|]. constructor; assumption. }
      destruct V as (rs & VE & Q). rewrite VE.
      assert (MS : max_stage rs = stage_of s (POp o l)).
      { rewrite stage_op, max_stage_eq. f_equal. clear - Q. induction Q as [|a r l rs A _ IH]; [reflexivity|]. cbn. rewrite IH. f_equal. apply A. }
      rewrite MS. destruct (stage_of s (POp o l)) as [m|] eqn:M.
      + assert (R1 : Forall2 (fun a r => sstage r = stage_of s a /\ forall k, stage_of s a = Some k -> k <= m) l rs).
        { assert (B : forall a k, In a l -> stage_of s a = Some k -> k <= m).
          { intros a k I E. apply (omaxs_le (map (stage_of s) l)); [rewrite <- (stage_op s o); exact M|]. rewrite <- E. apply in_map, I. }
          clear - Q B. induction Q as [|a r l rs H _ IH]; constructor.
          - split; [apply H|]. intros k. apply B. left. reflexivity.
          - apply IH. intros b k I. apply B. right. exact I. }
        pose proof (delay_args_open m l rs s D AO R1 W O) as H. destruct (delay_args visit m l rs s) as [xs s1]. destruct H as ([W1 X1] & O1 & XS & XL).
        destruct (revisits_open l xs s1) as (rs' & RE & RI); [intros a I; eapply arg_ok_ext; [exact X1|apply AO, I]|exact W1|exact XS|exact XL|].
        rewrite RE. cbn [packed sready]. apply (opens_incl s1 (lefts l xs ++ D)); [|exact O1]. intros v I. rewrite in_app_iff in *. destruct I as [I|I]; [left; apply RI, I|right; exact I].
      + cbn [packed sready]. apply (opens_incl s (vars (POp o l) ++ D)); [|exact O]. intros v I. rewrite in_app_iff in *. destruct I as [I|I]; [|right; exact I].
        exfalso. apply (omaxs_none (map (fun v => nstage (get s v)) (vars (POp o l))) 0 M).
        destruct (wf_stage hs acc s v W (L v I)) as [k K]. exfalso.
        apply (omaxs_none (map (fun v => nstage (get s v)) (vars (POp o l))) k M). apply in_map_iff. exists v. auto.
  Qed.

  (** programs *)
  Definition open_ids (ids : list nat) (s : pl) (R : nat -> Prop) : Prop :=
    forall v, v < length (nodes s) -> conds s v = [] -> exists u, u < length ids /\ v = nth u ids 0 /\ ~ R u.
  Definition cmd_flat (ls : list nat) (c : cmd) : Prop := match c with Input _ _ => True | Stage e _ | Acc e _ _ => flat ls e end.
  Definition empties (s : pl) : list nat := filter (fun v => negb (notnil (conds s v))) (seq 0 (length (nodes s))).
  Lemma in_empties s v : In v (empties s) <-> v < length (nodes s) /\ conds s v = [].
  Proof.
    unfold empties. rewrite filter_In, in_seq. destruct (conds s v); cbn; split; intros [A B]; split; try lia; try reflexivity; try discriminate.
  Qed.
  Lemma flat_rename ids ls s e : (forall u, In u (vars e) -> nstage (get s (nth u ids 0)) = Some (nth u ls 0)) -> flat ls e -> flat_in s (rename (fun u => nth u ids 0) e).
  Proof.
    intros G F. destruct e as [v|z|o a|o l]; cbn [rename flat_in]; try exact Logic.I. intros a I. apply in_map_iff in I as (b & <- & I).
    intros u w A B. rewrite vars_rename in A, B. apply in_map_iff in A as (u' & <- & A). apply in_map_iff in B as (w' & <- & B).
    rewrite !G by (cbn; apply in_flat_map; eauto). f_equal. exact (F b I u' w' A B).
  Qed.
  Lemma exec_open sem semu cst (ins : nat -> stream Z) ids s vs ls c R : wf s -> rel sem semu cst ins ids s vs ls -> cmd_ok hs acc (length ids) c -> cmd_flat ls c -> open_ids ids s R ->
    (forall u, R u -> u < length ids) -> let '(ids', s') := exec c (ids, s) in open_ids ids' s' (fun u => R u \/ In u (cmd_vars c)).
  Proof.
    intros W RL OK FL OP RB. pose proof (exec_ok hs acc sem semu cst ins ids s vs ls c W RL OK) as EX. destruct RL as ((SL & SG) & A & B & C). destruct c as [va re|e init|e ops init]; cbn [exec] in *.
    - unfold input. intros v L CN. cbn [nodes] in L. rewrite app_length in L. cbn in L. destruct (Nat.eq_dec v (length (nodes s))) as [->|N].
      + exists (length ids). rewrite app_length, app_nth2, Nat.sub_diag by lia. split; [cbn; lia|]. split; [reflexivity|]. intros [X|[]]. apply RB in X. lia.
      + destruct (OP v ltac:(lia) CN) as (u & UL & -> & UN). exists u. rewrite app_length, app_nth1 by lia. split; [lia|]. split; [reflexivity|]. cbn. tauto.
    - destruct OK as (U & N & FV). rewrite Forall_forall in FV. set (e' := rename (fun u => nth u ids 0) e) in *.
      assert (L' : lt_all (length (nodes s)) (vars e')).
      { intros v I. unfold e' in I. rewrite vars_rename in I. apply in_map_iff in I as (u & <- & I). apply B, nth_In, FV, I. }
      set (D := filter (fun v => negb (existsb (Nat.eqb v) (vars e'))) (empties s)).
      assert (O : opens s (vars e' ++ D)).
      { intros v VL VC. apply in_app_iff. destruct (existsb (Nat.eqb v) (vars e')) eqn:Q.
        - left. apply existsb_exists in Q as (w & I & Q). apply Nat.eqb_eq in Q. subst. exact I.
        - right. apply filter_In. rewrite Q. split; [apply in_empties; auto|reflexivity]. }
      assert (FI : flat_in s e') by (apply (flat_rename ids ls s e); [intros u I; apply SG, FV, I|exact FL]).
      pose proof (visit_flat e' s D (unary_rename (fun u => nth u ids 0) e U) L' FI W O) as VF. unfold stage in *.
      destruct (visit e' s) as [r s1].
      pose proof (opens_stage s1 r init D VF) as OS. destruct (stage_res s1 r init) as [v' s']. cbn [fst snd] in OS. destruct EX as (_ & w & WE & _). apply app_inv_head in WE. injection WE as <-.
      intros v VL VC. specialize (OS v VL VC). destruct OS as [<-|I].
      + exists (length ids). rewrite app_length, app_nth2, Nat.sub_diag by lia. split; [cbn; lia|]. split; [reflexivity|]. cbn. intros [X|X]; [apply RB in X; lia|]. apply FV in X. lia.
      + apply filter_In in I as [I Q]. apply in_empties in I as [I1 I2]. destruct (OP v I1 I2) as (u & UL & -> & UN).
        exists u. rewrite app_length, app_nth1 by lia. split; [lia|]. split; [reflexivity|]. cbn. intros [X|X]; [contradiction|].
        apply negb_true_iff in Q. assert (Y : existsb (Nat.eqb (nth u ids 0)) (vars e') = true); [|congruence]. apply existsb_exists. exists (nth u ids 0). split; [|apply Nat.eqb_refl].
        unfold e'. rewrite vars_rename. apply (in_map (fun u => nth u ids 0)), X.
    - destruct OK as ((U & N & FV) & _). rewrite Forall_forall in FV. set (e' := rename (fun u => nth u ids 0) e) in *.
      assert (L' : lt_all (length (nodes s)) (vars e')).
      { intros v I. unfold e' in I. rewrite vars_rename in I. apply in_map_iff in I as (u & <- & I). apply B, nth_In, FV, I. }
      set (D := filter (fun v => negb (existsb (Nat.eqb v) (vars e'))) (empties s)).
      assert (O : opens s (vars e' ++ D)).
      { intros v VL VC. apply in_app_iff. destruct (existsb (Nat.eqb v) (vars e')) eqn:Q.
        - left. apply existsb_exists in Q as (w & I & Q). apply Nat.eqb_eq in Q. subst. exact I.
        - right. apply filter_In. rewrite Q. split; [apply in_empties; auto|reflexivity]. }
      assert (FI : flat_in s e') by (apply (flat_rename ids ls s e); [intros u I; apply SG, FV, I|exact FL]).
      pose proof (visit_flat e' s D (unary_rename (fun u => nth u ids 0) e U) L' FI W O) as VF. unfold accumulate in *.
      destruct (visit e' s) as [r s1].
      pose proof (opens_reg s1 r init ops D (maxst s1) VF) as OS. cbv zeta in OS. change (mkP _ _ _) with (snd (add_reg s1 r init ops)) in OS.
      assert (FE : fst (add_reg s1 r init ops) = length (nodes s1)) by reflexivity.
      destruct (add_reg s1 r init ops) as [v' s']. cbn [fst snd] in OS, FE. subst v'. destruct EX as (_ & w & WE & _). apply app_inv_head in WE. injection WE as <-.
      intros v VL VC. specialize (OS v VL VC). destruct OS as [<-|I].
      + exists (length ids). rewrite app_length, app_nth2, Nat.sub_diag by lia. split; [cbn; lia|]. split; [reflexivity|]. cbn. intros [X|X]; [apply RB in X; lia|]. apply FV in X. lia.
      + apply filter_In in I as [I Q]. apply in_empties in I as [I1 I2]. destruct (OP v I1 I2) as (u & UL & -> & UN).
        exists u. rewrite app_length, app_nth1 by lia. split; [lia|]. split; [reflexivity|]. cbn. intros [X|X]; [contradiction|].
        apply negb_true_iff in Q. assert (Y : existsb (Nat.eqb (nth u ids 0)) (vars e') = true); [|congruence]. apply existsb_exists. exists (nth u ids 0). split; [|apply Nat.eqb_refl].
        unfold e'. rewrite vars_rename. apply (in_map (fun u => nth u ids 0)), X.
  Qed.
  Lemma levels_prefix cs : forall ls, exists t, levels cs ls = ls ++ t.
  Proof. induction cs as [|c cs IH]; intros ls; cbn [levels]; [exists []; rewrite app_nil_r; reflexivity|]. destruct (IH (ls ++ [match c with Input _ _ => 0 | Stage e _ | Acc e _ _ => S (list_max (map (fun u => nth u ls 0) (vars e))) end])) as [t ->].
    rewrite <- app_assoc. eauto. Qed.
  Lemma flat_prefix ls t e : (forall u, In u (vars e) -> u < length ls) -> flat (ls ++ t) e -> flat ls e.
  Proof.
    intros L F. destruct e as [v|z|o a|o l]; try exact Logic.I. intros a I u w A B. specialize (F a I u w A B).
    rewrite !app_nth1 in F by (apply L; cbn; apply in_flat_map; eauto). exact F.
  Qed.
  Lemma cmd_ok_vars n c u : cmd_ok hs acc n c -> In u (cmd_vars c) -> u < n.
  Proof. destruct c as [va re|e init|e ops init]; cbn; intros O I; [contradiction| |]; [destruct O as (_ & _ & F)|destruct O as ((_ & _ & F) & _)]; rewrite Forall_forall in F; apply F, I. Qed.
  Lemma build_open sem semu cst (ins : nat -> stream Z) cs : forall ids s vs ls R, wf s -> rel sem semu cst ins ids s vs ls -> cmds_ok hs acc (length ids) cs ->
    Forall (cmd_flat (levels cs ls)) cs -> open_ids ids s R -> (forall u, R u -> u < length ids) ->
    let '(ids', s') := fold_left (fun p c => exec c p) cs (ids, s) in open_ids ids' s' (fun u => R u \/ exists c, In c cs /\ In u (cmd_vars c)).
  Proof.
    induction cs as [|c cs IH]; intros ids s vs ls R W RL O F OP RB; cbn [fold_left].
    - intros v L C. destruct (OP v L C) as (u & A & B & D). exists u. split; [exact A|]. split; [exact B|]. intros [X|(c & [] & _)]. contradiction.
    - destruct O as [O OS]. inversion F as [|? ? F1 F2]; subst. cbn [levels] in F1, F2. fold (level ls c) in F1, F2.
      assert (FC : cmd_flat ls c).
      { destruct (levels_prefix cs (ls ++ [level ls c])) as [t T]. rewrite T, <- app_assoc in F1. assert (LL : length ls = length ids) by apply RL.
        destruct c as [va re|e init|e ops init]; cbn [cmd_flat] in *; [exact Logic.I| |]; (eapply flat_prefix; [|exact F1]); intros u I; rewrite LL; eapply cmd_ok_vars; [exact O|exact I|exact O|exact I]. }
      pose proof (exec_open sem semu cst ins ids s vs ls c R W RL O FC OP RB) as OP'. pose proof (exec_ok hs acc sem semu cst ins ids s vs ls c W RL O) as H.
      destruct (exec c (ids, s)) as [ids1 s1]. destruct H as [[W1 X1] (v & E & R1)].
      assert (Ln : length ids1 = S (length ids)) by (rewrite E, app_length; cbn; lia).
      assert (RB' : forall u, R u \/ In u (cmd_vars c) -> u < length ids1).
      { intros u [X|X]; [apply RB in X; lia|]. pose proof (cmd_ok_vars _ _ _ O X). lia. }
      specialize (IH ids1 s1 _ _ _ W1 R1 ltac:(rewrite Ln; exact OS) F2 OP' RB').
      destruct (fold_left (fun p c => exec c p) cs (ids1, s1)) as [ids' s']. intros w L C. destruct (IH w L C) as (u & A & B & D). exists u. split; [exact A|]. split; [exact B|].
      intros [X|(d & [<-|I] & Y)]; apply D; [auto|auto|]. right. eauto.
  Qed.
  Lemma exec_outs c p : outs_same (snd p) (snd (exec c p)).
  Proof.
    destruct p as [ids s]. destruct c as [va re|e init|e ops init]; cbn [exec].
    - intros v k I. exact I.
    - unfold stage. pose proof (visit_outs (rename (fun u => nth u ids 0) e) s) as A. destruct (visit _ s) as [r s1]. pose proof (stage_outs s1 r init) as B.
      destruct (stage_res s1 r init) as [v s2]. eapply outs_trans; eassumption.
    - unfold accumulate. pose proof (visit_outs (rename (fun u => nth u ids 0) e) s) as A. destruct (visit _ s) as [r s1]. pose proof (reg_outs s1 r init ops) as B.
      destruct (add_reg s1 r init ops) as [v s2]. eapply outs_trans; eassumption.
  Qed.
  Lemma build_outs cs : forall p, outs_same (snd p) (snd (fold_left (fun p c => exec c p) cs p)).
  Proof. induction cs as [|c cs IH]; intros p; cbn [fold_left]; [intros v k I; exact I|]. eapply outs_trans; [apply exec_outs|apply IH]. Qed.
  Definition outs_at (s : pl) : Prop := forall v k, In (v, COut k) (links s) -> nstage (get s v) = Some (maxst s).
  Lemma output_open sem semu cst (ins : nat -> stream Z) ids s vs ls u k D : acc = false -> wf s -> rel sem semu cst ins ids s vs ls -> u < length ids -> opens s (nth u ids 0 :: D) -> outs_at s ->
    opens (snd (make_output s (nth u ids 0) (Some k))) D /\ outs_at (snd (make_output s (nth u ids 0) (Some k))).
  Proof.
    intros AC W RL U O OA. pose proof (output_ok hs acc sem semu cst ins ids s vs ls u (Some k) W RL U) as OK. destruct RL as ((SL & SG) & A & B & C).
    unfold make_output in *. rewrite (SG u U) in *. set (i := nth u ls 0) in *.
    assert (VL : nth u ids 0 < length (nodes s)) by (apply B, nth_In, U). pose proof (wf_max _ _ _ W AC _ _ (SG u U)) as LM.
    pose proof (opens_delays (maxst s - i) s _ D W VL O) as O1. pose proof (delays_outs (maxst s - i) s (nth u ids 0)) as DO.
    assert (V1 : var_is (fun _ _ => 0%Z) (fun _ z => z) int_const s s (PVar (nth u ids 0)) i (nth u ids 0)) by (split; [exact VL|]; split; [exact (SG u U)|]; reflexivity).
    pose proof (delays_ok hs acc (fun _ _ => 0%Z) (fun _ z => z) int_const (maxst s - i) s _ s _ i W V1) as H.
    destruct (delays (maxst s - i) s (nth u ids 0)) as [o s1]. destruct H as [[W1 X1] (OL & OS & _)]. cbn [fst snd] in *.
    destruct OK as ((_ & MX) & (_ & NS) & _). cbn [maxst nodes] in *. change (get (mkP (nodes s1) _ _) o) with (get s1 o) in NS.
    rewrite (wf_nready s1 o W1 OL) in *. split.
    - intros v L CN. cbn [nodes] in L.
      assert (NO : forall c, ~ In (v, c) (links s1 ++ [(o, COut k)])).
      { intros c I. assert (J : In c (conds (mkP (nodes s1) (links s1 ++ [(o, COut k)]) (maxst s1)) v)) by (apply in_conds; exact I). rewrite CN in J. exact J. }
      assert (I : In v (o :: D)).
      { apply O1; [exact L|]. destruct (conds s1 v) as [|c l] eqn:Q; [reflexivity|]. exfalso. apply (NO c). apply in_app_iff. left. apply in_conds. rewrite Q. left. reflexivity. }
      destruct I as [<-|I]; [|exact I]. exfalso. apply (NO (COut k)). apply in_app_iff. right. left. reflexivity.
    - intros v k' I. cbn [links maxst] in *. change (get (mkP (nodes s1) _ _) v) with (get s1 v). apply in_app_iff in I as [I|[I|[]]].
      + rewrite MX. apply DO in I. pose proof (wf_lt _ _ _ W _ _ I). rewrite (ext_get _ _ _ X1) by assumption. exact (OA v k' I).
      + injection I as <- <-. rewrite NS, MX. f_equal. lia.
  Qed.
  Lemma outputs_open sem semu cst (ins : nat -> stream Z) ids vs ls outs : acc = false -> forall s l D, wf s -> rel sem semu cst ins ids s vs ls -> Forall (fun o => fst o < length ids /\ snd o <> None) outs ->
    opens s (map (fun o => nth (fst o) ids 0) outs ++ D) -> outs_at s ->
    let '(os, s') := fold_left (fun p o => let '(l, s) := p in let '(v, s) := make_output s (nth (fst o) ids 0) (snd o) in (l ++ [v], s)) outs (l, s) in opens s' D /\ outs_at s'.
  Proof.
    intros AC. induction outs as [|[u k] outs IH]; intros s l D W RL F O OA; cbn [fold_left fst snd]; [split; assumption|].
    apply Forall_cons_iff in F as [[F1 F3] F2]. cbn [fst snd] in *. destruct k as [k|]; [|contradiction].
    pose proof (output_open sem semu cst ins ids s vs ls u k _ AC W RL F1 O OA) as [O1 OA1].
    pose proof (output_ok hs acc sem semu cst ins ids s vs ls u (Some k) W RL F1) as H.
    destruct (make_output s (nth u ids 0) (Some k)) as [v s1]. destruct H as ([[W1 X1] M1] & _). cbn [snd] in *.
    apply IH; [exact W1|eapply rel_ext; [exact hs|exact acc|exact X1|exact RL]|exact F2|exact O1|exact OA1].
  Qed.
End Flat.

(** ** Whole programs *)
Lemma proper_ok (P : bool -> bool -> Prop) (acc : bool) n cs : proper n cs -> Forall (fun c => match c with Input v r => P v r | _ => True end) cs -> (acc = true \/ no_acc cs) -> cmds_ok P acc n cs.
Proof.
  revert n. induction cs as [|c cs IH]; intros n PR I A; cbn; [exact Logic.I|]. destruct PR as [PC PR]. inversion I as [|? ? I1 I2]; subst.
  split; [|apply IH; [exact PR|exact I2|]; destruct A as [A|A]; [left; exact A|right; inversion A; assumption]].
  destruct c as [va re|e init|e ops init]; cbn [cmd_ok]; [exact I1|exact PC|]. split; [exact PC|]. destruct A as [A|A]; [exact A|inversion A; contradiction].
Qed.
Section Whole.
  Variables (P : bool -> bool -> Prop) (acc : bool) (cs : list cmd) (outs : list (nat * option nat)) (ids os : list nat) (s : pl).
  Hypothesis (PR : cmds_ok P acc 0 cs) (OR : Forall (fun o => fst o < length cs) outs) (WH : whole cs outs = (ids, os, s)).
  Lemma empty_rel {Elt} (sem : nat -> list Elt -> Elt) semu cst ins : rel sem semu cst ins [] new_pl [] [].
  Proof. split; [split; [reflexivity|intros u L; inversion L]|]. split; [reflexivity|]. split; [intros v []|intros u k L; inversion L]. Qed.
  Lemma whole_ok {Elt} (sem : nat -> list Elt -> Elt) semu cst ins :
    wfn P acc s /\ length ids = length cs /\ rel sem semu cst ins ids s (meaning sem semu cst cs (fun u => ins (nth u ids 0)) []) (levels cs []) /\
    Forall2 (fun o v => (v < length (nodes s) /\ nstage (get s v) = Some (Nat.max (maxst s) (nth (fst o) (levels cs []) 0))) /\
      forall k, net_stream sem semu cst s ins v k = element cst (meaning sem semu cst cs (fun u => ins (nth u ids 0)) []) k (fst o)) outs os.
  Proof.
    unfold whole, build in WH. pose proof (build_ok P acc sem semu cst ins cs [] new_pl [] [] (empty_wf P acc) (empty_rel sem semu cst ins) PR) as H.
    destruct (fold_left (fun p c => exec c p) cs ([], new_pl)) as [ids' s1]. destruct H as ([W1 X1] & (t & T & TL) & R1). cbn [app] in T. subst t.
    pose proof (outputs_ok P acc sem semu cst ins ids' _ _ outs s1 [] W1 R1 ltac:(rewrite TL; exact OR)) as H. unfold make_outputs in WH.
    destruct (fold_left _ outs ([], s1)) as [os' s2]. injection WH as <- <- <-. destruct H as ([[W2 X2] M2] & t & T & F). cbn [app] in T. subst t.
    split; [exact W2|]. split; [exact TL|]. split; [eapply rel_ext; eassumption|]. rewrite M2. exact F.
  Qed.
End Whole.
Lemma flat_tight cs outs ids os s : proper 0 cs -> Forall (fun c => match c with Input v r => hs v r | _ => True end) cs -> no_acc cs -> flat_program cs -> used cs outs ->
  Forall (fun o => fst o < length cs /\ snd o <> None) outs -> whole cs outs = (ids, os, s) -> tight s (maxst s).
Proof.
  intros PR IN NA FL US OR WH. pose proof (proper_ok hs false 0 cs PR IN (or_intror NA)) as CO.
  assert (OR' : Forall (fun o => fst o < length cs) outs) by (clear - OR; induction OR; constructor; tauto).
  destruct (whole_ok hs false cs outs ids os s CO OR' WH (fun _ (_ : list Z) => 0%Z) (fun _ z => z) int_const (fun _ _ => 0%Z)) as (W & LI & _).
  unfold whole, build in WH.
  pose proof (build_ok hs false (fun _ (_ : list Z) => 0%Z) (fun _ z => z) int_const (fun _ _ => 0%Z) cs [] new_pl [] [] (empty_wf hs false) (empty_rel _ _ _ _) CO) as H.
  pose proof (build_open false (fun _ (_ : list Z) => 0%Z) (fun _ z => z) int_const (fun _ _ => 0%Z) cs [] new_pl [] [] (fun _ => False) (empty_wf hs false) (empty_rel _ _ _ _) CO) as BO.
  specialize (BO FL). assert (OP : open_ids [] new_pl (fun _ => False)) by (intros v L; inversion L). specialize (BO OP ltac:(intros u [])).
  pose proof (build_outs cs ([], new_pl)) as BU.
  destruct (fold_left (fun p c => exec c p) cs ([], new_pl)) as [ids' s1]. destruct H as ([W1 X1] & (t & T & TL) & R1). cbn [app] in T. subst t.
  assert (OA : outs_at s1) by (intros v k I; apply BU in I; destruct I).
  assert (O1 : opens s1 (map (fun o => nth (fst o) ids' 0) outs ++ [])).
  { rewrite app_nil_r. intros v L C. destruct (BO v L C) as (u & UL & -> & UN). destruct (US u ltac:(lia)) as [X|(k & X)]; [exfalso; apply UN; right; exact X|].
    apply in_map_iff. exists (u, Some k). auto. }
  pose proof (outputs_open false _ _ _ _ ids' _ _ outs eq_refl s1 [] [] W1 R1 ltac:(rewrite TL; exact OR) O1 OA) as H. unfold make_outputs in WH.
  destruct (fold_left _ outs ([], s1)) as [os' s2]. injection WH as <- <- <-. destruct H as [O2 OA2]. split.
  - exact (wf_max _ _ _ W eq_refl).
  - intros v L C. exact (O2 v L C).
  - intros v k I. apply OA2 with k. apply in_conds, I.
Qed.

(** ** One variable per expression *)
Section Single.
  Variable acc : bool.
  Notation wf := (wfn hs acc).
  Definition single (s : pl) : Prop := forall j r, nreg (get s j) = Some r -> one_var (rdata r).
  Lemma single_reg s r init ac m : one_var (sdata r) -> single s -> let s' := snd (add_reg s r init ac) in single (mkP (nodes s') (links s') m).
  Proof.
    intros O S s' j r' E. pose proof (get_reg_lt _ _ _ E) as L. unfold s' in *. cbn [add_reg snd nodes links] in *. rewrite app_length in L. cbn in L.
    destruct (Nat.eq_dec j (length (nodes s))) as [->|N].
    - rewrite get_snoc_new in E. injection E as <-. exact O.
    - rewrite get_snoc_old in E by lia. exact (S j r' E).
  Qed.
  Lemma single_delays n : forall s v, single s -> single (snd (delays n s v)).
  Proof.
    induction n as [|n IH]; intros s v S; cbn [delays]; [exact S|].
    assert (O : one_var (sdata (visit_var s v))) by (cbn; intros u w [<-|[]] [<-|[]]; reflexivity).
    pose proof (single_reg s (visit_var s v) 0 [] (match sstage (visit_var s v) with Some k => Nat.max (Datatypes.S k) (maxst s) | None => maxst s end) O S) as H.
    change (single (snd (stage_res s (visit_var s v) 0))) in H. destruct (stage_res s (visit_var s v) 0) as [v' s']. apply IH. exact H.
  Qed.
  Lemma one_quiet e s : no_unary e -> wf s -> lt_all (length (nodes s)) (vars e) -> one_var e -> exists r, visit e s = (r, s) /\ one_var (sdata r).
  Proof.
    intros U W L O. destruct (visit_quiet acc e U s W L) as (r & VE & VV & _).
    - intros u w A B. rewrite (O u w A B). reflexivity.
    - exists r. split; [exact VE|]. intros u w A B. rewrite VV in A, B. exact (O u w A B).
  Qed.
  Lemma exec_single sem semu cst (ins : nat -> stream Z) ids s vs ls c : wf s -> rel sem semu cst ins ids s vs ls -> cmd_ok hs acc (length ids) c ->
    match c with Input _ _ => True | Stage e _ | Acc e _ _ => one_var e end -> single s -> single (snd (exec c (ids, s))).
  Proof.
    intros W (_ & _ & B & _) OK O S.
    assert (H : forall e, no_unary e -> Forall (fun u => u < length ids) (vars e) -> one_var e -> exists r, visit (rename (fun u => nth u ids 0) e) s = (r, s) /\ one_var (sdata r)).
    { intros e U F OV. rewrite Forall_forall in F. apply one_quiet; [apply unary_rename, U|exact W| |].
      - intros v I. rewrite vars_rename in I. apply in_map_iff in I as (u & <- & I). apply B, nth_In, F, I.
      - intros u w X Y. rewrite vars_rename in X, Y. apply in_map_iff in X as (u' & <- & X). apply in_map_iff in Y as (w' & <- & Y). rewrite (OV u' w' X Y). reflexivity. }
    destruct c as [va re|e init|e ops init]; cbn [exec].
    - intros j r E. cbn [input snd] in E. pose proof (get_reg_lt _ _ _ E) as L. cbn [nodes] in L. rewrite app_length in L. cbn in L.
      destruct (Nat.eq_dec j (length (nodes s))) as [->|N]; [rewrite get_snoc_new in E; discriminate|]. rewrite get_snoc_old in E by lia. exact (S j r E).
    - destruct OK as (U & _ & F). destruct (H e U F O) as (r & VE & OV). unfold stage. rewrite VE.
      pose proof (single_reg s r init [] (match sstage r with Some k => Nat.max (Datatypes.S k) (maxst s) | None => maxst s end) OV S) as Q.
      change (single (snd (stage_res s r init))) in Q. destruct (stage_res s r init) as [v s']. exact Q.
    - destruct OK as ((U & _ & F) & _). destruct (H e U F O) as (r & VE & OV). unfold accumulate. rewrite VE.
      pose proof (single_reg s r init ops (maxst s) OV S) as Q. change (single (snd (add_reg s r init ops))) in Q. destruct (add_reg s r init ops) as [v s']. exact Q.
  Qed.
  Lemma build_single sem semu cst (ins : nat -> stream Z) cs : forall ids s vs ls, wf s -> rel sem semu cst ins ids s vs ls -> cmds_ok hs acc (length ids) cs ->
    single_program cs -> single s -> single (snd (fold_left (fun p c => exec c p) cs (ids, s))).
  Proof.
    induction cs as [|c cs IH]; intros ids s vs ls W RL O SP S; cbn [fold_left]; [exact S|]. destruct O as [O OS]. apply Forall_cons_iff in SP as [S1 S2].
    pose proof (exec_single sem semu cst ins ids s vs ls c W RL O S1 S) as S'. pose proof (exec_ok hs acc sem semu cst ins ids s vs ls c W RL O) as H.
    destruct (exec c (ids, s)) as [ids1 s1]. destruct H as [[W1 X1] (v & E & R1)].
    assert (Ln : length ids1 = Datatypes.S (length ids)) by (rewrite E, app_length; cbn; lia).
    apply (IH ids1 s1 _ _ W1 R1); [rewrite Ln; exact OS|exact S2|exact S'].
  Qed.
  Lemma outputs_single ids outs : forall s l, single s ->
    single (snd (fold_left (fun p o => let '(l, s) := p in let '(v, s) := make_output s (nth (fst o) ids 0) (snd o) in (l ++ [v], s)) outs (l, s))).
  Proof.
    induction outs as [|o outs IH]; intros s l S; cbn [fold_left]; [exact S|].
    assert (H : single (snd (make_output s (nth (fst o) ids 0) (snd o)))).
    { unfold make_output. destruct (nstage (get s (nth (fst o) ids 0))) as [i|]; [|exact S]. pose proof (single_delays (maxst s - i) s (nth (fst o) ids 0) S) as D.
      destruct (delays (maxst s - i) s (nth (fst o) ids 0)) as [v s1]. exact D. }
    destruct (make_output s (nth (fst o) ids 0) (snd o)) as [v s1]. apply IH. exact H.
  Qed.
End Single.
Lemma single_uniform acc s : wfn hs acc s -> single s -> uniform s.
Proof.
  intros W S j r a b E A B c. apply (src_ready acc s W j r E) in A, B. rewrite (S j r E a b A B). auto.
Qed.

(** ** Evaluation *)
Section Eval.
  Variables (sem : nat -> list Z -> Z) (semu : nat -> Z -> Z) (s : pl).
  Notation N := (length (nodes s)). Notation next := (next sem semu s).
  Definition st_eq (x y : st) : Prop := forall v, dat x v = dat y v /\ vld x v = vld y v.
  Definition rd_eq (a b : nat -> bool) : Prop := forall v, a v = b v.
  Lemma eq_data x y i v : st_eq x y -> data s x i v = data s y i v.
  Proof. intros E. unfold data. destruct (is_input s v); [reflexivity|apply E]. Qed.
  Lemma eq_valid x y i v : st_eq x y -> valid s x i v = valid s y i v.
  Proof. intros E. unfold valid. destruct (is_input s v); [reflexivity|apply E]. Qed.
  Lemma eq_vin x y i r : st_eq x y -> vin s x i r = vin s y i r.
  Proof. intros E. apply forallb_ext_in. intros v _. apply eq_valid, E. Qed.
  Lemma eq_free x y a b j : st_eq x y -> rd_eq a b -> free s x a j = free s y b j.
  Proof. intros E R. unfold free. rewrite (R j), (proj2 (E j)). reflexivity. Qed.
  Lemma eq_holds x y i a b c : st_eq x y -> rd_eq a b -> holds s x i a c = holds s y i b c.
  Proof. intros E R. destruct c as [j|k]; [|reflexivity]. cbn. rewrite (eq_free x y a b j E R). destruct (nreg (get s j)); [rewrite (eq_vin x y i _ E)|]; reflexivity. Qed.
  Lemma eq_wires x y i a b : st_eq x y -> rd_eq a b -> wires s x i a -> wires s y i b.
  Proof. intros E R W v. rewrite <- (R v), (W v). apply forallb_ext_in. intros c _. apply eq_holds; assumption. Qed.
  Lemma eq_next x y i rd : st_eq x y -> st_eq (next x i rd) (next y i rd).
  Proof.
    intros E j. unfold Pipe_Model.next. cbn [dat vld]. destruct (nreg (get s j)) as [r|]; [|apply E].
    rewrite (eq_vin x y i r E), (eq_free x y rd rd j E (fun _ => eq_refl)), (proj1 (E j)), (proj2 (E j)). split; [|reflexivity].
    rewrite !ev_value. rewrite (value_ext _ _ _ (data s x i) (data s y i)); [reflexivity|]. intros v _. apply eq_data, E.
  Qed.
  Lemma eq_refl_st x : st_eq x x.
  Proof. intros v. auto. Qed.
  Lemma eq_legal tr : forall x y, st_eq x y -> legal sem semu s x tr -> legal sem semu s y tr.
  Proof.
    induction tr as [|[i rd] tr IH]; intros x y E; cbn [legal]; [auto|]. intros [A B]. split; [exact (eq_wires x y i rd rd E (fun _ => eq_refl) A)|].
    exact (IH _ _ (eq_next x y i rd E) B).
  Qed.
  Lemma eq_passed v tr : forall x y, st_eq x y -> passed sem semu s v x tr = passed sem semu s v y tr.
  Proof.
    induction tr as [|[i rd] tr IH]; intros x y E; cbn [passed]; [reflexivity|]. rewrite (eq_valid x y i v E), (eq_data x y i v E), (IH _ _ (eq_next x y i rd E)). reflexivity.
  Qed.
  Lemma eq_after tr : forall x y, st_eq x y -> st_eq (after sem semu s x tr) (after sem semu s y tr).
  Proof. induction tr as [|[i rd] tr IH]; intros x y E; cbn [after]; [exact E|]. apply IH, eq_next, E. Qed.
  (** states and ready wires as lists *)
  Definition freeze (x : st) : st :=
    let l := map (dat x) (seq 0 N) in let m := map (vld x) (seq 0 N) in mkS (fun j => nth j l 0%Z) (fun j => nth j m false).
  Definition ready_of (x : st) (i : drive) : nat -> bool := let l := map (rdf s x i N) (seq 0 N) in fun v => nth v l true.
  Fixpoint sim (x : st) (ds : list drive) : trace :=
    match ds with [] => [] | i :: ds => let rd := ready_of x i in (i, rd) :: sim (freeze (next x i rd)) ds end.
  Fixpoint sim_state (x : st) (ds : list drive) : st :=
    match ds with [] => x | i :: ds => let rd := ready_of x i in sim_state (freeze (next x i rd)) ds end.
  Fixpoint sim_passed (v : nat) (x : st) (ds : list drive) : list Z :=
    match ds with
    | [] => []
    | i :: ds => let rd := ready_of x i in (if valid s x i v && rd v then [data s x i v] else []) ++ sim_passed v (freeze (next x i rd)) ds
    end.
  Definition small (x : st) : Prop := forall j, N <= j -> dat x j = 0%Z /\ vld x j = false.
  Lemma nth_map_seq {A} (f : nat -> A) d v : nth v (map f (seq 0 N)) d = if v <? N then f v else d.
  Proof.
    destruct (Nat.ltb_spec v N) as [L|L].
    - rewrite (nth_indep _ d (f 0)) by (rewrite map_length, seq_length; exact L). rewrite map_nth, seq_nth by exact L. reflexivity.
    - apply nth_overflow. rewrite map_length, seq_length. exact L.
  Qed.
  Lemma freeze_eq x : small x -> st_eq (freeze x) x.
  Proof.
    intros S v. unfold freeze. cbn [dat vld]. rewrite !nth_map_seq. destruct (Nat.ltb_spec v N) as [L|L]; [auto|]. destruct (S v L) as [-> ->]. auto.
  Qed.
  Lemma next_small x i rd : small x -> small (next x i rd).
  Proof. intros S j L. unfold Pipe_Model.next. cbn [dat vld]. rewrite (get_none s j L). cbn. exact (S j L). Qed.
  Lemma freeze_small x : small (freeze x).
  Proof. intros j L. unfold freeze. cbn [dat vld]. rewrite !nth_map_seq. destruct (Nat.ltb_spec j N); [lia|auto]. Qed.
  Lemma start_small : small (start s).
  Proof. intros j L. unfold start. cbn. rewrite (get_none s j L). auto. Qed.
  Variables (P : bool -> bool -> Prop) (acc : bool) (W : wfn P acc s).
  Lemma ready_of_wires x i : wires s x i (ready_of x i).
  Proof.
    assert (R : rd_eq (rdf s x i N) (ready_of x i)).
    { intros v. unfold ready_of. rewrite nth_map_seq. destruct (Nat.ltb_spec v N) as [L|L]; [reflexivity|].
      destruct N as [|n] eqn:Q; [reflexivity|]. cbn [rdf]. rewrite (conds_none P acc s W v) by lia. reflexivity. }
    apply (eq_wires x x i _ _ (eq_refl_st x) R). intros v. rewrite <- (rdf_stable P acc s W x i N v) by lia. reflexivity.
  Qed.
  Lemma sim_legal ds : forall x, small x -> legal sem semu s x (sim x ds).
  Proof.
    induction ds as [|i ds IH]; intros x S; cbn [sim legal]; [exact Logic.I|]. split; [apply ready_of_wires|].
    apply (eq_legal _ (freeze (next x i (ready_of x i)))); [apply freeze_eq, next_small, S|]. apply IH, freeze_small.
  Qed.
  Lemma sim_passed_eq v ds : forall x, small x -> passed sem semu s v x (sim x ds) = sim_passed v x ds.
  Proof.
    induction ds as [|i ds IH]; intros x S; cbn [sim passed sim_passed]; [reflexivity|]. f_equal. rewrite <- IH by apply freeze_small.
    symmetry. apply eq_passed, freeze_eq, next_small, S.
  Qed.
  Lemma sim_state_eq ds : forall x, small x -> st_eq (after sem semu s x (sim x ds)) (sim_state x ds).
  Proof.
    induction ds as [|i ds IH]; intros x S; cbn [sim after sim_state]; [apply eq_refl_st|]. intros v.
    destruct (eq_after (sim (freeze (next x i (ready_of x i))) ds) _ _ (freeze_eq _ (next_small x i (ready_of x i) S)) v) as [A B]. rewrite <- A, <- B.
    apply IH, freeze_small.
  Qed.
  Lemma sim_always (Q : drive -> Prop) ds : forall x, Forall Q ds -> always sem semu s (fun _ i _ => Q i) x (sim x ds).
  Proof.
    assert (H : forall tr x, Forall Q (map fst tr) -> always sem semu s (fun _ i _ => Q i) x tr).
    { induction tr as [|[i rd] tr IH]; intros x F; cbn [always]; [exact Logic.I|]. cbn in F. apply Forall_cons_iff in F as [A B]. split; [exact A|apply IH, B]. }
    intros x F. apply H. revert x. induction F as [|i ds A _ IH]; intros x; cbn [sim map fst]; constructor; [exact A|apply IH].
  Qed.
End Eval.
Definition tightb (s : pl) (M : nat) : bool :=
  forallb (fun v => match nstage (get s v) with
                    | Some k => (k <=? M) && notnil (conds s v) && forallb (fun c => match c with COut _ => k =? M | _ => true end) (conds s v)
                    | None => false
                    end) (seq 0 (length (nodes s))).
Lemma tightb_ok s M : (forall i c, In (i, c) (links s) -> i < length (nodes s)) -> tightb s M = true -> tight s M.
Proof.
  intros WL B. unfold tightb in B. rewrite forallb_forall in B.
  assert (H : forall v, v < length (nodes s) -> exists k, nstage (get s v) = Some k /\ k <= M /\ conds s v <> [] /\ forall o, In (COut o) (conds s v) -> k = M).
  { intros v L. specialize (B v ltac:(apply in_seq; lia)). destruct (nstage (get s v)) as [k|]; [|discriminate]. apply andb_true_iff in B as [B B3]. apply andb_true_iff in B as [B1 B2].
    exists k. split; [reflexivity|]. split; [apply Nat.leb_le, B1|]. split; [intros X; rewrite X in B2; discriminate|].
    intros o I. rewrite forallb_forall in B3. specialize (B3 _ I). cbn in B3. apply Nat.eqb_eq, B3. }
  split.
  - intros v k E. destruct (Nat.lt_ge_cases v (length (nodes s))) as [L|L]; [|rewrite get_none in E by exact L; discriminate].
    destruct (H v L) as (k' & E' & A & _). congruence.
  - intros v L. destruct (H v L) as (k' & _ & _ & A & _). exact A.
  - intros v k I. pose proof (WL v (COut k) (proj1 (in_conds _ _ _) I)) as L. destruct (H v L) as (k' & E' & _ & _ & A). rewrite E', (A k I). reflexivity.
Qed.
