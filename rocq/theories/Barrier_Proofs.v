(** Proofs for the barrier. *)
From Verif Require Import Base Mutex_Model Mutex_Proofs Barrier_Model Barrier_Spec.
Open Scope Z_scope.

Lemma nodup_snoc {A} (l : list A) x : NoDup l -> ~ In x l -> NoDup (l ++ [x]).
Proof.
  induction l as [|a l IH]; intros H Hn; cbn; [constructor; [intros []|constructor]|].
  inversion H; subst. constructor.
  - intros Hi. apply in_app_or in Hi as [Hi|[Hi|[]]]; [contradiction|]. subst. apply Hn. left. reflexivity.
  - apply IH; [assumption|]. intros Hi. apply Hn. right. exact Hi.
Qed.
Lemma register_nodup w sites : forall names names', register w names sites = Some names' -> NoDup names -> NoDup names'.
Proof.
  induction sites as [|[t d] r IH]; intros names names' H Hn; cbn in H; [inversion H; subst; exact Hn|].
  unfold get_id in H. destruct (index_of t names) as [k|] eqn:E.
  - destruct (_ <? k); [discriminate|]. exact (IH _ _ H Hn).
  - destruct (_ <? _); [discriminate|]. apply (IH _ _ H).
    apply nodup_snoc; [exact Hn|]. intros Hi. apply index_of_in in Hi as (k & X). congruence.
Qed.

(** counting *)
Definition cnt (f : nat -> bool) (l : list nat) : Z := Z.of_nat (length (filter f l)).
Lemma cnt_ext f g l : (forall x, In x l -> f x = g x) -> cnt f l = cnt g l.
Proof. intros H. unfold cnt. f_equal. f_equal. apply filter_ext_in. exact H. Qed.
Lemma cnt_cons f a l : cnt f (a :: l) = b2z (f a) + cnt f l.
Proof. unfold cnt. cbn. destruct (f a); cbn [length b2z]; lia. Qed.
Lemma cnt_flip f g l t : NoDup l -> In t l -> f t = false -> g t = true -> (forall x, x <> t -> f x = g x) -> cnt g l = cnt f l + 1.
Proof.
  intros Hn Hi Hf Hg He. induction l as [|a l IH]; [destruct Hi|]. inversion Hn; subst. rewrite !cnt_cons. destruct Hi as [->|Hi].
  - rewrite Hf, Hg. cbn [b2z]. rewrite (cnt_ext g f l); [lia|]. intros x Hx. symmetry. apply He. intros ->. contradiction.
  - rewrite (IH H2 Hi). rewrite (He a); [lia|]. intros ->. contradiction.
Qed.
Lemma cnt_zero f l : (forall x, In x l -> f x = false) -> cnt f l = 0.
Proof. intros H. induction l as [|a l IH]; [reflexivity|]. rewrite cnt_cons, (H a (or_introl eq_refl)), IH; [reflexivity|]. intros x Hx. apply H. right. exact Hx. Qed.
Lemma cnt_le f l : 0 <= cnt f l <= Z.of_nat (length l).
Proof. induction l as [|a l IH]; [cbn; lia|]. rewrite cnt_cons. cbn [length]. destruct (f a); cbn [b2z]; lia. Qed.
Lemma cnt_full f l : cnt f l = Z.of_nat (length l) -> forall x, In x l -> f x = true.
Proof.
  induction l as [|a l IH]; intros H x Hx; [destruct Hx|]. rewrite cnt_cons in H. cbn [length] in H. pose proof (cnt_le f l).
  destruct (f a) eqn:E; cbn [b2z] in H; [|lia]. destruct Hx as [<-|Hx]; [exact E|]. apply IH; [lia|exact Hx].
Qed.
Lemma cnt_some f l : cnt f l < Z.of_nat (length l) -> exists x, In x l /\ f x = false.
Proof.
  induction l as [|a l IH]; intros H; [cbn in H; lia|]. rewrite cnt_cons in H. cbn [length] in H.
  destruct (f a) eqn:E; [|exists a; split; [left; reflexivity|exact E]]. cbn [b2z] in H.
  destruct IH as (x & Hx & Ex); [lia|]. exists x. split; [right; exact Hx|exact Ex].
Qed.

(** stages of a thread *)
Definition stg (p : bphase) : Z := match p with BOut => 0 | BTry _ => 1 | BVer _ => 2 | BInc _ => 3 | BUnl _ => 4 | BWait _ => 5 end.

Section Barrier.
  Variables (n : Z) (names sites : list nat).
  Hypothesis Hn : 1 <= n.
  Hypothesis Hreg : register id_width [] (mutex_sites sites) = Some names.
  Notation id := (ident names).
  Notation step := (b_step n names sites).

  Lemma Hw : 0 <= id_width. Proof. unfold id_width. lia. Qed.
  Lemma bsites_in t : In t sites -> In t names.
  Proof.
    intros H. apply (sites_in id_width names (mutex_sites sites) Hw Hreg t KLock).
    apply in_flat_map. exists t. split; [exact H|left; reflexivity].
  Qed.
  Lemma names_nodup : NoDup names.
  Proof. exact (register_nodup _ _ _ _ Hreg (NoDup_nil _)). Qed.

  Definition okB (th : nat -> bphase) : Prop := forall t,
    match th t with BOut => True | BTry k | BVer k | BInc k | BUnl k | BWait k => nth_error sites k = Some t end.
  Lemma okB_in th t : okB th -> th t <> BOut -> In t names.
  Proof.
    intros H Ht. specialize (H t). apply bsites_in. destruct (th t); try congruence; exact (nth_error_In _ _ H).
  Qed.
  Lemma okB_step s i : okB (b_th s) -> okB (b_th (step s i)).
  Proof.
    intros H t. specialize (H t). cbn.
    assert (E : match b_enter sites t (i t) with BOut => True | BTry k | BVer k | BInc k | BUnl k | BWait k => nth_error sites k = Some t end).
    { unfold b_enter. destruct (i t) as [k|]; [|exact I]. destruct (nth_error sites k) as [t'|] eqn:E; [|exact I].
      destruct (Nat.eqb_spec t' t) as [->|]; [exact E|exact I]. }
    unfold b_next. destruct (b_th s t) as [|k|k|k|k|k]; try exact H; [exact E| | |].
    - destruct (_ || _); exact H.
    - destruct (mx_owner _ _); exact H.
    - destruct (b_done s); [exact E|exact H].
  Qed.

  Lemma in_numbered {A} (l : list A) k x : In (k, x) (numbered l) <-> nth_error l k = Some x.
  Proof.
    unfold numbered. rewrite combine_seq_nth. cbn [plus]. split; [intros (j & -> & H); exact H|intros H; exists k; auto].
  Qed.
  Lemma in_bops th o : okB th -> In o (bops names sites th) <->
    exists t, (stg (th t) = 1 /\ o = OTry (id t)) \/ (stg (th t) = 4 /\ o = OUnlock (id t)).
  Proof.
    intros Hok. unfold bops. rewrite in_flat_map. split.
    - intros ((k, t) & Hin & Ho). exists t. unfold bsite_ops in Ho. apply in_app_or in Ho as [Ho|Ho].
      + left. destruct (th t); cbn in Ho; try destruct Ho. destruct (Nat.eqb _ _); [|destruct Ho]. destruct Ho as [<-|[]]. auto.
      + right. destruct (th t); cbn in Ho; try destruct Ho. destruct (Nat.eqb _ _); [|destruct Ho]. destruct Ho as [<-|[]]. auto.
    - intros (t & [[Hs ->]|[Hs ->]]); pose proof (Hok t) as Ht; destruct (th t) as [|k|k|k|k|k] eqn:E; cbn in Hs; try lia;
        exists (k, t); (split; [apply in_numbered; exact Ht|]); unfold bsite_ops; rewrite E; cbn; rewrite Nat.eqb_refl; left; reflexivity.
  Qed.

  (** ** The lock *)
  Inductive lst := LFree | LVer (o : nat) | LInc (o : nat) | LUnl (o : nat).
  Definition own (s : bst) (o : nat) : Prop := In o names /\ m_reg (b_mx s) = true /\ m_id (b_mx s) = id o.
  Definition lock_ok (s : bst) (l : lst) : Prop :=
    match l with
    | LFree => m_reg (b_mx s) = false /\ forall t, ~ (2 <= stg (b_th s t) <= 4)
    | LVer o => own s o /\ stg (b_th s o) = 2 /\ forall t, ~ (3 <= stg (b_th s t) <= 4)
    | LInc o => own s o /\ stg (b_th s o) = 3 /\ forall t, t <> o -> ~ (2 <= stg (b_th s t) <= 4)
    | LUnl o => own s o /\ stg (b_th s o) = 4 /\ forall t, t <> o -> ~ (2 <= stg (b_th s t) <= 4)
    end.
  Definition follows (s : bst) (l l' : lst) : Prop :=
    match l with
    | LFree => if existsb (fun t => stg (b_th s t) =? 1) names then exists o, l' = LVer o else l' = LFree
    | LVer o => l' = LInc o
    | LInc o => l' = LUnl o
    | LUnl _ => l' = LFree
    end.
  Lemma id_eq t o : In t names -> In o names -> id t = id o -> t = o.
  Proof. apply ident_inj. Qed.
  Lemma enter_stg t g : stg (b_enter sites t g) = 0 \/ stg (b_enter sites t g) = 1.
  Proof. unfold b_enter. destruct g as [k|]; [|left; reflexivity]. destruct (nth_error sites k); [|left; reflexivity]. destruct (Nat.eqb _ _); cbn; auto. Qed.
  (** the next stage *)
  Lemma next_stg s i t : okB (b_th s) ->
    let p := stg (b_th s t) in let q := stg (b_th (step s i) t) in
    (p = 0 /\ (q = 0 \/ q = 1)) \/
    (p = 1 /\ q = (if negb (m_reg (b_mx s)) || (m_id (b_mx s) =? id t) then 2 else 1)) \/
    (p = 2 /\ q = (if mx_owner (b_mx s) (id t) then 3 else 1)) \/
    (p = 3 /\ q = 4) \/ (p = 4 /\ q = 5) \/
    (p = 5 /\ b_done s = false /\ q = 5) \/ (p = 5 /\ b_done s = true /\ (q = 0 \/ q = 1)).
  Proof.
    intros Hok. cbn. unfold b_next. pose proof (enter_stg t (i t)) as E.
    destruct (b_th s t) as [|k|k|k|k|k]; cbn [stg].
    - left. auto.
    - right; left. destruct (_ || _); auto.
    - right; right; left. destruct (mx_owner _ _); auto.
    - do 3 right; left. auto.
    - do 4 right; left. auto.
    - destruct (b_done s); [do 6 right|do 5 right; left]; auto.
  Qed.
  Lemma stg_in s t : okB (b_th s) -> stg (b_th s t) <> 0 -> In t names.
  Proof. intros Hok H. apply (okB_in (b_th s)); [exact Hok|]. intros E. rewrite E in H. apply H. reflexivity. Qed.

  Lemma mx_keep s o : okB (b_th s) -> own s o -> (forall t, stg (b_th s t) = 4 -> False) -> b_mx (step s (fun _ => None)) = b_mx s.
  Proof.
    intros Hok (A & B & C) Hu. cbn. apply apply_held; [exact B|]. intros k Hk. apply (in_bops _ _ Hok) in Hk as (t & [[_ X]|[X _]]); [discriminate|].
    exfalso. exact (Hu t X).
  Qed.
  Lemma mx_any s i j : b_mx (step s i) = b_mx (step s j). Proof. reflexivity. Qed.

  Lemma lock_step s i l : okB (b_th s) -> lock_ok s l -> exists l', follows s l l' /\ lock_ok (step s i) l'.
  Proof.
    intros Hok H. destruct l as [|o|o|o]; cbn [lock_ok follows] in *.
    - destruct H as (Hr & Hb).
      destruct (existsb (fun t => stg (b_th s t) =? 1) names) eqn:Ex.
      + apply existsb_exists in Ex as (t0 & Hin0 & E0). apply Z.eqb_eq in E0.
        assert (Hr' : m_reg (b_mx (step s i)) = true).
        { cbn. apply fold_free; [exact Hr| |left; exists (id t0); apply (in_bops _ _ Hok); eauto].
          intros k Hk. apply (in_bops _ _ Hok) in Hk as (t & [[_ X]|[X _]]); [discriminate|]. exfalso. apply (Hb t). lia. }
        destruct (apply_taken id_width _ _ Hr Hr') as (k & Hk & E).
        apply (in_bops _ _ Hok) in Hk as (o & [[Ho Ek]|[_ X]]); [|discriminate]. inversion Ek; subst k.
        assert (Hino : In o names) by (apply (stg_in s); [exact Hok|lia]).
        exists (LVer o). split; [eauto|]. split; [split; [exact Hino|split; [exact Hr'|]]|].
        * cbn in E |- *. rewrite E. apply (id_mod id_width names (mutex_sites sites) Hw Hreg o Hino).
        * split.
          -- pose proof (next_stg s i o Hok) as N. cbn zeta in N. rewrite Ho, Hr in N. cbn [negb orb] in N. lia.
          -- intros t Ht. pose proof (next_stg s i t Hok) as N. cbn zeta in N. specialize (Hb t). rewrite Hr in N. cbn [negb orb] in N. lia.
      + exists LFree. split; [reflexivity|].
        assert (Hno : forall t, stg (b_th s t) <> 1).
        { intros t Ht. rewrite <- Bool.not_true_iff_false in Ex. apply Ex. apply existsb_exists. exists t.
          split; [apply (stg_in s); [exact Hok|lia]|lia]. }
        split.
        * cbn. destruct (bops names sites (b_th s)) as [|o r] eqn:E; [exact Hr|].
          assert (X : In o (bops names sites (b_th s))) by (rewrite E; left; reflexivity).
          apply (in_bops _ _ Hok) in X as (t & [[X _]|[X _]]); [exfalso; exact (Hno t X)|exfalso; apply (Hb t); lia].
        * intros t Ht. pose proof (next_stg s i t Hok) as N. cbn zeta in N. specialize (Hb t). specialize (Hno t). clear Hr. lia.
    - destruct H as (Hown & Ho & Hb). pose proof Hown as (A & B & C). exists (LInc o). split; [reflexivity|].
      assert (Em : b_mx (step s i) = b_mx s) by (rewrite (mx_any s i (fun _ => None)); apply (mx_keep s o Hok Hown); intros t Ht; apply (Hb t); lia).
      split; [unfold own; rewrite Em; auto|]. split.
      + pose proof (next_stg s i o Hok) as N. cbn zeta in N. unfold mx_owner in N. rewrite B, C, Z.eqb_refl in N. cbn [negb orb andb] in N. lia.
      + intros t Hne Ht. pose proof (next_stg s i t Hok) as N. cbn zeta in N. specialize (Hb t).
        assert (Hid : stg (b_th s t) <> 0 -> (id o =? id t) = false).
        { intros Hs. apply Z.eqb_neq. intros E. apply Hne. symmetry. apply id_eq; auto. exact (stg_in s t Hok Hs). }
        unfold mx_owner in N. rewrite B, C in N. cbn [negb orb andb] in N.
        destruct N as [N|[N|[N|N]]]; [lia| | |lia]; rewrite Hid in N by lia; lia.
    - destruct H as (Hown & Ho & Hb). pose proof Hown as (A & B & C). exists (LUnl o). split; [reflexivity|].
      assert (Em : b_mx (step s i) = b_mx s).
      { rewrite (mx_any s i (fun _ => None)); apply (mx_keep s o Hok Hown). intros t Ht.
        destruct (Nat.eq_dec t o) as [->|Hne]; [lia|]. apply (Hb t Hne); lia. }
      split; [unfold own; rewrite Em; auto|]. split.
      + pose proof (next_stg s i o Hok) as N. cbn zeta in N. lia.
      + intros t Hne Ht. pose proof (next_stg s i t Hok) as N. cbn zeta in N. specialize (Hb t Hne).
        assert (Hid : stg (b_th s t) <> 0 -> (id o =? id t) = false).
        { intros Hs. apply Z.eqb_neq. intros E. apply Hne. symmetry. apply id_eq; auto. exact (stg_in s t Hok Hs). }
        unfold mx_owner in N. rewrite B, C in N. cbn [negb orb andb] in N.
        destruct N as [N|[N|[N|N]]]; [lia| |lia|lia]; rewrite Hid in N by lia; lia.
    - destruct H as ((A & B & C) & Ho & Hb). exists LFree. split; [reflexivity|]. split.
      + cbn. apply apply_unlocked; [exact B|]. rewrite C. apply (in_bops _ _ Hok). eauto.
      + intros t Ht. pose proof (next_stg s i t Hok) as N. cbn zeta in N.
        assert (Hid : t <> o -> stg (b_th s t) <> 0 -> (id o =? id t) = false).
        { intros Hne Hs. apply Z.eqb_neq. intros E. apply Hne. symmetry. apply id_eq; auto. exact (stg_in s t Hok Hs). }
        destruct (Nat.eq_dec t o) as [->|Hne]; [lia|]. specialize (Hb t Hne).
        unfold mx_owner in N. rewrite B, C in N. cbn [negb orb andb] in N.
        destruct N as [N|[N|[N|N]]]; [lia| |lia|lia]; rewrite Hid in N by (assumption || lia); lia.
  Qed.

  (** ** The counter *)
  Definition counted (s : bst) (t : nat) : bool := 4 <=? stg (b_th s t).
  Definition ncount (s : bst) : Z := cnt (counted s) names.
  Definition count_ok (s : bst) (l : lst) : Prop :=
    (b_done s = false /\ b_count s = ncount s /\ b_count s < n) \/
    (b_done s = false /\ b_count s = n /\ ncount s = n /\ exists o, l = LUnl o) \/
    (b_done s = true /\ b_count s = 0 /\ ncount s = n /\ l = LFree).

  Lemma count_fold (f : nat * nat -> bool) (v : Z) l c : fold_left (fun c kt => if f kt then v else c) l c = if existsb f l then v else c.
  Proof.
    revert c. induction l as [|a l IH]; intros c; [reflexivity|]. cbn [fold_left existsb]. rewrite IH.
    destruct (f a), (existsb f l); reflexivity.
  Qed.
  Lemma count_next s i : okB (b_th s) ->
    (forall t, stg (b_th s t) <> 3) -> b_count (step s i) = if b_count s =? n then 0 else b_count s.
  Proof.
    intros Hok H. cbn. rewrite (count_fold (fun kt => in_inc (b_th s (snd kt)) (fst kt))).
    destruct (existsb _ _) eqn:E; [|reflexivity]. apply existsb_exists in E as ((k, t) & _ & X). cbn in X. specialize (H t).
    destruct (b_th s t); cbn in *; try discriminate. lia.
  Qed.
  Lemma count_inc s i t : okB (b_th s) -> stg (b_th s t) = 3 -> b_count (step s i) = (b_count s + 1) mod 2 ^ b_width n.
  Proof.
    intros Hok H. cbn. rewrite (count_fold (fun kt => in_inc (b_th s (snd kt)) (fst kt))).
    pose proof (Hok t) as Ht. destruct (b_th s t) as [|k|k|k|k|k] eqn:E; cbn in H; try lia.
    replace (existsb _ _) with true; [reflexivity|]. symmetry. apply existsb_exists. exists (k, t).
    split; [apply in_numbered; exact Ht|]. cbn. rewrite E. cbn. apply Nat.eqb_refl.
  Qed.
  Lemma width_enough c : 0 <= c <= n -> c mod 2 ^ b_width n = c.
  Proof.
    intros H. apply Z.mod_small. split; [lia|]. unfold b_width. rewrite Z.pow_add_r by (try apply Z.log2_up_nonneg; lia).
    pose proof (Z.log2_log2_up_spec n ltac:(lia)). lia.
  Qed.

  Lemma count_step s i l l' : okB (b_th s) -> lock_ok s l -> count_ok s l -> follows s l l' -> lock_ok (step s i) l' ->
    count_ok (step s i) l'.
  Proof.
    intros Hok Hl Hc Hf Hl'.
    assert (Hd : b_done (step s i) = (b_count s =? n)) by reflexivity.
    destruct Hc as [(D & C & L)|[(D & C & W & o & ->)|(D & C & W & ->)]].
    - (* counting *)
      assert (Hfull : (b_count s =? n) = false) by lia. rewrite Hfull in Hd.
      destruct (match l with LInc _ => true | _ => false end) eqn:El.
      + destruct l as [|o|o|o]; try discriminate. cbn in Hf. subst l'. cbn [lock_ok] in Hl, Hl'.
        destruct Hl as ((A & _) & Ho & Hb). destruct Hl' as (_ & Ho' & Hb').
        assert (E : ncount (step s i) = ncount s + 1).
        { apply (cnt_flip _ _ _ o names_nodup A); unfold counted; [lia|lia|]. intros t Hne.
          pose proof (next_stg s i t Hok) as N. cbn zeta in N. specialize (Hb t Hne). specialize (Hb' t Hne). rewrite D in N.
          destruct (_ || _) in N; destruct (mx_owner _ _) in N; lia. }
        pose proof (count_inc s i o Hok Ho) as E2. unfold ncount in C. pose proof (cnt_le (counted s) names) as CL.
        rewrite width_enough in E2 by lia. fold (ncount s) in C, CL.
        destruct (Z.eq_dec (b_count s + 1) n) as [X|X].
        * right; left. split; [exact Hd|]. split; [lia|]. split; [lia|]. eauto.
        * left. split; [exact Hd|]. split; lia.
      + assert (H3 : forall t, stg (b_th s t) <> 3).
        { intros t Ht. destruct l as [|o|o|o]; cbn [lock_ok] in Hl; try discriminate.
          - apply (proj2 Hl t). lia.
          - apply (proj2 (proj2 Hl) t). lia.
          - destruct Hl as (_ & Ho & Hb). destruct (Nat.eq_dec t o) as [->|Hne]; [lia|]. apply (Hb t Hne). lia. }
        left. rewrite (count_next s i Hok H3), Hfull. split; [exact Hd|]. split; [|exact L].
        rewrite C. apply cnt_ext. intros t _. unfold counted.
        pose proof (next_stg s i t Hok) as N. cbn zeta in N. specialize (H3 t). rewrite D in N.
        destruct (_ || _) in N; destruct (mx_owner _ _) in N; lia.
    - (* full: the last one unlocks *)
      cbn in Hf. subst l'. cbn [lock_ok] in Hl. destruct Hl as (_ & Ho & Hb).
      assert (H3 : forall t, stg (b_th s t) <> 3).
      { intros t Ht. destruct (Nat.eq_dec t o) as [->|Hne]; [lia|]. apply (Hb t Hne). lia. }
      right; right. split; [rewrite Hd; lia|]. split; [rewrite (count_next s i Hok H3); destruct (Z.eqb_spec (b_count s) n); lia|].
      split; [|reflexivity]. transitivity (ncount s); [|exact W]. symmetry. apply cnt_ext. intros t _. unfold counted.
      pose proof (next_stg s i t Hok) as N. cbn zeta in N. specialize (H3 t). rewrite D in N.
      destruct (_ || _) in N; destruct (mx_owner _ _) in N; lia.
    - (* everybody leaves *)
      cbn [lock_ok] in Hl. destruct Hl as (Hr & Hb).
      assert (H3 : forall t, stg (b_th s t) <> 3) by (intros t Ht; apply (Hb t); lia).
      left. split; [rewrite Hd; lia|]. rewrite (count_next s i Hok H3). destruct (Z.eqb_spec (b_count s) n); [lia|].
      split; [|lia]. rewrite C. symmetry. apply cnt_zero. intros t _. unfold counted.
      pose proof (next_stg s i t Hok) as N. cbn zeta in N. specialize (H3 t). specialize (Hb t). rewrite D, Hr in N. cbn [negb orb] in N.
      destruct (mx_owner _ _) in N; lia.
  Qed.

  Definition binv (s : bst) : Prop := okB (b_th s) /\ exists l, lock_ok s l /\ count_ok s l.
  Lemma binv_step s i : binv s -> binv (step s i).
  Proof.
    intros (Hok & l & Hl & Hc). split; [apply okB_step, Hok|].
    destruct (lock_step s i l Hok Hl) as (l' & Hf & Hl'). exists l'. split; [exact Hl'|]. exact (count_step s i l l' Hok Hl Hc Hf Hl').
  Qed.
  Lemma binv_init : binv bst_init.
  Proof.
    split; [intros t; exact I|]. exists LFree. split; [split; [reflexivity|intros t; cbn; lia]|].
    left. cbn. split; [reflexivity|]. split; [|lia]. symmetry. apply cnt_zero. reflexivity.
  Qed.
  Lemma binv_run s ins : binv s -> binv (final step s ins).
  Proof. revert s. induction ins as [|i r IH]; intros s H; [exact H|]. apply IH, binv_step, H. Qed.

  (** ** Who leaves *)
  Lemma leaves_counted s t : binv s -> leaves s t = true -> b_done s = true.
  Proof. unfold leaves. intros _. destruct (b_th s t); try discriminate. auto. Qed.
  Lemma leaves_batch s : binv s -> b_done s = true -> cnt (leaves s) names = n.
  Proof.
    intros (Hok & l & Hl & Hc) Hd. destruct Hc as [(D & _)|[(D & _)|(_ & _ & W & ->)]]; try congruence.
    rewrite <- W. apply cnt_ext. intros t _. unfold leaves, counted. cbn in Hl. destruct Hl as (_ & Hb). specialize (Hb t).
    rewrite Hd. destruct (b_th s t); cbn in *; lia || reflexivity.
  Qed.
  Lemma leaves_in s t : binv s -> leaves s t = true -> In t names.
  Proof.
    intros (Hok & _) H. apply (okB_in (b_th s)); [exact Hok|]. intros E. unfold leaves in H. rewrite E in H. discriminate.
  Qed.

  (** ** All inside: everybody leaves after a fixed number of cycles *)
  Definition inside (s : bst) : Prop := forall t, In t names -> 1 <= stg (b_th s t).
  Definition togo (s : bst) (l : lst) : Z :=
    4 * (n - b_count s) + match l with LFree => 0 | LVer _ => -1 | LInc _ => -2 | LUnl _ => 1 end.
  Hypothesis Hall : Z.of_nat (length names) = n.
  Lemma inside_step s i : okB (b_th s) -> inside s -> b_done s = false -> inside (step s i).
  Proof.
    intros Hok Hi Hd t Ht. specialize (Hi t Ht). pose proof (next_stg s i t Hok) as N. cbn zeta in N. rewrite Hd in N.
    destruct (_ || _) in N; destruct (mx_owner _ _) in N; lia.
  Qed.
  Lemma togo_step s i l l' : okB (b_th s) -> lock_ok s l -> count_ok s l -> inside s -> b_done s = false ->
    follows s l l' -> lock_ok (step s i) l' ->
    (b_done (step s i) = false /\ togo (step s i) l' = togo s l - 1) \/ (b_done (step s i) = true /\ togo s l = 1).
  Proof.
    intros Hok Hl Hc Hi Hd Hf Hl'.
    assert (Hdn : b_done (step s i) = (b_count s =? n)) by reflexivity.
    destruct Hc as [(D & C & L)|[(D & C & W & o & ->)|(D & _)]]; [| |congruence].
    - left. split; [rewrite Hdn; lia|].
      assert (Hfull : (b_count s =? n) = false) by lia.
      destruct l as [|o|o|o]; cbn [lock_ok follows] in Hl, Hf.
      + destruct Hl as (Hr & Hb).
        assert (Ex : existsb (fun t => stg (b_th s t) =? 1) names = true).
        { destruct (cnt_some (counted s) names) as (t & Ht & E); [unfold ncount in C; lia|].
          apply existsb_exists. exists t. split; [exact Ht|]. unfold counted in E. specialize (Hb t). specialize (Hi t Ht). lia. }
        rewrite Ex in Hf. destruct Hf as (o & ->). unfold togo. rewrite (count_next s i Hok), Hfull by (intros t Ht; apply (Hb t); lia). lia.
      + subst l'. destruct Hl as (_ & _ & Hb). unfold togo. rewrite (count_next s i Hok), Hfull by (intros t Ht; apply (Hb t); lia). lia.
      + subst l'. destruct Hl as (_ & Ho & _). unfold togo. rewrite (count_inc s i o Hok Ho), width_enough; [lia|].
        pose proof (cnt_le (counted s) names). unfold ncount in C. lia.
      + subst l'. destruct Hl as (_ & Ho & Hb). unfold togo. rewrite (count_next s i Hok), Hfull; [lia|].
        intros t Ht. destruct (Nat.eq_dec t o) as [->|Hne]; [lia|]. apply (Hb t Hne). lia.
    - right. split; [rewrite Hdn; lia|]. unfold togo. lia.
  Qed.
  Lemma togo_range s l : lock_ok s l -> count_ok s l -> b_done s = false -> 1 <= togo s l <= 4 * n + 1.
  Proof.
    intros Hl Hc Hd. pose proof (cnt_le (counted s) names) as R. fold (ncount s) in R.
    destruct Hc as [(D & C & L)|[(D & C & W & o & ->)|(D & _)]]; [| |congruence]; unfold togo.
    - destruct l; lia.
    - lia.
  Qed.
  Lemma released k : forall s l more, okB (b_th s) -> lock_ok s l -> count_ok s l -> inside s -> b_done s = false ->
    togo s l = Z.of_nat (S k) -> (k < length more)%nat -> 
    b_done (final step s (firstn (S k) more)) = true.
  Proof.
    induction k as [|k IH]; intros s l more Hok Hl Hc Hi Hd Ht Hm; (destruct more as [|i more]; [cbn in Hm; lia|]).
    - destruct (lock_step s i l Hok Hl) as (l' & Hf & Hl').
      pose proof (count_step s i l l' Hok Hl Hc Hf Hl') as Hc'.
      destruct (togo_step s i l l' Hok Hl Hc Hi Hd Hf Hl') as [(Hd' & E)|(Hd' & _)]; [|exact Hd'].
      pose proof (togo_range _ _ Hl' Hc' Hd'). lia.
    - destruct (lock_step s i l Hok Hl) as (l' & Hf & Hl').
      pose proof (count_step s i l l' Hok Hl Hc Hf Hl') as Hc'.
      destruct (togo_step s i l l' Hok Hl Hc Hi Hd Hf Hl') as [(Hd' & E)|(_ & E)]; [|lia].
      change (final step s (firstn (S (S k)) (i :: more))) with (final step (step s i) (firstn (S k) more)).
      apply (IH _ l'); auto; [apply okB_step; exact Hok|apply inside_step; assumption|lia|cbn in Hm; lia].
  Qed.
  Lemma leave_all s : binv s -> b_done s = true -> forall t, In t names -> leaves s t = true.
  Proof. intros Hb Hd. apply cnt_full. rewrite (leaves_batch s Hb Hd). lia. Qed.
End Barrier.
