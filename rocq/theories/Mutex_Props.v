(** C25, C26, C54: mutual exclusion, progress, and unlock by others. *)
From Verif Require Import Base Mutex_Model Mutex_Spec Mutex_Proofs.
Open Scope Z_scope.

(** ** C25 *)
(** At most one thread is between a successful lock and its unlock; nobody acquires while another
    thread owns; of several simultaneous callers at most one acquires. *)
Theorem C25_mutual_exclusion :
  forall w names sites ins t1 t2, 0 <= w -> register w [] sites = Some names ->
    let now := m_run w names sites ins in
    let owner := owns (m_events w names sites ins) in
    owner t1 = true \/ acquires names now t1 = true ->
    owner t2 = true \/ acquires names now t2 = true ->
    t1 = t2.
Proof.
  intros w names sites ins t1 t2 Hw Hr now owner H1 H2.
  destruct (inv_run w names sites Hw Hr ins) as (Hok & Ho & _). fold now owner in Hok, Ho.
  assert (K : forall t, owner t = true \/ acquires names now t = true -> In t names /\ mx_owner (s_mx now) (ident names t) = true).
  { intros t [H|H]; [exact (Ho t H)|]. destruct (acq_owner _ _ _ H) as (A & k & B). split; [|exact A].
    apply (okT_name w names sites Hw Hr (s_th now)); [exact Hok|congruence]. }
  destruct (K t1 H1) as (A1 & B1), (K t2 H2) as (A2 & B2). unfold mx_owner in B1, B2.
  apply andb_prop in B1 as [_ B1]. apply andb_prop in B2 as [_ B2]. apply Z.eqb_eq in B1, B2.
  apply (ident_inj names); [exact A1|exact A2|congruence].
Qed.
Print Assumptions C25_mutual_exclusion.

(** Threads have different identifiers and they fit the register. *)
Theorem C25_identifiers :
  forall w names sites t1 t2 d1 d2, 0 <= w -> register w [] sites = Some names ->
    In (t1, d1) sites -> In (t2, d2) sites ->
    0 <= ident names t1 < 2 ^ w /\ (ident names t1 = ident names t2 -> t1 = t2).
Proof.
  intros w names sites t1 t2 d1 d2 Hw Hr H1 H2.
  pose proof (sites_in w names sites Hw Hr _ _ H1) as A1. pose proof (sites_in w names sites Hw Hr _ _ H2) as A2.
  split; [exact (id_range w names sites Hw Hr t1 A1)|exact (ident_inj names t1 t2 A1 A2)].
Qed.
Print Assumptions C25_identifiers.

(** Example: three threads; 0 and 1 call lock in the same cycle, 2 calls try_lock later; 1 wins
    (its statement is later), unlocks, then 0 gets it. *)
Definition ex_sites : list site := [(0%nat, KLock); (1%nat, KLock); (2%nat, KTryLock); (1%nat, KUnlock); (0%nat, KUnlock)].
Definition gos (l : list (nat * nat)) : min := fun t => match find (fun p => Nat.eqb (fst p) t) l with Some p => Some (snd p) | None => None end.
Definition ex_ins : list min :=
  [gos [(0, 0); (1, 1)]; gos []; gos [(2, 2)]; gos []; gos [(1, 3)]; gos []; gos []; gos []; gos []]%nat.
Example ex_names : register 32 [] ex_sites = Some [0; 1; 2]%nat. Proof. reflexivity. Qed.
Example ex_owns :
  map (fun n => map (owns (m_events 32 [0; 1; 2]%nat ex_sites (firstn n ex_ins))) [0; 1; 2]%nat) (seq 0 10) =
  [[false; false; false]; [false; false; false]; [false; false; false]; [false; true; false]; [false; true; false];
   [false; true; false]; [false; false; false]; [false; false; false]; [true; false; false]; [true; false; false]].
Proof. vm_compute. reflexivity. Qed.

(** ** C26 *)
(** If only owners call unlock, nobody owns the mutex and some thread is in lock(), then some
    thread acquires it in this or one of the next two cycles. *)
Theorem C26_progress :
  forall w names sites ins i1 i2 t, 0 <= w -> register w [] sites = Some names ->
    only_owners_unlock (m_events w names sites (ins ++ [i1; i2])) ->
    (forall t, owns (m_events w names sites ins) t = false) ->
    in_lock sites (m_run w names sites ins) t = true ->
    exists t' c, (c <= 2)%nat /\ acquires names (m_run w names sites (ins ++ firstn c [i1; i2])) t' = true.
Proof.
  intros w names sites ins i1 i2 t Hw Hr Hd Hn Hl.
  pose proof (inv_run w names sites Hw Hr ins) as Hi.
  assert (Er : forall l, m_run w names sites (ins ++ l) = final (m_step w names sites) (m_run w names sites ins) l)
    by (intros l; unfold m_run, final; apply fold_left_app).
  assert (Ee : forall l, m_events w names sites (ins ++ l) = m_events w names sites ins ++ outs (m_step w names sites) (mev_of names sites) (m_run w names sites ins) l).
  { clear. intros l. unfold m_events, m_run. generalize mst_init. induction ins as [|i r IH]; intros s; [reflexivity|]. cbn. f_equal. apply IH. }
  rewrite Ee in Hd. cbn [outs] in Hd. set (s := m_run w names sites ins) in *. set (s1 := m_step w names sites s i1) in *.
  set (evs := m_events w names sites ins) in *.
  assert (Hu1 : forall t, releases sites s t = false).
  { intros x. destruct (releases sites s x) eqn:E; [|reflexivity].
    rewrite <- (Hn x). symmetry. exact (Hd evs _ _ eq_refl x E). }
  destruct (existsb (fun t => acquires names s t) names) eqn:Ex.
  { apply existsb_exists in Ex as (t' & _ & H). exists t', 0%nat. split; [lia|]. rewrite Er. exact H. }
  assert (Hna : forall t, acquires names s t = false).
  { intros x. destruct (acquires names s x) eqn:E; [|reflexivity]. exfalso. rewrite <- Bool.not_true_iff_false in Ex. apply Ex.
    apply existsb_exists. exists x. split; [|exact E]. destruct (acq_owner _ _ _ E) as (_ & k & B).
    apply (okT_name w names sites Hw Hr (s_th s)); [apply Hi|congruence]. }
  assert (Hu2 : forall t, releases sites s1 t = false).
  { intros x. destruct (releases sites s1 x) eqn:E; [|reflexivity].
    pose proof (Hd (evs ++ [mev_of names sites s i1]) (mev_of names sites s1 i2) []) as X.
    rewrite <- app_assoc in X. specialize (X eq_refl x E). unfold owns in X. rewrite fold_left_app in X. cbn in X.
    rewrite Hna, Hu1 in X. fold (owns evs x) in X. rewrite Hn in X. discriminate. }
  destruct (grant w names sites Hw Hr s (owns evs) t i1 i2 Hi Hn Hl Hu1 Hu2) as (t' & [H|[H|H]]).
  - exists t', 0%nat. split; [lia|]. rewrite Er. exact H.
  - exists t', 1%nat. split; [lia|]. rewrite Er. exact H.
  - exists t', 2%nat. split; [lia|]. rewrite Er. exact H.
Qed.
Print Assumptions C26_progress.

Definition only_owners_b (evs : list mev) (ts : list nat) : bool :=
  forallb (fun n => match nth_error evs n with
                    | Some e => forallb (fun t => implb (e_rel e t) (owns (firstn n evs) t)) ts
                    | None => true end) (seq 0 (length evs)).
Example ex_progress :
  only_owners_b (m_events 32 [0; 1; 2]%nat ex_sites ex_ins) [0; 1; 2]%nat = true /\
  map (in_lock ex_sites (m_run 32 [0; 1; 2]%nat ex_sites (firstn 6 ex_ins))) [0; 1; 2]%nat = [true; false; false] /\
  map (owns (m_events 32 [0; 1; 2]%nat ex_sites (firstn 6 ex_ins))) [0; 1; 2]%nat = [false; false; false] /\
  acquires [0; 1; 2]%nat (m_run 32 [0; 1; 2]%nat ex_sites (firstn 7 ex_ins)) 0%nat = true.
Proof. vm_compute. repeat split. Qed.

(** ** C54 *)
(** While a thread owns the mutex, nothing the others call - unlock included - changes it. *)
Theorem C54_owned_unaffected_partial :
  forall w names sites ins i t, 0 <= w -> register w [] sites = Some names ->
    owns (m_events w names sites ins) t = true ->
    releases sites (m_run w names sites ins) t = false ->
    s_mx (m_run w names sites (ins ++ [i])) = s_mx (m_run w names sites ins) /\
    owns (m_events w names sites (ins ++ [i])) t = true.
Proof.
  intros w names sites ins i t Hw Hr Ho Hrel.
  destruct (inv_run w names sites Hw Hr ins) as (Hok & H1 & _). destruct (H1 t Ho) as (A & B).
  assert (Er : m_run w names sites (ins ++ [i]) = m_step w names sites (m_run w names sites ins) i)
    by (unfold m_run, final; rewrite fold_left_app; reflexivity).
  assert (Ee : m_events w names sites (ins ++ [i]) = m_events w names sites ins ++ [mev_of names sites (m_run w names sites ins) i]).
  { clear. unfold m_events, m_run. generalize mst_init. induction ins as [|j r IH]; intros s; [reflexivity|]. cbn. f_equal. apply IH. }
  rewrite Er, Ee. split.
  - cbn. exact (owner_keeps w names sites Hw Hr _ t Hok A B Hrel).
  - unfold owns. rewrite fold_left_app. cbn. fold (owns (m_events w names sites ins) t). rewrite Hrel, Ho.
    destruct (acquires names _ t); reflexivity.
Qed.
Print Assumptions C54_owned_unaffected_partial.
Example ex_unaffected :
  owns (m_events 32 [0; 1; 2]%nat ex_sites (firstn 3 ex_ins)) 1%nat = true /\
  releases ex_sites (m_run 32 [0; 1; 2]%nat ex_sites (firstn 3 ex_ins)) 1%nat = false.
Proof. vm_compute. split; reflexivity. Qed.

(** Finding: a former owner that calls unlock once more, while the mutex is free, cancels a
    simultaneous attempt.  Thread 1 is the only one that tries a free mutex and fails. *)
Definition ex_sites2 : list site := [(0%nat, KLock); (1%nat, KTryLock); (0%nat, KUnlock)].
Definition ex_ins2 (second : list (nat * nat)) : list min :=
  [gos [(0, 0)]; gos []; gos [(0, 2)]; gos []; gos ((1, 1) :: second); gos []; gos []]%nat.
Theorem C54_unlock_by_other_refuted :
  ~ (forall w names sites ins t, 0 <= w -> register w [] sites = Some names ->
       (* nobody owns the mutex, t alone tries to lock it in this cycle *)
       (forall x, owns (m_events w names sites ins) x = false) ->
       (forall x, acquires names (m_run w names sites ins) x = false) ->
       (exists k d, s_th (m_run w names sites ins) t = First k /\ nth_error sites k = Some (t, d) /\ d <> KUnlock) ->
       (forall x, x <> t -> releases sites (m_run w names sites ins) x = true \/ s_th (m_run w names sites ins) x = Out) ->
       forall i, acquires names (m_run w names sites (ins ++ [i])) t = true).
Proof.
  intros H.
  specialize (H 32 [0; 1]%nat ex_sites2 (firstn 5 (ex_ins2 [(0, 2)]%nat)) 1%nat ltac:(lia) eq_refl).
  enough (E : acquires [0; 1]%nat (m_run 32 [0; 1]%nat ex_sites2 (firstn 5 (ex_ins2 [(0, 2)]%nat) ++ [gos []])) 1 = true)
    by (vm_compute in E; discriminate).
  apply H.
  - intros [|[|x]]; vm_compute; reflexivity.
  - intros [|[|x]]; vm_compute; reflexivity.
  - exists 1%nat, KTryLock. vm_compute. repeat split; discriminate.
  - intros [|[|x]] Hx; [left|congruence|right]; vm_compute; reflexivity.
Qed.
Print Assumptions C54_unlock_by_other_refuted.
(** Without the second unlock the same thread succeeds. *)
Example ex_without :
  acquires [0; 1]%nat (m_run 32 [0; 1]%nat ex_sites2 (firstn 6 (ex_ins2 []))) 1 = true.
Proof. vm_compute. reflexivity. Qed.

(** Finding: with such unlock calls the progress of C26 fails, forever.  Threads 1 and 2 call
    try_lock and then unlock whatever the result; their unlock calls cancel every attempt, and
    thread 0 stays in lock() although nobody ever owns the mutex. *)
Definition ll_sites : list site :=
  [(0%nat, KLock); (1%nat, KTryLock); (2%nat, KTryLock); (1%nat, KUnlock); (2%nat, KUnlock)].
Definition ll_names : list nat := [0; 1; 2]%nat.
Definition ll_prefix : list min := [gos [(2, 2)]; gos []; gos [(2, 4)]; gos []; gos [(0, 0); (1, 1); (2, 4)]]%nat.
Definition ll_period : list min := [gos []; gos [(1, 3); (2, 2)]; gos []; gos [(1, 1); (2, 4)]]%nat.
Definition ll_run (n j : nat) : mst :=
  m_run 32 ll_names ll_sites (ll_prefix ++ concat (repeat ll_period n) ++ firstn j ll_period).
(** the state at the beginning of every period *)
Definition ll_state (s : mst) : Prop :=
  s_mx s = mkMx false 2 /\ s_th s 0%nat = First 0 /\ s_th s 1%nat = First 1 /\ s_th s 2%nat = First 4 /\
  forall t, (2 < t)%nat -> s_th s t = Out.
Lemma ll_step s i : m_step 32 ll_names ll_sites s i =
  mkMst (mx_apply 32 (s_mx s) (ops ll_names ll_sites (s_th s))) (fun t => th_next ll_names ll_sites (s_mx s) t (s_th s t) (i t)).
Proof. reflexivity. Qed.
Lemma ll_out s i t : (2 < t)%nat -> s_th s t = Out -> i t = None -> s_th (m_step 32 ll_names ll_sites s i) t = Out.
Proof. intros Ht H Hi. cbn [m_step s_th]. rewrite H, Hi. reflexivity. Qed.
Lemma ll_next s : ll_state s -> forall j, (j <= 4)%nat ->
  let s' := final (m_step 32 ll_names ll_sites) s (firstn j ll_period) in
  m_reg (s_mx s') = false /\ in_lock ll_sites s' 0 = true /\ (j = 4%nat -> ll_state s').
Proof.
  intros (E & E0 & E1 & E2 & Eo) j Hj s'.
  assert (M : forall l, (forall i t, In i l -> (2 < t)%nat -> i t = None) -> forall s, (forall t, (2 < t)%nat -> s_th s t = Out) ->
     forall t, (2 < t)%nat -> s_th (final (m_step 32 ll_names ll_sites) s l) t = Out).
  { clear. induction l as [|i l IH]; intros Hl s Hs t Ht; [exact (Hs t Ht)|]. cbn. apply IH; [intros; apply Hl; [right|]; assumption| |exact Ht].
    intros x Hx. apply ll_out; [exact Hx|apply Hs, Hx|apply Hl; [left; reflexivity|exact Hx]]. }
  assert (P : forall i t, In i ll_period -> (2 < t)%nat -> i t = None).
  { intros i t Hi Ht. destruct t as [|[|[|t]]]; try lia. cbn in Hi.
    repeat (destruct Hi as [<-|Hi]; [reflexivity|]). destruct Hi. }
  assert (Q : forall t, (2 < t)%nat -> s_th s' t = Out).
  { apply M; [|exact Eo]. intros i t Hi. apply P. rewrite <- (firstn_skipn j). apply in_or_app. left. exact Hi. }
  clear M P Eo. destruct s as [x th]. cbn in E, E0, E1, E2. subst x.
  assert (Ops : forall f, ops ll_names ll_sites f =
    (if at_first (f 0%nat) 0 then [OTry 0] else []) ++ (if at_first (f 1%nat) 1 then [OTry 1] else []) ++
    (if at_first (f 2%nat) 2 then [OTry 2] else []) ++ (if at_first (f 1%nat) 3 then [OUnlock 1] else []) ++
    (if at_first (f 2%nat) 4 then [OUnlock 2] else [])).
  { intros f. unfold ops. cbn. rewrite app_nil_r. reflexivity. }
  unfold ll_state. subst s'.
  destruct j as [|[|[|[|[|j]]]]]; [| | | | |lia];
    cbn [firstn ll_period final fold_left] in *; repeat rewrite ll_step in *; cbn [s_mx s_th in_lock] in *;
    unfold in_lock; cbn [s_mx s_th]; repeat rewrite Ops in *; rewrite ?E0, ?E1, ?E2 in *; vm_compute; rewrite ?E0; 
    (split; [reflexivity|split; [reflexivity|]]); try discriminate.
  intros _. rewrite ?E1, ?E2. repeat split. exact Q.
Qed.
Theorem C26_livelock_refuted :
  register 32 [] ll_sites = Some ll_names /\
  forall n j t, (j < 4)%nat ->
    in_lock ll_sites (ll_run n j) 0 = true /\ acquires ll_names (ll_run n j) t = false.
Proof.
  split; [reflexivity|].
  assert (B : forall n, ll_state (m_run 32 ll_names ll_sites (ll_prefix ++ concat (repeat ll_period n)))).
  { assert (B0 : ll_state (m_run 32 ll_names ll_sites ll_prefix)).
    { vm_compute. repeat split. intros t Ht. destruct t as [|[|[|t]]]; try lia. reflexivity. }
    unfold m_run, final in *.
    intros n. rewrite fold_left_app. revert B0. generalize (fold_left (m_step 32 ll_names ll_sites) ll_prefix mst_init) as s.
    induction n as [|n IH]; intros s B0; [exact B0|]. cbn [repeat concat]. rewrite fold_left_app.
    apply IH. exact (proj2 (proj2 (ll_next s B0 4 (le_n _))) eq_refl). }
  intros n j t Hj. unfold ll_run. rewrite app_assoc. unfold m_run, final in *. rewrite fold_left_app.
  destruct (ll_next _ (B n) j ltac:(lia)) as (A & C & _). split; [exact C|].
  unfold acquires, mx_owner. unfold final in A. rewrite A. destruct (s_th _ t); reflexivity.
Qed.
Print Assumptions C26_livelock_refuted.
