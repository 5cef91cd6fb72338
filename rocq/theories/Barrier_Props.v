(** C27: the barrier. *)
From Verif Require Import Base Mutex_Model Mutex_Proofs Barrier_Model Barrier_Spec Barrier_Proofs.
Open Scope Z_scope.

Lemma b_events_app n names sites ins more :
  b_events n names sites (ins ++ more) = b_events n names sites ins ++
    outs (b_step n names sites) (bev_of sites) (b_run n names sites ins) more.
Proof. unfold b_events, b_run. generalize bst_init. induction ins as [|i r IH]; intros s; [reflexivity|]. cbn. f_equal. apply IH. Qed.

(** Threads are released in groups of exactly n, all in the same cycle, for any number of callers. *)
Theorem C27_groups :
  forall n names sites ins e, 1 <= n -> register id_width [] (mutex_sites sites) = Some names ->
    In e (b_events n names sites ins) ->
    (forall t, e_leave e t = true -> In t names) /\
    (leaving e names = [] \/ Z.of_nat (length (leaving e names)) = n).
Proof.
  intros n names sites ins e Hn Hr. unfold b_events.
  assert (K : forall s, binv n names sites s -> In e (outs (b_step n names sites) (bev_of sites) s ins) ->
     (forall t, e_leave e t = true -> In t names) /\ (leaving e names = [] \/ Z.of_nat (length (leaving e names)) = n)).
  { induction ins as [|i r IH]; intros s Hs He; [destruct He|]. destruct He as [<-|He].
    - cbn [e_leave bev_of]. split; [intros t; exact (leaves_in n names sites Hr s t Hs)|].
      destruct (b_done s) eqn:D; [right; exact (leaves_batch n names sites s Hs D)|left].
      unfold leaving. cbn. induction names as [|a l IHn]; [reflexivity|]. cbn.
      replace (leaves s a) with false; [|unfold leaves; destruct (b_th s a); auto]. clear - D.
      induction l as [|b l IH]; [reflexivity|]. cbn. replace (leaves s b) with false; [exact IH|unfold leaves; destruct (b_th s b); auto].
    - apply (IH (b_step n names sites s i)); [apply binv_step; assumption|exact He]. }
  apply K, binv_init, Hn.
Qed.
Print Assumptions C27_groups.

(** With exactly n callers: nobody returns from its r-th wait before everybody has called wait
    for the r-th time, and all return together. *)
Theorem C27_nobody_early :
  forall n names sites ins t1 t2, 1 <= n -> register id_width [] (mutex_sites sites) = Some names ->
    Z.of_nat (length names) = n -> In t1 names -> In t2 names ->
    let evs := b_events n names sites ins in
    nleaves evs t1 <= ncalls evs t2 /\ nleaves evs t1 = nleaves evs t2.
Proof.
  intros n names sites ins t1 t2 Hn Hr Hlen H1 H2 evs. subst evs. unfold b_events.
  assert (K : forall s, binv n names sites s ->
    nleaves (outs (b_step n names sites) (bev_of sites) s ins) t1 = nleaves (outs (b_step n names sites) (bev_of sites) s ins) t2 /\
    nleaves (outs (b_step n names sites) (bev_of sites) s ins) t2 <=
      ncalls (outs (b_step n names sites) (bev_of sites) s ins) t2 + (if 1 <=? stg (b_th s t2) then 1 else 0)).
  { induction ins as [|i r IH]; intros s Hs; [cbn; split; [reflexivity|destruct (1 <=? _); lia]|].
    destruct (IH _ (binv_step n names sites Hn Hr s i Hs)) as (E & L). cbn [outs nleaves ncalls fold_right e_call e_leave bev_of].
    fold (nleaves (outs (b_step n names sites) (bev_of sites) (b_step n names sites s i) r) t1).
    fold (nleaves (outs (b_step n names sites) (bev_of sites) (b_step n names sites s i) r) t2).
    fold (ncalls (outs (b_step n names sites) (bev_of sites) (b_step n names sites s i) r) t2).
    assert (El : leaves s t1 = leaves s t2).
    { destruct (b_done s) eqn:D; [rewrite !(leave_all n names sites Hlen s Hs D); auto|].
      unfold leaves. rewrite D. destruct (b_th s t1), (b_th s t2); reflexivity. }
    split; [rewrite El, E; reflexivity|].
    assert (X : b2z (leaves s t2) + (if 1 <=? stg (b_th (b_step n names sites s i) t2) then 1 else 0) <=
      b2z (calls sites s i t2) + (if 1 <=? stg (b_th s t2) then 1 else 0)).
    { cbn [b_step b_th]. unfold leaves, calls, b_next. pose proof (enter_stg sites t2 (i t2)) as Es.
      destruct (b_th s t2) as [|k|k|k|k|k]; cbn [stg b2z].
      - destruct (b_enter sites t2 (i t2)); cbn in *; lia.
      - destruct (_ || _); cbn; lia.
      - destruct (mx_owner _ _); cbn; lia.
      - cbn; lia.
      - cbn; lia.
      - destruct (b_done s); cbn [andb]; [|cbn; lia]. destruct (b_enter sites t2 (i t2)); cbn in *; lia. }
    lia. }
  destruct (K bst_init (binv_init n names sites Hn)) as (E & L). cbn [bst_init b_th stg] in L. change (1 <=? 0) with false in L. cbn iota in L. lia.
Qed.
Print Assumptions C27_nobody_early.

(** Once all n callers are inside wait, all return after at most 4n+1 further cycles; this holds
    in every round. *)
Theorem C27_all_released :
  forall n names sites ins more, 1 <= n -> register id_width [] (mutex_sites sites) = Some names ->
    Z.of_nat (length names) = n ->
    let evs := b_events n names sites ins in
    (forall t, In t names -> ncalls evs t = nleaves evs t + 1) ->
    4 * n + 1 <= Z.of_nat (length more) ->
    exists c, Z.of_nat c <= 4 * n + 1 /\
      forall t, In t names -> leaves (b_run n names sites (ins ++ firstn c more)) t = true.
Proof.
  intros n names sites ins more Hn Hr Hlen evs Hin Hm.
  assert (Hb : binv n names sites (b_run n names sites ins)) by (apply binv_run; [exact Hn|exact Hr|apply binv_init, Hn]).
  assert (Er : forall l, b_run n names sites (ins ++ l) = final (b_step n names sites) (b_run n names sites ins) l)
    by (intros l; unfold b_run, final; apply fold_left_app).
  assert (Hi : inside names (b_run n names sites ins)).
  { intros t Ht. specialize (Hin t Ht). subst evs. revert Hin. unfold b_events, b_run.
    assert (K : forall s, ncalls (outs (b_step n names sites) (bev_of sites) s ins) t - nleaves (outs (b_step n names sites) (bev_of sites) s ins) t +
       (if 1 <=? stg (b_th s t) then 1 else 0) = (if 1 <=? stg (b_th (final (b_step n names sites) s ins) t) then 1 else 0)).
    { clear. induction ins as [|i r IH]; intros s; [cbn; destruct (1 <=? _); lia|].
      change (final (b_step n names sites) s (i :: r)) with (final (b_step n names sites) (b_step n names sites s i) r).
      rewrite <- IH. cbn [outs nleaves ncalls fold_right e_call e_leave bev_of].
      fold (nleaves (outs (b_step n names sites) (bev_of sites) (b_step n names sites s i) r) t).
      fold (ncalls (outs (b_step n names sites) (bev_of sites) (b_step n names sites s i) r) t).
      assert (X : b2z (leaves s t) + (if 1 <=? stg (b_th (b_step n names sites s i) t) then 1 else 0) =
        b2z (calls sites s i t) + (if 1 <=? stg (b_th s t) then 1 else 0)).
      { cbn [b_step b_th]. unfold leaves, calls, b_next. pose proof (enter_stg sites t (i t)) as Es.
        destruct (b_th s t) as [|k|k|k|k|k]; cbn [stg b2z].
        - destruct (b_enter sites t (i t)); cbn in *; lia.
        - destruct (_ || _); cbn; lia.
        - destruct (mx_owner _ _); cbn; lia.
        - cbn; lia.
        - cbn; lia.
        - destruct (b_done s); cbn [andb]; [|cbn; lia]. destruct (b_enter sites t (i t)); cbn in *; lia. }
      lia. }
    specialize (K bst_init). cbn [bst_init b_th stg] in K. change (1 <=? 0) with false in K. cbn iota in K.
    intros Hin. fold bst_init in K, Hin. unfold final in *. destruct (1 <=? stg _) eqn:E in K; [lia|]. lia. }
  destruct (b_done (b_run n names sites ins)) eqn:D.
  { exists 0%nat. split; [lia|]. rewrite Er. exact (leave_all n names sites Hlen _ Hb D). }
  pose proof Hb as (Hok & l & Hl & Hc).
  pose proof (togo_range n names Hn _ l Hl Hc D) as R.
  assert (Ek : exists k, togo n (b_run n names sites ins) l = Z.of_nat (S k)) by (exists (Z.to_nat (togo n (b_run n names sites ins) l - 1)); lia).
  destruct Ek as (k & Ek). exists (S k). split; [lia|].
  assert (Hd : b_done (final (b_step n names sites) (b_run n names sites ins) (firstn (S k) more)) = true)
    by (apply (released n names sites Hn Hr Hlen k _ l more); auto; lia).
  rewrite Er. apply (leave_all n names sites Hlen); [apply binv_run; assumption|exact Hd].
Qed.
Print Assumptions C27_all_released.

(** Example: three parties calling in different cycles, two rounds; and four callers for a barrier
    of two. *)
Definition ex_sites : list nat := [0; 1; 2]%nat.
Definition gos (l : list (nat * nat)) : min := fun t => match find (fun p => Nat.eqb (fst p) t) l with Some p => Some (snd p) | None => None end.
Definition ex_ins : list min :=
  [gos [(1, 1)]; gos []; gos [(0, 0); (2, 2)]]%nat ++ repeat (gos [(0, 0); (2, 2)]%nat) 13 ++ [gos [(1, 1)]%nat] ++ repeat (gos []) 16.
Example ex_names : register id_width [] (mutex_sites ex_sites) = Some [0; 1; 2]%nat. Proof. reflexivity. Qed.
Example ex_rounds :
  let evs := b_events 3 [0; 1; 2]%nat ex_sites ex_ins in
  map (fun t => (ncalls evs t, nleaves evs t)) [0; 1; 2]%nat = [(2, 2); (2, 2); (2, 2)] /\
  flat_map (fun k => match nth_error evs k with Some e => match leaving e [0; 1; 2]%nat with [] => [] | l => [(k, l)] end | None => [] end)
    (seq 0 40) = [(13, [0; 1; 2]); (26, [0; 1; 2])]%nat.
Proof. vm_compute. split; reflexivity. Qed.
Example ex_all_inside :
  let evs := b_events 3 [0; 1; 2]%nat ex_sites (firstn 3 ex_ins) in
  map (fun t => ncalls evs t - nleaves evs t) [0; 1; 2]%nat = [1; 1; 1].
Proof. vm_compute. reflexivity. Qed.
Example ex_groups :
  let evs := b_events 2 [0; 1; 2; 3]%nat [0; 1; 2; 3]%nat (repeat (gos [(0, 0); (1, 1); (2, 2); (3, 3)]%nat) 20) in
  flat_map (fun e => match leaving e [0; 1; 2; 3]%nat with [] => [] | l => [l] end) evs = [[2; 3]; [1; 3]]%nat.
Proof. vm_compute. reflexivity. Qed.
