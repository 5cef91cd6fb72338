(** C51: starting, awaiting, restarting threads; thread pools. *)
From Verif Require Import Base Thr_Model Thr_Spec Thr_Proofs Thr_Acts.
Open Scope nat_scope.

(** ** Waiting *)

(** join leaves its state in exactly those cycles in which the awaited thread is in its end state. *)
Theorem C51_join : forall progs pool tid mains b ts ins f s t e n,
  design progs pool tid mains b -> In (SJoin f s t e) (sites b) -> state b ts ins n f = s ->
  fin (th b t) = Some e /\
  (state b ts ins n t = e -> state b ts ins (S n) f = S s) /\ (state b ts ins n t <> e -> state b ts ins (S n) f = s).
Proof.
  intros progs pool tid mains b ts ins f s t e n D Hi Hs.
  destruct (join_step progs pool tid mains b D ts ins f s t e n Hi Hs) as [A B]. split; [exact A|].
  destruct (Nat.eqb_spec (state b ts ins n t) e); split; intros; try contradiction; exact B.
Qed.
Print Assumptions C51_join.

(** A child that is in its end state was started, went through states of its function, and has been
    in the end state ever since. *)
Theorem C51_finished : forall progs pool tid mains b ts ins t e n,
  design progs pool tid mains b -> child (th b t) = true -> fin (th b t) = Some e -> state b ts ins n t = e ->
  exists m k, execution b ts ins t e m k /\ k <= n /\ forall i, k <= i <= n -> state b ts ins i t = e.
Proof.
  intros progs pool tid mains b ts ins t e n D C E A. pose proof (end_gt1 progs pool tid mains b D ins t e C E) as G2.
  destruct (history_holds progs pool tid mains b D ts ins t e n C E) as [Z|[(m & L & _ & _ & K)|K]]; [lia| |exact K].
  specialize (K n ltac:(lia)). lia.
Qed.
Print Assumptions C51_finished.

(** After run() of a thread that is in its start state, no join on it (by whichever thread) returns
    before the thread has gone from start to end. *)
Theorem C51_run_join : forall progs pool tid mains b ts ins f s t g a e f' s' m n,
  design progs pool tid mains b -> In (SRun f s t g a) (sites b) -> In (SJoin f' s' t e) (sites b) ->
  state b ts ins m f = s -> true_at b ts ins m g -> state b ts ins m t = 0 ->
  m < n -> state b ts ins n f' = s' -> state b ts ins (S n) f' <> s' ->
  exists k, execution b ts ins t e m k /\ k <= n.
Proof. intros progs pool tid mains b ts ins f s t g a e f' s' m n D. exact (run_join progs pool tid mains b D ts ins f s t g a e f' s' m n). Qed.
Print Assumptions C51_run_join.

(** A sequence of joins on any number of threads: when the last one is over, each of the threads has
    been seen in its end state, in that order. *)
Theorem C51_all_joined : forall progs pool tid mains b ts ins f s c (t e : nat -> nat) m n,
  design progs pool tid mains b -> (forall i, i < c -> In (SJoin f (s + i) (t i) (e i)) (sites b)) ->
  m <= n -> state b ts ins m f = s -> s + c <= state b ts ins n f ->
  forall i, i < c -> exists k, m <= k < n /\ state b ts ins k f = s + i /\ state b ts ins k (t i) = e i.
Proof. intros progs pool tid mains b ts ins f s c t e m n D. exact (all_joined progs pool tid mains b D ts ins f s c t e m n). Qed.
Print Assumptions C51_all_joined.

(** The end state is entered only from the state of the last statement, when that statement is over. *)
Theorem C51_last_statement : forall progs pool tid mains b ts ins t e w n,
  design progs pool tid mains b -> child (th b t) = true -> fin (th b t) = Some e -> final (progs t) = Some w ->
  state b ts ins n t <> e -> state b ts ins (S n) t = e ->
  S (state b ts ins n t) = e /\ forall k, w = Some k -> i_bit (ins n) k = true.
Proof. intros progs pool tid mains b ts ins t e w n D. exact (last_step progs pool tid mains b D ts ins n t e w). Qed.
Print Assumptions C51_last_statement.

(** A branch on done() sees the end state and nothing else. *)
Theorem C51_done : forall progs pool tid mains b ts ins f s t e n,
  design progs pool tid mains b -> In (SDone f s t e) (sites b) -> state b ts ins n f = s ->
  fin (th b t) = Some e /\ (state b ts ins n t = e -> state b ts ins (S n) f = S s).
Proof.
  intros progs pool tid mains b ts ins f s t e n D Hi Hs.
  destruct (done_step progs pool tid mains b D ts ins f s t e n Hi Hs) as [A [d B]]. split; [exact A|].
  intros K. rewrite K, Nat.eqb_refl in B. exact B.
Qed.
Print Assumptions C51_done.

(** ** Starting and restarting *)
Theorem C51_run_starts : forall progs pool tid mains b ts ins f s t g a n,
  design progs pool tid mains b -> In (SRun f s t g a) (sites b) -> state b ts ins n f = s ->
  state b ts ins (S n) f = S s /\
  (true_at b ts ins n g -> state b ts ins n t = 0 -> state b ts ins (S n) t = 1).
Proof.
  intros progs pool tid mains b ts ins f s t g a n D Hi Hs. split; [exact (run_parent progs pool tid mains b D ts ins f s t g a n Hi Hs)|].
  intros Hg Hz. destruct (run_done progs pool tid mains b D f s t g a Hi) as (C & e & E).
  apply (start_jump progs pool tid mains b D ts ins n t e C E Hz). exists f, s, g, a. auto.
Qed.
Print Assumptions C51_run_starts.

(** Nothing else starts a child, nothing else than reset takes it out of its end state, and it does not
    leave its function on other ways. *)
Theorem C51_moves : forall progs pool tid mains b ts ins t e n,
  design progs pool tid mains b -> child (th b t) = true -> fin (th b t) = Some e ->
  let s := state b ts ins n t in let s' := state b ts ins (S n) t in
  (s = 0 -> s' = 0 \/ (s' = 1 /\ run_at b ts ins n t)) /\
  (0 < s < e -> 0 < s' <= e) /\
  (s = e -> s' = e \/ (s' = 0 /\ reset_at b ts ins n t)) /\ s <= e.
Proof.
  intros progs pool tid mains b ts ins t e n D C E s s'. pose proof (end_gt1 progs pool tid mains b D ins t e C E) as G2.
  pose proof (state_le progs pool tid mains b D ts ins n t e E) as L.
  assert (Lo : lo (th b t) = 1) by (unfold lo; rewrite C; reflexivity).
  pose proof (step_cases progs pool tid mains b D ts ins n t e E L) as K. rewrite Lo in K. fold s in K, L. fold s' in K.
  clearbody s s'. destruct K as [K|[(_ & K1 & K2 & K3)|[(K1 & K2)|(K1 & K2 & K3)]]].
  - split; [left; lia|]. split; [lia|]. split; [left; lia|exact L].
  - split; [right; auto|]. split; [lia|]. split; [lia|exact L].
  - split; [lia|]. split; [lia|]. split; [lia|exact L].
  - split; [lia|]. split; [lia|]. split; [right; auto|exact L].
Qed.
Print Assumptions C51_moves.

Theorem C51_reset : forall progs pool tid mains b ts ins f s t g e n,
  design progs pool tid mains b -> In (SReset f s t g) (sites b) -> state b ts ins n f = s -> true_at b ts ins n g ->
  fin (th b t) = Some e -> state b ts ins n t = e -> state b ts ins (S n) t = 0.
Proof.
  intros progs pool tid mains b ts ins f s t g e n D Hi Hs Hg E A. apply (reset_step progs pool tid mains b D ts ins n t e E A).
  exists f, s, g. auto.
Qed.
Print Assumptions C51_reset.

(** ** Arguments *)

(** The argument registers of a child take the values of the arguments of an executed run, at the
    start; all other cycles leave them alone. *)
Theorem C51_args : forall progs pool tid mains b ts ins t j n,
  design progs pool tid mains b -> In t ts ->
  let v := arg (run b ts ins n) t j in let v' := arg (run b ts ins (S n)) t j in
  (start (th b t) = Some (state b ts ins n t) /\
   exists f s g a x, In (SRun f s t g a) (sites b) /\ state b ts ins n f = s /\ true_at b ts ins n g /\
     nth_error a j = Some x /\ v' = i_val (ins n) f x) \/
  (v' = v /\ forall f s g a x, In (SRun f s t g a) (sites b) -> state b ts ins n f = s -> true_at b ts ins n g ->
     nth_error a j = Some x -> start (th b t) <> Some (state b ts ins n t)).
Proof.
  intros progs pool tid mains b ts ins t j n D Ht v v'.
  destruct (args_step progs pool tid mains b D ts ins n t j Ht) as [(A & f & a & x & (s & g & B1 & B2 & B3) & B4 & B5)|[A B]].
  - left. split; [exact A|]. exists f, s, g, a, x. auto.
  - right. split; [exact B|]. intros f s g a x B1 B2 B3 B4 B5. apply (A f a x B5); [|exact B4]. exists s, g. auto.
Qed.
Print Assumptions C51_args.

(** ** Pools *)

(** join of a pool looks at the first thread with the given number; without one it waits forever. *)
Theorem C51_pool_join : forall progs pool tid mains b ts ins f s p x n,
  design progs pool tid mains b -> In (SPoolJoin f s p x) (sites b) -> state b ts ins n f = s ->
  (state b ts ins (S n) f = S s /\ exists l1 t l2 e, pool p = l1 ++ t :: l2 /\ Forall (fun u => tid u <> i_val (ins n) f x) l1 /\
     tid t = i_val (ins n) f x /\ fin (th b t) = Some e /\ state b ts ins n t = e) \/
  (state b ts ins (S n) f = s /\ forall l1 t l2 e, pool p = l1 ++ t :: l2 -> Forall (fun u => tid u <> i_val (ins n) f x) l1 ->
     tid t = i_val (ins n) f x -> fin (th b t) = Some e -> state b ts ins n t <> e).
Proof. intros progs pool tid mains b ts ins f s p x n D. exact (pool_join_step progs pool tid mains b D ts ins f s p x n). Qed.
Print Assumptions C51_pool_join.

(** run of a pool that is used by one thread only, with a number that does not change meanwhile: of all
    threads of the pool those with that number are told to start, in the next cycle, and no others. *)
Theorem C51_pool_run : forall progs pool tid mains b ts ins p f s x n,
  design progs pool tid mains b -> In f ts ->
  (forall u s x, In (SPoolRun u s p x) (sites b) \/ In (SPoolEnd u s p x) (sites b) -> u = f) ->
  (forall n s x, In (SPoolRun f s p x) (sites b) -> state b ts ins n f = s -> i_val (ins (S (S n))) f x = i_val (ins n) f x) ->
  pool p <> [] -> In (SPoolRun f s p x) (sites b) -> state b ts ins n f = s ->
  state b ts ins (S (S (S n))) f = S (S (S s)) /\
  forall t, In t (pool p) -> exists a, In (SRun f (S s) t (CBit p (tid t)) a) (sites b) /\ state b ts ins (S n) f = S s /\
    (true_at b ts ins (S n) (CBit p (tid t)) <-> tid t = i_val (ins n) f x).
Proof.
  intros progs pool tid mains b ts ins p f s x n D Hf Own St Ne Hi Hs.
  destruct (pool p) as [|t0 l] eqn:Ep; [contradiction|].
  assert (H0 : In t0 (pool p)) by (rewrite Ep; left; reflexivity).
  destruct (pool_run_step progs pool tid mains b D ts ins p f t0 Own Hf H0 St s x n Hi Hs) as (A1 & A2 & A3 & A4).
  split; [exact A3|]. intros t Ht. rewrite <- Ep in Ht.
  destruct (pool_sites progs pool tid mains b D f s p x Hi) as [_ K]. destruct (K t Ht) as [a Ha].
  exists a. split; [exact Ha|]. split; [exact A1|]. unfold true_at. cbn [holds]. rewrite A4. apply Nat.eqb_eq.
Qed.
Print Assumptions C51_pool_run.

(** The end of a run, however it was started. *)
Theorem C51_run_end : forall progs pool tid mains b ts ins t e m n,
  design progs pool tid mains b -> child (th b t) = true -> fin (th b t) = Some e -> run_at b ts ins m t -> state b ts ins m t = 0 ->
  m < n -> state b ts ins n t = e -> exists k, execution b ts ins t e m k /\ k <= n.
Proof. intros progs pool tid mains b ts ins t e m n D. exact (run_end progs pool tid mains b D ts ins t e m n). Qed.
Print Assumptions C51_run_end.

(** ** Examples *)
Definition block (l : list prog) : prog := fold_right PSeq PSkip l.
Definition ex_pool (p : nat) : list nat := [1; 2].
Definition ex_tid (t : nat) : nat := t - 1.
Definition built (progs : nat -> prog) : build :=
  match start_threads progs ex_pool ex_tid 5 build0 [0] with Some b => b | None => build0 end.
Lemma built_design : forall progs, match start_threads progs ex_pool ex_tid 5 build0 [0] with Some _ => true | None => false end = true ->
  design progs ex_pool ex_tid [0] (built progs).
Proof.
  intros progs H. exists 5. unfold built. destruct (start_threads progs ex_pool ex_tid 5 build0 [0]); [reflexivity|discriminate].
Qed.
Definition trace (progs : nat -> prog) (ins : nat -> inp) (k : nat) : list (list nat) :=
  map (fun n => map (state (built progs) [0; 1; 2] ins n) [0; 1; 2]) (seq 0 k).
Definition late (n : nat) : inp := mkIn (fun _ => 8 <=? n) (fun _ x => x).

(** Two threads started one after the other; the first one waits for something that comes in cycle 8. *)
Definition ex_fork (t : nat) : prog :=
  match t with
  | 0 => block [PRun 1 [7]; PRun 2 []; PJoin 1; PJoin 2; PAct None]
  | 1 => PSeq (PAct None) (PAct (Some 0))
  | _ => PAct None
  end.
Example ex_fork_design : design ex_fork ex_pool ex_tid [0] (built ex_fork).
Proof. apply built_design. reflexivity. Qed.
Example ex_fork_sites : sites (built ex_fork) =
  [SRun 0 1 1 CTrue [7]; SRun 0 2 2 CTrue []; SJoin 0 3 1 4; SJoin 0 4 2 3].
Proof. vm_compute. reflexivity. Qed.
Example ex_fork_trace : trace ex_fork late 14 =
  [[0; 0; 0]; [1; 0; 0]; [2; 1; 0]; [3; 2; 1]; [3; 3; 2]; [3; 3; 3]; [3; 3; 3]; [3; 3; 3]; [3; 3; 3];
   [3; 4; 3]; [4; 4; 3]; [5; 4; 3]; [6; 4; 3]; [6; 4; 3]].
Proof. vm_compute. reflexivity. Qed.
Example ex_fork_arg : map (fun n => arg (run (built ex_fork) [0; 1; 2] late n) 1 0) [0; 1; 2; 3; 9] = [0; 0; 7; 7; 7].
Proof. vm_compute. reflexivity. Qed.
(** C51_run_join, C51_last_statement, C51_all_joined apply to it *)
Example ex_fork_join : exists k, execution (built ex_fork) [0; 1; 2] late 1 4 1 k /\ k <= 9.
Proof.
  apply (C51_run_join ex_fork ex_pool ex_tid [0] (built ex_fork) [0; 1; 2] late 0 1 1 CTrue [7] 4 0 3 1 9 ex_fork_design);
    try (vm_compute; reflexivity); try (rewrite ex_fork_sites; cbn; auto; fail); [repeat constructor|vm_compute; discriminate].
Qed.
Example ex_fork_last : S (state (built ex_fork) [0; 1; 2] late 8 1) = 4 /\ forall k, Some 0 = Some k -> i_bit (late 8) k = true.
Proof.
  apply (C51_last_statement ex_fork ex_pool ex_tid [0] (built ex_fork) [0; 1; 2] late 1 4 (Some 0) 8 ex_fork_design);
    try (vm_compute; reflexivity). vm_compute. discriminate.
Qed.
Example ex_fork_all : forall i, i < 2 ->
  exists k, 3 <= k < 11 /\ state (built ex_fork) [0; 1; 2] late k 0 = 3 + i /\ state (built ex_fork) [0; 1; 2] late k (1 + i) = 4 - i.
Proof.
  apply (C51_all_joined ex_fork ex_pool ex_tid [0] (built ex_fork) [0; 1; 2] late 0 3 2 (fun i => 1 + i) (fun i => 4 - i) 3 11 ex_fork_design).
  - intros i Hi. rewrite ex_fork_sites. destruct i as [|[|i]]; [cbn; auto|cbn; auto|lia].
  - lia.
  - vm_compute. reflexivity.
  - vm_compute. repeat constructor.
Qed.

(** Polling with done(). *)
Definition ex_poll (t : nat) : prog :=
  match t with
  | 0 => block [PRun 1 []; PWhile (PNot (PDone 1)) (PAct None); PIf (PDone 1) (PAct None) PSkip]
  | _ => PAct (Some 0)
  end.
Example ex_poll_design : design ex_poll ex_pool ex_tid [0] (built ex_poll).
Proof. apply built_design. reflexivity. Qed.
Example ex_poll_sites : sites (built ex_poll) = [SRun 0 1 1 CTrue []; SDone 0 5 1 3].
Proof. vm_compute. reflexivity. Qed.
Example ex_poll_trace : trace ex_poll late 16 =
  [[0; 0; 0]; [1; 0; 0]; [2; 1; 0]; [3; 2; 0]; [4; 2; 0]; [2; 2; 0]; [3; 2; 0]; [4; 2; 0]; [2; 2; 0]; [3; 3; 0];
   [4; 3; 0]; [2; 3; 0]; [5; 3; 0]; [6; 3; 0]; [7; 3; 0]; [7; 3; 0]].
Proof. vm_compute. reflexivity. Qed.

(** A pool of two threads, with return statements; the first one is reset at the end. *)
Definition ex_pooled (t : nat) : prog :=
  match t with
  | 0 => block [PPoolRun 0 0 [3]; PPoolRun 0 1 [4]; PPoolJoin 0 0; PPoolJoin 0 1; PPoolReset 0 0; PAct None]
  | _ => PIf (PEnv 0) (PAct None) (PSeq (PAct (Some 1)) PReturn)
  end.
Example ex_pooled_design : design ex_pooled ex_pool ex_tid [0] (built ex_pooled).
Proof. apply built_design. reflexivity. Qed.
Example ex_pooled_sites : sites (built ex_pooled) =
  [SRun 0 2 1 (CBit 0 0) [3]; SRun 0 2 2 (CBit 0 1) [3]; SPoolEnd 0 3 0 0; SPoolRun 0 1 0 0;
   SRun 0 5 1 (CBit 0 0) [4]; SRun 0 5 2 (CBit 0 1) [4]; SPoolEnd 0 6 0 1; SPoolRun 0 4 0 1;
   SPoolJoin 0 7 0 0; SPoolJoin 0 8 0 1; SReset 0 9 1 (CSel 0 0 0); SReset 0 9 2 (CSel 0 0 1)].
Proof. vm_compute. reflexivity. Qed.
Example ex_pooled_trace : trace ex_pooled late 16 =
  [[0; 0; 0]; [1; 0; 0]; [2; 0; 0]; [3; 1; 0]; [4; 2; 0]; [5; 5; 0]; [6; 5; 1]; [7; 5; 2]; [7; 5; 5];
   [7; 6; 6]; [7; 7; 7]; [8; 7; 7]; [9; 7; 7]; [10; 0; 7]; [10; 0; 7]; [10; 0; 7]].
Proof. vm_compute. reflexivity. Qed.
Example ex_pooled_args : map (fun t => arg (run (built ex_pooled) [0; 1; 2] late 15) t 0) [1; 2] = [3; 4].
Proof. vm_compute. reflexivity. Qed.
Example ex_pooled_run : forall t, In t [1; 2] -> exists a, In (SRun 0 5 t (CBit 0 (ex_tid t)) a) (sites (built ex_pooled)) /\
  state (built ex_pooled) [0; 1; 2] late 5 0 = 5 /\ (true_at (built ex_pooled) [0; 1; 2] late 5 (CBit 0 (ex_tid t)) <-> ex_tid t = 1).
Proof.
  apply (C51_pool_run ex_pooled ex_pool ex_tid [0] (built ex_pooled) [0; 1; 2] late 0 0 4 1 4 ex_pooled_design).
  - left. reflexivity.
  - intros u s x. rewrite ex_pooled_sites. intros [H|H]; cbn in H; repeat (destruct H as [H|H]; [try discriminate; injection H as <- _ _; reflexivity|]); destruct H.
  - reflexivity.
  - discriminate.
  - rewrite ex_pooled_sites. cbn. auto 10.
  - vm_compute. reflexivity.
Qed.

(** Restarting with a statement between reset and run. *)
Definition ex_again (t : nat) : prog :=
  match t with
  | 0 => block [PRun 1 []; PJoin 1; PReset 1; PAct None; PRun 1 []; PJoin 1]
  | _ => PAct None
  end.
Example ex_again_trace : trace ex_again late 12 =
  [[0; 0; 0]; [1; 0; 0]; [2; 1; 0]; [2; 2; 0]; [2; 3; 0]; [3; 3; 0]; [4; 0; 0]; [5; 1; 0]; [5; 2; 0]; [5; 3; 0];
   [6; 3; 0]; [6; 3; 0]].
Proof. vm_compute. reflexivity. Qed.

(** ** What does not hold *)

(** A second run of a thread that is at its end does nothing, and the join after it returns at once:
    without [state m t = 0] C51_run_join is false. *)
Definition ex_twice (t : nat) : prog :=
  match t with
  | 0 => block [PRun 1 []; PJoin 1; PRun 1 []; PJoin 1]
  | _ => PSeq (PAct None) (PAct None)
  end.
Theorem C51_second_run_refuted : exists progs pool tid mains b ts ins f s t g a e f' s' m n,
  design progs pool tid mains b /\ In (SRun f s t g a) (sites b) /\ In (SJoin f' s' t e) (sites b) /\
  state b ts ins m f = s /\ true_at b ts ins m g /\ m < n /\ state b ts ins n f' = s' /\ state b ts ins (S n) f' <> s' /\
  forall i, m <= i <= S n -> state b ts ins i t = e.
Proof.
  exists ex_twice, ex_pool, ex_tid, [0], (built ex_twice), [0; 1; 2], late, 0, 3, 1, CTrue, [], 4, 0, 4, 6, 7.
  split; [apply built_design; reflexivity|].
  assert (E : sites (built ex_twice) = [SRun 0 1 1 CTrue []; SJoin 0 2 1 4; SRun 0 3 1 CTrue []; SJoin 0 4 1 4]) by (vm_compute; reflexivity).
  rewrite E. split; [cbn; auto|]. split; [cbn; auto|].
  split; [vm_compute; reflexivity|]. split; [reflexivity|]. split; [lia|]. split; [vm_compute; reflexivity|]. split; [vm_compute; discriminate|].
  intros i Hi. assert (K : i = 6 \/ i = 7 \/ i = 8) by lia. destruct K as [K|[K|K]]; subst i; vm_compute; reflexivity.
Qed.
Print Assumptions C51_second_run_refuted.

(** reset() directly followed by run() (the caller does not advance in between): the run is lost, and
    the caller waits in the next join forever, whatever the environment does. *)
Definition ex_lost (t : nat) : prog :=
  match t with
  | 0 => block [PRun 1 []; PJoin 1; PReset 1; PRun 1 []; PJoin 1]
  | _ => PAct None
  end.
Theorem C51_reset_run_refuted : exists progs pool tid mains b ts f s t g a e,
  design progs pool tid mains b /\ In (SRun f s t g a) (sites b) /\ In (SJoin f (S s) t e) (sites b) /\ g = CTrue /\
  forall ins, exists m, state b ts ins m f = s /\ forall n, m < n -> state b ts ins n f = S s /\ state b ts ins n t = 0.
Proof.
  exists ex_lost, ex_pool, ex_tid, [0], (built ex_lost), [0; 1; 2], 0, 3, 1, CTrue, [], 3.
  assert (D : design ex_lost ex_pool ex_tid [0] (built ex_lost)) by (apply built_design; reflexivity).
  assert (E : sites (built ex_lost) = [SRun 0 1 1 CTrue []; SJoin 0 2 1 3; SReset 0 3 1 CTrue; SRun 0 3 1 CTrue []; SJoin 0 4 1 3])
    by (vm_compute; reflexivity).
  assert (J : In (SJoin 0 4 1 3) (sites (built ex_lost))) by (rewrite E; cbn; auto 10).
  assert (R : In (SRun 0 3 1 CTrue []) (sites (built ex_lost))) by (rewrite E; cbn; auto 10).
  split; [exact D|]. split; [exact R|]. split; [exact J|]. split; [reflexivity|].
  destruct (run_done _ _ _ _ _ D _ _ _ _ _ R) as (C & e & F).
  intros ins. exists 5. split; [vm_compute; reflexivity|]. intros n Hn.
  assert (K : forall d, state (built ex_lost) [0; 1; 2] ins (6 + d) 0 = 4 /\ state (built ex_lost) [0; 1; 2] ins (6 + d) 1 = 0).
  { induction d as [|d [IH1 IH2]]; [split; vm_compute; reflexivity|]. rewrite Nat.add_succ_r. split.
    - apply (C51_join _ _ _ _ _ [0; 1; 2] ins _ _ _ _ (6 + d) D J IH1). rewrite IH2. discriminate.
    - destruct (C51_moves _ _ _ _ _ [0; 1; 2] ins 1 e (6 + d) D C F) as (M & _). destruct (M IH2) as [M1|[_ M2]]; [exact M1|].
      exfalso. destruct M2 as (f & s & g & a & H & H2 & _). rewrite E in H. cbn in H.
      revert H2. generalize dependent (state (built ex_lost) [0; 1; 2] ins (6 + d)). intros q IH1 IH2 _ H2.
      repeat (destruct H as [H|H]; [try discriminate; injection H as H3 H4 _ _; rewrite <- H3, <- H4, IH1 in H2; discriminate|]). destruct H. }
  replace n with (6 + (n - 6)) by lia. apply K.
Qed.
Print Assumptions C51_reset_run_refuted.
