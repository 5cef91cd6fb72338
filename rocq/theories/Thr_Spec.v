(** What C51 says, in terms of the state registers only: [st (run b ts ins n) t] is the state of thread
    [t] before cycle [n]; [start] and [fin] are the fields start_state and end_state of a thread. *)
From Verif Require Import Base Thr_Model.
Open Scope nat_scope.

(** A design: all threads that are built by starting the threads [mains], one after another. *)
Definition design progs pool tid mains (b : build) : Prop :=
  exists fuel, start_threads progs pool tid fuel build0 mains = Some b.

(** Functions without return statements; functions whose last statement is a plain one (when it waits,
    [Some k]). *)
Fixpoint noret (p : prog) : bool :=
  match p with
  | PReturn => false
  | PSeq p q | PIf _ p q => noret p && noret q
  | PWhile _ p => noret p
  | _ => true
  end.
Fixpoint final (p : prog) : option (option nat) :=
  match p with
  | PAct w => Some w
  | PSeq p q => if noret p then final q else None
  | _ => None
  end.

Section Trace.
  Variable b : build.
  Variable ts : list nat.
  Variable ins : nat -> inp.

  Definition state (n t : nat) : nat := st (run b ts ins n) t.
  Definition true_at (n : nat) (c : cond) : Prop := holds (ins n) (run b ts ins n) c = true.

  (** in cycle [n] a run (reset) of thread [t] is executed *)
  Definition run_at (n t : nat) : Prop := exists f s g a, In (SRun f s t g a) (sites b) /\ state n f = s /\ true_at n g.
  Definition reset_at (n t : nat) : Prop := exists f s g, In (SReset f s t g) (sites b) /\ state n f = s /\ true_at n g.

  (** An execution of the child [t]: started in cycle [m] from its start state, its end state [e] reached
      for the first time before cycle [k]; in between it is in states of its function. *)
  Definition execution (t e m k : nat) : Prop :=
    m < k /\ state m t = 0 /\ run_at m t /\ (forall i, m < i < k -> 1 <= state i t < e) /\ state k t = e.
  (** the same without the start, for an execution that begins in cycle [m] *)
  Definition completes (t e m k : nat) : Prop :=
    m < k /\ (forall i, m < i < k -> 1 <= state i t < e) /\ state k t = e.
End Trace.
