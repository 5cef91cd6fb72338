(** What a mutex should do, in terms of lock/try_lock returning and unlock being called. *)
From Verif Require Import Base Mutex_Model.
Open Scope Z_scope.

(** observations of one cycle: which threads acquire, which release *)
Record mev := mkMev { e_acq : nat -> bool; e_rel : nat -> bool }.
(** a thread is between a successful lock and its unlock *)
Definition owns (evs : list mev) (t : nat) : bool :=
  fold_left (fun h e => if e_acq e t then true else if e_rel e t then false else h) evs false.

Section Run.
  Variables (w : Z) (names : list nat) (sites : list site).
  Definition mev_of (s : mst) (i : min) : mev := mkMev (acquires names s) (releases sites s).
  Definition m_run (ins : list min) : mst := final (m_step w names sites) mst_init ins.
  Definition m_events (ins : list min) : list mev := outs (m_step w names sites) mev_of mst_init ins.
End Run.

(** no thread calls unlock without owning the mutex *)
Definition only_owners_unlock (evs : list mev) : Prop :=
  forall pre e post, evs = pre ++ e :: post -> forall t, e_rel e t = true -> owns pre t = true.
