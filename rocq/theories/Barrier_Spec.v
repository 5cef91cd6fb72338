(** What a barrier should do, in terms of the calls and returns of wait. *)
From Verif Require Import Base Mutex_Model Barrier_Model.
Open Scope Z_scope.

Record bev := mkBev { e_call : nat -> bool; e_leave : nat -> bool }.
(** number of calls and returns of a thread so far *)
Definition ncalls (evs : list bev) (t : nat) : Z := fold_right (fun e a => b2z (e_call e t) + a) 0 evs.
Definition nleaves (evs : list bev) (t : nat) : Z := fold_right (fun e a => b2z (e_leave e t) + a) 0 evs.

Section Run.
  Variables (n : Z) (names sites : list nat).
  Definition bev_of (s : bst) (i : min) : bev := mkBev (calls sites s i) (leaves s).
  Definition b_run (ins : list min) : bst := final (b_step n names sites) bst_init ins.
  Definition b_events (ins : list min) : list bev := outs (b_step n names sites) bev_of bst_init ins.
End Run.
(** the threads of a list that return in this cycle *)
Definition leaving (e : bev) (ts : list nat) : list nat := filter (e_leave e) ts.
