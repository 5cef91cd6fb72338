(** The mutex of [thread/ttypes.py:106-208]: lock register, owner register, and the states that
    [lock], [try_lock] and [unlock] add to the FSM of the calling thread.

    A call site is one call of a mutex method while a thread is compiled; the list of sites is in
    the order of the calls, which is the order of the statements of [self.seq].  A thread is
    outside every call or in the first or second state of the call at some site.  What a thread
    does between two calls is left to the environment: it decides in each cycle which site, if
    any, a thread outside a call enters.  Thread names are numbers; two threads have two names.
    [acquire] and [release] [210-224] are aliases and need no model of their own. *)
From Verif Require Import Base.
Open Scope Z_scope.

Inductive kind := KLock | KTryLock | KUnlock.
Definition site : Type := nat * kind.

(** ** Identifiers *)
(** [_get_id] on the names seen so far, in order of their identifiers [203-208] *)
Fixpoint index_of (t : nat) (names : list nat) : option Z :=
  match names with
  | [] => None
  | x :: r => if Nat.eqb x t then Some 0 else match index_of t r with Some k => Some (k + 1) | None => None end
  end.
Definition get_id (names : list nat) (t : nat) : list nat * Z :=
  match index_of t names with
  | Some k => (names, k)
  | None => (names ++ [t], Z.of_nat (length names))
  end.
(** the calls in order: names at the end, or the ValueError [132-133,160-161,190-191] *)
Fixpoint register (w : Z) (names : list nat) (sites : list site) : option (list nat) :=
  match sites with
  | [] => Some names
  | (t, _) :: r =>
      let '(names', k) := get_id names t in
      if 2 ^ w - 1 <? k then None else register w names' r
  end.
(** the identifier a thread has in the end *)
Definition ident (names : list nat) (t : nat) : Z := match index_of t names with Some k => k | None => -1 end.

(** ** Registers *)
Record mx := mkMx { m_reg : bool; m_id : Z }.
Definition mx_init : mx := mkMx false 0.
(** statements of [self.seq] whose state condition holds, in order [142-145,169-172,195-197] *)
Inductive mop := OTry (k : Z) | OUnlock (k : Z).
Definition mx_op (w : Z) (old new : mx) (o : mop) : mx :=
  match o with
  | OTry k => if negb (m_reg old) then mkMx true (k mod 2 ^ w) else new
  | OUnlock k => if m_id old =? k then mkMx false (m_id new) else new
  end.
Definition mx_apply (w : Z) (old : mx) (ops : list mop) : mx := fold_left (mx_op w old) ops old.
(** the condition of the verify states [150,177] *)
Definition mx_owner (x : mx) (k : Z) : bool := m_reg x && (m_id x =? k).

(** ** Threads *)
Inductive phase := Out | First (k : nat) | Second (k : nat).
Record mst := mkMst { s_mx : mx; s_th : nat -> phase }.
Definition mst_init : mst := mkMst mx_init (fun _ => Out).
(** per cycle: the site each thread enters when it is free to *)
Definition min := nat -> option nat.

Definition at_first (p : phase) (k : nat) : bool := match p with First j => Nat.eqb j k | _ => false end.
(** the statements enabled in this cycle *)
Definition site_ops (names : list nat) (th : nat -> phase) (ks : nat * site) : list mop :=
  let '(k, (t, d)) := ks in
  if at_first (th t) k then
    [match d with KUnlock => OUnlock (ident names t) | _ => OTry (ident names t) end]
  else [].
Definition ops (names : list nat) (sites : list site) (th : nat -> phase) : list mop :=
  flat_map (site_ops names th) (combine (seq 0 (length sites)) sites).

(** the state after a call, or while outside: a site of the thread itself or none *)
Definition enter (sites : list site) (t : nat) (go : option nat) : phase :=
  match go with
  | Some k => match nth_error sites k with
              | Some (t', _) => if Nat.eqb t' t then First k else Out
              | None => Out end
  | None => Out
  end.
(** FSM transitions [147,151-152,174,182,199] *)
Definition th_next (names : list nat) (sites : list site) (x : mx) (t : nat) (p : phase) (go : option nat) : phase :=
  let me := ident names t in
  match p with
  | Out => enter sites t go
  | First k =>
      match nth_error sites k with
      | Some (_, KLock) => if negb (m_reg x) || (m_id x =? me) then Second k else First k
      | Some (_, KTryLock) => Second k
      | _ => enter sites t go
      end
  | Second k =>
      match nth_error sites k with
      | Some (_, KLock) => if mx_owner x me then enter sites t go else First k
      | _ => enter sites t go
      end
  end.
(** one clock cycle *)
Definition m_step (w : Z) (names : list nat) (sites : list site) (s : mst) (i : min) : mst :=
  mkMst (mx_apply w (s_mx s) (ops names sites (s_th s)))
        (fun t => th_next names sites (s_mx s) t (s_th s t) (i t)).

(** ** What the threads see in a cycle *)
(** a lock() returns, or a try_lock() returns with result 1 [149-152,177-182] *)
Definition acquires (names : list nat) (s : mst) (t : nat) : bool :=
  match s_th s t with Second _ => mx_owner (s_mx s) (ident names t) | _ => false end.
(** an unlock() is executed *)
Definition releases (sites : list site) (s : mst) (t : nat) : bool :=
  match s_th s t with
  | First k => match nth_error sites k with Some (_, KUnlock) => true | _ => false end
  | _ => false end.
(** the thread is inside lock() *)
Definition in_lock (sites : list site) (s : mst) (t : nat) : bool :=
  match s_th s t with
  | First k | Second k => match nth_error sites k with Some (_, KLock) => true | _ => false end
  | Out => false end.
