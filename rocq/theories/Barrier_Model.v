(** The barrier of [thread/ttypes.py:248-292], on top of the mutex model.

    A site is one call of [wait]; it adds the states try, verify, increment, unlock, wait to the
    FSM of the calling thread, and its statements to the sequences of the mutex and the barrier.
    Between two calls a thread does what the environment wants.  [util.log2] of an integer
    [types/util.py:47-49] is the rounded-up logarithm, without floating point error. *)
From Verif Require Import Base Mutex_Model.
Open Scope Z_scope.

Inductive bphase := BOut | BTry (k : nat) | BVer (k : nat) | BInc (k : nat) | BUnl (k : nat) | BWait (k : nat).
Record bst := mkBst { b_mx : mx; b_count : Z; b_done : bool; b_th : nat -> bphase }.
Definition bst_init : bst := mkBst mx_init 0 false (fun _ => BOut).

(** the calls of the mutex made by the calls of wait [280,288] *)
Definition mutex_sites (sites : list nat) : list site := flat_map (fun t => [(t, KLock); (t, KUnlock)]) sites.
(** the default width of the mutex identifiers [110,266] *)
Definition id_width : Z := 32.

Definition in_try (p : bphase) (k : nat) : bool := match p with BTry j => Nat.eqb j k | _ => false end.
Definition in_unl (p : bphase) (k : nat) : bool := match p with BUnl j => Nat.eqb j k | _ => false end.
Definition in_inc (p : bphase) (k : nat) : bool := match p with BInc j => Nat.eqb j k | _ => false end.
Definition bsite_ops (names : list nat) (th : nat -> bphase) (kt : nat * nat) : list mop :=
  let '(k, t) := kt in
  (if in_try (th t) k then [OTry (ident names t)] else []) ++
  (if in_unl (th t) k then [OUnlock (ident names t)] else []).
Definition numbered {A} (l : list A) : list (nat * A) := combine (seq 0 (length l)) l.
Definition bops (names : list nat) (sites : list nat) (th : nat -> bphase) : list mop :=
  flat_map (bsite_ops names th) (numbered sites).

Definition b_enter (sites : list nat) (t : nat) (go : option nat) : bphase :=
  match go with
  | Some k => match nth_error sites k with Some t' => if Nat.eqb t' t then BTry k else BOut | None => BOut end
  | None => BOut
  end.
(** FSM transitions: lock [147,151-152], increment [286], unlock [199], wait [290] *)
Definition b_next (names sites : list nat) (x : mx) (done : bool) (t : nat) (p : bphase) (go : option nat) : bphase :=
  let me := ident names t in
  match p with
  | BOut => b_enter sites t go
  | BTry k => if negb (m_reg x) || (m_id x =? me) then BVer k else BTry k
  | BVer k => if mx_owner x me then BInc k else BTry k
  | BInc k => BUnl k
  | BUnl k => BWait k
  | BWait k => if done then b_enter sites t go else BWait k
  end.

(** width of the counter [258] *)
Definition b_width (n : Z) : Z := Z.log2_up n + 1.
(** the statements of the barrier in order [270-276,283-285] *)
Definition b_step (n : Z) (names sites : list nat) (s : bst) (i : min) : bst :=
  let full := b_count s =? n in
  let count0 := if full then 0 else b_count s in
  let count1 := fold_left (fun c (kt : nat * nat) => if in_inc (b_th s (snd kt)) (fst kt) then (b_count s + 1) mod 2 ^ b_width n else c)
                  (numbered sites) count0 in
  mkBst (mx_apply id_width (b_mx s) (bops names sites (b_th s)))
        count1 full
        (fun t => b_next names sites (b_mx s) (b_done s) t (b_th s t) (i t)).

(** ** What the threads see *)
(** a call of wait returns *)
Definition leaves (s : bst) (t : nat) : bool := match b_th s t with BWait _ => b_done s | _ => false end.
(** wait is called: the thread enters the first state in the next cycle *)
Definition calls (sites : list nat) (s : bst) (i : min) (t : nat) : bool :=
  match b_th s t with
  | BOut => match b_enter sites t (i t) with BTry _ => true | _ => false end
  | BWait _ => b_done s && match b_enter sites t (i t) with BTry _ => true | _ => false end
  | _ => false
  end.
