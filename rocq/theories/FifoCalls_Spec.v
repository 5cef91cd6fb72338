(** What calls on a shared FIFO have to mean: every run is explained by single, indivisible operations
    on one bounded list of words (linearizability). *)
From Verif Require Import Base Fifo_Model FifoCalls_Model.
Open Scope Z_scope.

(** An indivisible operation: a word offered (and whether it was taken), or a word asked for (and which
    one was handed out, if any). *)
Inductive act := Put (w : Z) (took : bool) | Get (x : option Z).

(** The bounded list: [Put] is taken exactly when fewer than [cap] words are stored; [Get] hands out the
    oldest word, and nothing exactly when the list is empty. *)
Definition act_on (cap : Z) (l : list Z) (a : act) : option (list Z) :=
  match a with
  | Put w true => if Z.of_nat (length l) <? cap then Some (l ++ [w]) else None
  | Put w false => if Z.of_nat (length l) <? cap then None else Some l
  | Get (Some x) => match l with y :: r => if x =? y then Some r else None | [] => None end
  | Get None => match l with [] => Some [] | _ => None end
  end.
Fixpoint acts_on (cap : Z) (l : list Z) (log : list (nat * act)) : option (list Z) :=
  match log with
  | [] => Some l
  | (_, a) :: r => match act_on cap l a with Some l' => acts_on cap l' r | None => None end
  end.

(** the operations of one thread *)
Definition of_thread (t : nat) (log : list (nat * act)) : list act :=
  map snd (filter (fun e => Nat.eqb (fst e) t) log).

(** [means o r a]: the call [o] with the result [r] is the operation [a].  The word of an unsuccessful
    [try_deq] carries no meaning. *)
Definition means (or : op * res) (a : act) : Prop :=
  match or, a with
  | (Enq w, RDone), Put w' true => w = w'
  | (TryEnq w, RAck b), Put w' took => w = w' /\ b = took
  | (Deq, RWord x), Get (Some y) => x = y
  | (TryDeq, RTry x true), Get (Some y) => x = y
  | (TryDeq, RTry _ false), Get None => True
  | _, _ => False
  end.

(** The thread is inside a call. *)
Definition inside (h : thr) : Prop := h_ph h <> Out.

(** No two threads drive the same port in the same cycle. *)
Definition apart (n : nat) (s : fsys) : Prop :=
  forall t u, (t < u < n)%nat ->
    (enq_of (z_thr s t) = None \/ enq_of (z_thr s u) = None) /\
    (deq_of (z_thr s t) = false \/ deq_of (z_thr s u) = false).
Fixpoint always_apart (sync : bool) (aw : Z) (n : nat) (s : fsys) (gos : list (nat -> option op)) : Prop :=
  apart n s /\
  match gos with [] => True | go :: r => always_apart sync aw n (fsys_step sync aw n s go) r end.

(** [explains … logs]: [logs] lists, cycle by cycle, indivisible operations by threads that are inside a
    call in that cycle. *)
Fixpoint during (sync : bool) (aw : Z) (n : nat) (s : fsys) (gos : list (nat -> option op))
  (logs : list (list (nat * act))) : Prop :=
  match gos, logs with
  | [], [] => True
  | go :: r, l :: ls =>
      (forall t a, In (t, a) l -> (t < n)%nat /\ inside (z_thr s t)) /\
      during sync aw n (fsys_step sync aw n s go) r ls
  | _, _ => False
  end.
(** Returned calls of each thread are its operations, in order; at most one more operation, which
    belongs to the call the thread is still inside. *)
Definition accounts (n : nat) (s : fsys) (log : list (nat * act)) : Prop :=
  forall t, (t < n)%nat ->
    exists mine pend, of_thread t log = mine ++ pend /\
      Forall2 means (h_log (z_thr s t)) mine /\
      (length pend <= 1)%nat /\ (pend <> [] -> inside (z_thr s t)).

(** How long a call takes: [enq] stays in its state exactly while [cap] words are stored, [deq] exactly
    while there is none; the other calls stay in no state. *)
Definition waits (cap : Z) (l : list Z) (h h' : thr) : Prop :=
  match h_ph h with
  | Req (Enq _) => h_ph h' = h_ph h <-> cap <= Z.of_nat (length l)
  | Req Deq => h_ph h' = h_ph h <-> l = []
  | Req o => h_ph h' = Cap o \/ h_ph h' = Out
  | Cap _ => h_ph h' = Out
  | Out => True
  end.

(** Thread 0 only puts words in, thread 1 only takes words out. *)
Definition roles (go : nat -> option op) : Prop :=
  match go 0%nat with Some Deq | Some TryDeq => False | _ => True end /\
  match go 1%nat with Some (Enq _) | Some (TryEnq _) => False | _ => True end.

(** The words that returned calls report as put in, and as taken out. *)
Definition sent (log : list (op * res)) : list Z :=
  flat_map (fun or => match or with (Enq w, RDone) => [w] | (TryEnq w, RAck true) => [w] | _ => [] end) log.
Definition received (log : list (op * res)) : list Z :=
  flat_map (fun or => match or with (Deq, RWord x) => [x] | (TryDeq, RTry x true) => [x] | _ => [] end) log.
