(** Threads that start, await and restart other threads: [thread/thread.py] run, join, done, reset and
    _synthesize_run_fsm; [thread/pool.py] ThreadPool; the control flow of [thread/compiler.py] around
    them.

    What is kept of a thread's state machine: its jumps, and the assignments that run and
    ThreadPool.run make.  Other statements of a thread appear as states that are left after one cycle
    or when some condition of the environment holds.  Conditions and values that depend on the
    variables of the threads are arbitrary and may change in every cycle ([inp]).  Not modelled: the
    register [_<name>_called], which nothing reads; keyword and default arguments; the pass by
    reference of non-numeric arguments; [fsm_as_module]. *)
From Verif Require Import Base.
Open Scope nat_scope.

(** ** Conditions *)
Inductive cond :=
| CTrue | CFalse
| CEnv (k : nat)                     (* something of the environment *)
| CAt (f s : nat)                    (* thread [f]'s state machine is in state [s] *)
| CSel (f x k : nat)                 (* the value of thread [f]'s expression [x] is [k] *)
| CBit (p k : nat)                   (* bit [k] of the start register of pool [p] *)
| CNot (c : cond) | CAnd (c d : cond)
| CIte (c d e : cond).               (* [c ? d : e] *)

(** Assignments: argument registers of a child thread; bits of a pool's start register. *)
Inductive act :=
| ABind (t j f x : nat)              (* argument register [j] of [t] <= expression [x] of [f] *)
| ASet (p f x : nat) (v : bool).     (* start register of pool [p], bit number the value of [x] in [f] *)

(** Where the calls were compiled; not part of the Python objects, recorded to state the properties. *)
Inductive site :=
| SRun (f s t : nat) (gate : cond) (args : list nat)   (* in state [s] of [f], when [gate] holds, [t] is told to start *)
| SPoolRun (f s p x : nat)           (* run of pool [p]: thread number [x] is selected in state [s]; *)
| SPoolEnd (f s p x : nat)           (* the selection is cleared in state [s] *)
| SJoin (f s t e : nat)              (* in state [s] [f] waits for [t] to be in state [e] *)
| SPoolJoin (f s p x : nat)
| SReset (f s t : nat) (gate : cond)
| SDone (f s t e : nat).             (* in state [s] of [f] a branch depends on [t.done()] *)

(** One thread under construction: [FSM.state_count], [FSM.jump], the assignments, and the fields
    start_state, end_state, is_child of [Thread] [thread.py:48-56]. *)
Record tb := mkT {
  cur : nat;
  jumps : list (nat * (nat * cond * option nat));
  acts : list (nat * (cond * act));
  start : option nat; fin : option nat; child : bool }.
Definition tb0 : tb := mkT 0 [] [] None None false.
Record build := mkB { th : nat -> tb; sites : list site }.
Definition build0 : build := mkB (fun _ => tb0) [].

Definition upd (b : build) (t : nat) (x : tb) : build :=
  mkB (fun u => if Nat.eqb u t then x else th b u) (sites b).
Definition note (b : build) (s : site) : build := mkB (th b) (sites b ++ [s]).

Definition set_cur (x : tb) (n : nat) : tb := mkT n (jumps x) (acts x) (start x) (fin x) (child x).
Definition add_jump (x : tb) (src dst : nat) (c : cond) (els : option nat) : tb :=
  mkT (cur x) (jumps x ++ [(src, (dst, c, els))]) (acts x) (start x) (fin x) (child x).
Definition add_act (x : tb) (s : nat) (c : cond) (a : act) : tb :=
  mkT (cur x) (jumps x) (acts x ++ [(s, (c, a))]) (start x) (fin x) (child x).
Definition set_start (x : tb) (n : nat) : tb := mkT (cur x) (jumps x) (acts x) (Some n) (fin x) (child x).
Definition set_fin (x : tb) (n : nat) : tb := mkT (cur x) (jumps x) (acts x) (start x) (Some n) (child x).
Definition set_child (x : tb) : tb := mkT (cur x) (jumps x) (acts x) (start x) (fin x) true.

(** [fsm.py:893-904] _set_index, inc; [133-156] goto_next; [157-168] goto_from *)
Definition inc (b : build) (f : nat) : build := upd b f (set_cur (th b f) (S (cur (th b f)))).
Definition set_index (b : build) (f n : nat) : build := upd b f (set_cur (th b f) n).
Definition goto_from (b : build) (f src dst : nat) (c : cond) (els : option nat) : build :=
  upd b f (add_jump (th b f) src dst c els).
Definition goto_next (b : build) (f : nat) (c : cond) : build :=
  let s := cur (th b f) in
  upd b f (set_cur (add_jump (th b f) s (S s) c None) (S s)).

(** ** Thread functions *)
Inductive pcond := PEnv (k : nat) | PDone (t : nat) | PNot (c : pcond).
Inductive prog :=
| PSkip
| PAct (wait : option nat)           (* a statement; [Some k]: one that waits for condition [k] *)
| PSeq (p q : prog)
| PIf (c : pcond) (p q : prog)
| PWhile (c : pcond) (p : prog)
| PReturn
| PRun (t : nat) (args : list nat)
| PJoin (t : nat)
| PReset (t : nat)
| PPoolRun (p x : nat) (args : list nat)
| PPoolJoin (p x : nat)
| PPoolReset (p x : nat).

Section Synth.
  Variable progs : nat -> prog.            (* the target functions *)
  Variable pool : nat -> list nat.         (* the threads of the pools *)
  Variable tid : nat -> nat.               (* [Thread.tid] *)

  (** [thread.py:143-151] done; the comparison is made by the statement that uses it. *)
  Fixpoint ccond (b : build) (c : pcond) : option cond :=
    match c with
    | PEnv k => Some (CEnv k)
    | PDone t => match fin (th b t) with Some e => Some (CAt t e) | None => None end
    | PNot c => option_map CNot (ccond b c)
    end.
  Definition note_done (b : build) (f s : nat) (c : pcond) : build :=
    match c with
    | PDone t => match fin (th b t) with Some e => note b (SDone f s t e) | None => b end
    | _ => b
    end.

  (** [thread.py:102-116] the checks and preparations of run; [pool.py:65-82] the same in a pool.
      Running a thread whose function is just being compiled makes the Python functions call each other
      without end: [None].  (Also [None] here, but possible in Python: a thread of a pool running another
      thread of the same pool that is not yet compiled.) *)
  Definition prepare (b : build) (t : nat) : option build :=
    let x := th b t in
    match start x, fin x with
    | Some _, None => None
    | Some s, Some _ => if child x then Some (upd b t (set_cur x s)) else None     (* 'already started' *)
    | None, _ => Some (upd b t (set_child (set_start x (cur x))))
    end.

  Section Comp.
    Variable func : build -> nat -> option build.     (* compile the target function of a thread *)

    (** [thread.py:271-479] _synthesize_run_fsm.  The child's state machine has just been put to its start
        state, except when a thread of a pool runs or resets other threads of the same pool; then the
        assignments of the arguments can end up in another state.  That case is left out: [None]. *)
    Fixpoint bind (x : tb) (c : cond) (t j f : nat) (args : list nat) : tb :=
      match args with
      | [] => x
      | a :: l => bind (add_act x (cur x) c (ABind t j f a)) c t (S j) f l
      end.
    Definition synth_run (b : build) (f t : nat) (args : list nat) (gate : cond) : option build :=
      match start (th b t) with
      | None => None
      | Some s0 =>
          let s := cur (th b f) in
          let flag := CAnd gate (CAt f s) in
          let b1 := upd b t (bind (th b t) flag t 0 f args) in               (* [278-283,314-319] *)
          let b2 := goto_from b1 t s0 (S s0) flag None in                    (* [446-450] *)
          let b3 := set_index b2 t (S s0) in                                 (* [451] *)
          let b4 := note (goto_next b3 f CTrue) (SRun f s t gate args) in    (* [453] *)
          if Nat.eqb (cur (th b t)) s0 then
            match fin (th b4 t) with
            | Some _ => Some b4                                              (* [456-457] *)
            | None => func b4 t                                              (* [459-477] *)
            end
          else None
      end.
    Definition close (b : build) (t : nat) : build :=                        (* [120-121], [pool.py:94-95] *)
      match fin (th b t) with Some _ => b | None => upd b t (set_fin (th b t) (cur (th b t))) end.

    (** [pool.py:58-101] ThreadPool.run (the two assignments to the start register are entered together
        at the end; they belong to different states, so their order is of no consequence) *)
    Fixpoint prepare_all (b : build) (ts : list nat) : option build :=
      match ts with
      | [] => Some b
      | t :: l => match prepare b t with Some b1 => prepare_all b1 l | None => None end
      end.
    Fixpoint run_all (b : build) (f p fs : nat) (args : list nat) (ts : list nat) : option build :=
      match ts with
      | [] => Some b
      | t :: l =>
          match synth_run (set_index b f fs) f t args (CBit p (tid t)) with
          | Some b1 => run_all (close b1 t) f p fs args l
          | None => None
          end
      end.
    (** [pool.py:103-117,119-131] PatternMux over the threads of the pool *)
    Fixpoint end_mux (b : build) (f x : nat) (ts : list nat) : option cond :=
      match ts with
      | [] => Some CFalse
      | t :: l =>
          match fin (th b t), end_mux b f x l with
          | Some e, Some c => Some (CIte (CSel f x (tid t)) (CAt t e) c)
          | _, _ => None
          end
      end.
    (** [thread.py:153-167] reset; [pool.py:133-154] the same in a pool.  The caller's state machine does
        not advance. *)
    Definition reset1 (b : build) (f t : nat) (gate : cond) : option build :=
      match start (th b t), fin (th b t) with
      | Some s, Some e =>
          let c := CAnd (CAt f (cur (th b f))) gate in
          Some (note (set_index (goto_from b t e s c None) t s) (SReset f (cur (th b f)) t gate))
      | _, _ => None
      end.
    Fixpoint reset_all (b : build) (f x : nat) (ts : list nat) : option build :=
      match ts with
      | [] => Some b
      | t :: l => match reset1 b f t (CSel f x (tid t)) with Some b1 => reset_all b1 f x l | None => None end
      end.

    (** The visit of a function body; result: the states left by return statements that still need their
        jump, and whether the rest of the block is skipped [compiler.py:1116-1118]. *)
    Fixpoint comp (b : build) (f : nat) (p : prog) : option (build * list nat * bool) :=
      match p with
      | PSkip => Some (b, [], false)
      | PAct None => Some (goto_next b f CTrue, [], false)
      | PAct (Some k) => Some (goto_next b f (CEnv k), [], false)
      | PSeq p q =>
          match comp b f p with
          | Some (b1, r1, true) => Some (b1, r1, true)
          | Some (b1, r1, false) =>
              match comp b1 f q with Some (b2, r2, k) => Some (b2, r1 ++ r2, k) | None => None end
          | None => None
          end
      | PIf c p q =>                                                         (* [compiler.py:221-255] *)
          match ccond b c with
          | None => None
          | Some cc =>
              let s := cur (th b f) in
              match comp (inc b f) f p with
              | None => None
              | Some (b1, r1, _) =>
                  let mid := cur (th b1 f) in
                  match q with
                  | PSkip => Some (note_done (goto_from b1 f s (S s) cc (Some mid)) f s c, r1, false)
                  | _ =>
                      match comp (inc b1 f) f q with
                      | None => None
                      | Some (b2, r2, _) =>
                          let en := cur (th b2 f) in
                          Some (note_done (goto_from (goto_from b2 f s (S s) cc (Some (S mid))) f mid en CTrue None) f s c, r1 ++ r2, false)
                      end
                  end
              end
          end
      | PWhile c p =>                                                        (* [compiler.py:257-293] *)
          match ccond b c with
          | None => None
          | Some cc =>
              let s := cur (th b f) in
              match comp (inc b f) f p with
              | None => None
              | Some (b1, r1, _) =>
                  let be := cur (th b1 f) in
                  let b2 := inc b1 f in
                  Some (note_done (goto_from (goto_from b2 f s (S s) cc (Some (S be))) f be s CTrue None) f s c, r1, false)
              end
          end
      | PReturn => Some (inc b f, [cur (th b f)], true)                      (* [compiler.py:812-834] *)
      | PRun t args =>                                                       (* [thread.py:99-125] *)
          match prepare b t with
          | None => None
          | Some b1 =>
              match synth_run b1 f t args CTrue with
              | Some b2 => Some (close b2 t, [], false)
              | None => None
              end
          end
      | PJoin t =>                                                           (* [thread.py:127-136] *)
          match fin (th b t) with
          | None => None
          | Some e => Some (goto_next (note b (SJoin f (cur (th b f)) t e)) f (CAt t e), [], false)
          end
      | PReset t =>
          match reset1 b f t CTrue with Some b1 => Some (b1, [], false) | None => None end
      | PPoolRun p x args =>
          let s := cur (th b f) in
          let b1 := goto_next b f CTrue in
          match pool p with
          | [] => None                                                       (* [pool.py:14-15] *)
          | _ =>
              match prepare_all b1 (pool p) with
              | None => None
              | Some b2 =>
                  match run_all b2 f p (cur (th b2 f)) args (pool p) with
                  | None => None
                  | Some b3 =>
                      let e := cur (th b3 f) in
                      let b4 := goto_next b3 f CTrue in
                      let x4 := add_act (th b4 f) s CTrue (ASet p f x true) in    (* [61-64] *)
                      let x5 := add_act x4 e CTrue (ASet p f x false) in          (* [97-100] *)
                      Some (note (note (upd b4 f x5) (SPoolEnd f e p x)) (SPoolRun f s p x), [], false)
                  end
              end
          end
      | PPoolJoin p x =>
          match end_mux b f x (pool p) with
          | None => None
          | Some c => Some (goto_next (note b (SPoolJoin f (cur (th b f)) p x)) f c, [], false)
          end
      | PPoolReset p x =>
          match reset_all b f x (pool p) with Some b1 => Some (b1, [], false) | None => None end
      end.
  End Comp.

  (** The call of the target function [thread.py:459-464], [compiler.py:601-690]: one state for the binding
      of the arguments, the body, the jumps of its return statements to the state after it. *)
  Definition resolve (b : build) (f : nat) (rs : list nat) (dst : nat) : build :=
    fold_left (fun b r => goto_from b f r dst CTrue None) rs b.
  Fixpoint func (fuel : nat) (b : build) (t : nat) : option build :=
    match fuel with
    | O => None
    | S n =>
        match comp (func n) (goto_next b t CTrue) t (progs t) with
        | Some (b1, rs, _) => Some (resolve b1 t rs (cur (th b1 t)))
        | None => None
        end
    end.
  (** [thread.py:62-83] Thread.start *)
  Definition start_thread (fuel : nat) (b : build) (t : nat) : option build :=
    match fin (th b t), child (th b t) with
    | None, false =>
        match func fuel (upd b t (set_start (th b t) (cur (th b t)))) t with
        | Some b1 => Some (upd b1 t (set_fin (th b1 t) (cur (th b1 t))))
        | None => None
        end
    | _, _ => None
    end.
  Fixpoint start_threads (fuel : nat) (b : build) (ts : list nat) : option build :=
    match ts with
    | [] => Some b
    | t :: l => match start_thread fuel b t with Some b1 => start_threads fuel b1 l | None => None end
    end.
End Synth.

(** ** The hardware *)
(** What the rest of the design does in one cycle: conditions and values of expressions. *)
Record inp := mkIn { i_bit : nat -> bool; i_val : nat -> nat -> nat }.
(** The state registers, the argument registers, the start registers of the pools. *)
Record hw := mkHw { st : nat -> nat; arg : nat -> nat -> nat; bits : nat -> nat -> bool }.
Definition hw0 : hw := mkHw (fun _ => 0) (fun _ _ => 0) (fun _ _ => false).

Fixpoint holds (i : inp) (h : hw) (c : cond) : bool :=
  match c with
  | CTrue => true
  | CFalse => false
  | CEnv k => i_bit i k
  | CAt f s => Nat.eqb (st h f) s
  | CSel f x k => Nat.eqb (i_val i f x) k
  | CBit p k => bits h p k
  | CNot c => negb (holds i h c)
  | CAnd c d => holds i h c && holds i h d
  | CIte c d e => if holds i h c then holds i h d else holds i h e
  end.

(** The jumps of the current state in the order of the code; the last assignment counts. *)
Definition take (i : inp) (h : hw) (s n : nat) (j : nat * (nat * cond * option nat)) : nat :=
  let '(src, (dst, c, els)) := j in
  if Nat.eqb src s then
    if holds i h c then dst else match els with Some d => d | None => n end
  else n.
Definition next_state (i : inp) (h : hw) (x : tb) (s : nat) : nat := fold_left (take i h s) (jumps x) s.

(** The assignments of the threads in [ts] (all threads of the design, in any fixed order). *)
Definition do_act (i : inp) (a : act) (h : hw) : hw :=
  match a with
  | ABind t j f x => mkHw (st h) (fun u k => if Nat.eqb u t && Nat.eqb k j then i_val i f x else arg h u k) (bits h)
  | ASet p f x v => mkHw (st h) (arg h) (fun q k => if Nat.eqb q p && Nat.eqb k (i_val i f x) then v else bits h q k)
  end.
Definition do_acts (i : inp) (h : hw) (x : tb) (s : nat) (acc : hw) : hw :=
  fold_left (fun acc a => if Nat.eqb (fst a) s && holds i h (fst (snd a)) then do_act i (snd (snd a)) acc else acc) (acts x) acc.
Definition clock (b : build) (ts : list nat) (i : inp) (h : hw) : hw :=
  let h1 := fold_left (fun acc t => do_acts i h (th b t) (st h t) acc) ts h in
  mkHw (fun t => next_state i h (th b t) (st h t)) (arg h1) (bits h1).

(** The state before cycle [n]. *)
Fixpoint run (b : build) (ts : list nat) (ins : nat -> inp) (n : nat) : hw :=
  match n with
  | O => hw0
  | S k => clock b ts (ins k) (run b ts ins k)
  end.
