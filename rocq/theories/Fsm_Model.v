(** Model of [fsm/fsm.py] (class FSM): the builder calls and the emitted always block in its
    case form and its if form.  A Python exception is [None].
    Simplifications: state indices are natural numbers; the marks (localparams equal to their
    index, [fsm/fsm.py:907-921]) are inlined as their values; Clear(), the as_module form
    ([414-663]) and user supplied [reset]/[body] arguments are not modelled. *)
From Verif Require Import Base Vlog Seq_Model.
Open Scope Z_scope.

(** [fsm/fsm.py:43-84] builder state.  [f_body] lists (index, item) in insertion order, so
    [body[i]] is the sub-list for [i]; likewise [f_jump] ((src), (dst, cond, else_dst)) and
    [f_delayed] ((delay, index), statement).  [f_last_if] is a position in [f_body]. *)
Record fsmb := mkFsm {
  f_count : nat;
  f_body : list (nat * item);
  f_jump : list (nat * (nat * option expr * option nat));
  f_delayed : list ((nat * nat) * stmt);
  f_delay_amount : nat;
  f_tmp : nat;
  f_dst : list lhs;
  f_inits : list (var * Z);
  f_seq : seqb;
  f_last_cond : list expr;
  f_last_kw : kw;
  f_last_if : option nat;
  f_next_else : bool;
  f_elif : option expr;
  f_next : kw;
  f_next_index : option nat }.

Definition fsm_new : fsmb :=
  mkFsm 0 [] [] [] 0 0 [] [] seq_new [] kw_empty None false None kw_empty None.

Definition g_count b x := mkFsm x (f_body b) (f_jump b) (f_delayed b) (f_delay_amount b) (f_tmp b) (f_dst b) (f_inits b) (f_seq b) (f_last_cond b) (f_last_kw b) (f_last_if b) (f_next_else b) (f_elif b) (f_next b) (f_next_index b).
Definition g_body b x := mkFsm (f_count b) x (f_jump b) (f_delayed b) (f_delay_amount b) (f_tmp b) (f_dst b) (f_inits b) (f_seq b) (f_last_cond b) (f_last_kw b) (f_last_if b) (f_next_else b) (f_elif b) (f_next b) (f_next_index b).
Definition g_jump b x := mkFsm (f_count b) (f_body b) x (f_delayed b) (f_delay_amount b) (f_tmp b) (f_dst b) (f_inits b) (f_seq b) (f_last_cond b) (f_last_kw b) (f_last_if b) (f_next_else b) (f_elif b) (f_next b) (f_next_index b).
Definition g_delayed b x := mkFsm (f_count b) (f_body b) (f_jump b) x (f_delay_amount b) (f_tmp b) (f_dst b) (f_inits b) (f_seq b) (f_last_cond b) (f_last_kw b) (f_last_if b) (f_next_else b) (f_elif b) (f_next b) (f_next_index b).
Definition g_delay_amount b x := mkFsm (f_count b) (f_body b) (f_jump b) (f_delayed b) x (f_tmp b) (f_dst b) (f_inits b) (f_seq b) (f_last_cond b) (f_last_kw b) (f_last_if b) (f_next_else b) (f_elif b) (f_next b) (f_next_index b).
Definition g_tmp b x := mkFsm (f_count b) (f_body b) (f_jump b) (f_delayed b) (f_delay_amount b) x (f_dst b) (f_inits b) (f_seq b) (f_last_cond b) (f_last_kw b) (f_last_if b) (f_next_else b) (f_elif b) (f_next b) (f_next_index b).
Definition g_dst b x := mkFsm (f_count b) (f_body b) (f_jump b) (f_delayed b) (f_delay_amount b) (f_tmp b) x (f_inits b) (f_seq b) (f_last_cond b) (f_last_kw b) (f_last_if b) (f_next_else b) (f_elif b) (f_next b) (f_next_index b).
Definition g_inits b x := mkFsm (f_count b) (f_body b) (f_jump b) (f_delayed b) (f_delay_amount b) (f_tmp b) (f_dst b) x (f_seq b) (f_last_cond b) (f_last_kw b) (f_last_if b) (f_next_else b) (f_elif b) (f_next b) (f_next_index b).
Definition g_seq b x := mkFsm (f_count b) (f_body b) (f_jump b) (f_delayed b) (f_delay_amount b) (f_tmp b) (f_dst b) (f_inits b) x (f_last_cond b) (f_last_kw b) (f_last_if b) (f_next_else b) (f_elif b) (f_next b) (f_next_index b).
Definition g_last_cond b x := mkFsm (f_count b) (f_body b) (f_jump b) (f_delayed b) (f_delay_amount b) (f_tmp b) (f_dst b) (f_inits b) (f_seq b) x (f_last_kw b) (f_last_if b) (f_next_else b) (f_elif b) (f_next b) (f_next_index b).
Definition g_last_kw b x := mkFsm (f_count b) (f_body b) (f_jump b) (f_delayed b) (f_delay_amount b) (f_tmp b) (f_dst b) (f_inits b) (f_seq b) (f_last_cond b) x (f_last_if b) (f_next_else b) (f_elif b) (f_next b) (f_next_index b).
Definition g_last_if b x := mkFsm (f_count b) (f_body b) (f_jump b) (f_delayed b) (f_delay_amount b) (f_tmp b) (f_dst b) (f_inits b) (f_seq b) (f_last_cond b) (f_last_kw b) x (f_next_else b) (f_elif b) (f_next b) (f_next_index b).
Definition g_next_else b x := mkFsm (f_count b) (f_body b) (f_jump b) (f_delayed b) (f_delay_amount b) (f_tmp b) (f_dst b) (f_inits b) (f_seq b) (f_last_cond b) (f_last_kw b) (f_last_if b) x (f_elif b) (f_next b) (f_next_index b).
Definition g_elif b x := mkFsm (f_count b) (f_body b) (f_jump b) (f_delayed b) (f_delay_amount b) (f_tmp b) (f_dst b) (f_inits b) (f_seq b) (f_last_cond b) (f_last_kw b) (f_last_if b) (f_next_else b) x (f_next b) (f_next_index b).
Definition g_next b x := mkFsm (f_count b) (f_body b) (f_jump b) (f_delayed b) (f_delay_amount b) (f_tmp b) (f_dst b) (f_inits b) (f_seq b) (f_last_cond b) (f_last_kw b) (f_last_if b) (f_next_else b) (f_elif b) x (f_next_index b).
Definition g_next_index b x := mkFsm (f_count b) (f_body b) (f_jump b) (f_delayed b) (f_delay_amount b) (f_tmp b) (f_dst b) (f_inits b) (f_seq b) (f_last_cond b) (f_last_kw b) (f_last_if b) (f_next_else b) (f_elif b) (f_next b) x.

(** [fsm/fsm.py:878-879] *)
Definition clear_next (b : fsmb) : fsmb := g_next_index (g_next b kw_empty) None.

(** [fsm/fsm.py:822-828] *)
Definition fadd_dst (b : fsmb) (ss : list stmt) : fsmb :=
  g_dst b (fold_left add_dst1 (flat_map dsts ss) (f_dst b)).

(** [fsm/fsm.py:807-808,816-817] *)
Definition fpush_plain (b : fsmb) (d idx : nat) (ss : list stmt) : fsmb :=
  let b1 := match d with
            | O => g_body b (f_body b ++ map (fun s => (idx, IPlain s)) ss)
            | S _ => g_delayed b (f_delayed b ++ map (fun s => ((d, idx), s)) ss)
            end in
  fadd_dst b1 ss.

(** [fsm/fsm.py:940-961] *)
Definition add_delayed_state (b : fsmb) (d : nat) : fsmb :=
  g_delay_amount b (Nat.max (f_delay_amount b) d).

(** [fsm/fsm.py:831-842]: the chain lives in the CURRENT state, whatever [index] is. *)
Fixpoint fcond_chain (k n i : nat) (prev : expr) (b : fsmb) : fsmb * expr :=
  match n with
  | O => (b, prev)
  | S n' =>
      let r := FCondR k (S i) in
      let b1 := fpush_plain (add_delayed_state b i) i (f_count b) [SSub (LVar r) prev] in
      fcond_chain k n' (S i) (EVar r) (g_inits b1 (f_inits b1 ++ [(r, 0)]))
  end.
Definition fadd_delayed_cond (b : fsmb) (c : expr) (delay : nat) : fsmb * expr :=
  fcond_chain (f_tmp b) delay 0 c (g_tmp b (S (f_tmp b))).

(** [fsm/fsm.py:845-875] *)
Definition fsbst_reg (l : lhs) (k i : nat) : var :=
  match l with
  | LVar (User n) => FSbstR n k i
  | LVar _ => FSbstG 32 k i                     (* not reached for user statements *)
  | LBit _ _ => FSbstG 1 k i
  | LSlice _ m l => FSbstG (Z.to_nat (m - l + 1)) k i
  end.
Fixpoint fval_chain (l : lhs) (k n i : nat) (prev : expr) (b : fsmb) : fsmb * expr :=
  match n with
  | O => (b, prev)
  | S n' =>
      let r := fsbst_reg l k (S i) in
      let b1 := fpush_plain (add_delayed_state b i) i (f_count b) [SSub (LVar r) prev] in
      fval_chain l k n' (S i) (EVar r) (g_inits b1 (f_inits b1 ++ [(r, 0)]))
  end.
Definition fadd_delayed_subst (b : fsmb) (s : stmt) (delay : nat) : fsmb * stmt :=
  match s with
  | SSub l e =>
      if is_const e then (b, s)
      else let '(b', e') := fval_chain l (f_tmp b) delay 0 e (g_tmp b (S (f_tmp b))) in (b', SSub l e')
  | _ => (b, s)
  end.
Fixpoint fadd_delayed_substs (b : fsmb) (ss : list stmt) (delay : nat) : fsmb * list stmt :=
  match ss with
  | [] => (b, [])
  | s :: r => let '(b1, s') := fadd_delayed_subst b s delay in
              let '(b2, r') := fadd_delayed_substs b1 r delay in (b2, s' :: r')
  end.

(** [fsm/fsm.py:769-819] with [keep=None], [no_delay_cond=False]. *)
Definition fadd_statement1 (b : fsmb) (ss : list stmt) (idx delay : nat) (cond : option expr)
                           (lazy eager : bool) : fsmb :=
  match delay with
  | S _ =>
      let b0 := add_delayed_state b delay in
      let '(b1, ss1) := if eager then fadd_delayed_substs b0 ss delay else (b0, ss) in
      let c0 := match cond with None => EInt 1 | Some c => c end in
      let '(b2, c1) :=
        if lazy then
          let '(b2, t) := fadd_delayed_cond b1 (EInt 1) delay in
          (b2, match c0 with EInt 1 => t | _ => ands t c0 end)
        else fadd_delayed_cond b1 c0 delay in
      fpush_plain b2 delay idx [SIf c1 ss1 []]
  | O =>
      match cond with
      | None => fpush_plain b 0 idx ss
      | Some c =>
          let b1 := g_last_if b (Some (length (f_body b))) in
          fadd_dst (g_body b1 (f_body b1 ++ [(idx, IIf [(c, ss)] None)])) ss
      end
  end.
Definition fadd_statement (b : fsmb) (ss : list stmt) (k : kw) (index : option nat) : fsmb :=
  let idx := match index with Some i => i | None => f_count b end in
  let d := match kw_delay k with Some d => d | None => O end in
  let lz := match kw_lazy k with Some x => x | None => false end in
  let eg := match kw_eager k with Some x => x | None => false end in
  match kw_keep k with
  | None => fadd_statement1 b ss idx d (kw_cond k) lz eg
  | Some n => fold_left (fun b i => fadd_statement1 b ss idx (d + i) (kw_cond k) lz eg) (seq 0 n) b
  end.

Definition fitem (f : item -> option item) (p : nat * item) : option (nat * item) :=
  match f (snd p) with Some i => Some (fst p, i) | None => None end.

(** [fsm/fsm.py:173-203] FSM.add / FSM.__call__ *)
Definition fop_call (b0 : fsmb) (ss : list stmt) : option fsmb :=
  let k := f_next b0 in
  let idx := f_next_index b0 in
  let b := clear_next (g_last_kw b0 k) in
  match f_elif b, has_args k with
  | Some ec, false =>
      match f_last_if b with
      | None => None
      | Some p =>
          match update_nth p (fitem (item_elif ec ss)) (f_body b) with
          | None => None
          | Some body => Some (g_elif (fadd_dst (g_body b body) ss) None)
          end
      end
  | _, ha =>
      if f_next_else b && negb ha then
        match f_last_if b with
        | None => None
        | Some p =>
            match update_nth p (fitem (item_else ss)) (f_body b) with
            | None => None
            | Some body =>
                Some (g_elif (g_next_else (g_last_if (fadd_dst (g_body b body) ss) None) false) None)
            end
        end
      else Some (fadd_statement (g_next_else (g_last_if b None) false) ss k idx)
  end.

(** [fsm/fsm.py:214-230] *)
Definition fop_if (b0 : fsmb) (cs : list expr) : fsmb :=
  let b := g_elif b0 None in
  match make_condition cs with
  | None => b
  | Some c =>
      let c' := match kw_cond (f_next b) with None => c | Some c0 => ands c0 c end in
      g_last_cond (g_next b (set_cond (f_next b) c')) [c']
  end.

(** [fsm/fsm.py:294-298] *)
Definition fop_then (b : fsmb) : fsmb :=
  match make_cond (f_last_cond b) with
  | None => fop_if (g_last_cond b []) []
  | Some c => fop_if (g_last_cond b []) [c]
  end.
Definition fdelayed_last (b : fsmb) : bool :=
  match kw_delay (f_last_kw b) with Some (S _) => true | _ => false end.

(** [fsm/fsm.py:233-261]: unlike Seq, no error when there is no open If. *)
Definition fop_else (b0 : fsmb) : option fsmb :=
  let b := g_elif b0 None in
  match negate_last (f_last_cond b) with
  | None => None
  | Some lc =>
      let b1 := g_last_cond b lc in
      if fdelayed_last b1 then Some (g_last_cond (fop_then b1) lc)
      else
        let b2 := match f_last_if b1 with Some _ => g_next_else b1 true | None => b1 end in
        match make_cond lc with
        | None => None
        | Some c => Some (g_next b2 (set_cond (f_next b2) c))
        end
  end.

(** [fsm/fsm.py:263-292] *)
Definition fop_elif (b0 : fsmb) (cs : list expr) : option fsmb :=
  match negate_last (f_last_cond b0), make_condition cs with
  | Some lc0, Some c =>
      let lc := lc0 ++ [c] in
      let b1 := g_last_cond b0 lc in
      if fdelayed_last b1 then Some (g_last_cond (fop_then b1) lc)
      else
        let b2 := match f_last_if b1 with Some _ => g_elif b1 (Some c) | None => b1 end in
        match make_cond lc with
        | None => None
        | Some cc => Some (g_next b2 (set_cond (f_next b2) cc))
        end
  | _, _ => None
  end.

(** [fsm/fsm.py:300-318] *)
Definition fop_delay (b : fsmb) (d : nat) : fsmb :=
  let k := f_next b in g_next b (mkKw (kw_cond k) (Some d) (kw_keep k) (kw_lazy k) (kw_eager k)).
Definition fop_keep (b : fsmb) (n : nat) : fsmb :=
  let k := f_next b in g_next b (mkKw (kw_cond k) (kw_delay k) (Some n) (kw_lazy k) (kw_eager k)).
Definition fop_lazy (b : fsmb) : fsmb :=
  let k := f_next b in g_next b (mkKw (kw_cond k) (kw_delay k) (kw_keep k) (Some true) (kw_eager k)).
Definition fop_eager (b : fsmb) : fsmb :=
  let k := f_next b in g_next b (mkKw (kw_cond k) (kw_delay k) (kw_keep k) (kw_lazy k) (Some true)).
Definition fop_when (b : fsmb) (i : nat) : fsmb := g_next_index b (Some i).

(** [fsm/fsm.py:761-766] *)
Definition add_jump (b : fsmb) (src dst : nat) (c : option expr) (els : option nat) : fsmb :=
  g_jump b (f_jump b ++ [(src, (dst, c, els))]).
Definition pick_cond (b : fsmb) (c : option expr) : option expr :=
  match c with Some _ => c | None => kw_cond (f_next b) end.
Definition pick_src (b : fsmb) : nat := match f_next_index b with Some i => i | None => f_count b end.

(** [fsm/fsm.py:893-904] *)
Definition set_index (b : fsmb) (i : option nat) : fsmb :=
  let b1 := g_elif (g_last_cond (g_next_else (g_last_if (clear_next b) None) false) []) None in
  g_count b1 (match i with Some i => i | None => S (f_count b) end).

(** [fsm/fsm.py:88-167] *)
Definition fop_goto (b : fsmb) (dst : nat) (c : option expr) (els : option nat) : fsmb :=
  add_jump (clear_next b) (pick_src b) dst (pick_cond b c) els.
Definition fop_goto_next (b : fsmb) (c : option expr) : fsmb :=
  set_index (add_jump (clear_next b) (pick_src b) (S (pick_src b)) (pick_cond b c) None) None.
Definition fop_goto_from (b : fsmb) (src dst : nat) (c : option expr) (els : option nat) : fsmb :=
  add_jump (clear_next b) src dst (pick_cond b c) els.

(** Calls on an FSM in program order; [FSeq] are calls on [fsm.Always] and [fsm.Prev]. *)
Inductive fop :=
| FIf (cs : list expr) | FElse | FElif (cs : list expr) | FThen
| FDelay (d : nat) | FKeep (n : nat) | FLazy | FEager | FWhen (i : nat)
| FCall (ss : list stmt)
| FGoto (dst : nat) (c : option expr) (els : option nat)
| FGotoInit (c : option expr)
| FGotoNext (c : option expr)
| FGotoFrom (src dst : nat) (c : option expr) (els : option nat)
| FInc | FSetIndex (i : nat)
| FSeq (o : op).

Definition do_fop (b : fsmb) (o : fop) : option fsmb :=
  match o with
  | FIf cs => Some (fop_if b cs)
  | FElse => fop_else b
  | FElif cs => fop_elif b cs
  | FThen => Some (fop_then b)
  | FDelay d => Some (fop_delay b d)
  | FKeep n => Some (fop_keep b n)
  | FLazy => Some (fop_lazy b)
  | FEager => Some (fop_eager b)
  | FWhen i => Some (fop_when b i)
  | FCall ss => fop_call b ss
  | FGoto d c e => Some (fop_goto b d c e)
  | FGotoInit c => Some (fop_goto b 0 c None)
  | FGotoNext c => Some (fop_goto_next b c)
  | FGotoFrom s d c e => Some (fop_goto_from b s d c e)
  | FInc => Some (set_index b None)
  | FSetIndex i => Some (set_index b (Some i))
  | FSeq o => match do_op (f_seq b) o with Some q => Some (g_seq b q) | None => None end
  end.
Fixpoint do_fops (b : fsmb) (os : list fop) : option fsmb :=
  match os with
  | [] => Some b
  | o :: r => match do_fop b o with Some b' => do_fops b' r | None => None end
  end.

(** ** Emitted code *)
(** [set] / [sorted(.., key)] of indices: ascending, without duplicates. *)
Definition sorted_indexes (l : list nat) : list nat :=
  filter (fun i => existsb (Nat.eqb i) l) (seq 0 (S (list_max l))).

(** [fsm/fsm.py:983-992] *)
Definition state_assign (j : nat * option expr * option nat) : stmt :=
  let '(dst, c, els) := j in
  let go d := SSub (LVar FState) (EInt (Z.of_nat d)) in
  match c with
  | None => go dst
  | Some c => SIf c [go dst] (match els with Some e => [go e] | None => [] end)
  end.

(** [fsm/fsm.py:1011-1019,1024-1032] the statements of one state *)
Definition state_code (b : fsmb) (i : nat) : list stmt :=
  flat_map (fun p => if Nat.eqb (fst p) i then item_stmts (snd p) else []) (f_body b)
  ++ map (fun p => state_assign (snd p)) (filter (fun p => Nat.eqb (fst p) i) (f_jump b)).
Definition delayed_code (b : fsmb) (d i : nat) : list stmt :=
  map snd (filter (fun p => Nat.eqb (fst (fst p)) d && Nat.eqb (snd (fst p)) i) (f_delayed b)).
Definition indexes (b : fsmb) : list nat := sorted_indexes (map fst (f_body b) ++ map fst (f_jump b)).
Definition delays (b : fsmb) : list nat := rev (sorted_indexes (map (fun p => fst (fst p)) (f_delayed b))).
Definition delayed_indexes (b : fsmb) (d : nat) : list nat :=
  sorted_indexes (map (fun p => snd (fst p)) (filter (fun p => Nat.eqb (fst (fst p)) d) (f_delayed b))).

(** [fsm/fsm.py:963-975] *)
Definition delayed_var (d : nat) : var := match d with O => FState | S _ => DState d end.
Definition delayed_substs (b : fsmb) : list stmt :=
  map (fun d => SSub (LVar (DState (S d))) (EVar (delayed_var d))) (seq 0 (f_delay_amount b)).

(** [fsm/fsm.py:666-691] *)
Definition make_case (b : fsmb) : list stmt :=
  make_code (f_seq b) ++ delayed_substs b
  ++ map (fun d => SCase (EVar (delayed_var d))
                     (map (fun i => (Z.of_nat i, delayed_code b d i)) (delayed_indexes b d))) (delays b)
  ++ match indexes b with
     | [] => []
     | l => [SCase (EVar FState) (map (fun i => (Z.of_nat i, state_code b i)) l)]
     end.

(** [fsm/fsm.py:693-711] *)
Definition is_state (v : var) (i : nat) : expr := EBin Eq (EVar v) (EInt (Z.of_nat i)).
Definition make_if (b : fsmb) : list stmt :=
  make_code (f_seq b) ++ delayed_substs b
  ++ flat_map (fun d => map (fun i => SIf (is_state (delayed_var d) i) (delayed_code b d i) [])
                            (delayed_indexes b d)) (delays b)
  ++ map (fun i => SIf (is_state FState i) (state_code b i) []) (indexes b).

(** [fsm/fsm.py:714-754]: the first reset statement for a key is kept. *)
Definition fall_inits (b : fsmb) (user_init : nat -> option Z) (v : var) : option Z :=
  match v with
  | FState | DState _ => Some 0
  | User n => user_init n
  | _ => match find (fun p => veqb (fst p) v) (f_inits b ++ s_inits (f_seq b)) with
         | Some p => Some (snd p) | None => None end
  end.
Definition stmt_key (s : stmt) : option lhs := match s with SSub l _ => Some l | _ => None end.
Definition add_reset1 (acc : list stmt) (s : stmt) : list stmt :=
  match stmt_key s with
  | Some l => if in_dec lhs_eq_dec l (flat_map (fun s => match stmt_key s with Some l => [l] | None => [] end) acc)
              then acc else acc ++ [s]
  | None => acc
  end.
Definition fmake_reset (b : fsmb) (user_init : nat -> option Z) : list stmt :=
  let r l := match reset_of (fall_inits b user_init) l with Some s => [s] | None => [] end in
  fold_left add_reset1
    (r (LVar FState) ++ flat_map (fun d => r (LVar (DState (S d)))) (seq 0 (f_delay_amount b))
     ++ flat_map r (f_dst b) ++ make_reset (f_seq b) user_init) [].

(** [fsm/fsm.py:396-412] *)
Definition fmake_always (b : fsmb) (user_init : nat -> option Z) (rst : expr) (case : bool) : list stmt :=
  [SIf rst (fmake_reset b user_init) (if case then make_case b else make_if b)].
