(** Model of [seq/seq.py] (class Seq), [seq/reset_visitor.py] and [seq/subst_visitor.py].
    A Python exception is [None]. *)
From Verif Require Import Base Vlog.
Open Scope Z_scope.

Definition expr_eq_dec (a b : expr) : {a = b} + {a <> b}.
Proof.
  decide equality; try apply Z.eq_dec; try apply var_eq_dec; decide equality.
Defined.
Definition lhs_eq_dec (a b : lhs) : {a = b} + {a <> b}.
Proof. decide equality; try apply Z.eq_dec; try apply var_eq_dec; apply expr_eq_dec. Defined.

(** Conditional statements that may still grow by Elif/Else: the object [vtypes.If] whose
    [next_call] chain is walked by [If.Else]/[If.Elif] [core/vtypes.py:1993-2015].
    [IIf branches els]: root first; the tail is the object [next_call] leads to. *)
Inductive item := IPlain (s : stmt) | IIf (branches : list (expr * list stmt)) (els : option (list stmt)).

Definition opt_list {A} (o : option (list A)) : list A := match o with Some l => l | None => [] end.
Fixpoint chain_stmts (br : list (expr * list stmt)) (els : option (list stmt)) : list stmt :=
  match br with
  | [] => opt_list els
  | (c, ss) :: r => [SIf c ss (chain_stmts r els)]
  end.
(** The statement(s) an item is in the emitted always block. *)
Definition item_stmts (i : item) : list stmt :=
  match i with IPlain s => [s] | IIf br els => chain_stmts br els end.

(** [next_kwargs] / [last_kwargs] *)
Record kw := mkKw { kw_cond : option expr; kw_delay : option nat; kw_keep : option nat;
                    kw_lazy : option bool; kw_eager : option bool }.
Definition kw_empty : kw := mkKw None None None None None.
Definition set_cond (k : kw) (c : expr) : kw := mkKw (Some c) (kw_delay k) (kw_keep k) (kw_lazy k) (kw_eager k).
(** [seq/seq.py:109-111] *)
Definition has_args (k : kw) : bool :=
  match kw_delay k, kw_keep k, kw_lazy k, kw_eager k with
  | None, None, None, None => false
  | _, _, _, _ => true
  end.

(** The builder state [seq/seq.py:72-98].  [s_delayed] lists (delay, statement) in insertion order;
    [s_prev] is [prev_dict]; [s_inits] the initvals of registers the builder creates;
    [s_mod_tmp] the module's temporary counter. *)
Record seqb := mkSeq {
  s_body : list item;
  s_delayed : list (nat * stmt);
  s_prev : list ((nat * nat) * expr);
  s_tmp : nat;
  s_mod_tmp : nat;
  s_dst : list lhs;
  s_inits : list (var * Z);
  s_last_cond : list expr;
  s_last_kw : kw;
  s_last_if : option nat;
  s_next_else : bool;
  s_elif : option expr;
  s_next : kw }.

Definition seq_new : seqb := mkSeq [] [] [] 0 0 [] [] [] kw_empty None false None kw_empty.

Definition w_body b x := mkSeq x (s_delayed b) (s_prev b) (s_tmp b) (s_mod_tmp b) (s_dst b) (s_inits b) (s_last_cond b) (s_last_kw b) (s_last_if b) (s_next_else b) (s_elif b) (s_next b).
Definition w_delayed b x := mkSeq (s_body b) x (s_prev b) (s_tmp b) (s_mod_tmp b) (s_dst b) (s_inits b) (s_last_cond b) (s_last_kw b) (s_last_if b) (s_next_else b) (s_elif b) (s_next b).
Definition w_prev b x := mkSeq (s_body b) (s_delayed b) x (s_tmp b) (s_mod_tmp b) (s_dst b) (s_inits b) (s_last_cond b) (s_last_kw b) (s_last_if b) (s_next_else b) (s_elif b) (s_next b).
Definition w_tmp b x := mkSeq (s_body b) (s_delayed b) (s_prev b) x (s_mod_tmp b) (s_dst b) (s_inits b) (s_last_cond b) (s_last_kw b) (s_last_if b) (s_next_else b) (s_elif b) (s_next b).
Definition w_mod_tmp b x := mkSeq (s_body b) (s_delayed b) (s_prev b) (s_tmp b) x (s_dst b) (s_inits b) (s_last_cond b) (s_last_kw b) (s_last_if b) (s_next_else b) (s_elif b) (s_next b).
Definition w_dst b x := mkSeq (s_body b) (s_delayed b) (s_prev b) (s_tmp b) (s_mod_tmp b) x (s_inits b) (s_last_cond b) (s_last_kw b) (s_last_if b) (s_next_else b) (s_elif b) (s_next b).
Definition w_inits b x := mkSeq (s_body b) (s_delayed b) (s_prev b) (s_tmp b) (s_mod_tmp b) (s_dst b) x (s_last_cond b) (s_last_kw b) (s_last_if b) (s_next_else b) (s_elif b) (s_next b).
Definition w_last_cond b x := mkSeq (s_body b) (s_delayed b) (s_prev b) (s_tmp b) (s_mod_tmp b) (s_dst b) (s_inits b) x (s_last_kw b) (s_last_if b) (s_next_else b) (s_elif b) (s_next b).
Definition w_last_kw b x := mkSeq (s_body b) (s_delayed b) (s_prev b) (s_tmp b) (s_mod_tmp b) (s_dst b) (s_inits b) (s_last_cond b) x (s_last_if b) (s_next_else b) (s_elif b) (s_next b).
Definition w_last_if b x := mkSeq (s_body b) (s_delayed b) (s_prev b) (s_tmp b) (s_mod_tmp b) (s_dst b) (s_inits b) (s_last_cond b) (s_last_kw b) x (s_next_else b) (s_elif b) (s_next b).
Definition w_next_else b x := mkSeq (s_body b) (s_delayed b) (s_prev b) (s_tmp b) (s_mod_tmp b) (s_dst b) (s_inits b) (s_last_cond b) (s_last_kw b) (s_last_if b) x (s_elif b) (s_next b).
Definition w_elif b x := mkSeq (s_body b) (s_delayed b) (s_prev b) (s_tmp b) (s_mod_tmp b) (s_dst b) (s_inits b) (s_last_cond b) (s_last_kw b) (s_last_if b) (s_next_else b) x (s_next b).
Definition w_next b x := mkSeq (s_body b) (s_delayed b) (s_prev b) (s_tmp b) (s_mod_tmp b) (s_dst b) (s_inits b) (s_last_cond b) (s_last_kw b) (s_last_if b) (s_next_else b) (s_elif b) x.

(** [core/vtypes.py:1537-1545] Ands *)
Definition ands (a b : expr) : expr := EBin Land a b.
(** [core/vtypes.py:1533] Not *)
Definition enot (a : expr) : expr := EUn Ulnot a.

(** [seq/seq.py:30-51] make_condition on a flat list of conditions without None entries. *)
Definition make_condition (cs : list expr) : option expr :=
  match cs with [] => None | c :: r => Some (fold_left ands r c) end.
(** [seq/seq.py:730-737] *)
Definition make_cond := make_condition.

(** [seq/subst_visitor.py:14-79] destinations of a statement (SubstDstVisitor). *)
Fixpoint dsts (s : stmt) : list lhs :=
  match s with
  | SSub l _ => [l]
  | SIf _ t f => flat_map dsts t ++ flat_map dsts f
  | SCase _ ws => flat_map (fun w => flat_map dsts (snd w)) ws
  end.

(** [seq/seq.py:671-677] *)
Definition add_dst1 (ds : list lhs) (l : lhs) : list lhs :=
  if in_dec lhs_eq_dec l ds then ds else ds ++ [l].
Definition add_dst (b : seqb) (ss : list stmt) : seqb :=
  w_dst b (fold_left add_dst1 (flat_map dsts ss) (s_dst b)).

(** [seq/seq.py:658-659,667-668] append plain statements to the body or to a delayed body. *)
Definition push_plain (b : seqb) (d : nat) (ss : list stmt) : seqb :=
  let b1 := match d with
            | O => w_body b (s_body b ++ map IPlain ss)
            | S _ => w_delayed b (s_delayed b ++ map (fun s => (d, s)) ss)
            end in
  add_dst b1 ss.

(** [seq/seq.py:680-689] the delay chain of a condition; the registers have initval 0. *)
Fixpoint cond_chain (k : nat) (n i : nat) (prev : expr) (b : seqb) : seqb * expr :=
  match n with
  | O => (b, prev)
  | S n' =>
      let r := CondR k (S i) in
      let b1 := push_plain b i [SSub (LVar r) prev] in
      cond_chain k n' (S i) (EVar r) (w_inits b1 (s_inits b1 ++ [(r, 0)]))
  end.
Definition add_delayed_cond (b : seqb) (c : expr) (delay : nat) : seqb * expr :=
  cond_chain (s_tmp b) delay 0 c (w_tmp b (S (s_tmp b))).

(** [seq/seq.py:692-714] the delay chain of a value.  [is_const]: int literals, for which the
    statement is returned unchanged (697-699). *)
Definition is_const (e : expr) : bool := match e with EInt _ => true | _ => false end.
Definition sbst_reg (l : lhs) (k i : nat) : var :=
  match l with
  | LVar (User n) => SbstR n k i
  | LVar _ => SbstG 32 k i                     (* not reached for user statements *)
  | LBit _ _ => SbstG 1 k i
  | LSlice _ m l => SbstG (Z.to_nat (m - l + 1)) k i
  end.
Fixpoint val_chain (l : lhs) (k n i : nat) (prev : expr) (b : seqb) : seqb * expr :=
  match n with
  | O => (b, prev)
  | S n' =>
      let r := sbst_reg l k (S i) in
      let b1 := push_plain b i [SSub (LVar r) prev] in
      val_chain l k n' (S i) (EVar r) (w_inits b1 (s_inits b1 ++ [(r, 0)]))
  end.
Definition add_delayed_subst (b : seqb) (s : stmt) (delay : nat) : seqb * stmt :=
  match s with
  | SSub l e =>
      if is_const e then (b, s)
      else let '(b', e') := val_chain l (s_tmp b) delay 0 e (w_tmp b (S (s_tmp b))) in (b', SSub l e')
  | _ => (b, s)
  end.
Fixpoint add_delayed_substs (b : seqb) (ss : list stmt) (delay : nat) : seqb * list stmt :=
  match ss with
  | [] => (b, [])
  | s :: r => let '(b1, s') := add_delayed_subst b s delay in
              let '(b2, r') := add_delayed_substs b1 r delay in (b2, s' :: r')
  end.

(** [seq/seq.py:621-669] with [keep=None]; [lazy]/[eager] as booleans, [no_delay_cond=False]. *)
Definition add_statement1 (b : seqb) (ss : list stmt) (delay : nat) (cond : option expr)
                          (lazy eager : bool) : seqb :=
  match delay with
  | S _ =>
      let '(b1, ss1) := if eager then add_delayed_substs b ss delay else (b, ss) in
      let c0 := match cond with None => EInt 1 | Some c => c end in
      let '(b2, c1) :=
        if lazy then
          let '(b2, t) := add_delayed_cond b1 (EInt 1) delay in
          (b2, match c0 with EInt 1 => t | _ => ands t c0 end)
        else add_delayed_cond b1 c0 delay in
      push_plain b2 delay [SIf c1 ss1 []]
  | O =>
      match cond with
      | None => push_plain b 0 ss
      | Some c =>
          let b1 := w_last_if b (Some (length (s_body b))) in
          add_dst (w_body b1 (s_body b1 ++ [IIf [(c, ss)] None])) ss
      end
  end.

(** [seq/seq.py:626-633] keep: the same statement for [keep] consecutive delays. *)
Definition add_statement (b : seqb) (ss : list stmt) (k : kw) : seqb :=
  let d := match kw_delay k with Some d => d | None => O end in
  let lz := match kw_lazy k with Some x => x | None => false end in
  let eg := match kw_eager k with Some x => x | None => false end in
  match kw_keep k with
  | None => add_statement1 b ss d (kw_cond k) lz eg
  | Some n => fold_left (fun b i => add_statement1 b ss (d + i) (kw_cond k) lz eg) (seq 0 n) b
  end.

(** [core/vtypes.py:1993-2005] adding to the If object the last conditional statement made. *)
Fixpoint update_nth {A} (n : nat) (f : A -> option A) (l : list A) : option (list A) :=
  match l, n with
  | [], _ => None
  | x :: r, O => match f x with Some y => Some (y :: r) | None => None end
  | x :: r, S n' => match update_nth n' f r with Some r' => Some (x :: r') | None => None end
  end.
Definition item_elif (c : expr) (ss : list stmt) (i : item) : option item :=
  match i with IIf br None => Some (IIf (br ++ [(c, ss)]) None) | _ => None end.
Definition item_else (ss : list stmt) (i : item) : option item :=
  match i with IIf br None => Some (IIf br (Some ss)) | _ => None end.

(** [seq/seq.py:103-130] Seq.add / Seq.__call__ without explicit keyword arguments. *)
Definition op_call (b0 : seqb) (ss : list stmt) : option seqb :=
  let k := s_next b0 in
  let b := w_next (w_last_kw b0 k) kw_empty in
  match s_elif b, has_args k with
  | Some ec, false =>
      match s_last_if b with
      | None => None
      | Some idx =>
          match update_nth idx (item_elif ec ss) (s_body b) with
          | None => None
          | Some body => Some (w_elif (add_dst (w_body b body) ss) None)
          end
      end
  | _, ha =>
      if s_next_else b && negb ha then
        match s_last_if b with
        | None => None
        | Some idx =>
            match update_nth idx (item_else ss) (s_body b) with
            | None => None
            | Some body =>
                Some (w_elif (w_next_else (w_last_if (add_dst (w_body b body) ss) None) false) None)
            end
        end
      else Some (add_statement (w_next_else (w_last_if b None) false) ss k)
  end.

(** [seq/seq.py:196-212] *)
Definition op_if (b0 : seqb) (cs : list expr) : seqb :=
  let b := w_elif b0 None in
  match make_condition cs with
  | None => b
  | Some c =>
      let c' := match kw_cond (s_next b) with None => c | Some c0 => ands c0 c end in
      w_last_cond (w_next b (set_cond (s_next b) c')) [c']
  end.

(** [seq/seq.py:270-274] *)
Definition op_then (b : seqb) : seqb :=
  match make_cond (s_last_cond b) with
  | None => op_if (w_last_cond b []) []
  | Some c => op_if (w_last_cond b []) [c]
  end.

Definition delayed_last (b : seqb) : bool :=
  match kw_delay (s_last_kw b) with Some (S _) => true | _ => false end.

(** [old = last_cond.pop(); last_cond.append(Not(old))] *)
Definition negate_last (l : list expr) : option (list expr) :=
  match rev l with [] => None | x :: r => Some (rev r ++ [enot x]) end.

(** [seq/seq.py:215-240] *)
Definition op_else (b0 : seqb) : option seqb :=
  let b := w_elif b0 None in
  match negate_last (s_last_cond b) with
  | None => None
  | Some lc =>
      let b1 := w_last_cond b lc in
      if delayed_last b1 then Some (w_last_cond (op_then b1) lc)
      else match s_last_if b1 with
           | None => None
           | Some _ =>
               match make_cond lc with
               | None => None
               | Some c => Some (w_next (w_next_else b1 true) (set_cond (s_next b1) c))
               end
           end
  end.

(** [seq/seq.py:242-268]; a None condition is an error here (simplification). *)
Definition op_elif (b0 : seqb) (cs : list expr) : option seqb :=
  match negate_last (s_last_cond b0), make_condition cs with
  | Some lc0, Some c =>
      let lc := lc0 ++ [c] in
      let b1 := w_last_cond b0 lc in
      if delayed_last b1 then Some (w_last_cond (op_then b1) lc)
      else match s_last_if b1 with
           | None => None
           | Some _ =>
               match make_cond lc with
               | None => None
               | Some cc => let b2 := w_elif b1 (Some c) in Some (w_next b2 (set_cond (s_next b2) cc))
               end
           end
  | _, _ => None
  end.

(** [seq/seq.py:276-290] *)
Definition op_delay (b : seqb) (d : nat) : seqb :=
  let k := s_next b in w_next b (mkKw (kw_cond k) (Some d) (kw_keep k) (kw_lazy k) (kw_eager k)).
Definition op_keep (b : seqb) (n : nat) : seqb :=
  let k := s_next b in w_next b (mkKw (kw_cond k) (kw_delay k) (Some n) (kw_lazy k) (kw_eager k)).
Definition op_lazy (b : seqb) : seqb :=
  let k := s_next b in w_next b (mkKw (kw_cond k) (kw_delay k) (kw_keep k) (Some true) (kw_eager k)).
Definition op_eager (b : seqb) : seqb :=
  let k := s_next b in w_next b (mkKw (kw_cond k) (kw_delay k) (kw_keep k) (kw_lazy k) (Some true)).

(** [seq/seq.py:139-193] Prev of the user variable [User n]: an unconditional chain uses named,
    cached registers; a conditional one fresh temporaries.  Returns the delayed signal. *)
Definition prev_lookup (b : seqb) (n i : nat) : option expr :=
  match find (fun p => Nat.eqb (fst (fst p)) n && Nat.eqb (snd (fst p)) i) (s_prev b) with
  | Some p => Some (snd p)
  | None => None
  end.
(** 182-191, cond is None *)
Fixpoint prev_chain (n len i : nat) (initval : Z) (p : expr) (b : seqb) : seqb * expr :=
  match len with
  | O => (b, p)
  | S len' =>
      match prev_lookup b n (S i) with
      | Some q => prev_chain n len' (S i) initval q b
      | None =>
          let r := PrevR n (S i) in
          let b1 := w_prev b (s_prev b ++ [((n, S i), EVar r)]) in
          let b2 := push_plain b1 0 [SSub (LVar r) p] in
          prev_chain n len' (S i) initval (EVar r) (w_inits b2 (s_inits b2 ++ [(r, initval)]))
      end
  end.
(** 177-180, with a condition: [_add_statement([tmp(p)], cond=cond)] *)
Fixpoint prev_cond_chain (c : expr) (len : nat) (initval : Z) (p : expr) (b : seqb) : seqb * expr :=
  match len with
  | O => (b, p)
  | S len' =>
      let r := TmpR (s_mod_tmp b) in
      let b1 := w_mod_tmp b (S (s_mod_tmp b)) in
      let b2 := add_statement1 b1 [SSub (LVar r) p] 0 (Some c) false false in
      prev_cond_chain c len' initval (EVar r) (w_inits b2 (s_inits b2 ++ [(r, initval)]))
  end.
Definition op_prev (b : seqb) (n delay : nat) (initval : Z) (cond : option expr) : seqb * expr :=
  match delay with
  | O => (b, EVar (User n))                                                    (* 144-145 *)
  | S _ =>
      match prev_lookup b n delay with
      | Some q => (b, q)                                                       (* 170-172 *)
      | None =>
          match cond with
          | None => prev_chain n delay 0 initval (EVar (User n)) b
          | Some c => prev_cond_chain c delay initval (EVar (User n)) b
          end
      end
  end.

(** Calls a user makes on a Seq, in program order. *)
Inductive op :=
| OIf (cs : list expr) | OElse | OElif (cs : list expr)
| ODelay (d : nat) | OKeep (n : nat) | OLazy | OEager
| OCall (ss : list stmt)
| OPrev (n delay : nat) (initval : Z) (cond : option expr).

Definition do_op (b : seqb) (o : op) : option seqb :=
  match o with
  | OIf cs => Some (op_if b cs)
  | OElse => op_else b
  | OElif cs => op_elif b cs
  | ODelay d => Some (op_delay b d)
  | OKeep n => Some (op_keep b n)
  | OLazy => Some (op_lazy b)
  | OEager => Some (op_eager b)
  | OCall ss => op_call b ss
  | OPrev n d i c => Some (fst (op_prev b n d i c))
  end.
Fixpoint do_ops (b : seqb) (os : list op) : option seqb :=
  match os with
  | [] => Some b
  | o :: r => match do_op b o with Some b' => do_ops b' r | None => None end
  end.

(** [seq/seq.py:601-609] make_code: delayed bodies by descending delay, then the body. *)
Definition max_delay (l : list (nat * stmt)) : nat := fold_right (fun p m => Nat.max (fst p) m) O l.
Definition delayed_at (l : list (nat * stmt)) (d : nat) : list stmt :=
  map snd (filter (fun p => Nat.eqb (fst p) d) l).
Definition make_code (b : seqb) : list stmt :=
  flat_map (delayed_at (s_delayed b)) (rev (seq 1 (max_delay (s_delayed b))))
  ++ flat_map item_stmts (s_body b).

(** [seq/reset_visitor.py:24-56]; [initval] gives the declared initval of each register. *)
Definition reset_of (initval : var -> option Z) (l : lhs) : option stmt :=
  match initval (lhs_var l) with
  | None => None
  | Some iv =>
      Some match l with
           | LVar v => SSub (LVar v) (EInt iv)
           | LBit v p => SSub (LBit v p) (EBin And (EBin Srl (EInt iv) p) (EInt 1))
           | LSlice v m l => SSub (LSlice v m l)
                               (EBin And (EBin Srl (EInt iv) (EInt l)) (EInt (2 ^ (m - l + 1) - 1)))
           end
  end.
(** [seq/seq.py:612-618]; user registers have their own initvals, created ones those recorded. *)
Definition all_inits (b : seqb) (user_init : nat -> option Z) (v : var) : option Z :=
  match v with
  | User n => user_init n
  | _ => match find (fun p => veqb (fst p) v) (s_inits b) with Some p => Some (snd p) | None => None end
  end.
Definition opt_cons {A} (o : option A) (l : list A) : list A := match o with Some x => x :: l | None => l end.
Definition make_reset (b : seqb) (user_init : nat -> option Z) : list stmt :=
  fold_right (fun l acc => opt_cons (reset_of (all_inits b user_init) l) acc) [] (s_dst b).

(** [seq/seq.py:371-393] make_always with a reset signal. *)
Definition make_always (b : seqb) (user_init : nat -> option Z) (rst : expr) : list stmt :=
  match make_reset b user_init with
  | [] => make_code b
  | r => [SIf rst r (make_code b)]
  end.
