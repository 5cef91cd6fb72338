(** Model of the thread compiler: [thread/compiler.py] (class CompileVisitor) with the scopes of
    [thread/scope.py] and the operator tables of [thread/operator.py], emitting into the FSM
    builder of Fsm_Model.v.  A Python exception (or an unsupported construct) is [None].
    Simplifications:
    - integer values only (no fixed point, strings, methods, subscripts, attributes, print,
      intrinsics, for over a tuple, keyword and default arguments, closures, global names);
    - comparisons have two operands and and/or are binary (n-ary ones nest to the left);
    - [optimize] ([optimizer/optimizer.py:15-39], pyverilog's constant folding) is a parameter;
    - [start_frame] lookups fail: a name must have been assigned in the function;
    - the temporary made by visit_Return is not entered as a variable under its name tmp_N. *)
From Verif Require Import Base Vlog Seq_Model Fsm_Model Py_Spec.
Open Scope Z_scope.

(** What an expression visit returns: a Python number or a vtypes node. *)
Inductive cv := CInt (z : Z) | CE (e : expr).
Definition cve (v : cv) : expr := match v with CInt z => EInt z | CE e => e end.

(** [thread/scope.py:215-225,254-294] the unresolved lists of a frame *)
Record pend := mkPend { p_brk : list nat; p_cont : list nat; p_ret : list nat }.
Definition pend0 := mkPend [] [] [].
Definition papp (a b : pend) : pend :=
  mkPend (p_brk a ++ p_brk b) (p_cont a ++ p_cont b) (p_ret a ++ p_ret b).

(** Compiler state.  The frame tree of [thread/scope.py:20-53] is held as: [c_own], the lists of the
    current frame; [c_sub], those of its closed descendants in order; the frames above it on
    the Coq call stack.  [c_vars]/[c_ret] are the variables and return variable of the nearest
    'call' frame ([scope.py:55-90,123-131,172-180]).  [c_tmp] numbers the registers made. *)
Record cst := mkC {
  c_fsm : fsmb; c_tmp : nat;
  c_vars : list (name * nat); c_ret : option nat;
  c_own : pend; c_sub : pend }.
Definition w_fsm c x := mkC x (c_tmp c) (c_vars c) (c_ret c) (c_own c) (c_sub c).
Definition w_tmp c x := mkC (c_fsm c) x (c_vars c) (c_ret c) (c_own c) (c_sub c).
Definition w_vars c x := mkC (c_fsm c) (c_tmp c) x (c_ret c) (c_own c) (c_sub c).
Definition w_ret c x := mkC (c_fsm c) (c_tmp c) (c_vars c) x (c_own c) (c_sub c).
Definition w_own c x := mkC (c_fsm c) (c_tmp c) (c_vars c) (c_ret c) x (c_sub c).
Definition w_sub c x := mkC (c_fsm c) (c_tmp c) (c_vars c) (c_ret c) (c_own c) x.

Definition cur (c : cst) : nat := f_count (c_fsm c).                 (* getFsmCount [1266-1267] *)

(** [thread/compiler.py:1116-1118] *)
Definition skip (c : cst) : bool :=
  match c_own c with mkPend [] [] [] => false | _ => true end.

(** [thread/compiler.py:1251-1264] *)
Definition set_fsm (c : cst) (src dst : nat) (cond : option expr) (els : option nat) : cst :=
  w_fsm c (fop_goto_from (c_fsm c) src dst cond els).
Definition inc (c : cst) : cst := w_fsm c (set_index (c_fsm c) None).
Definition next (c : cst) : cst := inc (set_fsm c (cur c) (S (cur c)) None None).   (* setFsm(); incFsmCount() *)

(** [thread/scope.py:38-53]: pushScope and popScope around [f] *)
Definition scoped (c : cst) (f : cst -> option cst) : option cst :=
  match f (w_sub (w_own c pend0) pend0) with
  | Some c' => Some (w_sub (w_own c' (c_own c)) (papp (c_sub c) (papp (c_own c') (c_sub c'))))
  | None => None
  end.

(** [thread/scope.py:69-89] *)
Definition lookup (c : cst) (x : name) : option nat :=
  match find (fun p => Nat.eqb (fst p) x) (c_vars c) with Some p => Some (snd p) | None => None end.
(** [thread/compiler.py:1132-1136,1144-1163] makeVariable, getVariable(store=True) *)
Definition get_store (c : cst) (x : name) : cst * nat :=
  match lookup c x with
  | Some r => (c, r)
  | None => (w_tmp (w_vars c (c_vars c ++ [(x, c_tmp c)])) (S (c_tmp c)), c_tmp c)
  end.

(** [thread/operator.py:9-38] *)
Definition vop (o : pbin) : binop :=
  match o with
  | PAdd => Plus | PSub => Minus | PMul => Times | PFloorDiv => Divide | PMod => Mod | PPow => Power
  | PLsh => Sll | PRsh => Sra | PBitOr => Or | PBitXor => Xor | PBitAnd => And
  end.
Definition vcmp (o : pcmp) : binop :=
  match o with PEq => Eq | PNe => NotEq | PLt => LessThan | PLe => LessEq | PGt => GreaterThan | PGe => GreaterEq end.

(** [thread/operator.py:41-110] applyMethod, then the fall back to the vtypes operator: two Python
    numbers are combined by Python, except [//] (no [__div__]) and [>>] (no method). *)
Definition cbin (o : pbin) (l r : cv) : option expr :=
  match l, r with
  | CInt x, CInt y =>
      match o with
      | PFloorDiv | PRsh => Some (EBin (vop o) (EInt x) (EInt y))
      | PMod => if y =? 0 then None else Some (EInt (x mod y))
      | PLsh | PPow => if y <? 0 then None else Some (EInt (py_bin o x y))
      | _ => Some (EInt (py_bin o x y))
      end
  | _, _ => Some (EBin (vop o) (cve l) (cve r))
  end.
Definition ccmp (o : pcmp) (l r : cv) : cv :=
  match l, r with
  | CInt x, CInt y =>
      match o with
      | PLe => CE (EBin Lor (EInt (b2z (x <? y))) (EInt (b2z (x =? y))))
      | PGe => CE (EBin Lor (EInt (b2z (y <? x))) (EInt (b2z (x =? y))))
      | _ => CInt (b2z (py_cmp o x y))
      end
  | CInt x, CE y => CE (EBin (vcmp o) (EInt x) y)
  | CE x, _ =>
      match o with
      | PLe => CE (EBin Lor (EBin LessThan x (cve r)) (EBin Eq x (cve r)))
      | PGe => CE (EBin Lor (EBin GreaterThan x (cve r)) (EBin Eq x (cve r)))
      | _ => CE (EBin (vcmp o) x (cve r))
      end
  end.
Definition cun (u : pun) (v : cv) : expr :=
  match u, v with
  | PNot, _ => EUn Ulnot (cve v)
  | _, CInt x => EInt (py_un u x)
  | PNeg, CE e => EUn Uminus e
  | PPos, CE e => EUn Uplus e
  | PInv, CE e => EUn Unot e
  end.

Definition obind {A B} (m : option A) (f : A -> option B) : option B :=
  match m with Some a => f a | None => None end.
Notation "'let*' p := m 'in' f" := (obind m (fun p => f)) (at level 200, p pattern, right associativity).

Section Compile.
  Variable opt : expr -> expr.
  (** inlining of the call of a function with given argument values *)
  Variable call : cst -> name -> list cv -> option (cst * cv).

  (** [thread/compiler.py:1219-1248] setBind *)
  Definition set_bind (c : cst) (r : nat) (v : cv) : cst :=
    w_fsm c (fadd_statement (c_fsm c) [SSub (LVar (User r)) (opt (cve v))] kw_empty None).

  (** [thread/compiler.py:214-219,836-1002] expressions *)
  Fixpoint cexpr (c : cst) (e : pexpr) {struct e} : option (cst * cv) :=
    match e with
    | XInt z => Some (c, CInt z)                                         (* visit_Constant *)
    | XName x => match lookup c x with Some r => Some (c, CE (EVar (User r))) | None => None end
    | XUn u e => let* (c1, v) := cexpr c e in Some (c1, CE (opt (cun u v)))
    | XBin o a b =>
        let* (c1, x) := cexpr c a in let* (c2, y) := cexpr c1 b in
        let* e := cbin o x y in Some (c2, CE (opt e))
    | XCmp o a b =>
        let* (c1, x) := cexpr c a in let* (c2, y) := cexpr c1 b in Some (c2, ccmp o x y)
    | XAnd a b =>
        let* (c1, x) := cexpr c a in let* (c2, y) := cexpr c1 b in Some (c2, CE (opt (EBin Land (cve x) (cve y))))
    | XOr a b =>
        let* (c1, x) := cexpr c a in let* (c2, y) := cexpr c1 b in Some (c2, CE (opt (EBin Lor (cve x) (cve y))))
    | XIf t a b =>
        let* (c1, t) := cexpr c t in let* (c2, x) := cexpr c1 a in let* (c3, y) := cexpr c2 b in
        Some (c3, CE (ECond (cve t) (cve x) (cve y)))
    | XCall f es =>
        if skip c then None                                    (* a call in dead code yields None *)
        else let* (c1, vs) := cexprs c es in call c1 f vs
    end
  with cexprs (c : cst) (es : pexprs) {struct es} : option (cst * list cv) :=
    match es with
    | XNil => Some (c, [])
    | XCons e es => let* (c1, v) := cexpr c e in let* (c2, vs) := cexprs c1 es in Some (c2, v :: vs)
    end.

  (** [thread/compiler.py:157-183] _assign of one name *)
  Definition assign1 (c : cst) (x : name) (v : cv) : cst :=
    let '(c1, r) := get_store c x in set_bind c1 r v.
  Definition assigns (c : cst) (l : list (name * cv)) : cst :=
    fold_left (fun c p => assign1 c (fst p) (snd p)) l c.

  (** [thread/scope.py:142-204] getUnresolved*, clear* at the current frame *)
  Definition resolve (c : cst) (ls : list nat) (dst : nat) : cst :=
    fold_left (fun c b => set_fsm c b dst None None) ls c.
  Definition clear_bc (c : cst) : cst :=
    w_sub (w_own c (mkPend [] [] (p_ret (c_own c)))) (mkPend [] [] (p_ret (c_sub c))).
  Definition end_loop (c : cst) (brk_dst cont_dst : nat) : cst :=
    let c1 := resolve c (p_brk (c_own c) ++ p_brk (c_sub c)) brk_dst in
    let c2 := resolve c1 (p_cont (c_own c) ++ p_cont (c_sub c)) cont_dst in
    clear_bc c2.

  Definition no_block (b : pblock) : bool := match b with PNil => true | _ => false end.
  Definition copt (c : cst) (o : option pexpr) (default : Z) : option (cst * cv) :=
    match o with Some e => cexpr c e | None => Some (c, CE (EInt default)) end.

  Fixpoint cstmt (c : cst) (s : pstmt) {struct s} : option cst :=
    match s with
    | PAssign xs e =>                                                     (* [133-144] *)
        if skip c then Some c
        else let* (c1, v) := cexpr c e in Some (next (assigns c1 (map (fun x => (x, v)) xs)))
    | PTuple xs es =>
        if skip c then Some c
        else let* (c1, vs) := cexprs c es in
             if Nat.eqb (length xs) (length vs) && Nat.ltb 1 (length xs)
             then Some (next (assigns c1 (combine xs vs))) else None
    | PAug x o e =>                                                       (* [185-212] *)
        if skip c then Some c
        else let* (c1, v) := cexpr c e in
             let '(c2, r) := get_store c1 x in
             let* e := cbin o (CE (EVar (User r))) v in
             Some (next (set_bind c2 r (CE (opt e))))
    | PIf t a b =>                                                        (* [221-255] *)
        if skip c then Some c
        else
          let* (c1, v) := cexpr c t in
          let cur_count := cur c1 in
          let c2 := inc c1 in
          let true_count := cur c2 in
          let* c3 := scoped c2 (fun c => cblock c a) in
          let mid_count := cur c3 in
          if no_block b then Some (set_fsm c3 cur_count true_count (Some (cve v)) (Some mid_count))
          else
            let c4 := inc c3 in
            let false_count := cur c4 in
            let* c5 := scoped c4 (fun c => cblock c b) in
            let end_count := cur c5 in
            let c6 := set_fsm c5 cur_count true_count (Some (cve v)) (Some false_count) in
            Some (set_fsm c6 mid_count end_count None None)
    | PWhile t b =>                                                       (* [257-293] *)
        if skip c then Some c
        else
          let* (c1, v) := cexpr c t in
          let begin_count := cur c1 in
          let c2 := inc c1 in
          let body_begin := cur c2 in
          let* c3 := scoped c2 (fun c => cblock c b) in
          let body_end := cur c3 in
          let c4 := inc c3 in
          let loop_exit := cur c4 in
          let c5 := set_fsm c4 begin_count body_begin (Some (cve v)) (Some loop_exit) in
          let c6 := set_fsm c5 body_end begin_count None None in
          Some (end_loop c6 loop_exit begin_count)
    | PFor x beg en st b =>                                               (* [295-389] *)
        if skip c then Some c
        else
          let* (c1, vb) := copt c beg 0 in
          let* (c2, ve) := cexpr c1 en in
          let* (c3, vs) := copt c2 st 1 in
          let '(c4, r) := get_store c3 x in
          let cond := EBin LessThan (EVar (User r)) (cve ve) in
          let update := EBin Plus (EVar (User r)) (cve vs) in
          let check := S (cur c4) in
          let body_begin := S check in
          let* c5 := scoped c4 (fun c => cblock (inc (next (set_bind c r vb))) b) in
          let body_end := cur c5 in
          let c6 := inc (set_bind c5 r (CE update)) in
          let loop_exit := cur c6 in
          let c7 := set_fsm c6 body_end check None None in
          let c8 := set_fsm c7 check body_begin (Some cond) (Some loop_exit) in
          Some (end_loop c8 loop_exit body_end)
    | PExpr f es =>                                                       (* visit_Call [420-448] *)
        if skip c then Some c
        else let* (c1, vs) := cexprs c es in let* (c2, _) := call c1 f vs in Some c2
    | PPass => Some c
    | PBreak => Some (inc (w_own c (papp (c_own c) (mkPend [cur c] [] []))))       (* [804-810] *)
    | PContinue => Some (inc (w_own c (papp (c_own c) (mkPend [] [cur c] []))))
    | PReturn None => Some (inc (w_own c (papp (c_own c) (mkPend [] [] [cur c]))))  (* [812-834] *)
    | PReturn (Some e) =>
        let '(c0, r) := match c_ret c with
                        | Some r => (c, r)
                        | None => (w_ret (w_tmp c (S (c_tmp c))) (Some (c_tmp c)), c_tmp c)
                        end in
        let* (c1, v) := cexpr c0 e in
        let c2 := set_bind c1 r v in
        Some (inc (w_own c2 (papp (c_own c2) (mkPend [] [] [cur c2]))))
    end
  with cblock (c : cst) (b : pblock) {struct b} : option cst :=
    match b with
    | PNil => Some c
    | PCons s b => let* c1 := cstmt c s in cblock c1 b
    end.

  (** [thread/compiler.py:601-710] after the argument visits: a new 'call' frame, the bindings of the
      parameters, the body, the jumps of its returns. *)
  Definition inline (c : cst) (fn : func) (vs : list cv) : option (cst * cv * cst) :=
    let '(params, body) := fn in
    if negb (Nat.eqb (length params) (length vs)) then None else
    let c1 := next (assigns (mkC (c_fsm c) (c_tmp c) [] None pend0 pend0)
                            (combine params (map (fun v => CE (opt (cve v))) vs))) in
    let* c2 := cblock c1 body in
    let v := match c_ret c2 with Some r => CE (EVar (User r)) | None => CE (EInt 0) end in
    let c3 := resolve c2 (p_ret (c_own c2) ++ p_ret (c_sub c2)) (cur c2) in
    Some (mkC (c_fsm c3) (c_tmp c3) (c_vars c) (c_ret c) (c_own c) (c_sub c), v, c2).
End Compile.

(** Calls are inlined; [d] bounds the nesting depth (a recursive function makes the Python
    visitor recurse forever). *)
Fixpoint ccall (opt : expr -> expr) (fns : name -> option func) (d : nat) (c : cst) (f : name) (vs : list cv)
  : option (cst * cv) :=
  match d with
  | O => None
  | S d =>
      match fns f with
      | None => None
      | Some fn => let* (c1, v, _) := inline opt (ccall opt fns d) c fn vs in Some (c1, v)
      end
  end.

(** [thread/thread.py:218-270] Thread._synthesize_start_fsm and the visit of the thread's target
    function: its body is inlined with the start arguments.  Result: the machine, its end state,
    the registers of the target's variables, its return value. *)
Definition cst0 : cst := mkC fsm_new 0 [] None pend0 pend0.
Record compiled := mkCompiled { m_fsm : fsmb; m_end : nat; m_reg : name -> option nat; m_val : cv }.
Definition compile (opt : expr -> expr) (fns : name -> option func) (d : nat) (main : name) (args : list Z)
  : option compiled :=
  match d, fns main with
  | S d, Some fn =>
      let* (c1, v, c2) := inline opt (ccall opt fns d) cst0 fn (map CInt args) in
      Some (mkCompiled (c_fsm c1) (cur c1) (lookup c2) v)
  | _, _ => None
  end.
