(** The thread's state machine with Verilog's widths and signs: each expression is evaluated by
    Vx_Sem.v (IEEE 1364-2005 clauses 5.4 and 5.5) with [w]-bit signed variables
    ([thread/compiler.py:1132-1136]) and a 32-bit unsigned state register ([fsm/fsm.py:43-51]),
    instead of over the integers as in Vlog.v. *)
From Verif Require Import Base Bits Vlog Seq_Model Fsm_Model.
From Verif Require Vx_Model Vx_Sem.
Open Scope Z_scope.

Definition tu (u : unop) : Vx_Model.uop :=
  match u with Uminus => Vx_Model.UMinus | Ulnot => Vx_Model.ULnot | Unot => Vx_Model.UNot | Uplus => Vx_Model.UPlus end.
Definition tb (b : binop) : Vx_Model.bop :=
  match b with
  | Plus => Vx_Model.BPlus | Minus => Vx_Model.BMinus | Times => Vx_Model.BTimes | Divide => Vx_Model.BDivide
  | Mod => Vx_Model.BMod | Sll => Vx_Model.BSll | Srl => Vx_Model.BSrl | Sra => Vx_Model.BSra | Power => Vx_Model.BPower
  | LessThan => Vx_Model.BLt | GreaterThan => Vx_Model.BGt | LessEq => Vx_Model.BLe | GreaterEq => Vx_Model.BGe
  | Eq => Vx_Model.BEq | NotEq => Vx_Model.BNe | And => Vx_Model.BAnd | Or => Vx_Model.BOr | Xor => Vx_Model.BXor
  | Land => Vx_Model.BLand | Lor => Vx_Model.BLor
  end.
(** variable 0 is the state register, variable [S n] is [User n]; the thread compiler's expressions
    contain no other variables and no bit selects (these become undefined values here) *)
Fixpoint tx (e : expr) : Vx_Model.vx :=
  match e with
  | EInt z => Vx_Model.XPy z
  | EVar (User n) => Vx_Model.XVar (S n)
  | EVar FState => Vx_Model.XVar 0
  | EVar _ => Vx_Model.XX None
  | EUn u a => Vx_Model.XUn (tu u) (tx a)
  | EBin b l r => Vx_Model.XBin (tb b) (tx l) (tx r)
  | ECond c t f => Vx_Model.XCond (tx c) (tx t) (tx f)
  | EPtr _ _ => Vx_Model.XX None
  end.
Definition vdw (w : Z) (x : nat) : Z := match x with O => 32 | S _ => w end.
Definition vds (x : nat) : bool := match x with O => false | S _ => true end.
Definition venv_of (w : Z) (s : env) (j : Z) : Vx_Sem.venv :=
  Vx_Sem.mkEnv (vdw w) vds (fun x => match x with O => s FState | S n => s (User n) end) j.

(** width, sign and pattern of an expression; what it stores in a [w]-bit signed register; its truth *)
Definition bw (w : Z) (e : expr) : Z := Vx_Sem.swid (venv_of w (fun _ => 0) 0) (tx e).
Definition bs (w : Z) (e : expr) : bool := Vx_Sem.ssig (venv_of w (fun _ => 0) 0) (tx e).
Definition bev (w : Z) (s : env) (j : Z) (W : Z) (S : bool) (e : expr) : Z := Vx_Sem.ev (venv_of w s j) W S (tx e).
Definition btruth (w : Z) (s : env) (j : Z) (e : expr) : bool := Vx_Sem.truth (venv_of w s j) (tx e).
(** the number a register [v] holds after the assignment of [e] *)
Definition bassigned (w : Z) (s : env) (j : Z) (v : var) (e : expr) : Z :=
  match v with
  | User _ => value w true (Vx_Sem.assigned (venv_of w s j) w (tx e))
  | _ => value 32 false (Vx_Sem.assigned (venv_of w s j) 32 (tx e))
  end.

Section B.
  Variable w j : Z.
  Fixpoint bexec (old nxt : env) (s : stmt) {struct s} : env :=
    match s with
    | SSub (LVar v) e => vset nxt v (bassigned w old j v e)
    | SSub _ _ => nxt                                       (* not emitted by the thread compiler *)
    | SIf c t f => if btruth w old j c then fold_left (bexec old) t nxt else fold_left (bexec old) f nxt
    | SCase e ws =>
        (fix go (ws : list (Z * list stmt)) : env :=
           match ws with
           | [] => nxt
           | (k, b) :: r => if Vx_Sem.number (venv_of w old j) (tx e) =? k then fold_left (bexec old) b nxt else go r
           end) ws
    end.
  Definition bexecs (old nxt : env) (ss : list stmt) : env := fold_left (bexec old) ss nxt.
  Definition bstep (B : fsmb) (s : env) : env := bexecs s s (make_case B).
End B.
(** [k] clocks; [j n]: what undefined results (x, division by zero) evaluate to in clock [n] *)
Fixpoint brun (w : Z) (j : nat -> Z) (B : fsmb) (k : nat) (s : env) : env :=
  match k with O => s | S k => brun w (fun n => j (S n)) B k (bstep w (j O) B s) end.

(** [e] denotes the number [z]: a signed [p]-bit expression with the pattern of [z] in every wider
    context, [z] being inside the range of [p] bits (the smallest number excluded) *)
Definition dnum (w : Z) (s : env) (e : expr) (p z : Z) : Prop :=
  bs w e = true /\ bw w e = p /\ 1 <= p /\ - 2 ^ (p - 1) < z < 2 ^ (p - 1) /\
  forall j W, p <= W -> bev w s j W true e = z mod 2 ^ W.
(** [e] denotes the truth value [b] *)
Definition dboo (w : Z) (s : env) (e : expr) (b : bool) : Prop :=
  1 <= bw w e /\ forall j W S, 1 <= W -> bev w s j W S e = b2z b.

(** constant folding keeps widths, signs and values *)
Record folds_bits (w : Z) (opt : expr -> expr) : Prop := mkFB {
  fb_vars : forall e, incl (expr_vars (opt e)) (expr_vars e);
  fb_static : forall e, bs w e = true -> bs w (opt e) = true /\ bw w (opt e) = bw w e;
  fb_wide : forall e, 1 <= bw w e -> 1 <= bw w (opt e);
  fb_num : forall s e p z, dnum w s e p z -> dnum w s (opt e) p z;
  fb_boo : forall s e b, dboo w s e b -> dboo w s (opt e) b }.
