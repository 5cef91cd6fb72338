(** A small synchronous Verilog: expressions, conditional / case statements with non-blocking
    assignment, one clocked block.  This is the target language of Seq, FSM and the thread
    compiler (the statements of [core/vtypes.py]: Subst, If, Case/When, Pointer, Slice).

    Simplifications: values are unbounded integers inside an expression and are cut to the
    destination register's width when assigned ([fit]); Verilog's context-determined
    intermediate widths are not modelled here, except that a logical right shift of a negative
    value takes its 32-bit pattern;
    x/z values are not modelled. *)
From Verif Require Import Base.
Open Scope Z_scope.

(** Signals.  User-declared ones are numbered; registers invented by the library carry the
    indices that the library puts in their names, so distinct indices are distinct registers. *)
Inductive var :=
| User (n : nat)
| CondR (k i : nat)        (* _<seq>_cond_<k>_<i>     seq/seq.py:680-689 *)
| SbstR (n k i : nat)      (* _<left>_<k>_<i>          seq/seq.py:692-714 *)
| SbstG (w k i : nat)      (* _<seq>_sbst_<k>_<i>, w bits *)
| PrevR (n i : nat)        (* __<var>_<i>              seq/seq.py:182-191 *)
| TmpR (k : nat)           (* module-level temporary registers *)
| FCondR (k i : nat)       (* _<fsm>_cond_<index>_<k>_<i>   fsm/fsm.py:836-848 *)
| FSbstR (n k i : nat)     (* _<left>_<index>_<k>_<i>       fsm/fsm.py:851-875 *)
| FSbstG (w k i : nat)     (* _<fsm>_sbst_<index>_<k>_<i>, w bits *)
| FState                   (* the state register of an FSM *)
| DState (d : nat).        (* _d<d>_<fsm>              fsm/fsm.py:943-948 *)

Definition var_eq_dec (a b : var) : {a = b} + {a <> b}.
Proof. decide equality; apply Nat.eq_dec. Defined.
Definition veqb (a b : var) : bool := if var_eq_dec a b then true else false.

Lemma veqb_refl a : veqb a a = true.
Proof. unfold veqb. destruct (var_eq_dec a a); congruence. Qed.
Lemma veqb_true a b : veqb a b = true -> a = b.
Proof. unfold veqb. destruct (var_eq_dec a b); congruence. Qed.
Lemma veqb_false a b : veqb a b = false -> a <> b.
Proof. unfold veqb. destruct (var_eq_dec a b); congruence. Qed.
Lemma veqb_neq a b : a <> b -> veqb a b = false.
Proof. unfold veqb. destruct (var_eq_dec a b); congruence. Qed.

Definition env := var -> Z.
Definition vset (e : env) (v : var) (x : Z) : env := fun u => if veqb u v then x else e u.

Inductive unop := Uminus | Ulnot | Unot | Uplus.
Inductive binop :=
| Plus | Minus | Times | Divide | Mod | Sll | Srl | Sra | Power
| LessThan | GreaterThan | LessEq | GreaterEq | Eq | NotEq
| And | Or | Xor | Land | Lor.

Inductive expr :=
| EInt (z : Z)
| EVar (v : var)
| EUn (u : unop) (e : expr)
| EBin (b : binop) (l r : expr)
| ECond (c t f : expr)
| EPtr (v : expr) (pos : expr).

Definition truth (z : Z) : bool := negb (z =? 0).

Definition sem_un (u : unop) (x : Z) : Z :=
  match u with Uminus => - x | Ulnot => b2z (negb (truth x)) | Unot => Z.lnot x | Uplus => x end.
Definition sem_bin (b : binop) (x y : Z) : Z :=
  match b with
  | Plus => x + y | Minus => x - y | Times => x * y
  | Divide => Z.quot x y | Mod => Z.rem x y
  | Sll => Z.shiftl x y | Srl => Z.shiftr (if x <? 0 then x mod 2 ^ 32 else x) y | Sra => Z.shiftr x y | Power => x ^ y
  | LessThan => b2z (x <? y) | GreaterThan => b2z (y <? x)
  | LessEq => b2z (x <=? y) | GreaterEq => b2z (y <=? x)
  | Eq => b2z (x =? y) | NotEq => b2z (negb (x =? y))
  | And => Z.land x y | Or => Z.lor x y | Xor => Z.lxor x y
  | Land => b2z (truth x && truth y) | Lor => b2z (truth x || truth y)
  end.

Fixpoint eval (e : env) (x : expr) : Z :=
  match x with
  | EInt z => z
  | EVar v => e v
  | EUn u a => sem_un u (eval e a)
  | EBin b l r => sem_bin b (eval e l) (eval e r)
  | ECond c t f => if truth (eval e c) then eval e t else eval e f
  | EPtr v p => b2z (Z.testbit (eval e v) (eval e p))
  end.

(** Assignment targets: a whole register, one bit (possibly at a computed index), a slice. *)
Inductive lhs :=
| LVar (v : var)
| LBit (v : var) (pos : expr)
| LSlice (v : var) (msb lsb : Z).

Definition lhs_var (l : lhs) : var := match l with LVar v | LBit v _ | LSlice v _ _ => v end.

Inductive stmt :=
| SSub (l : lhs) (e : expr)
| SIf (c : expr) (t f : list stmt)
| SCase (e : expr) (whens : list (Z * list stmt)).

(** Replace bits [lsb, lsb+w) of [x] by the low [w] bits of [y]. *)
Definition put_bits (x lsb w y : Z) : Z :=
  x - Z.shiftl (Z.shiftr x lsb mod 2 ^ w) lsb + Z.shiftl (y mod 2 ^ w) lsb.

Section Exec.
  (** [fit v x]: the value register [v] holds after being assigned [x] (width, sign). *)
  Variable fit : var -> Z -> Z.

  Definition assign (l : lhs) (x : Z) (old nxt : env) : env :=
    match l with
    | LVar v => vset nxt v (fit v x)
    | LBit v p => vset nxt v (fit v (put_bits (nxt v) (eval old p) 1 x))
    | LSlice v msb lsb => vset nxt v (fit v (put_bits (nxt v) lsb (msb - lsb + 1) x))
    end.

  (** Non-blocking semantics: every right-hand side, condition and index reads [old];
      the effects accumulate in [nxt]; the last assignment wins. *)
  Fixpoint exec (old : env) (nxt : env) (s : stmt) {struct s} : env :=
    match s with
    | SSub l e => assign l (eval old e) old nxt
    | SIf c t f => if truth (eval old c) then fold_left (exec old) t nxt
                   else fold_left (exec old) f nxt
    | SCase e ws =>
        (fix go (ws : list (Z * list stmt)) : env :=
           match ws with
           | [] => nxt
           | (k, b) :: r => if eval old e =? k then fold_left (exec old) b nxt else go r
           end) ws
    end.

  Definition execs (old : env) (nxt : env) (ss : list stmt) : env := fold_left (exec old) ss nxt.

  (** One clock edge of an always block. *)
  Definition tick (code : list stmt) (s : env) : env := execs s s code.
End Exec.

(** ** Basic lemmas *)
Fixpoint expr_vars (x : expr) : list var :=
  match x with
  | EInt _ => []
  | EVar v => [v]
  | EUn _ a => expr_vars a
  | EBin _ l r => expr_vars l ++ expr_vars r
  | ECond c t f => expr_vars c ++ expr_vars t ++ expr_vars f
  | EPtr v p => expr_vars v ++ expr_vars p
  end.

Lemma eval_ext e1 e2 x : (forall v, In v (expr_vars x) -> e1 v = e2 v) -> eval e1 x = eval e2 x.
Proof.
  induction x; cbn [eval expr_vars]; intros H.
  - reflexivity.
  - apply H. left; reflexivity.
  - rewrite IHx; auto.
  - rewrite IHx1, IHx2; auto; intros v Hv; apply H, in_or_app; auto.
  - rewrite IHx1, IHx2, IHx3; auto; intros v Hv; apply H; rewrite !in_app_iff; auto.
  - rewrite IHx1, IHx2; auto; intros v Hv; apply H, in_or_app; auto.
Qed.

Lemma vset_same e v x : vset e v x v = x.
Proof. unfold vset. rewrite veqb_refl. reflexivity. Qed.
Lemma vset_other e v x u : u <> v -> vset e v x u = e u.
Proof. intros H. unfold vset. rewrite veqb_neq by exact H. reflexivity. Qed.

Section StmtInd.
  Variable P : stmt -> Prop.
  Hypothesis HSub : forall l e, P (SSub l e).
  Hypothesis HIf : forall c t f, Forall P t -> Forall P f -> P (SIf c t f).
  Hypothesis HCase : forall e ws, Forall (fun w => Forall P (snd w)) ws -> P (SCase e ws).
  Fixpoint stmt_ind' (s : stmt) : P s :=
    let fl := fix fl (ss : list stmt) : Forall P ss :=
      match ss with [] => Forall_nil _ | x :: r => Forall_cons x (stmt_ind' x) (fl r) end in
    match s with
    | SSub l e => HSub l e
    | SIf c t f => HIf c t f (fl t) (fl f)
    | SCase e ws => HCase e ws
        ((fix fw (ws : list (Z * list stmt)) : Forall (fun w => Forall P (snd w)) ws :=
           match ws with [] => Forall_nil _ | (k, b) :: r => Forall_cons (k, b) (fl b) (fw r) end) ws)
    end.
End StmtInd.

(** The registers a statement may assign, and the signals it reads. *)
Fixpoint writes (s : stmt) : list var :=
  match s with
  | SSub l _ => [lhs_var l]
  | SIf _ t f => flat_map writes t ++ flat_map writes f
  | SCase _ ws => flat_map (fun w => flat_map writes (snd w)) ws
  end.
Definition lhs_reads (l : lhs) : list var := match l with LBit _ p => expr_vars p | _ => [] end.
Fixpoint reads (s : stmt) : list var :=
  match s with
  | SSub l e => lhs_reads l ++ expr_vars e
  | SIf c t f => expr_vars c ++ flat_map reads t ++ flat_map reads f
  | SCase e ws => expr_vars e ++ flat_map (fun w => flat_map reads (snd w)) ws
  end.

Section ExecLemmas.
  Variable fit : var -> Z -> Z.
  Notation exec := (exec fit). Notation execs := (execs fit). Notation assign := (assign fit).

  Lemma assign_other l x old nxt u : u <> lhs_var l -> assign l x old nxt u = nxt u.
  Proof. destruct l; cbn; intros; apply vset_other; assumption. Qed.

  Lemma execs_app old nxt a b : execs old nxt (a ++ b) = execs old (execs old nxt a) b.
  Proof. apply fold_left_app. Qed.
  Lemma execs_cons old nxt s b : execs old nxt (s :: b) = execs old (exec old nxt s) b.
  Proof. reflexivity. Qed.
  Lemma exec_if old nxt c t f :
    exec old nxt (SIf c t f) = if truth (eval old c) then execs old nxt t else execs old nxt f.
  Proof. reflexivity. Qed.

  Lemma fold_frame (ss : list stmt) u old :
    Forall (fun s => forall nxt, ~ In u (writes s) -> exec old nxt s u = nxt u) ss ->
    forall nxt, ~ In u (flat_map writes ss) -> fold_left (exec old) ss nxt u = nxt u.
  Proof.
    induction ss as [|s ss IH]; intros HF nxt Hn; cbn; [reflexivity|].
    cbn in Hn. rewrite in_app_iff in Hn.
    rewrite IH; [|exact (Forall_inv_tail HF)|tauto]. apply (Forall_inv HF). tauto.
  Qed.

  Lemma exec_frame old u s : forall nxt, ~ In u (writes s) -> exec old nxt s u = nxt u.
  Proof.
    induction s using stmt_ind'; intros nxt Hn.
    - cbn in *. apply assign_other. intros ->. tauto.
    - cbn [writes] in Hn. rewrite in_app_iff in Hn. rewrite exec_if.
      destruct (truth _); apply fold_frame; auto.
    - cbn [exec writes] in *. induction ws as [|[k b] ws IHw]; [reflexivity|].
      cbn in Hn. rewrite in_app_iff in Hn. destruct (eval old e =? k).
      + apply fold_frame; [exact (Forall_inv H)|tauto].
      + apply IHw; [exact (Forall_inv_tail H)|tauto].
  Qed.

  Lemma execs_frame old u ss nxt : ~ In u (flat_map writes ss) -> execs old nxt ss u = nxt u.
  Proof. apply fold_frame. apply Forall_forall. intros s _ n. apply exec_frame. Qed.

  (** Congruence: on a set of registers [P] closed under what the statement reads. *)
  Section Cong.
    Variable P : var -> Prop.
    Definition agree (e1 e2 : env) : Prop := forall v, P v -> e1 v = e2 v.

    Lemma eval_agree e1 e2 x : agree e1 e2 -> (forall v, In v (expr_vars x) -> P v) -> eval e1 x = eval e2 x.
    Proof. intros H Hx. apply eval_ext. auto. Qed.

    Lemma assign_agree l x o1 o2 n1 n2 : agree o1 o2 -> agree n1 n2 ->
      (forall v, In v (lhs_reads l) -> P v) -> agree (assign l x o1 n1) (assign l x o2 n2).
    Proof.
      intros Ho Hn Hr v Hv. destruct (var_eq_dec v (lhs_var l)) as [->|Hne].
      - destruct l; cbn in *; rewrite !vset_same; auto.
        + rewrite (eval_agree o1 o2) by auto. f_equal. rewrite Hn by assumption. reflexivity.
        + rewrite Hn by assumption. reflexivity.
      - rewrite !assign_other by assumption. auto.
    Qed.

    Lemma exec_agree s : forall o1 o2 n1 n2, agree o1 o2 -> agree n1 n2 ->
      (forall v, In v (reads s) -> P v) -> agree (exec o1 n1 s) (exec o2 n2 s).
    Proof.
      assert (HL : forall ss, Forall (fun s => forall o1 o2 n1 n2, agree o1 o2 -> agree n1 n2 ->
                 (forall v, In v (reads s) -> P v) -> agree (exec o1 n1 s) (exec o2 n2 s)) ss ->
               forall o1 o2 n1 n2, agree o1 o2 -> agree n1 n2 ->
                 (forall v, In v (flat_map reads ss) -> P v) ->
                 agree (fold_left (exec o1) ss n1) (fold_left (exec o2) ss n2)).
      { induction ss as [|s0 ss IH]; intros HF o1 o2 n1 n2 Ho Hn Hr; [exact Hn|].
        cbn [fold_left]. apply IH; [exact (Forall_inv_tail HF)|exact Ho| |].
        - apply (Forall_inv HF); auto. intros v Hv. apply Hr. cbn. apply in_or_app; auto.
        - intros v Hv. apply Hr. cbn. apply in_or_app; auto. }
      induction s using stmt_ind'; intros o1 o2 n1 n2 Ho Hn Hr.
      - cbn [Vlog.exec]. cbn [reads] in Hr.
        rewrite (eval_agree o1 o2) by (auto; intros v Hv; apply Hr, in_or_app; auto).
        apply assign_agree; auto. intros v Hv; apply Hr, in_or_app; auto.
      - rewrite !exec_if. cbn [reads] in Hr.
        rewrite (eval_agree o1 o2) by (auto; intros v Hv; apply Hr, in_or_app; auto).
        destruct (truth _); apply HL; auto; intros v Hv; apply Hr; rewrite !in_app_iff; auto.
      - cbn [Vlog.exec]. cbn [reads] in Hr.
        rewrite (eval_agree o1 o2) by (auto; intros v Hv; apply Hr, in_or_app; auto).
        assert (Hr' : forall v, In v (flat_map (fun w => flat_map reads (snd w)) ws) -> P v)
          by (intros v Hv; apply Hr, in_or_app; auto). clear Hr.
        induction ws as [|[k b] ws IHw]; [exact Hn|].
        cbn in Hr'. destruct (eval o2 e =? k).
        + apply HL; auto; [exact (Forall_inv H)|]. intros v Hv; apply Hr', in_or_app; auto.
        + apply IHw; [exact (Forall_inv_tail H)|]. intros v Hv; apply Hr', in_or_app; auto.
    Qed.

    Lemma execs_agree ss o1 o2 n1 n2 : agree o1 o2 -> agree n1 n2 ->
      (forall v, In v (flat_map reads ss) -> P v) -> agree (execs o1 n1 ss) (execs o2 n2 ss).
    Proof.
      revert n1 n2. induction ss as [|s ss IH]; intros n1 n2 Ho Hn Hr; [exact Hn|].
      rewrite !execs_cons. apply IH; auto.
      - apply exec_agree; auto. intros v Hv; apply Hr; cbn; apply in_or_app; auto.
      - intros v Hv; apply Hr; cbn; apply in_or_app; auto.
    Qed.
  End Cong.
End ExecLemmas.
