(** veriloggen/resolver/resolver.py on the expression trees of Vx_Model.v: the parameter table, the
    replacement of parameters by values, and loop unrolling.  Instances, generate blocks, widths and
    dimensions are left out. *)
From Verif Require Import Base Bits Vx_Model.
Open Scope Z_scope.

(** ** Widths as the code computes them *)
(** Python's [int.bit_length] *)
Definition bit_length (z : Z) : Z := if z =? 0 then 0 else Z.log2 (Z.abs z) + 1.
Section Width.
  Variable pw : nat -> Z.   (* get_width of the variables; a parameter without width has 32 [vtypes.py:761-764] *)
  (** [vtypes.get_width]; [max_width] of constants is their maximum
      [vtypes.py:124-168, 800-803, 1006-1009, 1037-1038, 1060-1530, 1693, 1755, 1817, 1841, 2212-2213] *)
  Fixpoint vwidth (e : vx) : Z :=
    match e with
    | XPy z => bit_length z + 1
    | XInt _ w _ _ | XX w => match w with Some w => w | None => 32 end
    | XVar x => pw x
    | XUn (UPlus | UMinus | UNot) a => vwidth a
    | XUn _ _ => 1
    | XBin (BPower | BPlus | BMinus) a b => Z.max (vwidth a) (vwidth b) + 1
    | XBin BTimes a b => vwidth a + vwidth b
    | XBin (BDivide | BMod | BAnd | BXor | BXnor | BOr) a b => Z.max (vwidth a) (vwidth b)
    | XBin BSll a b => 2 ^ vwidth b + vwidth a
    | XBin (BSrl | BSra) a _ => vwidth a
    | XBin _ _ _ => 1
    | XCond _ t f => Z.max (vwidth t) (vwidth f)
    | XPtr _ _ => 1
    | XSlice _ m l => m - l + 1
    | XCat es => fold_right (fun a s => vwidth a + s) 0 es
    | XRep a n => vwidth a * n
    | XSigned a => vwidth a
    end.
  (** [resolver.get_width] [resolver.py:12-18] *)
  Definition rwidth (e : vx) : Z :=
    match e with XPy _ => Z.max 32 (vwidth e) | _ => vwidth e end.
End Width.

(** ** The table of constants *)
Definition table := nat -> option Z.
Definition put (d : table) (n : nat) (z : Z) : table := fun m => if Nat.eqb m n then Some z else d m.

(** result of visiting an expression: a Python value, the node, an exception *)
Inductive seen := Known (z : Z) | Open | Raised.
Definition known (o : option Z) : seen := match o with Some z => Known z | None => Raised end.
Section Constant.
  Variable pw : nat -> Z.
  Variable look : table.
  (** all operands are visited before the operator is applied *)
  Definition both (f : Z -> Z -> option Z) (a b : seen) : seen :=
    match a, b with
    | Raised, _ | _, Raised => Raised
    | Known x, Known y => known (f x y)
    | _, _ => Open
    end.
  (** [ConstantVisitor] [resolver.py:94-213]; other variables than parameters are not in [look].
      [XX], whose value is a Python string, is left out (as if it raised an exception). *)
  Fixpoint cvisit (e : vx) : seen :=
    match e with
    | XPy z => Known z
    | XInt v _ _ _ => Known v
    | XX _ => Raised
    | XVar x => match look x with Some z => Known z | None => Open end
    | XUn o a => match cvisit a with Known r => known (fold_un o r (rwidth pw a)) | r => r end
    | XBin o a b => both (fun l r => fold_bin o l r (rwidth pw a) (rwidth pw b)) (cvisit a) (cvisit b)
    | XCond c t f =>
        match cvisit c, cvisit t, cvisit f with
        | Raised, _, _ | _, Raised, _ | _, _, Raised => Raised
        | Known c', Known t', Known f' => Known (fold_cond c' t' f')
        | _, _, _ => Open
        end
    | XPtr x p => both fold_ptr (match look x with Some z => Known z | None => Open end) (cvisit p)
    | XSlice x m l => match look x with Some z => known (fold_slice z m l) | None => Open end
    | XCat es =>
        let rs := map cvisit es in
        if existsb (fun r => match r with Raised => true | _ => false end) rs then Raised else
        if existsb (fun r => match r with Open => true | _ => false end) rs then Open else
        Known (fold_cat (map (fun r => match r with Known v => v | _ => 0 end) rs) (map (rwidth pw) es))
    | XRep a n => match cvisit a with Known v => Known (fold_rep v (rwidth pw a) n) | r => r end
    | XSigned a => match cvisit a with Raised => Raised | _ => Open end
    end.
End Constant.

(** the variables of an expression *)
Fixpoint vars (e : vx) : list nat :=
  match e with
  | XPy _ | XInt _ _ _ _ | XX _ => []
  | XVar x | XSlice x _ _ => [x]
  | XUn _ a | XRep a _ | XSigned a => vars a
  | XBin _ a b => vars a ++ vars b
  | XCond c t f => vars c ++ vars t ++ vars f
  | XPtr x p => x :: vars p
  | XCat es => flat_map vars es
  end.

(** ** [_update_const_dict] [resolver.py:522-557].  A pass shares one caching visitor
    [resolver.py:52-68]: a parameter that was visited while it had no value stays without value
    until the next pass ([stale]). *)
Section Table.
  Variable pw : nat -> Z.
  Definition fresh (stale : list nat) (d : table) : table := fun x => if existsb (Nat.eqb x) stale then None else d x.
  Inductive outcome := Done (d : table) | Unresolved (l : list (nat * vx)) (d : table) | Failed.
  (** one pass [resolver.py:541-557] *)
  Fixpoint pass (ps : list (nat * vx)) (stale : list nat) (d : table) : option (list (nat * vx) * table) :=
    match ps with
    | [] => Some ([], d)
    | (n, e) :: r =>
        let stale' := filter (fun x => match d x with None => true | _ => false end) (vars e) ++ stale in
        match cvisit pw (fresh stale d) e with
        | Raised => None
        | Open => match pass r stale' d with Some (l, d') => Some ((n, e) :: l, d') | None => None end
        | Known z => pass r stale' (match d n with Some _ => d | None => put d n z end)
        end
    end.
  (** the while loop; [fuel] bounds the number of passes (each but the last resolves a parameter) *)
  Fixpoint passes (fuel : nat) (prev : nat) (ps : list (nat * vx)) (d : table) : outcome :=
    match ps with
    | [] => Done d
    | _ =>
        if (length ps <? prev)%nat then
          match fuel with
          | O => Failed
          | S fuel => match pass ps [] d with None => Failed | Some (l, d') => passes fuel (length ps) l d' end
          end
        else Unresolved ps d
    end.
  Definition update_const_dict (ps : list (nat * vx)) (d : table) : outcome :=
    passes (S (length ps)) (length ps + 1) ps d.
End Table.

(** ** [ReplaceVisitor] on expressions [resolver.py:216-312]: operands that became constants are
    written back.  [None]: an exception, or a selection from a number instead of a variable (which
    cannot be printed).  [ForReplaceVisitor] [resolver.py:490-493] also finds loop variables in the
    table. *)
Section Replace.
  Variable pw : nat -> Z.
  Variable look : table.
  Definition is_const (e : vx) : option Z := match e with XPy z => Some z | _ => None end.
  Fixpoint all_some {A} (l : list (option A)) : option (list A) :=
    match l with
    | [] => Some []
    | Some a :: r => match all_some r with Some r' => Some (a :: r') | None => None end
    | None :: _ => None
    end.
  Definition py (o : option Z) : option vx := option_map XPy o.
  Fixpoint replace (e : vx) : option vx :=
    match e with
    | XPy z => Some (XPy z)
    | XInt v _ _ _ => Some (XPy v)
    | XX _ => None
    | XVar x => Some (match look x with Some z => XPy z | None => XVar x end)
    | XUn o a =>
        match replace a with
        | None => None
        | Some a' => match is_const a' with Some r => py (fold_un o r (rwidth pw a)) | None => Some (XUn o a') end
        end
    | XBin o a b =>
        match replace a, replace b with
        | Some a', Some b' =>
            match is_const a', is_const b' with
            | Some l, Some r => py (fold_bin o l r (rwidth pw a) (rwidth pw b))
            | _, _ => Some (XBin o a' b')
            end
        | _, _ => None
        end
    | XCond c t f =>
        match replace c, replace t, replace f with
        | Some c', Some t', Some f' =>
            match is_const c', is_const t', is_const f' with
            | Some x, Some y, Some z => Some (XPy (fold_cond x y z))
            | _, _, _ => Some (XCond c' t' f')
            end
        | _, _, _ => None
        end
    | XPtr x p =>
        match replace p with
        | None => None
        | Some p' =>
            match look x, is_const p' with
            | Some v, Some i => py (fold_ptr v i)
            | Some _, None => None
            | None, _ => Some (XPtr x p')
            end
        end
    | XSlice x m l => match look x with Some v => py (fold_slice v m l) | None => Some (XSlice x m l) end
    | XCat es =>
        match all_some (map replace es) with
        | None => None
        | Some es' =>
            if forallb (fun a => match is_const a with Some _ => true | None => false end) es'
            then Some (XPy (fold_cat (map (fun a => match is_const a with Some v => v | None => 0 end) es') (map (rwidth pw) es)))
            else Some (XCat es')
        end
    | XRep a n =>
        match replace a with
        | None => None
        | Some a' => match is_const a' with Some v => Some (XPy (fold_rep v (rwidth pw a) n)) | None => Some (XRep a' n) end
        end
    | XSigned a => match replace a with Some a' => Some (XSigned a') | None => None end   (* [resolver.py:443-446] *)
    end.
End Replace.

(** ** Statements *)
Inductive rs :=
| RSub (blk : bool) (x : nat) (e : vx)                      (* assignment to a variable *)
| RIf (c : vx) (t f : list rs)                              (* no else part: [f] empty *)
| RFor (i : nat) (init cond post : vx) (body : list rs)     (* i = init; cond; i = post *)
| RSeq (l : list rs).                                       (* the list an unrolled loop leaves behind *)
(** [visit_Subst], [visit_If], [visit_For] [resolver.py:330-397].  A loop that is not unrolled keeps
    its body as it was; its condition is the node the last visit has partly overwritten.  [fuel]
    bounds the number of iterations ([None]: an exception, or the loop never ends). *)
Section Stmt.
  Variable pw : nat -> Z.
  Variable fuel : nat.
  (** [unroll go n]: the while loop from the value [k] of the loop variable *)
  Fixpoint unroll (n : nat) (body : table -> option (list rs)) (d : table) (i : nat) (cond post : vx) (k : Z)
    : option (list rs + vx) :=
    match n with
    | O => None
    | S n =>
        let d' := put d i k in
        match replace pw d' cond with
        | None => None
        | Some c =>
            match is_const c with
            | None => Some (inr c)
            | Some c =>
                if c =? 0 then Some (inl [])
                else match body d', replace pw d' post with
                     | Some b, Some p =>
                         match is_const p with
                         | None => None
                         | Some k' =>
                             match unroll n body d i cond post k' with
                             | Some (inl r) => Some (inl (RSeq b :: r))
                             | r => r
                             end
                         end
                     | _, _ => None
                     end
            end
        end
    end.
  Fixpoint resolve_stmt (d : table) (s : rs) {struct s} : option rs :=
    let many := fix many (d : table) (l : list rs) : option (list rs) :=
      match l with
      | [] => Some []
      | s :: r => match resolve_stmt d s, many d r with Some s', Some r' => Some (s' :: r') | _, _ => None end
      end in
    match s with
    | RSub blk x e => match replace pw d e with Some e' => Some (RSub blk x e') | None => None end
    | RIf c t f =>
        match replace pw d c, many d t, many d f with
        | Some c', Some t', Some f' => Some (RIf c' t' f')
        | _, _, _ => None
        end
    | RFor i init cond post body =>
        match replace pw d init, replace pw d cond, replace pw d post with
        | Some init', Some cond', Some post' =>
            match is_const init' with
            | None => Some (RFor i init' cond' post' body)
            | Some k =>
                match unroll fuel (fun d' => many d' body) d i cond' post' k with
                | None => None
                | Some (inl r) => Some (RSeq r)
                | Some (inr c) => Some (RFor i init' c post' body)
                end
            end
        | _, _, _ => None
        end
    | RSeq l => match many d l with Some l' => Some (RSeq l') | None => None end
    end.
  Fixpoint resolve_stmts (d : table) (l : list rs) : option (list rs) :=
    match l with
    | [] => Some []
    | s :: r => match resolve_stmt d s, resolve_stmts d r with Some s', Some r' => Some (s' :: r') | _, _ => None end
    end.
End Stmt.
(** [visit_Always] [resolver.py:619-624] drops the list that visiting the statements returns: a loop
    directly in the always block stays, with its head as the visit has left it *)
Section Always.
  Variable pw : nat -> Z.
  Variable fuel : nat.
  Definition in_place (d : table) (s : rs) : option rs :=
    match s with
    | RFor i init cond post body =>
        match resolve_stmt pw fuel d s, replace pw d init, replace pw d cond, replace pw d post with
        | Some (RSeq _), Some init', Some cond', Some post' => Some (RFor i init' cond' post' body)
        | Some s', Some _, Some _, Some _ => Some s'
        | _, _, _, _ => None
        end
    | _ => resolve_stmt pw fuel d s
    end.
  Definition resolve_always (d : table) (l : list rs) : option (list rs) := all_some (map (in_place d) l).
End Always.
