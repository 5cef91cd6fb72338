(** The Python subset a thread function is written in, and its Python meaning: a definitional
    interpreter with fuel, independent of the compiler.  [Stuck] marks what the correctness
    statements do not cover: Python errors (unbound name, division by zero, wrong arity, use of
    None as a number, break outside a loop) and behaviours where the hardware is known to differ
    or to lack room (each has its own finding): values outside the [w]-bit signed range,
    [//] and [%] with a negative operand, [and]/[or] used as a number when its value is not 0 or
    1, range() with a step that is not positive, reading the loop variable after its loop
    ran to completion. *)
From Verif Require Import Base.
Open Scope Z_scope.

Definition name := nat.
Inductive pun := PNeg | PPos | PInv | PNot.
Inductive pbin := PAdd | PSub | PMul | PFloorDiv | PMod | PPow | PLsh | PRsh | PBitOr | PBitXor | PBitAnd.
Inductive pcmp := PEq | PNe | PLt | PLe | PGt | PGe.
Inductive pexpr :=
| XInt (z : Z) | XName (x : name)
| XUn (u : pun) (e : pexpr) | XBin (o : pbin) (l r : pexpr) | XCmp (o : pcmp) (l r : pexpr)
| XAnd (l r : pexpr) | XOr (l r : pexpr) | XIf (t a b : pexpr)          (* a if t else b *)
| XCall (f : name) (args : pexprs)
with pexprs := XNil | XCons (e : pexpr) (es : pexprs).

Inductive pstmt :=
| PAssign (xs : list name) (e : pexpr)                    (* x1 = ... = xn = e *)
| PTuple (xs : list name) (es : pexprs)                   (* x1, .., xn = e1, .., en *)
| PAug (x : name) (o : pbin) (e : pexpr)                  (* x o= e *)
| PIf (t : pexpr) (a b : pblock)
| PWhile (t : pexpr) (b : pblock)
| PFor (x : name) (beg : option pexpr) (en : pexpr) (st : option pexpr) (b : pblock)
                                                          (* for x in range([beg,] en [, st]): b *)
| PExpr (f : name) (args : pexprs)                        (* f(args) *)
| PPass | PBreak | PContinue | PReturn (e : option pexpr)
with pblock := PNil | PCons (s : pstmt) (b : pblock).

Scheme pexpr_mut := Induction for pexpr Sort Prop with pexprs_mut := Induction for pexprs Sort Prop.
Combined Scheme pexpr_ind2 from pexpr_mut, pexprs_mut.
Scheme pstmt_mut := Induction for pstmt Sort Prop with pblock_mut := Induction for pblock Sort Prop.
Combined Scheme pstmt_ind2 from pstmt_mut, pblock_mut.

Definition func := (list name * pblock)%type.

(** ** Operators of Python integers *)
Definition py_un (u : pun) (x : Z) : Z :=
  match u with PNeg => - x | PPos => x | PInv => - x - 1 | PNot => if x =? 0 then 1 else 0 end.
Definition py_bin (o : pbin) (x y : Z) : Z :=
  match o with
  | PAdd => x + y | PSub => x - y | PMul => x * y
  | PFloorDiv => x / y | PMod => x mod y | PPow => x ^ y          (* Z./ is the floor division *)
  | PLsh => x * 2 ^ y | PRsh => x / 2 ^ y
  | PBitOr => Z.lor x y | PBitXor => Z.lxor x y | PBitAnd => Z.land x y
  end.
Definition bin_ok (o : pbin) (x y : Z) : bool :=
  match o with
  | PFloorDiv | PMod => (0 <=? x) && (0 <? y)
  | PPow | PLsh | PRsh => 0 <=? y
  | _ => true
  end.
Definition py_cmp (o : pcmp) (x y : Z) : bool :=
  match o with
  | PEq => x =? y | PNe => negb (x =? y) | PLt => x <? y | PLe => x <=? y | PGt => y <? x | PGe => y <=? x
  end.

(** The values of range(a, b, s) for s > 0: a, a+s, ... below b. *)
Definition range_count (a b s : Z) : nat := Z.to_nat ((b - a + s - 1) / s).
Definition py_range (a b s : Z) : list Z := map (fun k => a + Z.of_nat k * s) (seq 0 (range_count a b s)).

(** ** Results *)
Inductive res (A : Type) := Val (a : A) | Stuck | Time.
Arguments Val {A}. Arguments Stuck {A}. Arguments Time {A}.
Definition rbind {A B} (m : res A) (f : A -> res B) : res B :=
  match m with Val a => f a | Stuck => Stuck | Time => Time end.
Notation "x <- m ;; f" := (rbind m (fun x => f)) (at level 61, m at next level, right associativity).

Definition penv := name -> option Z.
Definition pset (r : penv) (x : name) (v : option Z) : penv := fun y => if Nat.eqb y x then v else r y.
Definition psets (r : penv) (xs : list name) (vs : list Z) : penv :=
  fold_left (fun r p => pset r (fst p) (Some (snd p))) (combine xs vs) r.
Definition pempty : penv := fun _ => None.

Inductive outcome :=
| ONorm (r : penv) | OBrk (r : penv) | OCont (r : penv) | ORet (r : penv) (v : option Z).

(** [mw]: datawidth.  [mtight]: also every intermediate number must fit the width Verilog computes it
    with (the smallest number of a width excluded), so that widths do not matter at all. *)
Record mode := mkMode { mw :> Z; mtight : bool }.
Definition sym (p z : Z) : bool := (- 2 ^ (p - 1) <? z) && (z <? 2 ^ (p - 1)).
Definition fits (w : mode) (z : Z) : bool :=
  (if mtight w then - 2 ^ (w - 1) <? z else - 2 ^ (w - 1) <=? z) && (z <? 2 ^ (w - 1)).
(** the self-determined width of the Verilog expression of [e] (IEEE 1364-2005 table 5-22), where
    decimal literals have 32 bits *)
Fixpoint pw (w : Z) (e : pexpr) : Z :=
  match e with
  | XInt _ => 32
  | XName _ | XCall _ _ => w
  | XUn _ e => pw w e
  | XBin (PPow | PLsh | PRsh) a _ => pw w a
  | XBin _ a b => Z.max (pw w a) (pw w b)
  | XIf _ a b => Z.max (pw w a) (pw w b)
  | XCmp _ _ _ | XAnd _ _ | XOr _ _ => 1
  end.
Definition room (w : mode) (e : pexpr) (z : Z) : bool := negb (mtight w) || sym (pw w e) z.
Definition is01 (z : Z) : bool := (z =? 0) || (z =? 1).
Definition guard (b : bool) {A} (m : res A) : res A := if b then m else Stuck.

Section Interp.
  Variable w : mode.
  Variable fns : name -> option func.

  Fixpoint ev (n : nat) (r : penv) (e : pexpr) {struct n} : res Z :=
    match n with
    | O => Time
    | S n =>
        match e with
        | XInt z => guard (room w (XInt z) z) (Val z)
        | XName x => match r x with Some v => guard (room w (XName x) v) (Val v) | None => Stuck end
        | XUn PNot e => b <- tv n r e ;; Val (b2z (negb b))
        | XUn u e => x <- ev n r e ;; guard (room w (XUn u e) (py_un u x)) (Val (py_un u x))
        | XBin o a b =>
            x <- ev n r a ;; y <- ev n r b ;;
            guard (bin_ok o x y && room w (XBin o a b) (py_bin o x y)) (Val (py_bin o x y))
        | XCmp o a b => x <- ev n r a ;; y <- ev n r b ;; Val (b2z (py_cmp o x y))
        | XAnd a b => x <- ev n r a ;; if x =? 0 then Val x else y <- ev n r b ;; guard (is01 y) (Val y)
        | XOr a b => x <- ev n r a ;; if x =? 0 then y <- ev n r b ;; guard (is01 y) (Val y) else guard (is01 x) (Val x)
        | XIf t a b => c <- tv n r t ;; if c : bool then ev n r a else ev n r b
        | XCall f args => vs <- evs n r args ;; v <- call n f vs ;; match v with Some v => Val v | None => Stuck end
        end
    end
  (** the truth value of an expression used as a test *)
  with tv (n : nat) (r : penv) (e : pexpr) {struct n} : res bool :=
    match n with
    | O => Time
    | S n =>
        match e with
        | XUn PNot e => b <- tv n r e ;; Val (negb b)
        | XAnd a b => x <- tv n r a ;; if x : bool then tv n r b else Val false
        | XOr a b => x <- tv n r a ;; if x : bool then Val true else tv n r b
        | XIf t a b => c <- tv n r t ;; if c : bool then tv n r a else tv n r b
        | _ => x <- ev n r e ;; Val (negb (x =? 0))
        end
    end
  with evs (n : nat) (r : penv) (es : pexprs) {struct n} : res (list Z) :=
    match n with
    | O => Time
    | S n =>
        match es with
        | XNil => Val []
        | XCons e es => v <- ev n r e ;; vs <- evs n r es ;; Val (v :: vs)
        end
    end
  (** a call: None is the value of a function that does not return one *)
  with call (n : nat) (f : name) (vs : list Z) {struct n} : res (option Z) :=
    match n with
    | O => Time
    | S n =>
        match fns f with
        | None => Stuck
        | Some (params, body) =>
            guard (Nat.eqb (length params) (length vs) && forallb (fits w) vs)
              (o <- exb n (psets pempty params vs) body ;;
               match o with
               | ONorm _ => Val None
               | ORet _ v => Val v
               | OBrk _ | OCont _ => Stuck
               end)
        end
    end
  with ex (n : nat) (r : penv) (s : pstmt) {struct n} : res outcome :=
    match n with
    | O => Time
    | S n =>
        match s with
        | PAssign xs e =>
            v <- ev n r e ;; guard (fits w v) (Val (ONorm (fold_left (fun r x => pset r x (Some v)) xs r)))
        | PTuple xs es =>
            vs <- evs n r es ;;
            guard (Nat.eqb (length xs) (length vs) && forallb (fits w) vs) (Val (ONorm (psets r xs vs)))
        | PAug x o e =>
            match r x with
            | None => Stuck
            | Some v => y <- ev n r e ;;
                guard (bin_ok o v y && fits w (py_bin o v y) && room w (XName x) v)
                  (Val (ONorm (pset r x (Some (py_bin o v y)))))
            end
        | PIf t a b => c <- tv n r t ;; if c : bool then exb n r a else exb n r b
        | PWhile t b =>
            c <- tv n r t ;;
            if c : bool then
              o <- exb n r b ;;
              match o with
              | ONorm r' | OCont r' => ex n r' (PWhile t b)
              | OBrk r' => Val (ONorm r')
              | ORet _ _ => Val o
              end
            else Val (ONorm r)
        | PFor x beg en st b =>
            vb <- match beg with None => Val 0 | Some e => ev n r e end ;;
            ve <- ev n r en ;;
            vs <- match st with None => Val 1 | Some e => ev n r e end ;;
            guard ((0 <? vs) && fits w vb && fits w (vb + Z.of_nat (range_count vb ve vs) * vs))
              (forl n r x (py_range vb ve vs) b)
        | PExpr f args => vs <- evs n r args ;; v <- call n f vs ;; Val (ONorm r)
        | PPass => Val (ONorm r)
        | PBreak => Val (OBrk r)
        | PContinue => Val (OCont r)
        | PReturn None => Val (ORet r None)
        | PReturn (Some e) => v <- ev n r e ;; guard (fits w v) (Val (ORet r (Some v)))
        end
    end
  with exb (n : nat) (r : penv) (b : pblock) {struct n} : res outcome :=
    match n with
    | O => Time
    | S n =>
        match b with
        | PNil => Val (ONorm r)
        | PCons s b => o <- ex n r s ;; match o with ONorm r' => exb n r' b | _ => Val o end
        end
    end
  (** the body for each value of the range; afterwards the loop variable is not to be read *)
  with forl (n : nat) (r : penv) (x : name) (l : list Z) (b : pblock) {struct n} : res outcome :=
    match n with
    | O => Time
    | S n =>
        match l with
        | [] => Val (ONorm (pset r x None))
        | v :: l =>
            o <- exb n (pset r x (Some v)) b ;;
            match o with
            | ONorm r' | OCont r' => forl n r' x l b
            | OBrk r' => Val (ONorm r')
            | ORet _ _ => Val o
            end
        end
    end.
End Interp.

(** ** Programs covered (each restriction is necessary, see the findings)
    - calls only where Python evaluates unconditionally and once: not in the right operand of
      and/or, the arms of a conditional expression, a while test;
    - a loop body does not assign the loop variable nor a name of the range's end or step;
    - in one block, no loop comes after a statement with a pending break/continue. *)
Fixpoint callfree (e : pexpr) : bool :=
  match e with
  | XInt _ | XName _ => true
  | XUn _ e => callfree e
  | XBin _ a b | XCmp _ a b | XAnd a b | XOr a b => callfree a && callfree b
  | XIf a b c => callfree a && callfree b && callfree c
  | XCall _ _ => false
  end.
Fixpoint wf_expr (e : pexpr) : bool :=
  match e with
  | XInt _ | XName _ => true
  | XUn _ e => wf_expr e
  | XBin _ a b | XCmp _ a b => wf_expr a && wf_expr b
  | XAnd a b | XOr a b => wf_expr a && callfree b
  | XIf t a b => wf_expr t && callfree a && callfree b
  | XCall _ es => wf_exprs es
  end
with wf_exprs (es : pexprs) : bool :=
  match es with XNil => true | XCons e es => wf_expr e && wf_exprs es end.
Fixpoint names (e : pexpr) : list name :=
  match e with
  | XInt _ => [] | XName x => [x]
  | XUn _ e => names e
  | XBin _ a b | XCmp _ a b | XAnd a b | XOr a b => names a ++ names b
  | XIf a b c => names a ++ names b ++ names c
  | XCall _ es => namess es
  end
with namess (es : pexprs) : list name :=
  match es with XNil => [] | XCons e es => names e ++ namess es end.

Fixpoint assigned (s : pstmt) : list name :=
  match s with
  | PAssign xs _ | PTuple xs _ => xs
  | PAug x _ _ => [x]
  | PIf _ a b => assigneds a ++ assigneds b
  | PWhile _ b => assigneds b
  | PFor x _ _ _ b => x :: assigneds b
  | _ => []
  end
with assigneds (b : pblock) : list name :=
  match b with PNil => [] | PCons s b => assigned s ++ assigneds b end.

(** a break or continue for an enclosing loop *)
Fixpoint escapes (s : pstmt) : bool :=
  match s with
  | PBreak | PContinue => true
  | PIf _ a b => escapess a || escapess b
  | _ => false
  end
with escapess (b : pblock) : bool :=
  match b with PNil => false | PCons s b => escapes s || escapess b end.
Definition is_loop (s : pstmt) : bool := match s with PWhile _ _ | PFor _ _ _ _ _ => true | _ => false end.
Definition opt_all {A} (f : A -> bool) (o : option A) : bool := match o with Some a => f a | None => true end.
Definition opt_names (o : option pexpr) : list name := match o with Some e => names e | None => [] end.
Definition disjoint (a b : list name) : bool := forallb (fun x => negb (existsb (Nat.eqb x) b)) a.

Fixpoint wf_stmt (s : pstmt) : bool :=
  match s with
  | PAssign _ e | PAug _ _ e => wf_expr e
  | PTuple _ es | PExpr _ es => wf_exprs es
  | PIf t a b => wf_expr t && wf_block false a && wf_block false b
  | PWhile t b => callfree t && wf_block false b
  | PFor x beg en st b =>
      opt_all wf_expr beg && wf_expr en && opt_all wf_expr st &&
      disjoint (x :: names en ++ opt_names st) (assigneds b) &&
      disjoint [x] (names en ++ opt_names st) && wf_block false b
  | PReturn e => opt_all wf_expr e
  | PPass | PBreak | PContinue => true
  end
with wf_block (pend : bool) (b : pblock) : bool :=
  match b with
  | PNil => true
  | PCons s b => negb (pend && is_loop s) && wf_stmt s && wf_block (pend || escapes s) b
  end.

(** ** Kinds: numbers and truth values.  A truth value (comparison, and/or/not) is an unsigned one-bit
    expression in Verilog and would make the arithmetic around it unsigned; where widths matter it
    is not used as a number, except when it is stored. *)
Inductive knd := KNum | KBoo.
Definition same_kind (a b : option knd) : option knd :=
  match a, b with Some KNum, Some KNum => Some KNum | Some KBoo, Some KBoo => Some KBoo | _, _ => None end.
Fixpoint ty (e : pexpr) : option knd :=
  match e with
  | XInt _ | XName _ => Some KNum
  | XUn PNot e => match ty e with Some _ => Some KBoo | None => None end
  | XUn _ e => match ty e with Some KNum => Some KNum | _ => None end
  | XBin _ a b => match ty a, ty b with Some KNum, Some KNum => Some KNum | _, _ => None end
  | XCmp _ a b => match ty a, ty b with Some KNum, Some KNum => Some KBoo | _, _ => None end
  | XAnd a b | XOr a b => match ty a, ty b with Some _, Some _ => Some KBoo | _, _ => None end
  | XIf t a b => match ty t with Some _ => same_kind (ty a) (ty b) | None => None end
  | XCall _ es => if tys es then Some KNum else None
  end
with tys (es : pexprs) : bool :=
  match es with XNil => true | XCons e es => match ty e with Some _ => tys es | None => false end end.
Definition typed (e : pexpr) : bool := match ty e with Some _ => true | None => false end.
Definition numeric (e : pexpr) : bool := match ty e with Some KNum => true | _ => false end.
Fixpoint ty_stmt (s : pstmt) : bool :=
  match s with
  | PAssign _ e => typed e
  | PAug _ _ e => numeric e
  | PTuple _ es | PExpr _ es => tys es
  | PIf t a b => typed t && ty_block a && ty_block b
  | PWhile t b => typed t && ty_block b
  | PFor _ beg en st b => opt_all typed beg && numeric en && opt_all numeric st && ty_block b
  | PReturn e => opt_all typed e
  | PPass | PBreak | PContinue => true
  end
with ty_block (b : pblock) : bool :=
  match b with PNil => true | PCons s b => ty_stmt s && ty_block b end.
