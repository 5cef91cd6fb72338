(** The trees given to pyverilog's printer (veriloggen/verilog/to_verilog.py) and the objects built
    from pyverilog's parse trees (veriloggen/verilog/from_verilog.py).  pyverilog's own printer and
    parser are not part of the repository and not modelled.  [None]: a Python exception.
    Left out: hierarchical names, functions, tasks and events, embedded code, real numbers, the
    for_verilator mode, dimensions, instance arrays, [Tri] and [Supply] declarations. *)
From Coq Require Import String.
From Verif Require Import Base Lit_Model.
Open Scope string_scope.
Open Scope Z_scope.

Fixpoint allsome {A} (l : list (option A)) : option (list A) :=
  match l with
  | [] => Some []
  | None :: _ => None
  | Some a :: r => option_map (cons a) (allsome r)
  end.
Definition bindo {A B} (m : option A) (f : A -> option B) : option B := match m with Some a => f a | None => None end.
Notation "'do' p <- m ; f" := (bindo m (fun p => f)) (at level 200, p pattern, m at level 100, right associativity).
(** [f(x) if x is not None else None] *)
Definition maybe {A B} (f : A -> option B) (o : option A) : option (option B) :=
  match o with None => Some None | Some a => option_map Some (f a) end.

(** ** Objects [core/vtypes.py] *)
(** operator classes [vtypes.py:1047-1530] *)
Inductive gun := GUplus | GUminus | GUlnot | GUnot | GUand | GUnand | GUor | GUnor | GUxor | GUxnor.
Inductive gbin :=
| GPower | GTimes | GDivide | GMod | GPlus | GMinus | GSll | GSrl | GSra | GLessThan | GGreaterThan | GLessEq | GGreaterEq
| GEq | GNotEq | GEql | GNotEql | GAnd | GXor | GXnor | GOr | GLand | GLor.
Inductive gexpr :=
| GName (n : string)                            (* Reg, Wire, Input, Parameter, AnyType, ... *)
| GPy (z : Z) | GBool (b : bool)                (* Python numbers *)
| GInt (c : intc) | GStr (s : string)
| GUn (o : gun) (a : gexpr) | GBin (o : gbin) (a b : gexpr)
| GSkip (a : gexpr)                             (* _SkipUnaryOperator *)
| GPtr (v p : gexpr) | GSlice (v m l : gexpr)
| GCat (l : list gexpr) | GRep (v n : gexpr) | GCond (c t f : gexpr)
| GSys (cmd : string) (l : list gexpr).         (* SystemTask *)
Inductive gstmt :=
| GSubst (l r : gexpr) (blk : bool) (ld rd : option Z)
| GIf (c : gexpr) (t : list gstmt) (f : option (list gstmt))
| GFor (pre : gstmt) (c : gexpr) (post : gstmt) (b : list gstmt)
| GWhile (c : gexpr) (b : list gstmt)
| GCase (x : bool) (c : gexpr) (ws : list (option (list gexpr) * list gstmt))   (* [x]: Casex *)
| GList (l : list gstmt)                        (* a Python list or tuple *)
| GSingle (e : gexpr)                           (* SingleStatement *)
| GDelay (d : gexpr) | GWait (c : gexpr) (b : option (list gstmt)) | GForever (b : list gstmt).
Inductive gsens := GPos (e : gexpr) | GNeg (e : gexpr) | GAll | GLevel (e : gexpr).
Inductive vkind := Reg | Wire | Integer | Genvar.
Inductive pdir := Input | Output | Inout.
(** [width] and [raw_width] [vtypes.py:538-550] *)
Record gwidth := mkW { w_raw : option (gexpr * gexpr); w_width : option gexpr }.
Inductive gitem :=
| GParam (n : string) (v : gexpr) (w : gwidth) (s : bool)
| GLocal (n : string) (v : gexpr) (w : gwidth) (s : bool)
| GVar (k : vkind) (n : string) (w : gwidth) (s : bool)
| GAssign (l r : gexpr) (ld rd : option Z)
| GAlways (sens : list gsens) (b : list gstmt)
| GInitial (b : list gstmt)
| GInst (m n : string) (ps : list (option string * gexpr)) (qs : list (option string * option gexpr))
| GGenFor (pre : gstmt) (c : gexpr) (post : gstmt) (sc : option string) (is : list gitem)
| GGenIf (c : gexpr) (ts : option string) (tis : list gitem) (fs : option string) (fis : list gitem).
Record gport := mkGP { gp_dir : pdir; gp_name : string; gp_width : gwidth; gp_signed : bool }.
Record gmod := mkGM { gm_name : string; gm_ports : list gport; gm_items : list gitem }.

(** ** pyverilog's trees [pyverilog.vparser.ast] *)
Inductive aun := AUplus | AUminus | AUlnot | AUnot | AUand | AUnand | AUor | AUnor | AUxor | AUxnor.
Inductive abin :=
| APower | ATimes | ADivide | AMod | APlus | AMinus | ASll | ASrl | ASra | ALessThan | AGreaterThan | ALessEq | AGreaterEq
| AEq | ANotEq | AEql | ANotEql | AAnd | AXor | AXnor | AOr | ALand | ALor.
Inductive aexpr :=
| AId (n : string) | AConst (t : string) | AStr (s : string)
| AUn (o : aun) (a : aexpr) | ABin (o : abin) (a b : aexpr)
| APointer (v p : aexpr) | APart (v m l : aexpr)
| AConcat (l : list aexpr) | ARepeat (v n : aexpr) | ACond (c t f : aexpr)
| ASys (cmd : string) (l : list aexpr).
(** what stands in the place of a delay: a DelayStatement or a bare expression *)
Inductive adelay := DStmt (e : aexpr) | DRaw (e : aexpr).
Inductive astmt :=
| ABlock (l : list astmt) (sc : option string)
| ABlk (l r : aexpr) (ld rd : option adelay)
| ANon (l r : aexpr) (ld rd : option adelay)
| AIf (c : aexpr) (t : astmt) (f : option astmt)
| AFor (pre : astmt) (c : aexpr) (post : astmt) (b : astmt)
| AWhile (c : aexpr) (b : astmt)
| ACase (x : bool) (c : aexpr) (ws : list (option (list aexpr) * astmt))
| ASingle (e : aexpr)
| ADelay (d : aexpr) | AWait (c : aexpr) (b : option astmt) | AForever (b : astmt).
Inductive asens := APos (e : aexpr) | ANeg (e : aexpr) | AAll | ALevel (e : aexpr).
Definition awidth := option (aexpr * aexpr).
Inductive aitem :=
| AParam (n : string) (v : aexpr) (w : awidth) (s : bool)
| ALocal (n : string) (v : aexpr) (w : awidth) (s : bool)
| AVar (k : vkind) (n : string) (w : awidth) (s : bool)
| AAssign (l r : aexpr) (ld rd : option adelay)
| AAlways (sens : list asens) (b : astmt)
| AInitial (b : astmt)
| AInst (m n : string) (ps : list (option string * aexpr)) (qs : list (option string * option aexpr))
| AGen (is : list aitem)                                  (* GenerateStatement *)
| AGenFor (pre : astmt) (c : aexpr) (post : astmt) (sc : option string) (is : list aitem)
                                                          (* ForStatement whose body is a Block *)
| AGenIf (c : aexpr) (ts : option string) (tis : list aitem) (f : option (agblock)) (* IfStatement, likewise *)
with agblock :=
| ABody (sc : option string) (is : list aitem)            (* else begin ... end *)
| AElse (i : aitem).                                      (* else if ... *)
(** an Ioport: the direction, and whether a Reg comes with it *)
Record aport := mkAP { ap_dir : pdir; ap_name : string; ap_width : awidth; ap_signed : bool;
                       ap_reg : option (awidth * bool) }.
Record amod := mkAM { am_name : string; am_params : list aitem; am_ports : list aport; am_items : list aitem }.

(** * Writing *)
(** [to_verilog.py:334-370] *)
Definition w_un (o : gun) : aun :=
  match o with
  | GUplus => AUplus | GUminus => AUminus | GUlnot => AUlnot | GUnot => AUnot | GUand => AUand | GUnand => AUnand
  | GUor => AUor | GUnor => AUnor | GUxor => AUxor | GUxnor => AUxnor
  end.
(** [to_verilog.py:211-331] *)
Definition w_bin (o : gbin) : abin :=
  match o with
  | GPower => APower | GTimes => ATimes | GDivide => ADivide | GMod => AMod | GPlus => APlus | GMinus => AMinus
  | GSll => ASll | GSrl => ASrl | GSra => ASra | GLessThan => ALessThan | GGreaterThan => AGreaterThan
  | GLessEq => ALessEq | GGreaterEq => AGreaterEq | GEq => AEq | GNotEq => ANotEq | GEql => AEql | GNotEql => ANotEql
  | GAnd => AAnd | GXor => AXor | GXnor => AXnor | GOr => AOr | GLand => ALand | GLor => ALor
  end.
(** [to_verilog.py:58-134, 157-205, 373-404, 484-492] *)
Fixpoint w_expr (e : gexpr) : option aexpr :=
  match e with
  | GName n => Some (AId n)
  | GPy z => Some (AConst (pystr z))
  | GBool b => Some (AConst (if b then "1" else "0"))
  | GInt c => option_map AConst (print_int c)
  | GStr s => Some (AStr s)
  | GUn o a => option_map (AUn (w_un o)) (w_expr a)
  | GBin o a b => do x <- w_expr a; do y <- w_expr b; Some (ABin (w_bin o) x y)
  | GSkip a => w_expr a
  | GPtr v p => do x <- w_expr v; do y <- w_expr p; Some (APointer x y)
  | GSlice v m l => do x <- w_expr v; do y <- w_expr m; do z <- w_expr l; Some (APart x y z)
  | GCat l => option_map AConcat (allsome (map w_expr l))
  | GRep v n =>
      do x <- match v with GCat _ => w_expr v | _ => option_map (fun x => AConcat [x]) (w_expr v) end;
      do y <- w_expr n; Some (ARepeat x y)
  | GCond c t f => do x <- w_expr c; do y <- w_expr t; do z <- w_expr f; Some (ACond x y z)
  | GSys cmd l => option_map (ASys cmd) (allsome (map w_expr l))
  end.

(** [_optimize_block] [to_verilog.py:145-154] *)
Definition splice (a : astmt) : list astmt := match a with ABlock l None => l | _ => [a] end.
Definition optimize_block (l : list astmt) : astmt := ABlock (flat_map splice l) None.

(** VerilogAlwaysVisitor or VerilogBlockingVisitor *)
Inductive vmode := MAlways | MBlocking.
Section Write.
  (** [str(cond).lower()] mentions rst or reset [to_verilog.py:413-414]; the text is pyverilog's *)
  Variable resets : aexpr -> bool.
  (** [if node.ldelay] drops a 0 [to_verilog.py:833-834, 850-853] *)
  Definition w_delay (m : vmode) (d : option Z) : option adelay :=
    match d with
    | Some z => if z =? 0 then None
                else Some (match m with MAlways => DRaw (AConst (pystr z)) | MBlocking => DStmt (AConst (pystr z)) end)
    | None => None
    end.
  (** the false branch [to_verilog.py:409-418] *)
  Definition w_else (c : aexpr) (f : option astmt) : option astmt :=
    match f with
    | Some (ABlock [AIf a b d] _) => if resets c then f else Some (AIf a b d)
    | _ => f
    end.
  (** [to_verilog.py:139-143, 407-450, 500-507, 515-519, 829-871] *)
  Fixpoint w_stmt (m : vmode) (s : gstmt) : option astmt :=
    match s with
    | GSubst l r blk ld rd =>
        do x <- w_expr l; do y <- w_expr r;
        Some (match m with
              | MAlways => (if blk then ABlk else ANon) x y (w_delay m ld) (w_delay m rd)
              | MBlocking => ABlk x y (w_delay m ld) (w_delay m rd)
              end)
    | GIf c t f =>
        do x <- w_expr c; do y <- allsome (map (w_stmt m) t);
        do z <- match f with None => Some None | Some l => option_map (fun z => Some (optimize_block z)) (allsome (map (w_stmt m) l)) end;
        Some (AIf x (optimize_block y) (w_else x z))
    | GFor pre c post b =>
        do p <- w_stmt MBlocking pre; do x <- w_expr c; do q <- w_stmt MBlocking post;
        do y <- allsome (map (w_stmt m) b); Some (AFor p x q (optimize_block y))
    | GWhile c b => do x <- w_expr c; do y <- allsome (map (w_stmt m) b); Some (AWhile x (optimize_block y))
    | GCase k c ws =>
        do x <- w_expr c;
        do y <- allsome (map (fun w =>
              do es <- match fst w with None | Some [] => Some None | Some es => option_map Some (allsome (map w_expr es)) end;
              do b <- allsome (map (w_stmt m) (snd w)); Some (es, optimize_block b)) ws);
        Some (ACase k x y)
    | GList l => option_map optimize_block (allsome (map (w_stmt m) l))
    | GSingle e => option_map ASingle (w_expr e)
    | GDelay d => option_map ADelay (w_expr d)
    | GWait c b =>
        match m with
        | MAlways => None                                (* no visit_Wait in VerilogAlwaysVisitor *)
        | MBlocking =>
            do x <- w_expr c;
            do y <- match b with None => Some None | Some l => option_map (fun z => Some (optimize_block z)) (allsome (map (w_stmt m) l)) end;
            Some (AWait x y)
        end
    | GForever b =>
        match m with
        | MAlways => None
        | MBlocking => option_map (fun y => AForever (optimize_block y)) (allsome (map (w_stmt m) b))
        end
    end.

  (** [make_width] [to_verilog.py:564-575]; the outer [None]: no width *)
  Definition w_width_ (w : gwidth) : option awidth :=
    match w_raw w, w_width w with
    | Some (a, b), _ => do x <- w_expr a; do y <- w_expr b; Some (Some (x, y))
    | None, Some a => do x <- w_expr a; Some (Some (ABin AMinus x (AConst "1"), AConst "0"))
    | None, None => Some None
    end.
  (** [to_verilog.py:704-717, 723-727] *)
  Definition w_sens (s : gsens) : option asens :=
    match s with
    | GPos e => option_map APos (w_expr e) | GNeg e => option_map ANeg (w_expr e)
    | GAll => Some AAll | GLevel e => option_map ALevel (w_expr e)
    end.
  (** the io variables that are outputs, and the variables that are registers [module.py:1179-1198] *)
  Variable is_output is_reg : string -> bool.
  (** [isinstance(i, vast.GenerateStatement)] [to_verilog.py:787-791] *)
  Definition ungen (a : aitem) : list aitem := match a with AGen l => l | _ => [a] end.
  (** items of a module or of a generate block; an inner [None] is removed.  Parameters come in
      front of the items [to_verilog.py:604-637, 777-813]. *)
  Fixpoint w_item (i : gitem) : option (option aitem) :=
    let block (is : list gitem) : option (list aitem) :=
      do ps <- allsome (map (fun i => match i with GParam _ _ _ _ => w_item i | _ => Some None end) is);
      do xs <- allsome (map (fun i => match i with GParam _ _ _ _ => Some None | _ => w_item i end) is);
      Some (flat_map (fun o => match o with Some a => [a] | None => [] end) ps ++
            flat_map (fun o => match o with Some a => ungen a | None => [] end) xs)%list in
    match i with
    | GParam n v w s => do x <- w_expr v; do y <- w_width_ w; Some (Some (AParam n x y s))
    | GLocal n v w s => do x <- w_expr v; do y <- w_width_ w; Some (Some (ALocal n x y s))
    | GVar k n w s =>
        if match k with Reg => is_output n | _ => false end then Some None
        else do y <- w_width_ w; Some (Some (AVar k n y s))
    | GAssign l r _ _ => do x <- w_expr l; do y <- w_expr r; Some (Some (AAssign x y None None))   (* [732-739] *)
    | GAlways ss b =>
        do x <- allsome (map w_sens ss); do y <- allsome (map (w_stmt MAlways) b);
        Some (Some (AAlways (match x with [] => [AAll] | _ => x end) (optimize_block y)))
    | GInitial b => do y <- allsome (map (w_stmt MBlocking) b); Some (Some (AInitial (optimize_block y)))
    | GInst m n ps qs =>
        do x <- allsome (map (fun p => option_map (pair (fst p)) (w_expr (snd p))) ps);
        do y <- allsome (map (fun q => match snd q with Some e => option_map (fun a => (fst q, Some a)) (w_expr e) | None => None end) qs);
        Some (Some (AInst m n x y))
    | GGenFor pre c post sc is =>
        do p <- w_stmt MBlocking pre; do x <- w_expr c; do q <- w_stmt MBlocking post; do y <- block is;
        Some (Some (AGen [AGenFor p x q sc y]))
    | GGenIf c ts tis fs fis =>
        do x <- w_expr c; do y <- block tis; do z <- block fis;
        Some (Some (AGen [AGenIf x ts y (match z with [] => None | _ => Some (ABody fs z) end)]))
    end.
  (** [visit_Input], [visit_Output], [visit_Inout] [to_verilog.py:655-679] *)
  Definition w_port (p : gport) : option aport :=
    do y <- w_width_ (gp_width p);
    Some (mkAP (gp_dir p) (gp_name p) y (gp_signed p)
               (match gp_dir p with Output => if is_reg (gp_name p) then Some (y, gp_signed p) else None | _ => None end)).
End Write.
Definition has_output (ps : list gport) (n : string) : bool :=
  existsb (fun p => (gp_name p =? n)%string && match gp_dir p with Output => true | _ => false end) ps.
Definition has_reg (is : list gitem) (n : string) : bool :=
  existsb (fun i => match i with GVar Reg x _ _ => (x =? n)%string | _ => false end) is.
(** [visit_Module] [to_verilog.py:614-637] *)
Definition w_mod (resets : aexpr -> bool) (m : gmod) : option amod :=
  let item := w_item resets (has_output (gm_ports m)) in
  do ps <- allsome (map (fun i => match i with GParam _ _ _ _ => item i | _ => Some None end) (gm_items m));
  do qs <- allsome (map (w_port (has_reg (gm_items m))) (gm_ports m));
  do xs <- allsome (map (fun i => match i with GParam _ _ _ _ => Some None | _ => item i end) (gm_items m));
  Some (mkAM (gm_name m) (flat_map (fun o => match o with Some a => [a] | None => [] end) ps) qs
             (flat_map (fun o => match o with Some a => [a] | None => [] end) xs)).

(** * Reading *)
(** [from_verilog.py:437-465] *)
Definition r_un (o : aun) : gun :=
  match o with
  | AUplus => GUplus | AUminus => GUminus | AUlnot => GUlnot | AUnot => GUnot | AUand => GUand | AUnand => GUnand
  | AUor => GUor | AUnor => GUnor | AUxor => GUxor | AUxnor => GUxnor
  end.
(** [from_verilog.py:467-580] *)
Definition r_bin (o : abin) : gbin :=
  match o with
  | APower => GPower | ATimes => GTimes | ADivide => GDivide | AMod => GMod | APlus => GPlus | AMinus => GMinus
  | ASll => GSll | ASrl => GSrl | ASra => GSra | ALessThan => GLessThan | AGreaterThan => GGreaterThan
  | ALessEq => GLessEq | AGreaterEq => GGreaterEq | AEq => GEq | ANotEq => GNotEq | AEql => GEql | ANotEql => GNotEql
  | AAnd => GAnd | AXor => GXor | AXnor => GXnor | AOr => GOr | ALand => GLand | ALor => GLor
  end.
(** [_type_check_var] of Pointer and Slice [vtypes.py:1622-1625, 1701-1704] *)
Definition selectable (e : gexpr) : bool := match e with GName _ | GPtr _ _ => true | _ => false end.
(** [from_verilog.py:217-253, 411-435, 582-586, 925-929] *)
Fixpoint r_expr (a : aexpr) : option gexpr :=
  match a with
  | AId n => Some (GName n)
  | AConst t => option_map GInt (int_text t None None false)
  | AStr s => Some (GStr s)
  | AUn o a => option_map (GUn (r_un o)) (r_expr a)
  | ABin o a b => do x <- r_expr a; do y <- r_expr b; Some (GBin (r_bin o) x y)
  | APointer v p => do x <- r_expr v; do y <- r_expr p; if selectable x then Some (GPtr x y) else None
  | APart v m l =>
      do x <- r_expr v; do y <- r_expr m; do z <- r_expr l; if selectable x then Some (GSlice x y z) else None
  | AConcat l => option_map GCat (allsome (map r_expr l))
  | ARepeat v n => do x <- r_expr v; do y <- r_expr n; Some (GRep x y)
  | ACond c t f => do x <- r_expr c; do y <- r_expr t; do z <- r_expr f; Some (GCond x y z)
  | ASys cmd l => option_map (GSys cmd) (allsome (map r_expr l))
  end.
(** [to_tuple] [from_verilog.py:97-100] *)
Definition to_tuple (s : gstmt) : list gstmt := match s with GList l => l | _ => [s] end.
(** [self.visit(node.ldelay.delay)]: only a number is taken (other delays are left out) *)
Definition r_delay (d : option adelay) : option (option Z) :=
  match d with
  | None => Some None
  | Some (DStmt (AConst t)) => match int_text t None None false with Some c => match ival c with VI z => Some (Some z) | VS _ => None end | None => None end
  | Some _ => None
  end.
(** [Case._type_check_statement] [vtypes.py:2073-2082]: the default comes last *)
Fixpoint default_last {A} (ws : list (option A * list gstmt)) : bool :=
  match ws with
  | [] => true
  | (None, _) :: r => match r with [] => true | _ => false end
  | _ :: r => default_last r
  end.
(** [from_verilog.py:616-745].  [gen]: the current module is a GenerateFor or GenerateIf (in an initial
    block); if and for become generate items then, which nothing prints. *)
Fixpoint r_stmt (gen : bool) (a : astmt) : option gstmt :=
  match a with
  | ABlock l _ => option_map GList (allsome (map (r_stmt gen) l))
  | ABlk l r ld rd =>
      do x <- r_expr l; do y <- r_expr r; do d <- r_delay ld; do e <- r_delay rd; Some (GSubst x y true d e)
  | ANon l r ld rd =>
      do x <- r_expr l; do y <- r_expr r; do d <- r_delay ld; do e <- r_delay rd; Some (GSubst x y false d e)
  | AIf c t f =>
      if gen then None else
      do x <- r_expr c; do y <- r_stmt gen t;
      do z <- match f with None => Some None | Some b => option_map (fun z => Some (to_tuple z)) (r_stmt gen b) end;
      Some (GIf x (to_tuple y) z)
  | AFor pre c post b =>
      if gen then None else
      do p <- r_stmt gen pre; do x <- r_expr c; do q <- r_stmt gen post; do y <- r_stmt gen b;
      Some (GFor p x q (to_tuple y))
  | AWhile c b => do x <- r_expr c; do y <- r_stmt gen b; Some (GWhile x (to_tuple y))
  | ACase k c ws =>
      do x <- r_expr c;
      do y <- allsome (map (fun w =>
            do es <- match fst w with
                     | None | Some [] => Some None
                     | Some es => option_map Some (allsome (map r_expr es))
                     end;
            do b <- r_stmt gen (snd w); Some (es, to_tuple b)) ws);
      if default_last y then Some (GCase k x y) else None
  | ASingle e => option_map GSingle (r_expr e)
  | ADelay d => option_map GDelay (r_expr d)
  | AWait c b =>
      do x <- r_expr c;
      do y <- match b with None => Some None | Some s => option_map (fun z => Some (to_tuple z)) (r_stmt gen s) end;
      Some (GWait x (match y with Some [] => None | _ => y end))
  | AForever b => option_map (fun y => GForever (to_tuple y)) (r_stmt gen b)
  end.
(** [to_width] [from_verilog.py:941-963]: the width attribute; [raw_width] is kept beside it *)
Definition to_width (m l : gexpr) : gexpr :=
  let num e := match e with GInt c => match ival c with VI z => GPy z | VS s => GStr s end | _ => e end in
  match num m, num l with
  | GPy a, GPy b => GPy (a - b + 1)
  | GPy a, b => GBin GPlus (GBin GMinus (GInt (int_num a None None false)) b) (GPy 1)
  | a, GPy b => if b =? 0 then GBin GPlus a (GPy 1) else GBin GMinus a (GPy (b - 1))
  | a, b => GBin GPlus (GBin GMinus a b) (GPy 1)
  end.
Definition r_width (w : awidth) : option gwidth :=
  match w with
  | None => Some (mkW None None)
  | Some (a, b) => do x <- r_expr a; do y <- r_expr b; Some (mkW (Some (x, y)) (Some (to_width x y)))
  end.
(** [from_verilog.py:602-614] *)
Definition r_sens (s : asens) : option gsens :=
  match s with
  | APos e => option_map GPos (r_expr e) | ANeg e => option_map GNeg (r_expr e)
  | AAll => Some GAll | ALevel e => option_map GLevel (r_expr e)
  end.
(** the current module: a Module, a GenerateFor or GenerateIf, a GenerateIfElse *)
Inductive place := PMod | PGen | PElse.
Definition in_gen (p : place) : bool := match p with PGen => true | _ => false end.
(** the objects added to the current module by the visit of an item
    [from_verilog.py:371-397, 588-608, 637-668, 703-707, 756-779, 861-923]: in a GenerateIfElse if and for
    are visited as statements, so that the objects of their branches and bodies are added as they
    stand *)
Fixpoint r_item (p : place) (a : aitem) : option (list gitem) :=
  let items (p : place) (l : list aitem) := option_map (@concat gitem) (allsome (map (r_item p) l)) in
  match a with
  | AParam n v w s => do x <- r_expr v; do y <- r_width w; Some [GParam n x y s]
  | ALocal n v w s => do x <- r_expr v; do y <- r_width w; Some [GLocal n x y s]
  | AVar k n w s => do y <- r_width w; Some [GVar k n y s]
  | AAssign l r None None => do x <- r_expr l; do y <- r_expr r; Some [GAssign x y None None]
  | AAssign _ _ _ _ => None                               (* node.ldelay.value: no such attribute [591-594] *)
  | AAlways ss b => do x <- allsome (map r_sens ss); do y <- r_stmt false b; Some [GAlways x (to_tuple y)]
  | AInitial b => do y <- r_stmt (in_gen p) b; Some [GInitial (to_tuple y)]
  | AInst m n ps qs =>
      do x <- allsome (map (fun q => option_map (pair (fst q)) (r_expr (snd q))) ps);
      do y <- allsome (map (fun q => option_map (pair (fst q)) (maybe r_expr (snd q))) qs);
      Some [GInst m n x y]
  | AGen is =>
      option_map (@concat gitem) (allsome (map (fun i =>
        match i with AGenFor _ _ _ _ _ | AGenIf _ _ _ _ => r_item PGen i | _ => None end) is))
  | AGenFor pre c post sc is =>
      if in_gen p then
        do x <- r_stmt (in_gen p) pre; do y <- r_expr c; do z <- r_stmt (in_gen p) post; do b <- items PGen is;
        Some [GGenFor x y z sc b]
      else do _ <- r_stmt false pre; do _ <- r_expr c; do _ <- r_stmt false post; items p is
  | AGenIf c ts tis f =>
      if in_gen p then
        do x <- r_expr c; do y <- items PGen tis;
        do z <- match f with
                | None => Some (None, [])
                | Some (ABody fs fis) => option_map (pair fs) (items PElse fis)
                | Some (AElse i) => option_map (pair None) (r_item PElse i)
                end;
        Some [GGenIf x ts y (fst z) (snd z)]
      else
        do _ <- r_expr c; do y <- items p tis;
        do z <- match f with
                | None => Some []
                | Some (ABody fs fis) => items p fis
                | Some (AElse i) => r_item p i
                end;
        Some (y ++ z)%list
  end.


(** [visit_Ioport], [visit_Output], ... [from_verilog.py:255-295, 366-369] *)
Definition r_port (p : aport) : option (gport * list gitem) :=
  do y <- r_width (ap_width p);
  do z <- match ap_reg p with
          | None => Some []
          | Some (w, s) => do v <- r_width w; Some [GVar Reg (ap_name p) v s]
          end;
  Some (mkGP (ap_dir p) (ap_name p) y (ap_signed p), z).
(** [visit_ModuleDef] [from_verilog.py:155-168] *)
Definition r_mod (a : amod) : option gmod :=
  do ps <- allsome (map (r_item PMod) (am_params a));
  do qs <- allsome (map r_port (am_ports a));
  do xs <- allsome (map (r_item PMod) (am_items a));
  Some (mkGM (am_name a) (map fst qs) (concat ps ++ concat (map snd qs) ++ concat xs)).
