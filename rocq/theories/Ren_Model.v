(** Renaming visitors (veriloggen/core/rename_visitor.py, veriloggen/seq/subst_visitor.py) and the
    wrapper around the external expression optimizer (veriloggen/optimizer/optimizer.py). *)
From Coq Require Import String.
From Verif Require Import Base Bits Vx_Model Res_Model.
Open Scope Z_scope.

(** ** Names: [RenameVisitor.visit__Variable] [rename_visitor.py:59-64] *)
Definition new_name (prefix postfix : string) (exclude : list string) (name : string) : string :=
  if existsb (String.eqb name) exclude then name else (prefix ++ name ++ postfix)%string.

(** ** Expressions [rename_visitor.py:23-106].  Variables are renamed by [f]; [None]: TypeError
    ([IntX] is not supported, system tasks only by [SrcRenameVisitor], subst_visitor.py:200-202:
    [tasks]). *)
Section Rename.
  Variable tasks : bool.
  Variable f : nat -> nat.
  Fixpoint rename (e : vx) : option vx :=
    match e with
    | XPy z => Some (XPy z)
    | XInt v w b s => Some (XInt v w b s)
    | XX _ => None
    | XVar x => Some (XVar (f x))
    | XUn o a => option_map (XUn o) (rename a)
    | XBin o a b => match rename a, rename b with Some a', Some b' => Some (XBin o a' b') | _, _ => None end
    | XCond c t g => match rename c, rename t, rename g with Some c', Some t', Some g' => Some (XCond c' t' g') | _, _, _ => None end
    | XPtr x p => option_map (XPtr (f x)) (rename p)
    | XSlice x m l => Some (XSlice (f x) m l)
    | XCat es => option_map XCat (all_some (map rename es))
    | XRep a n => option_map (fun a' => XRep a' n) (rename a)
    | XSigned a => if tasks then option_map XSigned (rename a) else None
    end.
End Rename.

(** ** Statements.  [SrcRenameVisitor] [subst_visitor.py:135-218] renames what is read; targets keep
    their names.  The copy of an assignment is built without [blk] [subst_visitor.py:204-207]; the
    head of a loop is printed as blocking assignments anyway [to_verilog.py:414-420]. *)
Section SrcRename.
  Variable f : nat -> nat.
  Fixpoint src_rename (s : rs) : option rs :=
    match s with
    | RSub blk x e => option_map (RSub false x) (rename true f e)
    | RIf c t g =>
        match rename true f c, all_some (map src_rename t), all_some (map src_rename g) with
        | Some c', Some t', Some g' => Some (RIf c' t' g')
        | _, _, _ => None
        end
    | RFor i init cond post body =>
        match rename true f init, rename true f cond, rename true f post, all_some (map src_rename body) with
        | Some init', Some cond', Some post', Some body' => Some (RFor i init' cond' post' body')
        | _, _, _, _ => None
        end
    | RSeq l => option_map RSeq (all_some (map src_rename l))
    end.
  (** [as_module]: every statement of the body is renamed [seq.py:570-571] *)
  Definition src_renames (l : list rs) : option (list rs) := all_some (map src_rename l).
End SrcRename.
(** [SubstSrcVisitor]: the variables read [subst_visitor.py:76-132, collect_visitor.py:60-98] (widths
    and initial values of the variables are left out) *)
Fixpoint sources (s : rs) : list nat :=
  match s with
  | RSub _ _ e => vars e
  | RIf c t g => vars c ++ flat_map sources t ++ flat_map sources g
  | RFor i init cond post body => vars init ++ vars cond ++ vars post ++ flat_map sources body
  | RSeq l => flat_map sources l
  end.
(** [SubstDstVisitor]: the variables assigned [subst_visitor.py:13-73]; the loop variable, visited,
    is dropped from the result [subst_visitor.py:51-55] *)
Fixpoint dests (s : rs) : list nat :=
  match s with
  | RSub _ x _ => [x]
  | RIf _ t g => flat_map dests t ++ flat_map dests g
  | RFor _ _ _ _ body => flat_map dests body
  | RSeq l => flat_map dests l
  end.

(** ** The optimizer wrapper.  Trees of pyverilog.dataflow as far as they are built and read *)
Inductive df := DTerm (x : nat) | DInt (z : Z) | DOp1 (o : uop) (a : df) | DOp2 (o : bop) (a b : df).
(** [makeDFTree] [optimizer.py:29-84]; [None]: an exception (conditions: [node.cond] does not exist;
    selections, concatenations, IntX: unsupported).  [$signed], whose copy is malformed
    [optimizer.py:157-158], is left out. *)
Fixpoint make_df (e : vx) : option df :=
  match e with
  | XPy z => Some (DInt z)
  | XInt v _ _ _ => Some (DInt v)
  | XVar x => Some (DTerm x)
  | XUn o a => option_map (DOp1 o) (make_df a)
  | XBin o a b => match make_df a, make_df b with Some a', Some b' => Some (DOp2 o a' b') | _, _ => None end
  | _ => None
  end.
(** the operators with an entry in the table [optimizer.py:87-113] *)
Definition has_op1 (o : uop) : bool := match o with UPlus | UMinus | ULnot | UNot => true | _ => false end.
Definition has_op2 (o : bop) : bool := match o with BXnor => false | _ => true end.
(** [makeASTTree] [optimizer.py:120-160] *)
Fixpoint make_ast (t : df) : option vx :=
  match t with
  | DTerm x => Some (XVar x)
  | DInt z => Some (int_node z None None false)
  | DOp1 o a => if has_op1 o then option_map (XUn o) (make_ast a) else None
  | DOp2 o a b =>
      if has_op2 o then match make_ast a, make_ast b with Some a', Some b' => Some (XBin o a' b') | _, _ => None end else None
  end.
(** [try_optimize] [optimizer.py:13-27]; [opt]: [VerilogOptimizer.optimize] of pyverilog, not part
    of this repository ([None]: an exception) *)
Definition try_optimize (opt : df -> option df) (e : vx) : vx :=
  match make_df e with
  | None => e
  | Some t => match opt t with
              | None => e
              | Some t' => match make_ast t' with Some e' => e' | None => e end
              end
  end.
