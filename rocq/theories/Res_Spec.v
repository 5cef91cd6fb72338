(** When resolving parameters must succeed and what it must preserve. *)
From Verif Require Import Base Bits Vx_Model Vx_Sem Vx_Spec Res_Model.
Open Scope Z_scope.

(** no [$signed], which is never evaluated *)
Fixpoint plain (e : vx) : Prop :=
  match e with
  | XPy _ | XInt _ _ _ _ | XX _ | XVar _ | XSlice _ _ _ => True
  | XUn _ a | XRep a _ | XPtr _ a => plain a
  | XBin _ a b => plain a /\ plain b
  | XCond c t f => plain c /\ plain t /\ plain f
  | XCat es => (fix all es := match es with [] => True | a :: r => plain a /\ all r end) es
  | XSigned _ => False
  end.
(** a parameter can be resolved if all names in its value are given or can be resolved (before):
    it does not depend on itself or on an undefined name *)
Inductive resolvable (ps : list (nat * vx)) (given : table) : nat -> Prop :=
| resolvable_step n e : In (n, e) ps -> plain e ->
    (forall x, In x (vars e) -> given x <> None \/ resolvable ps given x) -> resolvable ps given n.
(** dependency chains *)
Inductive depends (ps : list (nat * vx)) (given : table) : nat -> nat -> Prop :=
| depends_one n e x : In (n, e) ps -> In x (vars e) -> given x = None -> depends ps given n x
| depends_more n x y : depends ps given n x -> depends ps given x y -> depends ps given n y.

(** ** Expressions on which replacement by 32-bit signed decimals keeps the meaning.  [b]: only
    whether the value is zero matters (a condition).  Constants must be 32 bits wide and signed, and
    no value that is computed at compile time may leave that range. *)
Definition small (z : Z) : Prop := - 2 ^ 31 < z < 2 ^ 31.
Section Keep.
  Variables (dw : nat -> Z) (ds : nat -> bool) (pw : nat -> Z) (d : table).
  Definition cst (e : vx) : option Z := match replace pw d e with Some (XPy z) => Some z | _ => None end.
  Fixpoint keep (b : bool) (e : vx) : Prop :=
    match e with
    | XPy _ => True
    | XInt v w base sg => if b then literal e v /\ small v else wd w = 32 /\ lit_signed w base sg = true
    | XX _ => False
    | XVar x => match d x with Some z => dw x = 32 /\ ds x = true /\ 0 <= z < 2 ^ 31 | None => True end
    | XUn o a =>
        match o with
        | UPlus | UMinus | UNot => keep false a /\ forall r, cst a = Some r -> small r /\ small (Z.lnot r)
        | ULnot => keep true a /\ forall r, cst a = Some r -> b = true /\ small r
        | _ => keep false a /\ cst a = None
        end
    | XBin o x y =>
        match o with
        | BLand | BLor => keep true x /\ keep true y /\ forall l, cst x = Some l \/ cst y = Some l -> small l /\ (cst x <> None -> cst y <> None -> b = true)
        | BLt | BGt | BLe | BGe | BEq | BNe =>
            keep false x /\ keep false y /\ forall l r, cst x = Some l -> cst y = Some r -> small l /\ small r /\ b = true
        | BXnor => keep false x /\ keep false y /\ (cst x = None \/ cst y = None)
        | _ => keep false x /\ keep false y /\ forall l r, cst x = Some l -> cst y = Some r ->
                 small l /\ small r /\ agrees o false l r /\ forall z, fold_bin o l r 32 32 = Some z -> small z
        end
    | XCond c t f => keep true c /\ keep false t /\ keep false f /\ forall x, cst c = Some x -> small x
    | XPtr x p => d x = None /\ keep false p
    | XSlice x _ _ => d x = None
    | XCat es => (fix all es := match es with [] => True | a :: r => keep false a /\ all r end) es /\
                 exists a, In a es /\ cst a = None
    | XRep a _ => keep false a /\ cst a = None
    | XSigned a => keep false a
    end.
End Keep.

(** ** Execution: assignments take effect at once in [cur] if blocking, and in [nxt] *)
Record store := mkStore { cur : nat -> Z; nxt : nat -> Z }.
Definition upd (f : nat -> Z) (x : nat) (v : Z) : nat -> Z := fun y => if Nat.eqb y x then v else f y.
Section Run.
  Variables (dw : nat -> Z) (ds : nat -> bool) (junk : Z).
  Definition env (s : store) : venv := mkEnv dw ds (cur s) junk.
  Definition set (blk : bool) (x : nat) (v : Z) (s : store) : store :=
    mkStore (if blk then upd (cur s) x v else cur s) (upd (nxt s) x v).
  Inductive run : list rs -> store -> store -> Prop :=
  | run_nil s : run [] s s
  | run_sub blk x e l s s' : run l (set blk x (assigned (env s) (dw x) e) s) s' -> run (RSub blk x e :: l) s s'
  | run_if c t f l s s1 s' : run (if truth (env s) c then t else f) s s1 -> run l s1 s' -> run (RIf c t f :: l) s s'
  | run_for i init cond post body l s s1 s' :
      loop i cond post body (set true i (assigned (env s) (dw i) init) s) s1 -> run l s1 s' ->
      run (RFor i init cond post body :: l) s s'
  | run_seq b l s s1 s' : run b s s1 -> run l s1 s' -> run (RSeq b :: l) s s'
  with loop : nat -> vx -> vx -> list rs -> store -> store -> Prop :=
  | loop_end i cond post body s : truth (env s) cond = false -> loop i cond post body s s
  | loop_step i cond post body s s1 s' : truth (env s) cond = true -> run body s s1 ->
      loop i cond post body (set true i (assigned (env s1) (dw i) post) s1) s' -> loop i cond post body s s'.
End Run.
(** no loop is left *)
Fixpoint loopless (s : rs) : Prop :=
  match s with
  | RSub _ _ _ => True
  | RIf _ t f => (fix all l := match l with [] => True | s :: r => loopless s /\ all r end) t /\
                 (fix all l := match l with [] => True | s :: r => loopless s /\ all r end) f
  | RFor _ _ _ _ _ => False
  | RSeq l => (fix all l := match l with [] => True | s :: r => loopless s /\ all r end) l
  end.
(** the same contents, but for the variables of the unrolled loops ([lv]) *)
Definition same (lv : nat -> bool) (s t : store) : Prop :=
  forall x, lv x = false -> cur s x = cur t x /\ nxt s x = nxt t x.

(** ** Statements whose loops can be unrolled: the loop variable is a 32-bit signed integer, not
    assigned in the body and not read outside of the loop, with values from 0 to 2^31-1 *)
Section Fine.
  Variables (dw : nat -> Z) (ds : nat -> bool) (pw : nat -> Z) (lv : nat -> bool).
  Definition reads (d : table) (e : vx) : Prop := forall x, In x (vars e) -> lv x = true -> d x <> None.
  Definition ok_expr (b : bool) (d : table) (e : vx) : Prop := keep dw ds pw d b e /\ reads d e.
  Inductive fine : table -> rs -> Prop :=
  | fine_sub d blk x e : ok_expr false d e -> lv x = false -> d x = None -> fine d (RSub blk x e)
  | fine_if d c t f : ok_expr true d c -> fines d t -> fines d f -> fine d (RIf c t f)
  | fine_for d i init cond post body k :
      lv i = true -> d i = None -> dw i = 32 -> ds i = true ->
      ok_expr false d init -> replace pw d init = Some (XPy k) ->
      keep dw ds pw d true cond -> keep dw ds pw d false post ->
      (forall cond' post', replace pw d cond = Some cond' -> replace pw d post = Some post' ->
         fine_loop d i cond' post' body k) ->
      fine d (RFor i init cond post body)
  | fine_seq d l : fines d l -> fine d (RSeq l)
  with fines : table -> list rs -> Prop :=
  | fines_nil d : fines d []
  | fines_cons d s l : fine d s -> fines d l -> fines d (s :: l)
  with fine_loop : table -> nat -> vx -> vx -> list rs -> Z -> Prop :=
  | fine_round d i cond post body k :
      0 <= k < 2 ^ 31 -> ok_expr true (put d i k) cond ->
      (forall c, cst pw (put d i k) cond = Some c -> small c) ->
      ((exists c, cst pw (put d i k) cond = Some c /\ c <> 0) -> fines (put d i k) body) ->
      ((exists c, cst pw (put d i k) cond = Some c /\ c <> 0) -> ok_expr false (put d i k) post) ->
      (forall k', (exists c, cst pw (put d i k) cond = Some c /\ c <> 0) ->
         cst pw (put d i k) post = Some k' -> fine_loop d i cond post body k') ->
      fine_loop d i cond post body k.
End Fine.
(** the values of the table are in the store *)
Definition tabled (d : table) (s : store) : Prop := forall x z, d x = Some z -> cur s x = z mod 2 ^ 32.
