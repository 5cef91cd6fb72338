(** What objects and Verilog trees mean.  Values are left open: an algebra gives the meaning of names,
    literals and Verilog's operators (a value may depend on context width and state), a machine the
    meaning of assignments and tests.  A process is the set of its finite runs, complete or cut
    short, during which delays and waits let the rest of the design change the state. *)
From Coq Require Import String Ascii Permutation.
From Verif Require Import Base Lit_Model Lit_Spec Rw_Model.
Open Scope string_scope.
Open Scope list_scope.
Open Scope Z_scope.

Record alg := mkAlg {
  D : Type;
  d_name : string -> D; d_lit : literal -> D; d_raw : string -> D; d_str : string -> D;   (* [d_raw]: literals with x, z *)
  d_un : string -> D -> D; d_bin : string -> D -> D -> D;                                  (* by operator symbol *)
  d_sel : D -> D -> D; d_part : D -> D -> D -> D; d_cat : list D -> D; d_rep : D -> D -> D; d_cond : D -> D -> D -> D;
  d_sys : string -> list D -> D }.

(** the symbols veriloggen's operator classes stand for *)
Definition g_un (o : gun) : string :=
  match o with
  | GUplus => "+" | GUminus => "-" | GUlnot => "!" | GUnot => "~" | GUand => "&" | GUnand => "~&" | GUor => "|" | GUnor => "~|"
  | GUxor => "^" | GUxnor => "~^"
  end.
Definition g_bin (o : gbin) : string :=
  match o with
  | GPower => "**" | GTimes => "*" | GDivide => "/" | GMod => "%" | GPlus => "+" | GMinus => "-" | GSll => "<<" | GSrl => ">>" | GSra => ">>>"
  | GLessThan => "<" | GGreaterThan => ">" | GLessEq => "<=" | GGreaterEq => ">=" | GEq => "==" | GNotEq => "!=" | GEql => "===" | GNotEql => "!=="
  | GAnd => "&" | GXor => "^" | GXnor => "~^" | GOr => "|" | GLand => "&&" | GLor => "||"
  end.
(** the symbols pyverilog prints for its classes *)
Definition a_un (o : aun) : string :=
  match o with
  | AUplus => "+" | AUminus => "-" | AUlnot => "!" | AUnot => "~" | AUand => "&" | AUnand => "~&" | AUor => "|" | AUnor => "~|"
  | AUxor => "^" | AUxnor => "~^"
  end.
Definition a_bin (o : abin) : string :=
  match o with
  | APower => "**" | ATimes => "*" | ADivide => "/" | AMod => "%" | APlus => "+" | AMinus => "-" | ASll => "<<" | ASrl => ">>" | ASra => ">>>"
  | ALessThan => "<" | AGreaterThan => ">" | ALessEq => "<=" | AGreaterEq => ">=" | AEq => "==" | ANotEq => "!=" | AEql => "===" | ANotEql => "!=="
  | AAnd => "&" | AXor => "^" | AXnor => "~^" | AOr => "|" | ALand => "&&" | ALor => "||"
  end.

(** number literals: a plain decimal number is signed, others are as marked (IEEE 1364-2005, 3.5.1) *)
Definition num (z : Z) : literal := mkLit (z <? 0) None true (Z.abs z).
Definition g_lit (c : intc) : literal + string :=
  match ival c with
  | VI z => inl (mkLit (z <? 0) (iwidth c) (match iwidth c, ibase c with None, None => true | _, _ => isigned c end) (Z.abs z))
  | VS s => inr ((match iwidth c with Some w => pystr w | None => "" end) ++ "'" ++ (if isigned c then "s" else "") ++
                 (match ibase c with Some 2 => "b" | Some 8 => "o" | Some 16 => "h" | _ => "d" end) ++ s)%string
  end.
Definition a_lit (t : string) : literal + string := match read_literal t with Some l => inl l | None => inr t end.

Section Expr.
  Variable A : alg.
  Definition d_const (l : literal + string) : D A := match l with inl l => d_lit A l | inr t => d_raw A t end.
  Fixpoint ge (e : gexpr) : D A :=
    match e with
    | GName n => d_name A n
    | GPy z => d_lit A (num z)
    | GBool b => d_lit A (num (if b then 1 else 0))
    | GInt c => d_const (g_lit c)
    | GStr s => d_str A s
    | GUn o a => d_un A (g_un o) (ge a)
    | GBin o a b => d_bin A (g_bin o) (ge a) (ge b)
    | GSkip a => ge a
    | GPtr v p => d_sel A (ge v) (ge p)
    | GSlice v m l => d_part A (ge v) (ge m) (ge l)
    | GCat l => d_cat A (map ge l)
    | GRep v n => d_rep A (match v with GCat _ => ge v | _ => d_cat A [ge v] end) (ge n)
    | GCond c t f => d_cond A (ge c) (ge t) (ge f)
    | GSys cmd l => d_sys A cmd (map ge l)
    end.
  Fixpoint ae (e : aexpr) : D A :=
    match e with
    | AId n => d_name A n
    | AConst t => d_const (a_lit t)
    | AStr s => d_str A s
    | AUn o a => d_un A (a_un o) (ae a)
    | ABin o a b => d_bin A (a_bin o) (ae a) (ae b)
    | APointer v p => d_sel A (ae v) (ae p)
    | APart v m l => d_part A (ae v) (ae m) (ae l)
    | AConcat l => d_cat A (map ae l)
    | ARepeat v n => d_rep A (match v with AConcat _ => ae v | _ => d_cat A [ae v] end) (ae n)
    | ACond c t f => d_cond A (ae c) (ae t) (ae f)
    | ASys cmd l => d_sys A cmd (map ae l)
    end.
End Expr.

(** ** Processes *)
Record machine (A : alg) := mkMachine {
  St : Type; Up : Type;                                   (* states; scheduled updates *)
  truth : D A -> St -> bool;
  store : D A -> D A -> St -> St -> St;                   (* target, value, state at the evaluation, state at the update *)
  plan : option (D A) -> D A -> D A -> St -> Up;          (* non-blocking: delay, target, value *)
  meets : bool -> D A -> D A -> St -> bool }.             (* case items; [true]: casex *)
Arguments St {A}. Arguments Up {A}. Arguments truth {A}. Arguments store {A}. Arguments plan {A}. Arguments meets {A}.

Section Process.
  Variable A : alg.
  Variable M : machine A.
  Definition conf := (St M * list (Up M))%type.
  (** a delay or wait (a run may end inside of it), with the states before and after; a system task with the state it sees *)
  Inductive lab := LDelay (d : D A) (c c' : conf) | LUntil (d : D A) (c c' : conf) | LTask (d : D A) (c : conf).
  Inductive res := Fin (c : conf) | Cut (c : conf).
  Definition proc := conf -> list lab -> res -> Prop.
  Definition same (P Q : proc) : Prop := forall c l r, P c l r <-> Q c l r.

  Definition now (f : conf -> conf) : proc := fun c l r => l = [] /\ r = Fin (f c).
  Definition pause (f : conf -> conf -> lab) (ok : conf -> Prop) (g : conf -> conf -> conf) : proc := fun c l r =>
    (l = [] /\ r = Cut c) \/ exists c', ok c' /\ l = [f c c'] /\ r = Fin (g c c').
  Inductive seqp (P Q : proc) : proc :=
  | seq_fin c l1 c1 l2 r : P c l1 (Fin c1) -> Q c1 l2 r -> seqp P Q c (l1 ++ l2) r
  | seq_cut c l c1 : P c l (Cut c1) -> seqp P Q c l (Cut c1).
  Definition pick (t : conf -> bool) (P Q : proc) : proc := fun c l r => if t c then P c l r else Q c l r.
  Inductive loop (t : conf -> bool) (P : proc) : proc :=
  | loop_cut c : loop t P c [] (Cut c)
  | loop_end c : t c = false -> loop t P c [] (Fin c)
  | loop_step c l1 c1 l2 r : t c = true -> P c l1 (Fin c1) -> loop t P c1 l2 r -> loop t P c (l1 ++ l2) r
  | loop_in c l c1 : t c = true -> P c l (Cut c1) -> loop t P c l (Cut c1).
  Definition skip : proc := now (fun c => c).
  Definition none : proc := fun _ _ _ => False.           (* not Verilog *)
  Definition is_true (d : D A) (c : conf) : bool := truth M d (fst c).
  Definition delay (d : D A) : proc := pause (LDelay d) (fun _ => True) (fun _ c' => c').
  Definition until (d : D A) : proc :=
    pick (is_true d) skip (pause (LUntil d) (fun c' => is_true d c' = true) (fun _ c' => c')).
  Definition first (d : option (D A)) (P : proc) : proc := match d with Some d => seqp (delay d) P | None => P end.
  Definition blocking (l r : D A) (ld rd : option (D A)) : proc :=
    first ld (match rd with
              | None => now (fun c => (store M l r (fst c) (fst c), snd c))
              | Some d => pause (LDelay d) (fun _ => True) (fun c c' => (store M l r (fst c) (fst c'), snd c'))
              end).
  Definition nonblocking (l r : D A) (ld rd : option (D A)) : proc :=
    first ld (now (fun c => (fst c, snd c ++ [plan M rd l r (fst c)])%list)).
  Definition task (d : D A) : proc := fun c l r => l = [LTask d c] /\ r = Fin c.
  (** the first arm with a matching expression, otherwise the default arm *)
  Fixpoint arm (k : bool) (d : D A) (ws : list (option (list (D A)) * proc)) (c : conf) : option proc :=
    match ws with
    | [] => None
    | (Some es, P) :: r => if existsb (fun e => meets M k d e (fst c)) es then Some P else arm k d r c
    | (None, _) :: r => arm k d r c
    end.
  Fixpoint default_arm (ws : list (option (list (D A)) * proc)) : proc :=
    match ws with [] => skip | (None, P) :: _ => P | _ :: r => default_arm r end.
  Definition cases (k : bool) (d : D A) (ws : list (option (list (D A)) * proc)) : proc := fun c l r =>
    match arm k d ws c with Some P => P c l r | None => default_arm ws c l r end.

  (** objects: an assignment in an initial block is blocking *)
  Fixpoint gs (m : vmode) (s : gstmt) : proc :=
    let body (l : list gstmt) := fold_right (fun s P => seqp (gs m s) P) skip l in
    let dl (d : option Z) := option_map (fun z => d_lit A (num z)) d in
    match s with
    | GSubst l r blk ld rd =>
        (match m with MBlocking => blocking | MAlways => if blk then blocking else nonblocking end)
          (ge A l) (ge A r) (dl ld) (dl rd)
    | GIf c t f => pick (is_true (ge A c)) (body t) (match f with Some l => body l | None => skip end)
    | GFor pre c post b => seqp (gs MBlocking pre) (loop (is_true (ge A c)) (seqp (body b) (gs MBlocking post)))
    | GWhile c b => loop (is_true (ge A c)) (body b)
    | GCase k c ws => cases k (ge A c) (map (fun w => (option_map (map (ge A)) (fst w), body (snd w))) ws)
    | GList l => body l
    | GSingle e => task (ge A e)
    | GDelay d => delay (ge A d)
    | GWait c b => seqp (until (ge A c)) (match b with Some l => body l | None => skip end)
    | GForever b => loop (fun _ => true) (body b)
    end.
  Definition gss (m : vmode) (l : list gstmt) : proc := fold_right (fun s P => seqp (gs m s) P) skip l.
  (** Verilog; a delay that is no delay control is no Verilog *)
  Definition da (d : option adelay) : option (option (D A)) :=
    match d with None => Some None | Some (DStmt e) => Some (Some (ae A e)) | Some (DRaw _) => None end.
  Fixpoint as_ (a : astmt) : proc :=
    match a with
    | ABlock l _ => fold_right (fun s P => seqp (as_ s) P) skip l
    | ABlk l r ld rd => match da ld, da rd with Some x, Some y => blocking (ae A l) (ae A r) x y | _, _ => none end
    | ANon l r ld rd => match da ld, da rd with Some x, Some y => nonblocking (ae A l) (ae A r) x y | _, _ => none end
    | AIf c t f => pick (is_true (ae A c)) (as_ t) (match f with Some s => as_ s | None => skip end)
    | AFor pre c post b => seqp (as_ pre) (loop (is_true (ae A c)) (seqp (as_ b) (as_ post)))
    | AWhile c b => loop (is_true (ae A c)) (as_ b)
    | ACase k c ws => cases k (ae A c) (map (fun w => (option_map (map (ae A)) (fst w), as_ (snd w))) ws)
    | ASingle e => task (ae A e)
    | ADelay d => delay (ae A d)
    | AWait c b => seqp (until (ae A c)) (match b with Some s => as_ s | None => skip end)
    | AForever b => loop (fun _ => true) (as_ b)
    end.

  (** ** Modules: the declarations and processes left after the generate constructs are worked out *)
  Inductive msens := SPos (d : D A) | SNeg (d : D A) | SLevel (d : D A).
  Inductive leaf :=
  | LfParam (n : string) (v : D A) (w : option (D A * D A)) (s : bool)
  | LfLocal (n : string) (v : D A) (w : option (D A * D A)) (s : bool)
  | LfVar (k : vkind) (n : string) (w : option (D A * D A)) (s : bool)
  | LfAssign (l r : D A) (ld rd : option (option (D A)))
  | LfAlways (sens : option (list msens)) (P : proc)       (* [None]: @* *)
  | LfInitial (P : proc)
  | LfInst (m n : string) (ps : list (option string * D A)) (qs : list (option string * option (D A))).
  Inductive leq : leaf -> leaf -> Prop :=
  | leq_same x : leq x x
  | leq_always s P Q : same P Q -> leq (LfAlways s P) (LfAlways s Q)
  | leq_initial P Q : same P Q -> leq (LfInitial P) (LfInitial Q).
  (** generate loops: values of the genvars, tests and assignments on them *)
  Variable G : Type.
  Variable gtest : D A -> G -> bool.
  Variable gset : D A -> D A -> G -> G.
  Definition place_ := list (option string * G).           (* the enclosing scopes *)
  Definition found := list (place_ * G * leaf)%type.
  Definition alike (x y : found) : Prop :=
    exists z, Permutation x z /\ Forall2 (fun a b => fst a = fst b /\ leq (snd a) (snd b)) z y.

  (** the bounds of a vector: as given, or [width-1:0] *)
  Definition gw (w : gwidth) : option (D A * D A) :=
    match w_raw w, w_width w with
    | Some (m, l), _ => Some (ge A m, ge A l)
    | None, Some n => Some (d_bin A "-" (ge A n) (d_lit A (num 1)), d_lit A (num 0))
    | None, None => None
    end.
  Definition aw (w : awidth) : option (D A * D A) := option_map (fun p => (ae A (fst p), ae A (snd p))) w.
  Definition gsens_ (ss : list gsens) : option (list msens) :=
    if existsb (fun s => match s with GAll => true | _ => false end) ss || match ss with [] => true | _ => false end then None
    else Some (flat_map (fun s => match s with GPos e => [SPos (ge A e)] | GNeg e => [SNeg (ge A e)] | GLevel e => [SLevel (ge A e)] | GAll => [] end) ss).
  Definition asens_ (ss : list asens) : option (list msens) :=
    if existsb (fun s => match s with AAll => true | _ => false end) ss then None
    else Some (flat_map (fun s => match s with APos e => [SPos (ae A e)] | ANeg e => [SNeg (ae A e)] | ALevel e => [SLevel (ae A e)] | AAll => [] end) ss).
  Definition gleaf (i : gitem) : option leaf :=
    let dl (d : option Z) := Some (option_map (fun z => d_lit A (num z)) d) in
    match i with
    | GParam n v w s => Some (LfParam n (ge A v) (gw w) s)
    | GLocal n v w s => Some (LfLocal n (ge A v) (gw w) s)
    | GVar k n w s => Some (LfVar k n (gw w) s)
    | GAssign l r ld rd => Some (LfAssign (ge A l) (ge A r) (dl ld) (dl rd))
    | GAlways ss b => Some (LfAlways (gsens_ ss) (gss MAlways b))
    | GInitial b => Some (LfInitial (gss MBlocking b))
    | GInst m n ps qs => Some (LfInst m n (map (fun p => (fst p, ge A (snd p))) ps) (map (fun q => (fst q, option_map (ge A) (snd q))) qs))
    | GGenFor _ _ _ _ _ | GGenIf _ _ _ _ _ => None
    end.
  Definition aleaf (i : aitem) : option leaf :=
    match i with
    | AParam n v w s => Some (LfParam n (ae A v) (aw w) s)
    | ALocal n v w s => Some (LfLocal n (ae A v) (aw w) s)
    | AVar k n w s => Some (LfVar k n (aw w) s)
    | AAssign l r ld rd => Some (LfAssign (ae A l) (ae A r) (da ld) (da rd))
    | AAlways ss b => Some (LfAlways (asens_ ss) (as_ b))
    | AInitial b => Some (LfInitial (as_ b))
    | AInst m n ps qs => Some (LfInst m n (map (fun p => (fst p, ae A (snd p))) ps) (map (fun q => (fst q, option_map (ae A) (snd q))) qs))
    | AGen _ | AGenFor _ _ _ _ _ | AGenIf _ _ _ _ => None
    end.
  (** [gfound g p is x]: with genvars [g], in scope [p], the items [is] come to [x] *)
  Inductive gfound : G -> place_ -> list gitem -> found -> Prop :=
  | gf_nil g p : gfound g p [] []
  | gf_leaf g p i f r x : gleaf i = Some f -> gfound g p r x -> gfound g p (i :: r) ((p, g, f) :: x)
  | gf_if g p c ts tis fs fis r x y :
      gfound g ((if gtest (ge A c) g then ts else fs, g) :: p) (if gtest (ge A c) g then tis else fis) x -> gfound g p r y ->
      gfound g p (GGenIf c ts tis fs fis :: r) (x ++ y)
  | gf_for g p l e c post sc is r b x y :
      ggen (gset (ge A l) (ge A e) g) p c post sc is x -> gfound g p r y ->
      gfound g p (GGenFor (GSubst l e b None None) c post sc is :: r) (x ++ y)
  with ggen : G -> place_ -> gexpr -> gstmt -> option string -> list gitem -> found -> Prop :=
  | gg_end g p c post sc is : gtest (ge A c) g = false -> ggen g p c post sc is []
  | gg_step g p c l e b sc is x y : gtest (ge A c) g = true -> gfound g ((sc, g) :: p) is x ->
      ggen (gset (ge A l) (ge A e) g) p c (GSubst l e b None None) sc is y ->
      ggen g p c (GSubst l e b None None) sc is (x ++ y).
  Inductive afound : G -> place_ -> list aitem -> found -> Prop :=
  | af_nil g p : afound g p [] []
  | af_leaf g p i f r x : aleaf i = Some f -> afound g p r x -> afound g p (i :: r) ((p, g, f) :: x)
  | af_gen g p is r x y : afound g p is x -> afound g p r y -> afound g p (AGen is :: r) (x ++ y)
  | af_then g p c ts tis f r x y : gtest (ae A c) g = true -> afound g ((ts, g) :: p) tis x -> afound g p r y ->
      afound g p (AGenIf c ts tis f :: r) (x ++ y)
  | af_else g p c ts tis f r x y : gtest (ae A c) g = false -> afounde g p f x -> afound g p r y ->
      afound g p (AGenIf c ts tis f :: r) (x ++ y)
  | af_for g p l e c post sc is r x y :
      agen (gset (ae A l) (ae A e) g) p c post sc is x -> afound g p r y ->
      afound g p (AGenFor (ABlk l e None None) c post sc is :: r) (x ++ y)
  with afounde : G -> place_ -> option agblock -> found -> Prop :=
  | ae_none g p : afounde g p None []
  | ae_body g p sc is x : afound g ((sc, g) :: p) is x -> afounde g p (Some (ABody sc is)) x
  | ae_elif g p i x : afound g ((None, g) :: p) [i] x -> afounde g p (Some (AElse i)) x
  with agen : G -> place_ -> aexpr -> astmt -> option string -> list aitem -> found -> Prop :=
  | ag_end g p c post sc is : gtest (ae A c) g = false -> agen g p c post sc is []
  | ag_step g p c l e sc is x y : gtest (ae A c) g = true -> afound g ((sc, g) :: p) is x ->
      agen (gset (ae A l) (ae A e) g) p c (ABlk l e None None) sc is y ->
      agen g p c (ABlk l e None None) sc is (x ++ y).
  (** the same designs *)
  Definition eqv (X Y : found -> Prop) : Prop :=
    (forall x, X x -> exists y, Y y /\ alike x y) /\ (forall y, Y y -> exists x, X x /\ alike x y).
End Process.
(** ports: direction, name, range, sign *)
Definition gports (A : alg) (m : gmod) := map (fun p => (gp_dir p, gp_name p, gw A (gp_width p), gp_signed p)) (gm_ports m).
Definition aports (A : alg) (a : amod) := map (fun p => (ap_dir p, ap_name p, aw A (ap_width p), ap_signed p)) (am_ports a).
(** "output reg" also declares a variable *)
Definition port_reg (p : aport) : list aitem := match ap_reg p with Some (w, s) => [AVar Reg (ap_name p) w s] | None => [] end.
Definition all_items (a : amod) : list aitem := am_params a ++ flat_map port_reg (am_ports a) ++ am_items a.
Definition mod_means (m : gmod) (a : amod) : Prop :=
  gm_name m = am_name a /\
  forall A, gports A m = aports A a /\
  forall M G gtest gset g p, eqv A M G (gfound A M G gtest gset g p (gm_items m)) (afound A M G gtest gset g p (all_items a)).
Definition same_mod (a b : amod) : Prop :=
  am_name a = am_name b /\
  forall A, aports A a = aports A b /\
  forall M G gtest gset g p, eqv A M G (afound A M G gtest gset g p (all_items a)) (afound A M G gtest gset g p (all_items b)).

(** ** What the writer and the reader can handle *)
Fixpoint g_ints (e : gexpr) : list intc :=
  match e with
  | GInt c => [c]
  | GName _ | GPy _ | GBool _ | GStr _ => []
  | GUn _ a | GSkip a => g_ints a
  | GBin _ a b | GPtr a b | GRep a b => g_ints a ++ g_ints b
  | GSlice a b c | GCond a b c => g_ints a ++ g_ints b ++ g_ints c
  | GCat l | GSys _ l => flat_map g_ints l
  end.
Fixpoint a_consts (e : aexpr) : list string :=
  match e with
  | AConst t => [t]
  | AId _ | AStr _ => []
  | AUn _ a => a_consts a
  | ABin _ a b | APointer a b | ARepeat a b => a_consts a ++ a_consts b
  | APart a b c | ACond a b c => a_consts a ++ a_consts b ++ a_consts c
  | AConcat l | ASys _ l => flat_map a_consts l
  end.
(** constants as the constructor [Int] makes them (numbers of Python, or texts with x or z) *)
Definition int_ok (c : intc) : Prop :=
  (forall n, iwidth c = Some n -> 0 < n) /\
  match ival c with
  | VI z => (ibase c = None \/ ibase c = Some 2 \/ ibase c = Some 8 \/ ibase c = Some 10 \/ ibase c = Some 16) /\
            (z < 0 -> isigned c = true \/ (iwidth c = None /\ ibase c = None))
  | VS s => (ibase c = Some 2 \/ ibase c = Some 8 \/ ibase c = Some 10 \/ ibase c = Some 16) /\ after "-"%char s = None /\
            read_literal (match g_lit c with inl _ => ""%string | inr t => t end) = None
  end.
Definition e_ok (e : gexpr) : Prop := Forall int_ok (g_ints e).
(** delays are written in initial blocks only, and a delay of 0 not at all *)
Definition delay_ok (m : vmode) (d : option Z) : Prop := match d with None => True | Some z => m = MBlocking /\ z <> 0 end.
Fixpoint sok (m : vmode) (s : gstmt) : Prop :=
  let body (l : list gstmt) := fold_right (fun s P => sok m s /\ P) True l in
  match s with
  | GSubst l r _ ld rd => e_ok l /\ e_ok r /\ delay_ok m ld /\ delay_ok m rd
  | GIf c t f => e_ok c /\ body t /\ match f with Some l => body l | None => True end
  | GFor p c q b => sok MBlocking p /\ e_ok c /\ sok MBlocking q /\ body b
  | GWhile c b => e_ok c /\ body b
  | GCase _ c ws =>
      e_ok c /\ fold_right (fun w P => (match fst w with Some es => es <> [] /\ Forall e_ok es | None => True end /\ body (snd w)) /\ P) True ws
  | GList l => body l
  | GSingle e | GDelay e => e_ok e
  | GWait c b => m = MBlocking /\ e_ok c /\ match b with Some l => body l | None => True end
  | GForever b => m = MBlocking /\ body b
  end.
Definition w_ok (w : gwidth) : Prop :=
  match w_raw w, w_width w with Some (a, b), _ => e_ok a /\ e_ok b | None, Some a => e_ok a | None, None => True end.
Definition sens_ok (s : gsens) : Prop := match s with GPos e | GNeg e | GLevel e => e_ok e | GAll => True end.
Definition gen_ok (s : gstmt) : Prop := match s with GSubst l r _ None None => e_ok l /\ e_ok r | _ => False end.
(** [outs]: the outputs of the module; [top]: not in a generate block *)
Fixpoint iok (outs : string -> bool) (top : bool) (i : gitem) : Prop :=
  let body (l : list gitem) := fold_right (fun i P => iok outs false i /\ P) True l in
  match i with
  | GParam _ v w _ | GLocal _ v w _ => e_ok v /\ w_ok w
  | GVar k n w _ => w_ok w /\ (top = false -> k = Reg -> outs n = false)
  | GAssign l r ld rd => e_ok l /\ e_ok r /\ ld = None /\ rd = None
  | GAlways ss b => Forall sens_ok ss /\ Forall (sok MAlways) b
  | GInitial b => Forall (sok MBlocking) b
  | GInst _ _ ps qs => Forall (fun p => e_ok (snd p)) ps /\ Forall (fun q => match snd q with Some e => e_ok e | None => False end) qs
  | GGenFor pre c post _ is => gen_ok pre /\ e_ok c /\ gen_ok post /\ body is
  | GGenIf c _ tis _ fis => e_ok c /\ body tis /\ body fis
  end.
(** the register declared for an output is declared once, and like the output *)
Definition out_regs (m : gmod) : list (string * gwidth * bool) :=
  flat_map (fun i => match i with GVar Reg n w s => if has_output (gm_ports m) n then [(n, w, s)] else [] | _ => [] end) (gm_items m).
Definition mod_ok (m : gmod) : Prop :=
  Forall (fun p => w_ok (gp_width p)) (gm_ports m) /\ Forall (iok (has_output (gm_ports m)) true) (gm_items m) /\
  NoDup (map gp_name (gm_ports m)) /\ NoDup (map (fun r => fst (fst r)) (out_regs m)) /\
  (forall n w s p, In (n, w, s) (out_regs m) -> In p (gm_ports m) -> gp_name p = n -> gp_width p = w /\ gp_signed p = s).
(** literals: plain numbers, unsigned numbers with lower-case base, unknown digits *)
Inductive const_ok : string -> Prop :=
| ck_dec t n : numeric 10 t = Some n -> const_ok t
| ck_based pre w l b body n : letter b = Some l -> (pre = "" /\ w = None \/ exists k, numeric 10 pre = Some k /\ 0 < k /\ w = Some k) ->
    numeric b body = Some n -> const_ok (pre ++ "'" ++ String l body)
| ck_unknown w l b body : letter b = Some l -> (forall n, w = Some n -> 0 < n) -> every (fun c => below b c || xz c) body = true ->
    every (below b) body = false -> (b = 16 -> forall q, body <> ("0x" ++ q)%string /\ body <> ("0X" ++ q)%string) ->
    const_ok (match w with Some w => pystr w | None => "" end ++ "'" ++ String l body).
(** selections are from a name or another selection *)
Fixpoint sel_ok (e : aexpr) : bool :=
  match e with
  | AConst _ | AId _ | AStr _ => true
  | AUn _ a => sel_ok a
  | APointer a b => (match a with AId _ | APointer _ _ => true | _ => false end) && sel_ok a && sel_ok b
  | APart a b c => (match a with AId _ | APointer _ _ => true | _ => false end) && sel_ok a && sel_ok b && sel_ok c
  | ABin _ a b | ARepeat a b => sel_ok a && sel_ok b
  | ACond a b c => sel_ok a && sel_ok b && sel_ok c
  | AConcat l | ASys _ l => forallb sel_ok l
  end.
Definition ae_ok (e : aexpr) : Prop := Forall const_ok (a_consts e) /\ sel_ok e = true.
(** a tree can be read; [back]: and be written again; [gen]: stands in a generate block *)
Definition adelay_ok (back : bool) (m : vmode) (d : option adelay) : Prop :=
  match d with
  | None => True
  | Some (DStmt (AConst t)) => exists n, numeric 10 t = Some n /\ (back = true -> m = MBlocking /\ n <> 0)
  | Some _ => False
  end.
Fixpoint aok (back gen : bool) (m : vmode) (a : astmt) : Prop :=
  match a with
  | ABlock l _ => fold_right (fun s P => aok back gen m s /\ P) True l
  | ABlk l r ld rd => ae_ok l /\ ae_ok r /\ adelay_ok back m ld /\ adelay_ok back m rd
  | ANon l r ld rd => m = MAlways /\ ae_ok l /\ ae_ok r /\ adelay_ok back m ld /\ adelay_ok back m rd
  | AIf c t f => gen = false /\ ae_ok c /\ aok back gen m t /\ match f with Some s => aok back gen m s | None => True end
  | AFor p c q b => gen = false /\ aok back gen MBlocking p /\ ae_ok c /\ aok back gen MBlocking q /\ aok back gen m b
  | AWhile c b => ae_ok c /\ aok back gen m b
  | ACase _ c ws =>
      ae_ok c /\ (forall pre b post, ws = pre ++ (None, b) :: post -> post = []) /\
      fold_right (fun w P => (match fst w with Some es => es <> [] /\ Forall ae_ok es | None => True end /\ aok back gen m (snd w)) /\ P) True ws
  | ASingle e | ADelay e => ae_ok e
  | AWait c b => (back = true -> m = MBlocking) /\ ae_ok c /\ match b with Some s => aok back gen m s | None => True end
  | AForever b => (back = true -> m = MBlocking) /\ aok back gen m b
  end.
Definition aw_ok (w : awidth) : Prop := match w with Some (a, b) => ae_ok a /\ ae_ok b | None => True end.
Definition asens_ok (s : asens) : Prop := match s with APos e | ANeg e | ALevel e => ae_ok e | AAll => True end.
Definition agen_ok (s : astmt) : Prop := match s with ABlk l r None None => ae_ok l /\ ae_ok r | _ => False end.
(** no generate construct in an else branch; [outs]: the outputs of the module *)
Fixpoint aiok (back : bool) (outs : string -> bool) (p : place) (a : aitem) : Prop :=
  let body (q : place) (l : list aitem) := fold_right (fun i P => aiok back outs q i /\ P) True l in
  match a with
  | AParam _ v w _ | ALocal _ v w _ => ae_ok v /\ aw_ok w
  | AVar k n w _ => aw_ok w /\ (back = true -> p <> PMod -> k = Reg -> outs n = false)
  | AAssign l r ld rd => ae_ok l /\ ae_ok r /\ ld = None /\ rd = None
  | AAlways ss b => ss <> [] /\ Forall asens_ok ss /\ aok back false MAlways b
  | AInitial b => aok back (in_gen p) MBlocking b
  | AInst _ _ ps qs =>
      Forall (fun p => ae_ok (snd p)) ps /\
      Forall (fun q => match snd q with Some e => ae_ok e | None => back = false end) qs
  | AGen is =>
      fold_right (fun i P => (match i with AGenFor _ _ _ _ _ | AGenIf _ _ _ _ => True | _ => False end /\ aiok back outs PGen i) /\ P) True is
  | AGenFor pre c post _ is => p = PGen /\ agen_ok pre /\ ae_ok c /\ agen_ok post /\ body PGen is
  | AGenIf c _ tis f =>
      p = PGen /\ ae_ok c /\ body PGen tis /\ match f with None => True | Some (ABody _ fis) => body PElse fis | Some (AElse _) => False end
  end.
Definition a_outs (a : amod) (n : string) : bool :=
  existsb (fun p => (ap_name p =? n)%string && match ap_dir p with Output => true | _ => false end) (am_ports a).
Definition amod_ok (back : bool) (a : amod) : Prop :=
  Forall (fun p => aw_ok (ap_width p) /\ match ap_reg p with Some (w, _) => aw_ok w | None => True end) (am_ports a) /\
  Forall (aiok back (a_outs a) PMod) (am_params a) /\ Forall (aiok back (a_outs a) PMod) (am_items a).
(** as for objects: registers of outputs are declared once, and like the outputs *)
Definition a_regs (a : amod) : list (string * awidth * bool) :=
  flat_map (fun i => match i with AVar Reg n w s => if a_outs a n then [(n, w, s)] else [] | _ => [] end) (all_items a).
Definition aregs_ok (a : amod) : Prop :=
  NoDup (map ap_name (am_ports a)) /\ NoDup (map (fun r => fst (fst r)) (a_regs a)) /\
  (forall n w s p, In (n, w, s) (a_regs a) -> In p (am_ports a) -> ap_name p = n -> ap_width p = w /\ ap_signed p = s).
