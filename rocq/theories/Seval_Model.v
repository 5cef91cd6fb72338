(** [eval] of stream expressions [stream/stypes.py:626-645,700-712,771-780,838-851,923-1025,1088-1386,1611-1670,1779-1885,2219-2223,2741-2776].

    [eval] folds constants; it is called by the constructor of [Pointer] on the position [1586-1588]
    and by the user.  [None] is a Python exception.

    Simplifications: integers only (no floats and no fixed point), the operators below; a concatenation
    has two parts; the quotient of [Divide] is modelled for operands below 2^53 in size only, where the
    division of floats followed by [int] is exact. *)
From Verif Require Import Base Bits.
Open Scope Z_scope.

Inductive bop := OPlus | OMinus | OTimes | ODivide | OMod | OLt | OGt | OLe | OGe | OEq | ONe
  | OSll | OSrl | OSra | OAnd | OXor | OXnor | OOr | OLand | OLor.
Inductive uop := OUplus | OUminus | OUlnot | OUnot | OUand | OUnand | OUor | OUnor | OUxor | OUxnor | OAbs.
(** nodes; [EV n] is an input variable; an [Int] node holds a Python int *)
Inductive ex :=
| EI (z : Z) | EV (n : nat)
| E2 (o : bop) (l r : ex) | E1 (o : uop) (r : ex)
| EC (c t f : ex) | EP (v p : ex) | ES (v : ex) (m l : Z)
| ECat (a b : ex) | ERep (v : ex) (n : Z).

(** what [eval] returns: an int, a bool or a node *)
Inductive res := RI (z : Z) | RB (b : bool) | RE (e : ex).
Definition node (r : res) : ex := match r with RI z => EI z | RB b => EI (b2z b) | RE e => e end.
(** a Python number (bool is a kind of int) *)
Definition num (r : res) : option Z := match r with RI z => Some z | RB b => Some (b2z b) | RE _ => None end.
Definition truthy (r : res) : bool := match r with RI z => negb (z =? 0) | RB b => b | RE _ => true end.

(** a Python operator on two results: two numbers; else the method of the left node; there are no
    reflected methods [306-358], so a number on the left of a node is an error *)
Definition pyop (o : bop) (f : Z -> Z -> option res) (l r : res) : option res :=
  match num l, num r with
  | Some x, Some y => f x y
  | None, _ => Some (RE (E2 o (node l) (node r)))
  | Some _, None => None
  end.
(** comparisons have reflected methods: [1 < node] is [node > 1] *)
Definition swap (o : bop) : bop := match o with OLt => OGt | OGt => OLt | OLe => OGe | OGe => OLe | o => o end.
Definition pycmp (o : bop) (f : Z -> Z -> bool) (l r : res) : option res :=
  match num l, num r with
  | Some x, Some y => Some (RB (f x y))
  | None, _ => Some (RE (E2 o (node l) (node r)))
  | Some _, None => Some (RE (E2 (swap o) (node r) (node l)))
  end.
(** & ^ | keep bool *)
Definition pybit (o : bop) (f : Z -> Z -> Z) (g : bool -> bool -> bool) (l r : res) : option res :=
  match l, r with RB a, RB b => Some (RB (g a b)) | _, _ => pyop o (fun x y => Some (RI (f x y))) l r end.
Definition pyshift (f : Z -> Z -> Z) (x y : Z) : option res := if y <? 0 then None else Some (RI (f x y)).
(** both are numbers, or the node is made again *)
Definition fold2 (o : bop) (f : Z -> Z -> option res) (l r : res) : option res :=
  match num l, num r with Some x, Some y => f x y | _, _ => Some (RE (E2 o (node l) (node r))) end.
Definition small (z : Z) : bool := Z.abs z <? 2 ^ 53.
Definition ev2 (o : bop) (l r : res) : option res :=
  match o with
  | OPlus => pyop OPlus (fun x y => Some (RI (x + y))) l r                                     (* [925-926] *)
  | OMinus => pyop OMinus (fun x y => Some (RI (x - y))) l r                                   (* [931-932] *)
  | OTimes => pyop OTimes (fun x y => Some (RI (x * y))) l r                                   (* [639-640] *)
  | ODivide => fold2 ODivide (fun x y => if (y =? 0) || negb (small x && small y) then None else Some (RI (Z.quot x y))) l r   (* [707-712] *)
  | OMod => pyop OMod (fun x y => if y =? 0 then None else Some (RI (x mod y))) l r            (* [778-779] *)
  | OLt => pycmp OLt Z.ltb l r                                                                 (* [967-968] *)
  | OGt => pycmp OGt Z.gtb l r
  | OLe => pycmp OLe Z.leb l r
  | OGe => pycmp OGe Z.geb l r
  | OEq => pycmp OEq Z.eqb l r
  | ONe => pycmp ONe (fun x y => negb (x =? y)) l r
  | OSll => pyop OSll (pyshift Z.shiftl) l r                                                   (* [1088-1089] *)
  | OSrl => pyop OSrl (pyshift Z.shiftr) l r                                                   (* [1099-1100] *)
  | OSra => fold2 OSra (pyshift (fun x y => if 0 <=? x then Z.shiftr (Z.abs x) y else -1 * Z.shiftr (Z.abs x) y)) l r   (* [1110-1120] *)
  | OAnd => pybit OAnd Z.land andb l r                                                         (* [1167-1168] *)
  | OXor => pybit OXor Z.lxor xorb l r
  | OOr => pybit OOr Z.lor orb l r
  | OXnor =>                                                                                   (* [1179-1185] *)
    match pybit OXor Z.lxor xorb l r with
    | Some (RE _) => Some (RE (E2 OXnor (node l) (node r)))
    | Some v => Some (RB (match num v with Some z => z =? 0 | None => false end))
    | None => None
    end
  | OLand =>                                                                                   (* [1201-1206]: left and right *)
    match num l, num r with Some _, Some _ => Some (if truthy l then r else l) | _, _ => Some (RE (E2 OLand (node l) (node r))) end
  | OLor =>                                                                                    (* [1216-1221] *)
    match num l, num r with Some _, Some _ => Some (if truthy l then l else r) | _, _ => Some (RE (E2 OLand (node l) (node r))) end
  end.

(** the loops over the low [w] bits of [1275-1386] *)
Fixpoint all_ones (w : nat) (x : Z) : bool := match w with O => true | S w => if Z.land x 1 =? 0 then false else all_ones w (Z.shiftr x 1) end.
Fixpoint any_one (w : nat) (x : Z) : bool := match w with O => false | S w => if Z.land x 1 =? 1 then true else any_one w (Z.shiftr x 1) end.
Fixpoint parity_loop (w : nat) (ret x : Z) : Z := match w with O => ret | S w => parity_loop w (Z.lxor ret (Z.land x 1)) (Z.shiftr x 1) end.
(** [w]: the width of the operand node *)
Definition reduce1 (o : uop) (on_bool : bool -> bool) (on_int : nat -> Z -> bool) (w : nat) (r : res) : option res :=
  match r with RB b => Some (RB (on_bool b)) | RI z => Some (RB (on_int w z)) | RE e => Some (RE (E1 o e)) end.
Definition ev1 (o : uop) (w : nat) (r : res) : option res :=
  match o with
  | OUplus => Some r                                                                           (* [1226-1227] *)
  | OUminus => Some (match num r with Some z => RI (- z) | None => RE (E1 OUminus (node r)) end)       (* [1232-1233] *)
  | OUlnot => Some (match num r with Some z => RB (negb (truthy r)) | None => RE (E1 OUlnot (node r)) end)   (* [1251-1255] *)
  | OUnot => Some (match num r with Some z => RI (Z.lnot z) | None => RE (E1 OUlnot (node r)) end)     (* [1260-1266]: nodes have no ~ *)
  | OUand => reduce1 OUand (fun b => b) all_ones w r                                           (* [1275-1286] *)
  | OUnand => reduce1 OUnand negb (fun w z => negb (all_ones w z)) w r
  | OUor => reduce1 OUor (fun b => b) any_one w r
  | OUnor => reduce1 OUnor negb (fun w z => negb (any_one w z)) w r
  | OUxor => reduce1 OUxor (fun b => b) (fun w z => parity_loop w 1 z =? 1) w r                (* [1355-1366] *)
  | OUxnor => reduce1 OUxnor negb (fun w z => parity_loop w 1 z =? 0) w r                      (* [1375-1386] *)
  | OAbs => Some (match num r with Some z => RI (Z.abs z) | None => RE (E1 OAbs (node r)) end)  (* [2219-2222] *)
  end.

Section Eval.
  Variable wd : ex -> nat.                                     (* get_width of a node *)
  Fixpoint ev (e : ex) : option res :=
    match e with
    | EI z => Some (RI z)                                      (* [2741-2742] *)
    | EV n => Some (RE (EV n))                                 (* [2774-2775] *)
    | E2 o l r => match ev l, ev r with Some a, Some b => ev2 o a b | _, _ => None end
    | E1 o r => match ev r with Some a => ev1 o (wd r) a | None => None end
    | EC c t f =>                                              (* [1869-1878] *)
      match ev c, ev t, ev f with
      | Some c, Some t, Some f => Some (match num c with Some _ => if truthy c then t else f | None => RE (EC (node c) (node t) (node f)) end)
      | _, _, _ => None
      end
    | EP v p =>                                                (* [1611-1616] *)
      match ev v, ev p with
      | Some v, Some p => match num v, num p with
        | Some x, Some y => if y <? 0 then None else Some (RI (Z.land (Z.shiftr x y) 1))
        | _, _ => Some (RE (EP (node v) (node p)))
        end
      | _, _ => None
      end
    | ES v m l =>                                              (* [1661-1670] *)
      match ev v with
      | Some v => match num v with
        | Some x => if l <? 0 then None else Some (RI (Z.land (Z.shiftr x l) (Z.ones (Z.max 0 (m - l + 1)))))
        | None => Some (RE (ES (node v) m l))
        end
      | None => None
      end
    | ECat a b =>                                              (* [1779-1787]: an int has no get_width *)
      match ev a, ev b with
      | Some a, Some b => match num a, num b with Some _, Some _ => None | _, _ => Some (RE (ECat (node a) (node b))) end
      | _, _ => None
      end
    | ERep _ _ => None                                         (* [1820-1826]: a loop over an int *)
    end.
  (** the constructor of Pointer [1582-1588]: an error, or the latency *)
  Definition pointer_latency (p : ex) : option Z := match ev p with Some r => Some (match num r with Some _ => 0 | None => 1 end) | None => None end.
End Eval.
