From Coq Require Import String.
From Verif Require Import Base Bits Vx_Model Vx_Sem Res_Model Res_Spec Ren_Model.
Open Scope Z_scope.

(** [E'] declares [f x] as [E] declares [x], with the same contents *)
Definition renamed (f : nat -> nat) (l : list nat) (E E' : venv) : Prop :=
  junk E' = junk E /\ forall x, In x l -> dw E' (f x) = dw E x /\ ds E' (f x) = ds E x /\ val E' (f x) = val E x.
(** the same width, sign and value in every context *)
Definition equivalent (E E' : venv) (e e' : vx) : Prop :=
  swid E' e' = swid E e /\ ssig E' e' = ssig E e /\ forall W S, ev E' W S e' = ev E W S e.
(** no blocking assignments, no loops *)
Fixpoint simple (s : rs) : Prop :=
  match s with
  | RSub blk _ _ => blk = false
  | RIf _ t g => (fix all l := match l with [] => True | s :: r => simple s /\ all r end) t /\
                 (fix all l := match l with [] => True | s :: r => simple s /\ all r end) g
  | RFor _ _ _ _ _ => False
  | RSeq l => (fix all l := match l with [] => True | s :: r => simple s /\ all r end) l
  end.
(** all constants are 32 bits wide and signed *)
Fixpoint unsized (e : vx) : Prop :=
  match e with
  | XInt _ w b s => wd w = 32 /\ lit_signed w b s = true
  | XUn _ a => unsized a
  | XBin _ a b => unsized a /\ unsized b
  | _ => True
  end.
(** what a tree says, whatever its operators *)
Fixpoint reading (t : df) : vx :=
  match t with
  | DTerm x => XVar x
  | DInt z => XInt z None None (z <? 0)
  | DOp1 o a => XUn o (reading a)
  | DOp2 o a b => XBin o (reading a) (reading b)
  end.
(** an optimizer is correct: the trees it returns say the same *)
Definition correct_opt (opt : df -> option df) : Prop :=
  forall t t' E, opt t = Some t' -> equivalent E E (reading t) (reading t').
(** operators that cannot be read back: reductions and xnor *)
Fixpoint foreign (t : df) : Prop :=
  match t with
  | DOp1 o a => foreign a \/ (o <> UPlus /\ o <> UMinus /\ o <> ULnot /\ o <> UNot)
  | DOp2 o a b => foreign a \/ foreign b \/ o = BXnor
  | _ => False
  end.
