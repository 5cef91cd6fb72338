(** What an AXI master channel must do, stated on the per-cycle values of its signals:
    [e vld] / [e rdy] are the valid and ready lines in a cycle, [P] the payload registers. *)
From Verif Require Import Base Vlog AxiChan_Model.
Open Scope Z_scope.

(** Payloads handed over: cycles with valid and ready both high, in order. *)
Definition transfers (P : list var) (t : list env) : list (list Z) :=
  flat_map (fun e => if truth (e vld) && truth (e rdy) then [map e P] else []) t.
(** The payload on offer in a state, if any. *)
Definition on_offer (P : list var) (s : env) : list (list Z) :=
  if truth (s vld) then [map s P] else [].
(** Once valid, valid and payload stay until the cycle in which ready is high. *)
Fixpoint held_until_ready (P : list var) (t : list env) : Prop :=
  match t with
  | e :: ((e' :: _) as r) =>
      (truth (e vld) = true -> truth (e rdy) = false -> truth (e' vld) = true /\ map e' P = map e P)
      /\ held_until_ready P r
  | _ => True
  end.

(** A call site: its condition and, for each cycle, the payload it asks to be sent ([None]:
    nothing).  The caller regards the request as made when its condition and the expression
    [ack] returned to it are both true. *)
Record caller := mkCaller { cl_cond : option expr; cl_msg : env -> option (list Z) }.
Definition wants (e : env) (c : caller) : bool :=
  match cl_cond c with Some x => truth (eval e x) | None => true end.
Definition accepted (ack : expr) (cs : list caller) (t : list env) : list (list Z) :=
  flat_map (fun e => flat_map (fun c =>
    if wants e c && truth (eval e ack)
    then match cl_msg c e with Some m => [m] | None => [] end else []) cs) t.
(** In every cycle at most one call site asks. *)
Definition exclusive (cs : list caller) (t : list env) : Prop :=
  Forall (fun e => (length (filter (wants e) cs) <= 1)%nat) t.

(** One-bit valid and delay registers; the payload registers have any width. *)
Definition widths (w : var -> Z) : Prop := w vld = 1 /\ forall k i, w (CondR k i) = 1.
