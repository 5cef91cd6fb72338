(** What an AXI-Lite master has to do: one transaction after the other, one per call. *)
From Verif Require Import Base AxiSlave_Model AxisLite_Model AxisLite_Spec AximLite_Model.
Open Scope Z_scope.

(** The transaction going on at the bus. *)
Inductive going := GNone | GRead (a : Z) | GWrite (a : Z) | GResp (a v : Z).
(** A transaction: read of [a] that gave [d], write of [v] to [a]. *)
Inductive trans := XRead (a d : Z) | XWrite (a v : Z).
(** One cycle of events: at most one, in the right order; the transactions completed so far are collected. *)
Definition order_cycle (st : going * list trans) (e : bus) : option (going * list trans) :=
  let '(g, done) := st in
  match e_ar e, e_r e, e_aw e, e_w e, e_b e with
  | None, None, None, None, false => Some (g, done)
  | Some a, None, None, None, false => match g with GNone => Some (GRead a, done) | _ => None end
  | None, Some d, None, None, false => match g with GRead a => Some (GNone, done ++ [XRead a d]) | _ => None end
  | None, None, Some a, None, false => match g with GNone => Some (GWrite a, done) | _ => None end
  | None, None, None, Some v, false => match g with GWrite a => Some (GResp a v, done) | _ => None end
  | None, None, None, None, true => match g with GResp a v => Some (GNone, done ++ [XWrite a v]) | _ => None end
  | _, _, _, _, _ => None
  end.
Fixpoint order_run (st : going * list trans) (es : list bus) : option (going * list trans) :=
  match es with
  | [] => Some st
  | e :: r => match order_cycle st e with Some st' => order_run st' r | None => None end
  end.

(** The slave offers a word only for a read that was accepted, and a response only after the data. *)
Definition slave_legal (g : going) (i : mst_in) : Prop :=
  (n_r i <> None -> exists a, g = GRead a) /\ (n_b i = true -> exists a v, g = GResp a v).
Fixpoint all_legal (m : mst) (st : going * list trans) (ins : list mst_in) : Prop :=
  match ins with
  | [] => True
  | i :: r => slave_legal (fst st) i /\
      match order_cycle st (m_events m i) with Some st' => all_legal (m_step m i) st' r | None => True end
  end.

(** A returned call is a transaction. *)
Definition call_is (cr : call * Z) (x : trans) : Prop :=
  match cr, x with
  | (CRd a _, d), XRead a' d' => a = a' /\ d = d'
  | (CWr a v _, _), XWrite a' v' => a = a' /\ v = v'
  | _, _ => False
  end.
Definition in_call (m : mst) : Prop := p_ph m <> POut.

(** Registers seen by a thread that is alone: every read gives what was written last. *)
Fixpoint plays (len mw sh xz : Z) (b : Z -> Z) (xs : list trans) : Prop :=
  match xs with
  | [] => True
  | XRead a d :: r => d = (if in_range len (regno mw sh a) then b (regno mw sh a) else xz) /\ plays len mw sh xz b r
  | XWrite a v :: r => plays len mw sh xz (if in_range len (regno mw sh a) then upd b (regno mw sh a) v else b) r
  end.

(** A valid signal stays, with its payload, while the slave does not answer. *)
Definition held_back (m : mst) (i : mst_in) (m' : mst) : Prop :=
  (p_arv m = true -> n_arready i = false -> p_arv m' = true /\ p_ara m' = p_ara m) /\
  (p_awv m = true -> n_awready i = false -> p_awv m' = true /\ p_awa m' = p_awa m) /\
  (fst (m_w m) = true -> n_wready i = false -> m_w m' = m_w m).

(** A slave that takes a write address only in a cycle in which the data is offered too (AXI allows a slave
    to wait for WVALID before it asserts AWREADY). *)
Fixpoint data_first (m : mst) (ins : list mst_in) : Prop :=
  match ins with
  | [] => True
  | i :: r => (n_awready i = true -> fst (m_w m) = true) /\ data_first (m_step m i) r
  end.

(** Cycles a call may take on the register slave: [n] skid buffers, and the delay of a delayed call. *)
Definition dly (dl : option nat) : nat := match dl with None => 0 | Some k => S k end.
Definition bound (n : nat) (c : call) : nat :=
  match c with CRd _ dl => n + 6 + dly dl | CWr _ _ dl => n + 8 + dly dl end.
