(** What the AXI stream input with FIFOs must do: every job takes its own consecutive words of the
    stream, in the order in which the jobs were issued; a DMA job puts them, repacked, into its FIFO,
    a read returns one. *)
From Verif Require Import Base AxiDma_Model AxiData_Model AxiData_Spec Fifo_Model AxisIn_Model AxisInFifo_Model.
Open Scope Z_scope.

Definition word := (Z * bool)%type.      (* tdata, tlast *)
(** words a job takes *)
Definition bjob_words (c : cfg) (j : bjob) : nat :=
  match j with BRead => 1 | BDma k n => bus_words (o_ratio (opk c k)) (Z.to_nat n) end.
Definition bown (c : cfg) (j : bjob) (ws : list word) : Prop := length ws = bjob_words c j.
(** the words that job [j] with the stream words [ws] puts into FIFO [k] *)
Definition bgives (c : cfg) (k : nat) (j : bjob) (ws : list word) : list Z :=
  match j with
  | BDma k' n => if Nat.eqb k' k then ram_words (o_ratio (opk c k)) (o_w (opk c k)) (map fst ws) (Z.to_nat n) else []
  | BRead => []
  end.
(** everything the jobs put into FIFO [k] *)
Definition bfilled (c : cfg) (k : nat) (js : list bjob) (wss : list (list word)) : list Z :=
  flat_map (fun x => bgives c k (fst x) (snd x)) (combine js wss).
(** what the reads return *)
Definition breads (js : list bjob) (wss : list (list word)) : list word :=
  flat_map (fun x => match fst x with BRead => snd x | BDma _ _ => [] end) (combine js wss).
(** the words of FIFO [k] that the running job completed with the words [cur] it has taken *)
Definition bpart (c : cfg) (k : nat) (rest : list bjob) (cur : list word) (m : nat) : list Z :=
  match rest with
  | BDma k' n :: _ => if Nat.eqb k' k then ram_words (o_ratio (opk c k)) (o_w (opk c k)) (map fst cur) m else []
  | _ => []
  end.
(** [m] is how many words of FIFO [k] the words taken so far make up *)
Definition bprogress (c : cfg) (k : nat) (rest : list bjob) (cur : list word) (m : nat) : Prop :=
  match rest with
  | BDma k' n :: _ => if Nat.eqb k' k then (bus_words (o_ratio (opk c k)) m <= length cur <= bus_words (o_ratio (opk c k)) (S m))%nat else True
  | _ => True
  end.

(** ** Legal configurations and inputs *)
(** at most one FIFO of the stream's width *)
Definition blegal_cfg (c : cfg) : Prop :=
  1 <= g_aw c /\ 1 <= g_sw c /\ 1 <= g_fa c /\ Z.of_nat (nops c) < 2 ^ g_sw c /\
  Forall (fun o => 0 <= o_w o /\ 1 <= o_raw o /\
    match o_ratio o with Same => True | Narrow lp => 0 < lp /\ o_w o = g_dw c | Wide lp => 0 < lp end) (g_ops c) /\
  (forall j k, (j < nops c)%nat -> (k < nops c)%nat -> o_ratio (opk c j) = Same -> o_ratio (opk c k) = Same -> j = k).
(** a transfer into a FIFO narrower than the stream consists of whole stream words *)
Definition blegal_size (c : cfg) (k : nat) (n : Z) : Prop :=
  1 <= n < 2 ^ lw c /\ match o_ratio (opk c k) with Wide lp => n mod 2 ^ lp = 0 | _ => True end.
Definition blegal_in (c : cfg) (i : binp) : Prop :=
  0 <= c_data i < 2 ^ g_dw c /\
  match c_req i with Some (k, n) => (k < nops c)%nat /\ blegal_size c k n | None => True end.

(** ** Runs *)
Definition brun_ (c : cfg) := final (bstep c).
Definition bjobs (c : cfg) (s : bst) (ins : list binp) : list bjob := concat (outs (bstep c) (bissued c) s ins).
Definition bwords (c : cfg) (s : bst) (ins : list binp) : list word := concat (outs (bstep c) (btaken c) s ins).
Definition bresults (c : cfg) (s : bst) (ins : list binp) : list word := concat (outs (bstep c) bresult s ins).
Definition bpushes (c : cfg) (k : nat) (s : bst) (ins : list binp) : list Z := concat (outs (bstep c) (bpush c k) s ins).
Definition bpops (c : cfg) (k : nat) (s : bst) (ins : list binp) : list Z := concat (outs (bstep c) (bpop k) s ins).
(** the last word of a transfer into a narrower FIFO finds room in the cycle after the transfer *)
Definition broomy1 (c : cfg) (s : bst) : Prop :=
  forall k, (k < nops c)%nat -> match o_ratio (opk c k) with
    | Wide _ => bfsm s (Wide 0) = 0 -> b_wvalid (b_unit s k) = true -> baf c s k = false
    | _ => True end.
Fixpoint broomy (c : cfg) (s : bst) (ins : list binp) : Prop :=
  broomy1 c s /\ match ins with [] => True | i :: r => broomy c (bstep c s i) r end.

(** cycles with a valid word and room in all FIFOs that certainly suffice for a job *)
Definition bjob_cost (c : cfg) (j : bjob) : Z :=
  match j with
  | BRead => 0
  | BDma k n => 1 + n * match o_ratio (opk c k) with Narrow _ => Z.of_nat (pack (o_ratio (opk c k))) | _ => 1 end
  end.
Definition bcost (c : cfg) (js : list bjob) : Z := fold_right (fun j t => bjob_cost c j + t) 2 js.
Definition bquiet_in (i : binp) : Prop := c_req i = None /\ c_read i = false.
Definition bgood (c : cfg) (s : bst) (i : binp) : Z := b2z (c_valid i && negb (any c (baf c s))).
Definition bgoods (c : cfg) (s : bst) (ins : list binp) : Z := fold_right Z.add 0 (outs (bstep c) (bgood c) s ins).
