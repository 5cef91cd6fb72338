(** What the AXI stream input must do: every job takes its own consecutive words of the stream, in
    the order in which the jobs were issued; a DMA job puts them into its RAM, a read returns one. *)
From Verif Require Import Base Fifo_Model Ram_Model Ram_Spec AxiDma_Model AxiData_Model AxiData_Spec AxisIn_Model.
Open Scope Z_scope.

Definition word := (Z * bool)%type.      (* tdata, tlast *)
(** words a job takes *)
Definition job_words (c : cfg) (j : job) : nat :=
  match j with JRead => 1 | JDma k q => bus_words (o_ratio (opk c k)) (nwords q) end.
Definition own_words (c : cfg) (j : job) (ws : list word) : Prop := length ws = job_words c j.
(** the DMA jobs of operation [k], with the data they took *)
Definition mine (k : nat) (js : list job) (wss : list (list word)) : list (rrequest * list Z) :=
  flat_map (fun x => match fst x with
    | JDma k' q => if Nat.eqb k' k then [(q, map fst (snd x))] else []
    | JRead => [] end) (combine js wss).
(** the RAM of operation [k] *)
Definition ram_after (c : cfg) (k : nat) (js : list job) (wss : list (list word)) (m : Z -> Z) : Z -> Z :=
  let o := opk c k in
  image (o_ratio o) (o_w o) (o_raw o) (map fst (mine k js wss)) (map snd (mine k js wss)) m.
(** what the reads return *)
Definition reads (js : list job) (wss : list (list word)) : list word :=
  flat_map (fun x => match fst x with JRead => snd x | JDma _ _ => [] end) (combine js wss).

(** ** Legal configurations and inputs *)
Definition legal_op (c : cfg) (o : op) : Prop :=
  0 <= o_w o /\ 0 <= o_raw o /\
  match o_ratio o with Same => True | Narrow lp => 0 < lp /\ o_w o = g_dw c | Wide lp => 0 < lp end.
Definition legal_cfg (c : cfg) : Prop :=
  1 <= g_aw c /\ 1 <= g_sw c /\ 1 <= g_fa c /\ Z.of_nat (nops c) < 2 ^ g_sw c /\ Forall (legal_op c) (g_ops c).
Definition legal_in (c : cfg) (i : inp) : Prop :=
  0 <= i_data i < 2 ^ g_dw c /\
  match i_req i with
  | Some (k, a, d, n) => (k < nops c)%nat /\ 0 <= a < 2 ^ g_aw c /\ 0 <= d < 2 ^ g_aw c /\ 1 <= n < 2 ^ lw c
  | None => True
  end.

(** ** Runs *)
Definition run_ (c : cfg) := final (step c).
Definition jobs (c : cfg) (s : st) (ins : list inp) : list job := concat (outs (step c) (issued c) s ins).
Definition words (c : cfg) (s : st) (ins : list inp) : list word := concat (outs (step c) (taken c) s ins).
Definition results (c : cfg) (s : st) (ins : list inp) : list word := concat (outs (step c) result s ins).

(** cycles with a valid word that certainly suffice for a job *)
Definition job_cost (c : cfg) (j : job) : Z :=
  match j with
  | JRead => 0
  | JDma k q => 4 + snd q * match o_ratio (opk c k) with Narrow _ => Z.of_nat (pack (o_ratio (opk c k))) | _ => 1 end
  end.
Definition cost (c : cfg) (js : list job) : Z := fold_right (fun j t => job_cost c j + t) 3 js.
Definition quiet_in (i : inp) : Prop := i_req i = None /\ i_read i = false.
(** cycles with a valid word *)
Definition valids (ins : list inp) : Z := fold_right (fun i t => b2z (i_valid i) + t) 0 ins.
