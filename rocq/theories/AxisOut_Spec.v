(** What the AXI stream output must do: every job sends its words, in the order in which the jobs were
    issued; a DMA job those of its RAM, with the last flag on its last word and nowhere else. *)
From Verif Require Import Base Fifo_Model Ram_Model Ram_Spec AxiDma_Model AxiData_Model AxiData_Spec AxisIn_Model AxisOut_Model.
Open Scope Z_scope.

(** the words of a job; [M k] is the RAM of operation [k] *)
Definition odma_words (c : cfg) (M : nat -> Z -> Z) (k : nat) (q : Z * Z * Z) : list (Z * bool) :=
  let o := opk c k in
  let n := bus_words (o_ratio o) (nwords q) in
  map (fun t => (bus_word (o_ratio o) (o_w o) (o_raw o) (M k) (fst (fst q)) (snd (fst q)) t, Nat.eqb (S t) n)) (seq 0 n).
Definition ojob_words (c : cfg) (M : nat -> Z -> Z) (j : ojob) : list (Z * bool) :=
  match j with OWrite v l => [(v, l)] | ODma k q => odma_words c M k q end.
Definition owords (c : cfg) (M : nat -> Z -> Z) (js : list ojob) : list (Z * bool) := flat_map (ojob_words c M) js.

(** ** Legal configurations and inputs *)
(** at most one RAM of the stream's width, and one ratio for all wider RAMs *)
Definition olegal_cfg (c : cfg) : Prop :=
  1 <= g_aw c /\ 1 <= g_sw c /\ 1 <= g_fa c /\ Z.of_nat (nops c) < 2 ^ g_sw c /\
  Forall (fun o => 0 <= o_w o /\ 0 <= o_raw o /\ match o_ratio o with Same => True | Narrow lp | Wide lp => 0 < lp end) (g_ops c) /\
  (forall j k, (j < nops c)%nat -> (k < nops c)%nat ->
     match o_ratio (opk c j), o_ratio (opk c k) with
     | Same, Same => j = k
     | Narrow a, Narrow b => a = b
     | _, _ => True end).
(** the words of a RAM narrower than the stream fit it *)
Definition olegal_ram (c : cfg) (M : nat -> Z -> Z) : Prop :=
  forall k, (k < nops c)%nat -> match o_ratio (opk c k) with Wide _ => forall a, 0 <= M k a < 2 ^ o_w (opk c k) | _ => True end.
(** the size, counted in the narrower of the two words and rounded up to the wider, fits its register *)
Definition olegal_size (c : cfg) (k : nat) (n : Z) : Prop :=
  1 <= n < 2 ^ lw c /\
  let r := o_ratio (opk c k) in
  Z.of_nat (bus_words r (Z.to_nat n)) * Z.of_nat (match r with Wide _ => pack r | _ => 1 end) < 2 ^ lw c.
Definition olegal_in (c : cfg) (i : oinp) : Prop :=
  match w_req i with
  | Some (k, a, d, n) => (k < nops c)%nat /\ 0 <= a < 2 ^ g_aw c /\ 0 <= d < 2 ^ g_aw c /\ olegal_size c k n
  | None => True
  end.

(** ** Runs *)
Definition orun (c : cfg) (M : nat -> Z -> Z) := final (ostep c M).
Definition ojobs (c : cfg) (M : nat -> Z -> Z) (s : ost) (ins : list oinp) : list ojob := concat (outs (ostep c M) (oissued c) s ins).
Definition osents (c : cfg) (M : nat -> Z -> Z) (s : ost) (ins : list oinp) : list (Z * bool) := concat (outs (ostep c M) osent s ins).
(** the word that waits in the channel *)
Definition opending (s : ost) : list (Z * bool) := if e_tvalid s then [(e_tdata s, e_tlast s)] else [].

(** cycles with tready that certainly suffice for a job *)
Definition ojob_cost (c : cfg) (j : ojob) : Z :=
  match j with
  | OWrite _ _ => 2
  | ODma k q => let r := o_ratio (opk c k) in
      3 + Z.of_nat (bus_words r (nwords q)) * match r with Wide _ => Z.of_nat (pack r) | _ => 1 end
  end.
Definition ocost (c : cfg) (js : list ojob) : Z := fold_right (fun j t => ojob_cost c j + t) 3 js.
Definition oquiet_in (i : oinp) : Prop := w_req i = None /\ w_write i = None.
Definition oreadies (ins : list oinp) : Z := fold_right (fun i t => b2z (w_ready i) + t) 0 ins.
