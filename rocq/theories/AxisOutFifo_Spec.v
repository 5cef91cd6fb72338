(** What the AXI stream output with FIFOs must do: every job sends its words, in the order in which the
    jobs were issued; a DMA job takes its words from its FIFO and sends them, repacked, with the last
    flag on its last word and nowhere else. *)
From Verif Require Import Base AxiDma_Model Fifo_Model AxisIn_Model AxisInFifo_Model AxisInFifo_Spec AxisOut_Model AxisOutFifo_Model.
Open Scope Z_scope.

(** ** Repacking *)
(** a word of a wide FIFO as stream words, the lowest bits first *)
Definition vsplit (w lp x : Z) : list Z := map (fun j => (x / 2 ^ (w * Z.of_nat j)) mod 2 ^ w) (seq 0 (Z.to_nat (2 ^ lp))).
(** words of a narrow FIFO side by side, the first one lowest *)
Fixpoint vjoin (w : Z) (l : list Z) : Z := match l with [] => 0 | x :: r => x mod 2 ^ w + 2 ^ w * vjoin w r end.
(** complete groups of [p] words, [n] at most *)
Fixpoint vgroups (p : nat) (l : list Z) (n : nat) : list (list Z) :=
  match n with
  | O => []
  | S n => if (p <=? length l)%nat then firstn p l :: vgroups p (skipn p l) n else []
  end.
(** the stream words made of the FIFO words [ws] *)
Definition vpack (r : ratio) (w : Z) (ws : list Z) : list Z :=
  match r with
  | Same => ws
  | Narrow lp => flat_map (vsplit w lp) ws
  | Wide lp => map (vjoin w) (vgroups (Z.to_nat (2 ^ lp)) ws (length ws))
  end.
(** the last flag: on the last word only *)
Definition vunmarked (l : list Z) : list (Z * bool) := map (fun x => (x, false)) l.
Definition vmarked (l : list Z) : list (Z * bool) :=
  match rev l with [] => [] | x :: r => vunmarked (rev r) ++ [(x, true)] end.

(** the words that job [j] takes from FIFOs, those it sends if these are [ws] *)
Definition vown (j : vjob) (ws : list Z) : Prop := length ws = match j with VWrite _ _ => 0%nat | VDma _ n => Z.to_nat n end.
Definition vsends (c : cfg) (j : vjob) (ws : list Z) : list (Z * bool) :=
  match j with VWrite v l => [(v, l)] | VDma k _ => vmarked (vpack (o_ratio (opk c k)) (o_w (opk c k)) ws) end.
Definition vsendall (c : cfg) (js : list vjob) (wss : list (list Z)) : list (Z * bool) :=
  flat_map (fun x => vsends c (fst x) (snd x)) (combine js wss).
(** everything that the jobs take from FIFO [k] *)
Definition vfrom (k : nat) (j : vjob) (ws : list Z) : list Z :=
  match j with VDma k' _ => if Nat.eqb k' k then ws else [] | VWrite _ _ => [] end.
Definition vtakes (k : nat) (js : list vjob) (wss : list (list Z)) : list Z :=
  flat_map (fun x => vfrom k (fst x) (snd x)) (combine js wss).
(** what the running job, the first of [rest], took from FIFO [k] and sent so far *)
Definition vcurtake (k : nat) (rest : list vjob) (cur : list Z) : list Z :=
  match rest with j :: _ => vfrom k j cur | [] => [] end.
Definition vcursent (c : cfg) (rest : list vjob) (cur sent : list Z) : Prop :=
  match rest with
  | VDma k n :: _ => let r := o_ratio (opk c k) in (length cur <= Z.to_nat n)%nat /\
      exists later, vpack r (o_w (opk c k)) cur = sent ++ later /\
        (length later <= match r with Narrow lp => Z.to_nat (2 ^ lp) | _ => 1 end)%nat
  | _ => cur = [] /\ sent = []
  end.

(** ** Legal configurations and inputs *)
(** at most one FIFO of the stream's width *)
Definition vlegal_cfg (c : cfg) : Prop :=
  1 <= g_aw c /\ 1 <= g_sw c /\ 1 <= g_fa c /\ Z.of_nat (nops c) < 2 ^ g_sw c /\
  Forall (fun o => 0 <= o_w o /\ 1 <= o_raw o /\ match o_ratio o with Same => True | Narrow lp | Wide lp => 0 < lp end) (g_ops c) /\
  (forall j k, (j < nops c)%nat -> (k < nops c)%nat -> o_ratio (opk c j) = Same -> o_ratio (opk c k) = Same -> j = k).
(** a transfer out of a FIFO narrower than the stream consists of whole stream words *)
Definition vlegal_in (c : cfg) (i : vinp) : Prop :=
  match d_req i with Some (k, n) => (k < nops c)%nat /\ blegal_size c k n | None => True end.

(** ** Runs *)
Definition vrun (c : cfg) (sy : bool) := final (vstep c sy).
Definition vjobs (c : cfg) (sy : bool) (s : vst) (ins : list vinp) : list vjob := concat (outs (vstep c sy) (vissued c) s ins).
Definition vsents (c : cfg) (sy : bool) (s : vst) (ins : list vinp) : list (Z * bool) := concat (outs (vstep c sy) vsent s ins).
Definition vpushes (c : cfg) (sy : bool) (k : nat) (s : vst) (ins : list vinp) : list Z := concat (outs (vstep c sy) (vpush c k) s ins).
Definition vpops (c : cfg) (sy : bool) (k : nat) (s : vst) (ins : list vinp) : list Z := concat (outs (vstep c sy) (vpop c k) s ins).
(** the word that waits in the channel *)
Definition vpending (s : vst) : list (Z * bool) := if v_tvalid s then [(v_tdata s, v_tlast s)] else [].

(** cycles that certainly suffice for a job, of those in which the receiver is ready and the running
    transfer finds a word in its FIFO if it needs one *)
Definition vjob_cost (c : cfg) (j : vjob) : Z :=
  match j with
  | VWrite _ _ => 2
  | VDma k n => 2 + n * match o_ratio (opk c k) with Narrow lp => 2 ^ lp + 1 | _ => 2 end
  end.
Definition vcost (c : cfg) (js : list vjob) : Z := fold_right (fun j t => vjob_cost c j + t) 3 js.
Definition vquiet_in (i : vinp) : Prop := d_req i = None /\ d_write i = None.
Definition vstarved (s : vst) : bool := (0 <? v_size s) && p_empty (v_f (v_unit s (Z.to_nat (v_sel s - 1)))).
Definition vgood (s : vst) (i : vinp) : Z := b2z (d_ready i && negb (vstarved s)).
Definition vgoods (c : cfg) (sy : bool) (s : vst) (ins : list vinp) : Z := fold_right Z.add 0 (outs (vstep c sy) vgood s ins).
