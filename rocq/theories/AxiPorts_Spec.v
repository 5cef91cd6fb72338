(** What the masters of several ports may expect. *)
From Verif Require Import Base AxiMem_Model AxiMem_Spec AxiPorts_Model.
Open Scope Z_scope.

Definition po_run (p : mp) (n : nat) (s : ports) (ins : list (nat -> axi_in)) : ports := final (ports_step p n) s ins.
(** the signals of port [j] *)
Definition col (j : nat) (ins : list (nat -> axi_in)) : list axi_in := map (fun i => i j) ins.
(** what happens at port [j], cycle by cycle *)
Definition po_outs {A} (p : mp) (n : nat) (o : axim -> axi_in -> A) (j : nat) (s : ports) (ins : list (nat -> axi_in)) : list A :=
  outs (ports_step p n) (fun s i => o (view s j) (i j)) s ins.
Definition po_seen {A} (p : mp) (n : nat) (o : axim -> axi_in -> list A) (j : nat) (s : ports) (ins : list (nat -> axi_in)) : list A :=
  concat (po_outs p n o j s ins).
Definition po_mems (p : mp) (n : nat) (s : ports) (ins : list (nat -> axi_in)) : list (Z -> Z) :=
  outs (ports_step p n) (fun s _ => o_mem s) s ins.
(** the beats of the read channel without their data *)
Definition r_shape (s : axim) (i : axi_in) : list (bool * Z) := map (fun x => (snd (fst x), snd x)) (r_taken s i).

(** requests of port [j] are held *)
Definition po_held (p : mp) (n : nat) (valid : axi_in -> bool) {A} (o : axim -> axi_in -> list A) (j : nat)
    (s : ports) (ins : list (nat -> axi_in)) : Prop :=
  forall ins1 i i' ins2, ins = ins1 ++ i :: i' :: ins2 ->
    valid (i j) = true -> o (view (po_run p n s ins1) j) (i j) = [] -> valid (i' j) = true.
Definition has_aw (i : axi_in) : bool := some (i_aw i).
Definition has_ar (i : axi_in) : bool := some (i_ar i).

(** bytes of a burst; an address that no other port writes *)
Definition covers (nb : Z) (b : wburst) (x : Z) : Prop := b_addr b <= x < b_addr b + nb * zlen (b_beats b).
Definition only_port (nb : Z) (n : nat) (B : nat -> list wburst) (j : nat) (x : Z) : Prop :=
  forall k b, (k < n)%nat -> k <> j -> In b (B k) -> ~ covers nb b x.

(** eager masters at all ports *)
Fixpoint eagers (p : mp) (n : nat) (c : nat) (s : ports) (t : nat -> master) : list (nat -> axi_in) :=
  match c with
  | O => []
  | S c => let i := fun j => offer (t j) in
           i :: eagers p n c (ports_step p n s i) (tab n (fun j => t_next p (view s j) (t j)))
  end.
