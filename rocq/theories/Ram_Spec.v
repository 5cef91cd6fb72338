(** Specification of memories and bursts. *)
From Verif Require Import Base Ram_Model.
From Coq Require Import Permutation.
Open Scope Z_scope.

(** The value of address [a] after a chronological list of writes: the last one wins. *)
Fixpoint last_write (ws : list (Z * Z)) (a : Z) (before : Z) : Z :=
  match ws with
  | [] => before
  | (a', v) :: r => last_write r a (if a =? a' then v else before)
  end.

(** A clocked history of a RAM: the requests of all ports in each cycle, with the order in which
    the simulator happens to apply the writes of that cycle. *)
Definition cycle := (list req * list (Z * Z))%type.
(** The writes requested in a cycle: those of the ports with enable and write enable set. *)
Definition wanted (reqs : list req) : list (Z * Z) :=
  map (fun r => (r_addr r, r_wdata r)) (filter (fun r => r_enable r && r_wenable r) reqs).
(** legal: [order] is some order of the cycle's writes, and no two ports write one address. *)
Definition legal (c : cycle) : Prop :=
  Permutation (snd c) (cycle_writes (fst c)) /\ NoDup (map fst (wanted (fst c))).
Definition ram_run (s : ram) (h : list cycle) : ram :=
  fold_left (fun s c => ram_step s (fst c) (snd c)) h s.
(** all writes issued in a history, in program order *)
Definition history_writes (h : list cycle) : list (Z * Z) := flat_map (fun c => wanted (fst c)) h.

(** The address of the k-th word of a burst. *)
Definition burst_addr (aw addr stride : Z) (k : nat) : Z := (addr + Z.of_nat k * stride) mod 2 ^ aw.
(** The words a read burst must deliver, the last one flagged. *)
Definition burst_words (aw : Z) (mem : Z -> Z) (addr stride : Z) (n : nat) : list (Z * bool) :=
  map (fun k => (mem (burst_addr aw addr stride k), Nat.eqb (S k) n)) (seq 0 n).

(** Words (with last flag) transferred in a port history: rvalid and rready. *)
Fixpoint beats (h : list (rb_in * rb_obs)) : list (Z * bool) :=
  match h with
  | [] => []
  | (i, o) :: r => (if ro_valid o && rbi_rready i then [(ro_data o, ro_last o)] else []) ++ beats r
  end.
Definition count_ready (ins : list rb_in) : nat :=
  length (filter (fun i => rbi_rready i) ins).

(** data accepted by a write burst: the valid words in order *)
Definition valid_words (ins : list wb_in) : list Z :=
  map wbi_data (filter (fun i => wbi_valid i) ins).
(** memory after storing words [ws] at addr, addr+stride, ... *)
Fixpoint store_words (aw addr stride : Z) (k : nat) (ws : list Z) (m : Z -> Z) : Z -> Z :=
  match ws with
  | [] => m
  | w :: r => store_words aw addr stride (S k) r (upd m (burst_addr aw addr stride k) w)
  end.

(** A flat memory, for the multibank RAM: the rdata expected after each operation. *)
Definition flat_step (m : Z -> Z) (o : mb_op) : Z -> Z :=
  match o with MbWrite a d => upd m a d | _ => m end.
Definition flat_init (k : Z) (banks : nat -> Z -> Z) : Z -> Z :=
  fun a => banks (Z.to_nat (a mod 2 ^ k)) (Z.shiftr a k).
