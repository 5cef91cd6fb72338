(** How a burst of words is dealt to the banks: blocks of [B] words, one bank after the other. *)
From Verif Require Import Base Ram_Model Ram_Spec Block_Model.
Open Scope Z_scope.

(** The bank of the [k]-th word, and its place among the words of that bank. *)
Definition bank_of (n B k : nat) : nat := ((k / B) mod n)%nat.
Definition slot_of (n B k : nat) : nat := (k / (B * n) * B + k mod B)%nat.
(** The words of bank [b], in order. *)
Definition dealt (n B b : nat) (ws : list Z) : list Z :=
  map snd (filter (fun p => bank_of n B (fst p) =? b)%nat (combine (seq 0 (length ws)) ws)).

Definition wk_words (ins : list wk_in) : list Z := valid_words (map wki ins).
(** neither a new request nor a last or quit signal *)
Definition wk_plain (x : wk_in) : Prop := wbi_cond (wki x) = false /\ wbi_last (wki x) = false /\ wbi_quit (wki x) = false.
Definition wk_idle (n : nat) (s : wblock) : Prop := wk_fsm s = 0%nat /\ forall b, (b < n)%nat -> wb_run (wk_unit s b) = false.

(** The words a block read delivers, the last one flagged. *)
Definition block_words (n B : nat) (aw : Z) (mem : nat -> Z -> Z) (addr stride : Z) (len : nat) : list (Z * bool) :=
  map (fun k => (mem (bank_of n B k) (burst_addr aw addr stride (slot_of n B k)), Nat.eqb (S k) len)) (seq 0 len).
Definition rk_plain (x : rk_in) : Prop := rbi_cond (rki x) = false /\ rbi_rquit (rki x) = false.
Definition rk_idle (n : nat) (s : rblock) : Prop :=
  rk_fsm s = 0%nat /\ rk_valid s = false /\ forall b, (b < n)%nat -> rb_run (rk_unit s b) = false.
(** The words of a burst, the last one flagged. *)
Definition flagged (ws : list Z) : list (Z * bool) :=
  map (fun k => (nth k ws 0, Nat.eqb (S k) (length ws))) (seq 0 (length ws)).
(** A producer that presents each word until it sees wready (valid in every cycle while it has a word). *)
Fixpoint feed (n : nat) (aw lw bw : Z) (s : wblock) (ws : list Z) (fuel : nat) : wblock :=
  match fuel, ws with
  | O, _ | _, [] => s
  | S fuel, w :: r =>
      feed n aw lw bw (wk_step n aw lw bw s (mkWKIn (mkWBIn false 0 0 0 true w false false) 0))
           (if wk_ready n s then r else ws) fuel
  end.
