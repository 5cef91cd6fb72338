(** What an accumulator must compute: the fold over the words of the current group. *)
From Verif Require Import Base Dflow_Model Dflow_Spec.
Open Scope nat_scope.

(** a word with its enable and reset *)
Definition word : Type := Z * bool * bool.
(** the enabled words since the last reset; a word that carries the reset is the first of them *)
Fixpoint since (l : list word) (acc : list Z) : list Z :=
  match l with
  | [] => acc
  | (x, e, r) :: l' => since l' ((if r then [] else acc) ++ (if e then [x] else []))
  end.
Definition taken (l : list word) : list Z := since l [].
(** the words of the last group of [n]; without a size all words are one group *)
Definition group (n : option nat) (l : list Z) : list Z :=
  match n with Some n => skipn ((length l - 1) / n * n) l | None => l end.
(** the first [k+1] words of a stream *)
Definition upto (W : nat -> word) (k : nat) : list word := map W (seq 0 (S k)).
(** the operands of an accumulator, from their streams; enable and reset may be missing *)
Definition opt_at (S : option (nat -> Z)) (k : nat) : list Z := match S with Some s => [s k] | None => [] end.
Definition operands (X : nat -> Z) (E R : option (nat -> Z)) (k : nat) : list Z := X k :: opt_at E k ++ opt_at R k.
Definition given {A} (S : option A) : bool := match S with Some _ => true | None => false end.
Definition word_at (X : nat -> Z) (E R : option (nat -> Z)) (k : nat) : word :=
  (X k, match E with Some e => negb (e k =? 0)%Z | None => true end, match R with Some r => negb (r k =? 0)%Z | None => false end).
