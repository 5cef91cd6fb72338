(** A memory of bytes as an array of bits: words of any width lie side by side. *)
From Verif Require Import Base AxiMemWord_Model.
Open Scope Z_scope.

Definition bytes (m : Z -> Z) : Prop := forall k, 0 <= m k < 2 ^ 8.
(** bit number [j] of the memory *)
Definition mbit (m : Z -> Z) (j : Z) : bool := Z.testbit (m (j / 8)) (j mod 8).
(** first bit of word [idx] of [bits] bits, from byte [off] on *)
Definition first_bit (off idx bits : Z) : Z := 8 * off + idx * bits.
(** [v], a signed number of [bits] bits, is the word at bit [b] *)
Definition is_word (m : Z -> Z) (b bits v : Z) : Prop :=
  - 2 ^ (bits - 1) <= v < 2 ^ (bits - 1) /\ forall j, 0 <= j < bits -> Z.testbit v j = mbit m (b + j).
(** [m'] is [m] with the [bits] bits from [b] on replaced by [d] *)
Definition word_put (m : Z -> Z) (b bits d : Z) (m' : Z -> Z) : Prop :=
  bytes m' /\ forall j, mbit m' j = if (b <=? j) && (j <? b + bits) then Z.testbit d (j - b) else mbit m j.

(** the word lies in the memory, and its bit number in 32 bits *)
Definition in_memory (q : bm) (off idx bits : Z) : Prop :=
  0 <= off /\ 0 <= idx /\ 1 <= bits /\ idx * bits < 2 ^ 31 /\ off + idx * bits / 8 + (bits + 7) / 8 <= 2 ^ k_mw q.
(** the word touches no more bytes than a word at bit 0 *)
Definition compact (idx bits : Z) : Prop := (idx * bits) mod 8 + bits <= 8 * ((bits + 7) / 8).
