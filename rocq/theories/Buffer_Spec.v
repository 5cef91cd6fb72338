(** What ring buffers and line buffers should deliver. *)
From Verif Require Import Base Bits Buffer_Model.
Open Scope Z_scope.

(** ** RingBuffer *)
(** the elements that passed the buffer, with their write enables; the values kept *)
Definition passed (l : list rin) : list (Z * bool) := map (fun i => (r_data i, r_wen i)) (filter (fun i => r_go i && r_valid i) l).
Definition kept (els : list (Z * bool)) : list Z := map fst (filter snd els).
(** is there an element at the next stage: was the last enabled cycle a valid one? *)
Definition occupied (l : list rin) : bool := fold_left (fun o i => if r_go i then r_valid i else o) l false.
(** the number meant by an offset *)
Definition means (o : off) (z : Z) : Prop := match o with OInt y => z = y | OSig w x => exists s, z = value w s x end.
(** lengths and offsets the address computation supports: any offset if the length is a power of
    two and the signal is not narrower than an address, else offsets from 0 below the length *)
Definition offset_ok (len : Z) (o : off) (z : Z) : Prop :=
  2 <= len <= 2 ^ 31 /\ means o z /\
  ((len = 2 ^ addr_width len /\ match o with OInt _ => True | OSig w _ => addr_width len <= w end) \/
   (0 <= z < len /\ match o with OInt _ => True | OSig w _ => 1 <= w end)).

(** ** LineBuffer: each row of the window continues into a line of M - 1 further values; newest first *)
Definition enter (x : Z) (row : list Z) : list Z := x :: removelast row.
Fixpoint map2 {X Y T} (f : X -> Y -> T) (l : list X) (m : list Y) : list T :=
  match l, m with x :: l, y :: m => f x y :: map2 f l m | _, _ => [] end.
(** rows by j; the last row takes the data, every other row what falls out of the next one *)
Definition shift_rows (x : Z) (rows : list (list Z)) : list (list Z) :=
  map2 enter (map (fun r => last r 0) (tl rows) ++ [x]) rows.
Definition rotate_rows (rows : list (list Z)) : list (list Z) := map (fun r => enter (last r 0) r) rows.
Definition perform (hasrot : bool) (rows : list (list Z)) (i : lin) : list (list Z) :=
  if hasrot && l_rot i then rotate_rows rows else if l_shift i then shift_rows (l_data i) rows else rows.
(** window value (i, j) *)
Definition window (A : nat) (rows : list (list Z)) (i j : nat) : Z := nth (A - 1 - i) (nth j rows []) 0.
(** at the start the window is 0 and the lines hold whatever the memories do *)
Definition first_rows (A B m : nat) (mem : nat -> Z -> Z) : list (list Z) :=
  map (fun j => repeat 0 A ++ map (fun a => mem j (Z.of_nat a)) (rev (seq 0 (m - 1)))) (seq 0 B).
(** the data of the shifts, newest first *)
Definition shifted (l : list lin) : list Z := rev (map l_data (filter l_shift l)).
(** the cycles in which an event is taken in, and those whose event has been performed: the last one
    is still on its way *)
Definition goes (l : list lin) : list lin := filter l_go l.
Definition performed (l : list lin) : list lin := removelast (goes l).
Definition no_event : lin := mkLIn true false false 0.
