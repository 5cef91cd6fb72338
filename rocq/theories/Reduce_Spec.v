(** What reductions, counters and xorshift generators should produce, in terms of the list of valid
    elements so far (oldest first), each with its operands. *)
From Verif Require Import Base Bits Stream_Model Stream_Spec Reduce_Model.
Open Scope Z_scope.

Definition enabled (given : bool) (i : ain) : bool := if given then i_enable i else true.
Definition restart (given : bool) (i : ain) : bool := if given then i_reset i else false.

(** the elements of the group an element belongs to, up to that element: a group is closed when it
    has [n] elements, and a reset starts a new one; elements that are not enabled do not count *)
Definition full (n : option nat) (cur : list Z) : bool := match n with Some n => (length cur =? n)%nat | None => false end.
Definition join (n : option nat) (he hr : bool) (cur : list Z) (i : ain) : list Z :=
  if enabled he i then if restart hr i || full n cur then [i_right i] else cur ++ [i_right i] else cur.
Definition group (n : option nat) (he hr : bool) (l : list ain) : list Z := fold_left (join n he hr) l [].

(** the operands a reduction is used with: size [n] fits its signal, initval is constant, and if a
    reset is given no element is disabled *)
Definition size_ok (n : option nat) (c : acfg) (l : list ain) : Prop :=
  match n, a_size c with
  | None, None => True
  | Some n, Some w => 0 <= w /\ 1 <= Z.of_nat n < 2 ^ w /\ Forall (fun i => i_size i = Z.of_nat n) l
  | _, _ => False
  end.
Definition reset_ok (he hr : bool) (l : list ain) : Prop := hr = false \/ Forall (fun i => enabled he i = true) l.

(** every [p]-th element *)
Fixpoint every (p k : nat) (l : list Z) : list Z :=
  match l with
  | [] => []
  | x :: r => match k with O => x :: every p (p - 1) r | S k => every p k r end
  end.

Definition enabled_values (he : bool) (l : list ain) : list Z := map i_right (filter (enabled he) l).

(** position of an element in its counting run, counted in enabled elements; [pos] is that of the
    next element if it is no restart *)
Definition next_pos (he hr : bool) (pos : nat) (i : ain) : nat :=
  if enabled he i then S (if restart hr i then 0 else pos) else if restart hr i then 0 else pos.
Definition position (he hr : bool) (l : list ain) (i : ain) : nat := if restart hr i then O else fold_left (next_pos he hr) l O.

(** ** xorshift on [w]-bit words, bit by bit: y_k = x_k xor x_(k-a), etc. *)
Definition bit (w : Z) (x k : Z) : bool := if (0 <=? k) && (k <? w) then Z.testbit x k else false.
Definition xor_left (w a x y : Z) : Prop := 0 <= y < 2 ^ w /\ forall k, 0 <= k < w -> bit w y k = xorb (bit w x k) (bit w x (k - a)).
Definition xor_right (w a x y : Z) : Prop := 0 <= y < 2 ^ w /\ forall k, 0 <= k < w -> bit w y k = xorb (bit w x k) (bit w x (k + a)).
Definition xorshift (w a b c x y : Z) : Prop :=
  exists x1 x2, xor_left w a x x1 /\ xor_right w b x1 x2 /\ xor_left w c x2 y.
(** [orbit w a b c x k y]: [y] is the [k]-th iterate from [x] *)
Inductive orbit (w a b c x : Z) : nat -> Z -> Prop :=
| orbit_0 : orbit w a b c x 0 x
| orbit_S : forall k y z, orbit w a b c x k y -> xorshift w a b c y z -> orbit w a b c x (S k) z.

(** ** ReduceMul: the elements the stream takes: those of enabled, valid cycles *)
Definition taken (c : acfg) (rs : bool) (pt : Z) : mst -> list min -> list ain :=
  fix taken s ys :=
    match ys with
    | [] => []
    | y :: r => (if m_senable s y && y_valid y then [y_ops y] else []) ++ taken (mul_cycle c rs pt s y) r
    end.
(** the operator: the product of the operands, read at the width of the register, shifted *)
Definition op_mul (w : Z) (sg rs : bool) (pt : Z) (v x : Z) : Z :=
  Z.shiftr (value (w + w) sg (value w sg v * value w rs x)) pt.

(** the operand list of a node: right, then the given ones of size, interval, initval (always),
    offset, enable, reset *)
Definition given (b : bool) (x : Z) : list Z := if b then [x] else [].
Definition operands (size interval offset enable reset : bool) (i : ain) : list Z :=
  i_right i :: given size (i_size i) ++ given interval (i_interval i) ++ [i_initval i] ++ given offset (i_offset i)
    ++ given enable (b2z (i_enable i)) ++ given reset (b2z (i_reset i)).
(** the same element with the operands not given set to 0 *)
Definition only_given (size interval offset enable reset : bool) (i : ain) : ain :=
  mkAIn (i_right i) (if size then i_size i else 0) (if interval then i_interval i else 0) (i_initval i)
    (if offset then i_offset i else 0) (enable && i_enable i) (reset && i_reset i).
