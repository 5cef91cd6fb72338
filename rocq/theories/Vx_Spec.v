(** What selections, slices and constant evaluation should give. *)
From Verif Require Import Base Bits Vx_Model Vx_Sem.
Open Scope Z_scope.

(** a condition holds: a Python constant other than 0, or a signal that is not 0 *)
Definition holds E (c : vx) : bool := match c with XPy z => negb (z =? 0) | _ => truth E c end.
(** the first alternative whose condition holds; no condition always holds *)
Definition first_match {A} (ok : vx -> bool) (ps : list (option vx * A)) : option A :=
  option_map snd (find (fun p => match fst p with None => true | Some c => ok c end) ps).
(** the most recently added alternative whose condition holds *)
Definition last_match (ok : vx -> bool) (l : list (vx * vx)) : option vx := option_map snd (find (fun p => ok (fst p)) (rev l)).
(** a list of patterns ends with the only one without a condition *)
Definition well_formed {A B} (ps : list (option A * B)) : Prop :=
  exists init d, ps = init ++ [(None, d)] /\ Forall (fun p => fst p <> None) init.

(** Python's [slice(start, stop, step).indices(size)], as the list of positions selected
    (CPython, Objects/sliceobject.c:PySlice_AdjustIndices) *)
Definition adjust (size lower upper : Z) (i : Z) : Z :=
  if i <? 0 then Z.max (i + size) lower else Z.min i upper.
Definition py_slice (size : Z) (start stop step : option Z) : list Z :=
  let s := match step with None => 1 | Some s => s end in
  let lower := if 0 <? s then 0 else -1 in
  let upper := if 0 <? s then size else size - 1 in
  let a := match start with None => if 0 <? s then lower else upper | Some i => adjust size lower upper i end in
  let b := match stop with None => if 0 <? s then upper else lower | Some i => adjust size lower upper i end in
  py_range a b s.

(** whether [v] is zero does not depend on the width and sign of its context (variables,
    comparisons, bits; not sums, whose carry may be kept or lost) *)
Definition stable E (v : vx) : Prop := forall W S, swid E v <= W -> (ev E W S v =? 0) = negb (truth E v).

(** a printed constant denoting [z]: a Python int, or an [Int] whose value its width and sign can
    hold.  (The most negative value of a width is excluded: it is printed as the negation of a
    literal that does not hold its absolute value.) *)
Definition fits (w : Z) (s : bool) (x : Z) : Prop := if s then - 2 ^ (w - 1) <= x < 2 ^ (w - 1) else 0 <= x < 2 ^ w.
Inductive literal : vx -> Z -> Prop :=
| lit_py z : - 2 ^ 31 < z < 2 ^ 31 -> literal (XPy z) z
| lit_int v w base sg : 1 <= wd w -> fits (wd w) (lit_signed w base sg) v -> v <> - 2 ^ (wd w - 1) -> literal (XInt v w base sg) v.
(** operands on which Python's operator is the hardware's: [s] whether the operation is signed *)
Definition agrees (o : bop) (s : bool) (l r : Z) : Prop :=
  match o with
  | BDivide | BMod => (0 <= l /\ 0 <= r) \/ (s = true /\ ((l < 0 /\ r < 0) \/ (r | l)))
  | BSrl => 0 <= l
  | BSra => 0 <= l \/ (s = true /\ (2 ^ r | l))
  | BLt | BGt | BLe | BGe | BEq | BNe => (0 <= l /\ 0 <= r) \/ s = true
  | _ => True
  end.

(** only the last item of a case has no condition *)
Definition default_last (ws : list (option (list vx) * list vs)) : Prop :=
    Forall (fun w => fst w <> None) (removelast ws).

(** the alternatives whose condition holds are all true *)
Definition gates E (l : list (vx * vx)) : bool := forallb (fun cv => negb (holds E (fst cv)) || truth E (snd cv)) l.

(** slices whose bounds need no clamping; with a negative step both bounds are given and the stop is
    not position 0 *)
Definition in_bounds (size : Z) (start stop step : option Z) : Prop :=
  (forall i, start = Some i -> - size <= i < size) /\ (forall i, stop = Some i -> - size <= i <= size) /\
  step <> Some 0 /\
  (forall s, step = Some s -> s < 0 -> start <> None /\ exists i, stop = Some i /\ i <> 0 /\ - size < i < size).
