(** What the tree operators, averages and the rounding shift should compute. *)
From Verif Require Import Base Bits Tree_Model.
Open Scope Z_scope.

Definition uniform (s : bool) (args : list node) : Prop := Forall (fun n => 1 <= nw n /\ ns n = s) args.
Definition fits (w : Z) (s : bool) (x : Z) : Prop := if s then - 2 ^ (w - 1) <= x < 2 ^ (w - 1) else 0 <= x < 2 ^ w.
Definition total (args : list node) : Z := fold_right (fun n t => nval n + t) 0 args.
Definition is_max (l : list Z) (m : Z) : Prop := In m l /\ forall x, In x l -> x <= m.
Definition is_min (l : list Z) (m : Z) : Prop := In m l /\ forall x, In x l -> m <= x.
(** every run of neighbouring arguments adds up to something its widest member can hold *)
Definition no_overflow (s : bool) (args : list node) : Prop :=
  forall before run rest, args = before ++ run ++ rest -> run <> [] ->
    exists n, In n run /\ fits (nw n) s (total run).

(** [y] is x/d rounded to nearest: ties away from zero, or ties up *)
Definition near (x d y : Z) : Prop := 2 * Z.abs (d * y - x) <= d.
Definition tie (x d y : Z) : Prop := 2 * Z.abs (d * y - x) = d.
Definition round_away (x d y : Z) : Prop := near x d y /\ (tie x d y -> Z.abs x < Z.abs (d * y)).
Definition round_up (x d y : Z) : Prop := near x d y /\ (tie x d y -> x < d * y).
Definition round_down (x d y : Z) : Prop := d * y <= x < d * (y + 1).
