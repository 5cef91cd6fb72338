(** Common imports and clocked-trace helpers.
    [outs step out s ins] is the list of per-cycle observations of a synchronous
    machine started in [s] and fed the inputs [ins]; [final] is the state afterwards.
    These are not part of /repo: they express "run the clock for a while". *)
From Coq Require Export ZArith List Bool Lia Arith.
From Coq Require Export ZifyBool ZifyNat.
Export ListNotations.


Section Trace.
  Context {S I O : Type}.
  Variable step : S -> I -> S.
  Variable out : S -> I -> O.

  Fixpoint outs (s : S) (ins : list I) : list O :=
    match ins with
    | [] => []
    | i :: r => out s i :: outs (step s i) r
    end.

  Definition final (s : S) (ins : list I) : S := fold_left step ins s.
End Trace.

(** Bool-to-Z view of a one-bit signal. *)
Definition b2z (b : bool) : Z := if b then 1%Z else 0%Z.

(** Memory as a total function from addresses to words, with point update. *)
Definition upd {A} (m : Z -> A) (a : Z) (v : A) : Z -> A :=
  fun x => if Z.eqb x a then v else m x.

Definition updn {A} (m : nat -> A) (a : nat) (v : A) : nat -> A :=
  fun x => if Nat.eqb x a then v else m x.
