(** What it means for a valid/ready channel to be lossless, ordered and stable; stated on
    port histories only. *)
From Verif Require Import Base Skid_Model.

Section Spec.
  Context {A : Type}.
  Definition io := (sb_in A * sb_out A)%type.

  (** Words taken in: valid and ready both high on the input side. *)
  Fixpoint taken (h : list io) : list A :=
    match h with
    | [] => []
    | (i, o) :: r => (if in_valid i && out_ready o then [in_data i] else []) ++ taken r
    end.
  (** Words given out: valid and ready both high on the output side. *)
  Fixpoint given (h : list io) : list A :=
    match h with
    | [] => []
    | (i, o) :: r => (if out_valid o && in_ready i then [out_data o] else []) ++ given r
    end.

  (** valid stays up with the same data until it meets ready. *)
  Fixpoint stable (h : list io) : Prop :=
    match h with
    | (i, o) :: (((_, o') :: _) as r) =>
        (out_valid o = true -> in_ready i = false -> out_valid o' = true /\ out_data o' = out_data o)
        /\ stable r
    | _ => True
    end.

  Definition history (bs : list (sb A)) (ins : list (sb_in A)) : list io :=
    combine ins (outs chain_tick chain_obs bs ins).
End Spec.
