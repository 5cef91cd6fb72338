(** What the operators of Sstate_Model should produce, in terms of the valid elements taken. *)
From Verif Require Import Base Bits Stream_Model Stream_Spec Reduce_Model Reduce_Spec Sstate_Model.
Open Scope Z_scope.

(** the elements taken: those of enabled cycles with the valid bit *)
Definition elements (is : list gin) : list ain := map g_ops (filter (fun i => g_senable i && g_svalid i) is).
(** [k] is the place of the first largest (smallest) number of [g] *)
Definition first_max (g : list Z) (k : nat) : Prop :=
  (k < length g)%nat /\ (forall j, (j < length g)%nat -> nth j g 0 <= nth k g 0) /\ (forall j, (j < k)%nat -> nth j g 0 < nth k g 0).
Definition first_min (g : list Z) (k : nat) : Prop :=
  (k < length g)%nat /\ (forall j, (j < length g)%nat -> nth k g 0 <= nth j g 0) /\ (forall j, (j < k)%nat -> nth k g 0 < nth j g 0).
(** the elements [q] continue the group that [i] started after the elements [p] *)
Definition starts_group (n : option nat) (he hr : bool) (p : list ain) (i : ain) (q : list ain) : Prop :=
  enabled he i = true /\ group n he hr (p ++ [i]) = [i_right i] /\ group n he hr (p ++ i :: q) = i_right i :: enabled_values he q.

(** the last data of a valid element whose condition holds; 0 before *)
Definition last_chosen (hw : bool) (is : list pin) : Z :=
  last (map p_data (filter (fun i => p_senable i && p_svalid i && (if hw then p_when i else true)) is)) 0.

(** the word at address [a] after the writes of some elements *)
Definition hits (aw a : Z) (o : option elem) : bool :=
  match o with Some e => e_wen e && (uns aw (e_waddr e) =? a) | None => false end.
Definition word_after (aw : Z) (m0 : Z -> Z) (os : list (option elem)) (a : Z) : Z :=
  fold_left (fun v o => match o with Some e => if hits aw a o then e_wdata e else v | None => v end) os (m0 a).
(** the enabled cycles of a run *)
Definition active {A} (is : list (bool * A)) : list A := map snd (filter fst is).

(** a counter by user function: the variables are the initial values at the first element and at each
    reset; else the function of the previous values and the operands *)
Record user := mkUser { u_init : list Z; u_args : list Z; u_reset : bool }.
Definition custom_next (c : kcfg) (vs : list Z) (u : user) : list Z :=
  to_vars c (if u_reset u then u_init u else k_func c (vs ++ u_args u)).
Definition custom_value (c : kcfg) (us : list user) : list Z :=
  match us with [] => repeat 0 (num_vars c) | u :: r => fold_left (custom_next c) r (to_vars c (u_init u)) end.
Definition encode (c : kcfg) (u : user) : list Z := u_init u ++ u_args u ++ (if k_reset c then [b2z (u_reset u)] else []).
