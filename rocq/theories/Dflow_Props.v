(** C65: dataflow pipelines with valid and ready. *)
From Verif Require Import Base Dflow_Model Dflow_Spec Dflow_Proofs.
Open Scope Z_scope.

(** Operators of any depth and with any state, inputs and receivers that stall as they like: if the
    operands of every operator have the same users and the values of outputs have no other, then every
    output delivers the stream of its node, no word lost, repeated or out of order. *)
Theorem C65_closed_partial : forall g I n ins,
  legal g -> closed g -> private g -> In n (d_out g) -> extends g I (dinit g) ins ->
  received g n (dinit g) ins = map (den g I n) (seq 0 (length (received g n (dinit g) ins))).
Proof. exact closed_kahn. Qed.
Print Assumptions C65_closed_partial.

(** Any graph of one-stage operators laid out in stages, if all inputs become valid together and all
    receivers become ready together. *)
Theorem C65_lockstep_partial : forall g lev S I n ins,
  legal g -> levelled g lev S -> driven g -> In n (d_out g) -> Forall (synchronous g) ins -> extends g I (dinit g) ins ->
  received g n (dinit g) ins = map (den g I n) (seq 0 (length (received g n (dinit g) ins))).
Proof. intros. eapply lock_kahn; eassumption. Qed.
Print Assumptions C65_lockstep_partial.
(** such a pipeline holds at most one word per stage *)
Theorem C65_conserved_partial : forall g lev S m n ins,
  legal g -> levelled g lev S -> driven g -> In n (d_out g) -> (m < size g)%nat -> node g m = NIn -> Forall (synchronous g) ins ->
  (length (received g n (dinit g) ins) <= length (words g m (dinit g) ins) <= length (received g n (dinit g) ins) + S)%nat.
Proof. intros. eapply lock_conserved; eassumption. Qed.
Print Assumptions C65_conserved_partial.
(** and after whatever happened before, [S] cycles after the inputs are valid and the receivers ready it
    delivers a word per cycle *)
Theorem C65_live_partial : forall g lev S n pre flow,
  legal g -> levelled g lev S -> driven g -> In n (d_out g) ->
  Forall (synchronous g) pre -> Forall (synchronous g) flow -> Forall (flowing g) flow ->
  (length (received g n (dinit g) pre) + length flow <= length (received g n (dinit g) (pre ++ flow)) + S)%nat.
Proof. intros. eapply lock_live; eassumption. Qed.
Print Assumptions C65_live_partial.

(** ** Operators used below *)
Definition oadd : opsem := mkOp 0 [] (fun st l => (st, fold_right Z.add 0 l)).
Definition oneg : opsem := mkOp 0 [] (fun st l => (st, - nth 0 l 0)).
Definition odelay : opsem := mkOp 0 [] (fun st l => (st, nth 0 l 0)).
(** the multiplier of [mul.py:57-102]: six stages *)
Definition omul : opsem := mkOp 5 [] (fun st l => (st, nth 0 l 0 * nth 1 l 0)).
(** [ReduceAdd] *)
Definition oacc : opsem := mkOp 0 [0] (fun st l => ([nth 0 st 0 + nth 0 l 0], nth 0 st 0 + nth 0 l 0)).
(** a cycle from lists: valid inputs with their words, ready outputs *)
Definition cyc (v : list (nat * Z)) (r : list nat) : din :=
  mkDin (fun n => existsb (fun p => Nat.eqb (fst p) n) v)
        (fun n => match find (fun p => Nat.eqb (fst p) n) v with Some p => snd p | None => 0 end)
        (fun n => existsb (Nat.eqb n) r).
Ltac ok := match goal with
  | |- legal _ => apply legalb_ok | |- levelled _ _ _ => apply levelledb_ok | |- driven _ => apply drivenb_ok
  | |- private _ => apply privateb_ok | |- closed _ => apply closedb_ok | |- Forall (synchronous _) _ => apply synchronousb_ok end; vm_compute; reflexivity.

(** ** Findings *)
(** The ready wire of a value asks only for the acceptance of the operators that use it, but an operator
    takes its operands only if all of them are ready [597-604].  In (u + v) + (v + z), while z is missing
    v is not ready, u is: the words of u are given away and nobody takes them. *)
Definition g_lost : graph := mkGraph [NIn; NIn; NIn; NOp oadd [0; 1]; NOp oadd [1; 2]; NOp oadd [3; 4]]%nat [5%nat].
Definition lev_lost (n : nat) : nat := nth n [0; 0; 0; 1; 1; 2]%nat 0%nat.
Definition ins_lost : list din :=
  [cyc [(0%nat, 1); (1%nat, 10)] [5%nat]; cyc [(0%nat, 2); (1%nat, 10); (2%nat, 100)] [5%nat]; cyc [] [5%nat]; cyc [] [5%nat]].
Theorem C65_lost_refuted :
  legal g_lost /\ levelled g_lost lev_lost 2 /\ driven g_lost /\ private g_lost /\ Forall (fun i => forall n, In n (d_out g_lost) -> o_ready i n = true) ins_lost /\
  words g_lost 0%nat (dinit g_lost) ins_lost = [1; 2] /\ words g_lost 1%nat (dinit g_lost) ins_lost = [10] /\ words g_lost 2%nat (dinit g_lost) ins_lost = [100] /\
  received g_lost 5%nat (dinit g_lost) ins_lost = [122] /\
  forall I, extends g_lost I (dinit g_lost) ins_lost -> den g_lost I 5%nat 0%nat = 121.
Proof.
  split; [ok|]. split; [ok|]. split; [ok|]. split; [ok|].
  split; [repeat constructor; intros n [<-|[]]; reflexivity|].
  split; [vm_compute; reflexivity|]. split; [vm_compute; reflexivity|]. split; [vm_compute; reflexivity|]. split; [vm_compute; reflexivity|].
  intros I H. cbn. rewrite (H 0%nat 0%nat 1), (H 1%nat 0%nat 10), (H 2%nat 0%nat 100); try reflexivity; vm_compute; lia.
Qed.
Print Assumptions C65_lost_refuted.

(** u * v + (u + w): all inputs valid together, but with gaps, and the receiver stalls.  The multiplier
    moves as a whole and stops, with gaps inside, when its last stage does; the delays beside it close their gaps
    and accept more.  w is given away while u is not ready. *)
Definition g_mul : graph :=
  mkGraph [NIn; NIn; NIn; NOp omul [0; 1]; NOp oadd [0; 2]; NOp odelay [4]; NOp odelay [5]; NOp odelay [6]; NOp odelay [7]; NOp odelay [8]; NOp oadd [3; 9]]%nat [10%nat].
Definition all3 (x : Z) (r : list nat) : din := cyc [(0%nat, x); (1%nat, 10); (2%nat, 100 * x)] r.
Definition ins_mul : list din :=
  [all3 1 []; all3 2 []; cyc [] []; cyc [] []; cyc [] []; cyc [] []; cyc [] []; all3 3 []; cyc [(0%nat, 3); (1%nat, 10); (2%nat, 400)] [10%nat]] ++ repeat (cyc [] [10%nat]) 9.
Theorem C65_multiplier_refuted :
  legal g_mul /\ driven g_mul /\ private g_mul /\ Forall (synchronous g_mul) ins_mul /\
  words g_mul 0%nat (dinit g_mul) ins_mul = [1; 2; 3] /\ words g_mul 1%nat (dinit g_mul) ins_mul = [10; 10; 10] /\
  words g_mul 2%nat (dinit g_mul) ins_mul = [100; 200; 300; 400] /\
  received g_mul 10%nat (dinit g_mul) ins_mul = [111; 222; 433].
Proof.
  split; [ok|]. split; [ok|]. split; [ok|].
  split; [ok|].
  repeat split; vm_compute; reflexivity.
Qed.
Print Assumptions C65_multiplier_refuted.

(** two outputs u + v and - u, the receiver of the second not ready: u is not ready, v is given away *)
Definition g_two : graph := mkGraph [NIn; NIn; NOp oadd [0; 1]; NOp oneg [0]]%nat [2; 3]%nat.
Definition ins_two : list din :=
  [cyc [(0%nat, 1); (1%nat, 10)] [2%nat]; cyc [(0%nat, 2); (1%nat, 20)] [2%nat]; cyc [(0%nat, 2); (1%nat, 30)] [2; 3]%nat; cyc [] [2; 3]%nat].
Theorem C65_two_outputs_refuted :
  legal g_two /\ levelled g_two (fun n => nth n [0; 0; 1; 1] 0)%nat 1%nat /\ driven g_two /\ private g_two /\
  words g_two 0%nat (dinit g_two) ins_two = [1; 2] /\ words g_two 1%nat (dinit g_two) ins_two = [10; 20; 30] /\
  received g_two 2%nat (dinit g_two) ins_two = [11; 32].
Proof. split; [ok|]. split; [ok|]. split; [ok|]. split; [ok|]. repeat split; vm_compute; reflexivity. Qed.
Print Assumptions C65_two_outputs_refuted.

(** a value and its predecessor as outputs: they share valid and ready [2068-2072], so that the receiver of
    one gets a word again while the other is not ready *)
Definition g_prev : graph := mkGraph [NIn; NOp odelay [0]; NPrev 1 1]%nat [1; 2]%nat.
Definition ins_prev : list din :=
  [cyc [(0%nat, 5)] [1; 2]%nat; cyc [] [1%nat]; cyc [] [1%nat]; cyc [] [1; 2]%nat].
Theorem C65_prev_output_refuted :
  legal g_prev /\ closed g_prev /\ levelled g_prev (fun n => nth n [0; 1; 1] 0)%nat 1%nat /\ driven g_prev /\
  words g_prev 0%nat (dinit g_prev) ins_prev = [5] /\
  received g_prev 1%nat (dinit g_prev) ins_prev = [5; 5; 5].
Proof. split; [ok|]. split; [ok|]. split; [ok|]. split; [ok|]. split; vm_compute; reflexivity. Qed.
Print Assumptions C65_prev_output_refuted.

(** ** The theorems at work *)
(** a sum of products, the multiplier and the accumulator with any timing *)
Definition g_mac : graph := mkGraph [NIn; NIn; NOp omul [0; 1]; NOp oacc [2]]%nat [3%nat].
Example mac_ok : legal g_mac /\ closed g_mac /\ private g_mac.
Proof. split; [ok|]. split; ok. Qed.
Definition ins_mac : list din :=
  [cyc [(0%nat, 2)] []; cyc [(0%nat, 2); (1%nat, 3)] []; cyc [(1%nat, 5)] []; cyc [(0%nat, 4); (1%nat, 5)] []; cyc [(0%nat, 6); (1%nat, 7)] []] ++
  repeat (cyc [] []) 4 ++ repeat (cyc [] [3%nat]) 8.
Example mac_runs : received g_mac 3%nat (dinit g_mac) ins_mac = [6; 26; 68].
Proof. vm_compute. reflexivity. Qed.
Example mac_says : forall I, extends g_mac I (dinit g_mac) ins_mac -> map (den g_mac I 3%nat) (seq 0 3) = [6; 26; 68].
Proof.
  intros I H. destruct mac_ok as (H1 & H2 & H3). pose proof (C65_closed_partial g_mac I 3%nat ins_mac H1 H2 H3 (or_introl eq_refl) H) as R.
  rewrite mac_runs in R. symmetry. exact R.
Qed.
(** (u + v) + (v + z), the graph of [C65_lost_refuted], with inputs that come together: valid with
    gaps, the receiver stalling, and then ten cycles without stalls *)
Definition all3' (x : Z) (r : list nat) : din := cyc [(0%nat, x); (1%nat, 10 * x); (2%nat, 100 * x)] r.
Definition ins_add : list din := [all3' 1 []; cyc [] []; all3' 2 []; all3' 3 []; all3' 4 [5%nat]; cyc [] [5%nat]; all3' 5 []].
Example add_says : legal g_lost /\ levelled g_lost lev_lost 2 /\ driven g_lost /\ Forall (synchronous g_lost) ins_add /\
  words g_lost 0%nat (dinit g_lost) ins_add = [1; 2; 4; 5] /\ received g_lost 5%nat (dinit g_lost) ins_add = [121; 242].
Proof.
  split; [ok|]. split; [ok|]. split; [ok|]. split; [ok|]. split; vm_compute; reflexivity.
Qed.
