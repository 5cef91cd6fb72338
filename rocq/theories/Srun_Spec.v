(** What a run of a thread stream must do. *)
From Verif Require Import Base Pat_Model Stream_Model Srun_Model.
Open Scope Z_scope.

(** the number of elements of a run: the longest source *)
Definition longest (c : cfg) : Z := fold_right (fun x n => Z.max (sc_size x) n) 0 (c_src c).
Definition elements (c : cfg) : nat := Z.to_nat (longest c).
(** the [k]-th word of a source; a shorter source keeps its last word *)
Definition word_of (c : cfg) (x : scfg) (k : nat) : Z :=
  sc_mem x ((sc_off x + Z.min (Z.of_nat k) (sc_size x - 1) * sc_stride x) mod 2 ^ c_aw c).
(** the [k]-th element of a run: the words of the sources, [reduce_reset] with the first, valid *)
Definition is_element (c : cfg) (k : nat) (e : elem) : Prop :=
  (forall i x, nth_error (c_src c) i = Some x -> e_in e i = word_of c x k) /\
  e_in e (length (c_src c)) = b2z (k =? 0)%nat /\ e_valid e = true.
(** the addresses of a sink *)
Definition addresses (c : cfg) (x : kcfg) : list Z :=
  map (fun i => (kc_off x + Z.of_nat i * kc_stride x) mod 2 ^ c_aw c) (seq 0 (Z.to_nat (kc_size x))).
(** the output of the pipeline for element [t] of all it took: it comes [c_depth] elements later *)
Definition result (c : cfg) (hist : list elem) (o t : nat) : Z :=
  c_pipe c (firstn (t + c_depth c) hist) (nth (t + c_depth c) hist (mkElem (fun _ => 0) false)) o.
(** the words for a sink from [n] elements, the first of which is [t]: those for which [when] holds *)
Definition results (c : cfg) (hist : list elem) (x : kcfg) (t n : nat) : list Z :=
  map (result c hist (kc_out x))
    (filter (fun t => match kc_when x with Some w => negb (result c hist w t =? 0) | None => true end) (seq t n)).
(** the write that a sink has decided on but not made yet *)
Definition pending (k : snk) : list (Z * Z) := if lk_en (w_fsm k) then [(lk_addr (w_fsm k), lk_data (w_fsm k))] else [].
Definition writes (k : snk) : list (Z * Z) := w_log k ++ pending k.

(** the settings fit the registers *)
Definition fits (aw off size stride : Z) : Prop := 0 <= off < 2 ^ aw /\ 1 <= size < 2 ^ (aw + 1) /\ 0 <= stride < 2 ^ aw.
Definition good (c : cfg) : Prop :=
  0 <= c_aw c /\ c_src c <> [] /\
  Forall (fun x => fits (c_aw c) (sc_off x) (sc_size x) (sc_stride x)) (c_src c) /\
  Forall (fun x => fits (c_aw c) (kc_off x) (kc_size x) (kc_stride x)) (c_snk c).

(** between two runs: nothing is going on, all delays are empty *)
Definition ready (c : cfg) (s : strm) : Prop :=
  s_st s = 0%nat /\ s_start s = false /\ s_busy s = false /\ s_ivalid s = false /\
  s_d s = repeat false 4 /\ s_e s = false /\
  s_ks s = repeat false (c_depth c + 2) /\ s_kp s = repeat false (c_depth c + 2) /\ s_kb s = repeat false (c_depth c + 2) /\
  s_breg s = false /\
  length (s_src s) = length (c_src c) /\ Forall (fun r => l_st (r_fsm r) = 0%nat /\ l_idle (r_fsm r) = true /\ l_en (r_fsm r) = false) (s_src s) /\
  length (s_snk s) = length (c_snk c) /\ Forall (fun k => lk_st (w_fsm k) = 0%nat) (s_snk s).

(** what has happened between [s] and [s'] is one run: the pipeline took the elements of the run, no other
    valid ones, and every sink wrote the results at its addresses.  A sink with a larger size than there are
    results also writes the word that follows the run. *)
Definition one_run (c : cfg) (s s' : strm) : Prop :=
  exists pre E post, s_hist s' = s_hist s ++ pre ++ E ++ post /\
    Forall (fun e => e_valid e = false) pre /\ Forall (fun e => e_valid e = false) post /\
    length E = elements c /\ (forall k e, nth_error E k = Some e -> is_element c k e) /\ (c_depth c < length post)%nat /\
    forall j x k k', nth_error (c_snk c) j = Some x -> nth_error (s_snk s) j = Some k -> nth_error (s_snk s') j = Some k' ->
      let res n := results c (s_hist s') x (length (s_hist s ++ pre)) n in
      (kc_size x <= Z.of_nat (length (res (elements c))) -> w_log k' = writes k ++ combine (addresses c x) (res (elements c))) /\
      writes k' = writes k ++ combine (addresses c x) (res (S (elements c))).
Definition ticks (ins : list bool) : nat := length (filter (fun b => b) ins).
(** [n] runs one after the other *)
Inductive runs (c : cfg) : nat -> strm -> strm -> Prop :=
| runs_0 : forall s, runs c 0 s s
| runs_S : forall n s s1 s2, one_run c s s1 -> ready c s1 -> runs c n s1 s2 -> runs c (S n) s s2.
(** a pipeline is that of the hardware [h] with [m] stages and outputs [rs] *)
Definition pipeline_of (h : heap) (m : nat) (rs : list nat) (par : nat -> Z) (P : pipe) : Prop :=
  forall xs x, exists r v, exec h true par m xs r /\ wires_ok h par x r v /\ forall j o, nth_error rs j = Some o -> P xs x j = v o.
