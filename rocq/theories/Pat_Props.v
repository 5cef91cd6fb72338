(** C35: address patterns of sources and sinks visit the right addresses; C56: the same for a single
    size and stride. *)
From Coq Require Import Permutation.
From Verif Require Import Base Pat_Model Pat_Spec Pat_Proofs Pat_Multi Pat_Sink Pat_Lin.
Open Scope Z_scope.

(** A pattern on a source: from any history after reset that leaves the machine waiting, the cycles after
    the start read exactly the addresses of the nested loops, in order; the [k]-th of them in the
    [k+1]-th cycle that is not stalled, whatever the stalls.  The source is not idle meanwhile, and waits
    again afterwards. *)
Theorem C35_source aw n o p s pre i0 ins : 0 <= aw ->
  set_pattern aw n o p = Some s -> Forall (fun x => 1 <= fst x < 2 ^ (aw + 1)) p ->
  Forall (fun i => sized n (set i)) pre ->
  let x := final (src_step aw) (src_reset n) pre in
  st x = 0%nat -> ordy i0 = true -> start i0 = true -> set i0 = s -> Forall quiet ins ->
  let y := src_step aw x i0 in
  let z := final (src_step aw) y ins in
  let A := addresses aw o p in
  src_read x i0 = [] /\
  trace (src_step aw) src_read y ins = firstn (n_ready ins - 1) A /\
  ((1 <= n_ready ins <= length A)%nat -> en z = true /\ idle z = false) /\
  ((length A < n_ready ins)%nat -> st z = 0%nat /\ en z = false /\ idle z = true).
Proof.
  intros H1 H2 H3 H4 x H5 H6 H7 H8 H9 y z A.
  destruct (source_pattern aw n o p s pre i0 ins H1 H2 H3 H4 H5 H6 H7 H8 H9) as (K1 & K2 & K3 & K4).
  split; [exact K1|]. split; [exact K2|]. split; [|exact K4]. intros L. destruct (K3 L) as (L1 & L2 & _). split; assumption.
Qed.
Print Assumptions C35_source.

(** Stop: one more read, then none. *)
Theorem C35_source_stop aw n o p s pre i0 ins1 i1 ins2 : 0 <= aw ->
  set_pattern aw n o p = Some s -> Forall (fun x => 1 <= fst x < 2 ^ (aw + 1)) p ->
  Forall (fun i => sized n (set i)) pre ->
  let x := final (src_step aw) (src_reset n) pre in
  st x = 0%nat -> ordy i0 = true -> start i0 = true -> set i0 = s -> Forall quiet ins1 -> Forall (fun i => sized n (set i)) ins1 ->
  ordy i1 = true -> start i1 = false -> stop i1 = true -> Forall (fun i => start i = false) ins2 ->
  let y := src_step aw x i0 in
  trace (src_step aw) src_read y (ins1 ++ i1 :: ins2) = firstn (n_ready ins1) (addresses aw o p) /\
  ((1 <= n_ready ins2)%nat -> st (final (src_step aw) y (ins1 ++ i1 :: ins2)) = 0%nat).
Proof. exact (source_stop aw n o p s pre i0 ins1 i1 ins2). Qed.
Print Assumptions C35_source_stop.

(** A pattern on a sink: the [k]-th datum that is taken (not stalled, and the [when] condition holds) is
    written to the [k]-th address; the machine waits again when all addresses have been used. *)
Theorem C35_sink aw n o p s pre i0 st1 i1 ins : 0 <= aw ->
  set_pattern aw n o p = Some s -> Forall (fun x => 1 <= fst x < 2 ^ (aw + 1)) p ->
  Forall (fun i => sized n (k_set i)) pre ->
  let x := final (snk_step aw) (snk_reset n) pre in
  k_st x = 0%nat -> k_ordy i0 = true -> k_start i0 = true -> k_set i0 = s ->
  Forall (fun i => k_ordy i = false) st1 -> k_ordy i1 = true -> k_quiet i1 -> Forall k_quiet ins ->
  let y := snk_step aw x i0 in
  let w := snk_step aw (final (snk_step aw) y st1) i1 in
  let z := final (snk_step aw) w ins in
  let A := addresses aw o p in
  trace (snk_step aw) snk_write y (st1 ++ [i1]) = [] /\
  trace (snk_step aw) snk_write w ins ++ k_pend z = combine A (accepted ins) /\
  ((length A <= length (accepted ins))%nat -> k_st z = 0%nat) /\
  ((length (accepted ins) < length A)%nat -> k_st z = 2%nat).
Proof.
  intros H1 H2 H3 H4 x H5 H6 H7 H8 H9 Ha Hb Hc y w z A.
  destruct (sink_pattern aw n o p s pre i0 st1 i1 ins H1 H2 H3 H4 H5 H6 H7 H8 H9 Ha Hb Hc) as (K1 & K2 & K3 & K4).
  split; [exact K1|]. split; [exact K2|]. split; [exact K3|]. intros L. destruct (K4 L) as [[L1 _] _]. exact L1.
Qed.
Print Assumptions C35_sink.

Theorem C35_sink_stop aw n o p s pre i0 st1 i1 ins i2 ins2 : 0 <= aw ->
  set_pattern aw n o p = Some s -> Forall (fun x => 1 <= fst x < 2 ^ (aw + 1)) p ->
  Forall (fun i => sized n (k_set i)) pre ->
  let x := final (snk_step aw) (snk_reset n) pre in
  k_st x = 0%nat -> k_ordy i0 = true -> k_start i0 = true -> k_set i0 = s ->
  Forall (fun i => k_ordy i = false) st1 -> k_ordy i1 = true -> k_quiet i1 -> Forall k_quiet ins ->
  k_ordy i2 = true -> k_start i2 = false -> k_stop i2 = true -> Forall (fun i => k_start i = false) ins2 ->
  let w := snk_step aw (final (snk_step aw) (snk_step aw x i0) st1) i1 in
  let z := final (snk_step aw) w (ins ++ i2 :: ins2) in
  trace (snk_step aw) snk_write w (ins ++ i2 :: ins2) ++ k_pend z = combine (addresses aw o p) (accepted (ins ++ [i2])) /\
  k_st z = 0%nat.
Proof. exact (sink_stop aw n o p s pre i0 st1 i1 ins i2 ins2). Qed.
Print Assumptions C35_sink_stop.

(** The loops visit every index tuple below the sizes, and none twice. *)
Theorem C35_tuples sizes : NoDup (tuples sizes) /\ forall t, In t (tuples sizes) <-> Forall2 (fun i s => 0 <= i < s) t sizes.
Proof. split; [apply tuples_nodup|apply tuples_in]. Qed.
Print Assumptions C35_tuples.

(** set_*_multidim with the default order: the elements of the array as they lie in memory. *)
Theorem C35_multidim aw off shape p : to_pattern shape (default_order shape) = Some p -> Forall (fun n => 0 <= n) shape ->
  addresses aw off p = map (fun k => (off + k) mod 2 ^ aw) (upto (volume shape)).
Proof.
  intros E F. rewrite default_pattern in E. injection E as <-. unfold addresses. rewrite default_visits by exact F. reflexivity.
Qed.
Print Assumptions C35_multidim.

(** With a given order: the loop over dimension [order[k]] is the [k]-th from inside. *)
Theorem C35_multidim_order shape order : NoDup order -> Forall (fun p => 0 <= p < Z.of_nat (length shape)) order ->
  exists p, to_pattern shape order = Some p /\ map fst p = map (fun k => nth (Z.to_nat k) shape 0) order /\
    visits p = map (fun t => row_major shape (element shape order t)) (tuples (map fst p)).
Proof.
  intros N F. exists (map (dim shape) order). split; [apply to_pattern_dims; exact F|]. split.
  - rewrite map_map. reflexivity.
  - unfold visits. apply map_ext_in. intros t Ht. apply tuples_len in Ht. rewrite !map_length in Ht. apply dot_element; assumption.
Qed.
Print Assumptions C35_multidim_order.

(** Any permutation of the dimensions reaches each element of the array exactly once. *)
Theorem C35_multidim_perm shape order p : Permutation order (default_order shape) -> Forall (fun n => 0 <= n) shape ->
  to_pattern shape order = Some p -> Permutation (visits p) (upto (volume shape)).
Proof.
  intros P F E. rewrite <- default_visits by exact F. apply visits_perm.
  assert (Fd : Forall (fun p => 0 <= p < Z.of_nat (length shape)) (default_order shape)).
  { unfold default_order. apply Forall_rev. apply Forall_forall. intros q Hq. apply in_map_iff in Hq. destruct Hq as (k & <- & Hk).
    apply in_seq in Hk. lia. }
  rewrite to_pattern_dims in E.
  - injection E as <-. pose proof (default_pattern shape) as D. rewrite (to_pattern_dims _ _ Fd) in D. injection D as <-.
    apply Permutation_map. exact P.
  - eapply Permutation_Forall; [apply Permutation_sym; exact P|exact Fd].
Qed.
Print Assumptions C35_multidim_perm.

(** Several patterns with the same sizes, set before the start: one after another.  Missing for the
    general statement: patterns of different sizes; see the refutations below. *)
Theorem C35_source_multi_partial aw maxlen junk offs pats lines S0 x is_ wait i0 ins : 0 < aw ->
  let nw := num_width (length junk) in
  set_multi aw maxlen junk offs pats = Some lines -> Forall (sized maxlen) junk ->
  Forall (fun p => map fst p = S0) pats -> Forall (fun s => 1 <= s < 2 ^ aw) S0 ->
  m_st x = 0%nat -> m_en x = false -> length (m_cur x) = maxlen ->
  m_start is_ = false -> m_set is_ = Some (Z.of_nat (length pats)) ->
  Forall (fun i => m_start i = false /\ m_set i = None) wait ->
  m_ordy i0 = true -> m_start i0 = true -> m_set i0 = None -> m_settings i0 = lines ->
  Forall m_quiet ins ->
  let y := final (msrc_step aw nw) x (is_ :: wait ++ [i0]) in
  let z := final (msrc_step aw nw) y ins in
  let A := addresses_of aw offs pats in
  trace (msrc_step aw nw) msrc_read y ins = firstn (n_mready ins - 1) A /\
  ((1 <= n_mready ins <= length A)%nat -> m_en z = true /\ m_idle z = false) /\
  ((length A < n_mready ins)%nat -> m_st z = 0%nat /\ m_en z = false /\ m_idle z = true).
Proof. exact (source_multi aw maxlen junk offs pats lines S0 x is_ wait i0 ins). Qed.
Print Assumptions C35_source_multi_partial.

(** The same for sinks without a [when] condition. *)
Theorem C35_sink_multi_partial aw maxlen junk offs pats lines S0 x is_ wait i0 st1 i1 ins : 0 < aw ->
  let nw := num_width (length junk) in
  set_multi aw maxlen junk offs pats = Some lines -> Forall (sized maxlen) junk ->
  Forall (fun p => map fst p = S0) pats -> Forall (fun s => 1 <= s < 2 ^ aw) S0 ->
  n_st x = 0%nat -> length (n_cur x) = maxlen ->
  n_start is_ = false -> n_set is_ = Some (Z.of_nat (length pats)) ->
  Forall (fun i => n_start i = false /\ n_set i = None) wait ->
  n_ordy i0 = true -> n_start i0 = true -> n_set i0 = None -> n_settings i0 = lines ->
  Forall (fun i => n_ordy i = false /\ n_set i = None) st1 -> n_ordy i1 = true -> n_quiet i1 ->
  Forall n_quiet ins ->
  let w := final (msnk_step aw nw) x (is_ :: wait ++ [i0] ++ st1 ++ [i1]) in
  let z := final (msnk_step aw nw) w ins in
  let A := addresses_of aw offs pats in
  trace (msnk_step aw nw) msnk_write w ins ++ n_pend z = combine A (n_accepted ins) /\
  ((length A <= length (n_accepted ins))%nat -> n_st z = 0%nat) /\
  ((length (n_accepted ins) < length A)%nat -> n_st z = 2%nat).
Proof. exact (sink_multi aw maxlen junk offs pats lines S0 x is_ wait i0 st1 i1 ins). Qed.
Print Assumptions C35_sink_multi_partial.

(** ** Findings *)
Definition xs0 : src := src_reset 2.
Definition ms0 : msrc := mkM 0 0 [0; 0] [0] [[0]; [0]] [[0]; [0]] [0] 0 false true.
Definition ns0 : msnk := mkN 0 0 [0; 0] [0] [[0]; [0]] [[0]; [0]] [0] 0 0 false.
Definition jk : list setting := [mkS 0 [0] [0]; mkS 0 [0] [0]].
Definition mgo (start : bool) (set : option Z) (l : list setting) : min := mkMin true start false set l.
Definition ngo (start : bool) (set : option Z) (l : list setting) (wc : bool) (d : Z) : nin := mkNin true start false set l wc d.

(** Patterns of different sizes: the second one is given the counts of the first. *)
Theorem C35_multi_sizes_refuted : exists offs pats lines,
  set_multi 4 1 jk offs pats = Some lines /\
  addresses_of 4 offs pats = [0; 8; 9; 10] /\
  trace (msrc_step 4 (num_width 2)) msrc_read ms0
    (mgo false (Some 2) lines :: mgo true None lines :: repeat (mgo false None lines) 20) = [0; 8].
Proof. exists [0; 8], [[(1, 1)]; [(3, 1)]]. eexists. split; [reflexivity|]. split; vm_compute; reflexivity. Qed.
Print Assumptions C35_multi_sizes_refuted.

(** Sizes of 2^aw words, which are fine in a single pattern: the second pattern is too long. *)
Theorem C35_multi_width_refuted : exists offs pats lines,
  set_multi 2 1 jk offs pats = Some lines /\
  addresses_of 2 offs pats = [0; 1; 2; 3; 0; 1; 2; 3] /\
  trace (msrc_step 2 (num_width 2)) msrc_read ms0
    (mgo false (Some 2) lines :: mgo true None lines :: repeat (mgo false None lines) 20) = [0; 1; 2; 3; 0; 1; 2; 3; 0; 1; 2; 3].
Proof. exists [0; 0], [[(4, 1)]; [(4, 1)]]. eexists. split; [reflexivity|]. split; vm_compute; reflexivity. Qed.
Print Assumptions C35_multi_width_refuted.

(** Running the stream a second time without setting the patterns again. *)
Theorem C35_multi_again_refuted : exists offs pats lines,
  set_multi 4 1 jk offs pats = Some lines /\
  addresses_of 4 offs pats = [0; 1; 8; 9] /\
  let ws := repeat (mgo false None lines) 9 in
  trace (msrc_step 4 (num_width 2)) msrc_read ms0
    (mgo false (Some 2) lines :: mgo true None lines :: ws ++ mgo true None lines :: ws) = [0; 1; 8; 9; 0; 1].
Proof. exists [0; 8], [[(2, 1)]; [(2, 1)]]. eexists. split; [reflexivity|]. split; vm_compute; reflexivity. Qed.
Print Assumptions C35_multi_again_refuted.

(** A sink with several patterns and a [when] condition: addresses are used up by data that are not taken. *)
Theorem C35_multi_when_refuted : exists offs pats lines,
  set_multi 4 1 jk offs pats = Some lines /\
  addresses_of 4 offs pats = [0; 1; 8; 9] /\
  trace (msnk_step 4 (num_width 2)) msnk_write ns0
    (ngo false (Some 2) lines true 0 :: ngo true None lines true 0 :: ngo false None lines true 0 ::
     ngo false None lines false 50 :: ngo false None lines true 51 :: ngo false None lines true 52 ::
     repeat (ngo false None lines true 53) 3) = [(1, 51); (8, 52); (9, 53)].
Proof. exists [0; 8], [[(2, 1)]; [(2, 1)]]. eexists. split; [reflexivity|]. split; vm_compute; reflexivity. Qed.
Print Assumptions C35_multi_when_refuted.

(** A size of 0: no address should be visited, but the first one is read. *)
Theorem C35_size_zero_refuted : exists o p s,
  set_pattern 4 2 o p = Some s /\ addresses 4 o p = [] /\
  trace (src_step 4) src_read xs0 (mkSin true true false s :: repeat (mkSin true false false s) 4) = [3; 4; 5].
Proof. exists 3, [(0, 1)]. eexists. split; [reflexivity|]. split; vm_compute; reflexivity. Qed.
Print Assumptions C35_size_zero_refuted.

(** Negative entries of [order] are accepted (they select the size as usual in Python), but -1 gets the
    stride of the whole array. *)
Theorem C35_negative_order_refuted : exists shape,
  to_pattern shape [1; 0] = Some [(3, 1); (2, 3)] /\ to_pattern shape [-1; 0] = Some [(3, 6); (2, 3)].
Proof. exists [2; 3]. split; reflexivity. Qed.
Print Assumptions C35_negative_order_refuted.

(** ** C56 *)
(** set_source with one size and stride *)
Theorem C56_source aw o s d x i0 ins : 0 <= aw -> 1 <= s < 2 ^ (aw + 1) ->
  l_st x = 0%nat -> l_ordy i0 = true -> l_start i0 = true ->
  l_soff i0 = o mod 2 ^ aw -> l_ssize i0 = s mod 2 ^ (aw + 1) -> l_sstride i0 = d mod 2 ^ aw -> Forall l_quiet ins ->
  let A := map (fun i => (o + i * d) mod 2 ^ aw) (upto s) in
  let y := lsrc_step aw x i0 in
  let z := final (lsrc_step aw) y ins in
  trace (lsrc_step aw) lsrc_read y ins = firstn (n_lready ins - 1) A /\
  ((1 <= n_lready ins <= length A)%nat -> l_en z = true /\ l_idle z = false) /\
  ((length A < n_lready ins)%nat -> l_st z = 0%nat /\ l_en z = false /\ l_idle z = true).
Proof. intros. unfold A. rewrite <- lin_addresses. apply source_linear; assumption. Qed.
Print Assumptions C56_source.

(** set_sink *)
Theorem C56_sink aw o s d x i0 st1 i1 ins : 0 <= aw -> 1 <= s < 2 ^ (aw + 1) ->
  lk_st x = 0%nat -> lk_ordy i0 = true -> lk_start i0 = true ->
  lk_soff i0 = o mod 2 ^ aw -> lk_ssize i0 = s mod 2 ^ (aw + 1) -> lk_sstride i0 = d mod 2 ^ aw ->
  Forall (fun i => lk_ordy i = false) st1 -> lk_ordy i1 = true -> lk_quiet i1 -> Forall lk_quiet ins ->
  let A := map (fun i => (o + i * d) mod 2 ^ aw) (upto s) in
  let y := lsnk_step aw x i0 in
  let w := lsnk_step aw (final (lsnk_step aw) y st1) i1 in
  let z := final (lsnk_step aw) w ins in
  trace (lsnk_step aw) lsnk_write y (st1 ++ [i1]) = [] /\
  trace (lsnk_step aw) lsnk_write w ins ++ lk_pend z = combine A (lk_accepted ins) /\
  ((length A <= length (lk_accepted ins))%nat -> lk_st z = 0%nat) /\
  ((length (lk_accepted ins) < length A)%nat -> lk_st z = 2%nat).
Proof. intros. unfold A. rewrite <- lin_addresses. apply sink_linear; assumption. Qed.
Print Assumptions C56_sink.

(** A size of 0 reads words all the same. *)
Theorem C56_size_zero_refuted :
  let i b := mkLin true b false 3 0 1 in
  trace (lsrc_step 4) lsrc_read (mkL 0 0 0 0 0 0 false true) (i true :: repeat (i false) 5) = [3; 4; 5; 6].
Proof. vm_compute. reflexivity. Qed.
Print Assumptions C56_size_zero_refuted.

(** ** Examples *)
(** A 2x3 block of an array with rows of 5 words, column by column: stalled in the second cycle *)
Definition ex_set : setting := mkS 7 [2; 3] [5; 1].
Definition ex_ins : list sin := map (fun r => mkSin r false false ex_set) [true; false; true; true; true; true; true; true; true].
Example C35_ex : set_pattern 4 2 7 [(2, 5); (3, 1)] = Some ex_set /\ addresses 4 7 [(2, 5); (3, 1)] = [7; 12; 8; 13; 9; 14] /\
  trace (src_step 4) src_read (src_step 4 xs0 (mkSin true true false ex_set)) ex_ins = [7; 12; 8; 13; 9; 14].
Proof. repeat split; vm_compute; reflexivity. Qed.
Example C35_ex_hyps : Forall quiet ex_ins /\ Forall (fun x => 1 <= fst x < 2 ^ (4 + 1)) [(2, 5); (3, 1)] /\
  st (final (src_step 4) (src_reset 2) []) = 0%nat.
Proof. repeat split; repeat constructor; cbn; lia. Qed.
(** A second start after the end *)
Example C35_ex_again : trace (src_step 4) src_read xs0 (mkSin true true false ex_set :: ex_ins ++ mkSin true true false ex_set :: ex_ins) =
  [7; 12; 8; 13; 9; 14; 7; 12; 8; 13; 9; 14].
Proof. vm_compute. reflexivity. Qed.
(** Three data taken, one refused, one cycle stalled *)
Example C35_ex_sink :
  let i r b wc d := mkKin r b false ex_set wc d in
  let ins := [i true false true 50; i false false true 51; i true false false 52; i true false true 53; i true false true 54] in
  let w := snk_step 4 (snk_step 4 (snk_reset 2) (i true true true 0)) (i true false true 1) in
  accepted ins = [50; 53; 54] /\ trace (snk_step 4) snk_write w ins ++ k_pend (final (snk_step 4) w ins) = [(7, 50); (12, 53); (8, 54)].
Proof. split; vm_compute; reflexivity. Qed.
Example C35_ex_multi : exists lines, set_multi 4 1 jk [0; 8] [[(2, 1)]; [(2, 3)]] = Some lines /\
  trace (msrc_step 4 (num_width 2)) msrc_read ms0
    (mgo false (Some 2) lines :: mgo true None lines :: repeat (mgo false None lines) 9) = [0; 1; 8; 11].
Proof. eexists. split; [reflexivity|]. vm_compute. reflexivity. Qed.
Example C35_ex_multidim : to_pattern [2; 3; 4] (default_order [2; 3; 4]) = Some [(4, 1); (3, 4); (2, 12)] /\
  to_pattern [2; 3] [0; 1] = Some [(2, 3); (3, 1)] /\ visits [(2, 3); (3, 1)] = [0; 3; 1; 4; 2; 5].
Proof. repeat split; vm_compute; reflexivity. Qed.
Example C56_ex :
  let i r b := mkLin r b false 14 4 3 in
  trace (lsrc_step 4) lsrc_read (mkL 0 0 0 0 0 0 false true) (i true true :: map (fun r => i r false) [true; true; false; true; true; true; true]) = [14; 1; 4; 7].
Proof. vm_compute. reflexivity. Qed.
