(** C64: the AXI stream output sends direct writes and DMA transfers out of several RAMs in order, each
    with its own words, and always finishes -- if at most one RAM has the stream's width and all wider
    RAMs the same width. *)
From Verif Require Import Base Fifo_Model Ram_Model Ram_Spec AxiDma_Model AxiData_Model AxiData_Spec AxisIn_Model AxisOut_Model AxisOut_Spec AxisOut_Proofs.
Open Scope Z_scope.

(** At every moment the words sent are the first words of the jobs, in the order in which the jobs
    were issued, with the last flag exactly where they have it. *)
Theorem C64_in_order_partial : forall c M fm ins, olegal_cfg c -> olegal_ram c M -> Forall (olegal_in c) ins ->
  exists rest, owords c M (ojobs c M (oinit fm) ins) = osents c M (oinit fm) ins ++ rest.
Proof.
  intros c M fm ins Hc HM H. destruct (oalways c Hc M HM fm ins H) as [rest E].
  exists (opending (orun c M (oinit fm) ins) ++ rest). exact E.
Qed.
Print Assumptions C64_in_order_partial.

(** When [dma_wait_write] lets a thread pass, every word is sent, except that the last one may wait in
    the channel. *)
Theorem C64_wait_partial : forall c M fm ins, olegal_cfg c -> olegal_ram c M -> Forall (olegal_in c) ins ->
  let s := orun c M (oinit fm) ins in
  oidle s = true -> owords c M (ojobs c M (oinit fm) ins) = osents c M (oinit fm) ins ++ opending s.
Proof. intros c M fm ins Hc HM H s Hi. symmetry. exact (oidle_done c Hc M HM fm ins H Hi). Qed.
Print Assumptions C64_wait_partial.

(** Without new jobs all words are sent, the engine is idle and no thread is inside [write] after a
    number of cycles with tready that depends only on the jobs. *)
Theorem C64_finishes_partial : forall c M fm ins more, olegal_cfg c -> olegal_ram c M -> Forall (olegal_in c) (ins ++ more) ->
  Forall oquiet_in more -> ocost c (ojobs c M (oinit fm) ins) <= oreadies more ->
  let s := orun c M (oinit fm) (ins ++ more) in
  oidle s = true /\ e_thr s = 0 /\ osents c M (oinit fm) (ins ++ more) = owords c M (ojobs c M (oinit fm) (ins ++ more)).
Proof. intros c M fm ins more Hc HM. exact (ofinishes c Hc M HM fm ins more). Qed.
Print Assumptions C64_finishes_partial.

(** A word the receiver does not take stays as it is (for every configuration and state). *)
Theorem C64_hold : forall c M s i, e_tvalid s = true -> w_ready i = false ->
  let s' := ostep c M s i in e_tvalid s' = true /\ e_tdata s' = e_tdata s /\ e_tlast s' = e_tlast s.
Proof. intros c M s i. exact (ohold c M s i). Qed.
Print Assumptions C64_hold.

(** The statements that set and that clear [write_data_busy] never fire in the same cycle. *)
Theorem C64_busy_partial : forall c M fm ins i, olegal_cfg c -> olegal_ram c M -> Forall (olegal_in c) ins ->
  let s := orun c M (oinit fm) ins in
  (any c (ofin c s i) || (e_thr s =? 2) && oack s i) && (any c (odispatch c s) || (e_thr s =? 1) && oidle s) = false.
Proof. intros c M fm ins i Hc HM H. exact (ono_clash c Hc M HM fm ins i H). Qed.
Print Assumptions C64_busy_partial.

(** With two or more RAMs, all of the stream's width, the engine is never idle again once a DMA
    request was accepted, however long it runs: [set_index(1)] for the second RAM lays its states over
    those of the first one, one off. *)
Theorem C64_same_width_refuted : forall c M fm ins,
  1 <= g_aw c /\ 1 <= g_sw c /\ 1 <= g_fa c /\ Z.of_nat (nops c) < 2 ^ g_sw c ->
  Forall (fun o => o_ratio o = Same) (g_ops c) -> (2 <= nops c)%nat ->
  existsb is_dma (ojobs c M (oinit fm) ins) = true -> oidle (orun c M (oinit fm) ins) = false.
Proof. intros c M fm ins H1 H2 H3. exact (dead c H1 H2 H3 M fm ins). Qed.
Print Assumptions C64_same_width_refuted.

Definition ex_ram (k : nat) (a : Z) : Z := match k with 0%nat => 16 + a | 1%nat => 256 * (32 + a) + (64 + a) | _ => a mod 16 end.
Definition ex_get (b : bool) (r : option (nat * Z * Z * Z)) (w : option (Z * bool)) : oinp := mkOinp r w b.
Definition ex_wait (n : nat) : list oinp := map (fun t => ex_get (negb (Nat.eqb (t mod 3) 1)) None None) (seq 0 n).
Definition dead_cfg : cfg := mkCfg 8 4 4 3 [mkOp Same 8 4; mkOp Same 8 4].
(** the request of the first RAM sends all its words, the one of the second none; neither ends *)
Example C64_same_width_case :
  let run k := [ex_get true (Some (k, 0, 1, 2)) None] ++ ex_wait 30 in
  osents dead_cfg ex_ram (oinit (fun _ => 0)) (run 0%nat) = [(16, false); (17, true)] /\
  osents dead_cfg ex_ram (oinit (fun _ => 0)) (run 1%nat) = [] /\
  existsb is_dma (ojobs dead_cfg ex_ram (oinit (fun _ => 0)) (run 0%nat)) = true /\
  existsb is_dma (ojobs dead_cfg ex_ram (oinit (fun _ => 0)) (run 1%nat)) = true.
Proof. vm_compute. auto. Qed.

(** With two wider RAMs of different widths the size of a transfer is scaled by the ratio of the RAM
    that was connected last: a transfer out of the narrower one is never marked as ended by the last
    flag, and one out of the wider one does not end. *)
Definition narrow_cfg (a b : Z) : cfg := mkCfg 8 4 4 3 [mkOp (Narrow a) 8 4; mkOp (Narrow b) 8 4].
Theorem C64_two_ratios_refuted :
  let run := [ex_get true (Some (0%nat, 0, 1, 2)) None] ++ ex_wait 60 in let s0 := oinit (fun _ => 0) in
  let M := fun (k : nat) a => (a + 1) * (256 ^ 3 + 256 ^ 2 + 256 + 1) in
  (map snd (osents (narrow_cfg 1 2) M s0 run) = [false; false; false; false] /\
   map snd (owords (narrow_cfg 1 2) M (ojobs (narrow_cfg 1 2) M s0 run)) = [false; false; false; true]) /\
  (length (osents (narrow_cfg 2 1) M s0 run) = 4%nat /\
   length (owords (narrow_cfg 2 1) M (ojobs (narrow_cfg 2 1) M s0 run)) = 8%nat /\
   ocost (narrow_cfg 2 1) (ojobs (narrow_cfg 2 1) M s0 [ex_get true (Some (0%nat, 0, 1, 2)) None]) <= oreadies (ex_wait 60) /\
   oidle (orun (narrow_cfg 2 1) M s0 run) = false).
Proof. vm_compute. repeat split; congruence. Qed.
Print Assumptions C64_two_ratios_refuted.

(** Three RAMs (same width, twice as wide, half as wide) behind an 8-bit stream, and a write. *)
Definition ex_ocfg : cfg := mkCfg 8 4 4 3 [mkOp Same 8 4; mkOp (Narrow 1) 8 4; mkOp (Wide 1) 4 4].
Definition ex_oin : list oinp :=
  [ex_get true (Some (0%nat, 2, 1, 2)) (Some (200, true)); ex_get true (Some (1%nat, 0, 2, 2)) None; ex_get true (Some (2%nat, 3, 1, 3)) None].
Example C64_case :
  let s0 := oinit (fun _ => 0) in
  ojobs ex_ocfg ex_ram s0 (ex_oin ++ ex_wait 60) = [ODma 0 (2, 1, 2); ODma 1 (0, 2, 2); ODma 2 (3, 1, 3); OWrite 200 true] /\
  osents ex_ocfg ex_ram s0 (ex_oin ++ ex_wait 60) =
    [(18, false); (19, true); (64, false); (32, false); (66, false); (34, true); (67, false); (101, true); (200, true)] /\
  ocost ex_ocfg (ojobs ex_ocfg ex_ram s0 ex_oin) <= oreadies (ex_wait 60).
Proof. vm_compute. repeat split; congruence. Qed.
Example C64_case_legal : olegal_cfg ex_ocfg /\ olegal_ram ex_ocfg ex_ram /\ Forall (olegal_in ex_ocfg) (ex_oin ++ ex_wait 60) /\ Forall oquiet_in (ex_wait 60).
Proof.
  split; [|split; [|split]].
  - unfold olegal_cfg, ex_ocfg, nops. cbn. repeat split; try lia.
    + repeat constructor; cbn; lia.
    + intros j k Hj Hk. destruct j as [|[|[|j]]], k as [|[|[|k]]]; cbn; auto; lia.
  - intros k Hk. unfold ex_ocfg, nops in *. cbn in Hk. destruct k as [|[|[|k]]]; cbn; auto; [|lia].
    intros a. apply Z.mod_pos_bound. lia.
  - apply Forall_app. split; [repeat constructor; cbn; unfold lw; cbn; lia|]. apply Forall_forall. intros x H. apply in_map_iff in H. destruct H as (n & <- & _). exact I.
  - apply Forall_forall. intros x H. apply in_map_iff in H. destruct H as (n & <- & _). split; reflexivity.
Qed.
