(** Proofs about the AXI memory model: safety. *)
From Coq Require Import Znumtheory.
From Verif Require Import Base Fifo_Model Fifo_Spec Fifo_Proofs AxiMem_Model AxiMem_Spec.
Open Scope Z_scope.

(** ** Arithmetic *)
Lemma p2 n : 0 <= n -> 0 < 2 ^ n.
Proof. intros; apply Z.pow_pos_nonneg; lia. Qed.

Lemma div_pow_add x a b : 0 <= a -> 0 <= b -> x / 2 ^ (a + b) = x / 2 ^ a / 2 ^ b.
Proof. intros. rewrite Z.pow_add_r by lia. rewrite Z.div_div by (pose proof (p2 a); pose proof (p2 b); lia). reflexivity. Qed.

Lemma low_field h l n : 0 <= n -> 0 <= l < 2 ^ n -> (h * 2 ^ n + l) mod 2 ^ n = l /\ (h * 2 ^ n + l) / 2 ^ n = h.
Proof.
  intros N L. pose proof (p2 n N). split.
  - rewrite Z.add_comm, Z.mod_add by lia. apply Z.mod_small; lia.
  - rewrite Z.add_comm, Z.div_add by lia. rewrite Z.div_small by lia. lia.
Qed.

Lemma mod_range x n : 0 <= n -> 0 <= x mod 2 ^ n < 2 ^ n.
Proof. intros; apply Z.mod_pos_bound; apply p2; lia. Qed.

Section P.
  Variable p : mp.
  Hypothesis G : good_mp p.

  Lemma nb_facts : 1 <= nbytes p /\ p_dw p = 8 * nbytes p.
  Proof using G.
    destruct (g_dw p G) as (nb & H & E). unfold nbytes. rewrite E.
    rewrite Z.mul_comm, Z.div_mul by lia. lia.
  Qed.

  Lemma unpack_data d st l : let v := pack_data p d st l in
    data_of p v = d mod 2 ^ p_dw p /\ strb_of p v = st mod 2 ^ nbytes p /\ last_of p v = l.
  Proof using G.
    destruct nb_facts as [N D]. intros v. unfold v, pack_data, data_of, strb_of, last_of.
    pose proof (mod_range d (p_dw p) ltac:(lia)) as R1.
    pose proof (mod_range st (nbytes p) ltac:(lia)) as R2.
    set (x := d mod 2 ^ p_dw p) in *. set (y := st mod 2 ^ nbytes p) in *.
    rewrite Z.pow_add_r by lia.
    replace (b2z l * (2 ^ p_dw p * 2 ^ nbytes p) + y * 2 ^ p_dw p + x)
      with ((b2z l * 2 ^ nbytes p + y) * 2 ^ p_dw p + x) by ring.
    destruct (low_field (b2z l * 2 ^ nbytes p + y) x (p_dw p) ltac:(lia) R1) as [E1 E2].
    destruct (low_field (b2z l) y (nbytes p) ltac:(lia) R2) as [E3 E4].
    rewrite E1, E2. repeat split; auto.
    rewrite <- Z.div_div by (pose proof (p2 (p_dw p)); pose proof (p2 (nbytes p)); lia).
    rewrite E2, E4. destruct l; reflexivity.
  Qed.

  Lemma unpack_req idw a n id : 0 <= idw <= p_wid p ->
    let v := req_word p (pack_req p idw a n id) in
    req_addr p idw v = a mod 2 ^ p_aw p /\ req_size p idw v = n mod 2 ^ 9 /\ req_id p idw v = id mod 2 ^ idw.
  Proof using G.
    intros W v. pose proof (g_aw p G) as A.
    pose proof (mod_range a (p_aw p) ltac:(lia)) as R1.
    pose proof (mod_range n 9 ltac:(lia)) as R2.
    pose proof (mod_range id idw ltac:(lia)) as R3.
    unfold v, req_word, req_addr, req_size, req_id, req_seen, req_width, pack_req.
    set (x := a mod 2 ^ p_aw p) in *. set (y := n mod 2 ^ 9) in *. set (z := id mod 2 ^ idw) in *.
    clearbody x y z. clear v.
    replace (x * 2 ^ (9 + idw) + y * 2 ^ idw + z) with ((x * 2 ^ 9 + y) * 2 ^ idw + z)
      by (rewrite Z.pow_add_r by lia; ring).
    set (r := p_wid p - idw).
    assert (Hs : (x * 2 ^ 9 + y) * 2 ^ idw + z < 2 ^ (p_aw p + 9 + p_wid p)).
    { replace (p_aw p + 9 + p_wid p) with (p_aw p + (9 + (idw + r))) by (unfold r; lia).
      rewrite !Z.pow_add_r by (unfold r; lia).
      pose proof (p2 r ltac:(unfold r; lia)). pose proof (p2 idw ltac:(lia)).
      assert ((x * 2 ^ 9 + y) * 2 ^ idw + z < 2 ^ p_aw p * (2 ^ 9 * 2 ^ idw)).
      { assert (x * 2 ^ 9 + y + 1 <= 2 ^ p_aw p * 2 ^ 9) by nia. nia. }
      nia. }
    rewrite (Z.mod_small _ (2 ^ (p_aw p + 9 + p_wid p))) by (pose proof (p2 idw ltac:(lia)); nia).
    set (q := (x * 2 ^ 9 + y) * 2 ^ idw + z) in *.
    assert (E : q + p_xhigh p * 2 ^ (p_aw p + 9 + p_wid p) =
      (((p_xhigh p * 2 ^ r) * 2 ^ p_aw p + x) * 2 ^ 9 + y) * 2 ^ idw + z).
    { unfold q. replace (p_aw p + 9 + p_wid p) with (p_aw p + (9 + (idw + r))) by (unfold r; lia).
      rewrite !Z.pow_add_r by (unfold r; lia). ring. }
    rewrite E.
    destruct (low_field (((p_xhigh p * 2 ^ r) * 2 ^ p_aw p + x) * 2 ^ 9 + y) z idw ltac:(lia) R3) as [E1 E2].
    destruct (low_field ((p_xhigh p * 2 ^ r) * 2 ^ p_aw p + x) y 9 ltac:(lia) R2) as [E3 E4].
    destruct (low_field (p_xhigh p * 2 ^ r) x (p_aw p) ltac:(lia) R1) as [E5 E6].
    rewrite div_pow_add by lia. rewrite E1, E2, E3, E4, E5. auto.
  Qed.

  (** ** Memory *)
  Lemma idx_small a i : 0 <= a -> 0 <= i < nbytes p -> a + nbytes p <= 2 ^ p_mw p ->
    mem_index p a i = a + i /\ (a + i <? 2 ^ p_mw p) = true.
  Proof using G.
    intros A I E. pose proof (g_mw p G). split; [|lia].
    unfold mem_index. apply Z.mod_small. split; [lia|].
    assert (2 ^ p_mw p <= 2 ^ Z.max (p_aw p) 32) by (apply Z.pow_le_mono_r; lia). lia.
  Qed.

  Lemma byte_trunc d i : 0 <= i < nbytes p -> d mod 2 ^ p_dw p / 2 ^ (8 * i) mod 2 ^ 8 = byte_of d i.
  Proof using G.
    intros I. destruct nb_facts as [N D]. unfold byte_of.
    pose proof (p2 (8 * i) ltac:(lia)).
    replace (2 ^ p_dw p) with (2 ^ (8 * i) * 2 ^ (p_dw p - 8 * i)) by (rewrite <- Z.pow_add_r by lia; f_equal; lia).
    rewrite Z.rem_mul_r by (pose proof (p2 (p_dw p - 8 * i)); lia).
    rewrite Z.add_comm, Z.mul_comm, Z.div_add_l by lia.
    rewrite (Z.div_small (d mod 2 ^ (8 * i))) by (apply mod_range; lia). rewrite Z.add_0_r.
    rewrite <- Zmod_div_mod; [reflexivity|lia|apply p2; lia|].
    exists (2 ^ (p_dw p - 8 * i - 8)). rewrite <- Z.pow_add_r by lia. f_equal. lia.
  Qed.

  Lemma store_gen m a d st : 0 <= a -> a + nbytes p <= 2 ^ p_mw p ->
    forall n j m1, (j + n <= Z.to_nat (nbytes p))%nat ->
    (forall x, m1 x = if (a <=? x) && (x <? a + Z.of_nat j) && Z.testbit st (x - a) then byte_of d (x - a) else m x) ->
    forall x, fold_left (fun m' k => let i := Z.of_nat k in
        if Z.testbit (st mod 2 ^ nbytes p) i
        then mem_put p m' (mem_index p a i) (d mod 2 ^ p_dw p / 2 ^ (8 * i) mod 2 ^ 8) else m') (seq j n) m1 x
      = if (a <=? x) && (x <? a + Z.of_nat (j + n)) && Z.testbit st (x - a) then byte_of d (x - a) else m x.
  Proof using G.
    destruct nb_facts as [N D].
    intros A R. induction n as [|n IH]; intros j m1 L H x.
    - cbn [seq fold_left]. rewrite H. rewrite Nat.add_0_r. reflexivity.
    - cbn [seq fold_left]. replace (j + S n)%nat with (S j + n)%nat by lia. apply IH; [lia|].
      intros y. cbv zeta.
      rewrite Z.mod_pow2_bits_low by lia.
      destruct (idx_small a (Z.of_nat j) A ltac:(lia) R) as [E1 E2].
      destruct (Z.testbit st (Z.of_nat j)) eqn:T.
      + rewrite E1. unfold mem_put. rewrite E2. unfold upd. rewrite byte_trunc by lia.
        destruct (y =? a + Z.of_nat j) eqn:Y.
        * apply Z.eqb_eq in Y. subst y. replace (a + Z.of_nat j - a) with (Z.of_nat j) by lia.
          rewrite T. replace (a <=? a + Z.of_nat j) with true by lia.
          replace (a + Z.of_nat j <? a + Z.of_nat (S j)) with true by lia. reflexivity.
        * rewrite H. replace (y <? a + Z.of_nat (S j)) with (y <? a + Z.of_nat j) by lia. reflexivity.
      + rewrite H. destruct (y =? a + Z.of_nat j) eqn:Y.
        * apply Z.eqb_eq in Y. subst y. replace (a + Z.of_nat j - a) with (Z.of_nat j) by lia.
          rewrite T. rewrite !andb_false_r. reflexivity.
        * replace (y <? a + Z.of_nat (S j)) with (y <? a + Z.of_nat j) by lia. reflexivity.
  Qed.

  Lemma store_ok m a d st : 0 <= a -> a + nbytes p <= 2 ^ p_mw p ->
    same_mem (mem_store p m a (d mod 2 ^ p_dw p) (st mod 2 ^ nbytes p)) (put_beat (nbytes p) a d st m).
  Proof using G.
    intros A R x. destruct nb_facts as [N D]. unfold mem_store.
    rewrite (store_gen m a d st A R (Z.to_nat (nbytes p)) 0 m (Nat.le_refl _)).
    - unfold put_beat. rewrite Nat.add_0_l, Z2Nat.id by lia. reflexivity.
    - intros y. replace ((a <=? y) && (y <? a + Z.of_nat 0)) with false by lia. reflexivity.
  Qed.

  Lemma load_gen m a : 0 <= a -> a + nbytes p <= 2 ^ p_mw p ->
    forall n j, (j + n <= Z.to_nat (nbytes p))%nat ->
    fold_right (fun k v => let i := Z.of_nat k in mem_get p m (mem_index p a i) * 2 ^ (8 * i) + v) 0 (seq j n)
    = 2 ^ (8 * Z.of_nat j) * word n m (a + Z.of_nat j).
  Proof using G.
    intros A R. induction n as [|n IH]; intros j L.
    - cbn [seq fold_right word]. lia.
    - cbn [seq fold_right word]. rewrite IH by lia. cbv zeta.
      destruct (idx_small a (Z.of_nat j) A ltac:(lia) R) as [E1 E2]. rewrite E1. unfold mem_get. rewrite E2.
      replace (8 * Z.of_nat (S j)) with (8 * Z.of_nat j + 8) by lia. rewrite Z.pow_add_r by lia.
      replace (a + Z.of_nat (S j)) with (a + Z.of_nat j + 1) by lia. ring.
  Qed.

  Lemma load_ok m a : 0 <= a -> a + nbytes p <= 2 ^ p_mw p ->
    mem_load p m a = word (Z.to_nat (nbytes p)) m a.
  Proof using G.
    intros A R. unfold mem_load. rewrite load_gen by (auto; lia).
    cbn [Z.of_nat]. rewrite Z.mul_0_r, Z.pow_0_r, Z.mul_1_l, Z.add_0_r. reflexivity.
  Qed.
End P.

Lemma word_same n m m' : same_mem m m' -> forall a, word n m a = word n m' a.
Proof. intros H. induction n as [|n IH]; intros a; cbn [word]; [reflexivity|]. rewrite H, IH. reflexivity. Qed.
Lemma put_beat_same nb a d st m m' : same_mem m m' -> same_mem (put_beat nb a d st m) (put_beat nb a d st m').
Proof. intros H x. unfold put_beat. rewrite H. reflexivity. Qed.
Lemma put_beats_same nb bs : forall a m m', same_mem m m' -> same_mem (put_beats nb a bs m) (put_beats nb a bs m').
Proof. induction bs as [|[d st] bs IH]; intros a m m' H; cbn [put_beats]; [exact H|]. apply IH, put_beat_same, H. Qed.
Lemma put_beats_app nb b1 : forall b2 a m,
  put_beats nb a (b1 ++ b2) m = put_beats nb (a + nb * Z.of_nat (length b1)) b2 (put_beats nb a b1 m).
Proof.
  induction b1 as [|[d st] b1 IH]; intros b2 a m; cbn [app put_beats length].
  - f_equal. lia.
  - rewrite IH. f_equal. lia.
Qed.

(** ** FIFOs as lists *)
Lemma empty_list a f l : 1 <= a -> Inv (2 ^ a) f l -> p_empty f = match l with [] => true | _ => false end.
Proof. intros A I. rewrite (empty_iff a A f l I). destruct l; cbn [length]; [reflexivity|]. lia. Qed.
Lemma rdata_list a f x l : 1 <= a -> Inv (2 ^ a) f (x :: l) -> p_rdata false f = x.
Proof. intros A I. unfold p_rdata. exact (proj2 (pop_inv a A f x l 0 0 I)). Qed.
Lemma afull_list a f l : 1 <= a -> Inv (2 ^ a) f l -> p_almost_full a f = (2 ^ a - 2 <=? Z.of_nat (length l)).
Proof. intros A I. exact (afull_iff a A f l I). Qed.
Lemma fstep_list a f l e w d : 1 <= a -> Inv (2 ^ a) f l ->
  (d = true -> l <> []) ->
  Inv (2 ^ a) (fifo_step false a f (mkFifoIn (enq_rtl a f e) w d))
    ((if d then tl l else l) ++ (if e && negb (p_almost_full a f) then [w] else [])).
Proof.
  intros A I D. pose proof (step_inv a A false f l (mkFifoIn (enq_rtl a f e) w d) I) as H.
  unfold step_list, queue_step in H. cbn [q_words i_enq i_wdata i_deq] in H.
  unfold enq_rtl, enq_ready in *.
  assert (R : e && negb (p_almost_full a f) = true -> Z.of_nat (length l) <? 2 ^ a - 1 = true).
  { intros E. rewrite (afull_list a f l A I) in E. lia. }
  assert (X : e && negb (p_almost_full a f) && (Z.of_nat (length l) <? 2 ^ a - 1) = e && negb (p_almost_full a f)).
  { destruct (e && negb (p_almost_full a f)); [rewrite R; reflexivity|reflexivity]. }
  rewrite X in H. destruct l as [|x l].
  - destruct d; [exfalso; apply D; reflexivity|]. exact H.
  - destruct d; exact H.
Qed.

(** ** Runs *)
Lemma outs_app {S I O} (step : S -> I -> S) (out : S -> I -> O) a b : forall s,
  outs step out s (a ++ b) = outs step out s a ++ outs step out (final step s a) b.
Proof. induction a as [|x a IH]; intros s; [reflexivity|]. cbn [app outs final fold_left]. rewrite IH. reflexivity. Qed.
Lemma run_snoc p s ins i : am_run p s (ins ++ [i]) = am_step p (am_run p s ins) i.
Proof. unfold am_run, final. rewrite fold_left_app. reflexivity. Qed.
Lemma run_app p s a b : am_run p s (a ++ b) = am_run p (am_run p s a) b.
Proof. unfold am_run, final. rewrite fold_left_app. reflexivity. Qed.
Lemma seen_snoc {A} p (o : axim -> axi_in -> list A) s ins i :
  seen p o s (ins ++ [i]) = seen p o s ins ++ o (am_run p s ins) i.
Proof. unfold seen. rewrite outs_app, concat_app. cbn [outs concat]. rewrite app_nil_r. reflexivity. Qed.
Lemma seen_app {A} p (o : axim -> axi_in -> list A) s a b :
  seen p o s (a ++ b) = seen p o s a ++ seen p o (am_run p s a) b.
Proof. unfold seen. rewrite outs_app, concat_app. reflexivity. Qed.

(** ** Write side *)
Definition hdr_word (p : mp) (idw : Z) (q : Z * Z * Z) : Z :=
  let '(a, l, id) := q in req_word p (pack_req p idw a ((l + 1) mod 2 ^ 32) id).
Definition dat_word (p : mp) (x : Z * Z * bool) : Z := let '(d, st, l) := x in pack_data p d st l.

Lemma flagged_app pre post : post <> [] -> flagged (pre ++ post) = map (fun x => (x, false)) pre ++ flagged post.
Proof.
  intros N. induction pre as [|x pre IH]; [reflexivity|].
  change ((x :: pre) ++ post) with (x :: (pre ++ post)). cbn [map app]. rewrite <- IH.
  destruct (pre ++ post) eqn:E; [|reflexivity].
  apply app_eq_nil in E. destruct E; contradiction.
Qed.
Lemma flagged_len bs : length (flagged bs) = length bs.
Proof. induction bs as [|x [|y bs] IH]; cbn [flagged length] in *; congruence. Qed.
Lemma beats_app B B' : beats (B ++ B') = beats B ++ beats B'.
Proof. unfold beats. rewrite map_app, concat_app. reflexivity. Qed.

Inductive phase (p : mp) (m0 : Z -> Z) (s : axim) (D : list wburst) (rest : list wburst)
    (A : list (Z * Z * Z)) (Wl : list (Z * Z * bool)) (B : list wburst) aws ws (shown : list Z) : Prop :=
| ph_idle :
    w_dfsm (a_w s) = 0 -> B = D ++ rest ->
    aws = headers D ++ A -> ws = beats D ++ Wl ->
    same_mem (a_mem s) (put_bursts (nbytes p) D m0) ->
    shown ++ (if w_bvalid (a_w s) then [w_bid (a_w s)] else []) = map b_id D ->
    phase p m0 s D rest A Wl B aws ws shown
| ph_busy b pre post :
    w_dfsm (a_w s) = 1 -> B = D ++ b :: rest -> b_beats b = pre ++ post -> post <> [] ->
    aws = headers (D ++ [b]) ++ A -> ws = (beats D ++ map (fun x => (x, false)) pre) ++ Wl ->
    same_mem (a_mem s) (put_beats (nbytes p) (b_addr b) pre (put_bursts (nbytes p) D m0)) ->
    shown = map b_id D -> w_bvalid (a_w s) = false -> w_bid (a_w s) = b_id b ->
    w_count (a_w s) = Z.of_nat (length post) ->
    w_addr (a_w s) = b_addr b + nbytes p * Z.of_nat (length pre) ->
    phase p m0 s D rest A Wl B aws ws shown.

Record WInv (p : mp) (m0 : Z -> Z) (B : list wburst) (s : axim) aws ws shown : Prop := {
  wi_fsm : 0 <= w_afsm (a_w s) <= wa_last p;
  wi_rdy : w_awready (a_w s) = true ->
           w_afsm (a_w s) = wa_last p /\ p_almost_full (p_qa p) (w_rq (a_w s)) = false;
  wi_ph : exists D rest A Wl,
    Inv (2 ^ p_qa p) (w_rq (a_w s)) (map (hdr_word p (p_wid p)) A) /\
    Inv (2 ^ p_da p) (w_df (a_w s)) (map (dat_word p) Wl) /\
    phase p m0 s D rest A Wl B aws ws shown
}.

Section W.
  Variable p : mp.
  Hypothesis G : good_mp p.
  Variable m0 : Z -> Z.
  Variable B : list wburst.
  Hypothesis LB : Forall (legal_burst p) B.

  Lemma wa_pos : 0 < wa_last p.
  Proof using. clear. unfold wa_last. lia. Qed.

  Lemma w_init_ok m1 m2 m3 : WInv p m0 B (am_init m1 m2 m3 m0) [] [] [].
  Proof using G.
    pose proof (g_qa p G). pose proof (g_da p G). pose proof wa_pos.
    constructor; cbn [am_init a_w w_init w_afsm w_awready]; [lia|discriminate|].
    exists [], B, [], []. cbn [w_rq w_df map]. split; [apply init_inv; lia|]. split; [apply init_inv; lia|].
    apply ph_idle; try reflexivity. intros x. reflexivity.
  Qed.

  Lemma prefix_mid {X} (a b c : list X) : prefix (a ++ b) (a ++ c) -> prefix b c.
  Proof. intros [r E]. exists r. rewrite <- app_assoc in E. apply app_inv_head in E. exact E. Qed.

  (** the burst that a stored request stands for *)
  Lemma hdr_read b : legal_burst p b ->
    let q := hdr_word p (p_wid p) (header b) in
    req_addr p (p_wid p) q = b_addr b /\ req_size p (p_wid p) q = Z.of_nat (length (b_beats b)) /\
    req_id p (p_wid p) q mod 2 ^ p_bid p = b_id b.
  Proof using G.
    intros LBb q. assert (LB2 := LBb). unfold legal_burst, legal_req, header in LB2.
    destruct LB2 as (A & L & R & I). unfold q, hdr_word, header. clear q.
    pose proof (g_wid p G) as GW. pose proof (g_mw p G). destruct (nb_facts p G) as [N _].
    destruct (unpack_req p G (p_wid p) (b_addr b) ((Z.of_nat (length (b_beats b)) - 1 + 1) mod 2 ^ 32) (b_id b)) as (E1 & E2 & E3); [lia|].
    rewrite E1, E2, E3. clear E1 E2 E3.
    assert (2 ^ p_mw p <= 2 ^ p_aw p) by (apply Z.pow_le_mono_r; lia).
    assert (2 ^ p_wid p <= 2 ^ p_bid p) by (apply Z.pow_le_mono_r; lia).
    repeat split.
    - apply Z.mod_small. nia.
    - rewrite (Z.mod_small _ (2 ^ 32)) by lia. rewrite Z.mod_small by lia. lia.
    - rewrite (Z.mod_small _ (2 ^ p_wid p)) by lia. apply Z.mod_small; lia.
  Qed.

  Lemma wfsm_ok s i : 0 <= w_afsm (a_w s) <= wa_last p ->
    0 <= w_afsm (a_w (am_step p s i)) <= wa_last p.
  Proof.
    pose proof wa_pos as WP. intros F. cbn [am_step a_w w_step w_afsm].
    destruct (w_afsm (a_w s) =? 0) eqn:E0; [destruct (some (i_aw i)); lia|].
    destruct (w_afsm (a_w s) =? wa_last p) eqn:E1; [|lia].
    destruct (aw_hs (a_w s) i); [lia|]. destruct (negb (some (i_aw i))); lia.
  Qed.

  Lemma wstep_ok s aws ws shown i :
    WInv p m0 B s aws ws shown ->
    (w_afsm (a_w s) <> 0 -> some (i_aw i) = true) ->
    prefix (aws ++ aw_taken s i) (headers B) -> prefix (ws ++ w_taken p s i) (beats B) ->
    WInv p m0 B (am_step p s i) (aws ++ aw_taken s i) (ws ++ w_taken p s i) (shown ++ b_shown s i).
  Proof using G LB.
    intros [F1 F2 (D & rest & A & Wl & IQ & ID & PH)] Hh PA PW.
    pose proof wa_pos as WP.
    assert (Q1 : 1 <= p_qa p) by (pose proof (g_qa p G); lia).
    assert (D1 : 1 <= p_da p) by (pose proof (g_da p G); lia).
    destruct (nb_facts p G) as [NB DW].
    (* the queues *)
    assert (TA : (if (w_afsm (a_w s) =? wa_last p) && aw_hs (a_w s) i && negb (p_almost_full (p_qa p) (w_rq (a_w s)))
                  then [match i_aw i with Some (a, n, id) => req_word p (pack_req p (p_wid p) a ((n + 1) mod 2 ^ 32) id) | None => 0 end]
                  else []) = map (hdr_word p (p_wid p)) (aw_taken s i)).
    { unfold aw_hs, aw_taken. destruct (i_aw i) as [[[a n] id]|]; cbn [some andb].
      - destruct (w_awready (a_w s)) eqn:E; [|rewrite !andb_false_r; reflexivity].
        destruct (F2 eq_refl) as [E1 E2]. rewrite E1, E2, Z.eqb_refl. reflexivity.
      - rewrite andb_false_r. reflexivity. }
    assert (TW : (if some (i_w i) && wready p (a_w s) && negb (p_almost_full (p_da p) (w_df (a_w s)))
                  then [match i_w i with Some (d, st, l) => pack_data p d st l | None => 0 end] else [])
                 = map (dat_word p) (w_taken p s i)).
    { unfold w_taken, wready. destruct (i_w i) as [[[d st] l]|]; cbn [some andb]; [|reflexivity].
      destruct (p_almost_full (p_da p) (w_df (a_w s))); reflexivity. }
    set (start := (w_dfsm (a_w s) =? 0) && negb (p_empty (w_rq (a_w s)))).
    set (take := w_take p (a_w s) (awake_w p (a_s s))).
    assert (SE : deq_rtl (w_rq (a_w s)) start = start).
    { unfold deq_rtl, deq_ready, start. destruct (p_empty (w_rq (a_w s))); rewrite ?andb_false_r, ?andb_true_r; reflexivity. }
    assert (TE : deq_rtl (w_df (a_w s)) take = take).
    { unfold deq_rtl, deq_ready, take, w_take. destruct (p_empty (w_df (a_w s))); rewrite ?andb_false_r, ?andb_true_r; reflexivity. }
    assert (IQ' : Inv (2 ^ p_qa p) (w_rq (a_w (am_step p s i)))
       (map (hdr_word p (p_wid p)) ((if start then tl A else A) ++ aw_taken s i))).
    { cbn [am_step a_w w_step w_rq]. unfold wrq_in. fold start. rewrite SE.
      rewrite map_app, <- TA.
      replace (map (hdr_word p (p_wid p)) (if start then tl A else A))
        with (if start then tl (map (hdr_word p (p_wid p)) A) else map (hdr_word p (p_wid p)) A)
        by (destruct start; [destruct A; reflexivity|reflexivity]).
      apply fstep_list; [exact Q1|exact IQ|].
      intros E. unfold start in E. rewrite (empty_list (p_qa p) _ _ Q1 IQ) in E.
      destruct A; [rewrite andb_false_r in E; discriminate|discriminate]. }
    assert (ID' : Inv (2 ^ p_da p) (w_df (a_w (am_step p s i)))
       (map (dat_word p) ((if take then tl Wl else Wl) ++ w_taken p s i))).
    { cbn [am_step a_w w_step w_df]. unfold wdf_in. fold take. rewrite TE.
      rewrite map_app, <- TW.
      replace (map (dat_word p) (if take then tl Wl else Wl))
        with (if take then tl (map (dat_word p) Wl) else map (dat_word p) Wl)
        by (destruct take; [destruct Wl; reflexivity|reflexivity]).
      apply fstep_list; [exact D1|exact ID|].
      intros E. unfold take, w_take in E. rewrite (empty_list (p_da p) _ _ D1 ID) in E.
      destruct Wl; [rewrite andb_false_r in E; discriminate|discriminate]. }
    constructor.
    - exact (wfsm_ok s i F1).
    - cbn [am_step a_w w_step w_awready w_afsm w_rq].
      destruct (w_afsm (a_w s) =? 0) eqn:E0; [discriminate|].
      destruct (w_afsm (a_w s) =? wa_last p) eqn:E1.
      + destruct (aw_hs (a_w s) i) eqn:EH; [discriminate|].
        apply Z.eqb_neq in E0. apply Z.eqb_eq in E1.
        rewrite (Hh E0). cbn [negb]. intros ER. split; [exact E1|].
        assert (NF : p_almost_full (p_qa p) (w_rq (a_w s)) = false).
        { destruct (p_almost_full (p_qa p) (w_rq (a_w s))); [|reflexivity]. cbn [negb] in ER.
          destruct (F2 ER) as [_ X]. exact X. }
        assert (TN : aw_taken s i = []).
        { unfold aw_hs in EH. unfold aw_taken. destruct (i_aw i); [|reflexivity].
          cbn [some andb] in EH. rewrite EH. reflexivity. }
        change (fifo_step false (p_qa p) (w_rq (a_w s)) (wrq_in p (a_w s) i)) with (w_rq (a_w (am_step p s i))).
        rewrite (afull_list _ _ _ Q1 IQ'). rewrite (afull_list _ _ _ Q1 IQ) in NF.
        rewrite TN, app_nil_r. rewrite map_length in *. clear - NF.
        destruct start; [destruct A; cbn [tl length] in *|]; lia.
      + intros ER. destruct (F2 ER) as [X _]. apply Z.eqb_neq in E1. contradiction.
    - destruct PH as [P1 P2 P3 P4 P5 P6 | b pre post P1 P2 P3 P4 P5 P6 P7 P8 P9 P10 P11 P12].
      + (* idle *)
        assert (TF : take = false) by (unfold take, w_take; rewrite P1; reflexivity).
        rewrite TF in ID'.
        assert (Hm : a_mem (am_step p s i) = a_mem s).
        { cbn [am_step a_mem]. unfold w_mem. fold take. rewrite TF. reflexivity. }
        destruct start eqn:ES.
        * (* a request is taken *)
          unfold start in ES. rewrite P1, Z.eqb_refl, (empty_list (p_qa p) _ _ Q1 IQ) in ES.
          destruct A as [|h A]; [discriminate|]. cbn [tl] in IQ'.
          assert (exists b rest', rest = b :: rest' /\ h = header b) as (b & rest' & -> & ->).
          { subst aws B. unfold headers in PA. rewrite <- app_assoc, map_app in PA. apply prefix_mid in PA.
            destruct PA as [r E]. destruct rest as [|b rest']; [discriminate|].
            cbn [map app] in E. injection E as E _. exists b, rest'. auto. }
          assert (Lb : legal_burst p b).
          { rewrite P2 in LB. apply Forall_app in LB. destruct LB as [_ X]. inversion X; assumption. }
          destruct (hdr_read b Lb) as (E1 & E2 & E3).
          pose proof (rdata_list (p_qa p) _ _ _ Q1 IQ) as RD.
          exists D, rest', (A ++ aw_taken s i), (Wl ++ w_taken p s i).
          split; [exact IQ'|]. split; [exact ID'|].
          assert (NE : b_beats b <> []).
          { destruct Lb as (_ & L & _). intros E. rewrite E in L. cbn [length] in L. clear - L. lia. }
          apply (ph_busy _ _ _ _ _ _ _ _ _ _ _ b [] (b_beats b)).
          -- cbn [am_step a_w w_step w_dfsm]. rewrite P1. rewrite Z.eqb_refl, (empty_list (p_qa p) _ _ Q1 IQ). reflexivity.
          -- exact P2.
          -- reflexivity.
          -- exact NE.
          -- subst aws. unfold headers. rewrite map_app. cbn [map]. rewrite <- !app_assoc. reflexivity.
          -- subst ws. cbn [map]. rewrite app_nil_r, app_assoc. reflexivity.
          -- rewrite Hm. cbn [put_beats]. exact P5.
          -- rewrite <- P6. reflexivity.
          -- cbn [am_step a_w w_step w_bvalid]. rewrite P1. reflexivity.
          -- cbn [am_step a_w w_step w_bid]. rewrite P1. rewrite Z.eqb_refl, (empty_list (p_qa p) _ _ Q1 IQ).
             cbn [map negb andb]. rewrite RD. exact E3.
          -- cbn [am_step a_w w_step w_count]. rewrite P1. rewrite Z.eqb_refl, (empty_list (p_qa p) _ _ Q1 IQ).
             cbn [map negb andb]. rewrite RD. exact E2.
          -- cbn [am_step a_w w_step w_addr]. rewrite P1. rewrite Z.eqb_refl, (empty_list (p_qa p) _ _ Q1 IQ).
             cbn [map negb andb]. rewrite RD. rewrite E1. cbn [length Z.of_nat]. clear. lia.
        * exists D, rest, (A ++ aw_taken s i), (Wl ++ w_taken p s i).
          split; [exact IQ'|]. split; [exact ID'|]. apply ph_idle.
          -- cbn [am_step a_w w_step w_dfsm]. fold start. rewrite ES, P1. reflexivity.
          -- exact P2.
          -- subst aws. rewrite app_assoc. reflexivity.
          -- subst ws. rewrite app_assoc. reflexivity.
          -- rewrite Hm. exact P5.
          -- cbn [am_step a_w w_step w_bvalid]. rewrite P1. cbn [Z.eqb]. rewrite app_nil_r. exact P6.
      + (* busy *)
        assert (SF : start = false) by (unfold start; rewrite P1; reflexivity).
        rewrite SF in IQ'.
        destruct take eqn:ET.
        * (* a beat is stored *)
          assert (EW : exists w Wl', Wl = w :: Wl').
          { unfold take, w_take in ET. rewrite (empty_list (p_da p) _ _ D1 ID) in ET.
            destruct Wl as [|w Wl']; [rewrite andb_false_r in ET; discriminate|]. eauto. }
          destruct EW as (w & Wl' & ->). cbn [tl] in ID'.
          destruct post as [|[d st] post']; [contradiction|].
          assert (w = ((d, st), match post' with [] => true | _ => false end)) as ->.
          { subst ws. rewrite P2, beats_app in PW. change (beats (b :: rest)) with (flagged (b_beats b) ++ beats rest) in PW.
            rewrite P3, flagged_app in PW by discriminate. rewrite <- !app_assoc in PW.
            apply prefix_mid in PW. apply prefix_mid in PW.
            destruct PW as [r E]. cbn [app] in E.
            destruct post'; cbn [flagged app] in E; injection E as E _; auto. }
          pose proof (rdata_list (p_da p) _ _ _ D1 ID) as RD. cbn [dat_word] in RD.
          assert (Lb : legal_burst p b).
          { rewrite P2 in LB. apply Forall_app in LB. destruct LB as [_ X]. inversion X; assumption. }
          destruct Lb as (L1 & L2 & L3 & L4). cbn [header] in *.
          assert (LL : Z.of_nat (length (b_beats b)) = Z.of_nat (length pre) + Z.of_nat (length post') + 1)
            by (rewrite P3, app_length; cbn [length]; clear; lia).
          destruct (unpack_data p G d st (match post' with [] => true | _ => false end)) as (U1 & U2 & U3).
          assert (Hm : same_mem (a_mem (am_step p s i)) (put_beats (nbytes p) (b_addr b) (pre ++ [(d, st)]) (put_bursts (nbytes p) D m0))).
          { intros x. cbn [am_step a_mem]. unfold w_mem. fold take. rewrite ET. cbv zeta. rewrite RD, U1, U2, P12.
            rewrite (store_ok p G (a_mem s) (b_addr b + nbytes p * Z.of_nat (length pre)) d st); [|clear - NB L1; nia|clear - NB L3 LL; nia].
            rewrite put_beats_app. cbn [put_beats]. apply put_beat_same. exact P7. }
          assert (FE : (w_count (a_w s) =? 1) || last_of p (p_rdata false (w_df (a_w s))) = match post' with [] => true | _ => false end).
          { rewrite RD, U3, P11. destruct post'; cbn [length]; [reflexivity|]. rewrite orb_false_r. clear. lia. }
          destruct post' as [|y post'].
          -- exists (D ++ [b]), rest, (A ++ aw_taken s i), (Wl' ++ w_taken p s i).
             split; [exact IQ'|]. split; [exact ID'|]. apply ph_idle.
             ++ cbn [am_step a_w w_step w_dfsm]. fold take. rewrite ET, FE, P1. reflexivity.
             ++ rewrite <- app_assoc. exact P2.
             ++ subst aws. rewrite app_assoc. reflexivity.
             ++ subst ws. rewrite beats_app. change (beats [b]) with (flagged (b_beats b) ++ []).
                rewrite app_nil_r, P3, flagged_app by discriminate. cbn [flagged]. rewrite <- !app_assoc. reflexivity.
             ++ intros x. rewrite Hm. unfold put_bursts at 2. rewrite fold_left_app. cbn [fold_left].
                unfold put_burst at 1. rewrite P3. reflexivity.
             ++ cbn [am_step a_w w_step w_bvalid w_bid]. fold take. rewrite ET, FE, P1. fold start.
                replace ((1 =? 0) && negb (p_empty (w_rq (a_w s)))) with false by reflexivity. cbn [Z.eqb andb].
                unfold b_shown. rewrite P9, app_nil_r, P10, P8, map_app. reflexivity.
          -- exists D, rest, (A ++ aw_taken s i), (Wl' ++ w_taken p s i).
             split; [exact IQ'|]. split; [exact ID'|]. apply (ph_busy _ _ _ _ _ _ _ _ _ _ _ b (pre ++ [(d, st)]) (y :: post')).
             ++ cbn [am_step a_w w_step w_dfsm]. fold take. rewrite ET, FE, P1. reflexivity.
             ++ exact P2.
             ++ rewrite <- app_assoc. exact P3.
             ++ discriminate.
             ++ subst aws. rewrite app_assoc. reflexivity.
             ++ subst ws. rewrite map_app. cbn [map]. rewrite <- !app_assoc. reflexivity.
             ++ exact Hm.
             ++ unfold b_shown. rewrite P9, app_nil_r. exact P8.
             ++ cbn [am_step a_w w_step w_bvalid]. fold take. rewrite ET, FE, P1. exact P9.
             ++ cbn [am_step a_w w_step w_bid]. rewrite P1. exact P10.
             ++ cbn [am_step a_w w_step w_count]. fold take. rewrite ET, P1. cbn [Z.eqb andb].
                rewrite P11. pose proof (g_aw p G) as GA. cbn [length] in *.
                assert (X : 2 ^ 8 <= 2 ^ (p_aw p + 1)) by (clear - GA; apply Z.pow_le_mono_r; lia).
                clear - X L2 LL. rewrite Z.mod_small; lia.
             ++ cbn [am_step a_w w_step w_addr]. fold take. rewrite ET, P1. cbn [Z.eqb andb].
                rewrite P12. pose proof (g_mw p G) as GM. cbn [length] in *. rewrite app_length. cbn [length].
                assert (X : 2 ^ p_mw p <= 2 ^ p_aw p) by (clear - GM; apply Z.pow_le_mono_r; lia).
                clear - X L1 L3 LL NB. rewrite Z.mod_small; nia.
        * exists D, rest, (A ++ aw_taken s i), (Wl ++ w_taken p s i).
          split; [exact IQ'|]. split; [exact ID'|]. apply (ph_busy _ _ _ _ _ _ _ _ _ _ _ b pre post).
          -- cbn [am_step a_w w_step w_dfsm]. fold take. rewrite ET, P1. reflexivity.
          -- exact P2.
          -- exact P3.
          -- exact P4.
          -- subst aws. rewrite app_assoc. reflexivity.
          -- subst ws. rewrite <- !app_assoc. reflexivity.
          -- cbn [am_step a_mem]. unfold w_mem. fold take. rewrite ET. exact P7.
          -- unfold b_shown. rewrite P9, app_nil_r. exact P8.
          -- cbn [am_step a_w w_step w_bvalid]. fold take. rewrite ET, P1. exact P9.
          -- cbn [am_step a_w w_step w_bid]. rewrite P1. exact P10.
          -- cbn [am_step a_w w_step w_count]. fold take. rewrite ET, P1. exact P11.
          -- cbn [am_step a_w w_step w_addr]. fold take. rewrite ET, P1. exact P12.
  Qed.

  Lemma prefix_app {X} (a b l : list X) : prefix (a ++ b) l -> prefix a l.
  Proof. intros [r E]. exists (b ++ r). rewrite app_assoc. exact E. Qed.
  Lemma aw_held_app s a b : aw_held p s (a ++ b) -> aw_held p s a.
  Proof.
    intros H ins1 i i' ins2 E. apply (H ins1 i i' (ins2 ++ b)). rewrite E, <- app_assoc. reflexivity.
  Qed.

  Lemma aw_wait s i : 0 <= w_afsm (a_w s) <= wa_last p ->
    (w_awready (a_w s) = true -> w_afsm (a_w s) = wa_last p) ->
    (w_afsm (a_w s) <> 0 -> some (i_aw i) = true) ->
    w_afsm (a_w (am_step p s i)) <> 0 -> some (i_aw i) = true /\ aw_taken s i = [].
  Proof using.
    clear. intros F R H. pose proof wa_pos as WP. cbn [am_step a_w w_step w_afsm].
    unfold aw_taken. intros X.
    assert (E : some (i_aw i) = true).
    { destruct (w_afsm (a_w s) =? 0) eqn:E0; [|apply H; lia]. destruct (some (i_aw i)); [reflexivity|congruence]. }
    split; [exact E|]. unfold aw_hs in X. destruct (i_aw i); [|discriminate]. cbn [some andb negb] in X.
    destruct (w_awready (a_w s)) eqn:ER; [|reflexivity].
    specialize (R eq_refl). rewrite R in X. replace (wa_last p =? 0) with false in X by lia.
    rewrite Z.eqb_refl in X. congruence.
  Qed.

  Lemma wrun_ok m1 m2 m3 ins :
    let s0 := am_init m1 m2 m3 m0 in
    aw_held p s0 ins ->
    prefix (seen p aw_taken s0 ins) (headers B) -> prefix (seen p (w_taken p) s0 ins) (beats B) ->
    WInv p m0 B (am_run p s0 ins) (seen p aw_taken s0 ins) (seen p (w_taken p) s0 ins) (seen p b_shown s0 ins) /\
    (w_afsm (a_w (am_run p s0 ins)) <> 0 ->
     exists ins1 i, ins = ins1 ++ [i] /\ some (i_aw i) = true /\ aw_taken (am_run p s0 ins1) i = []).
  Proof using G LB.
    intros s0. induction ins as [|i ins IH] using rev_ind; intros H PA PW.
    - split; [apply w_init_ok|]. intros X. exfalso. apply X. reflexivity.
    - rewrite !seen_snoc in *. rewrite !run_snoc.
      destruct (IH (aw_held_app _ _ _ H) (prefix_app _ _ _ PA) (prefix_app _ _ _ PW)) as [IW IL].
      assert (Hh : w_afsm (a_w (am_run p s0 ins)) <> 0 -> some (i_aw i) = true).
      { intros X. destruct (IL X) as (ins1 & j & -> & E1 & E2).
        apply (H ins1 j i []); [rewrite <- app_assoc; reflexivity|exact E1|exact E2]. }
      split.
      + apply wstep_ok; assumption.
      + intros X. exists ins, i. split; [reflexivity|].
        refine (aw_wait _ _ (wi_fsm _ _ _ _ _ _ _ IW) (fun R => proj1 (wi_rdy _ _ _ _ _ _ _ IW R)) Hh X).
  Qed.
End W.

(** ** Read side *)
Lemma Forall2_len {X Y} (P : X -> Y -> Prop) a b : Forall2 P a b -> length a = length b.
Proof. induction 1; cbn [length]; congruence. Qed.
Definition r_cur (s : rside) : list (Z * bool * Z) := if r_valid s then [(r_data s, r_last s, r_rid s)] else [].

Inductive rphase (p : mp) (ms : list (Z -> Z)) (s : axim) (D A : list (Z * Z * Z)) ars taken : Prop :=
| rp_idle :
    r_dfsm (a_r s) = 0 -> r_valid (a_r s) = false -> ars = D ++ A ->
    Forall2 (answered (nbytes p) ms) (asked (nbytes p) D) taken ->
    rphase p ms s D A ars taken
| rp_busy a l id k :
    1 <= r_dfsm (a_r s) <= rd_last p ->
    (r_dfsm (a_r s) <> rd_last p -> k = 0%nat /\ r_valid (a_r s) = false) ->
    ars = D ++ (a, l, id) :: A ->
    Z.of_nat k <= l + 1 -> r_count (a_r s) = l + 1 - Z.of_nat k ->
    r_addr (a_r s) = (a + nbytes p * Z.of_nat k) mod 2 ^ p_aw p ->
    r_rid (a_r s) = id ->
    (Z.of_nat k = l + 1 -> r_valid (a_r s) = true) ->
    (r_valid (a_r s) = true -> r_d1 (a_r s) = rd_last p) ->
    Forall2 (answered (nbytes p) ms) (asked (nbytes p) D ++ firstn k (asked1 (nbytes p) (a, l, id))) (taken ++ r_cur (a_r s)) ->
    rphase p ms s D A ars taken.

Record RInv (p : mp) (ms : list (Z -> Z)) (s : axim) ars taken : Prop := {
  ri_fsm : 0 <= r_afsm (a_r s) <= 1;
  ri_rdy : r_arready (a_r s) = true -> r_afsm (a_r s) = 1 /\ p_almost_full (p_qa p) (r_rq (a_r s)) = false;
  ri_d1 : r_d1 (a_r s) = rd_last p -> r_cond (a_r s) = true;
  ri_last : r_last (a_r s) = true -> r_valid (a_r s) = true;
  ri_ph : exists D A, Inv (2 ^ p_qa p) (r_rq (a_r s)) (map (hdr_word p (p_arid p)) A) /\ rphase p ms s D A ars taken
}.

Lemma answered_more nb ms ms' q y : answered nb ms q y -> answered nb (ms ++ ms') q y.
Proof. intros (m & I & E). exists m. split; [apply in_or_app; auto|exact E]. Qed.
Lemma answered_all_more nb ms ms' qs ys : Forall2 (answered nb ms) qs ys -> Forall2 (answered nb (ms ++ ms')) qs ys.
Proof. induction 1; constructor; [apply answered_more|]; assumption. Qed.

Lemma asked_app nb Q Q' : asked nb (Q ++ Q') = asked nb Q ++ asked nb Q'.
Proof. unfold asked. rewrite map_app, concat_app. reflexivity. Qed.
Lemma asked1_len nb a l id : 0 <= l -> length (asked1 nb (a, l, id)) = Z.to_nat (l + 1).
Proof. intros. unfold asked1. rewrite map_length, seq_length. reflexivity. Qed.
Lemma asked1_next nb a l id k : Z.of_nat k <= l ->
  firstn (S k) (asked1 nb (a, l, id)) = firstn k (asked1 nb (a, l, id)) ++ [(a + nb * Z.of_nat k, Z.of_nat k =? l, id)].
Proof.
  intros H. unfold asked1. rewrite !firstn_map.
  assert (E : firstn (S k) (seq 0 (Z.to_nat (l + 1))) = firstn k (seq 0 (Z.to_nat (l + 1))) ++ [k]).
  { assert (G : forall n j k, (k < n)%nat -> firstn (S k) (seq j n) = firstn k (seq j n) ++ [(j + k)%nat]).
    { clear. induction n as [|n IH]; intros j k L; [lia|]. cbn [seq].
      destruct k as [|k]; [cbn [firstn app]; rewrite Nat.add_0_r; reflexivity|].
      change (firstn (S (S k)) (j :: seq (S j) n)) with (j :: firstn (S k) (seq (S j) n)).
      change (firstn (S k) (j :: seq (S j) n)) with (j :: firstn k (seq (S j) n)).
      rewrite IH by lia. cbn [app]. do 3 f_equal. lia. }
    rewrite G by lia. reflexivity. }
  rewrite E, map_app. reflexivity.
Qed.

Section R.
  Variable p : mp.
  Hypothesis G : good_mp p.

  Lemma rd_pos : 0 < rd_last p.
  Proof using. clear. unfold rd_last. lia. Qed.

  Lemma r_init_ok m1 m2 m3 m0 : RInv p [] (am_init m1 m2 m3 m0) [] [].
  Proof using G.
    pose proof (g_qa p G). pose proof rd_pos.
    constructor; cbn [am_init a_r r_init r_afsm r_arready r_d1 r_cond r_last r_rq]; try discriminate; try lia.
    exists [], []. split; [apply init_inv; lia|]. apply rp_idle; try reflexivity. constructor.
  Qed.

  Lemma rhdr_read a l id : legal_req p (p_arid p) (a, l, id) ->
    let q := hdr_word p (p_arid p) (a, l, id) in
    req_addr p (p_arid p) q = a mod 2 ^ p_aw p /\ req_size p (p_arid p) q = l + 1 /\
    req_id p (p_arid p) q mod 2 ^ p_rid p = id.
  Proof using G.
    intros L q. destruct L as (A & L & R & I). unfold q, hdr_word. clear q.
    pose proof (g_arid p G) as GW. pose proof (g_ids p G) as GI. pose proof (g_mw p G). destruct (nb_facts p G) as [N _].
    destruct (unpack_req p G (p_arid p) a ((l + 1) mod 2 ^ 32) id) as (E1 & E2 & E3); [lia|].
    rewrite E1, E2, E3. clear E1 E2 E3.
    assert (2 ^ p_arid p <= 2 ^ p_rid p) by (apply Z.pow_le_mono_r; lia).
    repeat split.
    - rewrite (Z.mod_small _ (2 ^ 32)) by lia. rewrite Z.mod_small by lia. lia.
    - rewrite (Z.mod_small _ (2 ^ p_arid p)) by lia. apply Z.mod_small; lia.
  Qed.

  Lemma rstep_ok ms s ars taken i :
    RInv p ms s ars taken ->
    (r_afsm (a_r s) <> 0 -> some (i_ar i) = true) ->
    Forall (legal_req p (p_arid p)) (ars ++ ar_taken s i) ->
    RInv p (ms ++ [a_mem s]) (am_step p s i) (ars ++ ar_taken s i) (taken ++ r_taken s i).
  Proof using G.
    intros [F1 F2 F3 F4 (D & A & IQ & PH)] Hh LQ.
    pose proof rd_pos as RP.
    assert (Q1 : 1 <= p_qa p) by (pose proof (g_qa p G); lia).
    destruct (nb_facts p G) as [NB DW].
    assert (TA : (if (r_afsm (a_r s) =? 1) && ar_hs (a_r s) i && negb (p_almost_full (p_qa p) (r_rq (a_r s)))
                  then [match i_ar i with Some (a, n, id) => req_word p (pack_req p (p_arid p) a ((n + 1) mod 2 ^ 32) id) | None => 0 end]
                  else []) = map (hdr_word p (p_arid p)) (ar_taken s i)).
    { unfold ar_hs, ar_taken. destruct (i_ar i) as [[[a n] id]|]; cbn [some andb].
      - destruct (r_arready (a_r s)) eqn:E; [|rewrite !andb_false_r; reflexivity].
        destruct (F2 eq_refl) as [E1 E2]. rewrite E1, E2, Z.eqb_refl. reflexivity.
      - rewrite andb_false_r. reflexivity. }
    set (start := (r_dfsm (a_r s) =? 0) && negb (p_empty (r_rq (a_r s)))).
    assert (SE : deq_rtl (r_rq (a_r s)) start = start).
    { unfold deq_rtl, deq_ready, start. destruct (p_empty (r_rq (a_r s))); rewrite ?andb_false_r, ?andb_true_r; reflexivity. }
    assert (IQ' : Inv (2 ^ p_qa p) (r_rq (a_r (am_step p s i)))
       (map (hdr_word p (p_arid p)) ((if start then tl A else A) ++ ar_taken s i))).
    { cbn [am_step a_r r_step r_rq]. unfold rrq_in. fold start. rewrite SE.
      rewrite map_app, <- TA.
      replace (map (hdr_word p (p_arid p)) (if start then tl A else A))
        with (if start then tl (map (hdr_word p (p_arid p)) A) else map (hdr_word p (p_arid p)) A)
        by (destruct start; [destruct A; reflexivity|reflexivity]).
      apply fstep_list; [exact Q1|exact IQ|].
      intros E. unfold start in E. rewrite (empty_list (p_qa p) _ _ Q1 IQ) in E.
      destruct A; [rewrite andb_false_r in E; discriminate|discriminate]. }
    clear TA.
    assert (K1 : 0 <= r_afsm (a_r (am_step p s i)) <= 1).
    { clear - F1. cbn [am_step a_r r_step r_afsm].
      destruct (r_afsm (a_r s) =? 0); [destruct (some (i_ar i)); lia|].
      destruct (r_afsm (a_r s) =? 1); [|lia].
      destruct (ar_hs (a_r s) i); [lia|]. destruct (negb (some (i_ar i))); lia. }
    assert (K2 : r_arready (a_r (am_step p s i)) = true -> r_afsm (a_r (am_step p s i)) = 1 /\
                 p_almost_full (p_qa p) (r_rq (a_r (am_step p s i))) = false).
    { rewrite (afull_list _ _ _ Q1 IQ'). cbn [am_step a_r r_step r_arready r_afsm].
      destruct (r_afsm (a_r s) =? 0) eqn:E0; [discriminate|].
      destruct (r_afsm (a_r s) =? 1) eqn:E1.
      - destruct (ar_hs (a_r s) i) eqn:EH; [discriminate|].
        apply Z.eqb_neq in E0. rewrite (Hh E0). cbn [negb]. intros ER. split; [reflexivity|].
        assert (NF : p_almost_full (p_qa p) (r_rq (a_r s)) = false).
        { destruct (p_almost_full (p_qa p) (r_rq (a_r s))); [|reflexivity]. cbn [negb] in ER.
          destruct (F2 ER) as [_ X]. exact X. }
        assert (TN : ar_taken s i = []).
        { unfold ar_hs in EH. unfold ar_taken. destruct (i_ar i); [|reflexivity].
          cbn [some andb] in EH. rewrite EH. reflexivity. }
        rewrite (afull_list _ _ _ Q1 IQ) in NF.
        rewrite TN, app_nil_r. rewrite map_length in *. clear - NF.
        destruct start; [destruct A; cbn [tl length] in *|]; lia.
      - intros ER. destruct (F2 ER) as [X _]. apply Z.eqb_neq in E1. contradiction. }
    assert (K3 : r_d1 (a_r (am_step p s i)) = rd_last p -> r_cond (a_r (am_step p s i)) = true).
    { cbn [am_step a_r r_step r_d1 r_cond]. intros ->. rewrite Z.eqb_refl. reflexivity. }
    set (ar := awake_r p (a_s s)) in *.
    destruct PH as [P1 P2 P3 P4 | a l id k P1 P2 P3 P4 P5 P6 P7 P8 P9 P10].
    - (* idle *)
      assert (NH : (r_dfsm (a_r s) =? rd_last p) = false) by (rewrite P1; clear - RP; lia).
      assert (NG : r_go p (a_r s) i ar = false) by (unfold r_go; rewrite NH; reflexivity).
      assert (V' : r_valid (a_r (am_step p s i)) = false).
      { cbn [am_step a_r r_step r_valid]. fold ar. rewrite NH, NG, P2. cbn [andb].
        destruct ((r_d1 (a_r s) =? rd_last p) && r_cond (a_r s)); reflexivity. }
      assert (L' : r_last (a_r (am_step p s i)) = false).
      { cbn [am_step a_r r_step r_last]. rewrite NH. cbn [andb].
        destruct ((r_d1 (a_r s) =? rd_last p) && r_cond (a_r s)); [reflexivity|].
        destruct (r_last (a_r s)); [rewrite (F4 eq_refl) in P2; discriminate|reflexivity]. }
      assert (T0 : r_taken s i = []) by (unfold r_taken; rewrite P2; reflexivity).
      constructor; auto; [rewrite L'; discriminate|].
      rewrite T0, app_nil_r.
      destruct start eqn:ES.
      + unfold start in ES. rewrite P1, Z.eqb_refl, (empty_list (p_qa p) _ _ Q1 IQ) in ES.
        destruct A as [|[[a l] id] A]; [discriminate|]. cbn [tl] in IQ'.
        assert (Lq : legal_req p (p_arid p) (a, l, id)).
        { subst ars. apply Forall_app in LQ. destruct LQ as [LQ _]. apply Forall_app in LQ. destruct LQ as [_ LQ].
          inversion LQ; assumption. }
        destruct (rhdr_read a l id Lq) as (E1 & E2 & E3).
        pose proof (rdata_list (p_qa p) _ _ _ Q1 IQ) as RD.
        exists D, (A ++ ar_taken s i). split; [exact IQ'|].
        assert (S1 : (r_dfsm (a_r s) =? 0) && negb (p_empty (r_rq (a_r s))) = true).
        { rewrite P1, (empty_list (p_qa p) _ _ Q1 IQ). reflexivity. }
        apply (rp_busy _ _ _ _ _ _ _ a l id 0).
        * cbn [am_step a_r r_step r_dfsm]. rewrite P1, (empty_list (p_qa p) _ _ Q1 IQ). cbn [Z.eqb map negb andb].
          clear - RP. lia.
        * auto.
        * subst ars. rewrite <- app_assoc. reflexivity.
        * destruct Lq as (_ & X & _). clear - X. lia.
        * cbn [am_step a_r r_step r_count]. rewrite S1, RD, E2. clear. lia.
        * cbn [am_step a_r r_step r_addr]. rewrite S1, RD, E1. f_equal. clear. lia.
        * cbn [am_step a_r r_step r_rid]. rewrite S1, RD. exact E3.
        * destruct Lq as (_ & X & _). clear - X. lia.
        * rewrite V'. discriminate.
        * unfold r_cur. rewrite V'. cbn [firstn]. rewrite !app_nil_r. apply answered_all_more. exact P4.
      + exists D, (A ++ ar_taken s i). split; [exact IQ'|]. apply rp_idle.
        * cbn [am_step a_r r_step r_dfsm]. fold start. rewrite ES, P1. reflexivity.
        * exact V'.
        * subst ars. rewrite app_assoc. reflexivity.
        * apply answered_all_more. exact P4.
    - (* busy *)
      assert (N0 : (r_dfsm (a_r s) =? 0) = false) by (clear - P1; lia).
      assert (SF : start = false) by (unfold start; rewrite N0; reflexivity).
      assert (SF2 : (r_dfsm (a_r s) =? 0) && negb (p_empty (r_rq (a_r s))) = false) by exact SF.
      rewrite SF in IQ'.
      assert (Lq : legal_req p (p_arid p) (a, l, id)).
      { subst ars. apply Forall_app in LQ. destruct LQ as [LQ _]. apply Forall_app in LQ. destruct LQ as [_ LQ].
        inversion LQ; assumption. }
      destruct Lq as (L1 & L2 & L3 & L4).
      assert (EA : ars ++ ar_taken s i = D ++ (a, l, id) :: (A ++ ar_taken s i)).
      { subst ars. rewrite <- app_assoc. reflexivity. }
      assert (R' : r_rid (a_r (am_step p s i)) = id).
      { cbn [am_step a_r r_step r_rid]. rewrite SF2. exact P7. }
      destruct (r_dfsm (a_r s) =? rd_last p) eqn:EH.
      2:{ (* waiting *)
        apply Z.eqb_neq in EH. destruct (P2 EH) as [-> VF]. apply Z.eqb_neq in EH.
        assert (NG : r_go p (a_r s) i ar = false) by (unfold r_go; rewrite EH; reflexivity).
        assert (V' : r_valid (a_r (am_step p s i)) = false).
        { cbn [am_step a_r r_step r_valid]. fold ar. rewrite EH, NG, VF. cbn [andb].
          destruct ((r_d1 (a_r s) =? rd_last p) && r_cond (a_r s)); reflexivity. }
        assert (L' : r_last (a_r (am_step p s i)) = false).
        { cbn [am_step a_r r_step r_last]. rewrite EH. cbn [andb].
          destruct ((r_d1 (a_r s) =? rd_last p) && r_cond (a_r s)); [reflexivity|].
          destruct (r_last (a_r s)); [rewrite (F4 eq_refl) in VF; discriminate|reflexivity]. }
        assert (T0 : r_taken s i = []) by (unfold r_taken; rewrite VF; reflexivity).
        constructor; auto; [rewrite L'; discriminate|].
        rewrite T0, app_nil_r. exists D, (A ++ ar_taken s i). split; [exact IQ'|].
        apply (rp_busy _ _ _ _ _ _ _ a l id 0).
        - cbn [am_step a_r r_step r_dfsm]. rewrite N0, EH. clear - P1 EH. lia.
        - auto.
        - exact EA.
        - exact P4.
        - cbn [am_step a_r r_step r_count]. fold ar. rewrite SF2, NG. exact P5.
        - cbn [am_step a_r r_step r_addr]. fold ar. rewrite SF2, NG. exact P6.
        - exact R'.
        - intros X. clear - X L2. lia.
        - rewrite V'. discriminate.
        - unfold r_cur in *. rewrite V'. rewrite VF in P10. apply answered_all_more. exact P10. }
      assert (DR : r_valid (a_r s) = true -> (r_d1 (a_r s) =? rd_last p) && r_cond (a_r s) = true).
      { intros X. rewrite (F3 (P9 X)), (P9 X), Z.eqb_refl. reflexivity. }
      assert (D1 : r_d1 (a_r (am_step p s i)) = rd_last p).
      { cbn [am_step a_r r_step r_d1]. apply Z.eqb_eq. exact EH. }
      destruct (r_valid (a_r s) && negb (i_rready i)) eqn:ER.
      { (* the master is not ready *)
        apply andb_prop in ER. destruct ER as [EV ER].
        assert (NA : r_ack (a_r s) i = false) by (unfold r_ack; rewrite EV; destruct (i_rready i); [discriminate|reflexivity]).
        assert (NG : r_go p (a_r s) i ar = false) by (unfold r_go; rewrite NA, !andb_false_r; reflexivity).
        assert (NR : i_rready i = false) by (destruct (i_rready i); [discriminate|reflexivity]).
        assert (V' : r_valid (a_r (am_step p s i)) = true).
        { cbn [am_step a_r r_step r_valid]. rewrite EH, EV, ER. reflexivity. }
        assert (T0 : r_taken s i = []) by (unfold r_taken; rewrite NR, andb_false_r; reflexivity).
        constructor; auto. rewrite T0, app_nil_r. exists D, (A ++ ar_taken s i). split; [exact IQ'|].
        apply (rp_busy _ _ _ _ _ _ _ a l id k).
        - cbn [am_step a_r r_step r_dfsm]. rewrite N0, EH, NR, EV. cbn [andb]. exact P1.
        - cbn [am_step a_r r_step r_dfsm]. rewrite N0, EH, NR, EV. cbn [andb]. apply Z.eqb_eq in EH. intros X. contradiction.
        - exact EA.
        - exact P4.
        - cbn [am_step a_r r_step r_count]. fold ar. rewrite SF2, NG. exact P5.
        - cbn [am_step a_r r_step r_addr]. fold ar. rewrite SF2, NG. exact P6.
        - exact R'.
        - auto.
        - auto.
        - apply answered_all_more. unfold r_cur in *. rewrite V', R'. rewrite EV, P7 in P10.
          cbn [am_step a_r r_step r_data r_last]. rewrite EH, EV, ER. cbn [andb]. exact P10. }
      assert (AK : r_ack (a_r s) i = true).
      { unfold r_ack. destruct (r_valid (a_r s)); [|rewrite orb_true_r; reflexivity].
        destruct (i_rready i); [reflexivity|discriminate]. }
      assert (TK : r_taken s i = r_cur (a_r s)).
      { unfold r_taken, r_cur. destruct (r_valid (a_r s)); [|reflexivity]. destruct (i_rready i); [reflexivity|discriminate]. }
      assert (EV : r_valid (a_r s) && i_rready i = r_valid (a_r s)).
      { destruct (r_valid (a_r s)); [|reflexivity]. destruct (i_rready i); [reflexivity|discriminate]. }
      rewrite TK.
      destruct (r_go p (a_r s) i ar) eqn:GO.
      + (* a beat is fetched *)
        unfold r_go in GO. rewrite EH, AK, !andb_true_r in GO. cbn [andb] in GO.
        apply andb_prop in GO. destruct GO as [AW CN].
        assert (GO : r_go p (a_r s) i ar = true) by (unfold r_go; rewrite EH, AW, CN, AK; reflexivity).
        assert (KL : Z.of_nat k <= l) by (clear - CN P5; lia).
        assert (V' : r_valid (a_r (am_step p s i)) = true).
        { cbn [am_step a_r r_step r_valid]. fold ar. rewrite EH, ER, GO. reflexivity. }
        assert (CZ : (r_count (a_r s) =? 0) = false) by (clear - CN; lia).
        constructor; auto. exists D, (A ++ ar_taken s i). split; [exact IQ'|].
        apply (rp_busy _ _ _ _ _ _ _ a l id (S k)).
        * cbn [am_step a_r r_step r_dfsm]. rewrite N0, EH, CZ, andb_false_r. exact P1.
        * cbn [am_step a_r r_step r_dfsm]. rewrite N0, EH, CZ, andb_false_r. apply Z.eqb_eq in EH. intros X. contradiction.
        * exact EA.
        * clear - KL. lia.
        * cbn [am_step a_r r_step r_count]. fold ar. rewrite SF2, GO, P5.
          pose proof (g_aw p G) as GA.
          assert (X : 2 ^ 9 <= 2 ^ (p_aw p + 1)) by (clear - GA; apply Z.pow_le_mono_r; lia).
          clear - X L2 KL. rewrite Z.mod_small; lia.
        * cbn [am_step a_r r_step r_addr]. fold ar. rewrite SF2, GO, P6.
          rewrite Zplus_mod_idemp_l. f_equal. clear. lia.
        * exact R'.
        * auto.
        * auto.
        * unfold r_cur at 2. rewrite V', R', asked1_next by exact KL.
          rewrite app_assoc. apply Forall2_app; [apply answered_all_more; exact P10|].
          constructor; [|constructor]. exists (a_mem s). split; [apply in_or_app; right; left; reflexivity|].
          unfold answer. cbn [am_step a_r r_step r_data r_last]. fold ar. rewrite EH, ER, AK, AW. cbn [andb].
          assert (M1 : 2 ^ p_mw p <= 2 ^ p_aw p) by (pose proof (g_mw p G) as GM; clear - GM; apply Z.pow_le_mono_r; lia).
          assert (AE : r_addr (a_r s) = a + nbytes p * Z.of_nat k).
          { rewrite P6. clear - L1 L3 KL NB M1. apply Z.mod_small. nia. }
          rewrite AE. rewrite load_ok; [|exact G|clear - L1 NB; nia|clear - L1 L3 KL NB; nia].
          f_equal. f_equal. rewrite P5.
          replace (Z.of_nat k =? l) with (l + 1 - Z.of_nat k =? 1) by (clear; lia).
          destruct (l + 1 - Z.of_nat k =? 1); [reflexivity|].
          destruct (r_valid (a_r s)) eqn:EV2; [rewrite (DR eq_refl); reflexivity|].
          destruct (r_last (a_r s)); [discriminate (F4 eq_refl)|].
          destruct ((r_d1 (a_r s) =? rd_last p) && r_cond (a_r s)); reflexivity.
      + (* nothing to fetch *)
        assert (V' : r_valid (a_r (am_step p s i)) = false).
        { cbn [am_step a_r r_step r_valid]. fold ar. rewrite EH, ER, GO. cbn [andb].
          destruct (r_valid (a_r s)); [rewrite (DR eq_refl); reflexivity|].
          destruct ((r_d1 (a_r s) =? rd_last p) && r_cond (a_r s)); reflexivity. }
        assert (L' : r_last (a_r (am_step p s i)) = false).
        { cbn [am_step a_r r_step r_last]. fold ar. rewrite EH, ER, AK. cbn [andb].
          assert (X : ar && (r_count (a_r s) =? 1) && true = false).
          { unfold r_go in GO. rewrite EH, AK in GO. cbn [andb] in GO. destruct ar; [|reflexivity]. cbn [andb] in *.
            clear - GO. lia. }
          rewrite X.
          destruct (r_valid (a_r s)) eqn:EV2; [rewrite (DR eq_refl); reflexivity|].
          destruct (r_last (a_r s)); [discriminate (F4 eq_refl)|].
          destruct ((r_d1 (a_r s) =? rd_last p) && r_cond (a_r s)); reflexivity. }
        assert (CT : r_count (a_r (am_step p s i)) = r_count (a_r s)).
        { cbn [am_step a_r r_step r_count]. fold ar. rewrite SF2, GO. reflexivity. }
        assert (AD : r_addr (a_r (am_step p s i)) = r_addr (a_r s)).
        { cbn [am_step a_r r_step r_addr]. fold ar. rewrite SF2, GO. reflexivity. }
        constructor; auto; [rewrite L'; discriminate|].
        destruct (r_count (a_r s) =? 0) eqn:CZ.
        * (* the burst is complete *)
          assert (KE : Z.of_nat k = l + 1) by (clear - CZ P5; lia).
          specialize (P8 KE). exists (D ++ [(a, l, id)]), (A ++ ar_taken s i). split; [exact IQ'|]. apply rp_idle.
          -- cbn [am_step a_r r_step r_dfsm]. rewrite N0, EH, EV, P8, CZ. reflexivity.
          -- exact V'.
          -- rewrite <- app_assoc. exact EA.
          -- apply answered_all_more. rewrite asked_app. unfold asked at 2. cbn [map concat].
             rewrite app_nil_r. rewrite firstn_all2 in P10; [exact P10|].
             rewrite asked1_len by (clear - L2; lia). clear - KE. lia.
        * exists D, (A ++ ar_taken s i). split; [exact IQ'|]. apply (rp_busy _ _ _ _ _ _ _ a l id k).
          -- cbn [am_step a_r r_step r_dfsm]. rewrite N0, EH, CZ, andb_false_r. exact P1.
          -- cbn [am_step a_r r_step r_dfsm]. rewrite N0, EH, CZ, andb_false_r. apply Z.eqb_eq in EH. intros X. contradiction.
          -- exact EA.
          -- exact P4.
          -- rewrite CT. exact P5.
          -- rewrite AD. exact P6.
          -- exact R'.
          -- intros X. clear - X CZ P5. lia.
          -- auto.
          -- unfold r_cur at 2. rewrite V', app_nil_r. apply answered_all_more. exact P10.
  Qed.

  Lemma ar_held_app s a b : ar_held p s (a ++ b) -> ar_held p s a.
  Proof.
    intros H ins1 i i' ins2 E. apply (H ins1 i i' (ins2 ++ b)). rewrite E, <- app_assoc. reflexivity.
  Qed.

  (** the address state machine waits only while a request is offered *)
  Lemma ar_wait m1 m2 m3 m0 ins : let s0 := am_init m1 m2 m3 m0 in
    ar_held p s0 ins ->
    let s := am_run p s0 ins in
    (r_afsm (a_r s) = 0 \/ r_afsm (a_r s) = 1) /\ (r_arready (a_r s) = true -> r_afsm (a_r s) = 1) /\
    (r_afsm (a_r s) <> 0 ->
     exists ins1 i, ins = ins1 ++ [i] /\ some (i_ar i) = true /\ ar_taken (am_run p s0 ins1) i = []).
  Proof.
    intros s0. induction ins as [|i ins IH] using rev_ind; intros H.
    - cbn. repeat split; auto; intros X; [discriminate|exfalso; apply X; reflexivity].
    - destruct (IH (ar_held_app _ _ _ H)) as (I1 & I2 & I3). clear IH.
      assert (Hh : r_afsm (a_r (am_run p s0 ins)) <> 0 -> some (i_ar i) = true).
      { intros X. destruct (I3 X) as (ins1 & j & -> & E1 & E2).
        apply (H ins1 j i []); [rewrite <- app_assoc; reflexivity|exact E1|exact E2]. }
      rewrite run_snoc. set (s := am_run p s0 ins) in *. clear I3 H.
      cbv zeta. cbn [am_step a_r r_step r_afsm r_arready]. unfold ar_hs.
      destruct I1 as [E|E]; rewrite E in *; cbn [Z.eqb] in *.
      + split; [destruct (some (i_ar i)); auto|]. split; [discriminate|].
        intros X. exists ins, i. split; [reflexivity|].
        destruct (some (i_ar i)) eqn:ES; [|exfalso; apply X; reflexivity]. split; [reflexivity|].
        fold s. unfold ar_taken. destruct (r_arready (a_r s)); [discriminate (I2 eq_refl)|]. destruct (i_ar i); reflexivity.
      + change (1 =? 1) with true. cbv iota. rewrite Hh by discriminate. cbn [andb negb].
        destruct (r_arready (a_r s)) eqn:ER; cbn [andb].
        * split; [auto|]. split; [discriminate|]. intros X. exfalso. apply X. reflexivity.
        * split; [auto|]. split; [auto|]. intros _. exists ins, i. split; [reflexivity|].
          split; [apply Hh; discriminate|]. fold s. unfold ar_taken. rewrite ER. destruct (i_ar i); reflexivity.
  Qed.

  Lemma ar_next m1 m2 m3 m0 ins i : let s0 := am_init m1 m2 m3 m0 in
    ar_held p s0 (ins ++ [i]) -> r_afsm (a_r (am_run p s0 ins)) <> 0 -> some (i_ar i) = true.
  Proof.
    intros s0 H X. destruct (ar_wait m1 m2 m3 m0 ins (ar_held_app _ _ _ H)) as (_ & _ & W).
    destruct (W X) as (ins1 & j & -> & E1 & E2).
    apply (H ins1 j i []); [rewrite <- app_assoc; reflexivity|exact E1|exact E2].
  Qed.

  Lemma rrun_ok m1 m2 m3 m0 ins1 ins2 :
    let s0 := am_init m1 m2 m3 m0 in let s1 := am_run p s0 ins1 in
    ar_held p s0 (ins1 ++ ins2) -> RInv p [] s1 [] [] ->
    Forall (legal_req p (p_arid p)) (seen p ar_taken s1 ins2) ->
    RInv p (mems p s1 ins2) (am_run p s1 ins2) (seen p ar_taken s1 ins2) (seen p r_taken s1 ins2).
  Proof using G.
    intros s0 s1 H R0. induction ins2 as [|i ins2 IH] using rev_ind; intros LQ; [exact R0|].
    rewrite app_assoc in H.
    rewrite !seen_snoc in *. rewrite run_snoc. unfold mems. rewrite outs_app. cbn [outs].
    apply rstep_ok.
    - apply IH; [exact (ar_held_app _ _ _ H)|]. apply Forall_app in LQ. exact (proj1 LQ).
    - intros X. apply (ar_next m1 m2 m3 m0 (ins1 ++ ins2) i H). fold s0. rewrite run_app. exact X.
    - exact LQ.
  Qed.

  Lemma asked_nil Q : Forall (legal_req p (p_arid p)) Q -> asked (nbytes p) Q = [] -> Q = [].
  Proof.
    intros L E. destruct Q as [|[[a l] id] Q]; [reflexivity|].
    inversion L as [|x y LL L3]; subst. destruct LL as (_ & L2 & _). unfold asked in E. cbn [map concat] in E.
    apply app_eq_nil in E. destruct E as [E _].
    assert (X : length (asked1 (nbytes p) (a, l, id)) = 0%nat) by (rewrite E; reflexivity).
    rewrite asked1_len in X by lia. lia.
  Qed.

  (** once everything asked has been answered the read side starts afresh *)
  Lemma r_fresh ms s ars taken : RInv p ms s ars taken -> Forall (legal_req p (p_arid p)) ars ->
    length taken = length (asked (nbytes p) ars) -> RInv p [] s [] [].
  Proof.
    intros [F1 F2 F3 F4 (D & A & IQ & PH)] L E. constructor; auto.
    destruct PH as [P1 P2 P3 P4 | a l id k P1 P2 P3 P4 P5 P6 P7 P8 P9 P10]; subst ars.
    - apply Forall2_len in P4. rewrite asked_app, app_length in E.
      assert (A = []) as ->.
      { apply asked_nil; [apply Forall_app in L; exact (proj2 L)|]. apply length_zero_iff_nil. lia. }
      exists [], []. split; [exact IQ|]. apply rp_idle; auto. constructor.
    - exfalso. apply Forall2_len in P10. rewrite asked_app, app_length in E.
      unfold asked in E at 2. cbn [map concat] in E. rewrite !app_length in *.
      apply Forall_app in L. destruct L as [_ L]. inversion L as [|x y LL L3]; subst. destruct LL as (_ & L2 & _).
      rewrite asked1_len in * by lia. rewrite firstn_length, asked1_len in P10 by lia.
      unfold r_cur in P10. destruct (r_valid (a_r s)) eqn:V; cbn [length] in P10.
      + lia.
      + assert (Z.of_nat k = l + 1) by lia. specialize (P8 H). discriminate.
  Qed.
End R.
