(** Proofs about the DMA request generator. *)
From Verif Require Import Base Pack Vlog Seq_Model AxiChan_Model AxiChan_Spec AxiChan_Proofs AxiDma_Model AxiDma_Spec.
Open Scope Z_scope.

Lemma outs_app {S I O} (step : S -> I -> S) (out : S -> I -> O) a b : forall s,
  outs step out s (a ++ b) = outs step out s a ++ outs step out (final step s a) b.
Proof. induction a as [|x a IH]; intros s; [reflexivity|]. cbn [app outs final fold_left]. rewrite IH. reflexivity. Qed.
Lemma land_4095 a : Z.land a 4095 = a mod 4096.
Proof. change 4095 with (Z.ones 12). rewrite Z.land_ones by lia. reflexivity. Qed.

(** first and last of [x] bytes from [a] are in one page *)
Definition samepage (a x : Z) : Prop := a / 4096 = (a + x - 1) / 4096.

(** arithmetic after dropping the hypotheses that cannot matter *)
Ltac zz := repeat match goal with
  | H : ?T |- _ => match type of T with Prop =>
      lazymatch T with
      | Z.le _ _ => fail | Z.lt _ _ => fail | Z.le _ _ /\ _ => fail
      | @eq Z _ _ => fail
      | (_ =? _) = _ => fail
      | _ => clear H end end
  end; first [lia | nia].

Section Arith.
  Variables aw s : Z.
  Hypothesis Haw : 0 <= aw.
  Hypothesis Hs : 0 <= s <= 12.
  Let B := 2 ^ s.

  Lemma B_pos : 0 < B.
  Proof. unfold B. apply Z.pow_pos_nonneg; lia. Qed.
  Lemma B_dvd : exists k, 4096 = k * B /\ 0 < k.
  Proof.
    exists (2 ^ (12 - s)). unfold B. split; [|apply Z.pow_pos_nonneg; lia].
    rewrite <- Z.pow_add_r by lia. replace (12 - s + s) with 12 by lia. reflexivity.
  Qed.
  Lemma B_le : B <= 4096.
  Proof. destruct B_dvd as (k & E & Hk). pose proof B_pos. nia. Qed.

  Lemma mask_round a : 0 <= a < 2 ^ aw -> mask_addr aw s a = a / B * B.
  Proof.
    intros Ha. unfold mask_addr. rewrite Z.shiftr_div_pow2, Z.shiftl_mul_pow2 by lia. fold B.
    pose proof B_pos. pose proof (Z.mul_div_le a B ltac:(lia)). pose proof (Z.div_pos a B ltac:(lia) ltac:(lia)).
    rewrite (Z.mod_small (a / B)) by nia. apply Z.mod_small. nia.
  Qed.
  Lemma mask_aligned a k : a = k * B -> 0 <= a < 2 ^ aw -> mask_addr aw s a = a.
  Proof. intros E Ha. rewrite mask_round by exact Ha. rewrite E, Z.div_mul; [reflexivity|]. pose proof B_pos. lia. Qed.

  Lemma ctx_big : 2 ^ 32 <= 2 ^ ctxw aw.
  Proof. apply Z.pow_le_mono_r; unfold ctxw; lia. Qed.

  Lemma check_spec a k l : a = k * B -> 0 <= a < 2 ^ aw -> 0 <= l <= 256 ->
    check_boundary aw s a l = (4096 <=? a mod 4096 + l * B).
  Proof.
    intros E Ha Hl. unfold check_boundary, boundary_size. rewrite (mask_aligned a k E Ha).
    change (4096 - 1) with 4095. rewrite land_4095, Z.shiftl_mul_pow2 by lia. fold B.
    pose proof ctx_big. pose proof B_le. pose proof B_pos.
    pose proof (Z.mod_pos_bound a 4096 ltac:(lia)). rewrite Z.mod_small; [reflexivity|].
    change (2 ^ 32) with 4294967296 in *. nia.
  Qed.
  Lemma rest_spec a k : a = k * B -> 0 <= a < 2 ^ aw ->
    a mod 4096 + rest_boundary aw s a * B = 4096 /\ 1 <= rest_boundary aw s a.
  Proof.
    intros E Ha. unfold rest_boundary, boundary_size. rewrite (mask_aligned a k E Ha).
    change (4096 - 1) with 4095. rewrite land_4095, Z.shiftr_div_pow2 by lia. fold B.
    pose proof ctx_big. pose proof B_pos. pose proof (Z.mod_pos_bound a 4096 ltac:(lia)).
    change (2 ^ 32) with 4294967296 in *. rewrite (Z.mod_small (4096 - a mod 4096)) by lia.
    destruct B_dvd as (q & Eq & Hq).
    assert (Hm : a mod 4096 = (k mod q) * B).
    { rewrite E, Eq. apply Z.mul_mod_distr_r; lia. }
    pose proof (Z.mod_pos_bound k q ltac:(lia)). rewrite Hm, Eq.
    replace (q * B - k mod q * B) with ((q - k mod q) * B) by ring. rewrite Z.div_mul by lia. split; [ring|lia].
  Qed.

  Lemma page_ok a x : 0 <= a -> 1 <= x -> a mod 4096 + x <= 4096 -> samepage a x.
  Proof.
    unfold samepage. intros Ha Hx H. pose proof (Z.div_mod a 4096 ltac:(lia)). pose proof (Z.mod_pos_bound a 4096 ltac:(lia)).
    apply (Z.div_unique (a + x - 1) 4096 (a / 4096) (a mod 4096 + x - 1)); lia.
  Qed.

  (** one step of the splitting: a legal burst and what is left *)
  Lemma split_ok a k n : a = k * B -> 0 <= a -> 1 <= n -> a + n * B <= 2 ^ aw ->
    exists c, check_4KB aw s a n = (c, n - c) /\ 1 <= c <= 256 /\ c <= n /\
      samepage a (c * B).
  Proof.
    intros E Ha Hn Hb. pose proof B_pos as HB.
    assert (Hlt : 0 <= a < 2 ^ aw) by nia.
    assert (Hw : n < 2 ^ (aw + 1)) by (rewrite Z.pow_add_r by lia; nia).
    destruct (rest_spec a k E Hlt) as [Hr1 Hr2]. set (r := rest_boundary aw s a) in *.
    pose proof (Z.mod_pos_bound a 4096 ltac:(lia)) as Hm.
    assert (Hp : forall c, 1 <= c -> a mod 4096 + c * B <= 4096 -> samepage a (c * B))
      by (intros c H1 H2; apply page_ok; nia).
    unfold check_4KB. fold r. unfold max_burstlen. change (2 ^ 8) with 256. cbv beta zeta.
    destruct (n <=? 256) eqn:E1; cbn [andb].
    - rewrite (check_spec a k n E Hlt) by lia.
      destruct (4096 <=? a mod 4096 + n * B) eqn:E2.
      + assert (r <= n) by nia. exists r. rewrite !Z.mod_small by lia.
        split; [reflexivity|]; repeat split; try lia; try (apply Hp; lia).
      + exists n. rewrite Z.mod_small by lia. split; [f_equal; lia|]. repeat split; try lia; try (apply Hp; lia).
    - rewrite (check_spec a k 256 E Hlt) by lia.
      destruct (4096 <=? a mod 4096 + 256 * B) eqn:E2.
      + assert (r <= 256) by nia. exists r. rewrite !Z.mod_small by lia.
        split; [reflexivity|]; repeat split; try lia; try (apply Hp; lia).
      + exists 256. rewrite !Z.mod_small by lia. split; [reflexivity|]; repeat split; try lia; try (apply Hp; lia).
  Qed.

  (** a plan for any request exists *)
  Lemma plan_exists m : forall n a k, (Z.to_nat n <= m)%nat -> 0 <= n -> a = k * B -> 0 <= a -> a + n * B <= 2 ^ aw ->
    exists bs, covers B a n bs.
  Proof.
    induction m as [|m IH]; intros n a k Hm Hn E Ha Hb.
    - exists []. cbn. lia.
    - destruct (Z.eq_dec n 0) as [->|Hn0]; [exists []; reflexivity|].
      destruct (split_ok a k n E Ha ltac:(lia) Hb) as (c & _ & H1 & H2 & H3).
      destruct (IH (n - c) (a + c * B) (k + c)) as [bs Hbs]; [lia|lia|rewrite E; ring|pose proof B_pos; nia|nia|].
      exists ((a, c) :: bs). cbn [covers]. auto.
  Qed.

  Lemma covers_snoc bs : forall a n a' n' c,
    (forall t, covers B a' n' t -> covers B a n (bs ++ t)) ->
    1 <= c <= 256 -> samepage a' (c * B) ->
    forall t, covers B (a' + c * B) (n' - c) t -> covers B a n ((bs ++ [(a', c)]) ++ t).
  Proof.
    intros a n a' n' c H Hc Hp t Ht. rewrite <- app_assoc. apply H. cbn [app covers]. auto.
  Qed.
End Arith.

Section Run.
  Variables (write : bool) (aw s : Z).
  Hypothesis Haw : 0 <= aw.
  Hypothesis Hs : 0 <= s <= 12.
  Let B := 2 ^ s.
  Notation step := (rq_step write aw s).

  (** the request being worked on: [Some (a, n)] = words still to be split off *)
  Definition rest (q : rq) : option (Z * Z) :=
    if q_state q then Some (q_addr q, q_cur q + q_size q)
    else if q_start q || q_cont q then Some (q_addr q, q_size q) else None.

  Record Ok (q : rq) : Prop := mkOk {
    ok_flags : (q_state q = true -> q_start q = false /\ q_busy q = true) /\
               (q_state q = false -> q_start q = true -> q_cont q = false) /\
               (q_state q = false -> q_cont q = true -> q_start q = false /\ q_busy q = true) /\
               (q_state q = false -> q_busy q = true -> q_start q || q_cont q = true);
    ok_rest : forall a n, rest q = Some (a, n) ->
      (exists k, a = k * B) /\ 0 <= a /\ 1 <= n /\ a + n * B <= 2 ^ aw;
    ok_cur : q_state q = true ->
      1 <= q_cur q <= 256 /\ 0 <= q_size q /\
      samepage (q_addr q) (q_cur q * B);
    ok_len : q_valid q = true -> 0 <= q_chlen q < 256
  }.

  Lemma Ok_init : Ok rq_init.
  Proof. constructor; cbn; try discriminate; auto. Qed.

  Definition pend (q : rq) : list (Z * Z) := if q_valid q then [(q_chaddr q, q_chlen q + 1)] else [].

  (** [done]: plans of finished requests; [Inv]: what has been issued, against the plans *)
  Definition inv (q : rq) (reqs issued : list (Z * Z)) : Prop :=
    match rest q with
    | None => exists bss, Forall2 (wanted_bursts B) reqs bss /\ issued = concat bss
    | Some (a', n') =>
        exists before r bss part, reqs = before ++ [r] /\ Forall2 (wanted_bursts B) before bss /\
          issued = concat bss ++ part /\
          forall t, covers B a' n' t -> wanted_bursts B r (part ++ t)
    end.

  Lemma req_idle_rest q : Ok q -> req_idle q = true -> rest q = None.
  Proof.
    intros [Hf _ _ _] H. unfold req_idle in H. unfold rest. destruct Hf as (F1 & F2 & F3 & F4).
    destruct (q_state q); [destruct (F1 eq_refl) as [_ E]; rewrite E in H; destruct (q_start q); discriminate|].
    destruct (q_start q); [discriminate|]. destruct (q_cont q); [|reflexivity].
    destruct (F3 eq_refl eq_refl) as [_ E]. rewrite E in H. discriminate.
  Qed.
  Lemma rest_none_idle q : Ok q -> rest q = None -> req_idle q = true.
  Proof.
    intros [Hf _ _ _] H. unfold rest in H. unfold req_idle. destruct Hf as (F1 & F2 & F3 & F4).
    destruct (q_state q); [discriminate|]. destruct (q_start q) eqn:E1; [discriminate|].
    destruct (q_cont q) eqn:E2; [discriminate|]. destruct (q_busy q); [|reflexivity].
    specialize (F4 eq_refl eq_refl). discriminate.
  Qed.

  Lemma Ok_step q i reqs iss : Ok q -> inv q reqs iss -> (forall r, take q i = Some r -> reasonable aw B r) ->
    Ok (step q i) /\
    inv (step q i) (reqs ++ rq_taken q i) (iss ++ (if ch_load write q i then [(q_addr q, q_cur q)] else [])) /\
    rq_burst q i ++ pend (step q i) = pend q ++ (if ch_load write q i then [(q_addr q, q_cur q)] else []).
  Proof.
    intros HOk Hinv Hreq. pose proof (B_pos s Hs) as HB. fold B in HB.
    pose proof HOk as [Hf Hr Hc Hl]. destruct Hf as (F1 & F2 & F3 & F4).
    destruct (q_state q) eqn:Est.
    - (* state 1 *)
      destruct (F1 eq_refl) as [Es Eb]. destruct (Hc eq_refl) as (Hc1 & Hc2 & Hc3).
      assert (Etk : take q i = None) by (unfold take, req_idle; rewrite Es, Eb; reflexivity).
      assert (Echk : check_cond q i = false) by (unfold check_cond; rewrite Est; reflexivity).
      destruct (Hr (q_addr q) (q_cur q + q_size q)) as ((k & Hk) & Hr1 & Hr2 & Hr3); [unfold rest; rewrite Est; reflexivity|].
      assert (Eload : ch_load write q i = issue write q i).
      { unfold ch_load. destruct (issue write q i); [|reflexivity]. destruct write; [|reflexivity].
        replace (q_cur q =? 0) with false by zz. reflexivity. }
      assert (Etaken : rq_taken q i = []) by (unfold rq_taken; rewrite Etk; reflexivity).
      unfold inv in Hinv. unfold rest in Hinv. rewrite Est in Hinv.
      destruct Hinv as (before & r & bss & part & R1 & R2 & R3 & R4).
      rewrite Eload, Etaken, app_nil_r.
      destruct (issue write q i) eqn:Ei.
      + (* issued *)
        assert (Efree : ch_free q i = true).
        { unfold issue in Ei. rewrite Est in Ei. destruct (ch_free q i); [reflexivity|discriminate]. }
        assert (Est' : q_state (step q i) = false) by (cbn [rq_step q_state]; rewrite Est, Ei; reflexivity).
        assert (Es' : q_start (step q i) = false) by (cbn [rq_step q_start]; rewrite Es, Etk; reflexivity).
        assert (Ea' : q_addr (step q i) = (q_addr q + q_cur q * B) mod 2 ^ aw)
          by (cbn [rq_step q_addr]; rewrite Ei; reflexivity).
        assert (Esz' : q_size (step q i) = q_size q) by (cbn [rq_step q_size]; rewrite Echk, Etk; reflexivity).
        assert (Ev' : q_valid (step q i) = true).
        { cbn [rq_step q_valid]. rewrite Eload. destruct (q_valid q && negb (i_ready i)); reflexivity. }
        assert (Ech : q_chaddr (step q i) = q_addr q) by (cbn [rq_step q_chaddr]; rewrite Ei; reflexivity).
        assert (Ecl : q_chlen (step q i) = q_cur q - 1).
        { cbn [rq_step q_chlen]. rewrite Ei. apply Z.mod_small. change (2 ^ 8) with 256. zz. }
        assert (Eco : q_cont (step q i) = negb (q_size q =? 0)).
        { cbn [rq_step q_cont]. rewrite Ei. cbn [andb]. destruct (q_size q =? 0); reflexivity. }
        assert (Ebu : q_busy (step q i) = negb (q_size q =? 0)).
        { cbn [rq_step q_busy]. rewrite Ei, Est, Eb. cbn [andb negb]. destruct (q_size q =? 0); reflexivity. }
        assert (Erest : rest (step q i) = if q_size q =? 0 then None
                        else Some (q_addr q + q_cur q * B, q_size q)).
        { unfold rest. rewrite Est', Es', Eco, Ea', Esz'. cbn [orb].
          destruct (q_size q =? 0) eqn:E0; [reflexivity|]. cbn [negb]. rewrite Z.mod_small; [reflexivity|]. zz. }
        split; [|split].
        * constructor.
          -- rewrite Est', Es', Eco, Ebu. destruct (q_size q =? 0); cbn; repeat split; try discriminate; auto.
          -- intros a n Hrest. rewrite Erest in Hrest. destruct (q_size q =? 0) eqn:E0; [discriminate|].
             inversion Hrest; subst a n. repeat split; try zz. exists (k + q_cur q). rewrite Hk. ring.
          -- rewrite Est'. discriminate.
          -- intros _. rewrite Ecl. zz.
        * unfold inv. rewrite Erest. destruct (q_size q =? 0) eqn:E0.
          -- exists (bss ++ [part ++ [(q_addr q, q_cur q)]]). split.
             ++ rewrite R1. apply Forall2_app; [exact R2|]. constructor; [|constructor]. apply R4.
                cbn [covers]. repeat split; try zz; auto.
             ++ rewrite concat_app, R3. cbn [concat]. rewrite app_nil_r, app_assoc. reflexivity.
          -- exists before, r, bss, (part ++ [(q_addr q, q_cur q)]). split; [exact R1|]. split; [exact R2|].
             split; [rewrite R3, app_assoc; reflexivity|].
             intros t Ht. rewrite <- app_assoc. apply R4. cbn [app covers].
             replace (q_cur q + q_size q - q_cur q) with (q_size q) by zz. auto.
        * unfold rq_burst, pend. rewrite Ev', Ech, Ecl. unfold ch_free in Efree.
          replace (q_cur q - 1 + 1) with (q_cur q) by zz.
          destruct (q_valid q); cbn in Efree |- *; [|reflexivity]. rewrite orb_false_r in Efree. rewrite Efree. reflexivity.
      + (* waiting *)
        assert (E : step q i = mkRq true false true (q_cont q) (q_addr q) (q_size q) (q_cur q)
                      (q_valid q && negb (i_ready i)) (q_chaddr q) (q_chlen q)).
        { unfold rq_step. rewrite Eload, Ei, Echk, Etk, Est, Es, Eb. cbn [andb negb].
          destruct (q_valid q && negb (i_ready i)); reflexivity. }
        rewrite E. rewrite !app_nil_r. split; [|split].
        * constructor.
          -- cbn. repeat split; try discriminate; auto.
          -- intros a n Hrest. apply Hr. unfold rest in *. rewrite Est. exact Hrest.
          -- intros _. cbn. auto.
          -- cbn. intros Hv. apply Hl. destruct (q_valid q); [reflexivity|discriminate].
        * unfold inv, rest. cbn [q_state q_addr q_cur q_size]. exists before, r, bss, part. auto.
        * unfold rq_burst, pend. cbn [q_valid q_chaddr q_chlen]. destruct (q_valid q), (i_ready i); reflexivity.
    - (* state 0 *)
      assert (Eiss : issue write q i = false) by (unfold issue; rewrite Est; reflexivity).
      assert (Eload : ch_load write q i = false) by (unfold ch_load; rewrite Eiss; reflexivity).
      rewrite Eload, !app_nil_r.
      assert (Hburst : rq_burst q i ++ pend (step q i) = pend q).
      { unfold rq_burst, pend. cbn [rq_step q_valid q_chaddr q_chlen]. rewrite Eload, Eiss.
        destruct (q_valid q), (i_ready i); reflexivity. }
      assert (Hlen : q_valid (step q i) = true -> 0 <= q_chlen (step q i) < 256).
      { cbn [rq_step q_valid q_chlen]. rewrite Eload, Eiss. intros H. apply Hl. destruct (q_valid q); [reflexivity|discriminate]. }
      assert (Hinv0 := Hinv). unfold inv, rest in Hinv. rewrite Est in Hinv.
      destruct (q_start q || q_cont q) eqn:Esc.
      + (* a request is waiting to be split *)
        destruct (Hr (q_addr q) (q_size q)) as ((k & Hk) & Hr1 & Hr2 & Hr3); [unfold rest; rewrite Est, Esc; reflexivity|].
        destruct Hinv as (before & r & bss & part & R1 & R2 & R3 & R4).
        assert (Etk : take q i = None).
        { unfold take, req_idle. destruct (q_start q) eqn:E1; [reflexivity|]. cbn in Esc.
          destruct (F3 eq_refl Esc) as [_ E2]. rewrite E2. reflexivity. }
        assert (Etaken : rq_taken q i = []) by (unfold rq_taken; rewrite Etk; reflexivity).
        rewrite Etaken, app_nil_r.
        destruct (split_ok aw s Haw Hs (q_addr q) k (q_size q) Hk Hr1 Hr2 Hr3) as (c & Hck & Hc1 & Hc2 & Hc3).
        fold B in Hc3.
        destruct (check_cond q i) eqn:Echk.
        * assert (Efull : i_full i = false).
          { unfold check_cond in Echk. destruct (i_full i); [|reflexivity]. rewrite andb_false_r in Echk. discriminate. }
          assert (Ebusy : q_busy (step q i) = true).
          { cbn [rq_step q_busy]. rewrite Eiss, Est. cbn [andb negb]. destruct (q_start q) eqn:E1; [reflexivity|].
            cbn in Esc. apply (F3 eq_refl Esc). }
          assert (E1 : q_state (step q i) = true) by (cbn [rq_step q_state]; rewrite Est; exact Echk).
          assert (E2 : q_start (step q i) = false) by (cbn [rq_step q_start]; rewrite Efull, Etk, andb_false_r; reflexivity).
          assert (E3 : q_addr (step q i) = q_addr q) by (cbn [rq_step q_addr]; rewrite Eiss, Etk; reflexivity).
          assert (E4 : q_size (step q i) = q_size q - c) by (cbn [rq_step q_size]; rewrite Echk, Hck; reflexivity).
          assert (E5 : q_cur (step q i) = c) by (cbn [rq_step q_cur]; rewrite Echk, Hck; reflexivity).
          assert (Erest : rest (step q i) = Some (q_addr q, q_size q)).
          { unfold rest. rewrite E1, E3, E4, E5. f_equal. f_equal. zz. }
          split; [|split; [|exact Hburst]].
          -- constructor; [|..|exact Hlen].
             ++ rewrite E1, E2, Ebusy. repeat split; try discriminate; auto.
             ++ intros a n Hx. rewrite Erest in Hx. inversion Hx; subst. repeat split; eauto.
             ++ intros _. rewrite E3, E4, E5. repeat split; try zz. exact Hc3.
          -- unfold inv. rewrite Erest. exists before, r, bss, part. auto.
        * (* queue almost full: wait *)
          assert (Efull : i_full i = true).
          { unfold check_cond in Echk. rewrite Est, Esc in Echk. destruct (i_full i); [reflexivity|discriminate]. }
          assert (E1 : q_state (step q i) = false) by (cbn [rq_step q_state]; rewrite Est; exact Echk).
          assert (E2 : q_start (step q i) = q_start q).
          { cbn [rq_step q_start]. rewrite Efull, Etk, andb_true_r. destruct (q_start q); reflexivity. }
          assert (E3 : q_addr (step q i) = q_addr q) by (cbn [rq_step q_addr]; rewrite Eiss, Etk; reflexivity).
          assert (E4 : q_size (step q i) = q_size q) by (cbn [rq_step q_size]; rewrite Echk, Etk; reflexivity).
          assert (E5 : q_cont (step q i) = q_cont q) by (cbn [rq_step q_cont]; rewrite Eiss; reflexivity).
          assert (Ebusy : q_busy (step q i) = true).
          { cbn [rq_step q_busy]. rewrite Eiss, Est. cbn [andb negb]. destruct (q_start q) eqn:Ex; [reflexivity|].
            cbn in Esc. apply (F3 eq_refl Esc). }
          assert (Erest : rest (step q i) = rest q) by (unfold rest; rewrite E1, E2, E3, E4, E5, Est; reflexivity).
          split; [|split; [|exact Hburst]].
          -- constructor; [|..|exact Hlen].
             ++ rewrite E1, E2, E5, Ebusy. repeat split; try discriminate; auto.
                all: apply (F3 eq_refl); assumption.
             ++ intros a n Hx. rewrite Erest in Hx. apply Hr, Hx.
             ++ rewrite E1. discriminate.
          -- unfold inv in *. rewrite Erest. exact Hinv0.
      + (* idle *)
        apply orb_false_iff in Esc. destruct Esc as [Es Eco].
        assert (Eb : q_busy q = false).
        { destruct (q_busy q); [|reflexivity]. specialize (F4 eq_refl eq_refl). discriminate. }
        assert (Eid : req_idle q = true) by (unfold req_idle; rewrite Es, Eb; reflexivity).
        assert (Echk : check_cond q i = false) by (unfold check_cond; rewrite Es, Eco, andb_false_r; reflexivity).
        assert (E1 : q_state (step q i) = false) by (cbn [rq_step q_state]; rewrite Est; exact Echk).
        assert (E5 : q_cont (step q i) = false) by (cbn [rq_step q_cont]; rewrite Eiss; exact Eco).
        assert (Ebusy : q_busy (step q i) = false).
        { cbn [rq_step q_busy]. rewrite Eiss, Est, Es, Eb. reflexivity. }
        assert (E2 : q_start (step q i) = match take q i with Some _ => true | None => false end)
          by (cbn [rq_step q_start]; rewrite Es; reflexivity).
        destruct Hinv as (bss & R2 & R3).
        destruct (take q i) as [[a n]|] eqn:Etk.
        * destruct (Hreq _ eq_refl) as (Ha & Hn & Hlim). cbn [fst snd] in *.
          assert (Hround : mask_addr aw s a = a / B * B) by (apply mask_round; assumption).
          pose proof (Z.mul_div_le a B HB). pose proof (Z.div_pos a B (proj1 Ha) HB).
          assert (E3 : q_addr (step q i) = a / B * B) by (cbn [rq_step q_addr]; rewrite Eiss, Etk; exact Hround).
          assert (E4 : q_size (step q i) = n).
          { cbn [rq_step q_size]. rewrite Echk, Etk. apply Z.mod_small. rewrite Z.pow_add_r by zz. zz. }
          assert (Erest : rest (step q i) = Some (a / B * B, n)) by (unfold rest; rewrite E1, E2, E3, E4; reflexivity).
          assert (Etaken : rq_taken q i = [(a, n)]) by (unfold rq_taken; rewrite Etk; reflexivity).
          split; [|split; [|exact Hburst]].
          -- constructor; [|..|exact Hlen].
             ++ rewrite E1, E2, E5, Ebusy. repeat split; try discriminate; auto.
             ++ intros a0 n0 Hx. rewrite Erest in Hx. inversion Hx; subst. repeat split; try zz. eauto.
             ++ rewrite E1. discriminate.
          -- unfold inv. rewrite Erest, Etaken. exists reqs, (a, n), bss, []. rewrite app_nil_r. auto.
        * assert (Erest : rest (step q i) = None) by (unfold rest; rewrite E1, E2, E5; reflexivity).
          assert (Etaken : rq_taken q i = []) by (unfold rq_taken; rewrite Etk; reflexivity).
          split; [|split; [|exact Hburst]].
          -- constructor; [|..|exact Hlen].
             ++ rewrite E1, E2, E5, Ebusy. repeat split; try discriminate; auto.
             ++ intros a0 n0 Hx. rewrite Erest in Hx. discriminate.
             ++ rewrite E1. discriminate.
          -- unfold inv. rewrite Erest, Etaken, app_nil_r. exists bss. auto.
  Qed.

  Lemma run_inv ins : forall q reqs iss, Ok q -> inv q reqs iss ->
    Forall (reasonable aw B) (taken write aw s q ins) ->
    exists more, Ok (rq_run write aw s q ins) /\
      inv (rq_run write aw s q ins) (reqs ++ taken write aw s q ins) (iss ++ more) /\
      bursts write aw s q ins ++ pend (rq_run write aw s q ins) = pend q ++ more.
  Proof.
    induction ins as [|i ins IH]; intros q reqs iss HO HI Hr.
    - exists []. cbn. rewrite !app_nil_r. auto.
    - unfold taken in Hr. cbn [outs concat] in Hr. apply Forall_app in Hr. destruct Hr as [Hr1 Hr2].
      destruct (Ok_step q i reqs iss HO HI) as (A1 & A2 & A3).
      { intros r Hr. unfold rq_taken in Hr1. rewrite Hr in Hr1. exact (Forall_inv Hr1). }
      destruct (IH _ _ _ A1 A2 Hr2) as (more & B1 & B2 & B3).
      exists ((if ch_load write q i then [(q_addr q, q_cur q)] else []) ++ more).
      unfold rq_run, taken, bursts in *. cbn [outs concat final fold_left] in *. split; [exact B1|]. split.
      + rewrite !app_assoc. exact B2.
      + unfold final in *. rewrite <- app_assoc, B3, !app_assoc, A3. reflexivity.
  Qed.

  Theorem bursts_cover ins : Forall (reasonable aw B) (taken write aw s rq_init ins) ->
    exists bss todo, Forall2 (wanted_bursts B) (taken write aw s rq_init ins) bss /\
      bursts write aw s rq_init ins ++ todo = concat bss /\
      (req_idle (rq_run write aw s rq_init ins) = true -> q_valid (rq_run write aw s rq_init ins) = false -> todo = []).
  Proof.
    intros Hr. destruct (run_inv ins rq_init [] [] Ok_init) as (more & A1 & A2 & A3);
      [exists []; split; [constructor|reflexivity]|exact Hr|].
    set (q := rq_run write aw s rq_init ins) in *. cbn [app pend rq_init q_valid] in A2, A3.
    unfold inv in A2. destruct (rest q) as [[a n]|] eqn:Er.
    - destruct A2 as (before & r & bss & part & R1 & R2 & R3 & R4).
      destruct (ok_rest q A1 a n Er) as ((k & Hk) & H1 & H2 & H3).
      destruct (plan_exists aw s Haw Hs (Z.to_nat n) n a k ltac:(lia) ltac:(lia) Hk H1 H3) as [t Ht].
      exists (bss ++ [part ++ t]), (pend q ++ t). split; [rewrite R1; apply Forall2_app; [exact R2|]; constructor; [apply R4, Ht|constructor]|].
      split; [rewrite app_assoc, A3, R3, concat_app; cbn [concat]; rewrite app_nil_r, app_assoc; reflexivity|].
      intros Hi _. rewrite (req_idle_rest q A1 Hi) in Er. discriminate.
    - destruct A2 as (bss & R2 & R3). exists bss, (pend q). split; [exact R2|]. split; [rewrite A3; exact R3|].
      intros _ Hv. unfold pend. rewrite Hv. reflexivity.
  Qed.

  (** ** Liveness *)
  Definition measure (q : rq) : Z :=
    b2z (q_valid q) +
    (if q_state q then 2 + 3 * q_size q else if q_start q || q_cont q then 3 * q_size q else 0).

  Lemma measure_step q i : Ok q -> no_request i ->
    0 <= measure q /\ measure (step q i) <= measure q /\
    (good i = true -> 0 < measure q -> measure (step q i) < measure q).
  Proof.
    intros HOk Hno. pose proof HOk as [Hf Hr Hc Hl]. destruct Hf as (F1 & F2 & F3 & F4).
    assert (Etk : take q i = None) by (unfold take; rewrite Hno; destruct (req_idle q); reflexivity).
    unfold measure. destruct (q_state q) eqn:Est.
    - destruct (F1 eq_refl) as [Es Eb]. destruct (Hc eq_refl) as (Hc1 & Hc2 & Hc3).
      assert (Echk : check_cond q i = false) by (unfold check_cond; rewrite Est; reflexivity).
      assert (Eload : ch_load write q i = issue write q i).
      { unfold ch_load. destruct (issue write q i); [|reflexivity]. destruct write; [|reflexivity].
        replace (q_cur q =? 0) with false by lia. reflexivity. }
      cbn [rq_step q_valid q_state q_start q_cont q_size]. rewrite Est, Es, Echk, Etk, Eload. cbn [andb orb].
      destruct (issue write q i) eqn:Ei; cbn [negb andb].
      + assert (Hv : q_valid q && negb (i_ready i) = false).
        { unfold issue, ch_free in Ei. destruct (q_valid q), (i_ready i); try reflexivity. destruct (q_state q); discriminate. }
        rewrite Hv. destruct (q_size q =? 0) eqn:E0; destruct (q_valid q); cbn [b2z andb negb]; repeat split; intros; zz.
      + assert (Hg : good i = false).
        { unfold issue, ch_free in Ei. rewrite Est in Ei. unfold good.
          destruct (i_ready i); [|reflexivity]. cbn in Ei |- *. destruct write; [|discriminate]. exact Ei. }
        rewrite Hg. destruct (q_valid q), (i_ready i); cbn [b2z andb negb]; repeat split; intros; try discriminate; zz.
    - assert (Eiss : issue write q i = false) by (unfold issue; rewrite Est; reflexivity).
      assert (Eload : ch_load write q i = false) by (unfold ch_load; rewrite Eiss; reflexivity).
      destruct (q_start q || q_cont q) eqn:Esc.
      + destruct (Hr (q_addr q) (q_size q)) as ((k & Hk) & Hr1 & Hr2 & Hr3); [unfold rest; rewrite Est, Esc; reflexivity|].
        destruct (split_ok aw s Haw Hs (q_addr q) k (q_size q) Hk Hr1 Hr2 Hr3) as (c & Hck & Hc1 & Hc2 & Hc3).
        cbn [rq_step q_valid q_state q_start q_cont q_size]. rewrite Est, Etk, Eload, Eiss. cbn [andb].
        destruct (check_cond q i) eqn:Echk.
        * rewrite Hck. cbn [snd]. destruct (q_valid q), (i_ready i); cbn [b2z andb negb]; repeat split; intros; zz.
        * assert (Efull : i_full i = true).
          { unfold check_cond in Echk. rewrite Est, Esc in Echk. destruct (i_full i); [reflexivity|discriminate]. }
          assert (Hg : good i = false) by (unfold good; rewrite Efull, andb_false_r; reflexivity).
          rewrite Efull, Hg, andb_true_r. replace ((if q_start q then true else false) || q_cont q) with true
            by (destruct (q_start q); [reflexivity|symmetry; exact Esc]).
          destruct (q_valid q), (i_ready i); cbn [b2z andb negb]; repeat split; intros; try discriminate; zz.
      + assert (Echk : check_cond q i = false) by (unfold check_cond; rewrite Esc, andb_false_r; reflexivity).
        apply orb_false_iff in Esc. destruct Esc as [Es Eco].
        cbn [rq_step q_valid q_state q_start q_cont q_size]. rewrite Est, Es, Eco, Echk, Etk, Eload, Eiss.
        unfold good. destruct (q_valid q), (i_ready i); cbn [b2z andb negb]; repeat split; intros; try discriminate; zz.
  Qed.

  Lemma measure_zero q : Ok q -> measure q <= 0 -> req_idle q = true /\ q_valid q = false.
  Proof.
    intros HOk Hm. pose proof HOk as [Hf Hr Hc Hl].
    assert (Hrest : rest q = None).
    { unfold measure in Hm. unfold rest. destruct (q_state q) eqn:Est.
      - destruct (Hc eq_refl) as (_ & H & _). destruct (q_valid q); cbn [b2z] in Hm; lia.
      - destruct (q_start q || q_cont q) eqn:Esc; [|reflexivity].
        destruct (Hr (q_addr q) (q_size q)) as (_ & _ & H & _); [unfold rest; rewrite Est, Esc; reflexivity|].
        destruct (q_valid q); cbn [b2z] in Hm; lia. }
    split; [apply rest_none_idle; assumption|].
    unfold measure in Hm. unfold rest in Hrest. destruct (q_state q); [discriminate|].
    destruct (q_start q || q_cont q); [discriminate|]. destruct (q_valid q); [cbn [b2z] in Hm; lia|reflexivity].
  Qed.

  Lemma taken_none ins : forall q, Forall no_request ins -> taken write aw s q ins = [].
  Proof.
    induction ins as [|i ins IH]; intros q H; [reflexivity|]. unfold taken in *. cbn [outs concat].
    rewrite (IH _ (Forall_inv_tail H)), app_nil_r. unfold rq_taken, take. rewrite (Forall_inv H). destruct (req_idle q); reflexivity.
  Qed.

  Lemma count_nonneg l : 0 <= count l.
  Proof. induction l as [|b l IH]; [cbn; lia|]. change (count (b :: l)) with (b2z b + count l). destruct b; cbn [b2z]; lia. Qed.

  Lemma run_measure ins : forall q reqs iss, Ok q -> inv q reqs iss -> Forall no_request ins ->
    measure (rq_run write aw s q ins) <= Z.max 0 (measure q - count (map good ins)).
  Proof.
    induction ins as [|i ins IH]; intros q reqs iss HO HI Hn.
    - cbn. lia.
    - pose proof (Forall_inv Hn) as Hi. destruct (measure_step q i HO Hi) as (M0 & M1 & M2).
      destruct (Ok_step q i reqs iss HO HI) as (A1 & A2 & A3).
      { intros r Hr. unfold take in Hr. rewrite Hi in Hr. destruct (req_idle q); discriminate. }
      specialize (IH _ _ _ A1 A2 (Forall_inv_tail Hn)). unfold rq_run, final in *. cbn [fold_left].
      pose proof (count_nonneg (map good ins)). unfold count in *. cbn [map fold_right] in *.
      destruct (good i); cbn [b2z] in *; [|lia].
      destruct (Z.eq_dec (measure q) 0) as [E|E]; [lia|]. specialize (M2 eq_refl ltac:(lia)). lia.
  Qed.

  Lemma words_cons r l : words (r :: l) = snd r + words l.
  Proof. reflexivity. Qed.
  Lemma words_app a b : words (a ++ b) = words a + words b.
  Proof. induction a as [|x a IH]; [reflexivity|]. cbn [app]. rewrite !words_cons, IH. lia. Qed.
  Lemma covers_sum bs : forall a n, covers B a n bs -> words bs = n.
  Proof.
    induction bs as [|[a' l] bs IH]; intros a n H; [cbn in *; lia|]. destruct H as (_ & _ & _ & H).
    apply IH in H. rewrite words_cons. cbn [snd]. lia.
  Qed.
  Lemma plans_sum reqs bss : Forall2 (wanted_bursts B) reqs bss -> words (concat bss) = words reqs.
  Proof. induction 1 as [|r bs reqs bss H _ IH]; [reflexivity|]. cbn [concat]. rewrite words_app, words_cons, IH, (covers_sum _ _ _ H). reflexivity. Qed.

  Lemma words_nonneg l : Forall (fun r => 0 <= snd r) l -> 0 <= words l.
  Proof. induction 1 as [|r l H _ IH]; [reflexivity|]. rewrite words_cons. lia. Qed.
  Lemma covers_pos bs : forall a n, covers B a n bs -> Forall (fun r => 0 <= snd r) bs.
  Proof. induction bs as [|[a' l] bs IH]; intros a n H; constructor; cbn in *; [lia|]. destruct H as (_ & _ & _ & H). eapply IH; eauto. Qed.
  Lemma plans_pos reqs bss : Forall2 (wanted_bursts B) reqs bss -> Forall (fun r => 0 <= snd r) (concat bss).
  Proof. induction 1 as [|r bs reqs bss H _ IH]; [constructor|]. cbn [concat]. apply Forall_app. split; [eapply covers_pos; eauto|exact IH]. Qed.

  Lemma measure_bound q reqs iss : Ok q -> inv q reqs iss -> measure q <= 3 * words reqs + 1.
  Proof.
    intros HO HI. pose proof HO as [Hf Hr Hc Hl]. unfold measure.
    assert (Hw : match rest q with Some (_, n) => n <= words reqs | None => 0 <= words reqs end).
    { unfold inv in HI. destruct (rest q) as [[a n]|] eqn:Er.
      - destruct HI as (before & r & bss & part & R1 & R2 & R3 & R4). rewrite R1, words_app.
        destruct (Hr a n eq_refl) as ((k & Hk) & H1 & H2 & H3).
        destruct (plan_exists aw s Haw Hs (Z.to_nat n) n a k ltac:(lia) ltac:(lia) Hk H1 H3) as [t Ht].
        pose proof (covers_sum _ _ _ Ht) as St. specialize (R4 t Ht). pose proof (covers_sum _ _ _ R4) as Sr.
        pose proof (covers_pos _ _ _ R4) as P. apply Forall_app in P. destruct P as [P _]. apply words_nonneg in P.
        rewrite words_app in Sr. rewrite <- (plans_sum _ _ R2). pose proof (words_nonneg _ (plans_pos _ _ R2)).
        rewrite words_cons. change (words []) with 0. lia.
      - destruct HI as (bss & R2 & _). rewrite <- (plans_sum _ _ R2). apply words_nonneg, (plans_pos _ _ R2). }
    unfold rest in Hw. destruct (q_state q) eqn:Est.
    - destruct (Hc eq_refl) as (H1 & H2 & _). destruct (q_valid q); cbn [b2z]; lia.
    - destruct (q_start q || q_cont q); destruct (q_valid q); cbn [b2z]; lia.
  Qed.

  Theorem bursts_finish ins more : Forall (reasonable aw B) (taken write aw s rq_init ins) ->
    Forall no_request more ->
    3 * words (taken write aw s rq_init ins) + 1 <= count (map good more) ->
    let q := rq_run write aw s rq_init (ins ++ more) in
    req_idle q = true /\ q_valid q = false.
  Proof.
    intros Hr Hn Hg q.
    assert (Eq : q = rq_run write aw s (rq_run write aw s rq_init ins) more)
      by (unfold q, rq_run, final; apply fold_left_app).
    destruct (run_inv ins rq_init [] [] Ok_init) as (m & A1 & A2 & A3);
      [exists []; split; [constructor|reflexivity]|exact Hr|].
    cbn [app] in A2. pose proof (run_measure more _ _ _ A1 A2 Hn) as Hm. pose proof (measure_bound _ _ _ A1 A2) as Hb.
    destruct (run_inv more _ _ _ A1 A2) as (m2 & B1 & B2 & B3); [rewrite taken_none by exact Hn; constructor|].
    rewrite Eq. apply measure_zero; [exact B1|]. lia.
  Qed.
End Run.

(** ** Burst sizes in the write queue *)
Section Queue.
  Variables aw s : Z.
  Hypothesis Haw : 0 <= aw.
  Hypothesis Hs : 0 <= s <= 12.
  Lemma queued_step q i : Ok aw s q ->
    flat_map (fun x => match x with Some z => [z] | None => [] end) (rq_enq true q i) =
    map snd (if ch_load true q i then [(q_addr q, q_cur q)] else []).
  Proof.
    intros HO. unfold rq_enq. rewrite flat_map_app.
    replace (flat_map _ (if negb (q_state q) && q_start q && negb (i_full i) then [None] else [])) with (@nil Z)
      by (destruct (_ && _ && _); reflexivity).
    cbn [andb app]. unfold ch_load. destruct (issue true q i) eqn:E; [|reflexivity]. cbn [andb].
    destruct (ok_cur aw s q HO) as [H _]; [unfold issue in E; destruct (q_state q); [reflexivity|discriminate]|].
    replace (q_cur q =? 0) with false; [reflexivity|]. symmetry. apply Z.eqb_neq. lia.
  Qed.
  Lemma queued_run ins : forall q reqs iss, Ok aw s q -> inv s q reqs iss ->
    Forall (reasonable aw (2 ^ s)) (taken true aw s q ins) ->
    map snd (pend q) ++ queued true aw s q ins =
    map snd (bursts true aw s q ins) ++ map snd (pend (rq_run true aw s q ins)).
  Proof.
    induction ins as [|i ins IH]; intros q reqs iss HO HI Hr.
    - cbn. rewrite app_nil_r. reflexivity.
    - unfold taken in Hr. cbn [outs concat] in Hr. apply Forall_app in Hr. destruct Hr as [Hr1 Hr2].
      destruct (Ok_step true aw s Haw Hs q i reqs iss HO HI) as (A1 & A2 & A3).
      { intros r Hr. unfold rq_taken in Hr1. rewrite Hr in Hr1. exact (Forall_inv Hr1). }
      specialize (IH _ _ _ A1 A2 Hr2). unfold queued, bursts, rq_run, final in *. cbn [outs concat fold_left].
      rewrite flat_map_app, (queued_step q i HO), map_app, app_assoc, <- map_app, <- A3, map_app, <- !app_assoc.
      f_equal. exact IH.
  Qed.
End Queue.

(** ** Outstanding writes *)
Section Count.
  Variable w : Z.
  Hypothesis Hw : 2 <= w.
  Lemma cap : 4 <= 2 ^ w.
  Proof. change 4 with (2 ^ 2). apply Z.pow_le_mono_r; lia. Qed.

  Lemma wcount_exact c (a b : bool) : 0 <= c -> (a = true -> c < 2 ^ w - 1) -> c < 2 ^ w -> (b = true -> 0 < c) ->
    wcount_step w c a b = c + b2z a - b2z b.
  Proof.
    intros H0 Ha Hc Hb. unfold wcount_step. destruct a, b; cbn [andb negb b2z].
    - lia.
    - specialize (Ha eq_refl). replace (c <? 2 ^ w - 1) with true by lia. rewrite Z.mod_small; lia.
    - specialize (Hb eq_refl). replace (0 <? c) with true by lia. rewrite Z.mod_small; lia.
    - lia.
  Qed.

  Variable wd : var -> Z.
  Hypothesis Hwv : wd vld = 1.
  Hypothesis Hwc : forall k i, wd (CondR k i) = 1.
  Variables P C : list var.
  Hypothesis HCP : incl C P.
  Hypothesis HvP : ~ In vld P.
  Hypothesis HcP : forall k i, ~ In (CondR k i) P.
  Hypothesis HPown : forall v, In v P -> own v = true.
  Variable ss : list gsite.
  Hypothesis Hss : Forall (pay_ok P) ss.
  Hypothesis Hacc : Forall (fun g => g_acc g = Some (acceptable_expr w)) ss.
  Let code := gcode C ss.

  Lemma valid_next e c : armed wd C ss e -> e cnt_var = c ->
    truth (tick (fitw wd) code e vld) = true ->
    truth (e vld) && negb (truth (e rdy)) = true \/ c < 2 ^ w - 2.
  Proof.
    intros Ha Hc Hv. destruct (truth (e vld) && negb (truth (e rdy))) eqn:E; [left; reflexivity|right].
    pose proof (step_free wd Hwv Hwc P C HCP HvP HcP ss e Hss Ha E) as H. cbv zeta in H. fold code in H.
    destruct (last_active e ss) as [g|] eqn:El; [|rewrite H in Hv; discriminate].
    destruct (last_active_spec _ _ _ El) as [Hin Hact]. rewrite Forall_forall in Hacc.
    unfold active in Hact. rewrite (Hacc _ Hin) in Hact. apply andb_true_iff in Hact. destruct Hact as [_ Hact].
    unfold acceptable_expr in Hact. cbn [eval sem_bin] in Hact. rewrite truth_b2z, Hc in Hact. lia.
  Qed.

  Lemma count_run ins : forall s c,
    armed wd C ss s -> 0 <= c -> c + b2z (truth (s vld)) <= 2 ^ w - 1 ->
    let t := chan_trace wd code s (with_count w wd code s c ins) in
    let s' := chan_final wd code s (with_count w wd code s c ins) in
    answers_only_requests c (map (fun e => (aw_hs e, b_hs e)) t) ->
    count_after w c t = c + count (map aw_hs t) - count (map b_hs t) /\
    0 <= count_after w c t /\ count_after w c t + b2z (truth (s' vld)) <= 2 ^ w - 1.
  Proof.
    pose proof cap as Hcap.
    induction ins as [|i ins IH]; intros s c Ha H0 Hb t s' Hans.
    - cbn. split; [lia|]. split; [exact H0|exact Hb].
    - unfold t, s' in *. cbn [with_count] in *. set (i' := vset i cnt_var c) in *.
      set (e := drive s i') in *.
      assert (Ee : e cnt_var = c) by reflexivity.
      assert (Hae : armed wd C ss e) by (apply (armed_drive wd P C HCP HPown); exact Ha).
      assert (Evld : e vld = s vld) by (apply drive_own; reflexivity).
      unfold chan_trace in *. cbn [outs] in *. fold e in Hans |- *. cbn [map answers_only_requests] in Hans.
      destruct Hans as [Hans1 Hans2].
      assert (Hstep : wcount_step w c (aw_hs e) (b_hs e) = c + b2z (aw_hs e) - b2z (b_hs e)).
      { apply wcount_exact; [exact H0| |destruct (truth (s vld)); cbn in Hb; lia|exact Hans1].
        unfold aw_hs. rewrite Evld. destruct (truth (s vld)); cbn in Hb |- *; [lia|discriminate]. }
      unfold chan_final, final in *. cbn [fold_left] in *.
      assert (Hnext : chan_next wd code s i' = tick (fitw wd) code e) by reflexivity.
      rewrite Hnext in *. rewrite Hstep in *.
      specialize (IH (tick (fitw wd) code e) (c + b2z (aw_hs e) - b2z (b_hs e))).
      destruct IH as (I1 & I2 & I3).
      + apply (step_armed wd Hwc P C HCP HcP); assumption.
      + destruct (b_hs e) eqn:E; [specialize (Hans1 eq_refl)|]; destruct (aw_hs e); cbn [b2z]; lia.
      + destruct (truth (tick (fitw wd) code e vld)) eqn:Ev.
        * destruct (valid_next e c Hae Ee Ev) as [Hst|Hlt].
          -- apply andb_true_iff in Hst. destruct Hst as [Hst1 Hst2]. unfold aw_hs. rewrite Hst1. rewrite Evld in Hst1. rewrite Hst1 in Hb.
             destruct (truth (e rdy)); [discriminate|]. cbn [andb b2z] in *. destruct (b_hs e); cbn [b2z]; lia.
          -- destruct (aw_hs e), (b_hs e); cbn [b2z]; lia.
        * unfold aw_hs. rewrite Evld. destruct (truth (s vld)); cbn [andb b2z] in *; [|destruct (b_hs e); cbn [b2z]; lia].
          destruct (truth (e rdy)), (b_hs e); cbn [b2z]; lia.
      + exact Hans2.
      + unfold count_after in *. cbn [fold_left map count fold_right]. rewrite Hstep. split; [|split; assumption].
        rewrite I1. unfold count. cbn [fold_right]. lia.
  Qed.
End Count.

(** ** Request words *)
Lemma pyslice_eq x a b : pyslice x a b = slice x (b - 1) a.
Proof. reflexivity. Qed.
Theorem pack_unpack ow aw d : 0 <= ow -> 0 <= aw -> fits ow aw d -> unpack_req ow aw (pack_req ow aw d) = d.
Proof.
  intros Ho Ha (F1 & F2 & F3 & F4 & F5).
  pose proof (unpack_cat [(ow, d_op d); (aw, d_addr d); (aw, d_stride d); (aw + 1, d_size d); (aw, d_block d)]) as H.
  fold (pack_req ow aw d) in H. set (x := pack_req ow aw d) in *. clearbody x.
  cbn [map fst snd total_width fold_right unpack_from] in H.
  specialize (H ltac:(repeat constructor; cbn; lia)).
  inversion H as [[H1 H2 H3 H4 H5]]. clear H. unfold unpack_req, pyslice.
  replace (slice x (aw * 4 + 1 + ow - 1) (aw * 4 + 1)) with (d_op d mod 2 ^ ow) by (rewrite <- H1; f_equal; lia).
  replace (slice x (aw * 3 + 1 + aw - 1) (aw * 3 + 1)) with (d_addr d mod 2 ^ aw) by (rewrite <- H2; f_equal; lia).
  replace (slice x (aw * 2 + 1 + aw - 1) (aw * 2 + 1)) with (d_stride d mod 2 ^ aw) by (rewrite <- H3; f_equal; lia).
  replace (slice x (aw * 2 + 1 - 1) aw) with (d_size d mod 2 ^ (aw + 1)) by (rewrite <- H4; f_equal; lia).
  replace (slice x (aw - 1) 0) with (d_block d mod 2 ^ aw) by (rewrite <- H5; f_equal; lia).
  rewrite !Z.mod_small by assumption. destruct d; reflexivity.
Qed.

(** ** Sizes *)
Theorem global_size_spec r n : 0 <= n ->
  (forall k, r = Narrow k -> 0 <= k -> global_size r n = n * 2 ^ k) /\
  (forall k, r = Wide k -> 0 <= k -> n <= global_size r n * 2 ^ k < n + 2 ^ k).
Proof.
  intros Hn. split; intros k -> Hk; unfold global_size.
  - apply Z.shiftl_mul_pow2, Hk.
  - assert (0 < 2 ^ k) by (apply Z.pow_pos_nonneg; lia).
    rewrite Z.shiftr_div_pow2 by lia. replace (2 ^ k - 1) with (Z.ones k) by (rewrite Z.ones_equiv; lia).
    rewrite Z.land_ones by lia. pose proof (Z.div_mod n (2 ^ k) ltac:(lia)). pose proof (Z.mod_pos_bound n (2 ^ k) ltac:(lia)).
    destruct (0 <? n mod 2 ^ k) eqn:E; nia.
Qed.
