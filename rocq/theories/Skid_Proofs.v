From Verif Require Import Base Skid_Model Skid_Spec.

Section P.
  Context {A : Type}.
  Implicit Types (b : sb A) (bs : list (sb A)).

  (** contents of one buffer, oldest first *)
  Definition held b : list A :=
    (if m_valid b then [m_data b] else []) ++ (if tmp_valid b then [tmp_data b] else []).
  Definition ok b : Prop := tmp_valid b = true -> m_valid b = true.

  Lemma sb_step_ok b v d r : ok b -> ok (sb_step b v d r).
  Proof.
    unfold ok, sb_step, sb_stmt1, sb_stmt2, sb_stmt3, next_valid.
    destruct b as [md mv td tv]; cbn. destruct mv, tv, v, r; cbn; intuition discriminate.
  Qed.

  Lemma sb_step_held b v d r : ok b ->
    held b ++ (if v && s_ready b then [d] else []) =
    (if m_valid b && r then [m_data b] else []) ++ held (sb_step b v d r).
  Proof.
    unfold ok, held, sb_step, sb_stmt1, sb_stmt2, sb_stmt3, next_valid, next_data, s_ready.
    destruct b as [md mv td tv]; cbn.
    destruct mv, tv, v, r; cbn; intros H; try reflexivity; try (specialize (H eq_refl); discriminate).
  Qed.

  Lemma sb_step_stable b v d : ok b -> m_valid b = true ->
    m_valid (sb_step b v d false) = true /\ m_data (sb_step b v d false) = m_data b.
  Proof.
    unfold ok, sb_step, sb_stmt1, sb_stmt2, sb_stmt3.
    destruct b as [md mv td tv]; cbn. intros _ ->. destruct tv, v; cbn; auto.
  Qed.

  Lemma sb_step_ready_free b v d : ok b -> tmp_valid b = false -> tmp_valid (sb_step b v d true) = false.
  Proof.
    unfold sb_step, sb_stmt1, sb_stmt2, sb_stmt3. destruct b as [md mv td tv]; cbn.
    intros _ ->. destruct mv; reflexivity.
  Qed.

  (** contents of a chain, oldest first: the buffer nearest the consumer holds the oldest *)
  Fixpoint cheld bs : list A :=
    match bs with [] => [] | b :: r => cheld r ++ held b end.

  Lemma chain_held bs : forall v d r, Forall ok bs ->
    cheld bs ++ (if v && chain_ready bs r then [d] else []) =
    (if fst (chain_out bs v d) && r then [snd (chain_out bs v d)] else []) ++
    cheld (chain_step bs v d r).
  Proof.
    induction bs as [|b bs IH]; intros v d r Hok; cbn [cheld chain_ready chain_out chain_step fst snd].
    - rewrite app_nil_r. reflexivity.
    - inversion Hok as [|? ? Hb Hbs]; subst.
      specialize (IH (m_valid b) (m_data b) r Hbs).
      rewrite <- app_assoc. rewrite (sb_step_held b v d (chain_ready bs r) Hb).
      rewrite !app_assoc. f_equal. exact IH.
  Qed.

  Lemma chain_ok bs : forall v d r, Forall ok bs -> Forall ok (chain_step bs v d r).
  Proof.
    induction bs as [|b bs IH]; intros v d r H; cbn [chain_step]; constructor;
      inversion H; subst; [apply sb_step_ok|apply IH]; assumption.
  Qed.

  Lemma chain_length bs : forall v d r, length (chain_step bs v d r) = length bs.
  Proof. induction bs; intros; cbn [chain_step length]; auto. Qed.

  Lemma cheld_len bs : length (cheld bs) <= 2 * length bs.
  Proof.
    induction bs as [|b bs IH]; cbn [cheld length]; [lia|].
    rewrite app_length. unfold held. destruct (m_valid b), (tmp_valid b); cbn [app length]; lia.
  Qed.

  Lemma lossless_gen ins : forall bs, Forall ok bs ->
    exists rest, cheld bs ++ taken (history bs ins) = given (history bs ins) ++ rest /\
                 length rest <= 2 * length bs.
  Proof.
    induction ins as [|i ins IH]; intros bs Hok.
    - exists (cheld bs); cbn. rewrite app_nil_r. split; [reflexivity|]. pose proof (cheld_len bs); lia.
    - destruct (IH (chain_tick bs i) (chain_ok _ _ _ _ Hok)) as [rest [E Hr]].
      exists rest. unfold history in *. cbn [outs combine taken given].
      assert (Ho : out_ready (chain_obs bs i) = chain_ready bs (in_ready i)
                /\ out_valid (chain_obs bs i) = fst (chain_out bs (in_valid i) (in_data i))
                /\ out_data (chain_obs bs i) = snd (chain_out bs (in_valid i) (in_data i)))
        by (unfold chain_obs; destruct (chain_out _ _ _); auto).
      destruct Ho as (-> & -> & ->).
      rewrite app_assoc, (chain_held bs _ _ _ Hok), <- app_assoc.
      change (chain_step bs (in_valid i) (in_data i) (in_ready i)) with (chain_tick bs i).
      rewrite E, app_assoc. split; [reflexivity|].
      unfold chain_tick in Hr; rewrite chain_length in Hr; exact Hr.
  Qed.

  Lemma init_ok z n : Forall ok (repeat (sb_init z) n : list (sb A)).
  Proof. apply Forall_forall; intros x Hx; apply repeat_spec in Hx; subst; discriminate. Qed.

  Lemma cheld_init z n : cheld (repeat (sb_init z) n) = [] :> list A.
  Proof. induction n as [|n IH]; cbn; [reflexivity|]. rewrite IH; reflexivity. Qed.

  Lemma lossless z n ins :
    exists rest : list A, taken (history (repeat (sb_init z) n) ins) =
                 given (history (repeat (sb_init z) n) ins) ++ rest /\
                 length rest <= 2 * n.
  Proof.
    destruct (lossless_gen ins _ (init_ok z n)) as [rest [E H]].
    rewrite cheld_init in E. rewrite repeat_length in H. eauto.
  Qed.

  Lemma chain_stable_step bs : forall v d v' d' r, bs <> [] -> Forall ok bs ->
    fst (chain_out bs v d) = true -> r = false ->
    fst (chain_out (chain_step bs v d r) v' d') = true /\
    snd (chain_out (chain_step bs v d r) v' d') = snd (chain_out bs v d).
  Proof.
    induction bs as [|b bs IH]; intros v d v' d' r Hne Hok Hv Hr; [congruence|].
    inversion Hok; subst. cbn [chain_out chain_step] in *.
    destruct bs as [|b2 bs].
    - cbn [chain_out chain_step chain_ready fst snd] in *.
      apply sb_step_stable; assumption.
    - apply IH; auto; discriminate.
  Qed.

  Lemma stable_gen ins : forall bs, bs <> [] -> Forall ok bs -> stable (history bs ins).
  Proof.
    induction ins as [|i ins IH]; intros bs Hne Hok; unfold history; cbn [outs combine]; [exact I|].
    assert (Hne' : chain_tick bs i <> [])
      by (unfold chain_tick; destruct bs; [congruence|discriminate]).
    specialize (IH (chain_tick bs i) Hne' (chain_ok _ _ _ _ Hok)).
    unfold history in IH.
    destruct ins as [|i2 ins]; cbn [outs combine stable]; [exact I|].
    split; [|exact IH].
    intros Hv Hr. unfold chain_obs in *.
    pose proof (chain_stable_step bs (in_valid i) (in_data i) (in_valid i2) (in_data i2) (in_ready i) Hne Hok) as P.
    unfold chain_tick.
    destruct (chain_out bs (in_valid i) (in_data i)) as [vv dd]; cbn [fst snd out_valid out_data] in *.
    destruct (chain_out (chain_step bs _ _ _) (in_valid i2) (in_data i2)) as [v2 d2];
      cbn [fst snd out_valid out_data] in *. apply P; assumption.
  Qed.

  (** Throughput: with an always-ready consumer every buffer keeps its skid register free, so the
      input is accepted in every cycle. *)
  Lemma free_step bs : forall v d, Forall ok bs -> Forall (fun b => tmp_valid b = false) bs ->
    Forall (fun b => tmp_valid b = false) (chain_step bs v d true).
  Proof.
    induction bs as [|b bs IH]; intros v d Hok Hf; cbn [chain_step]; constructor;
      pose proof (Forall_inv Hok) as Hb; pose proof (Forall_inv_tail Hok) as Hbs;
      pose proof (Forall_inv Hf) as Hfb; pose proof (Forall_inv_tail Hf) as Hfbs;
      [|apply IH; assumption].
    replace (chain_ready bs true) with true; [apply sb_step_ready_free; assumption|].
    destruct bs as [|b2 bs]; [reflexivity|]. cbn. unfold s_ready.
    pose proof (Forall_inv Hfbs) as E; cbn in E. rewrite E; reflexivity.
  Qed.

  Lemma throughput_gen ins : forall bs, Forall ok bs -> Forall (fun b => tmp_valid b = false) bs ->
    Forall (fun i => in_ready i = true) ins ->
    Forall (fun o => out_ready o = true) (outs chain_tick chain_obs bs ins).
  Proof.
    induction ins as [|i ins IH]; intros bs Hok Hf Hi; cbn [outs]; constructor;
      pose proof (Forall_inv Hi) as Hri; pose proof (Forall_inv_tail Hi) as Hris; cbn in Hri.
    - unfold chain_obs. destruct (chain_out _ _ _) as [cv cd]. cbn [out_ready].
      destruct bs as [|b bs]; [assumption|]. cbn. unfold s_ready.
      pose proof (Forall_inv Hf) as E; cbn in E. rewrite E; reflexivity.
    - apply IH; [apply chain_ok; assumption| |assumption].
      unfold chain_tick. rewrite Hri. apply free_step; assumption.
  Qed.

  Lemma throughput z n ins : Forall (fun i : sb_in A => in_ready i = true) ins ->
    Forall (fun o => out_ready o = true) (outs chain_tick chain_obs (repeat (sb_init z) n) ins).
  Proof.
    apply throughput_gen; [apply init_ok|].
    apply Forall_forall; intros x Hx; apply repeat_spec in Hx; subst; reflexivity.
  Qed.

  (** Drain: once the consumer stays ready and the producer stops, everything held comes out;
      each cycle without input strictly empties the chain from the consumer side, so after
      [2 * n] such cycles nothing is left. *)
  Definition drain (x : A) : sb_in A := mkSbIn false x true.

  (** weight: each held word counts its distance to the exit *)
  Fixpoint weight bs : nat :=
    match bs with
    | [] => 0
    | b :: r => (if m_valid b then S (length r) else 0) +
                (if tmp_valid b then S (S (length r)) else 0) + weight r
    end.
  Lemma weight0 bs : weight bs = 0 -> cheld bs = [].
  Proof.
    induction bs as [|b bs IH]; cbn [weight cheld]; intros H; [reflexivity|].
    unfold held. destruct (m_valid b), (tmp_valid b); try lia. rewrite IH by lia. reflexivity.
  Qed.

  Definition entry (c : bool) n : nat := if c then S n else 0.

  Lemma weight_step bs : forall v d r, Forall ok bs ->
    weight (chain_step bs v d r) <= weight bs + entry (v && chain_ready bs r) (length bs).
  Proof.
    induction bs as [|b bs IH]; intros v d r Hok; cbn [chain_step weight chain_ready length]; [lia|].
    inversion Hok as [|? ? Hb Hbs]; subst.
    specialize (IH (m_valid b) (m_data b) r Hbs). rewrite chain_length.
    revert IH; generalize (chain_ready bs r) as cr; intros cr IH.
    revert Hb IH; unfold ok, sb_step, sb_stmt1, sb_stmt2, sb_stmt3, next_valid, s_ready, entry.
    destruct b as [md mv td tv]; cbn.
    destruct mv, tv, v, cr; cbn; intros Hb IH; try (specialize (Hb eq_refl); discriminate); lia.
  Qed.

  Lemma weight_step_empty bs : forall v d r, Forall ok bs -> weight bs = 0 ->
    weight (chain_step bs v d r) <= if v then length bs else 0.
  Proof.
    intros v d r Hok Hw. destruct bs as [|b bs]; [cbn; lia|].
    cbn [chain_step weight] in *. inversion Hok as [|? ? Hb Hbs]; subst.
    assert (E : m_valid b = false /\ tmp_valid b = false /\ weight bs = 0)
      by (destruct (m_valid b), (tmp_valid b); split; try split; try reflexivity; lia).
    destruct E as (E1 & E2 & E3).
    pose proof (weight_step bs (m_valid b) (m_data b) r Hbs) as P.
    rewrite E1 in P; cbn in P. rewrite chain_length, E1.
    revert E1 E2; unfold sb_step, sb_stmt1, sb_stmt2, sb_stmt3, next_valid, next_data.
    destruct b as [md mv td tv]; cbn; intros -> ->. cbn.
    destruct v, (chain_ready bs r); cbn in *; lia.
  Qed.

  Lemma weight_step_strict bs : forall v d, Forall ok bs -> 0 < weight bs ->
    weight (chain_step bs v d true) < weight bs + entry (v && chain_ready bs true) (length bs).
  Proof.
    induction bs as [|b bs IH]; intros v d Hok Hw; cbn [chain_step weight chain_ready length] in *; [lia|].
    inversion Hok as [|? ? Hb Hbs]; subst.
    specialize (IH (m_valid b) (m_data b) Hbs). rewrite chain_length.
    pose proof (weight_step_empty bs (m_valid b) (m_data b) true Hbs) as P0.
    assert (Hr0 : weight bs = 0 -> chain_ready bs true = true).
    { destruct bs as [|b2 bs]; [reflexivity|]. cbn [weight chain_ready]; unfold s_ready.
      destruct (tmp_valid b2); [|reflexivity]. destruct (m_valid b2); lia. }
    revert IH Hr0; generalize (chain_ready bs true) as cr; intros cr IH Hr0.
    revert Hb IH P0 Hw; unfold ok, sb_step, sb_stmt1, sb_stmt2, sb_stmt3, next_valid, s_ready, entry.
    destruct b as [md mv td tv]; cbn.
    destruct mv, tv, v, cr; cbn; intros Hb IH P0 Hw;
      try (specialize (Hb eq_refl); discriminate);
      destruct (weight bs) as [|w] eqn:Ew; try (specialize (Hr0 eq_refl); discriminate);
      try specialize (IH ltac:(lia)); try specialize (P0 eq_refl); lia.
  Qed.

  Lemma weight_bound bs : weight bs <= length bs * (length bs + 2).
  Proof.
    induction bs as [|b bs IH]; cbn [weight length]; [lia|].
    destruct (m_valid b), (tmp_valid b); nia.
  Qed.

  Lemma drains_gen x k : forall bs, Forall ok bs -> weight bs <= k ->
    cheld (final chain_tick bs (repeat (drain x) k)) = [].
  Proof.
    induction k as [|k IH]; intros bs Hok Hw; cbn [repeat final fold_left].
    - apply weight0; lia.
    - apply IH; [apply chain_ok; assumption|].
      unfold chain_tick, drain; cbn [in_valid in_data in_ready].
      destruct (weight bs) as [|w] eqn:E.
      + pose proof (weight_step_empty bs false x true Hok E) as P; cbn in P; lia.
      + pose proof (weight_step_strict bs false x Hok ltac:(lia)) as P. cbn in P. lia.
  Qed.

  Lemma run_ok ins : forall bs, Forall ok bs -> Forall ok (final chain_tick bs ins).
  Proof. induction ins as [|i ins IH]; intros bs H; cbn; [exact H|]. apply IH, chain_ok, H. Qed.
  Lemma run_length ins : forall bs, length (final chain_tick bs ins) = length bs.
  Proof.
    induction ins as [|i ins IH]; intros bs; cbn [final fold_left]; [reflexivity|].
    unfold final in IH. rewrite IH. apply chain_length.
  Qed.

  (** exact bookkeeping: cheld of the final state is the remainder *)
  Lemma lossless_exact ins : forall bs, Forall ok bs ->
    cheld bs ++ taken (history bs ins) = given (history bs ins) ++ cheld (final chain_tick bs ins).
  Proof.
    induction ins as [|i ins IH]; intros bs Hok.
    - cbn. rewrite app_nil_r. reflexivity.
    - specialize (IH (chain_tick bs i) (chain_ok _ _ _ _ Hok)).
      unfold history in *. cbn [outs combine taken given final fold_left].
      assert (Ho : out_ready (chain_obs bs i) = chain_ready bs (in_ready i)
                /\ out_valid (chain_obs bs i) = fst (chain_out bs (in_valid i) (in_data i))
                /\ out_data (chain_obs bs i) = snd (chain_out bs (in_valid i) (in_data i)))
        by (unfold chain_obs; destruct (chain_out _ _ _); auto).
      destruct Ho as (-> & -> & ->).
      rewrite app_assoc, (chain_held bs _ _ _ Hok), <- app_assoc.
      change (chain_step bs (in_valid i) (in_data i) (in_ready i)) with (chain_tick bs i).
      rewrite IH, app_assoc. reflexivity.
  Qed.

  (** whatever happened before, n*(n+2) idle-input, ready-output cycles deliver everything *)
  Lemma drains z n ins x k : n * (n + 2) <= k ->
    taken (history (repeat (sb_init z) n) (ins ++ repeat (drain x) k)) =
    given (history (repeat (sb_init z) n) (ins ++ repeat (drain x) k)).
  Proof.
    intros Hk.
    pose proof (lossless_exact (ins ++ repeat (drain x) k) _ (init_ok z n)) as E.
    rewrite cheld_init in E. cbn [app] in E. rewrite E.
    unfold final; rewrite fold_left_app.
    change (fold_left chain_tick ins (repeat (sb_init z) n)) with
           (final chain_tick (repeat (sb_init z) n) ins).
    match goal with |- context [cheld (fold_left chain_tick ?l ?s)] =>
      change (fold_left chain_tick l s) with (final chain_tick s l) end.
    rewrite drains_gen; [rewrite app_nil_r; reflexivity| |].
    - apply run_ok, init_ok.
    - pose proof (weight_bound (final chain_tick (repeat (sb_init z) n) ins)) as P.
      rewrite run_length, repeat_length in P. lia.
  Qed.
End P.
