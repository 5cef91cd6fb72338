From Verif Require Import Base Fifo_Model Fifo_Spec Fifo_Proofs AxiMem_Proofs FifoCalls_Model FifoCalls_Spec.
Open Scope Z_scope.

(** ** The operations of a cycle *)
Definition evp (aw : Z) (f : fifo) (h : thr) : list act :=
  match h_ph h with
  | Req (Enq w) => if enq_ready aw f then [Put w true] else []
  | Req (TryEnq w) => [Put w (enq_ready aw f)]
  | _ => []
  end.
Definition evg (f : fifo) (h : thr) : list act :=
  match h_ph h with
  | Req Deq => if deq_ready f then [Get (Some (p_rdata false f))] else []
  | Req TryDeq => [Get (if deq_ready f then Some (p_rdata false f) else None)]
  | _ => []
  end.
Definition tag (g : nat -> list act) (n : nat) : list (nat * act) :=
  flat_map (fun t => map (pair t) (g t)) (seq 0 n).
Definition puts (aw : Z) (n : nat) (s : fsys) := tag (fun t => evp aw (z_fifo s) (z_thr s t)) n.
Definition gets (n : nat) (s : fsys) := tag (fun t => evg (z_fifo s) (z_thr s t)) n.
Definition lin (aw : Z) (n : nat) (s : fsys) : list (nat * act) :=
  if enq_ready aw (z_fifo s) then gets n s ++ puts aw n s else puts aw n s ++ gets n s.

Lemma tag_S g n : tag g (S n) = tag g n ++ map (pair n) (g n).
Proof. unfold tag. rewrite seq_S, flat_map_app. cbn [flat_map Nat.add]. rewrite app_nil_r. reflexivity. Qed.
Lemma of_app t a b : of_thread t (a ++ b) = of_thread t a ++ of_thread t b.
Proof. unfold of_thread. rewrite filter_app, map_app. reflexivity. Qed.
Lemma of_pair t u (l : list act) : of_thread t (map (pair u) l) = if Nat.eqb u t then l else [].
Proof.
  unfold of_thread. induction l as [|a l IH]; cbn [map filter fst]; [destruct (Nat.eqb u t); reflexivity|].
  destruct (Nat.eqb u t) eqn:E; cbn [map snd]; [rewrite IH; reflexivity|exact IH].
Qed.
Lemma of_tag t g : forall n, of_thread t (tag g n) = if Nat.ltb t n then g t else [].
Proof.
  induction n as [|n IH]; [destruct t; reflexivity|].
  rewrite tag_S, of_app, IH, of_pair.
  destruct (Nat.eqb n t) eqn:E.
  - apply Nat.eqb_eq in E. subst t. rewrite Nat.ltb_irrefl.
    replace (Nat.ltb n (S n)) with true by (symmetry; apply Nat.ltb_lt; lia). reflexivity.
  - apply Nat.eqb_neq in E. rewrite app_nil_r.
    destruct (Nat.ltb t n) eqn:A; destruct (Nat.ltb t (S n)) eqn:B; try reflexivity;
      rewrite ?Nat.ltb_lt, ?Nat.ltb_ge in A, B; lia.
Qed.
Lemma tag_nil g : forall n, (forall t, (t < n)%nat -> g t = []) -> tag g n = [].
Proof.
  induction n as [|n IH]; intros H; [reflexivity|]. rewrite tag_S, IH by (intros; apply H; lia).
  rewrite (H n) by lia. reflexivity.
Qed.
Lemma tag_one g t : forall n, (t < n)%nat -> (forall u, (u < n)%nat -> u <> t -> g u = []) ->
  tag g n = map (pair t) (g t).
Proof.
  induction n as [|n IH]; intros L H; [lia|]. rewrite tag_S.
  destruct (Nat.eq_dec t n) as [->|E].
  - rewrite tag_nil; [reflexivity|]. intros u U. apply H; lia.
  - rewrite IH by (try lia; intros; apply H; lia). rewrite (H n) by lia. cbn [map]. apply app_nil_r.
Qed.
Lemma tag_in g t a : forall n, In (t, a) (tag g n) -> (t < n)%nat /\ In a (g t).
Proof.
  induction n as [|n IH]; [intros []|]. rewrite tag_S. intros H. apply in_app_or in H as [H|H].
  - destruct (IH H). split; [lia|assumption].
  - apply in_map_iff in H as (x & E & H). injection E as <- <-. split; [lia|exact H].
Qed.

(** ** The ports under mutual exclusion *)
Lemma who (p : nat -> bool) : forall n, (forall t u, (t < u < n)%nat -> p t = false \/ p u = false) ->
  (forall t, (t < n)%nat -> p t = false) \/
  (exists t, (t < n)%nat /\ p t = true /\ forall u, (u < n)%nat -> u <> t -> p u = false).
Proof.
  induction n as [|n IH]; intros H; [left; intros; lia|].
  destruct (p n) eqn:E.
  - right. exists n. split; [lia|]. split; [exact E|]. intros u U N.
    destruct (H u n) as [X|X]; [lia|exact X|congruence].
  - destruct IH as [A|(t & T & P & A)]; [intros; apply H; lia|left|right].
    + intros t T. destruct (Nat.eq_dec t n) as [->|N]; [exact E|apply A; lia].
    + exists t. split; [lia|]. split; [exact P|]. intros u U N.
      destruct (Nat.eq_dec u n) as [->|M]; [exact E|apply A; lia].
Qed.
Lemma threads_S n s : threads (S n) s = threads n s ++ [z_thr s n].
Proof. unfold threads. rewrite seq_S, map_app. reflexivity. Qed.
Lemma mux_none aw n s : (forall t, (t < n)%nat -> enq_of (z_thr s t) = None) ->
  mux_enq aw (z_fifo s) (threads n s) = false.
Proof.
  induction n as [|n IH]; intros H; [reflexivity|]. rewrite threads_S. unfold mux_enq in *.
  rewrite fold_left_app. cbn [fold_left]. rewrite (H n) by lia. apply IH. intros; apply H; lia.
Qed.
Lemma mux_some aw w t s : forall n, (t < n)%nat -> enq_of (z_thr s t) = Some w ->
  (forall u, (u < n)%nat -> u <> t -> enq_of (z_thr s u) = None) ->
  mux_enq aw (z_fifo s) (threads n s) = enq_ready aw (z_fifo s) /\ mux_wdata (threads n s) = w.
Proof.
  induction n as [|n IH]; intros L E H; [lia|]. rewrite threads_S. unfold mux_enq, mux_wdata in *.
  rewrite !fold_left_app. cbn [fold_left].
  destruct (Nat.eq_dec t n) as [->|N].
  - rewrite E. split; reflexivity.
  - rewrite (H n) by lia. apply IH; [lia|exact E|]. intros; apply H; lia.
Qed.
Lemma mux_dnone s : forall n, (forall t, (t < n)%nat -> deq_of (z_thr s t) = false) ->
  mux_deq (z_fifo s) (threads n s) = false.
Proof.
  induction n as [|n IH]; intros H; [reflexivity|]. rewrite threads_S. unfold mux_deq in *.
  rewrite fold_left_app. cbn [fold_left]. rewrite (H n) by lia. cbn [andb]. apply IH. intros; apply H; lia.
Qed.
Lemma mux_dsome s t : forall n, (t < n)%nat -> deq_of (z_thr s t) = true ->
  mux_deq (z_fifo s) (threads n s) = deq_ready (z_fifo s).
Proof.
  intros n L E. destruct (deq_ready (z_fifo s)) eqn:R.
  - induction n as [|n IH]; [lia|]. rewrite threads_S. unfold mux_deq in *.
    rewrite fold_left_app. cbn [fold_left]. rewrite R in *. rewrite andb_true_r.
    destruct (deq_of (z_thr s n)) eqn:D; [reflexivity|]. apply IH.
    destruct (Nat.eq_dec t n) as [->|N]; [congruence|lia].
  - clear L E. induction n as [|n IH]; [reflexivity|]. rewrite threads_S. unfold mux_deq in *.
    rewrite fold_left_app. cbn [fold_left]. rewrite R in *. rewrite andb_false_r. exact IH.
Qed.

(** ** The FIFO over one cycle *)
Lemma fstep_gen sync a f l e w d : 1 <= a -> Inv (2 ^ a) f l ->
  Inv (2 ^ a) (fifo_step sync a f (mkFifoIn (e && enq_ready a f) w (d && deq_ready f)))
    ((if d then tl l else l) ++ (if e && (Z.of_nat (length l) <? 2 ^ a - 2) then [w] else [])).
Proof.
  intros A I.
  pose proof (step_inv a A sync f l (mkFifoIn (e && enq_ready a f) w (d && deq_ready f)) I) as H.
  unfold step_list, queue_step in H. cbn [q_words i_enq i_wdata i_deq] in H.
  unfold enq_ready, deq_ready in *. rewrite (afull_list a f l A I), (empty_list a f l A I) in *.
  replace (e && negb (2 ^ a - 2 <=? Z.of_nat (length l)) && (Z.of_nat (length l) <? 2 ^ a - 1))
    with (e && (Z.of_nat (length l) <? 2 ^ a - 2)) in H by (destruct e; lia).
  destruct l as [|x l]; [destruct d; exact H|]. destruct d; exact H.
Qed.
Lemma rdata_step a f e w :
  deq_ready f = true -> f_rdata (fifo_step true a f (mkFifoIn e w true)) = f_mem f (f_tail f).
Proof.
  intros R. unfold fifo_step, fifo_deq_stmt. cbn [i_deq]. unfold deq_ready, p_empty in R. rewrite R. reflexivity.
Qed.

Section Run.
  Variables (sync : bool) (aw : Z) (n : nat).
  Hypothesis A : 1 <= aw.

  Definition pend (f : fifo) (h : thr) : list act -> Prop := fun p =>
    match h_ph h with
    | Out | Req _ => p = []
    | Cap (TryEnq w) => p = [Put w (h_ack h)]
    | Cap Deq => sync = true /\ h_valid h = true /\ p = [Get (Some (f_rdata f))]
    | Cap TryDeq => sync = true /\ p = [Get (if h_valid h then Some (f_rdata f) else None)]
    | Cap (Enq _) => False
    end.
  Definition good (f : fifo) (h : thr) (acts : list act) : Prop :=
    exists mine p, acts = mine ++ p /\ Forall2 means (h_log h) mine /\ pend f h p.

  Lemma good_step f f' h go acts l : Inv (2 ^ aw) f l ->
    (sync = true -> deq_of h = true -> deq_ready f = true -> f_rdata f' = f_mem f (f_tail f)) ->
    good f h acts -> good f' (thr_step sync aw f h go) (acts ++ evg f h ++ evp aw f h).
  Proof using A.
    clear n. intros I R (mine & p & -> & F & P). unfold thr_step, evg, evp, pend, deq_of in *.
    assert (S2 : forall r e, means r e -> Forall2 means (h_log h ++ [r]) (mine ++ [e])).
    { intros r e M. apply Forall2_app; [exact F|]. constructor; [exact M|constructor]. }
    destruct (h_ph h) as [|o|o] eqn:E.
    - subst p. rewrite !app_nil_r. exists mine, []. rewrite app_nil_r. split; [reflexivity|].
      destruct go; (split; [exact F|reflexivity]).
    - subst p. rewrite app_nil_r. destruct o as [w| |w|].
      + cbn [app]. destruct (enq_ready aw f) eqn:RD.
        * exists (mine ++ [Put w true]), []. rewrite app_nil_r. split; [reflexivity|]. split; [|reflexivity].
          apply S2. reflexivity.
        * exists mine, []. split; [reflexivity|]. split; [exact F|]. reflexivity.
      + rewrite app_nil_r. destruct (deq_ready f) eqn:RD; cbn [andb].
        * destruct sync eqn:SY.
          -- exists mine, [Get (Some (p_rdata false f))]. split; [reflexivity|]. split; [exact F|].
             unfold pend. cbn [h_ph h_valid]. split; [exact SY|]. split; [reflexivity|].
             rewrite (R eq_refl eq_refl eq_refl). reflexivity.
          -- exists (mine ++ [Get (Some (p_rdata false f))]), []. rewrite app_nil_r.
             split; [reflexivity|]. split; [|reflexivity]. apply S2. reflexivity.
        * exists mine, []. split; [reflexivity|].
          destruct sync; (split; [exact F|reflexivity]).
      + cbn [app]. exists mine, [Put w (enq_ready aw f)]. split; [reflexivity|]. split; [exact F|]. reflexivity.
      + rewrite app_nil_r. cbn [andb]. destruct sync eqn:SY.
        * exists mine, [Get (if deq_ready f then Some (p_rdata false f) else None)].
          split; [reflexivity|]. split; [exact F|]. unfold pend. cbn [h_ph h_valid]. split; [exact SY|].
          destruct (deq_ready f) eqn:RD; [|reflexivity]. rewrite (R eq_refl eq_refl eq_refl). reflexivity.
        * exists (mine ++ [Get (if deq_ready f then Some (p_rdata false f) else None)]), [].
          rewrite app_nil_r. split; [reflexivity|]. split; [|reflexivity]. apply S2.
          destruct (deq_ready f); reflexivity.
    - rewrite !app_nil_r. destruct o as [w| |w|].
      + contradiction.
      + destruct P as (SY & V & ->). rewrite V. exists (mine ++ [Get (Some (f_rdata f))]), [].
        rewrite app_nil_r. split; [reflexivity|]. split; [|reflexivity]. apply S2. rewrite SY. reflexivity.
      + subst p. exists (mine ++ [Put w (h_ack h)]), []. rewrite app_nil_r. split; [reflexivity|].
        split; [|reflexivity]. apply S2. split; reflexivity.
      + destruct P as (SY & ->). exists (mine ++ [Get (if h_valid h then Some (f_rdata f) else None)]), [].
        rewrite app_nil_r. split; [reflexivity|]. split; [|reflexivity]. apply S2. rewrite SY.
        destruct (h_valid h); reflexivity.
  Qed.

  Lemma acts_app cap : forall a l b, acts_on cap l (a ++ b) =
    match acts_on cap l a with Some l' => acts_on cap l' b | None => None end.
  Proof.
    induction a as [|[t x] a IH]; intros l b; [reflexivity|]. cbn [app acts_on].
    destruct (act_on cap l x); [apply IH|reflexivity].
  Qed.
  Lemma ev_none_p f h : enq_of h = None -> evp aw f h = [].
  Proof. unfold enq_of, evp. destruct (h_ph h) as [|[]|]; try reflexivity; discriminate. Qed.
  Lemma ev_none_g f h : deq_of h = false -> evg f h = [].
  Proof. unfold deq_of, evg. destruct (h_ph h) as [|[]|]; try reflexivity; discriminate. Qed.

  (** the two port activities of a cycle, and the words they leave *)
  Lemma cycle s l : Inv (2 ^ aw) (z_fifo s) l -> apart n s ->
    exists l', acts_on (2 ^ aw - 2) l (lin aw n s) = Some l' /\
      Inv (2 ^ aw) (fifo_step sync aw (z_fifo s) (fsys_in aw n s)) l'.
  Proof using A.
    intros I AP. set (f := z_fifo s) in *.
    assert (RE : enq_ready aw f = (Z.of_nat (length l) <? 2 ^ aw - 2)).
    { unfold enq_ready. rewrite (afull_list aw f l A I). lia. }
    assert (RD : deq_ready f = negb (match l with [] => true | _ => false end)).
    { unfold deq_ready. rewrite (empty_list aw f l A I). reflexivity. }
    (* the words put *)
    assert (HP : exists e w, mux_enq aw f (threads n s) = e && enq_ready aw f /\ (e = true -> mux_wdata (threads n s) = w) /\
      (if e then exists t, puts aw n s = [(t, Put w true)] /\ enq_ready aw f = true \/
                           enq_ready aw f = false /\ (puts aw n s = [(t, Put w false)] \/ puts aw n s = [])
       else puts aw n s = [])).
    { destruct (who (fun t => match enq_of (z_thr s t) with Some _ => true | None => false end) n) as [H|(t & T & P & H)].
      - intros t u L. destruct (AP t u L) as [[-> | ->] _]; [left|right]; reflexivity.
      - exists false, 0. split; [|split].
        + apply mux_none. intros t T. specialize (H t T). destruct (enq_of (z_thr s t)); [discriminate|reflexivity].
        + discriminate.
        + apply tag_nil. intros t T. apply ev_none_p. specialize (H t T). destruct (enq_of (z_thr s t)); [discriminate|reflexivity].
      - destruct (enq_of (z_thr s t)) as [w|] eqn:EW; [|discriminate].
        assert (H' : forall u, (u < n)%nat -> u <> t -> enq_of (z_thr s u) = None).
        { intros u U N. specialize (H u U N). destruct (enq_of (z_thr s u)); [discriminate|reflexivity]. }
        destruct (mux_some aw w t s n T EW H') as [M1 M2]. exists true, w. split; [exact M1|].
        split; [intros _; exact M2|]. exists t.
        assert (PU : puts aw n s = map (pair t) (evp aw f (z_thr s t))).
        { apply tag_one; [exact T|]. intros u U N. apply ev_none_p. auto. }
        rewrite PU. unfold evp, enq_of in *.
        destruct (h_ph (z_thr s t)) as [|o|]; try discriminate. destruct o; try discriminate; injection EW as ->;
          destruct (enq_ready aw f); cbn [map]; auto. }
    (* the words taken *)
    assert (HG : exists d, mux_deq f (threads n s) = d && deq_ready f /\
      (if d then exists t, gets n s = [(t, Get (Some (p_rdata false f)))] /\ deq_ready f = true \/
                           deq_ready f = false /\ (gets n s = [(t, Get None)] \/ gets n s = [])
       else gets n s = [])).
    { destruct (who (fun t => deq_of (z_thr s t)) n) as [H|(t & T & P & H)].
      - intros t u L. exact (proj2 (AP t u L)).
      - exists false. split; [exact (mux_dnone s n H)|]. apply tag_nil. intros t T. apply ev_none_g. auto.
      - exists true. split; [exact (mux_dsome s t n T P)|]. exists t.
        assert (PU : gets n s = map (pair t) (evg f (z_thr s t))).
        { apply tag_one; [exact T|]. intros u U N. apply ev_none_g. auto. }
        rewrite PU. unfold evg, deq_of in *.
        destruct (h_ph (z_thr s t)) as [|o|]; try discriminate. destruct o; try discriminate;
          destruct (deq_ready f); cbn [map]; auto. }
    destruct HP as (e & w & M1 & M2 & HP). destruct HG as (d & M3 & HG).
    pose proof (fstep_gen sync aw f l e (mux_wdata (threads n s)) d A I) as ST.
    unfold fsys_in. fold f. rewrite M1, M3.
    eexists. split; [|exact ST]. rewrite <- RE.
    assert (GG : forall l0, (l0 = l \/ l0 = l) -> acts_on (2 ^ aw - 2) l0 (gets n s) = Some (if d then tl l else l)).
    { intros l0 L0. assert (l0 = l) as -> by (destruct L0; assumption). clear L0. destruct d.
      - destruct HG as (t & [[-> R]|[R [-> | ->]]]); cbn [acts_on act_on]; rewrite R in RD;
          destruct l as [|x l]; try discriminate RD; cbn [tl]; try reflexivity.
        rewrite (rdata_list aw f x l A I), Z.eqb_refl. reflexivity.
      - rewrite HG. reflexivity. }
    unfold lin. fold f. destruct (enq_ready aw f) eqn:RR.
    - rewrite acts_app, GG by (left; reflexivity). rewrite andb_true_r.
      destruct e; [|rewrite HP; cbn [acts_on]; rewrite app_nil_r; reflexivity].
      rewrite (M2 eq_refl). destruct HP as (t & [[-> _]|[X _]]); [|discriminate]. cbn [acts_on act_on].
      assert (Z.of_nat (length (if d then tl l else l)) <? 2 ^ aw - 2 = true) as ->; [|reflexivity].
      destruct d; [|symmetry; exact RE]. destruct l as [|x l]; cbn [tl length] in *; lia.
    - rewrite andb_false_r, app_nil_r. rewrite acts_app.
      assert (acts_on (2 ^ aw - 2) l (puts aw n s) = Some l) as ->; [|apply GG; left; reflexivity].
      destruct e; [|rewrite HP; reflexivity].
      destruct HP as (t & [[_ X]|[_ [-> | ->]]]); [discriminate| |reflexivity].
      cbn [acts_on act_on]. rewrite <- RE. reflexivity.
  Qed.

  Definition Good (s : fsys) (log : list (nat * act)) : Prop :=
    (exists l, acts_on (2 ^ aw - 2) [] log = Some l /\ Inv (2 ^ aw) (z_fifo s) l) /\
    forall t, (t < n)%nat -> good (z_fifo s) (z_thr s t) (of_thread t log).

  Lemma of_lin s t : (t < n)%nat ->
    of_thread t (lin aw n s) = evg (z_fifo s) (z_thr s t) ++ evp aw (z_fifo s) (z_thr s t).
  Proof using.
    intros T. unfold lin, gets, puts.
    assert (T' : Nat.ltb t n = true) by (apply Nat.ltb_lt; exact T).
    destruct (enq_ready aw (z_fifo s)); rewrite of_app, !of_tag, T'; [reflexivity|].
    unfold evg, evp. destruct (h_ph (z_thr s t)) as [|[]|]; rewrite ?app_nil_r; reflexivity.
  Qed.

  Lemma Good_step s log go : apart n s -> Good s log ->
    Good (fsys_step sync aw n s go) (log ++ lin aw n s).
  Proof using A.
    intros AP ((l & L & I) & G). split.
    - destruct (cycle s l I AP) as (l' & L' & I'). exists l'. split; [|exact I'].
      rewrite acts_app, L. exact L'.
    - intros t T. rewrite of_app, (of_lin s t T). cbn [fsys_step z_fifo z_thr].
      apply (good_step _ _ _ _ _ l I); [|exact (G t T)].
      intros -> D R. unfold fsys_in. rewrite (mux_dsome s t n T D), R. exact (rdata_step aw _ _ _ R).
  Qed.
  Lemma Good_init m0 : Good (fsys_init m0) [].
  Proof using A.
    split.
    - exists []. split; [reflexivity|]. exact (init_inv aw A m0).
    - intros t T. exists [], []. split; [reflexivity|]. split; [constructor|reflexivity].
  Qed.
  Lemma Good_accounts s log : Good s log -> accounts n s log.
  Proof using.
    intros [_ G] t T. destruct (G t T) as (mine & p & E & F & P). exists mine, p.
    split; [exact E|]. split; [exact F|]. unfold pend, inside in *.
    destruct (h_ph (z_thr s t)) as [|o|o]; [subst p|subst p|destruct o].
    all: try (split; [cbn [length]; lia|congruence]).
    - destruct P as (_ & _ & ->). split; [cbn [length]; lia|discriminate].
    - subst p. split; [cbn [length]; lia|discriminate].
    - destruct P as (_ & ->). split; [cbn [length]; lia|discriminate].
  Qed.

  Lemma Good_waits s log go t l : (t < n)%nat -> Good s log -> Inv (2 ^ aw) (z_fifo s) l ->
    waits (2 ^ aw - 2) l (z_thr s t) (z_thr (fsys_step sync aw n s go) t).
  Proof using A.
    intros T [_ G] I. destruct (G t T) as (mine & p & _ & _ & P). cbn [fsys_step z_thr].
    set (h := z_thr s t) in *. set (f := z_fifo s) in *. unfold waits, thr_step, pend, deq_of in *.
    assert (RE : enq_ready aw f = (Z.of_nat (length l) <? 2 ^ aw - 2)).
    { unfold enq_ready. rewrite (afull_list aw f l A I). lia. }
    assert (RD : deq_ready f = negb (match l with [] => true | _ => false end)).
    { unfold deq_ready. rewrite (empty_list aw f l A I). reflexivity. }
    destruct (h_ph h) as [|o|o] eqn:E; [exact Logic.I| |]; destruct o as [w| |w|].
    - destruct (enq_ready aw f); cbn [h_ph]; split; try discriminate; try reflexivity; clear - RE; intros; lia.
    - rewrite RD. cbn [andb]. destruct l; cbn [negb]; destruct sync; cbn [h_ph]; split; try discriminate; reflexivity.
    - left. reflexivity.
    - destruct sync; [left|right]; reflexivity.
    - contradiction.
    - destruct P as (_ & -> & _). reflexivity.
    - reflexivity.
    - reflexivity.
  Qed.

  Lemma linear : forall gos s log, Good s log -> always_apart sync aw n s gos ->
    exists logs, during sync aw n s gos logs /\
      forall k, exists l,
        acts_on (2 ^ aw - 2) [] (log ++ concat (firstn k logs)) = Some l /\
        (forall t go, (t < n)%nat -> waits (2 ^ aw - 2) l (z_thr (final (fsys_step sync aw n) s (firstn k gos)) t)
          (z_thr (fsys_step sync aw n (final (fsys_step sync aw n) s (firstn k gos)) go) t)) /\
        accounts n (final (fsys_step sync aw n) s (firstn k gos)) (log ++ concat (firstn k logs)).
  Proof using A.
    induction gos as [|go gos IH]; intros s log G [AP R].
    - exists []. split; [exact Logic.I|]. intros k. rewrite !firstn_nil. cbn [concat final fold_left]. rewrite app_nil_r.
      pose proof (Good_accounts s log G) as GA. pose proof G as G0. destruct G as ((l & L & I) & _). exists l.
      split; [exact L|]. split; [|exact GA]. intros t go T. exact (Good_waits s log go t l T G0 I).
    - destruct (IH _ _ (Good_step s log go AP G) R) as (logs & D & K).
      exists (lin aw n s :: logs). split.
      + cbn [during]. split; [|exact D]. intros t a H.
        assert (X : In (t, a) (gets n s ++ puts aw n s)).
        { unfold lin in H. destruct (enq_ready aw (z_fifo s)); [exact H|].
          apply in_app_or in H as [H|H]; apply in_or_app; auto. }
        apply in_app_or in X as [X|X]; apply tag_in in X as [T X]; split; try exact T; unfold inside;
          intros O; unfold evg, evp in X; rewrite O in X; exact X.
      + intros [|k].
        * cbn [firstn concat final fold_left]. rewrite app_nil_r.
          pose proof (Good_accounts s log G) as GA. pose proof G as G0. destruct G as ((l & L & I) & _). exists l.
          split; [exact L|]. split; [|exact GA]. intros t go' T. exact (Good_waits s log go' t l T G0 I).
        * cbn [firstn concat]. destruct (K k) as (l & L). exists l. rewrite app_assoc. exact L.
  Qed.
End Run.

Theorem linearizable sync aw n m0 gos : 1 <= aw -> always_apart sync aw n (fsys_init m0) gos ->
  exists logs, during sync aw n (fsys_init m0) gos logs /\
    forall k, let s := final (fsys_step sync aw n) (fsys_init m0) (firstn k gos) in
      let log := concat (firstn k logs) in
      accounts n s log /\
      exists l, acts_on (2 ^ aw - 2) [] log = Some l /\
        forall t go, (t < n)%nat -> waits (2 ^ aw - 2) l (z_thr s t) (z_thr (fsys_step sync aw n s go) t).
Proof.
  intros A H. destruct (linear sync aw n A gos _ _ (Good_init sync aw n A m0) H) as (logs & D & K).
  exists logs. split; [exact D|]. intros k s log. destruct (K k) as (l & L & W & AC).
  split; [exact AC|]. exists l. auto.
Qed.

(** ** One producer and one consumer *)
Definition role_ok (s : fsys) : Prop :=
  match h_ph (z_thr s 0%nat) with Req Deq | Req TryDeq => False | _ => True end /\
  match h_ph (z_thr s 1%nat) with Req (Enq _) | Req (TryEnq _) => False | _ => True end.
Lemma role_apart s : role_ok s -> apart 2 s.
Proof.
  intros [R0 R1] t u L. assert (t = 0%nat /\ u = 1%nat) as [-> ->] by lia. unfold enq_of, deq_of.
  split; [right|left].
  - destruct (h_ph (z_thr s 1%nat)) as [|[]|]; try reflexivity; contradiction.
  - destruct (h_ph (z_thr s 0%nat)) as [|[]|]; try reflexivity; contradiction.
Qed.
Lemma role_step sync aw n s go : role_ok s -> roles go -> role_ok (fsys_step sync aw n s go).
Proof.
  intros [R0 R1] [G0 G1]. unfold role_ok. cbn [fsys_step z_thr]. unfold thr_step. split.
  - destruct (h_ph (z_thr s 0%nat)) as [|[]|[]] eqn:E.
    1: destruct (go 0%nat) as [[]|]; try contradiction; exact I.
    all: try contradiction; try exact I.
    all: repeat match goal with |- context [if ?b then _ else _] => destruct b end; cbn [h_ph]; try exact I; rewrite ?E; exact I.
  - destruct (h_ph (z_thr s 1%nat)) as [|[]|[]] eqn:E.
    1: destruct (go 1%nat) as [[]|]; try contradiction; exact I.
    all: try contradiction; try exact I.
    all: repeat match goal with |- context [if ?b then _ else _] => destruct b end; cbn [h_ph]; try exact I; rewrite ?E; exact I.
Qed.
Lemma role_always sync aw : forall gos s, role_ok s -> Forall roles gos -> always_apart sync aw 2 s gos.
Proof.
  induction gos as [|go gos IH]; intros s R F; (split; [exact (role_apart s R)|]); [exact I|].
  apply Forall_cons_iff in F as [F1 F2]. apply IH; [|exact F2]. exact (role_step sync aw 2 s go R F1).
Qed.
Theorem two_threads sync aw m0 gos : Forall roles gos -> always_apart sync aw 2 (fsys_init m0) gos.
Proof. apply role_always. split; exact I. Qed.

Definition putw (a : act) : list Z := match a with Put w true => [w] | _ => [] end.
Definition getw (a : act) : list Z := match a with Get (Some x) => [x] | _ => [] end.
Lemma acts_words cap : forall log l l', acts_on cap l log = Some l' ->
  l ++ flat_map putw (map snd log) = flat_map getw (map snd log) ++ l'.
Proof.
  induction log as [|[t a] log IH]; intros l l' H; cbn [acts_on map snd flat_map] in *.
  - injection H as ->. rewrite app_nil_r. reflexivity.
  - destruct (act_on cap l a) as [l1|] eqn:E; [|discriminate]. specialize (IH _ _ H). clear H.
    destruct a as [w [|]|[x|]]; cbn [act_on putw getw app] in *.
    + destruct (_ <? _); [|discriminate]. injection E as <-. rewrite <- app_assoc in IH. exact IH.
    + destruct (_ <? _); [discriminate|]. injection E as <-. exact IH.
    + destruct l as [|y r]; [discriminate|]. destruct (x =? y) eqn:X; [|discriminate]. apply Z.eqb_eq in X.
      injection E as <-. subst y. cbn [app]. rewrite IH. reflexivity.
    + destruct l; [|discriminate]. injection E as <-. exact IH.
Qed.
Lemma means_sent : forall log acts, Forall2 means log acts ->
  sent log = flat_map putw acts /\ received log = flat_map getw acts.
Proof.
  intros log acts F. induction F as [|[o r] a log acts M F [IH1 IH2]]; [split; reflexivity|].
  unfold sent, received in *. cbn [flat_map]. rewrite IH1, IH2. clear - M.
  destruct o, r; cbn [means] in M; try contradiction; destruct a as [w' [|]|[y|]]; try contradiction;
    try (destruct b; try contradiction); repeat match goal with H : _ /\ _ |- _ => destruct H end; subst;
    try discriminate; split; reflexivity.
Qed.
(** the roles, in terms of the logs and the phases *)
Definition produces (h : thr) : Prop :=
  match h_ph h with Out | Req (Enq _) | Req (TryEnq _) | Cap (TryEnq _) => True | _ => False end /\
  Forall (fun or => match fst or with Enq _ | TryEnq _ => True | _ => False end) (h_log h).
Definition consumes (h : thr) : Prop :=
  match h_ph h with Out | Req Deq | Req TryDeq | Cap Deq | Cap TryDeq => True | _ => False end /\
  Forall (fun or => match fst or with Deq | TryDeq => True | _ => False end) (h_log h).
Lemma produces_step sync aw f h go : produces h ->
  match go with Some Deq | Some TryDeq => False | _ => True end -> produces (thr_step sync aw f h go).
Proof.
  intros [P F] G. unfold produces, thr_step.
  assert (S2 : forall r, match fst r with Enq _ | TryEnq _ => True | _ => False end ->
    Forall (fun or : op * res => match fst or with Enq _ | TryEnq _ => True | _ => False end) (h_log h ++ [r])).
  { intros r R. apply Forall_app. split; [exact F|]. constructor; [exact R|constructor]. }
  destruct (h_ph h) as [|[]|[]] eqn:E; try contradiction;
    repeat match goal with |- context [if ?b then _ else _] => destruct b end; cbn [h_ph h_log];
    try (split; [exact I|]; first [exact F | apply S2; exact I]).
  - destruct go as [[]|]; try contradiction; split; try exact I; exact F.
Qed.
Lemma consumes_step sync aw f h go : consumes h ->
  match go with Some (Enq _) | Some (TryEnq _) => False | _ => True end -> consumes (thr_step sync aw f h go).
Proof.
  intros [P F] G. unfold consumes, thr_step.
  assert (S2 : forall r, match fst r with Deq | TryDeq => True | _ => False end ->
    Forall (fun or : op * res => match fst or with Deq | TryDeq => True | _ => False end) (h_log h ++ [r])).
  { intros r R. apply Forall_app. split; [exact F|]. constructor; [exact R|constructor]. }
  destruct (h_ph h) as [|[]|[]] eqn:E; try contradiction;
    repeat match goal with |- context [if ?b then _ else _] => destruct b end; cbn [h_ph h_log];
    try (split; [exact I|]; first [exact F | apply S2; exact I]).
  - destruct go as [[]|]; try contradiction; split; try exact I; exact F.
Qed.

Definition isget (a : act) : Prop := match a with Get _ => True | _ => False end.
Definition isput (a : act) : Prop := match a with Put _ _ => True | _ => False end.
Lemma gets_noput l : Forall isget l -> flat_map putw l = [].
Proof. induction 1 as [|[] l H F IH]; try contradiction; [reflexivity|exact IH]. Qed.
Lemma puts_noget l : Forall isput l -> flat_map getw l = [].
Proof. induction 1 as [|[] l H F IH]; try contradiction; [reflexivity|exact IH]. Qed.
Lemma split_two (g : act -> list Z) : forall log : list (nat * act),
  (forall t a, In (t, a) log -> (t < 2)%nat) ->
  (Forall isget (of_thread 1 log) -> Forall isput (of_thread 0 log) ->
   flat_map putw (map snd log) = flat_map putw (of_thread 0 log) /\
   flat_map getw (map snd log) = flat_map getw (of_thread 1 log)).
Proof.
  clear g. induction log as [|[t a] log IH]; intros L F1 F0; [split; reflexivity|].
  assert (T : (t < 2)%nat) by (apply (L t a); left; reflexivity).
  assert (L' : forall t a, In (t, a) log -> (t < 2)%nat) by (intros; eapply L; right; eassumption).
  unfold of_thread in *. cbn [filter fst map snd flat_map] in *.
  destruct t as [|[|t]]; [| |lia]; cbn [Nat.eqb filter map snd flat_map] in *.
  - apply Forall_cons_iff in F0 as [H F0]. destruct (IH L' F1 F0) as [IH1 IH2]. rewrite IH1, IH2.
    destruct a; [|contradiction]. split; reflexivity.
  - apply Forall_cons_iff in F1 as [H F1]. destruct (IH L' F1 F0) as [IH1 IH2]. rewrite IH1, IH2.
    destruct a; [contradiction|]. split; reflexivity.
Qed.
Lemma good_put sync f h acts : good sync f h acts -> produces h -> Forall isput acts.
Proof.
  intros (mine & p & -> & F & P) [PH L]. apply Forall_app. split.
  - clear - F L. induction F as [|[o r] a lg mine M F IH]; [constructor|].
    apply Forall_cons_iff in L as [L1 L2]. constructor; [|exact (IH L2)].
    cbn [fst] in L1. destruct o; try contradiction; destruct r; try contradiction; destruct a; try contradiction; try exact I;
      cbn [means] in M; destruct b; contradiction.
  - unfold pend in P. destruct (h_ph h) as [|o|o]; [subst p; constructor|subst p; constructor|].
    destruct o; try contradiction. subst p. constructor; [exact I|constructor].
Qed.
Lemma good_get sync f h acts : good sync f h acts -> consumes h -> Forall isget acts.
Proof.
  intros (mine & p & -> & F & P) [PH L]. apply Forall_app. split.
  - clear - F L. induction F as [|[o r] a lg mine M F IH]; [constructor|].
    apply Forall_cons_iff in L as [L1 L2]. constructor; [|exact (IH L2)].
    cbn [fst] in L1. destruct o; try contradiction; destruct r; try contradiction; destruct a; try contradiction; try exact I;
      cbn [means] in M; destruct b; contradiction.
  - unfold pend in P. destruct (h_ph h) as [|o|o]; [subst p; constructor|subst p; constructor|].
    destruct o; try contradiction.
    + destruct P as (_ & _ & ->). constructor; [exact I|constructor].
    + destruct P as (_ & ->). constructor; [exact I|constructor].
Qed.

Lemma pc_run sync aw : 1 <= aw -> forall gos s log,
  Good sync aw 2 s log -> role_ok s -> produces (z_thr s 0%nat) -> consumes (z_thr s 1%nat) ->
  (forall t a, In (t, a) log -> (t < 2)%nat) -> Forall roles gos ->
  let s' := final (fsys_step sync aw 2) s gos in
  exists log', Good sync aw 2 s' log' /\ produces (z_thr s' 0%nat) /\ consumes (z_thr s' 1%nat) /\
    (forall t a, In (t, a) log' -> (t < 2)%nat).
Proof.
  intros A. induction gos as [|go gos IH]; intros s log G R P C L F.
  - exists log. auto.
  - apply Forall_cons_iff in F as [F1 F2]. cbn [final fold_left]. apply (IH _ (log ++ lin aw 2 s)).
    + exact (Good_step sync aw 2 A s log go (role_apart s R) G).
    + exact (role_step sync aw 2 s go R F1).
    + apply produces_step; [exact P|exact (proj1 F1)].
    + apply consumes_step; [exact C|exact (proj2 F1)].
    + intros t a H. apply in_app_or in H as [H|H]; [exact (L t a H)|]. unfold lin in H.
      destruct (enq_ready aw (z_fifo s)); apply in_app_or in H as [H|H]; exact (proj1 (tag_in _ _ _ _ H)).
    + exact F2.
Qed.

Theorem pipe sync aw m0 gos : 1 <= aw -> Forall roles gos ->
  let s := final (fsys_step sync aw 2) (fsys_init m0) gos in
  exists extra rest pend,
    sent (h_log (z_thr s 0%nat)) ++ extra = received (h_log (z_thr s 1%nat)) ++ pend ++ rest /\
    (length extra <= 1)%nat /\ (extra <> [] -> inside (z_thr s 0%nat)) /\
    (length pend <= 1)%nat /\ (pend <> [] -> inside (z_thr s 1%nat)) /\
    (Z.of_nat (length rest) < 2 ^ aw).
Proof.
  intros A F.
  assert (X : produces (mkThr Out false false []) /\ consumes (mkThr Out false false []))
    by (split; split; try exact I; constructor).
  destruct (pc_run sync aw A gos _ _ (Good_init sync aw 2 A m0) (conj I I) (proj1 X) (proj2 X) (fun _ _ H => match H with end) F)
    as (log & G & P & C & L). cbv zeta.
  set (s := final (fsys_step sync aw 2) (fsys_init m0) gos) in *.
  pose proof (Good_accounts sync aw 2 s log G) as AC.
  destruct G as ((l & LL & II) & G).
  pose proof (good_put sync _ _ _ (G 0%nat ltac:(lia)) P) as GP.
  pose proof (good_get sync _ _ _ (G 1%nat ltac:(lia)) C) as GG.
  destruct (split_two putw log L GG GP) as [S1 S2].
  pose proof (acts_words _ _ _ _ LL) as W. cbn [app] in W. rewrite S1, S2 in W.
  destruct (AC 0%nat ltac:(lia)) as (m0' & p0 & E0 & F0 & N0 & I0).
  destruct (AC 1%nat ltac:(lia)) as (m1 & p1 & E1 & F1 & N1 & I1).
  rewrite E0, E1, !flat_map_app in W.
  rewrite (proj1 (means_sent _ _ F0)), (proj2 (means_sent _ _ F1)).
  assert (Q : forall (g : act -> list Z) p, (forall a, (length (g a) <= 1)%nat) -> (length p <= 1)%nat ->
    (length (flat_map g p) <= 1)%nat).
  { intros g [|a [|b p]] GA N; cbn [flat_map length] in *; [lia| |lia]. rewrite app_nil_r. apply GA. }
  exists (flat_map putw p0), l, (flat_map getw p1). split; [rewrite W; symmetry; apply app_assoc|].
  split; [apply Q; [intros [? []|]; cbn; lia|exact N0]|].
  split; [intros H; apply I0; intros ->; apply H; reflexivity|].
  split; [apply Q; [intros [|[]]; cbn; lia|exact N1]|].
  split; [intros H; apply I1; intros ->; apply H; reflexivity|].
  exact (inv_len _ _ _ II).
Qed.
