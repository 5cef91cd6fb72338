(** Proofs about the stream scheduler and the scheduled hardware. *)
From Verif Require Import Base Stream_Model Stream_Spec.

(** ** Lists *)
Lemma get_put h n d m : get (put h n d) m = if m =? n then (match get h n with Some _ => Some d | None => None end) else get h m.
Proof.
  unfold get. revert n m. induction h as [|a h IH]; intros n m; cbn.
  - destruct n, m; cbn; try reflexivity. destruct (m =? n); reflexivity.
  - destruct n as [|n], m as [|m]; cbn; try reflexivity. apply IH.
Qed.
Lemma put_length h n d : length (put h n d) = length h.
Proof. revert n. induction h as [|a h IH]; intros [|n]; cbn; auto. Qed.
Lemma get_some_lt h n d : get h n = Some d -> n < length h.
Proof. intros H. apply nth_error_Some. unfold get in H. congruence. Qed.
Lemma get_lt h n : n < length h -> exists d, get h n = Some d.
Proof. intros H. unfold get. destruct (nth_error h n) eqn:E; [eauto|]. apply nth_error_None in E. lia. Qed.
Lemma get_app h l n d : get h n = Some d -> get (h ++ l) n = Some d.
Proof. intros H. unfold get in *. rewrite nth_error_app1; [exact H|]. apply get_some_lt with d. exact H. Qed.
Lemma get_new h d : get (h ++ [d]) (length h) = Some d.
Proof. unfold get. rewrite nth_error_app2 by lia. rewrite Nat.sub_diag. reflexivity. Qed.
Lemma get_app_inv h d n x : get (h ++ [d]) n = Some x -> (n < length h /\ get h n = Some x) \/ (n = length h /\ x = d).
Proof.
  intros H. pose proof (get_some_lt _ _ _ H) as L. rewrite app_length in L. cbn in L.
  destruct (Nat.eq_dec n (length h)) as [->|N].
  - right. rewrite get_new in H. inversion H. auto.
  - left. split; [lia|]. unfold get in *. rewrite nth_error_app1 in H by lia. exact H.
Qed.

Inductive delay_of (h : heap) (a : nat) : nat -> Prop :=
| do_refl : delay_of h a a
| do_step : forall b p al d, get h b = Some d -> n_kind d = KDelay -> n_args d = [(p, al)] -> delay_of h a p -> delay_of h a b.
Definition at_stage (h : heap) (m s : nat) : Prop :=
  exists d, get h m = Some d /\ (n_end d = Some s \/ is_const (n_kind d) = true).

Section Sched.
  Variable g0 : heap.
  Hypothesis UG : user_graph g0.

  Definition fed (h : heap) (s : nat) (a0 a : operand) : Prop := delay_of h (fst a0) (fst a) /\ at_stage h (fst a) s.
  Definition user_ok (h : heap) (n : nat) (d d0 : node) : Prop :=
    n_kind d = n_kind d0 /\ n_lat d = n_lat d0 /\ n_deps d = n_deps d0 /\
    (forall st r, In (st, r) (n_delayed d) -> delay_of h n r /\ end_of h r = Some st) /\
    (is_const (n_kind d) = true -> n_end d = None) /\
    match n_end d with
    | None => n_args d = n_args d0 /\ n_start d = None /\ n_delayed d = []
    | Some e => n_start d <> None /\
        match n_kind d with
        | KVar _ => e = 0
        | _ => exists s, e = s + n_lat d /\ Forall2 (fed h s) (n_args d0) (n_args d) /\ (is_acc (n_kind d) = true -> n_start d = Some s)
        end
    end.
  Definition delay_ok (h : heap) (d : node) : Prop :=
    n_kind d = KDelay /\ n_lat d = 1 /\ exists p al i, n_args d = [(p, al)] /\ n_end d = Some (S i) /\ end_of h p = Some i.
  Definition node_ok (h : heap) (n : nat) (d : node) : Prop :=
    (exists d0, get g0 n = Some d0 /\ user_ok h n d d0) \/ (length g0 <= n /\ delay_ok h d).
  Definition Inv (h : heap) : Prop := length g0 <= length h /\ forall n d, get h n = Some d -> node_ok h n d.

  Definition keeps (d d' : node) : Prop :=
    n_kind d' = n_kind d /\ n_lat d' = n_lat d /\
    (forall e, n_end d = Some e -> n_end d' = Some e /\ n_args d' = n_args d /\ n_start d' = n_start d).
  Definition ext (h h' : heap) : Prop := length h <= length h' /\ forall n d, get h n = Some d -> exists d', get h' n = Some d' /\ keeps d d'.

  Lemma keeps_refl d : keeps d d.
  Proof. repeat split; auto. Qed.
  Lemma ext_refl h : ext h h.
  Proof. split; [lia|]. intros n d H. exists d. split; [exact H|apply keeps_refl]. Qed.
  Lemma ext_trans a b c : ext a b -> ext b c -> ext a c.
  Proof.
    intros (L1 & H1) (L2 & H2). split; [lia|]. intros n d H. destruct (H1 n d H) as (d1 & G1 & K1 & T1 & E1).
    destruct (H2 n d1 G1) as (d2 & G2 & K2 & T2 & E2). exists d2. split; [exact G2|]. split; [congruence|]. split; [congruence|].
    intros e He. destruct (E1 e He) as (A & B & C). destruct (E2 e A) as (A' & B' & C'). split; [exact A'|]. split; congruence.
  Qed.

  Lemma user_not_delay n d d0 h : get g0 n = Some d0 -> user_ok h n d d0 -> is_delay (n_kind d) = false.
  Proof. intros G (K & _). rewrite K. apply (UG n d0 G). Qed.
  Lemma delay_of_ext h h' a b : Inv h -> ext h h' -> delay_of h a b -> delay_of h' a b.
  Proof.
    intros (_ & I) (_ & X) D. induction D as [|b p al d G K A D IH]; [constructor|].
    destruct (X b d G) as (d' & G' & K' & _ & E'). destruct (I b d G) as [(d0 & G0 & U)|(_ & _ & _ & p' & al' & i & A' & En & _)].
    - pose proof (user_not_delay b d d0 h G0 U) as N. rewrite K in N. discriminate.
    - destruct (E' _ En) as (_ & A2 & _). apply do_step with p al d'; [exact G'|congruence|congruence|exact IH].
  Qed.
  Lemma end_of_ext h h' n e : ext h h' -> end_of h n = Some e -> end_of h' n = Some e.
  Proof.
    intros (_ & X) E. unfold end_of in *. destruct (get h n) as [d|] eqn:G; [|discriminate].
    destruct (X n d G) as (d' & G' & _ & _ & E'). rewrite G'. apply E'. exact E.
  Qed.
  Lemma at_stage_ext h h' m s : ext h h' -> at_stage h m s -> at_stage h' m s.
  Proof.
    intros (_ & X) (d & G & H). destruct (X m d G) as (d' & G' & K & _ & E). exists d'. split; [exact G'|].
    destruct H as [H|H]; [left; apply E, H|right; congruence].
  Qed.
  Lemma fed_ext h h' s a0 a : Inv h -> ext h h' -> fed h s a0 a -> fed h' s a0 a.
  Proof. intros I X (A & B). split; [exact (delay_of_ext _ _ _ _ I X A)|exact (at_stage_ext _ _ _ _ X B)]. Qed.
  Lemma node_ok_ext h h' n d : Inv h -> ext h h' -> node_ok h n d -> node_ok h' n d.
  Proof.
    intros I X [(d0 & G & K & T & P & D & C & E)|(L & K & T & p & al & i & A & E & F)].
    - left. exists d0. split; [exact G|]. split; [exact K|]. split; [exact T|]. split; [exact P|]. split; [|split; [exact C|]].
      + intros st r H. destruct (D st r H) as (D1 & D2). split; [exact (delay_of_ext _ _ _ _ I X D1)|exact (end_of_ext _ _ _ _ X D2)].
      + destruct (n_end d) as [e|]; [|exact E]. destruct E as (S & E). split; [exact S|].
        assert (M : forall s, Forall2 (fed h s) (n_args d0) (n_args d) -> Forall2 (fed h' s) (n_args d0) (n_args d)).
        { intros s F. clear - I X F UG. induction F as [|a b la lb H F IH]; [constructor|]. constructor; [exact (fed_ext _ _ _ _ _ I X H)|exact IH]. }
        destruct (n_kind d); try exact E; destruct E as (s & E1 & E2 & E3); exists s; auto.
    - right. split; [exact L|]. split; [exact K|]. split; [exact T|]. exists p, al, i. split; [exact A|]. split; [exact E|]. exact (end_of_ext _ _ _ _ X F).
  Qed.

  Lemma user_get h n d d0 : Inv h -> get h n = Some d -> get g0 n = Some d0 -> user_ok h n d d0.
  Proof.
    intros (_ & I) G G0. destruct (I n d G) as [(d1 & G1 & U)|(L & _)]; [congruence|]. pose proof (get_some_lt _ _ _ G0). lia.
  Qed.
  Lemma Inv_get h n : Inv h -> n < length g0 -> exists d d0, get h n = Some d /\ get g0 n = Some d0 /\ user_ok h n d d0.
  Proof.
    intros I L. destruct (get_lt g0 n L) as (d0 & G0). destruct (get_lt h n) as (d & G); [destruct I; lia|].
    exists d, d0. split; [exact G|]. split; [exact G0|]. exact (user_get h n d d0 I G G0).
  Qed.
  Lemma Inv_start : Inv g0.
  Proof.
    split; [lia|]. intros n d G. left. exists d. split; [exact G|].
    destruct (UG n d G) as (_ & S & E & D & _ & _). unfold user_ok. rewrite E. repeat split; auto.
    - rewrite D in H. destruct H.
    - rewrite D in H. destruct H.
  Qed.

  (** ** fill_gap *)
  Lemma find_in l st r : find_delayed l st = Some r -> In (st, r) l.
  Proof.
    induction l as [|[s x] l IH]; cbn; [discriminate|]. destruct (Nat.eqb_spec s st) as [->|N]; intros H.
    - left. congruence.
    - right. apply IH, H.
  Qed.
  Definition others (n : nat) (h h' : heap) : Prop := forall m, m < length g0 -> m <> n -> get h' m = get h m.

  Lemma fill_ok c : forall i n prev h, Inv h -> n < length g0 -> (exists e, end_of h n = Some e) -> delay_of h n prev -> end_of h prev = Some i ->
    exists h' r, fill c i n prev h = Some (h', r) /\ Inv h' /\ ext h h' /\ delay_of h' n r /\ end_of h' r = Some (i + c) /\ others n h h'.
  Proof.
    induction c as [|c IH]; intros i n prev h I L (e & E) D P.
    - exists h, prev. split; [reflexivity|]. split; [exact I|]. split; [apply ext_refl|]. split; [exact D|]. split; [rewrite Nat.add_0_r; exact P|]. intros m _ _. reflexivity.
    - cbn [fill]. destruct (Inv_get h n I L) as (d & d0 & G & G0 & U). rewrite G.
      destruct (find_delayed (n_delayed d) (S i)) as [r|] eqn:F.
      + destruct U as (_ & _ & _ & DD & _). destruct (DD _ _ (find_in _ _ _ F)) as (D1 & D2).
        destruct (IH (S i) n r h I L (ex_intro _ e E) D1 D2) as (h' & r' & A & B & C & D' & E' & O).
        exists h', r'. split; [exact A|]. split; [exact B|]. split; [exact C|]. split; [exact D'|]. split; [rewrite E'; f_equal; lia|exact O].
      + set (r := length h). set (dl := mkNode KDelay 1 [(prev, false)] [] (Some i) (Some (S i)) [] (Some n)).
        set (h1 := put h n (add_delayed d (S i) r) ++ [dl]).
        assert (Ln : n < length h) by (destruct I; lia).
        assert (Gn : get h1 n = Some (add_delayed d (S i) r)).
        { unfold h1. apply get_app. rewrite get_put, Nat.eqb_refl, G. reflexivity. }
        assert (Gr : get h1 r = Some dl).
        { unfold h1, r. replace (length h) with (length (put h n (add_delayed d (S i) (length h)))) at 2 by apply put_length. apply get_new. }
        assert (Gm : forall m x, m <> n -> get h m = Some x -> get h1 m = Some x).
        { intros m x Hm Hx. unfold h1. apply get_app. rewrite get_put. destruct (Nat.eqb_spec m n); [contradiction|exact Hx]. }
        assert (X : ext h h1).
        { split; [unfold h1; rewrite app_length, put_length; lia|]. intros m x Hm. destruct (Nat.eq_dec m n) as [->|N].
          - exists (add_delayed d (S i) r). split; [exact Gn|]. assert (x = d) by congruence. subst x. repeat split; auto.
          - exists x. split; [exact (Gm m x N Hm)|apply keeps_refl]. }
        assert (Dr : delay_of h1 n r).
        { apply do_step with prev false dl; [exact Gr|reflexivity|reflexivity|]. exact (delay_of_ext _ _ _ _ I X D). }
        assert (Er : end_of h1 r = Some (S i)) by (unfold end_of; rewrite Gr; reflexivity).
        assert (I1 : Inv h1).
        { split; [destruct I, X; lia|]. intros m x Hm. unfold h1 in Hm. apply get_app_inv in Hm. rewrite put_length in Hm. destruct Hm as [(Lm & Hm)|(-> & ->)].
          - rewrite get_put in Hm. destruct (Nat.eqb_spec m n) as [->|N].
            + rewrite G in Hm. inversion Hm. subst x. left. exists d0. split; [exact G0|].
              assert (NO : node_ok h1 n d) by (apply (node_ok_ext h); [exact I|exact X|apply I, G]).
              destruct NO as [(d1 & G1 & K & T & PP & DD & CC & EE)|(LL & _)]; [|pose proof (get_some_lt _ _ _ G0); lia].
              assert (d1 = d0) by congruence. subst d1. unfold user_ok. cbn [add_delayed n_kind n_lat n_deps n_delayed n_end n_args n_start].
              split; [exact K|]. split; [exact T|]. split; [exact PP|]. split; [|split; [exact CC|]].
              * intros st r' [H|H]; [inversion H; subst; auto|exact (DD st r' H)].
              * unfold end_of in E. rewrite G in E. rewrite E in EE |- *. exact EE.
            + apply (node_ok_ext h); [exact I|exact X|]. apply I, Hm.
          - right. split; [destruct I; lia|]. split; [reflexivity|]. split; [reflexivity|]. exists prev, false, i. split; [reflexivity|]. split; [reflexivity|]. exact (end_of_ext _ _ _ _ X P). }
        destruct (IH (S i) n r h1 I1 L (ex_intro _ e (end_of_ext _ _ _ _ X E)) Dr Er) as (h' & r' & A & B & C & D' & E' & O).
        exists h', r'. split; [exact A|]. split; [exact B|]. split; [exact (ext_trans _ _ _ X C)|]. split; [exact D'|]. split; [rewrite E'; f_equal; lia|].
        intros m Hm Nm. rewrite (O m Hm Nm). destruct (get h m) as [x|] eqn:Gx; [exact (Gm m x Nm Gx)|].
        destruct (get_lt h m) as (x & Hx); [destruct I; lia|congruence].
  Qed.

  Definition ready (h : heap) (n s : nat) : Prop :=
    exists d, get h n = Some d /\ (is_const (n_kind d) = true \/ exists e, n_end d = Some e /\ e <= s).
  Lemma ready_ext h h' n s : ext h h' -> ready h n s -> ready h' n s.
  Proof.
    intros (_ & X) (d & G & H). destruct (X n d G) as (d' & G' & K & _ & E). exists d'. split; [exact G'|].
    destruct H as [H|(e & H & Le)]; [left; congruence|right; exists e; split; [apply E, H|exact Le]].
  Qed.
  Lemma fill_gap_ok h n s : Inv h -> n < length g0 -> ready h n s ->
    exists h' r, fill_gap h n s = Some (h', r) /\ Inv h' /\ ext h h' /\ delay_of h' n r /\ at_stage h' r s /\ others n h h'.
  Proof.
    intros I L (d & G & R). unfold fill_gap. rewrite G. destruct (Inv_get h n I L) as (d' & d0 & G' & G0 & U). assert (d' = d) by congruence. subst d'.
    pose proof (user_not_delay n d d0 h G0 U) as ND. rewrite ND.
    destruct R as [C|(e & E & Le)].
    - assert (EN : n_end d = None) by (apply U, C). rewrite EN. exists h, n. split; [reflexivity|]. split; [exact I|]. split; [apply ext_refl|]. split; [constructor|].
      split; [exists d; auto|intros m _ _; reflexivity].
    - rewrite E. destruct (Nat.eqb_spec e s) as [->|N].
      + exists h, n. split; [reflexivity|]. split; [exact I|]. split; [apply ext_refl|]. split; [constructor|]. split; [exists d; auto|intros m _ _; reflexivity].
      + destruct (Nat.ltb_spec s e) as [Lt|_]; [lia|]. rewrite G, E.
        assert (En : end_of h n = Some e) by (unfold end_of; rewrite G; exact E).
        destruct (fill_ok (s - e) e n n h I L (ex_intro _ e En) (do_refl h n) En) as (h' & r & A & B & C & D & F & O).
        exists h', r. split; [exact A|]. split; [exact B|]. split; [exact C|]. split; [exact D|]. split; [|exact O].
        replace (e + (s - e)) with s in F by lia. unfold end_of in F. destruct (get h' r) as [x|] eqn:Gx; [|discriminate]. exists x. auto.
  Qed.
  Lemma fill_args_ok s l : forall h, Inv h -> Forall (fun a => fst a < length g0 /\ ready h (fst a) s) l ->
    exists h' l', fill_args h l s = Some (h', l') /\ Inv h' /\ ext h h' /\ Forall2 (fed h' s) l l' /\
      forall m, m < length g0 -> ~ In m (map fst l) -> get h' m = get h m.
  Proof.
    induction l as [|[n al] l IH]; intros h I F.
    - exists h, []. split; [reflexivity|]. split; [exact I|]. split; [apply ext_refl|]. split; [constructor|]. reflexivity.
    - inversion F as [|? ? (L & R) F']; subst. cbn [fst] in L, R. cbn [fill_args].
      destruct (fill_gap_ok h n s I L R) as (h1 & r & A & I1 & X1 & D1 & S1 & O1). rewrite A.
      destruct (IH h1 I1) as (h2 & l2 & A2 & I2 & X2 & D2 & O2).
      { apply Forall_impl with (2 := F'). intros a (La & Ra). split; [exact La|exact (ready_ext _ _ _ _ X1 Ra)]. }
      rewrite A2. exists h2, ((r, al) :: l2). split; [reflexivity|]. split; [exact I2|]. split; [exact (ext_trans _ _ _ X1 X2)|].
      split; [constructor; [|exact D2]|].
      + apply (fed_ext h1); [exact I1|exact X2|]. split; [exact D1|exact S1].
      + intros m Lm Nm. cbn in Nm. rewrite (O2 m Lm) by tauto. apply O1; [exact Lm|]. intros ->. tauto.
  Qed.

  (** ** visit *)
  Lemma omax_le l x : In (Some x) l -> x <= stage_of l.
  Proof.
    unfold stage_of. induction l as [|y l IH]; cbn; [tauto|]. intros [->|H].
    - destruct (fold_right omax None l) as [z|]; cbn; lia.
    - specialize (IH H). destruct y as [y|], (fold_right omax None l) as [z|]; cbn in *; lia.
  Qed.
  Lemma stage_tl x l : stage_of l <= stage_of (x :: l).
  Proof. unfold stage_of. cbn. destruct x as [x|], (fold_right omax None l) as [z|]; cbn; lia. Qed.
  Definition above (n : nat) (h h' : heap) : Prop := forall m, n <= m < length g0 -> get h' m = get h m.
  Definition visited (h : heap) (n : nat) (x : option nat) : Prop :=
    exists d, get h n = Some d /\ n_end d = x /\ (x = None -> is_const (n_kind d) = true).
  Lemma visited_ext h h' n x : n < length g0 -> Inv h' -> ext h h' -> visited h n x -> visited h' n x.
  Proof.
    intros L I' (_ & X) (d & G & E & C). destruct (X n d G) as (d' & G' & K & _ & EE). exists d'. split; [exact G'|].
    destruct x as [e|].
    - split; [apply EE, E|discriminate].
    - destruct (Inv_get h' n I' L) as (x & d0 & Gx & _ & U). assert (x = d') by congruence. subst x.
      assert (Cd : is_const (n_kind d') = true) by (rewrite K; apply C; reflexivity). split; [apply U, Cd|auto].
  Qed.

  (** end stages of the user's nodes that are new in [h'] *)
  Definition new_le (h h' : heap) (B : nat) : Prop := forall m e, m < length g0 -> end_of h' m = Some e -> end_of h m = Some e \/ e <= B.
  Lemma new_le_refl h B : new_le h h B.
  Proof. intros m e _ H. left. exact H. Qed.
  Lemma new_le_trans a b c B1 B2 B : new_le a b B1 -> new_le b c B2 -> B1 <= B -> B2 <= B -> new_le a c B.
  Proof. intros H1 H2 L1 L2 m e Lm E. destruct (H2 m e Lm E) as [H|H]; [|right; lia]. destruct (H1 m e Lm H) as [H'|H']; [left; exact H'|right; lia]. Qed.
  Lemma ready_same h h' m s : Inv h' -> ext h h' -> m < length g0 -> ready h m s -> end_of h' m = end_of h m.
  Proof.
    intros I' X Lm (d & G & R). destruct R as [C|(e & E & _)].
    - destruct (proj2 X m d G) as (d' & G' & K & _). destruct (Inv_get h' m I' Lm) as (x & d0 & Gx & _ & U). assert (x = d') by congruence. subst x.
      assert (E' : n_end d' = None) by (apply U; congruence). unfold end_of. rewrite G, G', E'.
      destruct (n_end d) as [e|] eqn:E; [|reflexivity]. destruct (proj2 X m d G) as (y & Gy & _ & _ & Ey). destruct (Ey e E) as (Ey1 & _). congruence.
    - assert (Eh : end_of h m = Some e) by (unfold end_of; rewrite G; exact E). rewrite Eh. exact (end_of_ext _ _ _ _ X Eh).
  Qed.

  Definition visit_spec (fuel n : nat) : Prop := forall h al, Inv h -> n < length g0 -> (al = true -> forall d, get g0 n = Some d -> is_acc (n_kind d) = false) ->
    exists h' x, visit fuel h (n, al) = Some (h', x) /\ Inv h' /\ ext h h' /\ above (S n) h h' /\ visited h' n x /\ new_le h h' (match x with Some e => e | None => 0 end).
  Lemma visits_ok fuel N l : (forall n, n < N -> visit_spec fuel n) -> N <= length g0 ->
    forall h, Inv h -> Forall (built_before g0 N) l ->
    exists h' xs, visits (visit fuel) h l = Some (h', xs) /\ Inv h' /\ ext h h' /\ above N h h' /\ Forall2 (fun a x => visited h' (fst a) x) l xs /\ new_le h h' (stage_of xs).
  Proof.
    intros HV LN. induction l as [|[n al] l IH]; intros h I F.
    - exists h, []. split; [reflexivity|]. split; [exact I|]. split; [apply ext_refl|]. split; [intros m _; reflexivity|]. split; [constructor|apply new_le_refl].
    - inversion F as [|? ? (L & Al) F']; subst. cbn [fst snd] in L, Al. cbn [visits].
      destruct (HV n L h al I ltac:(lia) Al) as (h1 & x & A & I1 & X1 & O1 & V1 & B1). rewrite A.
      destruct (IH h1 I1 F') as (h2 & xs & A2 & I2 & X2 & O2 & V2 & B2). rewrite A2.
      exists h2, (x :: xs). split; [reflexivity|]. split; [exact I2|]. split; [exact (ext_trans _ _ _ X1 X2)|].
      split; [intros m Hm; rewrite (O2 m Hm); apply O1; lia|]. split; [|apply (new_le_trans _ _ _ _ _ _ B1 B2); [destruct x as [x|]; [apply omax_le; left; reflexivity|lia]|apply stage_tl]].
      constructor; [|exact V2]. cbn [fst]. apply (visited_ext h1); [lia|exact I2|exact X2|exact V1].
  Qed.

  (** finishing one node *)
  Lemma put_ext h n d d' : get h n = Some d -> n_end d = None -> n_kind d' = n_kind d -> n_lat d' = n_lat d -> ext h (put h n d').
  Proof.
    intros G E K T. split; [rewrite put_length; lia|]. intros m x Hm. rewrite get_put. destruct (Nat.eqb_spec m n) as [->|N].
    - rewrite G. exists d'. split; [reflexivity|]. assert (x = d) by congruence. subst x. split; [exact K|]. split; [exact T|]. intros e He. congruence.
    - exists x. split; [exact Hm|apply keeps_refl].
  Qed.
  Lemma put_Inv h n d' : Inv h -> ext h (put h n d') -> node_ok (put h n d') n d' -> Inv (put h n d').
  Proof.
    intros I X N. split; [rewrite put_length; apply I|]. intros m x Hm. rewrite get_put in Hm. destruct (Nat.eqb_spec m n) as [->|Ne].
    - destruct (get h n); [|discriminate]. inversion Hm. subst x. exact N.
    - apply (node_ok_ext h); [exact I|exact X|]. apply I, Hm.
  Qed.

  Lemma finish_alias h h' n al e : Inv h' -> n < length g0 -> ext h h' -> above (S n) h h' -> end_of h n = None ->
    (al = true -> forall d, get g0 n = Some d -> is_acc (n_kind d) = false) -> end_of h' n = Some e -> new_le h h' e ->
    exists h'' x, (if al then match get h' n with Some d' => Some (put h' n (set_start d' (Some e)), Some e) | None => None end else Some (h', Some e)) = Some (h'', x) /\
      Inv h'' /\ ext h h'' /\ above (S n) h h'' /\ visited h'' n x /\ new_le h h'' (match x with Some e => e | None => 0 end).
  Proof.
    intros I L X O E0 Al E NL. unfold end_of in E. destruct (get h' n) as [d'|] eqn:G; [|discriminate].
    destruct al.
    - set (d2 := set_start d' (Some e)). set (h2 := put h' n d2).
      assert (G2 : get h2 n = Some d2) by (unfold h2; rewrite get_put, Nat.eqb_refl, G; reflexivity).
      assert (Gm : forall m, m <> n -> get h2 m = get h' m) by (intros m Hm; unfold h2; rewrite get_put; destruct (Nat.eqb_spec m n); [contradiction|reflexivity]).
      exists h2, (Some e). split; [reflexivity|].
      assert (X2 : ext h h2).
      { split; [unfold h2; rewrite put_length; apply X|]. intros m x Hm. destruct (Nat.eq_dec m n) as [->|N].
        - destruct (proj2 X n x Hm) as (y & Gy & K & T & _). assert (y = d') by congruence. subst y. exists d2. split; [exact G2|]. split; [exact K|]. split; [exact T|].
          intros z Hz. unfold end_of in E0. rewrite Hm in E0. congruence.
        - rewrite (Gm m N). exact (proj2 X m x Hm). }
      (* the invariant never looks at the start stage of such a node, except that there is one *)
      assert (DO : forall a b, delay_of h' a b -> delay_of h2 a b).
      { intros a b D. induction D as [|b p q d Gb K A D IH]; [constructor|]. destruct (Nat.eq_dec b n) as [->|N].
        - assert (d = d') by congruence. subst d. apply do_step with p q d2; auto.
        - apply do_step with p q d; auto. rewrite (Gm b N). exact Gb. }
      assert (EO : forall m, end_of h2 m = end_of h' m).
      { intros m. unfold end_of. destruct (Nat.eq_dec m n) as [->|N]; [rewrite G2, G; reflexivity|rewrite (Gm m N); reflexivity]. }
      assert (AS : forall m s, at_stage h' m s -> at_stage h2 m s).
      { intros m s (d & Gd & H). destruct (Nat.eq_dec m n) as [->|N].
        - assert (d = d') by congruence. subst d. exists d2. auto.
        - exists d. rewrite (Gm m N). auto. }
      assert (FF : forall s l l', Forall2 (fed h' s) l l' -> Forall2 (fed h2 s) l l').
      { intros s l l' F. induction F as [|a b la lb (H1 & H2) F IH]; [constructor|]. constructor; [split; auto|exact IH]. }
      assert (I2 : Inv h2).
      { split; [unfold h2; rewrite put_length; apply I|]. intros m x Hm.
        assert (HH : exists y, get h' m = Some y /\ n_kind x = n_kind y /\ n_lat x = n_lat y /\ n_deps x = n_deps y /\ n_delayed x = n_delayed y /\ n_end x = n_end y /\ n_args x = n_args y /\
                       (n_start x = n_start y \/ (m = n /\ n_start x = Some e))).
        { destruct (Nat.eq_dec m n) as [->|N].
          - rewrite G2 in Hm. inversion Hm. subst x. exists d'. repeat split; auto.
          - rewrite (Gm m N) in Hm. exists x. repeat split; auto. }
        destruct HH as (y & Gy & K & T & P & Dl & En & Ar & St). destruct (proj2 I m y Gy) as [(d0 & G0 & K0 & T0 & P0 & D0 & C0 & E1)|(Lm & K1 & T1 & p & q & i & A1 & En1 & F1)].
        - left. exists d0. split; [exact G0|]. unfold user_ok. rewrite K, T, P, Dl, En, Ar. split; [exact K0|]. split; [exact T0|]. split; [exact P0|]. split; [|split; [exact C0|]].
          + intros st r Hr. destruct (D0 st r Hr) as (Q1 & Q2). split; [exact (DO _ _ Q1)|rewrite EO; exact Q2].
          + destruct (n_end y) as [ey|] eqn:Ey.
            * destruct E1 as (S1 & E1). split; [destruct St as [->|(_ & ->)]; [exact S1|discriminate]|].
              destruct (n_kind y) eqn:Ky; try exact E1; destruct E1 as (s & E2 & E3 & E4); exists s; (split; [exact E2|]); (split; [exact (FF _ _ _ E3)|]); try (intros Hx; discriminate Hx).
              destruct St as [->|(-> & _)]; [exact E4|]. intros _. exfalso. pose proof (Al eq_refl d0 G0) as B. rewrite <- K0 in B. discriminate B.
            * destruct St as [->|(-> & _)]; [exact E1|]. assert (y = d') by congruence. subst y. congruence.
        - right. split; [exact Lm|]. split; [congruence|]. split; [congruence|]. exists p, q, i. split; [congruence|]. split; [congruence|]. rewrite EO. exact F1. }
      split; [exact I2|]. split; [exact X2|]. split.
      + intros m Hm. rewrite (Gm m) by lia. apply O, Hm.
      + split; [exists d2; split; [exact G2|]; split; [exact E|discriminate]|]. intros m x Lm Hx. rewrite EO in Hx. exact (NL m x Lm Hx).
    - exists h', (Some e). split; [reflexivity|]. split; [exact I|]. split; [exact X|]. split; [exact O|]. split; [exists d'; split; [exact G|]; split; [exact E|discriminate]|exact NL].
  Qed.

  Lemma visit_ok fuel : forall n, n < fuel -> visit_spec fuel n.
  Proof.
    induction fuel as [|fuel IH]; intros n Lf; [lia|]. intros h al I L Al. cbn [visit].
    destruct (Inv_get h n I L) as (d & d0 & G & G0 & U). rewrite G.
    destruct U as (K & T & P & Dl & C & E).
    destruct (is_const (n_kind d)) eqn:Cd.
    { exists h, None. split; [reflexivity|]. split; [exact I|]. split; [apply ext_refl|]. split; [intros m _; reflexivity|].
      split; [|apply new_le_refl]. exists d. split; [exact G|]. split; [apply C; reflexivity|intros _; exact Cd]. }
    destruct (n_end d) as [e|] eqn:En.
    { destruct E as (Sd & _). destruct (n_start d) as [st|] eqn:Es; [|congruence].
      exists h, (Some e). split; [reflexivity|]. split; [exact I|]. split; [apply ext_refl|]. split; [intros m _; reflexivity|].
      split; [|apply new_le_refl]. exists d. split; [exact G|]. split; [exact En|discriminate]. }
    destruct E as (Ar & Es & Dn). rewrite Es.
    assert (E0 : end_of h n = None) by (unfold end_of; rewrite G; exact En).
    destruct (UG n d0 G0) as (UA & _ & _ & _ & ND & UK).
    assert (VAR : (exists i, n_kind d = KVar i) \/ (forall i, n_kind d <> KVar i)).
    { destruct (n_kind d); try (right; intros; discriminate). left. eexists. reflexivity. }
    destruct VAR as [(i & Kd)|NV].
    - rewrite Kd. set (d2 := set_stages d (n_args d) 0 0).
      assert (X : ext h (put h n d2)) by (apply put_ext with d; auto).
      assert (I2 : Inv (put h n d2)).
      { apply put_Inv; [exact I|exact X|]. left. exists d0. split; [exact G0|]. unfold user_ok, d2. cbn [set_stages n_kind n_lat n_deps n_delayed n_end n_args n_start].
        rewrite Kd in *. split; [exact K|]. split; [exact T|]. split; [exact P|]. split; [rewrite Dn; intros ? ? []|]. split; [discriminate|]. split; [discriminate|reflexivity]. }
      assert (G2 : get (put h n d2) n = Some d2) by (rewrite get_put, Nat.eqb_refl, G; reflexivity).
      apply (finish_alias h (put h n d2) n al 0); auto.
      + intros m Hm. rewrite get_put. destruct (Nat.eqb_spec m n); [lia|reflexivity].
      + unfold end_of. rewrite G2. reflexivity.
      + intros m x Lm. unfold end_of. rewrite get_put. destruct (Nat.eqb_spec m n) as [->|N]; [|auto]. rewrite G. cbn. intros Hx. right. inversion Hx. lia.
    - assert (VB : Forall (built_before g0 n) (n_args d ++ n_deps d)) by (rewrite Ar, P; exact UA).
      destruct (visits_ok fuel n (n_args d ++ n_deps d)) with (h := h) as (h1 & xs & A1 & I1 & X1 & O1 & V1 & B1); [intros m Hm; apply IH; lia|lia|exact I|exact VB|].
      rewrite A1. set (mine := stage_of xs).
      assert (R1 : Forall (fun a => fst a < length g0 /\ ready h1 (fst a) mine) (n_args d)).
      { apply Forall_app in VB. destruct VB as (VB & _). apply Forall_forall. intros a Ha.
        assert (La : fst a < n) by (apply (proj1 (Forall_forall _ _) VB a Ha)).
        split; [lia|]. assert (VA : exists x, In x xs /\ visited h1 (fst a) x).
        { assert (Hin : In a (n_args d ++ n_deps d)) by (apply in_or_app; auto). clear - V1 Hin. induction V1 as [|b x lb lx H V IH]; [destruct Hin|].
          destruct Hin as [->|Hin]; [exists x; split; [left; reflexivity|exact H]|]. destruct (IH Hin) as (y & Y1 & Y2). exists y. split; [right; exact Y1|exact Y2]. }
        destruct VA as (x & Hx & da & Ga & Ea & Ca). exists da. split; [exact Ga|]. destruct x as [x|]; [right; exists x; split; [exact Ea|exact (omax_le _ _ Hx)]|left; apply Ca; reflexivity]. }
      destruct (fill_args_ok mine (n_args d) h1 I1 R1) as (h2 & args & A2 & I2 & X2 & F2 & O2). rewrite A2.
      assert (Gn : get h2 n = Some d).
      { rewrite O2; [rewrite O1 by lia; exact G|exact L|]. intros Hin. apply in_map_iff in Hin. destruct Hin as (a & Ha & Hin).
        assert (built_before g0 n a) by (apply (proj1 (Forall_forall _ _) VB); apply in_or_app; auto). destruct H as (Hlt & _). lia. }
      rewrite Gn. set (d2 := set_stages d args mine (mine + n_lat d)).
      assert (X3 : ext h2 (put h2 n d2)) by (apply put_ext with d; auto).
      assert (I3 : Inv (put h2 n d2)).
      { apply put_Inv; [exact I2|exact X3|]. left. exists d0. split; [exact G0|]. unfold user_ok, d2. cbn [set_stages n_kind n_lat n_deps n_delayed n_end n_args n_start].
        split; [exact K|]. split; [exact T|]. split; [exact P|]. split; [rewrite Dn; intros ? ? []|]. split; [congruence|]. split; [discriminate|].
        assert (FF : exists s, mine + n_lat d = s + n_lat d /\ Forall2 (fed (put h2 n d2) s) (n_args d0) args /\ (is_acc (n_kind d) = true -> Some mine = Some s)).
        { exists mine. split; [reflexivity|]. split; [|reflexivity]. rewrite <- Ar. revert X3. generalize (put h2 n d2). intros hh X3. clear - F2 I2 X3 UG. induction F2 as [|a b la lb H F IH]; [constructor|]. constructor; [exact (fed_ext _ _ _ _ _ I2 X3 H)|exact IH]. }
        unfold d2 in FF. destruct (n_kind d); try exact FF. exfalso. exact (NV _ eq_refl). }
      assert (G3 : get (put h2 n d2) n = Some d2) by (rewrite get_put, Nat.eqb_refl, Gn; reflexivity).
      assert (RR : exists h'' x, (if al then match get (put h2 n d2) n with Some d' => Some (put (put h2 n d2) n (set_start d' (Some (mine + n_lat d))), Some (mine + n_lat d)) | None => None end
                    else Some (put h2 n d2, Some (mine + n_lat d))) = Some (h'', x) /\ Inv h'' /\ ext h h'' /\ above (S n) h h'' /\ visited h'' n x /\ new_le h h'' (match x with Some e => e | None => 0 end)).
      { apply (finish_alias h (put h2 n d2) n al (mine + n_lat d)); auto.
        - exact (ext_trans _ _ _ (ext_trans _ _ _ X1 X2) X3).
        - intros m Hm. rewrite get_put. destruct (Nat.eqb_spec m n) as [->|_]; [lia|]. rewrite O2; [apply O1; lia|lia|].
          intros Hin. apply in_map_iff in Hin. destruct Hin as (a & Ha & Hin).
          assert (built_before g0 n a) by (apply (proj1 (Forall_forall _ _) VB); apply in_or_app; auto). destruct H as (Hlt & _). lia.
        - unfold end_of. rewrite G3. reflexivity.
        - intros m x Lm. unfold end_of at 1. rewrite get_put. destruct (Nat.eqb_spec m n) as [->|N].
          + rewrite Gn. cbn. intros Hx. right. inversion Hx. lia.
          + intros Hx. assert (Hx2 : end_of h2 m = Some x) by exact Hx.
            assert (E12 : end_of h2 m = end_of h1 m).
            { destruct (in_dec Nat.eq_dec m (map fst (n_args d))) as [Hin|Hout]; [|unfold end_of; rewrite (O2 m Lm Hout); reflexivity].
              apply in_map_iff in Hin. destruct Hin as (a & <- & Hin). apply (ready_same h1 h2 (fst a) mine); auto. exact (proj2 (proj1 (Forall_forall _ _) R1 a Hin)). }
            rewrite E12 in Hx2. destruct (B1 m x Lm Hx2) as [H|H]; [left; exact H|right; fold mine in H; lia]. }
      destruct (n_kind d) eqn:Kd; try discriminate Cd; try exact RR. exfalso. exact (NV _ eq_refl).
  Qed.

  Lemma schedule_ok outs : forall h, Inv h -> Forall (fun n => n < length g0) outs ->
    exists h', schedule h outs = Some h' /\ Inv h' /\ ext h h' /\ Forall (fun n => visited h' n (end_of h' n)) outs /\ new_le h h' (max_stage h' outs).
  Proof.
    induction outs as [|n r IH]; intros h I F.
    - exists h. split; [reflexivity|]. split; [exact I|]. split; [apply ext_refl|]. split; [constructor|apply new_le_refl].
    - inversion F as [|? ? L F']; subst. cbn [schedule].
      destruct (visit_ok (S (length h)) n ltac:(destruct I; lia) h false I L ltac:(discriminate)) as (h1 & x & A & I1 & X1 & _ & V1 & B1). rewrite A.
      destruct (IH h1 I1 F') as (h2 & A2 & I2 & X2 & V2 & B2). exists h2. split; [exact A2|]. split; [exact I2|]. split; [exact (ext_trans _ _ _ X1 X2)|].
      pose proof (visited_ext _ _ _ _ L I2 X2 V1) as (d & G & E & C).
      split; [|apply (new_le_trans _ _ _ _ _ _ B1 B2); [|apply stage_tl]].
      2: { destruct x as [x|]; [|lia]. unfold max_stage. cbn [map]. apply omax_le. left. unfold end_of. rewrite G. exact E. }
      constructor; [|exact V2]. exists d. split; [exact G|]. unfold end_of. rewrite G. split; [reflexivity|]. intros H. apply C. congruence.
  Qed.
  Lemma balance_ok m outs : forall h, Inv h -> Forall (fun n => n < length g0 /\ ready h n m) outs ->
    exists h' rs, balance h outs m = Some (h', rs) /\ Inv h' /\ ext h h' /\ Forall2 (fun n r => delay_of h' n r /\ at_stage h' r m) outs rs /\
      forall n, n < length g0 -> end_of h' n = end_of h n.
  Proof.
    induction outs as [|n r IH]; intros h I F.
    - exists h, []. split; [reflexivity|]. split; [exact I|]. split; [apply ext_refl|]. split; [constructor|reflexivity].
    - inversion F as [|? ? (L & R) F']; subst. cbn [balance].
      destruct (fill_gap_ok h n m I L R) as (h1 & x & A & I1 & X1 & D1 & S1 & O1). rewrite A.
      destruct (IH h1 I1) as (h2 & rs & A2 & I2 & X2 & V2 & B2).
      { apply Forall_impl with (2 := F'). intros a (La & Ra). split; [exact La|exact (ready_ext _ _ _ _ X1 Ra)]. }
      rewrite A2. exists h2, (x :: rs). split; [reflexivity|]. split; [exact I2|]. split; [exact (ext_trans _ _ _ X1 X2)|].
      split; [constructor; [|exact V2]|intros k Lk; rewrite (B2 k Lk); destruct (Nat.eq_dec k n) as [->|N]; [exact (ready_same h h1 n m I1 X1 Lk R)|unfold end_of; rewrite (O1 k Lk N); reflexivity]].
      split; [exact (delay_of_ext _ _ _ _ I1 X2 D1)|exact (at_stage_ext _ _ _ _ X2 S1)].
  Qed.
  Lemma build_ok outs : Forall (fun n => n < length g0) outs ->
    exists h m rs, build g0 outs = Some (h, m, rs) /\ Inv h /\ Forall2 (fun n r => delay_of h n r /\ at_stage h r m) outs rs /\
      forall n e, n < length g0 -> end_of h n = Some e -> e <= m.
  Proof.
    intros F. destruct (schedule_ok outs g0 Inv_start F) as (h1 & A1 & I1 & X1 & V1 & B1). unfold build. rewrite A1.
    set (m := max_stage h1 outs).
    destruct (balance_ok m outs h1 I1) as (h2 & rs & A2 & I2 & X2 & D2 & B2).
    { apply Forall_forall. intros n Hn. split; [exact (proj1 (Forall_forall _ _) F n Hn)|].
      destruct (proj1 (Forall_forall _ _) V1 n Hn) as (d & G & E & C). exists d. split; [exact G|].
      destruct (n_end d) as [e|] eqn:En; [right; exists e; split; [reflexivity|]|left; apply C; congruence].
      apply omax_le. apply in_map_iff. exists n. split; [congruence|exact Hn]. }
    rewrite A2. exists h2, m, rs. split; [reflexivity|]. split; [exact I2|]. split; [exact D2|].
    intros n e Ln E. rewrite (B2 n Ln) in E. destruct (B1 n e Ln E) as [H|H]; [|exact H].
    unfold end_of in H. destruct (get g0 n) as [d|] eqn:G; [|discriminate]. destruct (UG n d G) as (_ & _ & En & _). congruence.
  Qed.

  (** * The hardware computes the element-wise meaning *)
  Section Run.
    Variables (h : heap) (m : nat) (hv : bool) (par : nat -> Z).
    Hypothesis I : Inv h.

    (** an execution seen as functions of the element number *)
    Definition trace_ok (T : nat) (xs : nat -> elem) (rs : nat -> regs) (vs : nat -> nat -> Z) : Prop :=
      rs 0 = init_regs h m /\
      (forall t, t < T -> rs (S t) = tick h hv true (xs t) (vs t) (rs t)) /\
      (forall t, t <= T -> wires_ok h par (xs t) (rs t) (vs t)).
    Lemma exec_trace xs s : exec h hv par m xs s -> forall x v, wires_ok h par x s v ->
      exists rs vs, trace_ok (length xs) (fun t => nth t xs x) rs vs /\ rs (length xs) = s /\ vs (length xs) = v.
    Proof.
      intros E. induction E as [|en x v xs s E IH W]; intros x' v' W'.
      - exists (fun _ => init_regs h m), (fun _ => v'). split; [|split; reflexivity]. split; [reflexivity|]. split; [cbn; lia|].
        intros t Ht. cbn in Ht. assert (t = 0) by lia. subst t. exact W'.
      - destruct en; cbn [tick] in *.
        + destruct (IH x v W) as (rs & vs & (R0 & RS & RW) & Rl & Vl).
          exists (fun t => if t <=? length xs then rs t else tick h hv true x v s), (fun t => if t <=? length xs then vs t else v').
          rewrite app_length. cbn [length]. replace (length xs + 1 <=? length xs) with false by (symmetry; apply Nat.leb_gt; lia).
          split; [|split; reflexivity]. split; [exact R0|]. split.
          * intros t Ht. replace (t <=? length xs) with true by (symmetry; apply Nat.leb_le; lia).
            destruct (Nat.eq_dec t (length xs)) as [->|N].
            -- replace (S (length xs) <=? length xs) with false by (symmetry; apply Nat.leb_gt; lia). rewrite Rl, Vl.
               rewrite app_nth2 by lia. rewrite Nat.sub_diag. reflexivity.
            -- replace (S t <=? length xs) with true by (symmetry; apply Nat.leb_le; lia). rewrite app_nth1 by lia.
               rewrite RS by lia. f_equal. apply nth_indep. lia.
          * intros t Ht. destruct (Nat.leb_spec t (length xs)) as [Le|Gt].
            -- destruct (Nat.eq_dec t (length xs)) as [->|N].
               ++ rewrite app_nth2 by lia. rewrite Nat.sub_diag. cbn [nth]. rewrite Rl, Vl. exact W.
               ++ rewrite app_nth1 by lia. rewrite (nth_indep xs x' x) by lia. apply RW. lia.
            -- rewrite nth_overflow by (rewrite app_length; cbn; lia). exact W'.
        + exact (IH x' v' W').
    Qed.

    Variables (T : nat) (xs : nat -> elem) (rs : nat -> regs) (vs : nat -> nat -> Z).
    Hypothesis TO : trace_ok T xs rs vs.

    Lemma step_regs t n d : t < T -> get h n = Some d -> r_data (rs (S t)) n = next_regs hv d (xs t) (rs t) (vs t) (r_data (rs t) n).
    Proof. intros Ht G. destruct TO as (_ & S & _). rewrite (S t Ht). cbn. rewrite G. reflexivity. Qed.
    Lemma wire t n d : t <= T -> get h n = Some d -> vs t n = out par d (xs t) (vs t) (r_data (rs t) n).
    Proof. intros Ht G. destruct TO as (_ & _ & W). exact (W t Ht n d G). Qed.

    (** the chain of valid bits *)
    Lemma valid_len t : t <= T -> length (r_valid (rs t)) = m.
    Proof.
      destruct TO as (R0 & S & _). induction t as [|t IH]; intros Ht.
      - rewrite R0. cbn. apply repeat_length.
      - rewrite (S t ltac:(lia)). cbn. specialize (IH ltac:(lia)). destruct (r_valid (rs t)) as [|b l]; [exact IH|]. cbn [length] in *. rewrite <- IH.
        f_equal. clear. revert b. induction l as [|c l IHl]; intros b; [reflexivity|]. change (removelast (b :: c :: l)) with (b :: removelast (c :: l)). cbn [length]. rewrite (IHl c). reflexivity.
    Qed.
    Lemma nth_removelast_lt (l : list bool) k : S k < length l -> nth k (removelast l) false = nth k l false.
    Proof.
      revert k. induction l as [|a l IH]; intros k H; [cbn in H; lia|]. destruct l as [|b l]; [cbn in H; lia|].
      change (removelast (a :: b :: l)) with (a :: removelast (b :: l)). destruct k as [|k]; [reflexivity|]. cbn [nth]. apply IH. cbn in *. lia.
    Qed.
    Lemma valid_chain st : st <= m -> forall t, t <= T -> valid_at (xs t) (rs t) st = if t <? st then false else e_valid (xs (t - st)).
    Proof.
      induction st as [|st IH]; intros Hm t Ht.
      - cbn. rewrite Nat.sub_0_r. reflexivity.
      - cbn [valid_at]. destruct t as [|t].
        + cbn. destruct TO as (-> & _). cbn. clear. revert st. induction m as [|k IH]; intros [|st]; cbn; auto.
        + destruct TO as (R0 & Sx & _). specialize (IH ltac:(lia) t ltac:(lia)). pose proof (valid_len t ltac:(lia)) as VL.
          rewrite (Sx t ltac:(lia)). cbn [tick r_valid]. destruct (r_valid (rs t)) as [|b l] eqn:RV; [cbn in VL; lia|].
          change (S t <? S st) with (t <? st). change (S t - S st) with (t - st). rewrite <- IH. destruct st as [|st]; [reflexivity|].
          cbn [nth valid_at]. rewrite <- RV. apply nth_removelast_lt. rewrite RV. cbn in VL |- *. lia.
    Qed.

    (** the chain of registers of an operator *)
    Lemma chain_len n d f t : get h n = Some d -> n_kind d = KOp f -> t <= T -> length (r_data (rs t) n) = n_lat d.
    Proof.
      intros G K. induction t as [|t IH]; intros Ht.
      - destruct TO as (-> & _). cbn. rewrite G, K. apply repeat_length.
      - rewrite (step_regs t n d ltac:(lia) G). unfold next_regs. rewrite K. specialize (IH ltac:(lia)). destruct (n_lat d) as [|L] eqn:Lt; [exact IH|].
        destruct (r_data (rs t) n) as [|z l]; [cbn in IH; lia|]. cbn [length] in *. rewrite <- IH. f_equal.
        clear. revert z. induction l as [|c l IHl]; intros z; [reflexivity|]. change (removelast (z :: c :: l)) with (z :: removelast (c :: l)). cbn [length]. rewrite (IHl c). reflexivity.
    Qed.
    Lemma nth_removelastZ (l : list Z) k : S k < length l -> nth k (removelast l) 0%Z = nth k l 0%Z.
    Proof.
      revert k. induction l as [|a l IH]; intros k H; [cbn in H; lia|]. destruct l as [|b l]; [cbn in H; lia|].
      change (removelast (a :: b :: l)) with (a :: removelast (b :: l)). destruct k as [|k]; [reflexivity|]. cbn [nth]. apply IH. cbn in *. lia.
    Qed.
    Lemma last_is_nth (l : list Z) : l <> [] -> last l 0%Z = nth (length l - 1) l 0%Z.
    Proof.
      induction l as [|a l IH]; intros H; [congruence|]. destruct l as [|b l]; [reflexivity|].
      change (last (a :: b :: l) 0%Z) with (last (b :: l) 0%Z). rewrite IH by discriminate. cbn [length]. replace (S (S (length l)) - 1) with (S (S (length l) - 1)) by lia. reflexivity.
    Qed.
    Lemma chain n d f : get h n = Some d -> n_kind d = KOp f ->
      forall j t, j < n_lat d -> t + S j <= T -> nth j (r_data (rs (t + S j)) n) 0%Z = f (vals (vs t) (n_args d)).
    Proof.
      intros G K. induction j as [|j IH]; intros t Hj Ht.
      - replace (t + 1) with (S t) in * by lia. rewrite (step_regs t n d ltac:(lia) G). unfold next_regs. rewrite K. destruct (n_lat d); [lia|reflexivity].
      - replace (t + S (S j)) with (S (t + S j)) in * by lia. rewrite (step_regs (t + S j) n d ltac:(lia) G). unfold next_regs. rewrite K.
        pose proof (chain_len n d f (t + S j) G K ltac:(lia)) as CL. destruct (n_lat d) as [|L] eqn:Lt; [lia|]. cbn [nth].
        rewrite nth_removelastZ by lia. apply IH; lia.
    Qed.

    (** a delayed node carries the same element later *)
    Definition carries (n k : nat) (v : Z) : Prop :=
      forall d, get h n = Some d -> match n_end d with
        | Some e => k + e <= T -> vs (k + e) n = v
        | None => is_const (n_kind d) = true -> forall t, t <= T -> vs t n = v
        end.
    Lemma carries_delay a b k v : delay_of h a b -> carries a k v -> carries b k v.
    Proof.
      intros D C. induction D as [|b p al d G K A D IH]; [exact C|]. intros d' G'. assert (d' = d) by congruence. subst d'.
      destruct (proj2 I b d G) as [(d0 & G0 & U)|(_ & _ & _ & p' & al' & i & A' & En & Ep)].
      - pose proof (user_not_delay b d d0 h G0 U) as N. rewrite K in N. discriminate.
      - rewrite A in A'. inversion A'; subst p' al'. rewrite En. intros Ht. unfold end_of in Ep. destruct (get h p) as [dp|] eqn:Gp; [|discriminate].
        specialize (IH dp Gp). rewrite Ep in IH. rewrite (wire (k + S i) b d Ht G). unfold out. rewrite K.
        replace (k + S i) with (S (k + i)) in * by lia. rewrite (step_regs (k + i) b d ltac:(lia) G). unfold next_regs. rewrite K, A. cbn [vals map fst last].
        apply IH. lia.
    Qed.

    Lemma carries_at a s k v : carries a k v -> at_stage h a s -> k + s <= T -> vs (k + s) a = v.
    Proof.
      intros C (d & G & H) Ht. specialize (C d G). destruct H as [H|H].
      - rewrite H in C. exact (C Ht).
      - destruct (proj2 I a d G) as [(d0 & G0 & U)|(_ & Kd & _)]; [|rewrite Kd in H; discriminate].
        assert (En : n_end d = None) by (apply U, H). rewrite En in C. apply C; assumption.
    Qed.
    Lemma args_vals s k l0 l ws : Forall2 (fed h s) l0 l -> Forall2 (fun a w => carries (fst a) k w) l0 ws -> k + s <= T -> vals (vs (k + s)) l = ws.
    Proof.
      intros F. revert ws. induction F as [|a b la lb (D & A) F IH]; intros ws C Ht; inversion C as [|? ? ? ? C1 C2]; subst; [reflexivity|].
      cbn. f_equal; [|apply IH; assumption]. apply carries_at; [exact (carries_delay _ _ _ _ D C1)|exact A|exact Ht].
    Qed.

    Hypothesis HV : hv = true \/ forall n d, get g0 n = Some d -> is_acc (n_kind d) = false.
    Hypothesis MS : forall n d, get h n = Some d -> is_acc (n_kind d) = true -> forall st, n_start d = Some st -> st <= m.
    Definition holds (n k : nat) (st : list Z) : Prop :=
      forall d s0 u o s, get h n = Some d -> n_kind d = KAcc s0 u o -> n_start d = Some s -> n_end d = Some (S s) -> k + s <= T -> r_data (rs (k + s)) n = st.

    Lemma den_carries : forall n k v, den g0 par xs n k v -> carries n k v.
    Proof.
      apply (den_ind3 g0 par xs
        (fun n k v _ => carries n k v)
        (fun l k ws _ => Forall2 (fun a w => carries (fst a) k w) l ws)
        (fun n k st _ => holds n k st)).
      - (* input *) intros n d0 i k G0 K0 d G. destruct (user_get h n d d0 I G G0) as (K & _ & _ & _ & C & E). rewrite K0 in K. rewrite K in C, E.
        destruct (n_end d) as [e|]; [|rewrite K; discriminate]. destruct E as (_ & ->). intros Ht. rewrite (wire _ n d Ht G). unfold out. rewrite K, Nat.add_0_r. reflexivity.
      - intros n d0 c k G0 K0 d G. destruct (user_get h n d d0 I G G0) as (K & _ & _ & _ & C & E). rewrite K0 in K. rewrite K in C. rewrite (C eq_refl).
        intros _ t Ht. rewrite (wire _ n d Ht G). unfold out. rewrite K. reflexivity.
      - intros n d0 p k G0 K0 d G. destruct (user_get h n d d0 I G G0) as (K & _ & _ & _ & C & E). rewrite K0 in K. rewrite K in C. rewrite (C eq_refl).
        intros _ t Ht. rewrite (wire _ n d Ht G). unfold out. rewrite K. reflexivity.
      - (* operator *) intros n d0 f k ws G0 K0 _ IH d G. destruct (user_get h n d d0 I G G0) as (K & _ & _ & _ & C & E). rewrite K0 in K. rewrite K in E.
        destruct (n_end d) as [e|]; [|rewrite K; discriminate]. destruct E as (_ & s & -> & F & _). intros Ht.
        rewrite (wire _ n d Ht G). unfold out. rewrite K. destruct (n_lat d) as [|L] eqn:Lt.
        + rewrite Nat.add_0_r in *. rewrite (args_vals s k _ _ ws F IH ltac:(lia)). reflexivity.
        + pose proof (chain_len n d f (k + (s + S L)) G K Ht) as CL. rewrite last_is_nth by (intros X; rewrite X in CL; cbn in CL; lia). rewrite CL, Lt.
          replace (S L - 1) with L by lia. replace (k + (s + S L)) with (k + s + S L) by lia. rewrite (chain n d f G K L (k + s)) by lia.
          rewrite (args_vals s k _ _ ws F IH ltac:(lia)). reflexivity.
      - (* prev *) intros n d0 k v G0 K0 _ IH d G. destruct (user_get h n d d0 I G G0) as (K & Lq & _ & _ & C & E). rewrite K0 in K. rewrite K in E.
        destruct (n_end d) as [e|]; [|rewrite K; discriminate]. destruct E as (_ & s & -> & F & _). intros Ht.
        destruct (UG n d0 G0) as (_ & _ & _ & _ & _ & UK). rewrite K0 in UK. destruct UK as (L0 & _). rewrite Lq, L0, Nat.add_0_r in *.
        rewrite (wire _ n d Ht G). unfold out. rewrite K. replace (S k + s) with (S (k + s)) in * by lia. rewrite (step_regs (k + s) n d ltac:(lia) G).
        unfold next_regs. rewrite K. rewrite (args_vals s k _ _ [v] F IH ltac:(lia)). reflexivity.
      - (* accumulator *) intros n d0 s0 u o k st G0 K0 _ IH d G. destruct (user_get h n d d0 I G G0) as (K & Lq & _ & _ & C & E). rewrite K0 in K. rewrite K in E.
        destruct (n_end d) as [e|] eqn:En; [|rewrite K; discriminate]. destruct E as (_ & s & -> & F & A). specialize (A eq_refl). intros Ht.
        destruct (UG n d0 G0) as (_ & _ & _ & _ & _ & UK). rewrite K0 in UK. rewrite Lq, UK in *. replace (s + 1) with (S s) in * by lia.
        rewrite (wire _ n d Ht G). unfold out. rewrite K. f_equal. replace (k + S s) with (S k + s) in * by lia. exact (IH d s0 u o s G K A En Ht).
      - constructor.
      - intros a r k v ws _ Ha _ Hr. constructor; assumption.
      - (* initial state *) intros n d0 s0 u o G0 K0 d s0' u' o' s G K St En Ht. destruct (user_get h n d d0 I G G0) as (Kq & _). rewrite K0, K in Kq. inversion Kq; subst s0' u' o'.
        assert (HVn : hv = true) by (destruct HV as [HV'|HV']; [exact HV'|specialize (HV' n d0 G0); rewrite K0 in HV'; discriminate]).
        assert (Hs : s <= m) by (apply (MS n d G); [rewrite K; reflexivity|exact St]).
        assert (ST : forall t, t <= s -> r_data (rs t) n = s0); [|apply ST; lia].
        induction t as [|t IHt]; intros Hle.
        + destruct TO as (-> & _). cbn. rewrite G, K. reflexivity.
        + rewrite (step_regs t n d ltac:(lia) G). unfold next_regs, svalid. rewrite K, St, HVn. rewrite (valid_chain s Hs t ltac:(lia)).
          replace (t <? s) with true by (symmetry; apply Nat.ltb_lt; lia). apply IHt. lia.
      - (* invalid element *) intros n k st _ IH V d s0 u o s G K St En Ht.
        assert (HVn : hv = true).
        { destruct HV as [HV'|HV']; [exact HV'|]. destruct (proj2 I n d G) as [(d0 & G0 & K0 & _)|(_ & Kd & _)]; [|congruence].
          specialize (HV' n d0 G0). rewrite <- K0, K in HV'. discriminate. }
        assert (Hs : s <= m) by (apply (MS n d G); [rewrite K; reflexivity|exact St]).
        replace (S k + s) with (S (k + s)) in * by lia. rewrite (step_regs (k + s) n d ltac:(lia) G). unfold next_regs, svalid. rewrite K, St, HVn.
        rewrite (valid_chain s Hs (k + s) ltac:(lia)). replace (k + s <? s) with false by (symmetry; apply Nat.ltb_ge; lia). replace (k + s - s) with k by lia.
        rewrite V. exact (IH d s0 u o s G K St En ltac:(lia)).
      - (* valid element *) intros n d0 s0 u o k st ws G0 K0 _ IH V _ IHa d s0' u' o' s G K St En Ht.
        destruct (user_get h n d d0 I G G0) as (Kq & Lq & _ & _ & _ & E). rewrite K0, K in Kq. inversion Kq; subst s0' u' o'.
        assert (HVn : hv = true) by (destruct HV as [HV'|HV']; [exact HV'|specialize (HV' n d0 G0); rewrite K0 in HV'; discriminate]).
        assert (Hs : s <= m) by (apply (MS n d G); [rewrite K; reflexivity|exact St]).
        rewrite En, K in E. destruct E as (_ & s' & Es & F & A). specialize (A eq_refl). rewrite St in A. inversion A; subst s'.
        replace (S k + s) with (S (k + s)) in * by lia. rewrite (step_regs (k + s) n d ltac:(lia) G). unfold next_regs, svalid. rewrite K, St, HVn.
        rewrite (valid_chain s Hs (k + s) ltac:(lia)). replace (k + s <? s) with false by (symmetry; apply Nat.ltb_ge; lia). replace (k + s - s) with k by lia.
        rewrite V, (IH d s0 u o s G K St En ltac:(lia)). f_equal. exact (args_vals s k _ _ ws F IHa ltac:(lia)).
    Qed.
  End Run.

  (** the wires always have a (unique) solution *)
  Section Solve.
    Variables (h : heap) (par : nat -> Z) (x : elem) (s : regs).
    Hypothesis I : Inv h.
    Fixpoint sig (fuel n : nat) : Z :=
      match fuel with
      | O => 0%Z
      | S fuel => match get h n with Some d => out par d x (sig fuel) (r_data s n) | None => 0%Z end
      end.
    Definition rank (n : nat) : nat := if n <? length g0 then S n else 0.
    Lemma arg_rank n d a f e : get h n = Some d -> n_kind d = KOp f -> n_end d = Some e -> In a (n_args d) -> rank (fst a) < rank n.
    Proof.
      intros G K E Ha. destruct (proj2 I n d G) as [(d0 & G0 & K0 & _ & _ & _ & _ & EE)|(_ & Kd & _)]; [|congruence].
      rewrite E, K in EE. destruct EE as (_ & st & _ & F & _). pose proof (get_some_lt _ _ _ G0) as Ln.
      unfold rank at 2. replace (n <? length g0) with true by (symmetry; apply Nat.ltb_lt; exact Ln).
      destruct (UG n d0 G0) as (UA & _). apply Forall_app in UA. destruct UA as (UA & _).
      assert (Q : exists a0, In a0 (n_args d0) /\ fed h st a0 a).
      { clear - F Ha. induction F as [|p q lp lq H F IH]; [destruct Ha|]. destruct Ha as [->|Ha]; [exists p; split; [left; reflexivity|exact H]|].
        destruct (IH Ha) as (a0 & H1 & H2). exists a0. split; [right; exact H1|exact H2]. }
      destruct Q as (a0 & Ha0 & D & _). destruct (proj1 (Forall_forall _ _) UA a0 Ha0) as (Lt & _).
      unfold rank. destruct (Nat.ltb_spec (fst a) (length g0)) as [La|La]; [|lia].
      inversion D as [Eq|b p al db Gb Kb Ab _ Eq]; [lia|].
      destruct (proj2 I (fst a) db Gb) as [(d1 & G1 & U1)|(L1 & _)]; [|lia]. pose proof (user_not_delay _ _ _ _ G1 U1) as N. rewrite Kb in N. discriminate.
    Qed.
    Lemma unvisited_rank n d a f : get h n = Some d -> n_kind d = KOp f -> n_end d = None -> In a (n_args d) -> rank (fst a) < rank n.
    Proof.
      intros G K E Ha. destruct (proj2 I n d G) as [(d0 & G0 & K0 & _ & _ & _ & _ & EE)|(_ & Kd & _)]; [|congruence].
      rewrite E in EE. destruct EE as (EA & _). pose proof (get_some_lt _ _ _ G0) as Ln. rewrite EA in Ha.
      destruct (UG n d0 G0) as (UA & _). apply Forall_app in UA. destruct UA as (UA & _). destruct (proj1 (Forall_forall _ _) UA a Ha) as (Lt & _).
      unfold rank. replace (n <? length g0) with true by (symmetry; apply Nat.ltb_lt; exact Ln). destruct (fst a <? length g0); lia.
    Qed.
    Lemma sig_fuel f1 : forall f2 n, rank n < f1 -> rank n < f2 -> sig f1 n = sig f2 n.
    Proof.
      induction f1 as [|f1 IH]; intros f2 n H1 H2; [lia|]. destruct f2 as [|f2]; [lia|]. cbn [sig]. destruct (get h n) as [d|] eqn:G; [|reflexivity].
      unfold out. destruct (n_kind d) as [| | |f| | |] eqn:K; try reflexivity. destruct (n_lat d); [|reflexivity]. f_equal. unfold vals. apply map_ext_in. intros a Ha.
      assert (R : rank (fst a) < rank n) by (destruct (n_end d) as [e|] eqn:E; [exact (arg_rank n d a f e G K E Ha)|exact (unvisited_rank n d a f G K E Ha)]).
      apply IH; lia.
    Qed.
    Lemma wires_solve : wires_ok h par x s (sig (S (S (length g0)))).
    Proof.
      intros n d G.
      assert (RB : forall k, rank k < S (S (length g0)) - 1 \/ rank k = 0) by (intros k; unfold rank; destruct (Nat.ltb_spec k (length g0)); lia).
      transitivity (sig (S (S (S (length g0)))) n); [apply sig_fuel; destruct (RB n); lia|].
      remember (S (S (length g0))) as N. cbn [sig]. rewrite G. reflexivity.
    Qed.
  End Solve.
End Sched.
