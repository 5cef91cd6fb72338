(** Proofs for C66. *)
From Verif Require Import Base Dflow_Model Dflow_Spec Dflow_Proofs Dsched_Model Dsched_Spec.
Open Scope nat_scope.

Notation len q := (length (q_nodes q)).
Definition nd (q : sch) (t : nat) : dnode := nth t (q_nodes q) (NConst 0).

Section Sched.
  Variable g : graph.
  Hypothesis Hg : legal g.

  (** [src t] is the old node a new node stands for *)
  Definition direct (q : sch) (src : nat -> nat) (t : nat) : Prop :=
    t = mapped q (src t) /\
    match node g (src t) with
    | NIn => nd q t = NIn /\ endof q t = Some 0
    | NConst v => nd q t = NConst v /\ endof q t = None
    | NPrev a r => nd q t = NPrev (mapped q a) (mapped q r) /\ mapped q a < t /\ mapped q r < t /\ endof q t = endof q (mapped q a)
    | NOp o l => exists rs mine, nd q t = NOp o rs /\
        Forall2 (fun r a => r < t /\ src r = a /\ (endof q r = None \/ endof q r = mine)) rs l /\
        (forall a c, In a l -> endof q (mapped q a) = Some c -> exists m, mine = Some m /\ c <= m) /\
        (forall m, mine = Some m -> exists a, In a l /\ endof q (mapped q a) = Some m) /\
        endof q t = Some (next_stage (S (op_more o)) mine)
    end.
  Definition delay (q : sch) (src : nat -> nat) (t p : nat) : Prop :=
    nd q t = NOp op_delay [p] /\ p < t /\ src p = src t /\ exists s, endof q p = Some s /\ endof q t = Some (S s).
  Definition usedby (q : sch) (t : nat) : Prop := exists w o l, w < len q /\ nd q w = NOp o l /\ In t l.
  Record qinv (q : sch) (src : nat -> nat) (pend : list nat) : Prop := mkQinv {
    i_len : length (q_end q) = len q;
    i_size : length (q_map q) <= size g;
    i_map : forall n, n < length (q_map q) -> mapped q n < len q /\ src (mapped q n) = n;
    i_dir : forall n, n < length (q_map q) -> direct q src (mapped q n);
    i_node : forall t, t < len q -> src t < length (q_map q) /\ (direct q src t \/ exists p, delay q src t p);
    i_del : forall u s r, delayed q u s = Some r -> r < len q /\ src r = src u /\ endof q r = Some s /\
      exists p c, nd q r = NOp op_delay [p] /\ endof q u = Some c /\ (s = S c /\ p = u \/ S c < s /\ delayed q u (pred s) = Some p);
    i_used : forall t p, t < len q -> delay q src t p -> In t pend \/ usedby q t \/ t = mapped q (src t) }.

  Record ext (q q' : sch) (src src' : nat -> nat) : Prop := mkExt {
    e_len : len q <= len q';
    e_nd : forall t, t < len q -> nd q' t = nd q t;
    e_end : forall t, t < len q -> endof q' t = endof q t;
    e_src : forall t, t < len q -> src' t = src t;
    e_mlen : length (q_map q) <= length (q_map q');
    e_map : forall n, n < length (q_map q) -> mapped q' n = mapped q n }.
  Lemma ext_refl q src : ext q q src src.
  Proof using. clear. constructor; auto. Qed.
  Lemma ext_trans a b c sa sb sc : ext a b sa sb -> ext b c sb sc -> ext a c sa sc.
  Proof using.
    clear. intros H1 H2. destruct H1 as [A1 A2 A3 A4 A5 A6], H2 as [B1 B2 B3 B4 B5 B6]. constructor; intros; try lia;
      [rewrite B2, A2|rewrite B3, A3|rewrite B4, A4|rewrite B6, A6]; auto; lia.
  Qed.

  Lemma arg_src w o l a : w < size g -> node g w = NOp o l -> In a l -> a < w.
  Proof using Hg. apply (arg_lt g Hg). Qed.
  Lemma direct_ext q q' src src' t pend : qinv q src pend -> ext q q' src src' -> t < len q -> direct q src t -> direct q' src' t.
  Proof using Hg.
    intros HI [E1 E2 E3 E4 E5 E6] Ht [D1 D2]. destruct (i_node _ _ _ HI t Ht) as [Hs _]. pose proof (i_size _ _ _ HI) as Hz.
    unfold direct. rewrite (E4 t Ht), (E6 _ Hs). split; [exact D1|]. rewrite (E2 t Ht), (E3 t Ht).
    pose proof (legal_node g Hg (src t) ltac:(lia)) as L. destruct (node g (src t)) as [|v|o l|a r] eqn:En; auto.
    - destruct D2 as (rs & mine & F1 & F2 & F3 & F4 & F5). exists rs, mine. rewrite Forall_forall in L.
      assert (M : forall a, In a l -> mapped q' a = mapped q a /\ endof q' (mapped q a) = endof q (mapped q a)).
      { intros a Ha. specialize (L a Ha). assert (La : a < length (q_map q)) by lia. split; [apply E6, La|apply E3, (i_map _ _ _ HI a La)]. }
      split; [exact F1|]. split.
      { clear - F2 E4 E3 Ht. induction F2 as [|r a rs l (G1 & G2 & G3) _ IH]; constructor; [|exact IH].
        rewrite (E4 r), (E3 r) by lia. auto. }
      split; [intros a c Ha; destruct (M a Ha) as [-> ->]; apply F3, Ha|]. split; [|exact F5].
      intros m Em. destruct (F4 m Em) as (a & Ha & Ea). exists a. destruct (M a Ha) as [-> ->]. auto.
    - destruct L as (L1 & L2 & _). rewrite (E6 a), (E6 r) by lia. destruct D2 as (F1 & F2 & F3 & F4). rewrite (E3 (mapped q a)) by lia. auto.
  Qed.
  Lemma delay_ext q q' src src' t p : ext q q' src src' -> t < len q -> delay q src t p <-> delay q' src' t p.
  Proof using.
    clear. intros [E1 E2 E3 E4 E5 E6] Ht. unfold delay. rewrite (E2 t Ht), (E4 t Ht), (E3 t Ht). split; intros (D1 & D2 & D3 & D4).
    - rewrite (E4 p), (E3 p) by lia. auto.
    - rewrite (E4 p), (E3 p) in * by lia. auto.
  Qed.
  Lemma usedby_ext q q' src src' t : ext q q' src src' -> usedby q t -> usedby q' t.
  Proof using.
    clear. intros [E1 E2 E3 E4 E5 E6] (w & o & l & H1 & H2 & H3). exists w, o, l. rewrite E2 by exact H1. repeat split; auto. lia.
  Qed.

  (** a new delay *)
  Definition upd (f : nat -> nat) (t v : nat) : nat -> nat := fun x => if x =? t then v else f x.
  Lemma emit_ext q x e src v : length (q_end q) = len q -> ext q (emit q x e) src (upd src (len q) v).
  Proof using.
    clear. intros Hl. constructor; cbn [emit q_nodes q_end q_map]; rewrite ?app_length; cbn [length]; try lia; intros t Ht.
    - unfold nd. cbn [emit q_nodes]. apply app_nth1, Ht.
    - unfold endof. cbn [emit q_end]. apply app_nth1. lia.
    - unfold upd. destruct (Nat.eqb_spec t (len q)); [lia|reflexivity].
    - reflexivity.
  Qed.
  Lemma emit_nd q x e : nd (emit q x e) (len q) = x.
  Proof using. clear. unfold nd. cbn [emit q_nodes]. rewrite app_nth2, Nat.sub_diag by lia. reflexivity. Qed.
  Lemma emit_end q x e : length (q_end q) = len q -> endof (emit q x e) (len q) = e.
  Proof using. clear. intros H. unfold endof. cbn [emit q_end]. rewrite app_nth2, H, Nat.sub_diag by lia. reflexivity. Qed.
  Lemma emit_len q x e : len (emit q x e) = S (len q).
  Proof using. clear. cbn [emit q_nodes]. rewrite app_length. cbn. lia. Qed.

  Lemma delayed_add q u s r u' s' : delayed (add_delay q u s r) u' s' = if (u =? u') && (s =? s') then Some r else delayed q u' s'.
  Proof using. clear. unfold delayed. cbn [add_delay q_del find fst snd]. destruct ((u =? u') && (s =? s')); reflexivity. Qed.

  Lemma delay_step q src pend u prev cur c0 : qinv q src (prev :: pend) -> u < len q -> endof q u = Some c0 -> prev < len q -> src prev = src u -> endof q prev = Some cur ->
    (prev = u /\ cur = c0 \/ delayed q u cur = Some prev /\ c0 < cur) -> delayed q u (S cur) = None ->
    let q' := add_delay (emit q (NOp op_delay [prev]) (Some (S cur))) u (S cur) (len q) in
    let src' := upd src (len q) (src u) in
    qinv q' src' (len q :: pend) /\ ext q q' src src' /\ len q' = S (len q) /\ endof q' (len q) = Some (S cur) /\ src' (len q) = src u /\ delayed q' u (S cur) = Some (len q).
  Proof using Hg.
    intros HI Hu Eu Hp Sp Ep Hc Hn q' src'. pose proof (i_len _ _ _ HI) as Hl.
    assert (HE : ext q q' src src') by (destruct (emit_ext q (NOp op_delay [prev]) (Some (S cur)) src (src u) Hl); constructor; assumption).
    assert (Hlen : len q' = S (len q)) by apply emit_len.
    assert (He : endof q' (len q) = Some (S cur)) by (apply (emit_end q _ _ Hl)).
    assert (Hs : src' (len q) = src u) by (unfold src', upd; rewrite Nat.eqb_refl; reflexivity).
    assert (Hd : delayed q' u (S cur) = Some (len q)) by (unfold q'; rewrite delayed_add, !Nat.eqb_refl; reflexivity).
    assert (Hnd : nd q' (len q) = NOp op_delay [prev]) by apply emit_nd.
    assert (HDel : forall u' s', delayed q' u' s' = if (u =? u') && (S cur =? s') then Some (len q) else delayed q u' s') by (intros; unfold q'; rewrite delayed_add; reflexivity).
    split; [|repeat split; auto; apply HE]. pose proof (e_src _ _ _ _ HE) as ES. pose proof (e_end _ _ _ _ HE) as EE. pose proof (e_nd _ _ _ _ HE) as EN. constructor.
    - cbn [q' add_delay emit q_end q_nodes]. rewrite !app_length. cbn [length]. lia.
    - apply (i_size _ _ _ HI).
    - intros n Hn'. destruct (i_map _ _ _ HI n Hn') as [M1 M2]. change (mapped q' n) with (mapped q n). rewrite Hlen, ES by exact M1. split; [lia|exact M2].
    - intros n Hn'. change (mapped q' n) with (mapped q n). apply (direct_ext q q' src src' _ _ HI HE); [apply (i_map _ _ _ HI n Hn')|apply (i_dir _ _ _ HI n Hn')].
    - intros t Ht. rewrite Hlen in Ht. change (length (q_map q')) with (length (q_map q)). destruct (Nat.eq_dec t (len q)) as [->|Hne].
      + rewrite Hs. split; [apply (i_node _ _ _ HI u Hu)|]. right. exists prev. split; [exact Hnd|]. split; [exact Hp|]. rewrite ES by exact Hp. split; [congruence|].
        exists cur. rewrite EE by exact Hp. auto.
      + assert (Ht' : t < len q) by lia. rewrite ES by exact Ht'. destruct (i_node _ _ _ HI t Ht') as [N1 [N2|[p N2]]]; (split; [exact N1|]).
        * left. eapply direct_ext; eassumption.
        * right. exists p. apply (proj1 (delay_ext _ _ _ _ t p HE Ht')), N2.
    - intros u' s' r. rewrite HDel. destruct (Nat.eqb_spec u u') as [<-|Hne]; cbn [andb].
      + destruct (Nat.eqb_spec (S cur) s') as [<-|Hns].
        * intros H. injection H as <-. split; [lia|]. rewrite Hs, ES by exact Hu. split; [reflexivity|]. split; [exact He|].
          exists prev, c0. rewrite EE by exact Hu. split; [exact Hnd|]. split; [exact Eu|].
          destruct Hc as [[-> ->]|[Hc1 Hc2]]; [left; auto|right]. split; [lia|]. cbn [pred]. rewrite HDel.
          destruct (Nat.eqb_spec (S cur) cur); [lia|]. rewrite andb_false_r. exact Hc1.
        * intros H. destruct (i_del _ _ _ HI u s' r H) as (D1 & D2 & D3 & p & c & D4 & D5 & D6).
          rewrite !ES, !EE by lia. split; [lia|]. split; [exact D2|]. split; [exact D3|]. exists p, c. rewrite EN by exact D1. split; [exact D4|]. split; [exact D5|].
          destruct D6 as [D6|[D6 D7]]; [left; exact D6|right]. split; [exact D6|]. rewrite HDel.
          destruct (Nat.eqb_spec (S cur) (pred s')) as [E|]; [|rewrite andb_false_r; exact D7]. rewrite <- E in D7. congruence.
      + intros H. destruct (i_del _ _ _ HI u' s' r H) as (D1 & D2 & D3 & p & c & D4 & D5 & D6).
        assert (Hu' : u' < len q). { destruct (le_lt_dec (len q) u') as [G|G]; [|exact G]. exfalso. unfold endof in D5. rewrite nth_overflow in D5 by lia. discriminate. }
        rewrite !ES, !EE by lia. split; [lia|]. split; [exact D2|]. split; [exact D3|]. exists p, c. rewrite EN by exact D1. split; [exact D4|]. split; [exact D5|].
        destruct D6 as [D6|[D6 D7]]; [left; exact D6|right]. split; [exact D6|]. rewrite HDel.
        destruct (Nat.eqb_spec u u'); [congruence|]. exact D7.
    - intros t p Ht D. rewrite Hlen in Ht. destruct (Nat.eq_dec t (len q)) as [->|Hne]; [left; left; reflexivity|]. assert (Ht' : t < len q) by lia.
      apply (delay_ext _ _ _ _ t p HE Ht') in D. destruct (i_used _ _ _ HI t p Ht' D) as [[<-|U]|[U|U]].
      + right. left. exists (len q), op_delay, [prev]. split; [lia|]. split; [exact Hnd|left; reflexivity].
      + left. right. exact U.
      + right. left. eapply usedby_ext; eassumption.
      + right. right. rewrite ES by exact Ht'. exact U.
  Qed.
  Lemma qinv_weaken q src p p' : (forall t, In t p -> In t p' \/ usedby q t \/ t = mapped q (src t)) -> qinv q src p -> qinv q src p'.
  Proof using.
    clear. intros H [I1 I2 I3 I3' I4 I5 I6]. constructor; auto. intros t x Ht D. destruct (I6 t x Ht D) as [U|U]; [apply H, U|right; exact U].
  Qed.

  Lemma fill_loop_ok k : forall q src pend u prev cur c0, qinv q src (prev :: pend) -> u < len q -> u = mapped q (src u) -> endof q u = Some c0 -> prev < len q -> src prev = src u -> endof q prev = Some cur ->
    (prev = u /\ cur = c0 \/ delayed q u cur = Some prev /\ c0 < cur) ->
    let (q', r) := fill_loop k q u prev cur in
    exists src', qinv q' src' (r :: pend) /\ ext q q' src src' /\ q_map q' = q_map q /\ r < len q' /\ src' r = src u /\ endof q' r = Some (cur + k).
  Proof using Hg.
    induction k as [|k IH]; intros q src pend u prev cur c0 HI Hu Mu Eu Hp Sp Ep Hc; cbn [fill_loop].
    - exists src. rewrite Nat.add_0_r. split; [exact HI|]. split; [apply ext_refl|]. auto.
    - destruct (delayed q u (S cur)) as [r|] eqn:Ed.
      + destruct (i_del _ _ _ HI u (S cur) r Ed) as (D1 & D2 & D3 & p & c & D4 & D5 & D6). rewrite Eu in D5. injection D5 as <-.
        assert (Ep' : p = prev). { destruct D6 as [[D6 ->]|[D6 D7]], Hc as [[Hc1 Hc2]|[Hc1 Hc2]]; try lia. cbn [pred] in D7. congruence. }
        subst p. assert (Hc' : r = u /\ S cur = c0 \/ delayed q u (S cur) = Some r /\ c0 < S cur) by (right; split; [exact Ed|destruct Hc as [[_ ->]|[_ ?]]; lia]).
        assert (HI' : qinv q src (r :: pend)).
        { eapply qinv_weaken; [|exact HI]. intros t [<-|Ht]; [|left; right; exact Ht]. right. left. exists r, op_delay, [prev]. split; [exact D1|]. split; [exact D4|left; reflexivity]. }
        specialize (IH q src pend u r (S cur) c0 HI' Hu Mu Eu D1 D2 D3 Hc'). destruct (fill_loop k q u r (S cur)) as [q' r']. replace (cur + S k) with (S cur + k) by lia. exact IH.
      + destruct (delay_step q src pend u prev cur c0 HI Hu Eu Hp Sp Ep Hc Ed) as (A1 & A2 & A3 & A4 & A5 & A6). cbv zeta.
        set (q1 := add_delay (emit q (NOp op_delay [prev]) (Some (S cur))) u (S cur) (len q)) in *. set (src1 := upd src (len q) (src u)) in *.
        assert (Su : src1 u = src u) by (apply (e_src _ _ _ _ A2), Hu).
        assert (Hc' : len q = u /\ S cur = c0 \/ delayed q1 u (S cur) = Some (len q) /\ c0 < S cur) by (right; split; [exact A6|destruct Hc as [[_ ->]|[_ ?]]; lia]).
        specialize (IH q1 src1 pend u (len q) (S cur) c0 A1 ltac:(lia) ltac:(rewrite Su; exact Mu) ltac:(rewrite (e_end _ _ _ _ A2) by exact Hu; exact Eu) ltac:(lia) ltac:(congruence) A4 Hc').
        destruct (fill_loop k q1 u (len q) (S cur)) as [q' r]. destruct IH as (src' & B1 & B2 & B3 & B4 & B5 & B6). exists src'.
        split; [exact B1|]. split; [eapply ext_trans; eassumption|]. split; [exact B3|]. split; [exact B4|]. split; [congruence|]. rewrite B6. f_equal. lia.
  Qed.
  Lemma fill_ok q src pend n e : qinv q src pend -> n < length (q_map q) -> (forall c m, endof q (mapped q n) = Some c -> e = Some m -> c <= m) -> (e = None -> endof q (mapped q n) = None) ->
    let (q', r) := fill q (mapped q n) e in
    exists src', qinv q' src' (r :: pend) /\ ext q q' src src' /\ q_map q' = q_map q /\ r < len q' /\ src' r = n /\
      endof q' r = match endof q (mapped q n) with Some _ => e | None => None end.
  Proof using Hg.
    intros HI Hn He He'. destruct (i_map _ _ _ HI n Hn) as [M1 M2].
    assert (HI' : qinv q src (mapped q n :: pend)) by (eapply qinv_weaken; [|exact HI]; intros t Ht; left; right; exact Ht).
    assert (Triv : endof q (mapped q n) = None -> exists src', qinv q src' (mapped q n :: pend) /\ ext q q src src' /\ q_map q = q_map q /\ mapped q n < len q /\ src' (mapped q n) = n /\ endof q (mapped q n) = None).
    { intros H. exists src. split; [exact HI'|]. split; [apply ext_refl|]. auto. }
    unfold fill. destruct e as [m|]; destruct (endof q (mapped q n)) as [c|] eqn:Ec.
    - pose proof (fill_loop_ok (m - c) q src pend (mapped q n) (mapped q n) c c HI' M1 ltac:(rewrite M2; reflexivity) Ec M1 eq_refl Ec (or_introl (conj eq_refl eq_refl))) as H.
      destruct (fill_loop (m - c) q (mapped q n) (mapped q n) c) as [q' r]. destruct H as (src' & A1 & A2 & A3 & A4 & A5 & A6). exists src'. rewrite M2 in A5.
      rewrite A6. specialize (He c m eq_refl eq_refl). replace (c + (m - c)) with m by lia. auto 10.
    - rewrite Ec. apply Triv. reflexivity.
    - discriminate (He' eq_refl).
    - apply Triv. reflexivity.
  Qed.
  Lemma fill_all_ok ns e : forall q src pend, qinv q src pend -> (forall n, In n ns -> n < length (q_map q)) ->
    (forall n c m, In n ns -> endof q (mapped q n) = Some c -> e = Some m -> c <= m) -> (forall n, In n ns -> e = None -> endof q (mapped q n) = None) ->
    let (q', rs) := fill_all q (map (mapped q) ns) e in
    exists src', qinv q' src' (rs ++ pend) /\ ext q q' src src' /\ q_map q' = q_map q /\
      Forall2 (fun r n => r < len q' /\ src' r = n /\ endof q' r = match endof q (mapped q n) with Some _ => e | None => None end) rs ns.
  Proof using Hg.
    induction ns as [|n ns IH]; intros q src pend HI Hn He He'.
    - cbn. exists src. split; [exact HI|]. split; [apply ext_refl|]. auto.
    - cbn [map fill_all]. pose proof (fill_ok q src pend n e HI (Hn n (or_introl eq_refl)) (fun c m => He n c m (or_introl eq_refl)) (He' n (or_introl eq_refl))) as H.
      destruct (fill q (mapped q n) e) as [q1 r]. destruct H as (src1 & A1 & A2 & A3 & A4 & A5 & A6).
      assert (Hm : forall x, mapped q1 x = mapped q x) by (intros x; unfold mapped; rewrite A3; reflexivity).
      assert (HL : forall x, In x ns -> endof q1 (mapped q x) = endof q (mapped q x)).
      { intros x Hx. apply (e_end _ _ _ _ A2). apply (i_map _ _ _ HI). apply Hn. right. exact Hx. }
      specialize (IH q1 src1 (r :: pend) A1). rewrite A3 in IH. specialize (IH (fun x Hx => Hn x (or_intror Hx))).
      assert (E : map (mapped q1) ns = map (mapped q) ns) by (apply map_ext, Hm). rewrite E in IH. 
      assert (G1 : forall n0 c m, In n0 ns -> endof q1 (mapped q1 n0) = Some c -> e = Some m -> c <= m).
      { intros x c m Hx. rewrite Hm, HL by exact Hx. apply He. right. exact Hx. }
      assert (G2 : forall n0, In n0 ns -> e = None -> endof q1 (mapped q1 n0) = None).
      { intros x Hx. rewrite Hm, HL by exact Hx. apply He'. right. exact Hx. }
      specialize (IH G1 G2). destruct (fill_all q1 (map (mapped q) ns) e) as [q2 rs]. destruct IH as (src2 & B1 & B2 & B3 & B4).
      exists src2. split; [|split; [eapply ext_trans; eassumption|split; [congruence|]]].
      + eapply qinv_weaken; [|exact B1]. intros t Ht. left. apply in_app_or in Ht. destruct Ht as [Ht|[<-|Ht]]; cbn [app]; [right; apply in_or_app; left; exact Ht|left; reflexivity|right; apply in_or_app; right; exact Ht].
      + constructor.
        * rewrite (e_src _ _ _ _ B2), (e_end _ _ _ _ B2) by exact A4. split; [pose proof (e_len _ _ _ _ B2); lia|]. auto.
        * clear - B4 HL Hm. assert (HL' : forall x, In x ns -> endof q1 (mapped q1 x) = endof q (mapped q x)) by (intros x Hx; rewrite Hm; apply HL, Hx). clear HL Hm.
          induction B4 as [|r n rs ns H _ IH]; constructor; [rewrite <- HL' by (left; reflexivity); exact H|]. apply IH. intros x Hx. apply HL'. right. exact Hx.
  Qed.

  (** maximum of the operands *)
  Lemma omax_fold l : forall a m, fold_left omax l a = m ->
    (forall c, a = Some c \/ In (Some c) l -> exists x, m = Some x /\ c <= x) /\ (forall x, m = Some x -> a = Some x \/ In (Some x) l).
  Proof using.
    clear. induction l as [|b l IH]; intros a m; cbn [fold_left].
    - intros <-. split; [intros c [->|[]]; eauto|auto].
    - intros H. destruct (IH _ _ H) as [H1 H2]. split.
      + intros c Hc. destruct a as [x|], b as [y|]; cbn [omax] in *.
        * destruct Hc as [Hc|[Hc|Hc]]; [injection Hc as <-|injection Hc as <-|apply H1; auto];
            destruct (H1 (Nat.max x y) (or_introl eq_refl)) as (z & -> & Hz); exists z; split; auto; lia.
        * destruct Hc as [Hc|[Hc|Hc]]; [apply H1; auto|discriminate|apply H1; auto].
        * destruct Hc as [Hc|[Hc|Hc]]; [discriminate|apply H1; auto|apply H1; auto].
        * destruct Hc as [Hc|[Hc|Hc]]; [discriminate|discriminate|apply H1; auto].
      + intros x Hx. destruct (H2 x Hx) as [E|E]; [|right; right; exact E]. destruct a as [u|], b as [v|]; cbn [omax] in E; try discriminate; auto.
        * injection E as <-. destruct (Nat.max_spec u v) as [[_ ->]|[_ ->]]; [right; left; reflexivity|left; reflexivity].
        * right. left. exact E.
  Qed.

  Lemma place_ok q src pend x e : qinv q src pend -> length (q_map q) < size g ->
    let q' := place (emit q x e) (len q) in let src' := upd src (len q) (length (q_map q)) in
    direct q' src' (len q) -> (forall t, In t pend -> exists o l, x = NOp o l /\ In t l) ->
    qinv q' src' [] /\ ext q q' src src' /\ length (q_map q') = S (length (q_map q)).
  Proof using Hg.
    intros HI Hz q' src' HD HP. pose proof (i_len _ _ _ HI) as Hl. destruct (emit_ext q x e src (length (q_map q)) Hl) as [E1 E2 E3 E4 E5 E6].
    assert (Hml : length (q_map q') = S (length (q_map q))) by (cbn [q' place emit q_map]; rewrite app_length; cbn; lia).
    assert (Hm : forall n, n < length (q_map q) -> mapped q' n = mapped q n) by (intros n Hn; unfold mapped, q'; cbn [place emit q_map]; apply app_nth1, Hn).
    assert (Hm' : mapped q' (length (q_map q)) = len q) by (unfold mapped, q'; cbn [place emit q_map]; rewrite app_nth2, Nat.sub_diag by lia; reflexivity).
    assert (HE : ext q q' src src') by (constructor; auto; rewrite Hml; lia).
    assert (Hlen : len q' = S (len q)) by apply emit_len.
    assert (Hs : src' (len q) = length (q_map q)) by (unfold src', upd; rewrite Nat.eqb_refl; reflexivity).
    split; [|split; [exact HE|exact Hml]]. pose proof (e_src _ _ _ _ HE) as ES. constructor.
    - cbn [q' place emit q_end q_nodes]. rewrite !app_length. cbn [length]. lia.
    - rewrite Hml. lia.
    - intros n Hn. rewrite Hml in Hn. destruct (Nat.eq_dec n (length (q_map q))) as [->|Hne].
      + rewrite Hm', Hs, Hlen. split; [lia|reflexivity].
      + rewrite Hm by lia. destruct (i_map _ _ _ HI n ltac:(lia)) as [M1 M2]. rewrite ES by exact M1. split; [lia|exact M2].
    - intros n Hn. rewrite Hml in Hn. destruct (Nat.eq_dec n (length (q_map q))) as [->|Hne]; [rewrite Hm'; exact HD|].
      rewrite Hm by lia. apply (direct_ext q q' src src' _ _ HI HE); [apply (i_map _ _ _ HI n ltac:(lia))|apply (i_dir _ _ _ HI n ltac:(lia))].
    - intros t Ht. rewrite Hlen in Ht. rewrite Hml. destruct (Nat.eq_dec t (len q)) as [->|Hne].
      + rewrite Hs. split; [lia|left; exact HD].
      + assert (Ht' : t < len q) by lia. rewrite ES by exact Ht'. destruct (i_node _ _ _ HI t Ht') as [N1 [N2|[p N2]]]; (split; [lia|]).
        * left. eapply direct_ext; eassumption.
        * right. exists p. apply (proj1 (delay_ext _ _ _ _ t p HE Ht')), N2.
    - intros u s r H. change (delayed q' u s) with (delayed q u s) in H. destruct (i_del _ _ _ HI u s r H) as (D1 & D2 & D3 & p & c & D4 & D5 & D6).
      assert (Hu : u < len q). { destruct (le_lt_dec (len q) u) as [G|G]; [|exact G]. exfalso. unfold endof in D5. rewrite nth_overflow in D5 by lia. discriminate. }
      rewrite !ES, !(e_end _ _ _ _ HE) by lia. split; [lia|]. split; [exact D2|]. split; [exact D3|]. exists p, c. rewrite (e_nd _ _ _ _ HE) by exact D1. auto.
    - intros t p Ht D. rewrite Hlen in Ht. destruct (Nat.eq_dec t (len q)) as [->|Hne]; [right; right; rewrite Hs, Hm'; reflexivity|]. assert (Ht' : t < len q) by lia.
      apply (delay_ext _ _ _ _ t p HE Ht') in D. right. destruct (i_used _ _ _ HI t p Ht' D) as [U|[U|U]].
      + left. destruct (HP t U) as (o & l & Ex & Hin). exists (len q), o, l. split; [lia|]. split; [|exact Hin]. rewrite <- Ex. apply (emit_nd q x e).
      + left. eapply usedby_ext; eassumption.
      + right. rewrite ES by exact Ht'. rewrite Hm; [exact U|]. apply (i_node _ _ _ HI t Ht').
  Qed.

  Lemma mapped_end q src pend n : qinv q src pend -> n < length (q_map q) -> (exists u, root g n = Some u) -> endof q (mapped q n) <> None.
  Proof using Hg.
    intros HI. induction n as [n IH] using (well_founded_induction lt_wf). intros Hn [u Hu] E.
    destruct (i_map _ _ _ HI n Hn) as [M1 M2]. destruct (i_node _ _ _ HI _ M1) as [_ [[_ D]|[p (_ & _ & _ & s & _ & D)]]]; [|congruence].
    rewrite M2 in D. pose proof (i_size _ _ _ HI). pose proof (legal_node g Hg n ltac:(lia)) as L. unfold root in Hu. destruct (node g n) as [|v|o l|a r] eqn:En; try discriminate.
    - destruct D as [_ D]. congruence.
    - destruct D as (rs & mine & _ & _ & _ & _ & D). congruence.
    - destruct D as (_ & _ & _ & D). destruct L as (L1 & L2 & _ & L4). apply (IH a L1); [lia|eauto|congruence].
  Qed.

  Theorem sched_node_ok q src : qinv q src [] -> length (q_map q) < size g ->
    exists src', qinv (sched_node q (node g (length (q_map q)))) src' [] /\ length (q_map (sched_node q (node g (length (q_map q))))) = S (length (q_map q)).
  Proof using Hg.
    intros HI Hz. set (n := length (q_map q)). pose proof (i_len _ _ _ HI) as Hl. pose proof (legal_node g Hg n Hz) as L.
    assert (Hs : forall v, upd src (len q) v (len q) = v) by (intros; unfold upd; rewrite Nat.eqb_refl; reflexivity).
    assert (Hm0 : forall q1 : sch, length (q_map q1) = n -> forall x e, mapped (place (emit q1 x e) (len q1)) n = len q1).
    { intros q1 E x e. unfold mapped. cbn [place emit q_map]. rewrite app_nth2, E, Nat.sub_diag by lia. reflexivity. }
    assert (Hm1 : forall (q1 : sch) x e m, m < length (q_map q1) -> mapped (place (emit q1 x e) (len q1)) m = mapped q1 m).
    { intros q1 x e m Hm. unfold mapped. cbn [place emit q_map]. apply app_nth1, Hm. }
    assert (Hnd : forall (q1 : sch) x e, nd (place (emit q1 x e) (len q1)) (len q1) = x) by (intros; apply emit_nd).
    assert (Hen : forall (q1 : sch) x e, length (q_end q1) = len q1 -> endof (place (emit q1 x e) (len q1)) (len q1) = e) by (intros q1 x e E; apply (emit_end q1 x e E)).
    assert (Hen1 : forall (q1 : sch) x e t, length (q_end q1) = len q1 -> t < len q1 -> endof (place (emit q1 x e) (len q1)) t = endof q1 t).
    { intros q1 x e t E Ht. apply (e_end _ _ src _ (emit_ext q1 x e src 0 E) t Ht). }
    destruct (node g n) as [|v|o l|a r] eqn:En; cbn [sched_node].
    - destruct (place_ok q src [] NIn (Some 0) HI Hz) as (P1 & _ & P3); [|intros t []|eauto].
      unfold direct. rewrite Hs. fold n. rewrite En, Hm0, Hnd, Hen by auto. auto.
    - destruct (place_ok q src [] (NConst v) None HI Hz) as (P1 & _ & P3); [|intros t []|eauto].
      unfold direct. rewrite Hs. fold n. rewrite En, Hm0, Hnd, Hen by auto. auto.
    - rewrite Forall_forall in L. set (mine := max_stage q (map (mapped q) l)).
      destruct (omax_fold _ _ mine (eq_refl : fold_left omax (map (endof q) (map (mapped q) l)) None = mine)) as [X1 X2].
      assert (X1' : forall a c, In a l -> endof q (mapped q a) = Some c -> exists m, mine = Some m /\ c <= m).
      { intros a c Ha Hc. apply X1. right. rewrite <- Hc. apply in_map, in_map, Ha. }
      assert (X2' : forall m, mine = Some m -> exists a, In a l /\ endof q (mapped q a) = Some m).
      { intros m Hm. destruct (X2 m Hm) as [X|X]; [discriminate|]. apply in_map_iff in X. destruct X as (y & Ey & Hy). apply in_map_iff in Hy. destruct Hy as (a & <- & Ha). eauto. }
      pose proof (fill_all_ok l mine q src [] HI) as F. specialize (F (fun a Ha => L a Ha)).
      assert (F1 : forall a c m, In a l -> endof q (mapped q a) = Some c -> mine = Some m -> c <= m).
      { intros a c m Ha Hc Em. destruct (X1' a c Ha Hc) as (m' & E' & ?). congruence || (rewrite Em in E'; injection E' as <-; assumption). }
      assert (F2 : forall a, In a l -> mine = None -> endof q (mapped q a) = None).
      { intros a Ha Em. destruct (endof q (mapped q a)) as [c|] eqn:Ec; [|reflexivity]. destruct (X1' a c Ha Ec) as (m & E' & _). congruence. }
      specialize (F F1 F2). destruct (fill_all q (map (mapped q) l) mine) as [q1 rs]. destruct F as (src1 & A1 & A2 & A3 & A4). rewrite app_nil_r in A1.
      assert (Hn1 : length (q_map q1) = n) by (rewrite A3; reflexivity). pose proof (i_len _ _ _ A1) as Hl1.
      destruct (place_ok q1 src1 rs (NOp o rs) (Some (next_stage (S (op_more o)) mine)) A1) as (P1 & _ & P3); [rewrite Hn1; exact Hz| |intros t Ht; eauto|rewrite A3 in P3; eauto].
      assert (Hs1 : forall v, upd src1 (len q1) v (len q1) = v) by (intros; unfold upd; rewrite Nat.eqb_refl; reflexivity).
      unfold direct. rewrite Hs1, Hn1, En, Hm0, Hnd, Hen by auto. split; [reflexivity|]. exists rs, mine. split; [reflexivity|].
      assert (HM : forall a, In a l -> endof (place (emit q1 (NOp o rs) (Some (next_stage (S (op_more o)) mine))) (len q1)) (mapped (place (emit q1 (NOp o rs) (Some (next_stage (S (op_more o)) mine))) (len q1)) a) = endof q (mapped q a)).
      { intros a Ha. specialize (L a Ha). assert (La : a < length (q_map q)) by exact L. destruct (i_map _ _ _ HI a La) as [M1 _]. rewrite Hm1 by (rewrite A3; exact La).
        assert (E : mapped q1 a = mapped q a) by (unfold mapped; rewrite A3; reflexivity). rewrite E. rewrite Hen1 by (auto; pose proof (e_len _ _ _ _ A2); lia). apply (e_end _ _ _ _ A2), M1. }
      split; [|split; [intros a c Ha; rewrite HM by exact Ha; apply X1', Ha|split; [|reflexivity]]].
      + clearbody mine. clear - A4 Hen1 Hl1. generalize (NOp o rs) (Some (next_stage (S (op_more o)) mine)). intros xx ee. induction A4 as [|r a rs' l' (G1 & G2 & G3) _ IH]; constructor; [|exact IH]. split; [exact G1|].
        rewrite Hen1 by auto. split.
        * unfold upd. destruct (Nat.eqb_spec r (len q1)); [lia|exact G2].
        * rewrite G3. destruct (endof q (mapped q a)); auto.
      + intros m Em. destruct (X2' m Em) as (a & Ha & Ea). exists a. rewrite HM by exact Ha. auto.
    - destruct L as (L1 & L2 & L3 & L4). destruct (i_map _ _ _ HI a L1) as [M1 _]. destruct (i_map _ _ _ HI r L2) as [M2 _].
      destruct (place_ok q src [] (NPrev (mapped q a) (mapped q r)) (Some (next_stage 0 (endof q (mapped q a)))) HI Hz) as (P1 & _ & P3); [|intros t []|eauto].
      unfold direct. rewrite Hs. fold n. rewrite En, Hm0, Hnd, Hen, !Hm1, Hen1 by auto. split; [reflexivity|]. split; [reflexivity|]. split; [exact M1|]. split; [exact M2|].
      pose proof (mapped_end q src [] a HI L1 ltac:(eauto)) as X. destruct (endof q (mapped q a)) as [c|]; [|congruence]. cbn. rewrite Nat.add_0_r. reflexivity.
  Qed.
  Lemma sched_prefix l1 : forall l2, d_nodes g = l1 ++ l2 -> exists src, qinv (sched_nodes l1) src [] /\ length (q_map (sched_nodes l1)) = length l1.
  Proof using Hg.
    induction l1 as [|x l1 IH] using rev_ind; intros l2 E.
    - exists (fun _ => 0). split; [|reflexivity]. constructor; cbn; try lia; intros; try lia; discriminate.
    - rewrite <- app_assoc in E. destruct (IH _ E) as (src & H1 & H2). unfold sched_nodes. rewrite fold_left_app. cbn [fold_left]. fold (sched_nodes l1).
      assert (Hx : node g (length (q_map (sched_nodes l1))) = x) by (unfold node; rewrite E, H2, app_nth2, Nat.sub_diag by lia; reflexivity).
      destruct (sched_node_ok _ src H1) as (src' & G1 & G2); [rewrite H2; unfold size; rewrite E, !app_length; cbn; lia|]. rewrite Hx in *. exists src'. split; [exact G1|].
      rewrite G2, H2, app_length. cbn. lia.
  Qed.

  (** ** The schedule *)
  Lemma out_stage_max q ts : let m := out_stage q ts in
    (forall t c, In t ts -> endof q t = Some c -> c <= m) /\ ((exists t, In t ts /\ endof q t = Some m) \/ m = 0).
  Proof using.
    clear. cbv zeta. unfold out_stage.
    assert (H : forall ts a, let m := fold_left (fun m t => match endof q t with Some e => Nat.max m e | None => m end) ts a in
      a <= m /\ (forall t c, In t ts -> endof q t = Some c -> c <= m) /\ ((exists t, In t ts /\ endof q t = Some m) \/ m = a)).
    { clear. induction ts as [|t ts IH]; intros a; cbn [fold_left]; cbv zeta.
      - split; [lia|]. split; [intros t c []|auto].
      - set (a' := match endof q t with Some e => Nat.max a e | None => a end). destruct (IH a') as (I1 & I2 & I3). cbv zeta in *.
        assert (Ha : a <= a') by (unfold a'; destruct (endof q t); lia). split; [lia|]. split.
        + intros x c [<-|Hx] Hc; [|eapply I2; eassumption]. unfold a' in I1. rewrite Hc in I1. fold a' in I1. assert (c <= a') by (unfold a'; rewrite Hc; lia). unfold a' in *. rewrite Hc in *. lia.
        + destruct I3 as [(x & X1 & X2)|I3]; [left; exists x; split; [right|]; assumption|]. rewrite I3. unfold a'. destruct (endof q t) as [e|] eqn:Ee; [|auto].
          destruct (Nat.max_spec a e) as [[_ E]|[_ E]]; rewrite E; [left; exists t; split; [left; reflexivity|assumption]|auto]. }
    destruct (H ts 0) as (H1 & H2 & H3). auto.
  Qed.
  Theorem balance_ok : exists src q rs m, balance g = (q, rs, m) /\ qinv q src rs /\ length (q_map q) = size g /\
    Forall2 (fun r n => r < len q /\ src r = n /\ endof q r = Some m) rs (d_out g) /\
    (forall n c, In n (d_out g) -> endof q (mapped q n) = Some c -> c <= m) /\
    ((exists n, In n (d_out g) /\ endof q (mapped q n) = Some m) \/ m = 0).
  Proof using Hg.
    destruct (sched_prefix (d_nodes g) [] (eq_sym (app_nil_r _))) as (src & H1 & H2). unfold balance. set (q := sched_nodes (d_nodes g)) in *.
    set (m := out_stage q (map (mapped q) (d_out g))). pose proof Hg as [_ HO]. rewrite Forall_forall in HO.
    destruct (out_stage_max q (map (mapped q) (d_out g))) as [M1 M2]. fold m in M1, M2.
    assert (Hlt : forall n, In n (d_out g) -> n < length (q_map q)) by (intros n Hn; rewrite H2; apply (HO n Hn)).
    pose proof (fill_all_ok (d_out g) (Some m) q src [] H1 Hlt) as F.
    assert (F1 : forall n c m0, In n (d_out g) -> endof q (mapped q n) = Some c -> Some m = Some m0 -> c <= m0).
    { intros n c m0 Hn Hc E. injection E as <-. apply (M1 (mapped q n) c); [apply in_map, Hn|exact Hc]. }
    assert (F2 : forall n, In n (d_out g) -> Some m = None -> endof q (mapped q n) = None) by discriminate.
    specialize (F F1 F2). destruct (fill_all q (map (mapped q) (d_out g)) (Some m)) as [q' rs]. destruct F as (src' & A1 & A2 & A3 & A4). rewrite app_nil_r in A1.
    assert (HE : forall n, In n (d_out g) -> endof q' (mapped q' n) = endof q (mapped q n)).
    { intros n Hn. destruct (i_map _ _ _ H1 n (Hlt n Hn)) as [X _]. assert (E : mapped q' n = mapped q n) by (unfold mapped; rewrite A3; reflexivity). rewrite E. apply (e_end _ _ _ _ A2), X. }
    exists src', q', rs, m. split; [reflexivity|]. split; [exact A1|]. split; [rewrite A3; exact H2|]. split; [|split].
    - assert (HN : forall n, In n (d_out g) -> endof q (mapped q n) <> None) by (intros n Hn; apply (mapped_end q src [] n H1 (Hlt n Hn)), (HO n Hn)).
      clearbody m. clear - A4 HN. induction A4 as [|r n rs ns (G1 & G2 & G3) _ IH]; constructor; [|apply IH; intros x Hx; apply HN; right; exact Hx].
      split; [exact G1|]. split; [exact G2|]. rewrite G3. specialize (HN n (or_introl eq_refl)). destruct (endof q (mapped q n)); [reflexivity|congruence].
    - intros n c Hn. rewrite HE by exact Hn. intros Hc. exact (F1 n c m Hn Hc eq_refl).
    - destruct M2 as [(t & T1 & T2)|M2]; [left|right; exact M2]. apply in_map_iff in T1. destruct T1 as (n & <- & Hn). exists n. rewrite HE by exact Hn. auto.
  Qed.
End Sched.

(** ** The scheduled graph *)
Section Final.
  Variables (g : graph) (q : sch) (rs : list nat) (m : nat) (src : nat -> nat).
  Hypotheses (Hg : legal g) (HI : qinv g q src rs) (HM : length (q_map q) = size g)
    (HO : Forall2 (fun r n => r < len q /\ src r = n /\ endof q r = Some m) rs (d_out g)).
  Notation h := (mkGraph (q_nodes q) rs).
  Notation nodes_ok := (i_node g q src rs HI).

  Lemma src_lt t : t < len q -> src t < size g.
  Proof using HI HM. intros Ht. rewrite <- HM. apply (nodes_ok t Ht). Qed.
  Lemma mapped_ok n : n < size g -> mapped q n < len q /\ src (mapped q n) = n.
  Proof using HI HM. intros Hn. apply (i_map _ _ _ _ HI). rewrite HM. exact Hn. Qed.
  (** old nodes *)
  Lemma mapped_node n : n < size g -> match node g n with
      | NIn => nd q (mapped q n) = NIn /\ endof q (mapped q n) = Some 0
      | NConst v => nd q (mapped q n) = NConst v /\ endof q (mapped q n) = None
      | NPrev a r => nd q (mapped q n) = NPrev (mapped q a) (mapped q r) /\ mapped q a < mapped q n /\ mapped q r < mapped q n /\ endof q (mapped q n) = endof q (mapped q a)
      | NOp o l => exists rs mine, nd q (mapped q n) = NOp o rs /\
        Forall2 (fun r a => r < mapped q n /\ src r = a /\ (endof q r = None \/ endof q r = mine)) rs l /\
        (forall a c, In a l -> endof q (mapped q a) = Some c -> exists m, mine = Some m /\ c <= m) /\
        (forall m, mine = Some m -> exists a, In a l /\ endof q (mapped q a) = Some m) /\
        endof q (mapped q n) = Some (next_stage (S (op_more o)) mine) end.
  Proof using HI HM.
    intros Hn. destruct (mapped_ok n Hn) as [M1 M2]. destruct (i_dir _ _ _ _ HI n ltac:(lia)) as [_ D]. rewrite M2 in D. exact D.
  Qed.
  Lemma new_cases t : t < len q -> t = mapped q (src t) \/ exists p, delay q src t p.
  Proof using HI. intros Ht. destruct (nodes_ok t Ht) as [_ [[D _]|D]]; auto. Qed.
  Lemma hnode t : node h t = nd q t.
  Proof using. reflexivity. Qed.
  Lemma hroot_mapped n u : n < size g -> root g n = Some u -> root h (mapped q n) = Some (mapped q u).
  Proof using HI HM Hg.
    intros Hn Hu. pose proof (mapped_node n Hn) as D. unfold root in *. rewrite hnode. destruct (node g n) as [|v|o l|a r] eqn:En; try discriminate; injection Hu as <-.
    - destruct D as [-> _]. reflexivity.
    - destruct D as (x & y & -> & _). reflexivity.
    - destruct D as [-> _]. reflexivity.
  Qed.
  Lemma hroot t : t < len q -> (exists u, root g (src t) = Some u) <-> (exists u, root h t = Some u).
  Proof using HI HM Hg.
    induction t as [t IH] using (well_founded_induction lt_wf). intros Ht. pose proof (src_lt t Ht) as Hs. destruct (new_cases t Ht) as [E|[p (D1 & D2 & D3 & D4)]].
    - split.
      + intros [u Hu]. exists (mapped q u). rewrite E.  apply hroot_mapped; assumption.
      + intros [u Hu]. pose proof (mapped_node _ Hs) as D. rewrite <- E in D. unfold root in *. rewrite hnode in Hu. destruct (node g (src t)) as [|v|o l|a r]; eauto.
        destruct D as [D _]. rewrite D in Hu. discriminate.
    - split; [intros _; exists t; unfold root; rewrite hnode, D1; reflexivity|]. intros _. rewrite <- D3.
      destruct D4 as (s & D4 & _). destruct (new_cases p ltac:(lia)) as [E|[p' D]].
      + pose proof (mapped_node (src p) ltac:(apply src_lt; lia)) as D. rewrite <- E in D. unfold root. destruct (node g (src p)) as [|v|o l|a r]; eauto. destruct D as [_ D]. congruence.
      + apply (IH p D2 ltac:(lia)). exists p. unfold root. rewrite hnode, (proj1 D). reflexivity.
  Qed.
  Lemma end_root t : t < len q -> (endof q t <> None <-> exists u, root h t = Some u).
  Proof using HI HM Hg.
    intros Ht. rewrite <- hroot by exact Ht. pose proof (src_lt t Ht) as Hs. destruct (new_cases t Ht) as [E|[p D]].
    - split.
      + intros H. pose proof (mapped_node _ Hs) as D. rewrite <- E in D. unfold root. destruct (node g (src t)) as [|v|o l|a r]; eauto. destruct D as [_ D]. congruence.
      + intros H. rewrite E. apply (mapped_end g Hg q src rs _ HI); [lia|exact H].
    - split; [|intros _; destruct D as (_ & _ & _ & s & _ & D); congruence]. intros _. apply hroot; [exact Ht|]. exists t. unfold root. rewrite hnode, (proj1 D). reflexivity.
  Qed.
  (** a node ends with the node whose signals it has *)
  Lemma root_end t u : t < len q -> root h t = Some u -> endof q u = endof q t.
  Proof using HI HM Hg.
    induction t as [t IH] using (well_founded_induction lt_wf). intros Ht Hu. unfold root in Hu. rewrite hnode in Hu. destruct (nd q t) as [|v|o l|a r] eqn:En; try discriminate; injection Hu as <-; try reflexivity.
    destruct (new_cases t Ht) as [E|[p D]]; [|destruct D as [D _]; congruence]. pose proof (src_lt t Ht) as Hs. pose proof (mapped_node _ Hs) as D. rewrite <- E in D.
    pose proof (legal_node g Hg _ Hs) as L. destruct (node g (src t)) as [|v|o l|a' r'].
    - destruct D; congruence.
    - destruct D; congruence.
    - destruct D as (? & ? & D & _). congruence.
    - destruct D as (D1 & D2 & D3 & D4). rewrite En in D1. injection D1 as -> ->. rewrite D4. destruct L as (L1 & L2 & L3 & L4).
      apply (IH (mapped q a') D2); [lia|]. apply hroot_mapped; [lia|exact L4].
  Qed.
  Lemma out_end r : In r rs -> r < len q /\ endof q r = Some m.
  Proof using HO.
    pose proof HO as X. revert X. generalize (d_out g) as ns. clear. intros ns X. induction X as [|x n xs ns (D1 & _ & D2) _ IH]; [intros []|]. intros [<-|H]; auto.
  Qed.
  Lemma legal_sched : legal h.
  Proof using HI HM Hg HO.
    split.
    - intros t Ht. change (size h) with (len q) in Ht. rewrite hnode. destruct (new_cases t Ht) as [E|[p (D1 & D2 & _)]].
      + pose proof (src_lt t Ht) as Hs. pose proof (mapped_node _ Hs) as D. rewrite <- E in D. pose proof (legal_node g Hg _ Hs) as L. destruct (node g (src t)) as [|v|o l|a r].
        * destruct D as [-> _]. exact Logic.I.
        * destruct D as [-> _]. exact Logic.I.
        * destruct D as (xs & mine & -> & D & _). clear - D. induction D as [|x a xs l (D1 & _) _ IH]; constructor; assumption.
        * destruct D as (-> & D2 & D3 & _). destruct L as (L1 & L2 & L3 & L4). split; [exact D2|]. split; [exact D3|]. split.
          -- pose proof (mapped_node r ltac:(lia)) as R. rewrite hnode. destruct (node g r); try contradiction; [destruct R as [-> _]|destruct R as (? & ? & -> & _)]; exact Logic.I.
          -- apply hroot_mapped; [lia|exact L4].
      + rewrite D1. constructor; [exact D2|constructor].
    - change (d_out h) with rs. rewrite Forall_forall. intros r Hr. destruct (out_end r Hr) as [G1 G3]. split; [exact G1|]. apply end_root; [exact G1|]. congruence.
  Qed.

  (** ** Streams *)
  Lemma sched_den I I' : (forall n, n < size g -> node g n = NIn -> I' (mapped q n) = I n) ->
    forall t, t < len q -> forall k, den h I' t k = den g I (src t) k.
  Proof using HI HM Hg HO.
    intros HII t. induction t as [t IH] using (well_founded_induction lt_wf). intros Ht k. pose proof (src_lt t Ht) as Hs.
    rewrite (den_node h legal_sched) by exact Ht. rewrite hnode. destruct (new_cases t Ht) as [E|[p (D1 & D2 & D3 & _)]].
    - rewrite (den_node g Hg) by exact Hs. pose proof (mapped_node _ Hs) as D. rewrite <- E in D. pose proof (legal_node g Hg _ Hs) as L. destruct (node g (src t)) as [|v|o l|a r] eqn:En.
      + destruct D as [-> _]. rewrite <- HII by assumption. rewrite <- E. reflexivity.
      + destruct D as [-> _]. reflexivity.
      + destruct D as (xs & mine & -> & D & _). apply op_value_ext. intros j. unfold opargs.
        assert (IH' : forall x, x < t -> forall k, den h I' x k = den g I (src x) k) by (intros x Hx; apply IH; lia). clear - D IH'.
        induction D as [|x a xs l (D1 & D2 & _) _ IHD]; [reflexivity|]. cbn [map]. rewrite IHD, IH', D2 by exact D1. reflexivity.
      + destruct D as (-> & D2 & _). destruct k as [|j]; [reflexivity|]. destruct L as (L1 & _). rewrite (IH _ D2) by lia. rewrite (proj2 (mapped_ok a ltac:(lia))). reflexivity.
    - rewrite D1. unfold op_value, opargs. cbn [op_delay op_fun map nth snd]. rewrite (IH p D2) by lia. rewrite D3. reflexivity.
  Qed.

  (** ** Stages *)
  Lemma sched_path t k : path h t k -> endof q t = Some k.
  Proof using HI HM Hg.
    induction 1 as [t Ht E|t o l a k Ht E Ha _ IH|t a r k Ht E _ IH]; change (size h) with (len q) in Ht; rewrite hnode in E; pose proof (src_lt t Ht) as Hs.
    - destruct (new_cases t Ht) as [Et|[p (D1 & _)]]; [|congruence]. pose proof (mapped_node _ Hs) as D. rewrite <- Et in D. destruct (node g (src t)); try (destruct D; congruence).
      destruct D as (? & ? & D & _). congruence.
    - destruct (new_cases t Ht) as [Et|[p (D1 & _ & _ & s & D2 & D3)]].
      + pose proof (mapped_node _ Hs) as D. rewrite <- Et in D. destruct (node g (src t)); try (destruct D; congruence).
        destruct D as (xs & mine & D1 & D2 & _ & _ & D3). rewrite E in D1. injection D1 as <- <-. assert (Em : mine = Some k).
        { clear - D2 Ha IH. induction D2 as [|x b xs l (_ & _ & D) _ IHD]; [destruct Ha|]. destruct Ha as [<-|Ha]; [|apply IHD, Ha]. destruct D; congruence. }
        rewrite D3, Em. reflexivity.
      + rewrite E in D1. injection D1 as -> ->. destruct Ha as [<-|[]]. rewrite D3. cbn [op_delay op_more]. f_equal. rewrite IH in D2. injection D2 as <-. lia.
    - destruct (new_cases t Ht) as [Et|[p (D1 & _)]]; [|congruence]. pose proof (mapped_node _ Hs) as D. rewrite <- Et in D. destruct (node g (src t)); try (destruct D; congruence).
      + destruct D as (? & ? & D & _). congruence.
      + destruct D as (D1 & _ & _ & D2). rewrite E in D1. injection D1 as -> ->. congruence.
  Qed.
  (** the stage of an old node is the latency of the longest path to it *)
  Lemma stage_upper n k : path g n k -> exists c, endof q (mapped q n) = Some c /\ k <= c.
  Proof using HI HM Hg.
    induction 1 as [n Hn E|n o l a k Hn E Ha _ IH|n a r k Hn E _ IH]; pose proof (mapped_node n Hn) as D; rewrite E in D.
    - destruct D as [_ ->]. eauto.
    - destruct D as (xs & mine & _ & _ & D3 & _ & ->). destruct IH as (c & Ec & Hc). destruct (D3 a c Ha Ec) as (x & -> & Hx). exists (x + S (op_more o)). split; [reflexivity|lia].
    - destruct D as (_ & _ & _ & ->). exact IH.
  Qed.
  Lemma stage_lower n c : driven g -> n < size g -> endof q (mapped q n) = Some c -> path g n c.
  Proof using HI HM Hg.
    intros HD. revert c. induction n as [n IH] using (well_founded_induction lt_wf). intros c Hn Hc. pose proof (mapped_node n Hn) as D. pose proof (legal_node g Hg n Hn) as L. pose proof (HD n Hn) as HDn.
    destruct (node g n) as [|v|o l|a r] eqn:En.
    - destruct D as [_ D]. rewrite D in Hc. injection Hc as <-. apply path_in; assumption.
    - destruct D; congruence.
    - destruct D as (xs & mine & _ & _ & D3 & D4 & D5). rewrite D5 in Hc. injection Hc as <-. rewrite Forall_forall in L. destruct mine as [x|].
      + destruct (D4 x eq_refl) as (a & Ha & Ea). specialize (L a Ha). eapply path_op; [exact Hn|exact En|exact Ha|]. apply IH; [exact L|lia|exact Ea].
      + exfalso. destruct HDn as (a & Ha & Hr). specialize (L a Ha). destruct (root g a) as [u|] eqn:Er; [|congruence].
        pose proof (mapped_end g Hg q src rs a HI ltac:(lia) ltac:(eauto)) as X. destruct (endof q (mapped q a)) as [y|] eqn:Ey; [|congruence]. destruct (D3 a y Ha Ey) as (z & Ez & _). discriminate.
    - destruct D as (_ & _ & _ & D). destruct L as (L1 & _). eapply path_prev; [exact Hn|exact En|]. apply IH; [exact L1|lia|congruence].
  Qed.

  (** ** Levels *)
  Lemma driven_sched : driven g -> driven h.
  Proof using HI HM Hg.
    intros HD t Ht. change (size h) with (len q) in Ht. rewrite hnode. destruct (new_cases t Ht) as [E|[p (D1 & D2 & _ & s & D3 & _)]].
    - pose proof (src_lt t Ht) as Hs. pose proof (mapped_node _ Hs) as D. rewrite <- E in D. pose proof (HD _ Hs) as HDn. destruct (node g (src t)) as [|v|o l|a r].
      + destruct D as [-> _]. exact Logic.I.
      + destruct D as [-> _]. exact Logic.I.
      + destruct D as (xs & mine & -> & D & _). destruct HDn as (a & Ha & Hr).
        assert (X : exists x, In x xs /\ x < t /\ src x = a).
        { clear - D Ha. induction D as [|x b xs l (D1 & D2 & _) _ IH]; [destruct Ha|]. destruct Ha as [<-|Ha]; [exists x; split; [left|]; auto|]. destruct (IH Ha) as (y & Y1 & Y2). exists y. split; [right|]; auto. }
        destruct X as (x & X1 & X2 & X3). exists x. split; [exact X1|]. destruct (root g a) as [u|] eqn:Er; [|congruence].
        destruct (proj1 (hroot x ltac:(lia)) ltac:(rewrite X3; eauto)) as [u' Hu']. rewrite Hu'. discriminate.
      + destruct D as [-> _]. exact Logic.I.
    - rewrite D1. exists p. split; [left; reflexivity|]. destruct (proj1 (end_root p ltac:(lia)) ltac:(congruence)) as [u Hu]. rewrite Hu. discriminate.
  Qed.
  Lemma used_sched t : used g -> t < len q -> (exists u, root h t = Some u) ->
    In t rs \/ exists w, w < len q /\ t < w /\ match nd q w with NOp _ l => In t l | NPrev a _ => a = t | _ => False end.
  Proof using HI HM Hg HO.
    intros HU Ht Hr. pose proof (src_lt t Ht) as Hs. pose proof legal_sched as [HLs _].
    assert (Chain : forall x, x < len q -> x <> mapped q (src x) -> exists w, w < len q /\ mapped q (src x) < w /\ nd q w = NOp op_delay [mapped q (src x)]).
    { induction x as [x IH] using (well_founded_induction lt_wf). intros Hx Hne. destruct (new_cases x Hx) as [E|[p (D1 & D2 & D3 & _)]]; [congruence|].
      destruct (Nat.eq_dec p (mapped q (src p))) as [Ep|Ep].
      - exists x. rewrite <- D3, <- Ep. auto.
      - rewrite <- D3. apply IH; [exact D2|lia|exact Ep]. }
    destruct (Nat.eq_dec t (mapped q (src t))) as [E|E].
    - assert (Fin : forall x, x < len q -> src x = src t -> x = t \/ exists w, w < len q /\ t < w /\ nd q w = NOp op_delay [t]).
      { intros x Hx Sx. destruct (Nat.eq_dec x (mapped q (src x))) as [Ex|Ex]; [left; congruence|]. right. destruct (Chain x Hx Ex) as (w & W1 & W2 & W3). rewrite Sx, <- E in *. eauto. }
      assert (Done : (exists w, w < len q /\ t < w /\ nd q w = NOp op_delay [t]) -> exists w, w < len q /\ t < w /\ match nd q w with NOp _ l => In t l | NPrev a _ => a = t | _ => False end).
      { intros (w & W1 & W2 & W3). exists w. rewrite W3. repeat split; auto. left. reflexivity. }
      destruct (HU (src t) Hs (proj2 (hroot t Ht) Hr)) as [U|(w & W1 & W2)].
      + assert (X : exists x, In x rs /\ x < len q /\ src x = src t).
        { pose proof HO as X. revert X U. generalize (d_out g) as ns. clear. intros ns X U. induction X as [|x n xs ns (D1 & D2 & _) _ IH]; [destruct U|]. destruct U as [->|U]; [exists x; split; [left|]; auto|]. destruct (IH U) as (y & Y1 & Y2). exists y. split; [right|]; auto. }
        destruct X as (x & X1 & X2 & X3). destruct (Fin x X2 X3) as [->|X]; [left; exact X1|right; apply Done, X].
      + right. pose proof (mapped_node w W1) as D. destruct (mapped_ok w W1) as [M1 M2]. destruct (node g w) as [|v|o l|a r]; try contradiction.
        * destruct D as (xs & mine & D1 & D2 & _).
          assert (X : exists x, In x xs /\ x < mapped q w /\ src x = src t).
          { clear - D2 W2. induction D2 as [|x n xs ns (D1 & D2 & _) _ IH]; [destruct W2|]. destruct W2 as [->|U]; [exists x; split; [left|]; auto|]. destruct (IH U) as (y & Y1 & Y2). exists y. split; [right|]; auto. }
          destruct X as (x & X1 & X2 & X3). destruct (Fin x ltac:(lia) X3) as [->|X]; [|apply Done, X]. exists (mapped q w). rewrite D1. auto.
        * destruct D as (D1 & D2 & _). subst a. rewrite <- E in *. exists (mapped q w). rewrite D1. auto.
    - destruct (new_cases t Ht) as [E'|[p D]]; [congruence|]. destruct (i_used _ _ _ _ HI t p Ht D) as [U|[(w & o & l & W1 & W2 & W3)|U]]; [left; exact U| |congruence].
      right. exists w. pose proof (HLs w W1) as L. rewrite hnode, W2, Forall_forall in L. rewrite W2. repeat split; auto.
  Qed.
  Definition lv (t : nat) : nat := match endof q t with Some c => c | None => 0 end.
  Lemma op_lev t o l a u : single g -> t < len q -> nd q t = NOp o l -> In a l -> root h a = Some u -> lv t = S (lv u).
  Proof using HI HM Hg HO.
    intros HS1 Ht E Ha Hr. pose proof (src_lt t Ht) as Hs. pose proof legal_sched as [HLs _]. pose proof (HLs t Ht) as L. rewrite hnode, E, Forall_forall in L. specialize (L a Ha).
    unfold lv. rewrite (root_end a u ltac:(lia) Hr). pose proof (proj2 (end_root a ltac:(lia)) ltac:(eauto)) as X. destruct (endof q a) as [c|] eqn:Ea; [clear X|congruence].
    destruct (new_cases t Ht) as [Et|[p (D1 & _ & _ & s & D2 & D3)]].
    - pose proof (mapped_node _ Hs) as D. rewrite <- Et in D. destruct (node g (src t)) as [| |o' l'|] eqn:En; try (destruct D; congruence).
      destruct D as (xs & mine & D1 & D2 & _ & _ & D3). rewrite E in D1. injection D1 as <- <-. assert (Em : mine = Some c).
      { clear - D2 Ha Ea. induction D2 as [|x b xs l (_ & _ & D) _ IHD]; [destruct Ha|]. destruct Ha as [<-|Ha]; [|apply IHD, Ha]. destruct D; congruence. }
      rewrite D3, Em. cbn [next_stage]. rewrite (HS1 _ _ _ Hs En). lia.
    - rewrite E in D1. injection D1 as -> ->. destruct Ha as [<-|[]]. rewrite D3. congruence.
  Qed.
  Lemma single_sched t o l : single g -> t < len q -> nd q t = NOp o l -> op_more o = 0.
  Proof using HI HM Hg.
    intros HS1 Ht E. pose proof (src_lt t Ht) as Hs. destruct (new_cases t Ht) as [Et|[p (D1 & _)]]; [|rewrite E in D1; injection D1 as -> _; reflexivity].
    pose proof (mapped_node _ Hs) as D. rewrite <- Et in D. destruct (node g (src t)) as [| |o' l'|] eqn:En; try (destruct D; congruence).
    destruct D as (xs & mine & D1 & _). rewrite E in D1. injection D1 as -> _. apply (HS1 _ _ _ Hs En).
  Qed.
  Lemma lv_le : single g -> used g -> forall t, t < len q -> (exists u, root h t = Some u) -> lv t <= m.
  Proof using HI HM Hg HO.
    intros HS1 HU. assert (X : forall d t, len q - t <= d -> t < len q -> (exists u, root h t = Some u) -> lv t <= m).
    { induction d as [|d IH]; intros t Hd Ht [u Hr]; [lia|]. destruct (used_sched t HU Ht ltac:(eauto)) as [U|(w & W1 & W2 & W3)].
      - destruct (out_end t U) as [_ E]. unfold lv. rewrite E. lia.
      - destruct (nd q w) as [|v|o l|a r] eqn:Ew; try contradiction.
        + assert (Hw : lv w <= m) by (apply IH; [lia|exact W1|exists w; unfold root; rewrite hnode, Ew; reflexivity]).
          rewrite (op_lev w o l t u HS1 W1 Ew W3 Hr) in Hw. unfold lv in *. rewrite (root_end t u Ht Hr) in Hw. lia.
        + subst a. assert (Hrw : root h w = Some r) by (unfold root; rewrite hnode, Ew; reflexivity). assert (Hw : lv w <= m) by (apply IH; [lia|exact W1|eauto]).
          pose proof legal_sched as [HLs _]. pose proof (HLs w W1) as L. rewrite hnode, Ew in L. destruct L as (_ & _ & _ & L4). rewrite L4 in Hr. injection Hr as <-.
          unfold lv in *. rewrite <- (root_end t r Ht L4), (root_end w r W1 Hrw). exact Hw. }
    intros t. apply (X (len q - t)). lia.
  Qed.
  Lemma has_user t u : used g -> t < len q -> root h t = Some u -> sinks h u <> [] \/ outs_of h u <> [].
  Proof using HI HM Hg HO.
    intros HU. assert (X : forall d t, len q - t <= d -> t < len q -> root h t = Some u -> sinks h u <> [] \/ outs_of h u <> []).
    { induction d as [|d IH]; intros x Hd Hx Hr; [lia|]. destruct (used_sched x HU Hx ltac:(eauto)) as [U|(w & W1 & W2 & W3)].
      - right. assert (Y : In x (outs_of h u)) by (apply outs_in; auto). intros Z. rewrite Z in Y. exact Y.
      - destruct (nd q w) as [|v|o l|a r] eqn:Ew; try contradiction.
        + left. assert (Y : In w (sinks h u)) by (apply sinks_in; split; [exact W1|exists o, l, x; auto]). intros Z. rewrite Z in Y. exact Y.
        + subst a. apply (IH w); [lia|exact W1|]. pose proof legal_sched as [HLs _]. pose proof (HLs w W1) as L. rewrite hnode, Ew in L. destruct L as (_ & _ & _ & L4).
          unfold root. rewrite hnode, Ew. congruence. }
    apply (X (len q - t)). lia.
  Qed.
  Theorem levelled_sched : single g -> used g -> levelled h lv m.
  Proof using HI HM Hg HO.
    intros HS1 HU t Ht. change (size h) with (len q) in Ht. rewrite hnode. split.
    - destruct (nd q t) as [|v|o l|a r] eqn:E; try exact Logic.I.
      + unfold lv. rewrite (sched_path t 0); [reflexivity|]. apply path_in; [exact Ht|exact E].
      + split; [apply (single_sched t o l HS1 Ht E)|]. intros a u Ha Hr. apply (op_lev t o l a u HS1 Ht E Ha Hr).
    - intros Hh. assert (Hr : root h t = Some t) by (unfold root; rewrite hnode; destruct (nd q t); try contradiction; reflexivity).
      assert (Ho : forall n, In n (outs_of h t) -> lv t = m).
      { intros n Hn. apply outs_in in Hn. destruct Hn as [Hn Hrn]. destruct (out_end n Hn) as [O1 O2]. unfold lv. rewrite (root_end n t O1 Hrn), O2. reflexivity. }
      split; [apply lv_le; eauto|]. split.
      + intros El. destruct (has_user t t HU Ht Hr) as [U|U]; [|exact U]. exfalso. destruct (sinks h t) as [|w s] eqn:Es; [congruence|].
        assert (Hw : In w (sinks h t)) by (rewrite Es; left; reflexivity). apply sinks_in in Hw. destruct Hw as [Hw (o & l & a & E & Ha & Hra)].
        pose proof (op_lev w o l a t HS1 Hw E Ha Hra). pose proof (lv_le HS1 HU w Hw ltac:(exists w; unfold root; rewrite E; reflexivity)). lia.
      + intros El. assert (Hoe : outs_of h t = []). { destruct (outs_of h t) as [|n s] eqn:Es; [reflexivity|]. rewrite (Ho n) in El by (left; reflexivity). lia. }
        destruct (has_user t t HU Ht Hr) as [U|U]; [|congruence]. split; assumption.
  Qed.
End Final.

Lemma Forall2_len {A B} (P : A -> B -> Prop) l l' : Forall2 P l l' -> length l = length l'.
Proof. induction 1; cbn; congruence. Qed.
Lemma Forall2_nth {A B} (P : A -> B -> Prop) l l' a b j : Forall2 P l l' -> j < length l' -> P (nth j l a) (nth j l' b).
Proof. intros H. revert j. induction H as [|x y l l' Hp _ IH]; intros j Hj; [cbn in Hj; lia|]. destruct j as [|j]; cbn in *; [exact Hp|apply IH; lia]. Qed.

Section Schedule.
  Variable g : graph.
  Hypothesis Hg : legal g.
  Theorem schedule_legal : legal (schedule g).
  Proof using Hg.
    destruct (balance_ok g Hg) as (src & q & rs & m & E & H1 & H2 & H3 & _). unfold schedule. rewrite E. apply (legal_sched g q rs m src Hg H1 H2 H3).
  Qed.
  Theorem schedule_outs : length (d_out (schedule g)) = length (d_out g).
  Proof using Hg.
    destruct (balance_ok g Hg) as (src & q & rs & m & E & H1 & H2 & H3 & _). unfold schedule. rewrite E. cbn [d_out]. apply (Forall2_len _ _ _ H3).
  Qed.
  Theorem schedule_den I I' j k : same_inputs g (renum g) I I' -> j < length (d_out g) ->
    den (schedule g) I' (nth j (d_out (schedule g)) 0) k = den g I (nth j (d_out g) 0) k.
  Proof using Hg.
    intros HI Hj. destruct (balance_ok g Hg) as (src & q & rs & m & E & H1 & H2 & H3 & _). unfold schedule, same_inputs, renum in *. rewrite E in *. cbn [d_out].
    pose proof (Forall2_nth _ _ _ 0 0 j H3 Hj) as (F1 & F2 & _). rewrite (sched_den g q rs m src Hg H1 H2 H3 I I' HI) by exact F1. rewrite F2. reflexivity.
  Qed.
  Theorem schedule_inputs t : t < size (schedule g) -> (node (schedule g) t = NIn <-> exists n, n < size g /\ node g n = NIn /\ t = renum g n).
  Proof using Hg.
    destruct (balance_ok g Hg) as (src & q & rs & m & E & H1 & H2 & H3 & _). unfold schedule, renum. rewrite E. intros Ht. change (nd q t = NIn <-> exists n, n < size g /\ node g n = NIn /\ t = mapped q n).
    change (t < len q) in Ht. split.
    - intros En. pose proof (src_lt g q rs src H1 H2 t Ht) as Hs. exists (src t). split; [exact Hs|].
      destruct (new_cases g q rs src H1 t Ht) as [Et|[p (D & _)]]; [|congruence]. split; [|exact Et]. pose proof (mapped_node g q rs src H1 H2 _ Hs) as D. rewrite <- Et in D.
      destruct (node g (src t)); try reflexivity; try (destruct D; congruence). destruct D as (? & ? & D & _). congruence.
    - intros (n & Hn & En & ->). pose proof (mapped_node g q rs src H1 H2 n Hn) as D. rewrite En in D. apply D.
  Qed.
  Theorem renum_inj a b : a < size g -> b < size g -> renum g a = renum g b -> a = b.
  Proof using Hg.
    destruct (balance_ok g Hg) as (src & q & rs & m & E & H1 & H2 & H3 & _). unfold renum. rewrite E. intros Ha Hb Hab.
    destruct (mapped_ok g q rs src H1 H2 a Ha) as [_ A]. destruct (mapped_ok g q rs src H1 H2 b Hb) as [_ B]. congruence.
  Qed.
  Theorem renum_lt a : a < size g -> renum g a < size (schedule g).
  Proof using Hg.
    destruct (balance_ok g Hg) as (src & q & rs & m & E & H1 & H2 & H3 & _). unfold renum, schedule. rewrite E. intros Ha. apply (mapped_ok g q rs src H1 H2 a Ha).
  Qed.
  Theorem schedule_path t k1 k2 : path (schedule g) t k1 -> path (schedule g) t k2 -> k1 = k2.
  Proof using Hg.
    destruct (balance_ok g Hg) as (src & q & rs & m & E & H1 & H2 & H3 & _). unfold schedule. rewrite E. intros P1 P2.
    apply (sched_path g q rs src Hg H1 H2) in P1, P2. congruence.
  Qed.
  Theorem schedule_out_path t k : In t (d_out (schedule g)) -> path (schedule g) t k -> k = depth g.
  Proof using Hg.
    destruct (balance_ok g Hg) as (src & q & rs & m & E & H1 & H2 & H3 & _). unfold schedule, depth. rewrite E. intros Ht P.
    apply (sched_path g q rs src Hg H1 H2) in P. destruct (out_end g q rs m src H3 t Ht) as [_ X]. congruence.
  Qed.
  Theorem depth_longest : driven g -> d_out g <> [] ->
    (exists n, In n (d_out g) /\ path g n (depth g)) /\ (forall n k, In n (d_out g) -> path g n k -> k <= depth g).
  Proof using Hg.
    intros HD HN. destruct (balance_ok g Hg) as (src & q & rs & m & E & H1 & H2 & H3 & H4 & H5). unfold depth. rewrite E.
    pose proof Hg as [_ F]. rewrite Forall_forall in F. split.
    - destruct H5 as [(n & Hn & X)| ->].
      + exists n. split; [exact Hn|]. apply (stage_lower g q rs src Hg H1 H2 n m HD); [apply (F n Hn)|exact X].
      + destruct (d_out g) as [|n l] eqn:Eo; [congruence|]. exists n. split; [left; reflexivity|]. destruct (F n (or_introl eq_refl)) as [Hn Hr].
        pose proof (mapped_end g Hg q src rs n H1 ltac:(lia) Hr) as X. destruct (endof q (mapped q n)) as [c|] eqn:Ec; [|congruence].
        assert (c = 0) by (specialize (H4 n c (or_introl eq_refl) Ec); lia). subst c. apply (stage_lower g q rs src Hg H1 H2 n 0 HD Hn Ec).
    - intros n k Hn P. destruct (stage_upper g q rs src Hg H1 H2 n k P) as (c & Ec & Hc). specialize (H4 n c Hn Ec). lia.
  Qed.
  Theorem schedule_driven : driven g -> driven (schedule g).
  Proof using Hg.
    intros HD. destruct (balance_ok g Hg) as (src & q & rs & m & E & H1 & H2 & H3 & _). unfold schedule. rewrite E. apply (driven_sched g q rs src Hg H1 H2 HD).
  Qed.
  Theorem schedule_levelled : single g -> used g -> exists lev, levelled (schedule g) lev (depth g).
  Proof using Hg.
    intros HS HU. destruct (balance_ok g Hg) as (src & q & rs & m & E & H1 & H2 & H3 & _). unfold schedule, depth. rewrite E. eexists. apply (levelled_sched g q rs m src Hg H1 H2 H3 HS HU).
  Qed.

  (** input streams of the old graph *)
  Definition old_input (I : nat -> nat -> Z) (t : nat) : nat -> Z :=
    match find (fun n => match node g n with NIn => renum g n =? t | _ => false end) (seq 0 (size g)) with Some n => I n | None => fun _ => 0%Z end.
  Lemma old_same I : same_inputs g (renum g) I (old_input I).
  Proof using Hg.
    intros n Hn En. unfold old_input. destruct (find _ _) as [x|] eqn:E.
    - apply find_some in E. destruct E as [E1 E2]. apply in_seq in E1. destruct (node g x); try discriminate. apply Nat.eqb_eq in E2. f_equal. apply renum_inj; lia.
    - exfalso. pose proof (find_none _ _ E n (proj2 (in_seq _ _ _) (conj (Nat.le_0_l n) Hn))) as X. cbv beta in X. rewrite En, Nat.eqb_refl in X. discriminate.
  Qed.
  Theorem pipeline_ok I j ins : driven g -> used g -> single g -> j < length (d_out g) -> Forall (synchronous (schedule g)) ins ->
    (forall n k x, n < size g -> node g n = NIn -> nth_error (words (schedule g) (renum g n) (dinit (schedule g)) ins) k = Some x -> I n k = x) ->
    let R := received (schedule g) (nth j (d_out (schedule g)) 0) (dinit (schedule g)) ins in
    R = map (den g I (nth j (d_out g) 0)) (seq 0 (length R)).
  Proof using Hg.
    intros HD HU HS Hj HF HI R. destruct (schedule_levelled HS HU) as [lev HL].
    assert (Ho : In (nth j (d_out (schedule g)) 0) (d_out (schedule g))) by (apply nth_In; rewrite schedule_outs; exact Hj).
    assert (HX : extends (schedule g) (old_input I) (dinit (schedule g)) ins).
    { intros t k x Ht Et Hx. apply (schedule_inputs t Ht) in Et. destruct Et as (n & Hn & En & ->). rewrite (old_same I n Hn En). apply (HI n k x Hn En Hx). }
    pose proof (lock_kahn (schedule g) lev (depth g) schedule_legal HL (schedule_driven HD) (old_input I) _ ins Ho HF HX) as K. fold R in K. rewrite K at 1.
    apply map_ext. intros k. apply schedule_den; [apply old_same|exact Hj].
  Qed.
End Schedule.
