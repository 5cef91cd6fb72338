(** Proofs for C51. *)
From Verif Require Import Base Thr_Model Thr_Spec.
Open Scope nat_scope.

(** ** Builder states *)
Definition excl (s : site) : option (nat * nat) :=
  match s with
  | SRun f s _ _ _ | SPoolRun f s _ _ | SPoolEnd f s _ _ | SJoin f s _ _ | SPoolJoin f s _ _ | SDone f s _ _ => Some (f, s)
  | SReset _ _ _ _ => None
  end.
Definition inprog (b : build) (t : nat) : Prop := start (th b t) = Some 0 /\ fin (th b t) = None.
Definition lo (x : tb) : nat := if child x then 1 else 0.
Section Builder.
  Variable progs : nat -> prog.
  Variable pool : nat -> list nat.
  Variable tid : nat -> nat.

  (** only the last statement leads to the end *)
  Definition wcond (w : option nat) : cond := match w with Some k => CEnv k | None => CTrue end.
  Definition lastj (t e : nat) (j : nat * (nat * cond * option nat)) : Prop :=
    let '(src, (dst, c, els)) := j in
    forall w, final (progs t) = Some w -> dst = e \/ els = Some e -> S src = e /\ c = wcond w /\ els = None.
Definition good (b : build) (t e : nat) (j : nat * (nat * cond * option nat)) : Prop :=
  let '(src, (dst, c, els)) := j in
  (child (th b t) = true /\ src = 0 /\ dst = 1 /\ els = None /\
   exists f s g a, In (SRun f s t g a) (sites b) /\ c = CAnd g (CAt f s)) \/
  (lo (th b t) <= src < e /\ lo (th b t) <= dst <= e /\ (forall d, els = Some d -> lo (th b t) <= d <= e) /\ lastj t e j) \/
  (src = e /\ dst = 0 /\ els = None /\ exists f s g, In (SReset f s t g) (sites b) /\ c = CAnd (CAt f s) g).
Definition thok (b : build) (t : nat) : Prop :=
  th b t = tb0 \/ inprog b t \/
  (start (th b t) = Some 0 /\ exists e, fin (th b t) = Some e /\ lo (th b t) < e /\ Forall (good b t e) (jumps (th b t))).

Definition only (b : build) (f s : nat) (x : nat * cond * option nat) : Prop :=
  In (s, x) (jumps (th b f)) /\ forall y, In (s, y) (jumps (th b f)) -> y = x.
Definition pok (b : build) (f s : nat) : Prop :=
  start (th b f) = Some 0 /\ 1 <= s /\ forall e, fin (th b f) = Some e -> s < e.

  Definition core (b : build) (x : site) : Prop :=
    match x with
    | SRun f s t g _ => pok b f s /\ only b f s (S s, CTrue, None) /\ start (th b t) = Some 0 /\ child (th b t) = true /\
                      In (0, (1, CAnd g (CAt f s), None)) (jumps (th b t))
    | SPoolRun f s p x => pok b f s /\ only b f s (S s, CTrue, None) /\ In (SPoolEnd f (S (S s)) p x) (sites b) /\
                          forall t, In t (pool p) -> exists a, In (SRun f (S s) t (CBit p (tid t)) a) (sites b)
    | SPoolEnd f s _ _ => pok b f s /\ only b f s (S s, CTrue, None)
    | SJoin f s t e => pok b f s /\ only b f s (S s, CAt t e, None) /\ fin (th b t) = Some e
    | SPoolJoin f s p x => pok b f s /\ exists c, only b f s (S s, c, None) /\ end_mux tid b f x (pool p) = Some c
    | SReset f s t g => start (th b t) = Some 0 /\ exists e, fin (th b t) = Some e /\ In (e, (0, CAnd (CAt f s) g, None)) (jumps (th b t))
    | SDone f s t e => pok b f s /\ (exists d, only b f s (S s, CAt t e, Some d)) /\ fin (th b t) = Some e
    end.
  (** no two sites in one state, except for the runs of a pool *)
  Definition is_run (x : site) : bool := match x with SRun _ _ _ _ _ => true | _ => false end.
  Definition lonely (b : build) (x : site) : Prop :=
    forall y f s, In y (sites b) -> excl x = Some (f, s) -> excl y = Some (f, s) -> y = x \/ (is_run x = true /\ is_run y = true).
  Definition siteok (b : build) (x : site) : Prop := lonely b x /\ core b x.
  Definition Inv (b : build) : Prop := (forall t, thok b t) /\ forall x, In x (sites b) -> siteok b x.

  (** no exclusive site of [f] at or after [n], no jump from there *)
  Definition clear (b : build) (f n : nat) : Prop :=
    (forall x s, In x (sites b) -> excl x = Some (f, s) -> s < n) /\
    (forall s y, In (s, y) (jumps (th b f)) -> s < n).

  (** *** Growth *)
  Record grows (b b' : build) : Prop := mkGrows {
    gr_sites : incl (sites b) (sites b');
    gr_jumps : forall u, incl (jumps (th b u)) (jumps (th b' u));
    gr_fin : forall u e, fin (th b u) = Some e -> fin (th b' u) = Some e;
    gr_start : forall u s, start (th b u) = Some s -> start (th b' u) = Some s;
    gr_child : forall u, start (th b u) <> None -> child (th b' u) = child (th b u) }.
  Lemma grows_refl : forall b, grows b b.
  Proof. intros b. constructor; auto using incl_refl. Qed.
  Lemma grows_trans : forall a b c, grows a b -> grows b c -> grows a c.
  Proof.
    intros a b c [A1 A2 A3 A4 A5] [B1 B2 B3 B4 B5]. constructor.
    - eapply incl_tran; eassumption.
    - intros u. eapply incl_tran; [apply A2|apply B2].
    - auto.
    - auto.
    - intros u H. rewrite B5, A5; auto. destruct (start (th a u)) eqn:E; [|congruence]. rewrite (A4 _ _ E). discriminate.
  Qed.

  Lemma end_mux_mono : forall b b' f x ts c, grows b b' -> end_mux tid b f x ts = Some c -> end_mux tid b' f x ts = Some c.
  Proof.
    intros b b' f x ts. induction ts as [|t l IH]; intros c G E; [exact E|]. cbn [end_mux] in *.
    destruct (fin (th b t)) as [e|] eqn:Ef; [|discriminate]. rewrite (gr_fin _ _ G _ _ Ef).
    destruct (end_mux tid b f x l) as [d|] eqn:Ed; [|discriminate]. rewrite (IH d G eq_refl). exact E.
  Qed.
  Lemma good_mono : forall b b' t e j, grows b b' -> start (th b t) <> None -> good b t e j -> good b' t e j.
  Proof.
    intros b b' t e [src [[dst c] els]] G Hs H. unfold good, lo in *. rewrite (gr_child _ _ G _ Hs).
    destruct H as [(A & B & C & D & f & s & g & a & E & F)|[H|(A & B & C & f & s & g & E & F)]].
    - left. repeat split; auto. exists f, s, g, a. split; [apply (gr_sites _ _ G); exact E|exact F].
    - right. left. exact H.
    - right. right. repeat split; auto. exists f, s, g. split; [apply (gr_sites _ _ G); exact E|exact F].
  Qed.
  Lemma only_mono : forall b b' f s x, grows b b' ->
    (forall y, In (s, y) (jumps (th b' f)) -> In (s, y) (jumps (th b f)) \/ y = x) -> only b f s x -> only b' f s x.
  Proof.
    intros b b' f s x G H [A B]. split; [apply (gr_jumps _ _ G); exact A|]. intros y Hy.
    destruct (H y Hy) as [K|K]; [apply B; exact K|exact K].
  Qed.
  Lemma siteok_mono' : forall b b' x, grows b b' ->
    (forall f s, excl x = Some (f, s) -> forall y, In (s, y) (jumps (th b' f)) ->
       In (s, y) (jumps (th b f)) \/ (is_run x = true /\ y = (S s, CTrue, None))) ->
    (forall f s e, excl x = Some (f, s) -> fin (th b' f) = Some e -> s < e) ->
    (forall y f s, In y (sites b') -> excl x = Some (f, s) -> excl y = Some (f, s) -> In y (sites b) \/ (is_run x = true /\ is_run y = true)) ->
    siteok b x -> siteok b' x.
  Proof.
    intros b b' x G Hj He Hu [Hl H].
    split; [intros y f s Hy Ex Ey; destruct (Hu y f s Hy Ex Ey) as [K|K]; [exact (Hl y f s K Ex Ey)|right; exact K]|]. clear Hl Hu.
    assert (P : forall f s, excl x = Some (f, s) -> pok b f s -> pok b' f s).
    { intros f s Ex (A & B & C). split; [apply (gr_start _ _ G); exact A|]. split; [exact B|]. intros e. apply He. exact Ex. }
    assert (Q : forall f s y, excl x = Some (f, s) -> (is_run x = true -> y = (S s, CTrue, None)) -> only b f s y -> only b' f s y).
    { intros f s y Ex Hy. apply only_mono; [exact G|]. intros z Hz. destruct (Hj f s Ex z Hz) as [K|[K1 K2]]; [left; exact K|].
      right. rewrite (Hy K1). exact K2. }
    destruct x as [f s t g a|f s p x|f s p x|f s t e|f s p x|f s t g|f s t e]; cbn [core excl is_run] in *.
    - destruct H as (A & B & C & D & E). split; [apply P; auto|split; [apply Q; auto|split; [|split]]].
      + apply (gr_start _ _ G). exact C.
      + rewrite (gr_child _ _ G); [exact D|congruence].
      + apply (gr_jumps _ _ G). exact E.
    - destruct H as (A & B & C & D). split; [apply P; auto|]. split; [apply Q; auto|]. split; [apply (gr_sites _ _ G); exact C|].
      intros t Ht. destruct (D t Ht) as [a Ha]. exists a. apply (gr_sites _ _ G). exact Ha.
    - destruct H as (A & B). split; [apply P; auto|apply Q; auto].
    - destruct H as (A & B & C). split; [apply P; auto|]. split; [apply Q; auto; discriminate|]. apply (gr_fin _ _ G). exact C.
    - destruct H as (A & c & B & C). split; [apply P; auto|]. exists c. split; [apply Q; auto; discriminate|]. eapply end_mux_mono; eassumption.
    - destruct H as (A & e & B & C). split; [apply (gr_start _ _ G); exact A|]. exists e. split; [apply (gr_fin _ _ G); exact B|].
      apply (gr_jumps _ _ G). exact C.
    - destruct H as (A & (d & B) & C). split; [apply P; auto|]. split; [exists d; apply Q; auto; discriminate|]. apply (gr_fin _ _ G). exact C.
  Qed.

  Lemma siteok_mono : forall b b' x, grows b b' ->
    (forall f s, excl x = Some (f, s) -> forall y, In (s, y) (jumps (th b' f)) -> In (s, y) (jumps (th b f))) ->
    (forall f s e, excl x = Some (f, s) -> fin (th b' f) = Some e -> s < e) ->
    (forall y f s, In y (sites b') -> excl x = Some (f, s) -> excl y = Some (f, s) -> In y (sites b) \/ (is_run x = true /\ is_run y = true)) ->
    siteok b x -> siteok b' x.
  Proof. intros b b' x G Hj. apply siteok_mono'; [exact G|]. intros f s Ex y Hy. left. exact (Hj f s Ex y Hy). Qed.

  (** *** Frames: working on the threads in [X] *)
  Record frame (X : nat -> Prop) (b b' : build) : Prop := mkFrame {
    fr_grows : grows b b';
    fr_prog : forall u, ~ X u -> inprog b u -> th b' u = th b u;
    fr_site : forall u, ~ X u -> inprog b u -> forall x s, In x (sites b') -> excl x = Some (u, s) -> In x (sites b);
    fr_new : forall u, ~ X u -> inprog b' u -> inprog b u }.
  Lemma frame_refl : forall X b, frame X b b.
  Proof. intros X b. constructor; auto using grows_refl. Qed.
  Lemma frame_trans : forall X a b c, frame X a b -> frame X b c -> frame X a c.
  Proof.
    intros X a b c [A1 A2 A3 A4] [B1 B2 B3 B4].
    assert (K : forall u, ~ X u -> inprog a u -> inprog b u) by (intros u Hu Hp; unfold inprog; rewrite (A2 u Hu Hp); exact Hp).
    constructor.
    - eapply grows_trans; eassumption.
    - intros u Hu Hp. rewrite (B2 u Hu (K u Hu Hp)). auto.
    - intros u Hu Hp x s Hx Ex. eapply A3; eauto.
    - auto.
  Qed.
  Lemma frame_weaken : forall (X Y : nat -> Prop) b b', (forall u, X u -> Y u) -> frame X b b' -> frame Y b b'.
  Proof.
    intros X Y b b' H [A1 A2 A3 A4]. constructor; [exact A1| | |].
    - intros u Hu. apply A2. auto.
    - intros u Hu. apply A3. auto.
    - intros u Hu. apply A4. auto.
  Qed.

  Definition rng (c c' : nat) (j : nat * (nat * cond * option nat)) : Prop :=
    let '(src, (dst, _, els)) := j in c <= src < c' /\ c <= dst <= c' /\ forall d, els = Some d -> c <= d <= c'.

  (** [f], under construction, has got the states from [cur] in [b] to [cur] in [b']. *)
  Record ext (f : nat) (b b' : build) : Prop := mkExt {
    ex_inv : Inv b';
    ex_prog : inprog b' f;
    ex_cur : cur (th b f) <= cur (th b' f);
    ex_new : exists new, jumps (th b' f) = jumps (th b f) ++ new /\ Forall (rng (cur (th b f)) (cur (th b' f))) new;
    ex_site : forall x s, In x (sites b') -> excl x = Some (f, s) -> In x (sites b) \/ cur (th b f) <= s;
    ex_clear : clear b' f (cur (th b' f));
    ex_frame : frame (eq f) b b' }.
  Lemma rng_mono : forall c c' d d' j, rng c c' j -> d <= c -> c' <= d' -> rng d d' j.
  Proof.
    intros c c' d d' [src [[dst k] els]] (A & B & C) H1 H2. cbn in *. split; [lia|split; [lia|]]. intros x Hx. specialize (C x Hx). lia.
  Qed.
  Lemma ext_trans : forall f a b c, ext f a b -> ext f b c -> ext f a c.
  Proof.
    intros f a b c [A1 A2 A3 (na & A4 & A4') A5 A6 A7] [B1 B2 B3 (nb & B4 & B4') B5 B6 B7]. constructor; auto.
    - lia.
    - exists (na ++ nb). split; [rewrite B4, A4, app_assoc; reflexivity|]. apply Forall_app. split.
      + eapply Forall_impl; [|exact A4']. intros j Hj. eapply rng_mono; [exact Hj|lia|lia].
      + eapply Forall_impl; [|exact B4']. intros j Hj. eapply rng_mono; [exact Hj|lia|lia].
    - intros x s Hx Ex. destruct (B5 x s Hx Ex) as [K|K]; [apply (A5 x s K Ex)|right; lia].
    - eapply frame_trans; eassumption.
  Qed.

  (** *** Primitive steps *)
  Lemma upd_same : forall b t x, th (upd b t x) t = x.
  Proof. intros. cbn. rewrite Nat.eqb_refl. reflexivity. Qed.
  Lemma upd_other : forall b t x u, u <> t -> th (upd b t x) u = th b u.
  Proof. intros b t x u H. cbn. apply Nat.eqb_neq in H. rewrite H. reflexivity. Qed.

  (** changes of [t] that add jumps only *)
  Lemma grows_upd : forall b t x, incl (jumps (th b t)) (jumps x) -> fin x = fin (th b t) -> start x = start (th b t) ->
    child x = child (th b t) -> grows b (upd b t x).
  Proof.
    intros b t x A B C D. constructor; [apply incl_refl| | | |]; intros u; cbn [upd th];
      destruct (Nat.eqb_spec u t) as [->|]; auto using incl_refl; intros; congruence.
  Qed.
  Lemma grows_note : forall b x, grows b (note b x).
  Proof. intros b x. constructor; cbn; auto using incl_refl. intros y H. apply in_or_app. left. exact H. Qed.

  Lemma thok_mono : forall b b' t, grows b b' -> th b' t = th b t -> thok b t -> thok b' t.
  Proof.
    intros b b' t G E [H|[H|(A & e & B & C & D)]].
    - left. congruence.
    - right. left. unfold inprog in *. rewrite E. exact H.
    - right. right. rewrite E. split; [exact A|]. exists e. repeat split; auto. eapply Forall_impl; [|exact D].
      intros j. apply good_mono; [exact G|congruence].
  Qed.

  (** changing only the current index or the assignments *)
  Definition same_but_cur (x y : tb) : Prop :=
    jumps x = jumps y /\ start x = start y /\ fin x = fin y /\ child x = child y.
  Lemma inv_cur : forall b t x, same_but_cur x (th b t) -> (th b t <> tb0) -> Inv b -> Inv (upd b t x).
  Proof.
    intros b t x (A & B & C & D) Hn [I1 I2].
    assert (G : grows b (upd b t x)) by (apply grows_upd; [rewrite A; apply incl_refl|auto|auto|auto]).
    split.
    - intros u. destruct (Nat.eq_dec u t) as [->|Hu].
      + destruct (I1 t) as [H|[[H1 H2]|(H1 & e & H2 & H3 & H4)]]; [contradiction| |].
        * right. left. unfold inprog. rewrite upd_same. split; congruence.
        * right. right. unfold lo. rewrite upd_same. split; [congruence|]. exists e. split; [congruence|].
          split; [rewrite D; exact H3|]. rewrite A. eapply Forall_impl; [|exact H4]. intros j. apply good_mono; [exact G|congruence].
      + eapply thok_mono; [exact G|apply upd_other; exact Hu|apply I1].
    - intros y Hy. eapply siteok_mono; [exact G| | |intros; left; assumption|apply I2; exact Hy].
      + intros f s Ex z Hz. destruct (Nat.eq_dec f t) as [->|Hf].
        * rewrite upd_same, A in Hz. exact Hz.
        * rewrite upd_other in Hz by exact Hf. exact Hz.
      + intros f s e Ex Ef. assert (K : fin (th b f) = Some e).
        { destruct (Nat.eq_dec f t) as [->|Hf]; [rewrite upd_same in Ef; congruence|rewrite upd_other in Ef by exact Hf; exact Ef]. }
        destruct (I2 y Hy) as [_ I3]. destruct y; cbn [excl core] in *; try discriminate; injection Ex as <- <-; apply I3; exact K.
  Qed.
  Lemma inprog_not0 : forall b t, inprog b t -> th b t <> tb0.
  Proof. intros b t [A _] E. rewrite E in A. discriminate. Qed.
  Lemma done_not0 : forall b t e, fin (th b t) = Some e -> th b t <> tb0.
  Proof. intros b t e A E. rewrite E in A. discriminate. Qed.

  Lemma site_lt : forall b x f s e, Inv b -> In x (sites b) -> excl x = Some (f, s) -> start (th b f) = Some 0 /\ 1 <= s /\ (fin (th b f) = Some e -> s < e).
  Proof.
    intros b x f s e [_ I2] Hx Ex. destruct (I2 x Hx) as [_ I3].
    destruct x; cbn [excl core] in *; try discriminate; injection Ex as <- <-;
      destruct I3 as [(P1 & P2 & P3) _]; (split; [exact P1|split; [exact P2|apply P3]]).
  Qed.

  (** adding a jump to the thread under construction, away from the exclusive sites *)
  Lemma inv_jump : forall b f src dst c els, Inv b -> inprog b f ->
    (forall x, In x (sites b) -> excl x = Some (f, src) -> False) ->
    Inv (goto_from b f src dst c els).
  Proof.
    intros b f src dst c els [I1 I2] Hp Hs. unfold goto_from.
    assert (G : grows b (upd b f (add_jump (th b f) src dst c els))).
    { apply grows_upd; auto. cbn. intros j Hj. apply in_or_app. left. exact Hj. }
    split.
    - intros u. destruct (Nat.eq_dec u f) as [->|Hu].
      + right. left. unfold inprog. rewrite upd_same. exact Hp.
      + eapply thok_mono; [exact G|apply upd_other; exact Hu|apply I1].
    - intros y Hy. eapply siteok_mono; [exact G| | |intros; left; assumption|apply I2; exact Hy].
      + intros g s Ex z Hz. destruct (Nat.eq_dec g f) as [->|Hg].
        * rewrite upd_same in Hz. cbn [add_jump jumps] in Hz. apply in_app_or in Hz as [Hz|[Hz|[]]]; [exact Hz|].
          injection Hz as -> _. exfalso. exact (Hs y Hy Ex).
        * rewrite upd_other in Hz by exact Hg. exact Hz.
      + intros g s e Ex Ef. assert (K : fin (th b g) = Some e).
        { destruct (Nat.eq_dec g f) as [->|Hg]; [rewrite upd_same in Ef; exact Ef|rewrite upd_other in Ef by exact Hg; exact Ef]. }
        eapply (site_lt b y g s e); [split; assumption|exact Hy|exact Ex|exact K].
  Qed.
  Lemma grows_eq : forall b b', (forall u, th b' u = th b u) -> sites b' = sites b -> grows b b'.
  Proof.
    intros b b' T E. constructor; [rewrite E; apply incl_refl| | | |]; intros u; rewrite (T u); auto using incl_refl.
  Qed.
  Lemma inv_eq : forall b b', (forall u, th b' u = th b u) -> sites b' = sites b -> Inv b -> Inv b'.
  Proof.
    intros b b' T E I. pose proof (grows_eq b b' T E) as G. destruct I as [I1 I2]. split.
    - intros u. eapply thok_mono; [exact G|apply T|apply I1].
    - intros x Hx. rewrite E in Hx. eapply siteok_mono; [exact G| | |rewrite E; auto|apply I2; exact Hx].
      + intros g k _ y. rewrite T. auto.
      + intros g k e Ex Ef. rewrite T in Ef. apply (site_lt b x g k e (conj I1 I2) Hx Ex). exact Ef.
  Qed.
  (** noting a site that is in order *)
  Lemma inv_note : forall b x f s, Inv b -> excl x = Some (f, s) -> (forall y, In y (sites b) -> excl y = Some (f, s) -> False) ->
    core (note b x) x -> Inv (note b x).
  Proof.
    intros b x f s [I1 I2] Ex Fr Hc. assert (Hx : siteok (note b x) x).
    { split; [|exact Hc]. intros y g k Hy Eg Ey. cbn in Hy. apply in_app_or in Hy as [Hy|[<-|[]]]; [|left; reflexivity].
      exfalso. apply (Fr y Hy). congruence. } pose proof (grows_note b x) as G. split.
    - intros u. eapply thok_mono; [exact G|reflexivity|apply I1].
    - intros y Hy. cbn [note sites] in Hy. apply in_app_or in Hy as [Hy|[<-|[]]]; [|exact Hx].
      eapply siteok_mono; [exact G|auto| | |apply I2; exact Hy].
      + intros h k e Eh Ef. eapply (site_lt b y h k e); [split; assumption|exact Hy|exact Eh|exact Ef].
      + intros z h k Hz Eh Ez. cbn in Hz. apply in_app_or in Hz as [Hz|[<-|[]]]; [left; exact Hz|]. exfalso. apply (Fr y Hy). congruence.
  Qed.

  (** *** Frames of the primitive steps *)
  Lemma frame_upd : forall b t x, incl (jumps (th b t)) (jumps x) -> fin x = fin (th b t) -> start x = start (th b t) ->
    child x = child (th b t) -> frame (eq t) b (upd b t x).
  Proof.
    intros b t x A B C D. constructor.
    - apply grows_upd; assumption.
    - intros u Hu _. apply upd_other. intros ->. apply Hu. reflexivity.
    - intros u Hu _ y s Hy _. exact Hy.
    - intros u Hu. unfold inprog. rewrite upd_other; [auto|]. intros ->. apply Hu. reflexivity.
  Qed.
  Lemma frame_note : forall b x f s, (forall g k, excl x = Some (g, k) -> g = f) -> s = tt -> frame (eq f) b (note b x).
  Proof.
    intros b x f _ H _. constructor.
    - apply grows_note.
    - reflexivity.
    - intros u Hu _ y s Hy Ex. cbn in Hy. apply in_app_or in Hy as [Hy|[<-|[]]]; [exact Hy|]. exfalso. apply Hu. symmetry. exact (H _ _ Ex).
    - auto.
  Qed.

  (** *** One more state of the thread under construction *)
  Lemma clear_free : forall b f n x, clear b f n -> In x (sites b) -> excl x = Some (f, n) -> False.
  Proof. intros b f n x [A _] Hx Ex. specialize (A x n Hx Ex). lia. Qed.

  Lemma ext_refl : forall b f, Inv b -> inprog b f -> clear b f (cur (th b f)) -> ext f b b.
  Proof.
    intros b f I P C. constructor; auto using frame_refl. exists []. rewrite app_nil_r. split; auto.
  Qed.
  Lemma ext_inc : forall b f, Inv b -> inprog b f -> clear b f (cur (th b f)) -> ext f b (inc b f).
  Proof.
    intros b f I P C. unfold inc. constructor.
    - apply inv_cur; [repeat split|apply inprog_not0; exact P|exact I].
    - unfold inprog. rewrite upd_same. exact P.
    - rewrite upd_same. cbn. lia.
    - exists []. rewrite upd_same. cbn. rewrite app_nil_r. split; auto.
    - intros x s Hx _. left. exact Hx.
    - rewrite upd_same. destruct C as [C1 C2]. cbn [set_cur cur]. split.
      + intros x s Hx Ex. specialize (C1 x s Hx Ex). lia.
      + intros s y Hy. rewrite upd_same in Hy. specialize (C2 s y Hy). lia.
    - apply frame_upd; auto using incl_refl.
  Qed.
  (** a change of the assignments only *)
  Lemma ext_same : forall b f x, Inv b -> inprog b f -> clear b f (cur (th b f)) -> same_but_cur x (th b f) -> cur x = cur (th b f) ->
    ext f b (upd b f x).
  Proof.
    intros b f x I P C Sm Ec. pose proof Sm as (J & St & Fi & Ch). constructor.
    - apply inv_cur; [exact Sm|apply inprog_not0; exact P|exact I].
    - unfold inprog. rewrite upd_same. destruct P. split; congruence.
    - rewrite upd_same. lia.
    - exists []. rewrite upd_same, J, app_nil_r. split; auto.
    - intros y s Hy _. left. exact Hy.
    - rewrite upd_same, Ec. destruct C as [C1 C2]. split; [exact C1|]. rewrite upd_same, J. exact C2.
    - apply frame_upd; auto. rewrite J. apply incl_refl.
  Qed.
  (** a jump from a state already built, without a site, to states already built *)
  Lemma ext_jump : forall b0 b f src dst c els, ext f b0 b ->
    (forall x, In x (sites b) -> excl x = Some (f, src) -> False) ->
    rng (cur (th b0 f)) (cur (th b f)) (src, (dst, c, els)) ->
    ext f b0 (goto_from b f src dst c els).
  Proof.
    intros b0 b f src dst c els [A1 A2 A3 (n & A4 & A4') A5 A6 A7] F R. unfold goto_from. constructor.
    - apply inv_jump; auto.
    - unfold inprog. rewrite upd_same. exact A2.
    - rewrite upd_same. cbn. exact A3.
    - exists (n ++ [(src, (dst, c, els))]). rewrite upd_same. cbn [add_jump jumps cur]. rewrite A4, app_assoc. split; [reflexivity|].
      apply Forall_app. split; [exact A4'|]. constructor; [exact R|constructor].
    - intros x s Hx. apply A5. exact Hx.
    - rewrite upd_same. cbn [add_jump cur]. destruct A6 as [C1 C2]. split.
      + intros x s Hx. apply C1. exact Hx.
      + intros s y. rewrite upd_same. cbn [add_jump jumps]. intros Hy. apply in_app_or in Hy as [Hy|[Hy|[]]]; [exact (C2 s y Hy)|].
        injection Hy as -> _. destruct R as [R _]. lia.
    - eapply frame_trans; [exact A7|]. apply frame_upd; auto. cbn. intros j Hj. apply in_or_app. left. exact Hj.
  Qed.
  Lemma ext_note : forall b0 b f x s, ext f b0 b -> excl x = Some (f, s) -> cur (th b0 f) <= s < cur (th b f) ->
    (forall y, In y (sites b) -> excl y = Some (f, s) -> False) -> core (note b x) x -> ext f b0 (note b x).
  Proof.
    intros b0 b f x s [A1 A2 A3 A4 A5 A6 A7] Ex L Fr Ok. constructor; auto.
    - eapply inv_note; eassumption.
    - intros y k Hy Ey. cbn in Hy. apply in_app_or in Hy as [Hy|[<-|[]]]; [exact (A5 y k Hy Ey)|].
      right. rewrite Ex in Ey. injection Ey as <-. lia.
    - destruct A6 as [C1 C2]. split; [|exact C2]. intros y k Hy Ey. cbn in Hy. apply in_app_or in Hy as [Hy|[<-|[]]]; [exact (C1 y k Hy Ey)|].
      rewrite Ex in Ey. injection Ey as <-. cbn. lia.
    - eapply frame_trans; [exact A7|]. apply (frame_note b x f tt); [|reflexivity]. intros g k Eg. congruence.
  Qed.
  Lemma ext_next : forall b f c, Inv b -> inprog b f -> clear b f (cur (th b f)) -> ext f b (goto_next b f c).
  Proof.
    intros b f c I P C. set (s := cur (th b f)). unfold goto_next. fold s.
    assert (G : grows b (upd b f (set_cur (add_jump (th b f) s (S s) c None) (S s)))).
    { apply grows_upd; auto. cbn. intros j Hj. apply in_or_app. left. exact Hj. }
    constructor.
    - pose proof (inv_jump b f s (S s) c None I P (fun x Hx Ex => clear_free b f _ x C Hx Ex)) as J.
      unfold goto_from in J.
      pose proof (inv_cur (upd b f (add_jump (th b f) s (S s) c None)) f (set_cur (add_jump (th b f) s (S s) c None) (S s))
                    ltac:(rewrite upd_same; repeat split)
                    ltac:(rewrite upd_same; intros E; destruct P as [P _]; apply (f_equal start) in E; cbn in E; congruence) J) as K.
      refine (inv_eq _ _ _ _ K); [|reflexivity]. intros u. cbn. destruct (Nat.eqb u f); reflexivity.
    - unfold inprog. rewrite upd_same. exact P.
    - rewrite upd_same. cbn. fold s. lia.
    - exists [(s, (S s, c, None))]. rewrite upd_same. cbn [set_cur add_jump jumps cur]. split; [reflexivity|].
      constructor; [|constructor]. cbn. fold s. split; [lia|split; [lia|discriminate]].
    - intros x k Hx _. left. exact Hx.
    - rewrite upd_same. cbn [set_cur cur]. destruct C as [C1 C2]. split.
      + intros x k Hx Ex. specialize (C1 x k Hx Ex). fold s in C1. lia.
      + intros k y. rewrite upd_same. cbn [set_cur add_jump jumps]. intros Hy. apply in_app_or in Hy as [Hy|[Hy|[]]].
        * specialize (C2 k y Hy). fold s in C2. lia.
        * injection Hy as -> _. lia.
    - apply frame_upd; auto. cbn. intros j Hj. apply in_or_app. left. exact Hj.
  Qed.
  Lemma next_th : forall b f c, th (goto_next b f c) f = set_cur (add_jump (th b f) (cur (th b f)) (S (cur (th b f))) c None) (S (cur (th b f))).
  Proof. intros. unfold goto_next. apply upd_same. Qed.
  Lemma next_only : forall b f c, clear b f (cur (th b f)) -> only (goto_next b f c) f (cur (th b f)) (S (cur (th b f)), c, None).
  Proof.
    intros b f c [_ C]. unfold only. rewrite next_th. cbn [set_cur add_jump jumps]. split.
    - apply in_or_app. right. left. reflexivity.
    - intros y Hy. apply in_app_or in Hy as [Hy|[Hy|[]]]; [specialize (C _ _ Hy); lia|congruence].
  Qed.
  (** a waiting state with its site *)
  Lemma ext_wait : forall b f c x, Inv b -> inprog b f -> clear b f (cur (th b f)) ->
    excl x = Some (f, cur (th b f)) -> core (note (goto_next b f c) x) x -> ext f b (note (goto_next b f c) x).
  Proof.
    intros b f c x I P C Ex Ok. apply (ext_note b _ f x (cur (th b f))); [apply ext_next; assumption|exact Ex| | |exact Ok].
    - rewrite next_th. cbn. lia.
    - intros y Hy Ey. exact (clear_free b f _ y C Hy Ey).
  Qed.

  (** *** reset *)
  Lemma ext_quiet : forall f b0 b b', ext f b0 b -> Inv b' -> frame (fun _ => False) b b' -> ext f b0 b'.
  Proof.
    intros f b0 b b' [A1 A2 A3 A4 A5 A6 A7] I F.
    assert (T : th b' f = th b f) by (apply (fr_prog _ _ _ F); auto).
    assert (Q : forall x s, In x (sites b') -> excl x = Some (f, s) -> In x (sites b)) by (intros; eapply (fr_site _ _ _ F); eauto).
    constructor; auto.
    - unfold inprog. rewrite T. exact A2.
    - rewrite T. exact A3.
    - rewrite T. exact A4.
    - intros x s Hx Ex. eapply A5; eauto.
    - rewrite T. destruct A6 as [C1 C2]. split.
      + intros x s Hx Ex. eapply C1; eauto.
      + rewrite T. exact C2.
    - eapply frame_trans; [exact A7|]. eapply frame_weaken; [|exact F]. intros u [].
  Qed.
  Lemma reset1_spec : forall b f t g b', Inv b -> inprog b f -> reset1 b f t g = Some b' -> Inv b' /\ frame (fun _ => False) b b'.
  Proof.
    intros b f t g b' I P E. unfold reset1 in E. destruct (start (th b t)) as [s0|] eqn:Es; [|discriminate].
    destruct (fin (th b t)) as [e|] eqn:Ef; [|discriminate]. injection E as <-.
    destruct I as [I1 I2].
    assert (s0 = 0).
    { destruct (I1 t) as [H|[[H _]|[H _]]]; [rewrite H in Es; discriminate|congruence|congruence]. }
    subst s0. set (c := CAnd (CAt f (cur (th b f))) g).
    set (b' := note _ _).
    assert (Tt : th b' t = set_cur (add_jump (th b t) e 0 c None) 0).
    { unfold b', set_index, goto_from. cbn [note th]. rewrite !upd_same. reflexivity. }
    assert (Tu : forall u, u <> t -> th b' u = th b u).
    { intros u Hu. unfold b', set_index, goto_from. cbn [note th]. rewrite !upd_other by exact Hu. reflexivity. }
    assert (Sb : sites b' = sites b ++ [SReset f (cur (th b f)) t g]) by reflexivity.
    clearbody b'.
    assert (G : grows b b').
    { constructor; [rewrite Sb; intros x Hx; apply in_or_app; left; exact Hx| | | |];
        intros u; (destruct (Nat.eq_dec u t) as [->|Hu]; [rewrite Tt; cbn|rewrite (Tu u Hu)]); auto using incl_refl.
      intros x Hx. apply in_or_app. left. exact Hx. }
    assert (D : exists e', fin (th b t) = Some e' /\ lo (th b t) < e' /\ Forall (good b t e') (jumps (th b t))).
    { destruct (I1 t) as [H|[[_ H]|(_ & H)]]; [rewrite H in Es; discriminate|congruence|exact H]. }
    destruct D as (e' & D1 & D2 & D3). assert (e' = e) by congruence. subst e'.
    split.
    - split.
      + intros u. destruct (Nat.eq_dec u t) as [->|Hu]; [|eapply thok_mono; eauto].
        right. right. unfold lo. rewrite Tt. cbn. split; [exact Es|]. exists e. split; [exact Ef|]. split; [exact D2|].
        apply Forall_app. split.
        * eapply Forall_impl; [|exact D3]. intros j. apply good_mono; [exact G|congruence].
        * constructor; [|constructor]. right. right. repeat split. exists f, (cur (th b f)), g. split; [|reflexivity].
          rewrite Sb. apply in_or_app. right. left. reflexivity.
      + intros x Hx. rewrite Sb in Hx. apply in_app_or in Hx as [Hx|[<-|[]]].
        * eapply siteok_mono; [exact G| | |rewrite Sb; intros y h k Hy _ Ey; apply in_app_or in Hy as [Hy|[<-|[]]]; [left; exact Hy|discriminate]|apply I2; exact Hx].
          -- intros h k Ex y Hy. destruct (Nat.eq_dec h t) as [->|Hh]; [|rewrite (Tu h Hh) in Hy; exact Hy].
             rewrite Tt in Hy. cbn in Hy. apply in_app_or in Hy as [Hy|[Hy|[]]]; [exact Hy|]. injection Hy as <- _.
             destruct (site_lt b x t e e (conj I1 I2) Hx Ex) as (_ & _ & L). specialize (L Ef). lia.
          -- intros h k e1 Ex Eh. apply (site_lt b x h k e1 (conj I1 I2) Hx Ex).
             destruct (Nat.eq_dec h t) as [->|Hh]; [rewrite Tt in Eh; exact Eh|rewrite (Tu h Hh) in Eh; exact Eh].
        * split; [intros y h k _ Ey; discriminate|]. cbn. rewrite Tt. cbn. split; [exact Es|]. exists e. split; [exact Ef|]. apply in_or_app. right. left. reflexivity.
    - constructor; [exact G| | |].
      + intros u _ [_ Hu]. apply Tu. intros ->. congruence.
      + intros u _ _ x s Hx Ex. rewrite Sb in Hx. apply in_app_or in Hx as [Hx|[<-|[]]]; [exact Hx|discriminate].
      + intros u _ [H1 H2]. destruct (Nat.eq_dec u t) as [->|Hu]; [rewrite Tt in H2; cbn in H2; congruence|].
        rewrite (Tu u Hu) in H1, H2. split; assumption.
  Qed.
  Lemma reset_all_spec : forall ts b f x b', Inv b -> inprog b f -> reset_all tid b f x ts = Some b' -> Inv b' /\ frame (fun _ => False) b b'.
  Proof.
    induction ts as [|t l IH]; intros b f x b' I P E; cbn [reset_all] in E.
    - injection E as <-. split; [exact I|apply frame_refl].
    - destruct (reset1 b f t _) as [b1|] eqn:E1; [|discriminate]. destruct (reset1_spec _ _ _ _ _ I P E1) as [I1 F1].
      assert (P1 : inprog b1 f) by (unfold inprog; rewrite (fr_prog _ _ _ F1 f); auto).
      destruct (IH _ _ _ _ I1 P1 E) as [I2 F2]. split; [exact I2|]. eapply frame_trans; eassumption.
  Qed.

  (** *** Before a run *)
  Definition prepared : tb := mkT 0 [] [] (Some 0) None true.
  Definition donec (b : build) (t : nat) : Prop := start (th b t) = Some 0 /\ child (th b t) = true /\ exists e, fin (th b t) = Some e.
  Definition ready (b : build) (t : nat) : Prop := donec b t \/ (th b t = prepared /\ clear b t 0).
  Lemma donec_grows : forall b b' t, grows b b' -> donec b t -> donec b' t.
  Proof.
    intros b b' t G (A & B & e & C). split; [apply (gr_start _ _ G); exact A|]. split.
    - rewrite (gr_child _ _ G); [exact B|congruence].
    - exists e. apply (gr_fin _ _ G). exact C.
  Qed.
  Lemma donec_not : forall b t, donec b t -> ~ inprog b t.
  Proof. intros b t (_ & _ & e & C) [_ D]. congruence. Qed.
  Lemma prepared_inprog : forall b t, th b t = prepared -> inprog b t.
  Proof. intros b t E. unfold inprog. rewrite E. split; reflexivity. Qed.
  Lemma ready_frame : forall X b b' t, frame X b b' -> ~ X t -> ready b t -> ready b' t.
  Proof.
    intros X b b' t F N [D|[E C]].
    - left. eapply donec_grows; [apply (fr_grows _ _ _ F)|exact D].
    - right. pose proof (prepared_inprog b t E) as P. pose proof (fr_prog _ _ _ F t N P) as T. split; [congruence|].
      destruct C as [C1 C2]. split.
      + intros x s Hx Ex. eapply C1; [|exact Ex]. eapply (fr_site _ _ _ F); eauto.
      + rewrite T. exact C2.
  Qed.

  Lemma prepare_spec : forall b t b', Inv b -> prepare b t = Some b' ->
    Inv b' /\ ready b' t /\ frame (eq t) b b' /\ ~ inprog b t.
  Proof.
    intros b t b' I E. unfold prepare in E. destruct (start (th b t)) as [s|] eqn:Es.
    - destruct (fin (th b t)) as [e|] eqn:Ef; [|discriminate]. destruct (child (th b t)) eqn:Ec; [|discriminate]. injection E as <-.
      assert (s = 0).
      { destruct I as [I1 _]. destruct (I1 t) as [H|[[H _]|[H _]]]; [rewrite H in Es; discriminate|congruence|congruence]. }
      subst s. split; [|split; [|split]].
      + apply inv_cur; [repeat split|eapply done_not0; exact Ef|exact I].
      + left. unfold donec. rewrite upd_same. cbn. eauto.
      + apply frame_upd; auto using incl_refl.
      + intros [_ H]. congruence.
    - injection E as <-. destruct I as [I1 I2].
      assert (T0 : th b t = tb0) by (destruct (I1 t) as [H|[[H _]|[H _]]]; [exact H|congruence|congruence]).
      rewrite T0. cbn. change (set_child (set_start tb0 0)) with prepared.
      assert (Z : forall x s, In x (sites b) -> excl x = Some (t, s) -> False).
      { intros x s Hx Ex. destruct (site_lt b x t s 0 (conj I1 I2) Hx Ex) as [H _]. rewrite T0 in H. discriminate. }
      assert (G : grows b (upd b t prepared)).
      { constructor; [apply incl_refl| | | |]; intros u; (destruct (Nat.eq_dec u t) as [->|Hu]; [rewrite T0|rewrite upd_other by exact Hu]);
          auto using incl_refl; try (intros; discriminate).
        - intros j [].
        - intros H. exfalso. apply H. reflexivity. }
      split; [|split; [|split]].
      + split.
        * intros u. destruct (Nat.eq_dec u t) as [->|Hu].
          -- right. left. apply prepared_inprog. apply upd_same.
          -- eapply thok_mono; [exact G|apply upd_other; exact Hu|apply I1].
        * intros x Hx. eapply siteok_mono; [exact G| | |intros; left; assumption|apply I2; exact Hx].
          -- intros h k Ex y Hy. destruct (Nat.eq_dec h t) as [->|Hh]; [exfalso; exact (Z x k Hx Ex)|].
             rewrite upd_other in Hy by exact Hh. exact Hy.
          -- intros h k e Ex Eh. destruct (Nat.eq_dec h t) as [->|Hh]; [exfalso; exact (Z x k Hx Ex)|].
             rewrite upd_other in Eh by exact Hh. apply (site_lt b x h k e (conj I1 I2) Hx Ex). exact Eh.
      + right. split; [apply upd_same|]. split.
        * intros x s Hx Ex. exfalso. exact (Z x s Hx Ex).
        * rewrite upd_same. intros s y [].
      + constructor; [exact G| | |].
        * intros u Hu _. apply upd_other. intros ->. apply Hu. reflexivity.
        * intros u Hu _ x s Hx _. exact Hx.
        * intros u Hu. unfold inprog. rewrite upd_other; [auto|]. intros ->. apply Hu. reflexivity.
      + intros [H _]. congruence.
  Qed.
  Lemma prepare_all_spec : forall ts b b', Inv b -> prepare_all b ts = Some b' ->
    Inv b' /\ Forall (ready b') ts /\ frame (fun u => In u ts) b b' /\ Forall (fun t => ~ inprog b t) ts.
  Proof.
    induction ts as [|t l IH]; intros b b' I E; cbn [prepare_all] in E.
    - injection E as <-. auto using frame_refl.
    - destruct (prepare b t) as [b1|] eqn:E1; [|discriminate]. destruct (prepare_spec _ _ _ I E1) as (I1 & R1 & F1 & N1).
      destruct (IH _ _ I1 E) as (I2 & R2 & F2 & N2). split; [exact I2|].
      assert (F : frame (fun u => In u (t :: l)) b b').
      { eapply frame_trans; eapply frame_weaken; [|exact F1| |exact F2]; intros u H; [left; exact H|right; exact H]. }
      split; [|split; [exact F|]].
      + constructor; [|exact R2]. destruct (in_dec Nat.eq_dec t l) as [Hi|Hn].
        * rewrite Forall_forall in R2. apply R2. exact Hi.
        * eapply ready_frame; [exact F2|exact Hn|exact R1].
      + constructor; [exact N1|]. rewrite Forall_forall in N2 |- *. intros u Hu P. destruct (Nat.eq_dec u t) as [->|Hne]; [contradiction|].
        apply (N2 u Hu). unfold inprog. rewrite (fr_prog _ _ _ F1 u); auto.
  Qed.

  (** *** Closing a thread *)
  Lemma close_spec : forall b t, Inv b -> inprog b t -> lo (th b t) < cur (th b t) -> clear b t (cur (th b t)) ->
    Forall (good b t (cur (th b t))) (jumps (th b t)) ->
    Inv (close b t) /\ frame (eq t) b (close b t) /\ fin (th (close b t) t) = Some (cur (th b t)) /\ start (th (close b t) t) = Some 0 /\
    child (th (close b t) t) = child (th b t).
  Proof.
    intros b t [I1 I2] [P1 P2] L [C1 C2] Gd. unfold close. rewrite P2.
    assert (G : grows b (upd b t (set_fin (th b t) (cur (th b t))))).
    { constructor; [apply incl_refl| | | |]; intros u; (destruct (Nat.eq_dec u t) as [->|Hu]; [rewrite upd_same; cbn|rewrite upd_other by exact Hu]);
        auto using incl_refl. intros e H. congruence. }
    split; [|split; [|rewrite upd_same; auto]].
    - split.
      + intros u. destruct (Nat.eq_dec u t) as [->|Hu]; [|eapply thok_mono; [exact G|apply upd_other; exact Hu|apply I1]].
        right. right. unfold lo. rewrite upd_same. cbn. split; [exact P1|]. exists (cur (th b t)). split; [reflexivity|]. split; [exact L|].
        eapply Forall_impl; [|exact Gd]. intros j. apply good_mono; [exact G|congruence].
      + intros x Hx. eapply siteok_mono; [exact G| | |intros; left; assumption|apply I2; exact Hx].
        * intros h k Ex y Hy. destruct (Nat.eq_dec h t) as [->|Hh]; [rewrite upd_same in Hy; exact Hy|rewrite upd_other in Hy by exact Hh; exact Hy].
        * intros h k e Ex Eh. destruct (Nat.eq_dec h t) as [->|Hh].
          -- rewrite upd_same in Eh. cbn in Eh. injection Eh as <-. exact (C1 x k Hx Ex).
          -- rewrite upd_other in Eh by exact Hh. apply (site_lt b x h k e (conj I1 I2) Hx Ex). exact Eh.
    - constructor; [exact G| | |].
      + intros u Hu _. apply upd_other. intros ->. apply Hu. reflexivity.
      + intros u Hu _ x s Hx _. exact Hx.
      + intros u Hu. unfold inprog. rewrite upd_other; [auto|]. intros ->. apply Hu. reflexivity.
  Qed.
  (** *** run *)
  Definition slot (b : build) (f s : nat) : Prop :=
    (forall x k, In x (sites b) -> excl x = Some (f, k) -> k < s \/ (k = s /\ is_run x = true)) /\
    (forall k y, In (k, y) (jumps (th b f)) -> k < s \/ (k = s /\ y = (S s, CTrue, None))).
  Lemma clear_slot : forall b f s, clear b f s -> slot b f s.
  Proof.
    intros b f s [A B]. split.
    - intros x k Hx Ex. left. eapply A; eauto.
    - intros k y Hy. left. eapply B; eauto.
  Qed.
  Lemma slot_clear : forall b f s, slot b f s -> clear b f (S s).
  Proof.
    intros b f s [A B]. split.
    - intros x k Hx Ex. destruct (A x k Hx Ex); lia.
    - intros k y Hy. destruct (B k y Hy); lia.
  Qed.

  Lemma bind_same : forall args x c t j f, same_but_cur (bind x c t j f args) x /\ cur (bind x c t j f args) = cur x.
  Proof.
    induction args as [|a l IH]; intros x c t j f; cbn [bind]; [repeat split|].
    destruct (IH (add_act x (cur x) c (ABind t j f a)) c t (S j) f) as [(A & B & C & D) E]. repeat split; cbn in *; congruence.
  Qed.

  (** the builder after [thread.py:453] *)
  Definition run4 (b : build) (f t : nat) (args : list nat) (gate : cond) : build :=
    let s := cur (th b f) in
    let flag := CAnd gate (CAt f s) in
    let b1 := upd b t (bind (th b t) flag t 0 f args) in
    note (goto_next (set_index (goto_from b1 t 0 1 flag None) t 1) f CTrue) (SRun f s t gate args).

  Lemma run4_spec : forall b f t args g, Inv b -> inprog b f -> t <> f -> ready b t -> slot b f (cur (th b f)) -> 1 <= cur (th b f) ->
    let s := cur (th b f) in let b' := run4 b f t args g in
    Inv b' /\ frame (fun u => u = f \/ u = t) b b' /\
    th b' f = set_cur (add_jump (th b f) s (S s) CTrue None) (S s) /\
    jumps (th b' t) = jumps (th b t) ++ [(0, (1, CAnd g (CAt f s), None))] /\ cur (th b' t) = 1 /\
    start (th b' t) = Some 0 /\ child (th b' t) = true /\ fin (th b' t) = fin (th b t) /\
    slot b' f s /\ sites b' = sites b ++ [SRun f s t g args].
  Proof.
    intros b f t args g [I1 I2] P Ne R Sl L s b'.
    assert (Tf : th b' f = set_cur (add_jump (th b f) s (S s) CTrue None) (S s)).
    { unfold b', run4, goto_next, set_index, goto_from. cbn [note th].
      rewrite !upd_same. rewrite !(upd_other _ t _ f) by congruence. reflexivity. }
    assert (Tt : same_but_cur (th b' t) (add_jump (th b t) 0 1 (CAnd g (CAt f s)) None) /\ cur (th b' t) = 1).
    { unfold b', run4, goto_next, set_index, goto_from. cbn [note th].
      rewrite (upd_other _ f _ t) by congruence. rewrite !upd_same.
      destruct (bind_same args (th b t) (CAnd g (CAt f (cur (th b f)))) t 0 f) as [(A & B & C & D) E].
      unfold same_but_cur. cbn. fold s. fold s in A, B, C, D. repeat split; congruence. }
    assert (Tu : forall u, u <> f -> u <> t -> th b' u = th b u).
    { intros u Hf Ht. unfold b', run4, goto_next, set_index, goto_from. cbn [note th].
      rewrite !upd_other by congruence. reflexivity. }
    assert (Sb : sites b' = sites b ++ [SRun f s t g args]) by reflexivity.
    clearbody b'. destruct Tt as [(Tj & Ts & Te & Tc) Tcur]. cbn in Tj, Ts, Te, Tc.
    assert (R1 : start (th b t) = Some 0 /\ child (th b t) = true).
    { destruct R as [(A & B & _)|[E _]]; [auto|rewrite E; auto]. }
    destruct R1 as [R1 R2].
    assert (G : grows b b').
    { constructor; [rewrite Sb; intros x Hx; apply in_or_app; left; exact Hx| | | |]; intros u;
        (destruct (Nat.eq_dec u f) as [->|Hf]; [rewrite Tf; cbn; auto|
         destruct (Nat.eq_dec u t) as [->|Ht]; [rewrite ?Tj, ?Ts, ?Te, ?Tc; auto|rewrite (Tu u Hf Ht); auto using incl_refl]]);
        intros x Hx; apply in_or_app; left; exact Hx. }
    assert (F : frame (fun u => u = f \/ u = t) b b').
    { constructor; [exact G| | |].
      - intros u Hu _. apply Tu; intros ->; apply Hu; auto.
      - intros u Hu _ x k Hx Ex. rewrite Sb in Hx. apply in_app_or in Hx as [Hx|[<-|[]]]; [exact Hx|]. injection Ex as <- _. exfalso. apply Hu. auto.
      - intros u Hu. unfold inprog. rewrite Tu; [auto|intros ->; apply Hu; auto|intros ->; apply Hu; auto]. }
    assert (Sl' : slot b' f s).
    { destruct Sl as [A B]. fold s in A, B. split.
      - intros x k Hx Ex. rewrite Sb in Hx. apply in_app_or in Hx as [Hx|[<-|[]]]; [eapply A; eauto|]. injection Ex as <-. right. auto.
      - intros k y Hy. rewrite Tf in Hy. cbn in Hy. apply in_app_or in Hy as [Hy|[Hy|[]]]; [eapply B; eauto|]. injection Hy as <- <-. right. auto. }
    split; [|split; [exact F|split; [exact Tf|split; [exact Tj|split; [exact Tcur|split; [congruence|split; [congruence|split; [exact Te|split; [exact Sl'|exact Sb]]]]]]]]].
    split.
    - intros u. destruct (Nat.eq_dec u f) as [->|Hf].
      { right. left. unfold inprog. rewrite Tf. exact P. }
      destruct (Nat.eq_dec u t) as [->|Ht]; [|eapply thok_mono; [exact G|apply Tu; assumption|apply I1]].
      destruct (I1 t) as [H|[[H1 H2]|(H1 & e & H2 & H3 & H4)]].
      + rewrite H in R1. discriminate.
      + right. left. split; congruence.
      + right. right. split; [congruence|]. exists e. split; [congruence|]. unfold lo. rewrite Tc. split; [exact H3|]. rewrite Tj.
        apply Forall_app. split.
        * eapply Forall_impl; [|exact H4]. intros j. apply good_mono; [exact G|congruence].
        * constructor; [|constructor]. left. split; [congruence|]. repeat split. exists f, s, g, args. split; [|reflexivity].
          rewrite Sb. apply in_or_app. right. left. reflexivity.
    - assert (E' : forall h e, fin (th b' h) = Some e -> fin (th b h) = Some e).
      { intros h e. destruct (Nat.eq_dec h f) as [->|Hf]; [rewrite Tf; auto|].
        destruct (Nat.eq_dec h t) as [->|Ht]; [rewrite Te; auto|rewrite Tu by assumption; auto]. }
      intros x Hx. rewrite Sb in Hx. apply in_app_or in Hx as [Hx|[<-|[]]].
      + eapply siteok_mono'; [exact G| | | |apply I2; exact Hx].
        * intros h k Ex y Hy. destruct (Nat.eq_dec h f) as [->|Hf].
          -- rewrite Tf in Hy. cbn in Hy. apply in_app_or in Hy as [Hy|[Hy|[]]]; [left; exact Hy|]. injection Hy as <- <-.
             destruct Sl as [A _]. destruct (A x s Hx Ex) as [K|[_ K]]; [unfold s in K; lia|]. right. auto.
          -- destruct (Nat.eq_dec h t) as [->|Ht]; [|rewrite Tu in Hy by assumption; left; exact Hy].
             rewrite Tj in Hy. apply in_app_or in Hy as [Hy|[Hy|[]]]; [left; exact Hy|]. injection Hy as <- _.
             destruct (site_lt b x t 0 0 (conj I1 I2) Hx Ex) as (_ & K & _). lia.
        * intros h k e Ex Eh. apply (site_lt b x h k e (conj I1 I2) Hx Ex). apply E'. exact Eh.
        * intros y h k Hy Ex Ey. rewrite Sb in Hy. apply in_app_or in Hy as [Hy|[<-|[]]]; [left; exact Hy|]. injection Ey as <- <-.
          destruct Sl as [A _]. destruct (A x s Hx Ex) as [K|[_ K]]; [unfold s in K; lia|]. right. auto.
      + split.
        { intros y h k Hy Ex Ey. injection Ex as <- <-. destruct Sl' as [A _]. destruct (A y s Hy Ey) as [K|[_ K]]; [lia|]. right. auto. }
        cbn. split; [|split; [|split; [congruence|split; [congruence|]]]].
        * split; [rewrite Tf; apply P|]. split; [exact L|]. intros e He. apply E' in He. destruct P as [_ P]. congruence.
        * split.
          -- rewrite Tf. cbn. apply in_or_app. right. left. reflexivity.
          -- intros y Hy. destruct Sl' as [_ B]. destruct (B s y Hy) as [K|[_ K]]; [lia|exact K].
        * rewrite Tj. apply in_or_app. right. left. reflexivity.
  Qed.

  Section Func.
    Variable func : build -> nat -> option build.
    Hypothesis func_ok : forall b t b', Inv b -> inprog b t -> clear b t (cur (th b t)) -> func b t = Some b' ->
      ext t b b' /\ cur (th b t) < cur (th b' t) /\ (forall new, jumps (th b' t) = jumps (th b t) ++ new -> Forall (lastj t (cur (th b' t))) new).

    Lemma run1_spec : forall b f t args g b', Inv b -> inprog b f -> t <> f -> ready b t -> slot b f (cur (th b f)) -> 1 <= cur (th b f) ->
      synth_run func b f t args g = Some b' ->
      let s := cur (th b f) in
      Inv (close b' t) /\ frame (fun u => u = f \/ u = t) b (close b' t) /\ donec (close b' t) t /\
      th (close b' t) f = set_cur (add_jump (th b f) s (S s) CTrue None) (S s) /\ slot (close b' t) f s /\
      (forall x k, In x (sites (close b' t)) -> excl x = Some (f, k) -> In x (sites b) \/ k = s) /\
      In (SRun f s t g args) (sites (close b' t)).
    Proof.
      intros b f t args g b' I P Ne R Sl L E s.
      assert (R1 : start (th b t) = Some 0) by (destruct R as [(A & _)|[T _]]; [exact A|rewrite T; reflexivity]).
      unfold synth_run in E. rewrite R1 in E. destruct (Nat.eqb (cur (th b t)) 0); [|discriminate].
      fold (run4 b f t args g) in E.
      destruct (run4_spec b f t args g I P Ne R Sl L) as (I4 & F4 & Tf & Tj & Tcur & Ts & Tc & Te & Sl4 & Sb). fold s in Tf, Tj, Sl4, Sb.
      set (b4 := run4 b f t args g) in *. clearbody b4.
      assert (P4 : inprog b4 f) by (unfold inprog; rewrite Tf; exact P).
      assert (Q4 : forall x k, In x (sites b4) -> excl x = Some (f, k) -> In x (sites b) \/ k = s).
      { intros x k Hx Ex. rewrite Sb in Hx. apply in_app_or in Hx as [Hx|[<-|[]]]; [left; exact Hx|]. injection Ex as <-. right. reflexivity. }
      destruct R as [D|[T C]].
      - destruct D as (_ & _ & e & D). rewrite Te, D in E. injection E as <-.
        unfold close. rewrite Te, D.
        split; [exact I4|split; [exact F4|split; [|split; [exact Tf|split; [exact Sl4|split; [exact Q4|]]]]]]; [|rewrite Sb; apply in_or_app; right; left; reflexivity]. split; [exact Ts|split; [exact Tc|exists e; congruence]].
      - rewrite Te, T in E. cbn [prepared fin] in E.
        assert (Pt : inprog b4 t) by (split; [exact Ts|rewrite Te, T; reflexivity]).
        assert (Ct : clear b4 t (cur (th b4 t))).
        { rewrite Tcur. split.
          - intros x k Hx Ex. rewrite Sb in Hx. apply in_app_or in Hx as [Hx|[<-|[]]].
            + destruct C as [C _]. specialize (C x k Hx Ex). lia.
            + injection Ex as Ef _. congruence.
          - intros k y Hy. rewrite Tj, T in Hy. cbn in Hy. destruct Hy as [Hy|[]]. injection Hy as <- _. lia. }
        destruct (func_ok b4 t b' I4 Pt Ct E) as [[X1 X2 X3 (new & X4 & X4') X5 X6 X7] [X8 X9]]. specialize (X9 new X4).
        assert (Lo : lo (th b' t) = 1).
        { unfold lo. rewrite (gr_child _ _ (fr_grows _ _ _ X7)); [rewrite Tc; reflexivity|congruence]. }
        rewrite Tcur in *.
        destruct (close_spec b' t X1 X2 ltac:(lia) X6) as (Y1 & Y2 & Y3 & Y4 & Y5).
        { rewrite X4, Tj, T. cbn [prepared jumps app]. constructor.
          - left. rewrite (gr_child _ _ (fr_grows _ _ _ X7)); [|congruence]. split; [exact Tc|]. repeat split. exists f, s, g, args.
            split; [|reflexivity]. apply (gr_sites _ _ (fr_grows _ _ _ X7)). rewrite Sb. apply in_or_app. right. left. reflexivity.
          - rewrite Forall_forall in X4', X9 |- *. intros [src [[dst c] els]] Hj. destruct (X4' _ Hj) as (A1 & A2 & A3). right. left. rewrite Lo.
            split; [exact A1|]. split; [exact A2|]. split; [exact A3|exact (X9 _ Hj)]. }
        assert (Nf : t <> f) by exact Ne.
        assert (Tf' : th b' f = th b4 f) by (apply (fr_prog _ _ _ X7); auto).
        assert (Pf' : inprog b' f) by (unfold inprog; rewrite Tf'; exact P4).
        assert (Tf2 : th (close b' t) f = th b' f) by (apply (fr_prog _ _ _ Y2); auto).
        assert (Q : forall x k, In x (sites (close b' t)) -> excl x = Some (f, k) -> In x (sites b4)).
        { intros x k Hx Ex. eapply (fr_site _ _ _ X7 f Nf P4 x k); [|exact Ex]. eapply (fr_site _ _ _ Y2 f Nf Pf' x k); eauto. }
        split; [exact Y1|]. split; [|split; [|split; [|split; [|split]]]].
        + eapply frame_trans; [exact F4|]. eapply frame_trans; eapply frame_weaken; [|exact X7| |exact Y2]; intros u <-; auto.
        + split; [exact Y4|]. split; [|eauto]. rewrite Y5. rewrite (gr_child _ _ (fr_grows _ _ _ X7)); [exact Tc|congruence].
        + congruence.
        + destruct Sl4 as [A B]. split.
          * intros x k Hx Ex. eapply A; eauto.
          * rewrite Tf2, Tf'. exact B.
        + intros x k Hx Ex. eapply Q4; eauto.
        + apply (gr_sites _ _ (fr_grows _ _ _ Y2)). apply (gr_sites _ _ (fr_grows _ _ _ X7)). rewrite Sb. apply in_or_app. right. left. reflexivity.
    Qed.

    Lemma run_all_spec : forall ts b f p fs args b', Inv b -> inprog b f -> ~ In f ts -> Forall (ready b) ts -> slot b f fs -> 1 <= fs ->
      cur (th b f) = fs \/ cur (th b f) = S fs ->
      run_all tid func b f p fs args ts = Some b' ->
      Inv b' /\ inprog b' f /\ frame (fun u => u = f \/ In u ts) b b' /\ Forall (donec b') ts /\
      (ts = [] /\ b' = b \/ cur (th b' f) = S fs) /\
      (exists n, jumps (th b' f) = jumps (th b f) ++ repeat (fs, (S fs, CTrue, None)) n) /\ slot b' f fs /\
      (forall x k, In x (sites b') -> excl x = Some (f, k) -> In x (sites b) \/ k = fs) /\
      (forall t, In t ts -> In (SRun f fs t (CBit p (tid t)) args) (sites b')).
    Proof.
      induction ts as [|t l IH]; intros b f p fs args b' I P N R Sl L Cu E; cbn [run_all] in E.
      - injection E as <-. split; [exact I|]. split; [exact P|]. split; [apply frame_refl|]. split; [constructor|]. split; [auto|].
        split; [exists 0; cbn; rewrite app_nil_r; reflexivity|]. split; [exact Sl|]. split; [auto|]. intros t [].
      - destruct (synth_run func (set_index b f fs) f t args (CBit p (tid t))) as [b1|] eqn:E1; [|discriminate].
        assert (I0 : Inv (set_index b f fs)) by (apply inv_cur; [repeat split|apply inprog_not0; exact P|exact I]).
        assert (T0 : th (set_index b f fs) f = set_cur (th b f) fs) by apply upd_same.
        assert (P0 : inprog (set_index b f fs) f) by (unfold inprog; rewrite T0; exact P).
        assert (F0 : frame (eq f) b (set_index b f fs)) by (apply frame_upd; auto using incl_refl).
        apply Forall_cons_iff in R as [Rt Rl].
        assert (Nt : t <> f) by (intros ->; apply N; left; reflexivity).
        assert (Nl : ~ In f l) by (intros H; apply N; right; exact H).
        assert (R0 : forall u, u <> f -> ready b u -> ready (set_index b f fs) u).
        { intros u Hu. apply (ready_frame (eq f) b _ u F0). congruence. }
        assert (Sl0 : slot (set_index b f fs) f (cur (th (set_index b f fs) f))).
        { rewrite T0. cbn [set_cur cur]. destruct Sl as [A B]. split; [exact A|]. rewrite T0. exact B. }
        assert (Cu0 : cur (th (set_index b f fs) f) = fs) by (rewrite T0; reflexivity).
        destruct (run1_spec _ f t args _ b1 I0 P0 Nt (R0 t Nt Rt) Sl0 ltac:(lia) E1) as (I1 & F1 & D1 & T1 & Sl1 & Q1 & W1).
        rewrite Cu0 in *. rewrite T0 in T1.
        set (b2 := close b1 t) in *.
        assert (P2 : inprog b2 f) by (unfold inprog; rewrite T1; exact P).
        assert (R2 : Forall (ready b2) l).
        { rewrite Forall_forall in Rl |- *. intros u Hu. destruct (Nat.eq_dec u t) as [->|Hne]; [left; exact D1|].
          assert (u <> f) by (intros ->; contradiction). eapply ready_frame; [exact F1| |apply R0; auto]. intros [?|?]; contradiction. }
        destruct (IH b2 f p fs args b' I1 P2 Nl R2 Sl1 L ltac:(rewrite T1; cbn; auto) E) as (J1 & J2 & J3 & J4 & J5 & (n & J6) & J7 & J8 & J9).
        split; [exact J1|]. split; [exact J2|].
        assert (F : frame (fun u => u = f \/ In u (t :: l)) b b').
        { eapply frame_trans; [eapply frame_weaken; [|exact F0]; intros u <-; auto|].
          eapply frame_trans; eapply frame_weaken; [|exact F1| |exact J3]; intros u [->|Hu]; cbn; auto. }
        split; [exact F|]. split.
        { constructor; [|exact J4]. eapply donec_grows; [apply (fr_grows _ _ _ J3)|exact D1]. }
        split.
        { right. destruct J5 as [[-> ->]|J5]; [rewrite T1; reflexivity|exact J5]. }
        split.
        { exists (S n). rewrite J6, T1. cbn. rewrite <- app_assoc. reflexivity. }
        split; [exact J7|]. split.
        { intros x k Hx Ex. destruct (J8 x k Hx Ex) as [K|K]; [|right; exact K].
          destruct (Q1 x k K Ex) as [K'|K']; [left; exact K'|right; exact K']. }
        intros u [<-|Hu]; [apply (gr_sites _ _ (fr_grows _ _ _ J3)); exact W1|exact (J9 u Hu)].
    Qed.
    Lemma frame_narrow : forall X f b b', frame X b b' -> (forall u, X u -> u <> f -> ~ inprog b u /\ ~ inprog b' u) -> frame (eq f) b b'.
    Proof.
      intros X f b b' [A1 A2 A3 A4] H.
      assert (K : forall u, f <> u -> inprog b u \/ inprog b' u -> ~ X u).
      { intros u Hu [Hp|Hp] HX; destruct (H u HX ltac:(congruence)); contradiction. }
      constructor; [exact A1| | |].
      - intros u Hu Hp. apply A2; auto.
      - intros u Hu Hp. apply A3; auto.
      - intros u Hu Hp. apply A4; auto.
    Qed.

    (** *** The body of a function *)
    Definition free (b : build) (f r : nat) : Prop := forall x, In x (sites b) -> excl x = Some (f, r) -> False.
    Definition comp_ok (b b' : build) (f : nat) (rs : list nat) : Prop :=
      ext f b b' /\ Forall (fun r => cur (th b f) <= r < cur (th b' f) /\ free b' f r) rs.

    Lemma free_ext : forall f b b' r, ext f b b' -> free b f r -> r < cur (th b f) -> free b' f r.
    Proof. intros f b b' r E F L x Hx Ex. destruct (ex_site _ _ _ E x r Hx Ex) as [K|K]; [exact (F x K Ex)|lia]. Qed.
    Lemma rets_ext : forall f b0 b b' rs, ext f b b' -> Forall (fun r => b0 <= r < cur (th b f) /\ free b f r) rs ->
      Forall (fun r => b0 <= r < cur (th b' f) /\ free b' f r) rs.
    Proof.
      intros f b0 b b' rs E H. eapply Forall_impl; [|exact H]. intros r [A B]. pose proof (ex_cur _ _ _ E). split; [lia|].
      eapply free_ext; [exact E|exact B|lia].
    Qed.
    Lemma no_jump : forall f b b1 y, clear b f (cur (th b f)) -> ext f (inc b f) b1 -> In (cur (th b f), y) (jumps (th b1 f)) -> False.
    Proof.
      intros f b b1 y [_ C] E Hy. destruct (ex_new _ _ _ E) as (n & E1 & E2). rewrite E1 in Hy. unfold inc in Hy, E2. rewrite upd_same in Hy, E2.
      cbn [set_cur jumps cur] in Hy, E2. apply in_app_or in Hy as [Hy|Hy]; [specialize (C _ _ Hy); lia|].
      rewrite Forall_forall in E2. specialize (E2 _ Hy). destruct y as [[d k] els]. destruct E2 as [E2 _]. lia.
    Qed.
    Lemma no_site : forall f b b1, clear b f (cur (th b f)) -> ext f (inc b f) b1 -> free b1 f (cur (th b f)).
    Proof.
      intros f b b1 C E x Hx Ex. destruct (ex_site _ _ _ E x _ Hx Ex) as [K|K].
      - exact (clear_free b f _ x C K Ex).
      - unfold inc in K. rewrite upd_same in K. cbn in K. lia.
    Qed.
    Lemma inc_cur : forall b f, cur (th (inc b f) f) = S (cur (th b f)).
    Proof. intros. unfold inc. rewrite upd_same. reflexivity. Qed.

    (** the branch state [s]: its only jump and, for [done()], the site *)
    Lemma done_ext : forall b0 b f s d c cc, ext f b0 b -> 1 <= cur (th b0 f) -> cur (th b0 f) <= s < cur (th b f) ->
      only b f s (S s, cc, Some d) -> free b f s -> (forall t, c = PDone t -> exists e, fin (th b t) = Some e /\ cc = CAt t e) ->
      ext f b0 (note_done b f s c) /\ th (note_done b f s c) = th b /\ (forall r, r <> s -> free b f r -> free (note_done b f s c) f r).
    Proof.
      intros b0 b f s d c cc E L1 L2 O Fr H. destruct c as [k|t|c]; cbn [note_done]; auto.
      destruct (H t eq_refl) as (e & E1 & E2). rewrite E1. subst cc. split; [|split; [reflexivity|]].
      - apply (ext_note b0 b f _ s); auto. cbn. split; [|split; [exists d; exact O|exact E1]].
        destruct (ex_prog _ _ _ E) as [P1 P2]. split; [exact P1|]. split; [lia|]. cbn. intros e' He. congruence.
      - intros r Hr F x Hx Ex. cbn in Hx. apply in_app_or in Hx as [Hx|[<-|[]]]; [exact (F x Hx Ex)|]. injection Ex as Ex. congruence.
    Qed.

    Lemma comp_if : forall b f c p q b' rs k, comp pool tid func b f (PIf c p q) = Some (b', rs, k) ->
      exists cc b1 r1 k1, ccond b c = Some cc /\ comp pool tid func (inc b f) f p = Some (b1, r1, k1) /\
      let s := cur (th b f) in let mid := cur (th b1 f) in
      ((b' = note_done (goto_from b1 f s (S s) cc (Some mid)) f s c /\ rs = r1) \/
       exists b2 r2 k2, comp pool tid func (inc b1 f) f q = Some (b2, r2, k2) /\
         b' = note_done (goto_from (goto_from b2 f s (S s) cc (Some (S mid))) f mid (cur (th b2 f)) CTrue None) f s c /\ rs = r1 ++ r2).
    Proof.
      intros b f c p q b' rs k E. cbn [comp] in E. destruct (ccond b c) as [cc|]; [|discriminate].
      destruct (comp pool tid func (inc b f) f p) as [[[b1 r1] k1]|] eqn:E1; [|discriminate].
      exists cc, b1, r1, k1. split; [reflexivity|]. split; [reflexivity|]. cbv zeta.
      assert (D : q = PSkip \/ exists b2 r2 k2, comp pool tid func (inc b1 f) f q = Some (b2, r2, k2) /\
         b' = note_done (goto_from (goto_from b2 f (cur (th b f)) (S (cur (th b f))) cc (Some (S (cur (th b1 f))))) f (cur (th b1 f)) (cur (th b2 f)) CTrue None) f (cur (th b f)) c /\ rs = r1 ++ r2).
      { destruct q; [left; reflexivity|..]; right;
          match type of E with (match ?X with _ => _ end) = _ => destruct X as [[[b2 r2] k2]|]; [|discriminate] end;
          injection E as <- <- _; exists b2, r2, k2; auto. }
      destruct D as [->|D]; [|right; exact D]. left. injection E as <- <- _. auto.
    Qed.
    Lemma ccond_done : forall b b' c cc t, grows b b' -> ccond b c = Some cc -> c = PDone t -> exists e, fin (th b' t) = Some e /\ cc = CAt t e.
    Proof.
      intros b b' c cc t G E ->. cbn in E. destruct (fin (th b t)) as [e|] eqn:Ef; [|discriminate]. injection E as <-.
      exists e. split; [apply (gr_fin _ _ G); exact Ef|reflexivity].
    Qed.
    Lemma wait_pok : forall b f x c, inprog b f -> 1 <= cur (th b f) -> pok (note (goto_next b f c) x) f (cur (th b f)).
    Proof.
      intros b f x c [P1 P2] L. unfold pok. cbn [note th]. rewrite next_th. cbn. split; [exact P1|]. split; [exact L|]. intros e He. congruence.
    Qed.
    Lemma next_fin : forall b f c t, fin (th (goto_next b f c) t) = fin (th b t).
    Proof.
      intros b f c t. destruct (Nat.eq_dec t f) as [->|H]; [rewrite next_th; reflexivity|]. unfold goto_next. rewrite upd_other by exact H. reflexivity.
    Qed.

    Lemma comp_spec : forall p b f b' rs k, Inv b -> inprog b f -> clear b f (cur (th b f)) -> 1 <= cur (th b f) ->
      comp pool tid func b f p = Some (b', rs, k) -> comp_ok b b' f rs.
    Proof.
      induction p as [|w|p IHp q IHq|c p IHp q IHq|c p IHp| |t args|t|t|p x args|p x|p x]; intros b f b' rs k I P C L E.
      - cbn in E. injection E as <- <- _. split; [apply ext_refl; assumption|constructor].
      - cbn in E. destruct w as [k'|]; injection E as <- <- _; (split; [apply ext_next; assumption|constructor]).
      - cbn [comp] in E. destruct (comp pool tid func b f p) as [[[b1 r1] k1]|] eqn:E1; [|discriminate].
        destruct (IHp _ _ _ _ _ I P C L E1) as [X1 R1]. destruct k1; [injection E as <- <- _; split; assumption|].
        destruct (comp pool tid func b1 f q) as [[[b2 r2] k2]|] eqn:E2; [|discriminate]. injection E as <- <- _.
        pose proof (ex_cur _ _ _ X1) as L1.
        destruct (IHq _ _ _ _ _ (ex_inv _ _ _ X1) (ex_prog _ _ _ X1) (ex_clear _ _ _ X1) ltac:(lia) E2) as [X2 R2].
        split; [eapply ext_trans; eassumption|]. apply Forall_app. split; [eapply rets_ext; eassumption|].
        eapply Forall_impl; [|exact R2]. intros r [A B]. split; [lia|exact B].
      - apply comp_if in E as (cc & b1 & r1 & k1 & Ec & E1 & E). cbv zeta in E.
        set (s := cur (th b f)) in *.
        pose proof (ext_inc b f I P C) as X0.
        destruct (IHp _ _ _ _ _ (ex_inv _ _ _ X0) (ex_prog _ _ _ X0) (ex_clear _ _ _ X0) ltac:(rewrite inc_cur; lia) E1) as [X1 R1].
        rewrite inc_cur in R1. fold s in R1.
        pose proof (ex_cur _ _ _ X1) as L1. rewrite inc_cur in L1. fold s in L1.
        assert (Z : ext f b b1) by (eapply ext_trans; eassumption).
        destruct E as [[-> ->]|(b2 & r2 & k2 & E2 & -> & ->)].
        + set (b3 := goto_from b1 f s (S s) cc (Some (cur (th b1 f)))).
          assert (X3 : ext f b b3).
          { apply ext_jump; [exact Z|exact (no_site f b b1 C X1)|]. fold s. cbn. split; [lia|]. split; [lia|]. intros d Hd. injection Hd as <-. lia. }
          assert (T3 : th b3 f = add_jump (th b1 f) s (S s) cc (Some (cur (th b1 f)))) by (unfold b3, goto_from; apply upd_same).
          destruct (done_ext b b3 f s (cur (th b1 f)) c cc X3 L ltac:(fold s; rewrite T3; cbn; lia)) as (X4 & T4 & F4).
          * unfold only. rewrite T3. cbn. split; [apply in_or_app; right; left; reflexivity|]. intros y Hy.
            apply in_app_or in Hy as [Hy|[Hy|[]]]; [exfalso; exact (no_jump f b b1 y C X1 Hy)|congruence].
          * exact (no_site f b b1 C X1).
          * intros t. apply (ccond_done b b3 c cc t); [apply (fr_grows _ _ _ (ex_frame _ _ _ X3))|exact Ec].
          * split; [exact X4|]. rewrite T4, T3. cbn. eapply Forall_impl; [|exact R1]. intros r [A B]. split; [fold s; lia|].
            apply F4; [lia|exact B].
        + pose proof (ext_inc b1 f (ex_inv _ _ _ X1) (ex_prog _ _ _ X1) (ex_clear _ _ _ X1)) as X0'.
          destruct (IHq _ _ _ _ _ (ex_inv _ _ _ X0') (ex_prog _ _ _ X0') (ex_clear _ _ _ X0') ltac:(rewrite inc_cur; lia) E2) as [X2 R2].
          rewrite inc_cur in R2. pose proof (ex_cur _ _ _ X2) as L2. rewrite inc_cur in L2.
          assert (X12 : ext f (inc b f) b2) by (eapply ext_trans; [exact X1|]; eapply ext_trans; eassumption).
          assert (Z2 : ext f b b2) by (eapply ext_trans; [exact X0|exact X12]).
          set (mid := cur (th b1 f)) in *.
          assert (Fm : free b2 f mid) by (apply no_site; [apply (ex_clear _ _ _ X1)|exact X2]).
          set (b3 := goto_from b2 f s (S s) cc (Some (S mid))).
          assert (T3 : th b3 f = add_jump (th b2 f) s (S s) cc (Some (S mid))) by (unfold b3, goto_from; apply upd_same).
          assert (X3 : ext f b b3).
          { apply ext_jump; [exact Z2|exact (no_site f b b2 C X12)|]. fold s. cbn. split; [lia|]. split; [lia|]. intros d Hd. injection Hd as <-. lia. }
          set (b4 := goto_from b3 f mid (cur (th b2 f)) CTrue None).
          assert (T4 : th b4 f = add_jump (th b3 f) mid (cur (th b2 f)) CTrue None) by (unfold b4, goto_from; apply upd_same).
          assert (X4 : ext f b b4).
          { apply ext_jump; [exact X3|exact Fm|]. rewrite T3. fold s. cbn. split; [lia|]. split; [lia|]. discriminate. }
          destruct (done_ext b b4 f s (S mid) c cc X4 L ltac:(fold s; rewrite T4, T3; cbn; lia)) as (X5 & T5 & F5).
          * unfold only. rewrite T4, T3. cbn. split; [apply in_or_app; left; apply in_or_app; right; left; reflexivity|]. intros y Hy.
            apply in_app_or in Hy as [Hy|[Hy|[]]]; [|injection Hy as Hy _; lia].
            apply in_app_or in Hy as [Hy|[Hy|[]]]; [exfalso; exact (no_jump f b b2 y C X12 Hy)|congruence].
          * exact (no_site f b b2 C X12).
          * intros t. apply (ccond_done b b4 c cc t); [apply (fr_grows _ _ _ (ex_frame _ _ _ X4))|exact Ec].
          * split; [exact X5|]. rewrite T5, T4, T3. cbn. fold s. apply Forall_app. split.
            -- eapply Forall_impl; [|exact R1]. intros r [A B]. split; [lia|]. apply F5; [lia|].
               apply (free_ext f (inc b1 f) b2 r X2 B). rewrite inc_cur. fold mid. lia.
            -- eapply Forall_impl; [|exact R2]. intros r [A B]. split; [lia|]. apply F5; [lia|exact B].
      - cbn [comp] in E. destruct (ccond b c) as [cc|] eqn:Ec; [|discriminate].
        destruct (comp pool tid func (inc b f) f p) as [[[b1 r1] k1]|] eqn:E1; [|discriminate]. injection E as <- <- _.
        set (s := cur (th b f)) in *.
        pose proof (ext_inc b f I P C) as X0.
        destruct (IHp _ _ _ _ _ (ex_inv _ _ _ X0) (ex_prog _ _ _ X0) (ex_clear _ _ _ X0) ltac:(rewrite inc_cur; lia) E1) as [X1 R1].
        rewrite inc_cur in R1. fold s in R1.
        pose proof (ex_cur _ _ _ X1) as L1. rewrite inc_cur in L1. fold s in L1.
        pose proof (ext_inc b1 f (ex_inv _ _ _ X1) (ex_prog _ _ _ X1) (ex_clear _ _ _ X1)) as X2.
        set (be := cur (th b1 f)) in *. set (b2 := inc b1 f) in *.
        assert (T2 : cur (th b2 f) = S be) by apply inc_cur.
        assert (X12 : ext f (inc b f) b2) by (eapply ext_trans; eassumption).
        assert (Z2 : ext f b b2) by (eapply ext_trans; [exact X0|exact X12]).
        assert (Fm : free b2 f be) by (intros y Hy Ey; exact (clear_free b1 f be y (ex_clear _ _ _ X1) Hy Ey)).
        set (b3 := goto_from b2 f s (S s) cc (Some (S be))).
        assert (T3 : th b3 f = add_jump (th b2 f) s (S s) cc (Some (S be))) by (unfold b3, goto_from; apply upd_same).
        assert (X3 : ext f b b3).
        { apply ext_jump; [exact Z2|exact (no_site f b b2 C X12)|]. fold s. rewrite T2. cbn. split; [lia|]. split; [lia|]. intros d Hd. injection Hd as <-. lia. }
        set (b4 := goto_from b3 f be s CTrue None).
        assert (T4 : th b4 f = add_jump (th b3 f) be s CTrue None) by (unfold b4, goto_from; apply upd_same).
        assert (X4 : ext f b b4).
        { apply ext_jump; [exact X3|exact Fm|]. rewrite T3. fold s. cbn [add_jump cur]. rewrite T2. cbn. split; [lia|]. split; [lia|]. discriminate. }
        destruct (done_ext b b4 f s (S be) c cc X4 L ltac:(fold s; rewrite T4, T3; cbn [add_jump cur]; lia)) as (X5 & T5 & F5).
        + unfold only. rewrite T4, T3. cbn [add_jump jumps]. split; [apply in_or_app; left; apply in_or_app; right; left; reflexivity|]. intros y Hy.
          apply in_app_or in Hy as [Hy|[Hy|[]]]; [|injection Hy as Hy _; lia].
          apply in_app_or in Hy as [Hy|[Hy|[]]]; [exfalso; exact (no_jump f b b2 y C X12 Hy)|congruence].
        + exact (no_site f b b2 C X12).
        + intros t. apply (ccond_done b b4 c cc t); [apply (fr_grows _ _ _ (ex_frame _ _ _ X4))|exact Ec].
        + split; [exact X5|]. rewrite T5, T4, T3. cbn [add_jump cur]. fold s. rewrite T2.
          eapply Forall_impl; [|exact R1]. intros r [A B]. split; [lia|]. apply F5; [lia|exact B].
      - cbn in E. injection E as <- <- _. split; [apply ext_inc; assumption|]. constructor; [|constructor]. rewrite inc_cur. split; [lia|].
        intros y Hy Ey. exact (clear_free b f _ y C Hy Ey).
      - cbn [comp] in E. destruct (prepare b t) as [b1|] eqn:E1; [|discriminate].
        destruct (prepare_spec _ _ _ I E1) as (I1 & R1 & F1 & N1).
        destruct (synth_run func b1 f t args CTrue) as [b2|] eqn:E2; [|discriminate]. injection E as <- <- _.
        assert (Ne : t <> f) by (intros ->; contradiction).
        assert (T1 : th b1 f = th b f) by (apply (fr_prog _ _ _ F1); auto).
        assert (P1 : inprog b1 f) by (unfold inprog; rewrite T1; exact P).
        assert (Q1 : forall y k', In y (sites b1) -> excl y = Some (f, k') -> In y (sites b)) by (intros; eapply (fr_site _ _ _ F1 f); eauto).
        assert (Sl : slot b1 f (cur (th b1 f))).
        { apply clear_slot. rewrite T1. destruct C as [C1 C2]. split; [intros; eapply C1; eauto|rewrite T1; exact C2]. }
        destruct (run1_spec b1 f t args CTrue b2 I1 P1 Ne R1 Sl ltac:(rewrite T1; exact L) E2) as (I2 & F2 & D2 & T2 & Sl2 & Q2 & _).
        split; [|constructor]. rewrite T1 in *. constructor.
        + exact I2.
        + unfold inprog. rewrite T2. exact P.
        + rewrite T2. cbn. lia.
        + exists [(cur (th b f), (S (cur (th b f)), CTrue, None))]. rewrite T2. cbn [set_cur add_jump jumps cur]. split; [reflexivity|].
          constructor; [|constructor]. cbn. split; [lia|]. split; [lia|]. discriminate.
        + intros y k' Hy Ey. destruct (Q2 y k' Hy Ey) as [K|K]; [left; eapply Q1; eauto|right; lia].
        + rewrite T2. cbn [set_cur cur]. apply slot_clear. exact Sl2.
        + apply (frame_narrow (fun u => u = f \/ u = t)).
          * eapply frame_trans; [eapply frame_weaken; [|exact F1]; intros u <-; auto|exact F2].
          * intros u [->| ->] Hu; [congruence|]. split; [exact N1|]. apply donec_not. exact D2.
      - cbn [comp] in E. destruct (fin (th b t)) as [e|] eqn:Ef; [|discriminate]. injection E as <- <- _. split; [|constructor].
        change (goto_next (note b (SJoin f (cur (th b f)) t e)) f (CAt t e)) with (note (goto_next b f (CAt t e)) (SJoin f (cur (th b f)) t e)).
        apply ext_wait; auto. cbn [core]. split; [apply wait_pok; assumption|]. split; [apply next_only; exact C|].
        cbn [note th]. rewrite next_fin. exact Ef.
      - cbn [comp] in E. destruct (reset1 b f t CTrue) as [b1|] eqn:E1; [|discriminate]. injection E as <- <- _. split; [|constructor].
        destruct (reset1_spec _ _ _ _ _ I P E1) as [I1 F1]. eapply ext_quiet; [apply ext_refl; assumption|exact I1|exact F1].
      - cbn [comp] in E. set (s := cur (th b f)) in *.
        pose proof (ext_next b f CTrue I P C) as X1. pose proof (next_only b f CTrue C) as O1. fold s in O1.
        pose proof (f_equal cur (next_th b f CTrue)) as Cu1. cbn [set_cur cur] in Cu1. fold s in Cu1.
        pose proof (next_th b f CTrue) as Tb1. fold s in Tb1.
        assert (S1 : sites (goto_next b f CTrue) = sites b) by reflexivity.
        set (b1 := goto_next b f CTrue) in *. clearbody b1.
        assert (E' : match prepare_all b1 (pool p) with
              | None => None
              | Some b2 =>
                  match run_all tid func b2 f p (cur (th b2 f)) args (pool p) with
                  | None => None
                  | Some b3 =>
                      let e := cur (th b3 f) in
                      let b4 := goto_next b3 f CTrue in
                      let x4 := add_act (th b4 f) s CTrue (ASet p f x true) in
                      let x5 := add_act x4 e CTrue (ASet p f x false) in
                      Some (note (note (upd b4 f x5) (SPoolEnd f e p x)) (SPoolRun f s p x), @nil nat, false)
                  end
              end = Some (b', rs, k) /\ pool p <> []).
        { destruct (pool p); [discriminate|]. split; [exact E|discriminate]. }
        clear E. destruct E' as [E Np].
        destruct (prepare_all b1 (pool p)) as [b2|] eqn:E2; [|discriminate].
        destruct (prepare_all_spec _ _ _ (ex_inv _ _ _ X1) E2) as (I2 & R2 & F2 & N2).
        destruct (run_all tid func b2 f p (cur (th b2 f)) args (pool p)) as [b3|] eqn:E3; [|discriminate]. cbv zeta in E.
        match type of E with Some (?B, ?r, _) = _ => assert (b' = B /\ rs = r) as [-> ->] by (split; congruence); clear E end.
        assert (P1 : inprog b1 f) by apply (ex_prog _ _ _ X1).
        assert (Nf : ~ In f (pool p)) by (intros H; rewrite Forall_forall in N2; exact (N2 f H P1)).
        assert (T2 : th b2 f = th b1 f) by (apply (fr_prog _ _ _ F2); auto).
        assert (P2 : inprog b2 f) by (unfold inprog; rewrite T2; exact P1).
        assert (Q2 : forall y k', In y (sites b2) -> excl y = Some (f, k') -> In y (sites b1)) by (intros; eapply (fr_site _ _ _ F2 f); eauto).
        assert (Sl : slot b2 f (cur (th b2 f))).
        { apply clear_slot. rewrite T2. destruct (ex_clear _ _ _ X1) as [C1 C2]. split; [intros; eapply C1; eauto|rewrite T2; exact C2]. }
        destruct (run_all_spec _ _ _ _ _ _ _ I2 P2 Nf R2 Sl ltac:(rewrite T2; lia) ltac:(auto) E3) as (I3 & P3 & F3 & D3 & Cu3 & (n & J3) & Sl3 & Q3 & W3).
        destruct Cu3 as [[Cu3 _]|Cu3]; [contradiction|].
        rewrite T2, Cu1 in *.
        assert (X3 : ext f b1 b3).
        { constructor; auto.
          - lia.
          - eexists. split; [exact J3|]. apply Forall_forall. intros j Hj. apply repeat_spec in Hj. subst j. unfold rng. rewrite Cu1, Cu3.
            split; [lia|]. split; [lia|]. discriminate.
          - intros y k' Hy Ey. destruct (Q3 y k' Hy Ey) as [K|K]; [left; eapply Q2; eauto|right; lia].
          - rewrite Cu3. apply slot_clear. exact Sl3.
          - apply (frame_narrow (fun u => u = f \/ In u (pool p))).
            + eapply frame_trans; [eapply frame_weaken; [|exact F2]; intros u Hu; auto|exact F3].
            + intros u [->|Hu] Hne; [congruence|]. rewrite Forall_forall in N2, D3. split; [apply N2; exact Hu|].
              apply donec_not. apply D3. exact Hu. }
        split; [|constructor]. rewrite Cu3.
        pose proof (ext_next b3 f CTrue (ex_inv _ _ _ X3) (ex_prog _ _ _ X3) (ex_clear _ _ _ X3)) as X4.
        pose proof (next_only b3 f CTrue (ex_clear _ _ _ X3)) as O4. rewrite Cu3 in O4.
        pose proof (next_th b3 f CTrue) as Tb4. rewrite Cu3 in Tb4.
        assert (S4 : sites (goto_next b3 f CTrue) = sites b3) by reflexivity.
        set (b4 := goto_next b3 f CTrue) in *. clearbody b4.
        set (x5 := add_act (add_act (th b4 f) s CTrue (ASet p f x true)) (S (S s)) CTrue (ASet p f x false)).
        pose proof (ext_same b4 f x5 (ex_inv _ _ _ X4) (ex_prog _ _ _ X4) (ex_clear _ _ _ X4) ltac:(repeat split) eq_refl) as X5.
        assert (Z : ext f b (upd b4 f x5)).
        { eapply ext_trans; [exact X1|]. eapply ext_trans; [exact X3|]. eapply ext_trans; [exact X4|exact X5]. }
        assert (T5 : th (upd b4 f x5) f = x5) by apply upd_same.
        assert (Cu5 : cur (th (upd b4 f x5) f) = S (S (S s))) by (rewrite T5; cbn; rewrite Tb4; reflexivity).
        assert (J5 : jumps (th (upd b4 f x5) f) = jumps (th b4 f)) by (rewrite T5; reflexivity).
        destruct (ex_prog _ _ _ Z) as [Z1 Z2].
        assert (X6 : ext f b (note (upd b4 f x5) (SPoolEnd f (S (S s)) p x))).
        { apply (ext_note b _ f _ (S (S s))); [exact Z|reflexivity|rewrite Cu5; fold s; lia| |]; [|cbn [core]; split].
          - intros y Hy Ey. apply (clear_free b3 f (S (S s)) y); [rewrite <- Cu3; apply (ex_clear _ _ _ X3)| |exact Ey].
            rewrite <- S4. exact Hy.
          - split; [exact Z1|]. split; [lia|]. intros e He. cbn [note th] in He. congruence.
          - unfold only. cbn [note th]. rewrite J5. exact O4. }
        apply (ext_note b _ f _ s); [exact X6|reflexivity|cbn [note th]; rewrite Cu5; fold s; lia| |].
        { intros y Hy Ey. cbn [note sites] in Hy. apply in_app_or in Hy as [Hy|[<-|[]]]; [|injection Ey as Ey; lia].
          cbn [upd sites] in Hy. rewrite S4 in Hy. destruct (ex_site _ _ _ X3 y s Hy Ey) as [K|K]; [|lia].
          rewrite S1 in K. exact (clear_free b f s y C K Ey). }
        cbn [core]. split; [|split; [|split]].
        + split; [exact Z1|]. split; [lia|]. intros e He. cbn [note th] in He. congruence.
        + unfold only. cbn [note th]. rewrite J5, Tb4. cbn [set_cur add_jump jumps]. rewrite J3. destruct O1 as [O1 O1']. split.
          * apply in_or_app. left. apply in_or_app. left. exact O1.
          * intros y Hy. apply in_app_or in Hy as [Hy|[Hy|[]]]; [|injection Hy as Hy _; lia].
            apply in_app_or in Hy as [Hy|Hy]; [exact (O1' y Hy)|]. apply repeat_spec in Hy. injection Hy as Hy _. lia.
        + cbn [note sites]. apply in_or_app. left. apply in_or_app. right. left. reflexivity.
        + intros t Ht. exists args. cbn [note sites]. apply in_or_app. left. apply in_or_app. left.
          apply (gr_sites _ _ (fr_grows _ _ _ (ex_frame _ _ _ X5))). apply (gr_sites _ _ (fr_grows _ _ _ (ex_frame _ _ _ X4))). exact (W3 t Ht).
      - cbn [comp] in E. destruct (end_mux tid b f x (pool p)) as [c|] eqn:Em; [|discriminate]. injection E as <- <- _. split; [|constructor].
        change (goto_next (note b (SPoolJoin f (cur (th b f)) p x)) f c) with (note (goto_next b f c) (SPoolJoin f (cur (th b f)) p x)).
        apply ext_wait; auto. cbn [core]. split; [apply wait_pok; assumption|]. exists c. split; [apply next_only; exact C|].
        eapply end_mux_mono; [|exact Em]. eapply grows_trans; [|apply grows_note].
        apply (fr_grows _ _ _ (ex_frame _ _ _ (ext_next b f c I P C))).
      - cbn [comp] in E. destruct (reset_all tid b f x (pool p)) as [b1|] eqn:E1; [|discriminate]. injection E as <- <- _. split; [|constructor].
        destruct (reset_all_spec _ _ _ _ _ I P E1) as [I1 F1]. eapply ext_quiet; [apply ext_refl; assumption|exact I1|exact F1].
    Qed.
    Lemma noret_ok : forall p b f b' rs k, noret p = true -> comp pool tid func b f p = Some (b', rs, k) -> rs = [] /\ k = false.
    Proof.
      induction p as [|w|p IHp q IHq|c p IHp q IHq|c p IHp| |t args|t|t|p x args|p x|p x]; intros b f b' rs k N E; cbn [comp noret] in *.
      - injection E as _ <- <-. auto.
      - destruct w; injection E as _ <- <-; auto.
      - apply andb_true_iff in N as [N1 N2]. destruct (comp pool tid func b f p) as [[[b1 r1] k1]|] eqn:E1; [|discriminate].
        destruct (IHp _ _ _ _ _ N1 E1) as [-> ->].
        destruct (comp pool tid func b1 f q) as [[[b2 r2] k2]|] eqn:E2; [|discriminate]. destruct (IHq _ _ _ _ _ N2 E2) as [-> ->].
        injection E as _ <- <-. auto.
      - apply andb_true_iff in N as [N1 N2]. destruct (ccond b c); [|discriminate].
        destruct (comp pool tid func (inc b f) f p) as [[[b1 r1] k1]|] eqn:E1; [|discriminate]. destruct (IHp _ _ _ _ _ N1 E1) as [-> ->].
        assert (G : forall b2 r2 k2, comp pool tid func (inc b1 f) f q = Some (b2, r2, k2) -> r2 = []) by (intros b2 r2 k2 E2; apply (IHq _ _ _ _ _ N2 E2)).
        clear IHp IHq N1 N2. destruct q;
          try (injection E as _ <- <-; auto; fail);
          (match type of E with match ?A with _ => _ end = _ => destruct A as [[[b2 r2] k2]|] eqn:E2; [|discriminate] end;
           rewrite (G b2 r2 k2 eq_refl) in E; injection E as _ <- <-; auto).
      - destruct (ccond b c); [|discriminate]. destruct (comp pool tid func (inc b f) f p) as [[[b1 r1] k1]|] eqn:E1; [|discriminate].
        destruct (IHp _ _ _ _ _ N E1) as [-> ->]. injection E as _ <- <-. auto.
      - discriminate.
      - destruct (prepare b t); [|discriminate]. destruct (synth_run func b0 f t args CTrue); [|discriminate]. injection E as _ <- <-. auto.
      - destruct (fin (th b t)); [|discriminate]. injection E as _ <- <-. auto.
      - destruct (reset1 b f t CTrue); [|discriminate]. injection E as _ <- <-. auto.
      - destruct (pool p) eqn:Ep; [discriminate|]. destruct (prepare_all _ _); [|discriminate]. destruct (run_all _ _ _ _ _ _ _ _); [|discriminate].
        injection E as _ <- <-. auto.
      - destruct (end_mux tid b f x (pool p)); [|discriminate]. injection E as _ <- <-. auto.
      - destruct (reset_all tid b f x (pool p)); [|discriminate]. injection E as _ <- <-. auto.
    Qed.
    Lemma comp_last : forall p b f w b' rs k, Inv b -> inprog b f -> clear b f (cur (th b f)) -> 1 <= cur (th b f) -> final p = Some w ->
      comp pool tid func b f p = Some (b', rs, k) ->
      rs = [] /\ k = false /\ exists new, jumps (th b' f) = jumps (th b f) ++ new /\ cur (th b f) < cur (th b' f) /\
        Forall (fun j => let '(src, (dst, c, els)) := j in
          dst = cur (th b' f) \/ els = Some (cur (th b' f)) -> S src = cur (th b' f) /\ c = wcond w /\ els = None) new.
    Proof.
      induction p as [|v|p IHp q IHq|c p IHp q IHq|c p IHp| |t args|t|t|p x args|p x|p x]; intros b f w b' rs k I P C L F E; try discriminate.
      - cbn [final] in F. injection F as ->. cbn [comp] in E.
        assert (E' : Some (goto_next b f (wcond w), @nil nat, false) = Some (b', rs, k)) by (destruct w; exact E). injection E' as <- <- <-.
        split; [reflexivity|]. split; [reflexivity|]. rewrite next_th. cbn [set_cur add_jump jumps cur].
        eexists. split; [reflexivity|]. split; [lia|]. constructor; [|constructor]. auto.
      - cbn [final] in F. destruct (noret p) eqn:N; [|discriminate]. cbn [comp] in E.
        destruct (comp pool tid func b f p) as [[[b1 r1] k1]|] eqn:E1; [|discriminate].
        destruct (noret_ok _ _ _ _ _ _ N E1) as [-> ->].
        destruct (comp_spec _ _ _ _ _ _ I P C L E1) as [X _].
        destruct (comp pool tid func b1 f q) as [[[b2 r2] k2]|] eqn:E2; [|discriminate]. injection E as <- <- <-.
        pose proof (ex_cur _ _ _ X) as L1.
        destruct (IHq b1 f w b2 r2 k2 (ex_inv _ _ _ X) (ex_prog _ _ _ X) (ex_clear _ _ _ X) ltac:(lia) F E2) as (-> & -> & n2 & J2 & L2 & A2).
        split; [reflexivity|]. split; [reflexivity|]. destruct (ex_new _ _ _ X) as (n1 & J1 & A1). exists (n1 ++ n2).
        split; [rewrite J2, J1, app_assoc; reflexivity|]. split; [lia|]. apply Forall_app. split; [|exact A2].
        eapply Forall_impl; [|exact A1]. intros [src [[dst c] els]] (R1 & R2 & R3) [K|K]; [lia|]. specialize (R3 _ K). lia.
    Qed.
    Lemma resolve_ext : forall rs b0 b f, ext f b0 b -> Forall (fun r => cur (th b0 f) <= r < cur (th b f) /\ free b f r) rs ->
      ext f b0 (resolve b f rs (cur (th b f))) /\ cur (th (resolve b f rs (cur (th b f))) f) = cur (th b f).
    Proof.
      intros rs b0 b f E H.
      assert (G : forall rs b1, ext f b0 b1 -> cur (th b1 f) = cur (th b f) -> sites b1 = sites b ->
        Forall (fun r => cur (th b0 f) <= r < cur (th b f) /\ free b f r) rs ->
        ext f b0 (resolve b1 f rs (cur (th b f))) /\ cur (th (resolve b1 f rs (cur (th b f))) f) = cur (th b f)).
      { clear rs H. induction rs as [|r l IH]; intros b1 E1 C1 S1 H; [split; assumption|]. apply Forall_cons_iff in H as [[H1 H2] H3].
        unfold resolve. cbn [fold_left]. apply IH; auto.
        - apply ext_jump; [exact E1| |].
          + intros x Hx Ex. apply (H2 x); [rewrite <- S1; exact Hx|exact Ex].
          + rewrite C1. cbn. split; [exact H1|]. split; [lia|]. discriminate.
        - unfold goto_from. rewrite upd_same. exact C1. }
      apply G; auto.
    Qed.
  End Func.

  Lemma func_spec : forall n b t b', Inv b -> inprog b t -> clear b t (cur (th b t)) -> func progs pool tid n b t = Some b' ->
    ext t b b' /\ cur (th b t) < cur (th b' t) /\ (forall new, jumps (th b' t) = jumps (th b t) ++ new -> Forall (lastj t (cur (th b' t))) new).
  Proof.
    induction n as [|n IH]; intros b t b' I P C E; [discriminate|]. cbn [func] in E.
    pose proof (ext_next b t CTrue I P C) as X1.
    destruct (comp pool tid (func progs pool tid n) (goto_next b t CTrue) t (progs t)) as [[[b1 rs] k]|] eqn:E1; [|discriminate]. injection E as <-.
    destruct (comp_spec _ IH _ _ _ _ _ _ (ex_inv _ _ _ X1) (ex_prog _ _ _ X1) (ex_clear _ _ _ X1) ltac:(rewrite next_th; cbn; lia) E1) as [X2 R].
    rewrite next_th in R. cbn [set_cur cur] in R. pose proof (ex_cur _ _ _ X2) as L. rewrite next_th in L. cbn [set_cur cur] in L.
    destruct (resolve_ext _ IH rs b b1 t) as [X3 L3].
    - eapply ext_trans; eassumption.
    - eapply Forall_impl; [|exact R]. intros r [A B]. split; [lia|exact B].
    - split; [exact X3|]. split; [lia|]. intros new J. destruct (final (progs t)) as [w|] eqn:Fi.
      + destruct (comp_last _ IH _ _ _ w _ _ _ (ex_inv _ _ _ X1) (ex_prog _ _ _ X1) (ex_clear _ _ _ X1) ltac:(rewrite next_th; cbn; lia) Fi E1)
          as (-> & _ & n1 & J1 & L1).
        cbn [resolve fold_left] in *. rewrite J1, next_th in J. cbn [set_cur add_jump jumps] in J. rewrite <- app_assoc in J.
        apply app_inv_head in J. subst new. apply Forall_app. split.
        * constructor; [|constructor]. intros w' _ [K|K]; [|discriminate]. rewrite next_th in L1. cbn in L1, K. lia.
        * eapply Forall_impl; [|apply L1]. intros [src [[dst c] els]] K w' Hw. assert (w' = w) by congruence. subst w'. exact K.
      + apply Forall_forall. intros [src [[dst c] els]] _ w' Hw. congruence.
  Qed.

  (** *** Whole designs *)
  Definition settled (b : build) : Prop := Inv b /\ forall t, ~ inprog b t.
  Lemma settled0 : settled build0.
  Proof.
    split.
    - split; [intros t; left; reflexivity|intros x []].
    - intros t [H _]. discriminate.
  Qed.
  Lemma start_thread_spec : forall n b t b', settled b -> start_thread progs pool tid n b t = Some b' -> settled b'.
  Proof.
    intros n b t b' [[I1 I2] N] E. unfold start_thread in E. destruct (fin (th b t)) as [e|] eqn:Ef; [discriminate|].
    destruct (child (th b t)) eqn:Ec; [discriminate|].
    assert (T0 : th b t = tb0).
    { destruct (I1 t) as [H|[H|(_ & e & H & _)]]; [exact H|exfalso; exact (N t H)|congruence]. }
    rewrite T0 in E. cbn [tb0 cur] in E. set (x := set_start tb0 0) in *.
    assert (Z : forall y s, In y (sites b) -> excl y = Some (t, s) -> False).
    { intros y s Hy Ey. destruct (site_lt b y t s 0 (conj I1 I2) Hy Ey) as [H _]. rewrite T0 in H. discriminate. }
    assert (G : grows b (upd b t x)).
    { constructor; [apply incl_refl| | | |]; intros u; (destruct (Nat.eq_dec u t) as [->|Hu]; [rewrite T0, ?upd_same|rewrite upd_other by exact Hu]);
        auto using incl_refl; try (intros; discriminate). }
    assert (I : Inv (upd b t x)).
    { split.
      - intros u. destruct (Nat.eq_dec u t) as [->|Hu].
        + right. left. unfold inprog. rewrite upd_same. split; reflexivity.
        + eapply thok_mono; [exact G|apply upd_other; exact Hu|apply I1].
      - intros y Hy. eapply siteok_mono; [exact G| | |intros; left; assumption|apply I2; exact Hy].
        + intros h k Ex z Hz. destruct (Nat.eq_dec h t) as [->|Hh]; [exfalso; exact (Z y k Hy Ex)|].
          rewrite upd_other in Hz by exact Hh. exact Hz.
        + intros h k e Ex Eh. destruct (Nat.eq_dec h t) as [->|Hh]; [exfalso; exact (Z y k Hy Ex)|].
          rewrite upd_other in Eh by exact Hh. apply (site_lt b y h k e (conj I1 I2) Hy Ex). exact Eh. }
    destruct (func progs pool tid n (upd b t x) t) as [b1|] eqn:E1; [|discriminate]. injection E as <-.
    assert (P : inprog (upd b t x) t) by (unfold inprog; rewrite upd_same; split; reflexivity).
    destruct (func_spec n _ t b1 I P) as [[X1 X2 X3 (new & X4 & X4') X5 X6 X7] [X8 X9]]; [|exact E1|].
    - rewrite upd_same. split; [intros y s Hy Ey; exfalso; exact (Z y s Hy Ey)|rewrite upd_same; intros s y []].
    - rewrite upd_same in *. cbn [x set_start tb0 cur jumps app] in *.
      assert (Lo : lo (th b1 t) = 0).
      { unfold lo. rewrite (gr_child _ _ (fr_grows _ _ _ X7)); rewrite upd_same; [reflexivity|discriminate]. }
      destruct (close_spec b1 t X1 X2 ltac:(lia) X6) as (Y1 & Y2 & Y3 & _).
      { specialize (X9 new X4). rewrite X4. rewrite Forall_forall in X4', X9 |- *. intros [src [[dst c] els]] Hj. destruct (X4' _ Hj) as (A1 & A2 & A3).
        right. left. rewrite Lo. split; [exact A1|]. split; [exact A2|]. split; [exact A3|exact (X9 _ Hj)]. }
      unfold close in Y1, Y2, Y3. destruct X2 as [_ X2]. rewrite X2 in Y1, Y2, Y3.
      split; [exact Y1|]. intros u Hp. destruct (Nat.eq_dec u t) as [->|Hu].
      + destruct Hp as [_ Hp]. rewrite Y3 in Hp. discriminate.
      + apply (fr_new _ _ _ Y2) in Hp; [|congruence]. apply (fr_new _ _ _ X7) in Hp; [|congruence].
        unfold inprog in Hp. rewrite upd_other in Hp by exact Hu. exact (N u Hp).
  Qed.
  Lemma start_threads_spec : forall n ts b b', settled b -> start_threads progs pool tid n b ts = Some b' -> settled b'.
  Proof.
    intros n ts. induction ts as [|t l IH]; intros b b' I E; cbn [start_threads] in E; [injection E as <-; exact I|].
    destruct (start_thread progs pool tid n b t) as [b1|] eqn:E1; [|discriminate]. eapply IH; [|exact E]. eapply start_thread_spec; eassumption.
  Qed.
End Builder.

(** ** The hardware *)
Lemma fold_take : forall i h s l n, (forall j, In j l -> fst j <> s) -> fold_left (take i h s) l n = n.
Proof.
  intros i h s l. induction l as [|[src [[dst c] els]] l IH]; intros n H; [reflexivity|]. cbn [fold_left take].
  assert (src =? s = false) as -> by (apply Nat.eqb_neq; apply (H (src, (dst, c, els))); left; reflexivity).
  apply IH. intros j Hj. apply H. right. exact Hj.
Qed.
Lemma next_stay : forall i h x s, (forall y, ~ In (s, y) (jumps x)) -> next_state i h x s = s.
Proof.
  intros i h x s H. apply fold_take. intros [k y] Hj E. cbn in E. subst k. exact (H y Hj).
Qed.
Lemma next_cases : forall i h x s, next_state i h x s = s \/
  exists dst c els, In (s, (dst, c, els)) (jumps x) /\
    ((holds i h c = true /\ next_state i h x s = dst) \/ (holds i h c = false /\ els = Some (next_state i h x s))).
Proof.
  intros i h x s. unfold next_state.
  assert (G : forall l n, fold_left (take i h s) l n = n \/ exists dst c els, In (s, (dst, c, els)) l /\
    ((holds i h c = true /\ fold_left (take i h s) l n = dst) \/ (holds i h c = false /\ els = Some (fold_left (take i h s) l n)))).
  { induction l as [|[src [[dst c] els]] l IH]; intros n; [left; reflexivity|]. cbn [fold_left].
    destruct (IH (take i h s n (src, (dst, c, els)))) as [E|(d & c' & e' & Hi & E)].
    - rewrite E. cbn [take]. destruct (Nat.eqb_spec src s) as [->|_]; [|left; reflexivity].
      destruct (holds i h c) eqn:Eh.
      + right. exists dst, c, els. split; [left; reflexivity|left; auto].
      + destruct els as [d|]; [|left; reflexivity]. right. exists dst, c, (Some d). split; [left; reflexivity|right; auto].
    - right. exists d, c', e'. split; [right; exact Hi|exact E]. }
  apply G.
Qed.
Lemma next_only_eq : forall b f s d c els i h, only b f s (d, c, els) ->
  next_state i h (th b f) s = if holds i h c then d else match els with Some d => d | None => s end.
Proof.
  intros b f s d c els i h [A B]. unfold next_state. revert A B. generalize (jumps (th b f)). intros l0 A B.
  assert (G : forall l n, (forall y, In (s, y) l -> y = (d, c, els)) ->
    fold_left (take i h s) l n = n /\ (forall y, ~ In (s, y) l) \/
    fold_left (take i h s) l n = if holds i h c then d else match els with Some d => d | None => n end).
  { induction l as [|[src y] l IH]; intros n H; [left; auto|]. cbn [fold_left].
    assert (H' : forall y, In (s, y) l -> y = (d, c, els)) by (intros; apply H; right; assumption).
    destruct (IH (take i h s n (src, y)) H') as [[E N]|E]; rewrite E.
    - destruct y as [[d' c'] e']. cbn [take]. destruct (Nat.eqb_spec src s) as [->|Hn].
      + right. specialize (H (d', c', e') (or_introl eq_refl)). injection H as -> -> ->. reflexivity.
      + left. split; [reflexivity|]. intros z [Hz|Hz]; [injection Hz as Hz _; congruence|exact (N z Hz)].
    - right. destruct (holds i h c) eqn:Eh; [reflexivity|]. destruct els as [e|]; [reflexivity|].
      destruct y as [[d' c'] e']. cbn [take]. destruct (Nat.eqb_spec src s) as [->|Hn]; [|reflexivity].
      specialize (H (d', c', e') (or_introl eq_refl)). injection H as -> -> ->. rewrite Eh. reflexivity. }
  destruct (G l0 s B) as [[_ N]|E]; [exfalso; exact (N _ A)|exact E].
Qed.

Section Run.
  Variable progs : nat -> prog.
  Variable pool : nat -> list nat.
  Variable tid : nat -> nat.
  Variable mains : list nat.
  Variable b : build.
  Hypothesis D : design progs pool tid mains b.
  Variable ts : list nat.
  Variable ins : nat -> inp.
  Local Notation state := (state b ts ins).
  Local Notation H n := (run b ts ins n).

  Lemma set_b : settled progs pool tid b.
  Proof. destruct D as [fuel E]. eapply start_threads_spec; [apply settled0|exact E]. Qed.
  Lemma state_S : forall n t, state (S n) t = next_state (ins n) (H n) (th b t) (state n t).
  Proof. reflexivity. Qed.
  Lemma site_ok : forall x, In x (sites b) -> core pool tid b x.
  Proof. destruct set_b as [[_ I] _]. intros x Hx. apply (I x Hx). Qed.
  Lemma site_alone : forall x y f s, In x (sites b) -> In y (sites b) -> excl x = Some (f, s) -> excl y = Some (f, s) ->
    y = x \/ (is_run x = true /\ is_run y = true).
  Proof. destruct set_b as [[_ I] _]. intros x y f s Hx Hy. apply (I x Hx). exact Hy. Qed.
  Lemma done_ok : forall t e, fin (th b t) = Some e ->
    start (th b t) = Some 0 /\ lo (th b t) < e /\ Forall (good progs b t e) (jumps (th b t)).
  Proof.
    intros t e E. destruct set_b as [[I _] N]. destruct (I t) as [K|[K|(K & e' & K1 & K2 & K3)]].
    - rewrite K in E. discriminate.
    - exfalso. exact (N t K).
    - assert (e' = e) by congruence. subst e'. auto.
  Qed.

  (** every step of a finished thread *)
  Lemma step_cases : forall n t e, fin (th b t) = Some e -> state n t <= e ->
    state (S n) t = state n t \/
    (child (th b t) = true /\ state n t = 0 /\ state (S n) t = 1 /\ run_at b ts ins n t) \/
    (lo (th b t) <= state n t < e /\ lo (th b t) <= state (S n) t <= e) \/
    (state n t = e /\ state (S n) t = 0 /\ reset_at b ts ins n t).
  Proof.
    intros n t e E L. destruct (done_ok t e E) as (S0 & Lo & G). rewrite Forall_forall in G.
    rewrite state_S. destruct (next_cases (ins n) (H n) (th b t) (state n t)) as [K|(d & c & els & Hi & K)]; [left; exact K|].
    right. specialize (G _ Hi). destruct G as [(A & B & C & F & f & s & g & a & M & Eg)|[(A & B & C & _)|(A & B & C & f & s & g & M & Eg)]].
    - left. destruct K as [[K1 K2]|[_ K2]]; [|subst els; discriminate]. rewrite K2. split; [exact A|]. split; [exact B|]. split; [exact C|].
      exists f, s, g, a. subst c. cbn in K1. apply andb_true_iff in K1 as [K1 K3]. apply Nat.eqb_eq in K3. repeat split; auto.
    - right. left. split; [exact A|]. destruct K as [[_ ->]|[_ K2]]; [exact B|apply C; exact K2].
    - right. right. destruct K as [[K1 K2]|[_ K2]]; [|subst els; discriminate]. rewrite K2. split; [exact A|]. split; [exact B|].
      exists f, s, g. subst c. cbn in K1. apply andb_true_iff in K1 as [K1 K3]. apply Nat.eqb_eq in K1. repeat split; auto.
  Qed.
  Lemma state_le : forall n t e, fin (th b t) = Some e -> state n t <= e.
  Proof.
    intros n t e E. induction n as [|n IH]; [cbn; lia|]. destruct (step_cases n t e E IH) as [K|[(_ & _ & K & _)|[[_ K]|(_ & K & _)]]]; try lia.
    destruct (done_ok t e E) as (_ & L & _). lia.
  Qed.

  Lemma end_gt1 : forall t e, child (th b t) = true -> fin (th b t) = Some e -> 2 <= e.
  Proof. intros t e C E. destruct (done_ok t e E) as (_ & L & _). unfold lo in L. rewrite C in L. lia. Qed.

  (** once started, a child stays in its function until its end state *)
  Lemma body_until : forall t e m n, child (th b t) = true -> fin (th b t) = Some e -> m < n -> 1 <= state (S m) t < e -> state n t = e ->
    exists k, completes b ts ins t e m k /\ k <= n.
  Proof.
    intros t e m n C E L B En.
    assert (G : forall j, (exists k, completes b ts ins t e m k /\ k <= m + S j) \/ (forall i, m < i <= m + S j -> 1 <= state i t < e)).
    { induction j as [|j [IH|IH]].
      - right. intros i Hi. replace i with (S m) by lia. exact B.
      - left. destruct IH as (k & K1 & K2). exists k. split; [exact K1|lia].
      - destruct (Nat.eq_dec (state (S (m + S j)) t) e) as [Ee|Ne].
        + left. exists (S (m + S j)). split; [|lia]. split; [lia|]. split; [|exact Ee]. intros i Hi. apply IH. lia.
        + right. intros i Hi. destruct (Nat.eq_dec i (S (m + S j))) as [->|Hn]; [|apply IH; lia].
          pose proof (IH (m + S j) ltac:(lia)) as B'.
          destruct (step_cases (m + S j) t e E ltac:(lia)) as [K|[(_ & K & _)|[[_ K]|(K & _)]]]; try lia.
          unfold lo in K. rewrite C in K. lia. }
    destruct (G (n - m - 1)) as [(k & K1 & K2)|K]; [exists k; split; [exact K1|lia]|].
    specialize (K n ltac:(lia)). lia.
  Qed.

  (** where a child has been *)
  Definition history (t e n : nat) : Prop :=
    state n t = 0 \/
    (exists m, m < n /\ state m t = 0 /\ run_at b ts ins m t /\ (forall i, m < i <= n -> 1 <= state i t < e)) \/
    (exists m k, execution b ts ins t e m k /\ k <= n /\ forall i, k <= i <= n -> state i t = e).
  Lemma history_holds : forall t e n, child (th b t) = true -> fin (th b t) = Some e -> history t e n.
  Proof.
    intros t e n C E. pose proof (end_gt1 t e C E) as G2. induction n as [|n IH]; [left; reflexivity|].
    pose proof (step_cases n t e E (state_le n t e E)) as K. unfold lo in K. rewrite C in K.
    destruct IH as [Z|[(m & M1 & M2 & M3 & M4)|(m & k & X & X1 & X2)]].
    - destruct K as [K|[(_ & K1 & K2 & K3)|[[K _]|(K & _)]]]; [left; congruence| |lia|lia].
      right. left. exists n. split; [lia|]. split; [exact Z|]. split; [exact K3|]. intros i Hi. replace i with (S n) by lia. lia.
    - pose proof (M4 n ltac:(lia)) as Bn.
      destruct (Nat.eq_dec (state (S n) t) e) as [Ee|Ne].
      + right. right. exists m, (S n). split; [|split; [lia|intros i Hi; replace i with (S n) by lia; exact Ee]].
        split; [lia|]. split; [exact M2|]. split; [exact M3|]. split; [|exact Ee]. intros i Hi. apply M4. lia.
      + right. left. exists m. split; [lia|]. split; [exact M2|]. split; [exact M3|]. intros i Hi.
        destruct (Nat.eq_dec i (S n)) as [->|Hn]; [|apply M4; lia].
        destruct K as [K|[(_ & K & _)|[[_ K]|(K & _)]]]; lia.
    - pose proof (X2 n ltac:(lia)) as En.
      destruct K as [K|[(_ & K & _)|[[K _]|(_ & K & _)]]]; [|lia|lia|left; exact K].
      right. right. exists m, k. split; [exact X|]. split; [lia|]. intros i Hi. destruct (Nat.eq_dec i (S n)) as [->|Hn]; [congruence|apply X2; lia].
  Qed.

  (** join, done *)
  Lemma join_step : forall f s t e n, In (SJoin f s t e) (sites b) -> state n f = s ->
    fin (th b t) = Some e /\ state (S n) f = if state n t =? e then S s else s.
  Proof.
    intros f s t e n Hi E. pose proof (site_ok _ Hi) as (_ & O & F). split; [exact F|]. rewrite state_S, E, (next_only_eq _ _ _ _ _ _ _ _ O). reflexivity.
  Qed.
  Lemma done_step : forall f s t e n, In (SDone f s t e) (sites b) -> state n f = s ->
    fin (th b t) = Some e /\ exists d, state (S n) f = if state n t =? e then S s else d.
  Proof.
    intros f s t e n Hi E. pose proof (site_ok _ Hi) as (_ & (d & O) & F). split; [exact F|]. exists d. rewrite state_S, E, (next_only_eq _ _ _ _ _ _ _ _ O). reflexivity.
  Qed.
  Lemma end_mux_holds : forall f x n l c, end_mux tid b f x l = Some c ->
    (holds (ins n) (H n) c = true <->
     exists l1 t l2 e, l = l1 ++ t :: l2 /\ Forall (fun u => tid u <> i_val (ins n) f x) l1 /\ tid t = i_val (ins n) f x /\
       fin (th b t) = Some e /\ state n t = e).
  Proof.
    intros f x n l. induction l as [|t l IH]; intros c E; cbn [end_mux] in E.
    - injection E as <-. cbn. split; [discriminate|]. intros (l1 & t & l2 & e & K & _). destruct l1; discriminate.
    - destruct (fin (th b t)) as [e|] eqn:Ef; [|discriminate]. destruct (end_mux tid b f x l) as [d|] eqn:Ed; [|discriminate]. injection E as <-.
      specialize (IH d eq_refl). cbn. destruct (Nat.eqb_spec (i_val (ins n) f x) (tid t)) as [Et|Nt].
      + rewrite Nat.eqb_eq. split.
        * intros K. exists [], t, l, e. repeat split; auto.
        * intros (l1 & u & l2 & e' & K1 & K2 & K3 & K4 & K5). destruct l1 as [|v l1].
          -- injection K1 as <- <-. assert (Q : e = e') by congruence. rewrite Q. exact K5.
          -- injection K1 as <- _. apply Forall_cons_iff in K2 as [K2 _]. congruence.
      + rewrite IH. split.
        * intros (l1 & u & l2 & e' & K1 & K2 & K3). exists (t :: l1), u, l2, e'. split; [cbn; congruence|]. split; [constructor; [congruence|exact K2]|exact K3].
        * intros (l1 & u & l2 & e' & K1 & K2 & K3). destruct l1 as [|v l1].
          -- injection K1 as <- <-. destruct K3 as [K3 _]. congruence.
          -- injection K1 as <- ->. apply Forall_cons_iff in K2 as [_ K2]. exists l1, u, l2, e'. auto.
  Qed.
  Lemma pool_join_step : forall f s p x n, In (SPoolJoin f s p x) (sites b) -> state n f = s ->
    (state (S n) f = S s /\ exists l1 t l2 e, pool p = l1 ++ t :: l2 /\ Forall (fun u => tid u <> i_val (ins n) f x) l1 /\
       tid t = i_val (ins n) f x /\ fin (th b t) = Some e /\ state n t = e) \/
    (state (S n) f = s /\ forall l1 t l2 e, pool p = l1 ++ t :: l2 -> Forall (fun u => tid u <> i_val (ins n) f x) l1 ->
       tid t = i_val (ins n) f x -> fin (th b t) = Some e -> state n t <> e).
  Proof.
    intros f s p x n Hi E. pose proof (site_ok _ Hi) as (_ & c & O & M). rewrite state_S, E, (next_only_eq _ _ _ _ _ _ _ _ O).
    pose proof (end_mux_holds f x n (pool p) c M) as K. destruct (holds (ins n) (H n) c).
    - left. split; [reflexivity|]. apply K. reflexivity.
    - right. split; [reflexivity|]. intros l1 t l2 e A1 A2 A3 A4 A5. assert (false = true); [|discriminate]. apply K. exists l1, t, l2, e. auto.
  Qed.
  (** run, reset *)
  Lemma run_parent : forall f s t g a n, In (SRun f s t g a) (sites b) -> state n f = s -> state (S n) f = S s.
  Proof.
    intros f s t g a n Hi E. pose proof (site_ok _ Hi) as (_ & O & _). rewrite state_S, E, (next_only_eq _ _ _ _ _ _ _ _ O). reflexivity.
  Qed.
  Lemma run_child : forall t, In t (map (fun x => match x with SRun _ _ t _ _ => t | _ => 0 end) (filter is_run (sites b))) ->
    start (th b t) = Some 0 /\ child (th b t) = true /\ exists e, fin (th b t) = Some e.
  Proof.
    intros t Hi. apply in_map_iff in Hi as (x & <- & Hx). apply filter_In in Hx as [Hx R]. destruct x as [f s t g a| | | | | |]; try discriminate.
    pose proof (site_ok _ Hx) as (_ & _ & A & B & _). split; [exact A|]. split; [exact B|].
    destruct (fin (th b t)) as [e|] eqn:Ef; [eauto|]. exfalso. destruct set_b as [_ N]. apply (N t). split; assumption.
  Qed.
  Lemma run_done : forall f s t g a, In (SRun f s t g a) (sites b) -> child (th b t) = true /\ exists e, fin (th b t) = Some e.
  Proof.
    intros f s t g a Hi. destruct (run_child t) as (_ & A & B); [|auto]. apply in_map_iff. exists (SRun f s t g a). split; [reflexivity|].
    apply filter_In. auto.
  Qed.
  (** all jumps out of the start state of a child go to state 1 *)
  Lemma start_jump : forall n t e, child (th b t) = true -> fin (th b t) = Some e -> state n t = 0 -> run_at b ts ins n t -> state (S n) t = 1.
  Proof.
    intros n t e C E Z (f & s & g & a & Hi & Es & Hg). pose proof (site_ok _ Hi) as (_ & _ & _ & _ & J).
    destruct (done_ok t e E) as (_ & L & G). unfold lo in L. rewrite C in L. rewrite state_S, Z. unfold next_state.
    assert (Q : forall l k, (k = 0 \/ k = 1) -> Forall (good progs b t e) l -> (k = 1 \/ In (0, (1, CAnd g (CAt f s), None)) l) ->
      fold_left (take (ins n) (H n) 0) l k = 1).
    { induction l as [|[src [[dst c] els]] l IH]; intros k Hk Gl Hl; cbn [fold_left]; [destruct Hl as [->|[]]; reflexivity|].
      apply Forall_cons_iff in Gl as [Gj Gl].
      assert (Kj : take (ins n) (H n) 0 k (src, (dst, c, els)) = 1 \/
                   (take (ins n) (H n) 0 k (src, (dst, c, els)) = k /\ (k = 1 \/ In (0, (1, CAnd g (CAt f s), None)) l))).
      { cbn [take]. destruct (Nat.eqb_spec src 0) as [->|Hs].
        - destruct Gj as [(_ & _ & -> & -> & f' & s' & g' & a' & _ & ->)|[(A & _)|(A & _)]]; [|unfold lo in A; rewrite C in A; lia|lia].
          destruct (holds (ins n) (H n) (CAnd g' (CAt f' s'))) eqn:Eh; [left; reflexivity|]. right. split; [reflexivity|].
          destruct Hl as [Hl|[Hl|Hl]]; [left; exact Hl| |right; exact Hl]. exfalso. injection Hl as -> -> ->.
          cbn in Eh. apply andb_false_iff in Eh as [Eh|Eh]; [rewrite Hg in Eh; discriminate|]. apply Nat.eqb_neq in Eh. apply Eh. exact Es.
        - right. split; [reflexivity|]. destruct Hl as [Hl|[Hl|Hl]]; [left; exact Hl| |right; exact Hl]. injection Hl as -> _. congruence. }
      destruct Kj as [Kj|[Kj Kl]]; rewrite Kj; apply IH; auto. }
    apply Q; auto.
  Qed.
  Lemma reset_step : forall n t e, fin (th b t) = Some e -> state n t = e -> reset_at b ts ins n t -> state (S n) t = 0.
  Proof.
    intros n t e E Z (f & s & g & Hi & Es & Hg). pose proof (site_ok _ Hi) as (_ & e' & E' & J). assert (e' = e) by congruence. subst e'.
    destruct (done_ok t e E) as (_ & L & G). rewrite state_S, Z. unfold next_state.
    assert (Le : 0 < e) by (unfold lo in L; destruct (child (th b t)); lia).
    assert (Q : forall l k, (k = 0 \/ k = e) -> Forall (good progs b t e) l -> (k = 0 \/ In (e, (0, CAnd (CAt f s) g, None)) l) ->
      fold_left (take (ins n) (H n) e) l k = 0).
    { induction l as [|[src [[dst c] els]] l IH]; intros k Hk Gl Hl; cbn [fold_left]; [destruct Hl as [->|[]]; reflexivity|].
      apply Forall_cons_iff in Gl as [Gj Gl].
      assert (Kj : take (ins n) (H n) e k (src, (dst, c, els)) = 0 \/
                   (take (ins n) (H n) e k (src, (dst, c, els)) = k /\ (k = 0 \/ In (e, (0, CAnd (CAt f s) g, None)) l))).
      { cbn [take]. destruct (Nat.eqb_spec src e) as [->|Hs].
        - destruct Gj as [(_ & A & _)|[(A & _)|(_ & -> & -> & f' & s' & g' & _ & ->)]]; [lia|lia|].
          destruct (holds (ins n) (H n) (CAnd (CAt f' s') g')) eqn:Eh; [left; reflexivity|]. right. split; [reflexivity|].
          destruct Hl as [Hl|[Hl|Hl]]; [left; exact Hl| |right; exact Hl]. exfalso. injection Hl as -> -> ->.
          cbn in Eh. apply andb_false_iff in Eh as [Eh|Eh]; [|rewrite Hg in Eh; discriminate]. apply Nat.eqb_neq in Eh. apply Eh. exact Es.
        - right. split; [reflexivity|]. destruct Hl as [Hl|[Hl|Hl]]; [left; exact Hl| |right; exact Hl]. injection Hl as -> _. congruence. }
      destruct Kj as [Kj|[Kj Kl]]; rewrite Kj; apply IH; auto. }
    apply Q; auto.
  Qed.

  (** the main statement *)
  Lemma last_step : forall n t e w, child (th b t) = true -> fin (th b t) = Some e -> final (progs t) = Some w -> state n t <> e -> state (S n) t = e ->
    S (state n t) = e /\ forall k, w = Some k -> i_bit (ins n) k = true.
  Proof.
    intros n t e w C E F N A. pose proof (end_gt1 t e C E) as G2. destruct (done_ok t e E) as (S0 & Lo & G). rewrite Forall_forall in G.
    rewrite state_S in A. destruct (next_cases (ins n) (H n) (th b t) (state n t)) as [K|(d & c & els & Hi & K)]; [congruence|].
    specialize (G _ Hi). destruct G as [(_ & _ & B & B' & _)|[(_ & _ & _ & B)|(_ & B & B' & _)]].
    - destruct K as [[_ K]|[_ K]]; [|congruence]. lia.
    - destruct (B w F) as (B1 & B2 & B3); [destruct K as [[_ K]|[_ K]]; [left; congruence|right; congruence]|].
      split; [exact B1|]. intros k ->. destruct K as [[K _]|[_ K]]; [|congruence]. rewrite B2 in K. exact K.
    - destruct K as [[_ K]|[_ K]]; [|congruence]. lia.
  Qed.
  Lemma run_end : forall t e m n, child (th b t) = true -> fin (th b t) = Some e -> run_at b ts ins m t -> state m t = 0 -> m < n -> state n t = e ->
    exists k, execution b ts ins t e m k /\ k <= n.
  Proof.
    intros t e m n C E RA Z L En. pose proof (start_jump m t e C E Z RA) as S1. pose proof (end_gt1 t e C E) as G2.
    destruct (body_until t e m n C E L ltac:(lia) En) as (k & (K1 & K2 & K3) & K4). exists k. split; [|exact K4].
    split; [exact K1|]. split; [exact Z|]. split; [exact RA|]. split; [exact K2|exact K3].
  Qed.
  Lemma run_join : forall f s t g a e f' s' m n, In (SRun f s t g a) (sites b) -> In (SJoin f' s' t e) (sites b) ->
    state m f = s -> true_at b ts ins m g -> state m t = 0 -> m < n -> state n f' = s' -> state (S n) f' <> s' ->
    exists k, execution b ts ins t e m k /\ k <= n.
  Proof.
    intros f s t g a e f' s' m n R J A1 A2 A3 L B1 B2. destruct (run_done _ _ _ _ _ R) as (C & _).
    destruct (join_step f' s' t e n J B1) as [E K].
    assert (En : state n t = e) by (destruct (Nat.eqb_spec (state n t) e); [assumption|contradiction]).
    apply run_end; auto. exists f, s, g, a. auto.
  Qed.
  Lemma all_joined : forall f s c (t e : nat -> nat) m n, (forall i, i < c -> In (SJoin f (s + i) (t i) (e i)) (sites b)) ->
    m <= n -> state m f = s -> s + c <= state n f ->
    forall i, i < c -> exists k, m <= k < n /\ state k f = s + i /\ state k (t i) = e i.
  Proof.
    intros f s c t e m n J L Em En.
    assert (G : forall d, m + d <= n -> (exists i, i <= c /\ state (m + d) f = s + i /\
        forall j, j < i -> exists k, m <= k < m + d /\ state k f = s + j /\ state k (t j) = e j) \/
        (forall j, j < c -> exists k, m <= k < m + d /\ state k f = s + j /\ state k (t j) = e j)).
    { induction d as [|d IH]; intros Hd.
      - left. exists 0. rewrite Nat.add_0_r. split; [lia|]. split; [lia|]. intros j Hj. lia.
      - destruct (IH ltac:(lia)) as [(i & I1 & I2 & I3)|IH'].
        + assert (W : forall j, j < i -> exists k, m <= k < m + S d /\ state k f = s + j /\ state k (t j) = e j).
          { intros j Hj. destruct (I3 j Hj) as (k & K1 & K2). exists k. split; [lia|exact K2]. }
          destruct (Nat.eq_dec i c) as [->|Hn]; [right; exact W|].
          destruct (join_step f (s + i) (t i) (e i) (m + d) (J i ltac:(lia)) I2) as [_ K].
          replace (m + S d) with (S (m + d)) by lia. destruct (Nat.eqb_spec (state (m + d) (t i)) (e i)) as [Ee|Ne].
          * left. exists (S i). split; [lia|]. split; [lia|]. intros j Hj. destruct (Nat.eq_dec j i) as [->|Hj'].
            -- exists (m + d). split; [lia|]. auto.
            -- destruct (I3 j ltac:(lia)) as (k & K1 & K2). exists k. split; [lia|exact K2].
          * left. exists i. split; [exact I1|]. split; [exact K|]. intros j Hj. destruct (I3 j Hj) as (k & K1 & K2). exists k. split; [lia|exact K2].
        + right. intros j Hj. destruct (IH' j Hj) as (k & K1 & K2). exists k. split; [lia|exact K2]. }
    intros i Hi. destruct (G (n - m) ltac:(lia)) as [(i' & I1 & I2 & I3)|K].
    - replace (m + (n - m)) with n in I2, I3 by lia. apply I3. lia.
    - destruct (K i Hi) as (k & K1 & K2). exists k. split; [lia|exact K2].
  Qed.
End Run.
