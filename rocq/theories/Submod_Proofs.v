(** Proofs about the wrapper for submodules. *)
From Verif Require Import Base Submod_Model Submod_Spec.
Open Scope Z_scope.

Lemma pre_inj (pre a b : string) : (pre ++ a)%string = (pre ++ b)%string -> a = b.
Proof. induction pre as [|c pre IH]; cbn; intros E; [exact E|]. injection E as E. exact (IH E). Qed.
Lemma has_In n l : has n l = true <-> In n l.
Proof.
  unfold has. rewrite existsb_exists. split.
  - intros (m & I & E). apply String.eqb_eq in E. subst. exact I.
  - intros I. exists n. split; [exact I|apply String.eqb_refl].
Qed.
Lemma has_not n l : has n l = false <-> ~ In n l.
Proof. rewrite <- has_In. destruct (has n l); intuition congruence. Qed.
Lemma look_some {A} n (l : list (string * A)) x : look n l = Some x -> In (n, x) l.
Proof.
  induction l as [|[m y] l IH]; cbn; [discriminate|]. destruct (String.eqb n m) eqn:E.
  - intros H. injection H as ->. apply String.eqb_eq in E. subst. left. reflexivity.
  - intros H. right. exact (IH H).
Qed.
Lemma look_none {A} n (l : list (string * A)) : look n l = None <-> ~ In n (map fst l).
Proof.
  induction l as [|[m y] l IH]; cbn; [tauto|]. destruct (String.eqb n m) eqn:E.
  - apply String.eqb_eq in E. subst. split; [discriminate|]. intros H. exfalso. apply H. left. reflexivity.
  - apply String.eqb_neq in E. rewrite IH. split; intros H; [intros [X|X]; [congruence|exact (H X)]|]. intros X. apply H. right. exact X.
Qed.
Lemma set_same g n v : set g n v n = v.
Proof. unfold set. rewrite String.eqb_refl. reflexivity. Qed.
Lemma set_other g n v m : m <> n -> set g n v m = g m.
Proof. intros N. unfold set. apply String.eqb_neq in N. rewrite N. reflexivity. Qed.

(** values depend on the names that occur *)
Lemma eval_rename pre e : forall g g', (forall v, In v (collect e) -> g' (pre ++ v)%string = g v) -> eval g' (rename pre e) = eval g e.
Proof.
  induction e as [z|n|f l IL r IR|c IC a IA b IB]; intros g g' H; cbn [eval rename collect] in *.
  - reflexivity.
  - apply H. left. reflexivity.
  - rewrite (IL g g'), (IR g g'); [reflexivity| |]; intros v I; apply H, in_or_app; auto.
  - rewrite (IC g g'), (IA g g'), (IB g g'); [reflexivity| | |]; intros v I; apply H; rewrite !in_app_iff; auto.
Qed.
Lemma eval_ext e : forall g g', (forall v, In v (collect e) -> g' v = g v) -> eval g' e = eval g e.
Proof.
  induction e as [z|n|f l IL r IR|c IC a IA b IB]; intros g g' H; cbn [eval collect] in *.
  - reflexivity.
  - apply H. left. reflexivity.
  - rewrite (IL g g'), (IR g g'); [reflexivity| |]; intros v I; apply H, in_or_app; auto.
  - rewrite (IC g g'), (IA g g'), (IB g g'); [reflexivity| | |]; intros v I; apply H; rewrite !in_app_iff; auto.
Qed.

Section M.
  Variables (up : env) (pre : string) (over : string -> option ex) (us : list string) (kept : string -> Prop).
  Definition cdecl (g : env) (ds : list (string * ex)) : env :=
    fold_left (fun g x => set g (fst x) (match over (fst x) with Some a => eval up a | None => eval g (snd x) end)) ds g.
  Definition pick (ds : list (string * ex)) : list (string * ex) :=
    map (fun x => (pre ++ fst x, rename pre (snd x)))%string (filter (fun x => has (fst x) us && match over (fst x) with Some _ => false | None => true end) ds).

  Lemma both ds : forall seen g g', ordered seen ds ->
    (forall v, In v seen -> kept v -> g' (pre ++ v)%string = g v) ->
    (forall n a, In n (map fst ds) -> over n = Some a -> g' (pre ++ n)%string = eval up a) ->
    (forall n, In n (map fst ds) -> kept n -> over n = None -> In n us) ->
    (forall n e v, In (n, e) ds -> In n us -> over n = None -> In v (collect e) -> kept v) ->
    forall v, In v seen \/ In v (map fst ds) -> kept v -> declare g' (pick ds) (pre ++ v)%string = cdecl g ds v.
  Proof using.
    induction ds as [|[n e] ds IH]; intros seen g g' OR AG AR KU CO v V K.
    - destruct V as [V|[]]. cbn. exact (AG v V K).
    - cbn [ordered] in OR. destruct OR as (O1 & O2 & O3). cbn [map fst] in *.
      assert (V' : In v (n :: seen) \/ In v (map fst ds)) by (cbn [In] in *; tauto).
      assert (NS : forall w, In w seen -> w <> n) by (intros w W ->; exact (O2 W)).
      unfold pick, cdecl. cbn [filter fold_left fst snd]. fold (cdecl (set g n (match over n with Some a => eval up a | None => eval g e end)) ds). destruct (over n) as [a|] eqn:ON.
      + rewrite andb_false_r. fold (pick ds). apply (IH (n :: seen)); auto.
        * intros w [W|W] KW; [subst w; rewrite set_same; apply AR; [left; reflexivity|exact ON]|]. rewrite set_other by (apply NS, W). exact (AG w W KW).
        * intros m b M. apply AR. right. exact M.
        * intros m M. apply KU. right. exact M.
        * intros m f w M. apply CO. right. exact M.
      + rewrite andb_true_r. destruct (has n us) eqn:HU.
        * apply has_In in HU. cbn [map fst snd]. fold (pick ds). unfold declare. cbn [fold_left fst snd]. fold (declare (set g' (pre ++ n)%string (eval g' (rename pre e))) (pick ds)).
          assert (EV : eval g' (rename pre e) = eval g e).
          { apply eval_rename. intros w W. apply AG; [exact (O1 w W)|]. apply (CO n e w); auto. left. reflexivity. }
          rewrite EV. apply (IH (n :: seen)); auto.
          -- intros w [W|W] KW; [subst w; rewrite !set_same; reflexivity|]. rewrite !set_other; [exact (AG w W KW)|apply NS, W|]. intros E. apply pre_inj in E. exact (NS w W E).
          -- intros m b M OM. rewrite set_other; [apply AR; [right; exact M|exact OM]|]. intros E. apply pre_inj in E. congruence.
          -- intros m M. apply KU. right. exact M.
          -- intros m f w M. apply CO. right. exact M.
        * apply has_not in HU. fold (pick ds). apply (IH (n :: seen)); auto.
          -- intros w [W|W] KW; [subst w; exfalso; apply HU, KU; [left; reflexivity|exact KW|exact ON]|]. rewrite set_other by (apply NS, W). exact (AG w W KW).
          -- intros m b M. apply AR. right. exact M.
          -- intros m M. apply KU. right. exact M.
          -- intros m f w M. apply CO. right. exact M.
  Qed.
End M.

(** the constants of the arguments *)
Lemma args_ok up pre args ps : (forall n a, In (n, a) args -> forall m, ~ In (pre ++ m)%string (collect a)) -> NoDup (map fst ps) ->
  forall g, (forall v, (forall m, v <> (pre ++ m)%string) -> g v = up v) ->
  (forall n a, In n (map fst ps) -> look n args = Some a -> declare g (arg_consts pre args ps) (pre ++ n)%string = eval up a) /\
  (forall n, ~ In n (map fst ps) \/ look n args = None -> declare g (arg_consts pre args ps) (pre ++ n)%string = g (pre ++ n)%string).
Proof.
  intros FR ND. induction ps as [|[n e] ps IH]; intros g G; [split; [intros n a []|reflexivity]|].
  inversion ND as [|? ? N1 N2]; subst. specialize (IH N2). cbn [map fst] in *. unfold arg_consts. cbn [flat_map fst]. fold (arg_consts pre args ps).
  destruct (look n args) as [a|] eqn:L.
  - cbn [app]. unfold declare. cbn [fold_left fst snd]. fold (declare (set g (pre ++ n)%string (eval g a)) (arg_consts pre args ps)).
    assert (EA : eval g a = eval up a).
    { apply eval_ext. intros v V. apply G. intros m ->. exact (FR n a (look_some n args a L) m V). }
    assert (G' : forall v, (forall m, v <> (pre ++ m)%string) -> set g (pre ++ n)%string (eval g a) v = up v) by (intros v V; rewrite set_other by apply V; exact (G v V)).
    destruct (IH _ G') as (I1 & I2). split.
    + intros m b [M|M] LM; [|exact (I1 m b M LM)]. subst m. rewrite L in LM. injection LM as <-. rewrite I2 by (left; exact N1). rewrite set_same. exact EA.
    + intros m [M|M]; [rewrite I2 by (left; intros X; apply M; right; exact X)|rewrite I2 by (right; exact M)]; apply set_other; intros E; apply pre_inj in E; subst m.
      * apply M. left. reflexivity.
      * congruence.
  - cbn [app]. destruct (IH g G) as (I1 & I2). split.
    + intros m b [M|M] LM; [subst m; congruence|exact (I1 m b M LM)].
    + intros m [M|M]; apply I2; [left; intros X; apply M; right; exact X|right; exact M].
Qed.

Lemma ordered_app a : forall seen b, ordered seen (a ++ b) -> ordered seen a /\ ordered (rev (map fst a) ++ seen) b.
Proof.
  induction a as [|[n e] a IH]; intros seen b H; [split; [exact I|exact H]|]. cbn [app ordered] in H. destruct H as (H1 & H2 & H3). destruct (IH _ _ H3) as (X & Y).
  split; [cbn [ordered]; auto|]. cbn [map fst rev]. rewrite <- app_assoc. exact Y.
Qed.
Lemma ordered_nodup ds : forall seen, ordered seen ds -> NoDup (map fst ds) /\ forall n, In n (map fst ds) -> ~ In n seen.
Proof.
  induction ds as [|[n e] ds IH]; intros seen H; [split; [constructor|intros n []]|]. destruct H as (_ & H2 & H3). destruct (IH _ H3) as (X & Y). cbn [map fst]. split.
  - constructor; [|exact X]. intros I. apply (Y n I). left. reflexivity.
  - intros m [M|M]; [subst m; exact H2|]. intros I. apply (Y m M). right. exact I.
Qed.
Lemma declare_app g a b : declare g (a ++ b) = declare (declare g a) b.
Proof. unfold declare. apply fold_left_app. Qed.
Lemma filter_ext' {A} (f g : A -> bool) l : (forall x, f x = g x) -> filter f l = filter g l.
Proof. intros E. induction l as [|x l IH]; [reflexivity|]. cbn. rewrite E, IH. reflexivity. Qed.

Lemma consts_ok pre up args c ds : legal c -> legal_args pre args c -> complete args c -> new_consts pre args c = Some ds ->
  forall n, In n (map fst (c_params c ++ c_locals c)) -> In n (used c) \/ In n (map fst args) -> declare up ds (pre ++ n)%string = instance up args c n.
Proof.
  intros LC LA CO E n IN US. unfold new_consts in E. destruct (forallb _ _); [|discriminate E]. injection E as <-.
  destruct LC as [OR _ _]. destruct (ordered_app _ _ _ OR) as (OP & OL). rewrite app_nil_r in OL. destruct (ordered_nodup _ _ OP) as (NP & _). destruct (ordered_nodup _ _ OL) as (_ & NL).
  set (kept := fun v => In v (used c) \/ In v (map fst args)).
  assert (FR : forall n a, In (n, a) args -> forall m, ~ In (pre ++ m)%string (collect a)) by (intros m a M; apply (LA m a M)).
  destruct (args_ok up pre args (c_params c) FR NP up (fun v _ => eq_refl)) as (A1 & _).
  rewrite !declare_app. set (g1 := declare up (arg_consts pre args (c_params c))) in *.
  assert (C1 : copied pre (used c) (map fst args) (c_params c) = pick pre (fun n => look n args) (used c) (c_params c)).
  { unfold copied, pick. f_equal. apply filter_ext'. intros [m e]. cbn [fst]. f_equal. destruct (look m args) eqn:L.
    - apply look_some in L. assert (X : has m (map fst args) = true) by (apply has_In, in_map_iff; eexists; split; [|exact L]; reflexivity). rewrite X. reflexivity.
    - apply look_none in L. apply has_not in L. rewrite L. reflexivity. }
  assert (C2 : copied pre (used c) [] (c_locals c) = pick pre (fun _ => None) (used c) (c_locals c)) by reflexivity.
  assert (P1 : forall v, In v (map fst (c_params c)) -> kept v -> declare g1 (copied pre (used c) (map fst args) (c_params c)) (pre ++ v)%string = cdecl up (fun n => look n args) none (c_params c) v).
  { intros v V K. rewrite C1. apply (both up pre (fun n => look n args) (used c) kept (c_params c) [] none g1 OP); auto.
    - intros w [].
    - intros m M [U|U] LK; [exact U|]. apply look_none in LK. contradiction.
    - intros m e w M U LK W. apply (CO m e w); auto; [apply in_or_app; left; exact M|apply look_none; exact LK]. }
  assert (ND : forall m, In m (map fst (c_locals c)) -> ~ In m (map fst args)).
  { intros m M A. apply in_map_iff in A. destruct A as ([m' a] & <- & A). cbn [fst] in M. apply (NL m' M). rewrite <- in_rev. apply (LA m' a A). }
  rewrite C2. unfold instance. fold (cdecl up (fun n => look n args) none (c_params c)).
  apply (both up pre (fun _ => None) (used c) kept (c_locals c) (rev (map fst (c_params c))) (cdecl up (fun n => look n args) none (c_params c)) _ OL); auto.
  - intros v V K. apply P1; [apply in_rev; exact V|exact K].
  - intros m a M X. discriminate X.
  - intros m M [U|U] _; [exact U|]. exfalso. exact (ND m M U).
  - intros m e w M U _ W. apply (CO m e w); auto; [apply in_or_app; right; exact M|]. apply ND. apply in_map_iff. exists (m, e). auto.
  - rewrite map_app in IN. apply in_app_or in IN. destruct IN as [IN|IN]; [left; rewrite <- in_rev; exact IN|right; exact IN].
Qed.
Lemma widths_ok pre up args c ds : legal c -> legal_args pre args c -> complete args c -> new_consts pre args c = Some ds ->
  forall o, In o (c_ports c) -> eval (declare up ds) (rename pre (o_width o)) = eval (instance up args c) (o_width o).
Proof.
  intros LC LA CO E o O. apply eval_rename. intros v V. apply (consts_ok pre up args c ds LC LA CO E v).
  - exact (l_widths c LC o v O V).
  - left. unfold used. apply in_flat_map. exists o. split; [exact O|]. right. exact V.
Qed.

(** the instance is the one that was asked for *)
Lemma declare_other ds : forall g n, ~ In n (map fst ds) -> declare g ds n = g n.
Proof.
  induction ds as [|[m e] ds IH]; intros g n N; [reflexivity|]. cbn [map fst] in N. unfold declare. cbn [fold_left fst snd]. fold (declare (set g m (eval g e)) ds).
  rewrite IH by (intros I; apply N; right; exact I). apply set_other. intros ->. apply N. left. reflexivity.
Qed.
Lemma copied_name pre inc exc src n : In (pre ++ n)%string (map fst (copied pre inc exc src)) -> In n (map fst src) /\ ~ In n exc.
Proof.
  unfold copied. rewrite map_map. cbn [fst]. intros I. apply in_map_iff in I. destruct I as ([m e] & E & I). cbn [fst] in E. apply pre_inj in E. subst m.
  apply filter_In in I. destruct I as (I & H). cbn [fst] in H. apply andb_true_iff in H. destruct H as (_ & H). apply negb_true_iff in H. apply has_not in H. split; [|exact H]. apply in_map_iff. exists (n, e). auto.
Qed.
Lemma arg_value pre up args c ds : ordered [] (c_params c ++ c_locals c) -> legal_args pre args c -> new_consts pre args c = Some ds ->
  forall n a, In n (map fst (c_params c)) -> look n args = Some a -> declare up ds (pre ++ n)%string = eval up a.
Proof.
  intros OR LA E n a IN L. unfold new_consts in E. destruct (forallb _ _); [|discriminate E]. injection E as <-.
  destruct (ordered_app _ _ _ OR) as (OP & OL). rewrite app_nil_r in OL. destruct (ordered_nodup _ _ OP) as (NP & _). destruct (ordered_nodup _ _ OL) as (_ & NL).
  assert (FR : forall n a, In (n, a) args -> forall m, ~ In (pre ++ m)%string (collect a)) by (intros m b M; apply (LA m b M)).
  destruct (args_ok up pre args (c_params c) FR NP up (fun v _ => eq_refl)) as (A1 & _).
  rewrite !declare_app. rewrite declare_other.
  - rewrite declare_other; [exact (A1 n a IN L)|]. intros I. apply copied_name in I. apply (proj2 I). apply look_some in L. apply in_map_iff. exists (n, a). auto.
  - intros I. apply copied_name in I. apply (NL n (proj1 I)). rewrite <- in_rev. exact IN.
Qed.
Lemma look_gen {A} (t : string -> bool) (h : string -> A) (ps : list (string * ex)) n :
  look n (flat_map (fun x => if t (fst x) then [(fst x, h (fst x))] else []) ps) = if has n (map fst ps) && t n then Some (h n) else None.
Proof.
  induction ps as [|[m e] ps IH]; [reflexivity|]. cbn [flat_map fst map]. unfold has. cbn [existsb]. fold (has n (map fst ps)). destruct (String.eqb n m) eqn:E.
  - apply String.eqb_eq in E. subst m. cbn [orb andb]. destruct (t n) eqn:T; cbn [app look]; [rewrite String.eqb_refl; reflexivity|]. rewrite IH, andb_false_r. reflexivity.
  - cbn [orb]. destruct (t m); cbn [app look]; [rewrite E|]; exact IH.
Qed.
Lemma arg_names pre args ps n : In n (map fst ps) -> has (pre ++ n)%string (map fst (arg_consts pre args ps)) = match look n args with Some _ => true | None => false end.
Proof.
  intros IN. destruct (look n args) as [a|] eqn:L.
  - apply has_In. apply in_map_iff. exists ((pre ++ n)%string, a). split; [reflexivity|]. apply in_map_iff in IN. destruct IN as (x & <- & IN). apply in_flat_map. exists x. split; [exact IN|]. rewrite L. left. reflexivity.
  - apply has_not. intros I. apply in_map_iff in I. destruct I as ([m b] & E & I). cbn [fst] in E. subst m. apply in_flat_map in I. destruct I as (x & _ & I). destruct (look (fst x) args) eqn:LX; [|destruct I]. destruct I as [I|[]]. injection I as I _. apply pre_inj in I. congruence.
Qed.
Lemma declare_ext ds : forall g g', (forall v, g v = g' v) -> forall v, declare g ds v = declare g' ds v.
Proof.
  induction ds as [|[n e] ds IH]; intros g g' E v; [apply E|]. unfold declare. cbn [fold_left fst snd]. apply IH. intros w. unfold set. destruct (String.eqb w n); [|apply E]. apply eval_ext. intros u _. apply E.
Qed.
Lemma instance_ok pre up args c ds : ordered [] (c_params c ++ c_locals c) -> legal_args pre args c -> new_consts pre args c = Some ds ->
  forall n, instance (declare up ds) (inst_params pre args c) c n = instance up args c n.
Proof.
  intros OR LA E n. unfold instance. apply declare_ext. clear n. pose proof (arg_value pre up args c ds OR LA E) as AV.
  assert (K : forall ps, (forall x, In x ps -> In (fst x) (map fst (c_params c))) -> forall g g', (forall v, g v = g' v) -> forall v,
    fold_left (fun g x => set g (fst x) (match look (fst x) (inst_params pre args c) with Some a => eval (declare up ds) a | None => eval g (snd x) end)) ps g v =
    fold_left (fun g x => set g (fst x) (match look (fst x) args with Some a => eval up a | None => eval g (snd x) end)) ps g' v).
  { induction ps as [|[n e] ps IH]; intros SB g g' EG v; [apply EG|]. cbn [fold_left fst snd]. apply IH; [intros x X; apply SB; right; exact X|].
    assert (IN : In n (map fst (c_params c))) by (apply (SB (n, e)); left; reflexivity).
    intros w. unfold set at 1 2. destruct (String.eqb w n); [|apply EG]. unfold inst_params.
    rewrite (look_gen (fun m => has (pre ++ m)%string (map fst (arg_consts pre args (c_params c)))) (fun m => EVar (pre ++ m)%string)).
    rewrite (proj2 (has_In _ _) IN), (arg_names pre args _ n IN). cbn [andb]. destruct (look n args) as [a|] eqn:L.
    - cbn [eval]. exact (AV n a IN L).
    - apply eval_ext. intros u _. apply EG. }
  intros v. apply K; [intros x X; apply in_map, X|reflexivity].
Qed.

(** ports *)
Lemma one_decl pre f (p : string -> bool) ps : NoDup (map o_name ps) -> forall o, In o ps ->
  filter (fun x => String.eqb (fst (fst x)) (pre ++ o_name o)%string) (map (decl pre f) (filter (fun o => p (o_name o)) ps)) = if p (o_name o) then [decl pre f o] else [].
Proof.
  assert (NO : forall o qs, ~ In (o_name o) (map o_name qs) -> filter (fun x => String.eqb (fst (fst x)) (pre ++ o_name o)%string) (map (decl pre f) (filter (fun o => p (o_name o)) qs)) = []).
  { intros o. induction qs as [|q qs IH]; intros N; [reflexivity|]. cbn [map] in N. cbn [filter]. assert (N' : ~ In (o_name o) (map o_name qs)) by (intros I; apply N; right; exact I).
    destruct (p (o_name q)); [|exact (IH N')]. cbn [map filter decl fst]. destruct (String.eqb _ _) eqn:E; [|exact (IH N')]. exfalso. apply String.eqb_eq in E. apply pre_inj in E. apply N. left. exact E. }
  induction ps as [|q ps IH]; intros ND o IN; [destruct IN|]. inversion ND as [|? ? N1 N2]; subst. destruct IN as [IN|IN].
  - subst q. cbn [filter]. destruct (p (o_name o)) eqn:P; [|exact (NO o ps N1)]. cbn [map filter]. unfold decl at 1. cbn [fst]. rewrite String.eqb_refl. f_equal. exact (NO o ps N1).
  - assert (Q : o_name q <> o_name o) by (intros E; apply N1; rewrite E; apply in_map, IN). cbn [filter]. destruct (p (o_name q)); [|exact (IH N2 o IN)]. cbn [map filter]. unfold decl at 1. cbn [fst].
    destruct (String.eqb _ _) eqn:E; [|exact (IH N2 o IN)]. apply String.eqb_eq in E. apply pre_inj in E. contradiction.
Qed.
Lemma filter_app' {A} (f : A -> bool) a b : filter f (a ++ b) = filter f a ++ filter f b.
Proof. induction a as [|x a IH]; [reflexivity|]. cbn [app filter]. rewrite IH. destruct (f x); reflexivity. Qed.
Lemma vars_ok pre argp as_io as_wire c : NoDup (map o_name (c_ports c)) -> forall o, In o (c_ports c) ->
  filter (fun x => String.eqb (fst (fst x)) (pre ++ o_name o)%string) (new_vars pre argp as_io as_wire c) =
  (if has (o_name o) as_io then [decl pre KIo o] else []) ++ (if negb (has (o_name o) (map fst argp ++ as_io ++ as_wire)) then [decl pre (opposite false) o] else []) ++ (if has (o_name o) as_wire then [decl pre (opposite true) o] else []).
Proof.
  intros ND o IN. unfold new_vars. rewrite !filter_app'. f_equal; [|f_equal].
  - apply (one_decl pre KIo (fun n => has n as_io)); auto.
  - apply (one_decl pre (opposite false) (fun n => negb (has n (map fst argp ++ as_io ++ as_wire)))); auto.
  - apply (one_decl pre (opposite true) (fun n => has n as_wire)); auto.
Qed.
Lemma has_app n a b : has n (a ++ b) = has n a || has n b.
Proof. unfold has. apply existsb_app. Qed.
Lemma look_has {A} n (l : list (string * A)) : has n (map fst l) = match look n l with Some _ => true | None => false end.
Proof.
  destruct (look n l) as [a|] eqn:L; [|apply has_not, look_none, L]. apply has_In. apply look_some in L. apply in_map_iff. exists (n, a). auto.
Qed.
Lemma conns_ok pre argp as_io as_wire c : NoDup (map o_name (c_ports c)) ->
  conns pre argp as_io as_wire c = map (fun o => (o_name o, match look (o_name o) argp with Some a => a | None => EVar (pre ++ o_name o)%string end)) (c_ports c).
Proof.
  intros ND. unfold conns.
  assert (K : forall o, In o (c_ports c) -> look (o_name o) argp = None -> has (pre ++ o_name o)%string (map (fun x => fst (fst x)) (new_vars pre argp as_io as_wire c)) = true).
  { intros o IN L. pose proof (vars_ok pre argp as_io as_wire c ND o IN) as V. rewrite !has_app, (look_has (o_name o) argp), L in V. cbn [orb] in V.
    assert (X : exists y, In y (filter (fun x => String.eqb (fst (fst x)) (pre ++ o_name o)%string) (new_vars pre argp as_io as_wire c))).
    { rewrite V. destruct (has (o_name o) as_io), (has (o_name o) as_wire); cbn; eexists; left; reflexivity. }
    destruct X as (y & Y). apply filter_In in Y. destruct Y as (Y & E). apply String.eqb_eq in E. apply has_In, in_map_iff. exists y. split; [exact E|exact Y]. }
  revert K. generalize (map (fun x => fst (fst x)) (new_vars pre argp as_io as_wire c)). intros l. generalize (c_ports c). intros ps K. induction ps as [|o ps IH]; [reflexivity|]. cbn [flat_map map].
  rewrite IH by (intros q Q; apply K; right; exact Q). destruct (look (o_name o) argp) eqn:L; [reflexivity|]. rewrite (K o (or_introl eq_refl) L). reflexivity.
Qed.
Lemma var_ok pre argp as_io as_wire c o : NoDup (map o_name (c_ports c)) -> In o (c_ports c) -> look (o_name o) argp = None -> ~ (In (o_name o) as_io /\ In (o_name o) as_wire) ->
  exists k, filter (fun x => String.eqb (fst (fst x)) (pre ++ o_name o)%string) (new_vars pre argp as_io as_wire c) = [((pre ++ o_name o)%string, k, rename pre (o_width o))] /\
    (In (o_name o) as_io -> k = KIo (o_dir o)) /\ (~ In (o_name o) as_io -> k = match o_dir o with DIn => if has (o_name o) as_wire then KWire else KReg | _ => KWire end).
Proof.
  intros ND IN L NB. rewrite (vars_ok pre argp as_io as_wire c ND o IN), !has_app, (look_has (o_name o) argp), L. cbn [orb].
  destruct (has (o_name o) as_io) eqn:A.
  - apply has_In in A. assert (B : has (o_name o) as_wire = false) by (apply has_not; tauto). rewrite B. eexists. split; [reflexivity|]. split; [reflexivity|tauto].
  - apply has_not in A. destruct (has (o_name o) as_wire); (eexists; split; [reflexivity|]; split; [tauto|reflexivity]).
Qed.
Lemma vars_only pre argp as_io as_wire c x : In x (new_vars pre argp as_io as_wire c) -> exists o, In o (c_ports c) /\ fst (fst x) = (pre ++ o_name o)%string.
Proof.
  unfold new_vars. rewrite !in_app_iff. intros [H|[H|H]]; apply in_map_iff in H; destruct H as (o & <- & H); apply filter_In in H; exists o; split; [apply H|reflexivity|apply H|reflexivity|apply H|reflexivity].
Qed.

Lemma var_none pre argp as_io as_wire c o : NoDup (map o_name (c_ports c)) -> In o (c_ports c) -> look (o_name o) argp <> None -> ~ In (o_name o) as_io -> ~ In (o_name o) as_wire ->
  ~ In (pre ++ o_name o)%string (map (fun x => fst (fst x)) (new_vars pre argp as_io as_wire c)).
Proof.
  intros ND IN L A B I. apply in_map_iff in I. destruct I as (x & E & I).
  assert (X : In x (filter (fun x => String.eqb (fst (fst x)) (pre ++ o_name o)%string) (new_vars pre argp as_io as_wire c))) by (apply filter_In; split; [exact I|apply String.eqb_eq, E]).
  rewrite (vars_ok pre argp as_io as_wire c ND o IN), !has_app, (look_has (o_name o) argp) in X. apply has_not in A, B. rewrite A, B in X. destruct (look (o_name o) argp); [destruct X|congruence].
Qed.

(** a copied constant that speaks of one that is not *)
Lemma eval_none e : forall g w, In w (collect e) -> g w = None -> eval g e = None.
Proof.
  induction e as [z|n|f l IL r IR|c IC a IA b IB]; intros g w I N; cbn [collect eval] in *.
  - destruct I.
  - destruct I as [->|[]]. exact N.
  - apply in_app_or in I. destruct I as [I|I]; [rewrite (IL g w I N); reflexivity|]. rewrite (IR g w I N). destruct (eval g l); reflexivity.
  - rewrite !in_app_iff in I. destruct I as [I|[I|I]]; [rewrite (IC g w I N); reflexivity|rewrite (IA g w I N)|rewrite (IB g w I N)]; destruct (eval g c); try reflexivity. destruct (eval g a); reflexivity.
Qed.
Lemma collect_rename pre e v : In v (collect e) -> In (pre ++ v)%string (collect (rename pre e)).
Proof.
  induction e as [z|n|f l IL r IR|c IC a IA b IB]; cbn [collect rename]; rewrite ?in_app_iff; try tauto. intros [->|[]]. left. reflexivity.
Qed.
Lemma declare_none k w ds : forall g, (forall e, In (k, e) ds -> In w (collect e)) -> ~ In w (map fst ds) -> g w = None -> g k = None \/ In k (map fst ds) -> declare g ds k = None.
Proof.
  induction ds as [|[m e] ds IH]; intros g A NW GW K; [destruct K as [K|[]]; exact K|]. cbn [map fst] in *. unfold declare. cbn [fold_left fst snd]. fold (declare (set g m (eval g e)) ds). apply IH.
  - intros f F. apply A. right. exact F.
  - intros I. apply NW. right. exact I.
  - rewrite set_other; [exact GW|]. intros ->. apply NW. left. reflexivity.
  - destruct (String.eqb k m) eqn:E.
    + apply String.eqb_eq in E. subst m. left. rewrite set_same. apply (eval_none e g w); [|exact GW]. apply A. left. reflexivity.
    + apply String.eqb_neq in E. rewrite set_other by exact E. destruct K as [K|[K|K]]; [left; exact K|congruence|right; exact K].
Qed.
Lemma nodup_fst {A} (l : list (string * A)) n x y : NoDup (map fst l) -> In (n, x) l -> In (n, y) l -> x = y.
Proof.
  induction l as [|[m z] l IH]; intros ND I J; [destruct I|]. cbn [map fst] in ND. inversion ND as [|? ? N1 N2]; subst.
  destruct I as [I|I]; destruct J as [J|J].
  - congruence.
  - injection I as -> ->. exfalso. apply N1, in_map_iff. exists (n, y). auto.
  - injection J as -> ->. exfalso. apply N1, in_map_iff. exists (n, x). auto.
  - exact (IH N2 I J).
Qed.
Lemma copied_in pre inc exc src k e : In (k, e) (copied pre inc exc src) <-> exists n f, k = (pre ++ n)%string /\ e = rename pre f /\ In (n, f) src /\ In n inc /\ ~ In n exc.
Proof.
  unfold copied. rewrite in_map_iff. split.
  - intros ([n f] & E & I). cbn [fst snd] in E. injection E as <- <-. apply filter_In in I. destruct I as (I & H). cbn [fst] in H. apply andb_true_iff in H. destruct H as (H1 & H2). apply negb_true_iff in H2. apply has_not in H2. apply has_In in H1. exists n, f. auto.
  - intros (n & f & -> & -> & I & H1 & H2). exists (n, f). split; [reflexivity|]. apply filter_In. split; [exact I|]. cbn [fst]. apply has_In in H1. apply has_not in H2. rewrite H1, H2. reflexivity.
Qed.
Lemma incomplete pre up args c ds : legal c -> legal_args pre args c -> new_consts pre args c = Some ds -> (forall m, up (pre ++ m)%string = None) ->
  forall n e v, In (n, e) (c_params c ++ c_locals c) -> In n (used c) -> ~ In n (map fst args) -> In v (collect e) -> ~ In v (used c) -> ~ In v (map fst args) ->
  declare up ds (pre ++ n)%string = None.
Proof.
  intros LC LA E UN n e v IN US NA IV NU NV. unfold new_consts in E. destruct (forallb _ _); [|discriminate E]. injection E as <-.
  destruct (ordered_nodup _ _ (l_consts c LC)) as (ND & _).
  assert (AN : forall m f, In ((pre ++ m)%string, f) (arg_consts pre args (c_params c)) -> In m (map fst args)).
  { intros m f I. apply in_flat_map in I. destruct I as (x & _ & I). destruct (look (fst x) args) as [a|] eqn:L; [|destruct I]. destruct I as [I|[]]. injection I as I _. apply pre_inj in I. subst m. apply look_some in L. apply in_map_iff. exists (fst x, a). auto. }
  apply (declare_none _ (pre ++ v)%string).
  - intros f F. rewrite !in_app_iff in F. destruct F as [F|F]; [exfalso; exact (NA (AN n f F))|].
    assert (G : exists g, f = rename pre g /\ In (n, g) (c_params c ++ c_locals c)).
    { destruct F as [F|F]; apply copied_in in F; destruct F as (m & g & EM & -> & I & _); apply pre_inj in EM; subst m; exists g; (split; [reflexivity|]); apply in_or_app; auto. }
    destruct G as (g & -> & G). rewrite (nodup_fst _ n g e ND G IN). apply collect_rename, IV.
  - intros I. apply in_map_iff in I. destruct I as ([k f] & EK & I). cbn [fst] in EK. subst k. rewrite !in_app_iff in I. destruct I as [I|[I|I]]; [exact (NV (AN v f I))| |]; apply copied_in in I; destruct I as (m & g & EM & _ & _ & I & _); apply pre_inj in EM; subst m; exact (NU I).
  - apply UN.
  - left. apply UN.
Qed.
Lemma incomplete_width pre up args c ds : legal c -> legal_args pre args c -> new_consts pre args c = Some ds -> (forall m, up (pre ++ m)%string = None) ->
  forall n e v o, In (n, e) (c_params c ++ c_locals c) -> In o (c_ports c) -> In n (collect (o_width o)) -> ~ In n (map fst args) -> In v (collect e) -> ~ In v (used c) -> ~ In v (map fst args) ->
  eval (declare up ds) (rename pre (o_width o)) = None.
Proof.
  intros LC LA E UN n e v o IN IO IW NA IV NU NV. apply (eval_none _ _ (pre ++ n)%string); [apply collect_rename, IW|].
  apply (incomplete pre up args c ds LC LA E UN n e v); auto. unfold used. apply in_flat_map. exists o. split; [exact IO|]. right. exact IW.
Qed.

Lemma raises pre args c : new_consts pre args c = None <-> exists n, In n (map fst args) /\ ~ In n (map fst (c_params c)).
Proof.
  unfold new_consts. destruct (forallb _ args) eqn:F; split; try discriminate.
  - intros (n & I & N). exfalso. rewrite forallb_forall in F. apply in_map_iff in I. destruct I as (x & <- & I). apply N, has_In, (F x I).
  - intros _. revert F. generalize (map fst (c_params c)). intros ps. induction args as [|x l IH]; [discriminate|]. cbn [forallb map]. destruct (has (fst x) ps) eqn:H; cbn [andb].
    + intros F. destruct (IH F) as (n & I & N). exists n. split; [right; exact I|exact N].
    + intros _. exists (fst x). split; [left; reflexivity|]. apply has_not, H.
  - reflexivity.
Qed.
