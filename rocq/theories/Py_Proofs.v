(** Facts about the Python interpreter: more fuel does not change a result; call-free expressions
    terminate; unassigned names keep their value; range() counts up. *)
From Verif Require Import Base Py_Spec.
Open Scope Z_scope.

Definition le_res {A} (a b : res A) : Prop := a <> Time -> b = a.
Lemma le_refl {A} (a : res A) : le_res a a.
Proof. intros _. reflexivity. Qed.
Lemma le_time {A} (b : res A) : le_res Time b.
Proof. intros H. congruence. Qed.
Lemma le_bind {A B} (m m' : res A) (f f' : A -> res B) :
  le_res m m' -> (forall a, le_res (f a) (f' a)) -> le_res (rbind m f) (rbind m' f').
Proof.
  intros H1 H2 H. destruct m; cbn in *.
  - rewrite H1 by discriminate. apply H2. exact H.
  - rewrite H1 by discriminate. reflexivity.
  - congruence.
Qed.
Lemma le_guard {A} b (m m' : res A) : le_res m m' -> le_res (guard b m) (guard b m').
Proof. destruct b; cbn; [auto|]. intros _. apply le_refl. Qed.

Section M.
  Variable w : mode.
  Variable fns : name -> option func.
  Notation ev := (ev w fns). Notation tv := (tv w fns). Notation evs := (evs w fns). Notation call := (call w fns).
  Notation ex := (ex w fns). Notation exb := (exb w fns). Notation forl := (forl w fns).

  Lemma ev_S n (r : penv) (e : pexpr) : ev (S n) r e =
        match e with
        | XInt z => guard (room w (XInt z) z) (Val z)
        | XName x => match r x with Some v => guard (room w (XName x) v) (Val v) | None => Stuck end
        | XUn PNot e => b <- tv n r e ;; Val (b2z (negb b))
        | XUn u e => x <- ev n r e ;; guard (room w (XUn u e) (py_un u x)) (Val (py_un u x))
        | XBin o a b =>
            x <- ev n r a ;; y <- ev n r b ;;
            guard (bin_ok o x y && room w (XBin o a b) (py_bin o x y)) (Val (py_bin o x y))
        | XCmp o a b => x <- ev n r a ;; y <- ev n r b ;; Val (b2z (py_cmp o x y))
        | XAnd a b => x <- ev n r a ;; if x =? 0 then Val x else y <- ev n r b ;; guard (is01 y) (Val y)
        | XOr a b => x <- ev n r a ;; if x =? 0 then y <- ev n r b ;; guard (is01 y) (Val y) else guard (is01 x) (Val x)
        | XIf t a b => c <- tv n r t ;; if c : bool then ev n r a else ev n r b
        | XCall f args => vs <- evs n r args ;; v <- call n f vs ;; match v with Some v => Val v | None => Stuck end
        end.
  Proof. reflexivity. Qed.
  Lemma tv_S n (r : penv) (e : pexpr) : tv (S n) r e =
        match e with
        | XUn PNot e => b <- tv n r e ;; Val (negb b)
        | XAnd a b => x <- tv n r a ;; if x : bool then tv n r b else Val false
        | XOr a b => x <- tv n r a ;; if x : bool then Val true else tv n r b
        | XIf t a b => c <- tv n r t ;; if c : bool then tv n r a else tv n r b
        | _ => x <- ev n r e ;; Val (negb (x =? 0))
        end.
  Proof. reflexivity. Qed.
  Lemma evs_S n (r : penv) (es : pexprs) : evs (S n) r es =
        match es with
        | XNil => Val []
        | XCons e es => v <- ev n r e ;; vs <- evs n r es ;; Val (v :: vs)
        end.
  Proof. reflexivity. Qed.
  Lemma call_S n (f : name) (vs : list Z) : call (S n) f vs =
        match fns f with
        | None => Stuck
        | Some (params, body) =>
            guard (Nat.eqb (length params) (length vs) && forallb (fits w) vs)
              (o <- exb n (psets pempty params vs) body ;;
               match o with
               | ONorm _ => Val None
               | ORet _ v => Val v
               | OBrk _ | OCont _ => Stuck
               end)
        end.
  Proof. reflexivity. Qed.
  Lemma ex_S n (r : penv) (s : pstmt) : ex (S n) r s =
        match s with
        | PAssign xs e =>
            v <- ev n r e ;; guard (fits w v) (Val (ONorm (fold_left (fun r x => pset r x (Some v)) xs r)))
        | PTuple xs es =>
            vs <- evs n r es ;;
            guard (Nat.eqb (length xs) (length vs) && forallb (fits w) vs) (Val (ONorm (psets r xs vs)))
        | PAug x o e =>
            match r x with
            | None => Stuck
            | Some v => y <- ev n r e ;;
                guard (bin_ok o v y && fits w (py_bin o v y) && room w (XName x) v)
                  (Val (ONorm (pset r x (Some (py_bin o v y)))))
            end
        | PIf t a b => c <- tv n r t ;; if c : bool then exb n r a else exb n r b
        | PWhile t b =>
            c <- tv n r t ;;
            if c : bool then
              o <- exb n r b ;;
              match o with
              | ONorm r' | OCont r' => ex n r' (PWhile t b)
              | OBrk r' => Val (ONorm r')
              | ORet _ _ => Val o
              end
            else Val (ONorm r)
        | PFor x beg en st b =>
            vb <- match beg with None => Val 0 | Some e => ev n r e end ;;
            ve <- ev n r en ;;
            vs <- match st with None => Val 1 | Some e => ev n r e end ;;
            guard ((0 <? vs) && fits w vb && fits w (vb + Z.of_nat (range_count vb ve vs) * vs))
              (forl n r x (py_range vb ve vs) b)
        | PExpr f args => vs <- evs n r args ;; v <- call n f vs ;; Val (ONorm r)
        | PPass => Val (ONorm r)
        | PBreak => Val (OBrk r)
        | PContinue => Val (OCont r)
        | PReturn None => Val (ORet r None)
        | PReturn (Some e) => v <- ev n r e ;; guard (fits w v) (Val (ORet r (Some v)))
        end.
  Proof. reflexivity. Qed.
  Lemma exb_S n (r : penv) (b : pblock) : exb (S n) r b =
        match b with
        | PNil => Val (ONorm r)
        | PCons s b => o <- ex n r s ;; match o with ONorm r' => exb n r' b | _ => Val o end
        end.
  Proof. reflexivity. Qed.
  Lemma forl_S n (r : penv) (x : name) (l : list Z) (b : pblock) : forl (S n) r x l b =
        match l with
        | [] => Val (ONorm (pset r x None))
        | v :: l =>
            o <- exb n (pset r x (Some v)) b ;;
            match o with
            | ONorm r' | OCont r' => forl n r' x l b
            | OBrk r' => Val (ONorm r')
            | ORet _ _ => Val o
            end
        end.
  Proof. reflexivity. Qed.

  Ltac step :=
    match goal with
    | |- le_res ?a ?a => apply le_refl
    | |- le_res (rbind _ _) (rbind _ _) => apply le_bind; [|intros]
    | |- le_res (guard _ _) (guard _ _) => apply le_guard
    | |- le_res (match ?x with _ => _ end) _ => destruct x
    end.

  Lemma mono1 n :
    (forall r e, le_res (ev n r e) (ev (S n) r e)) /\ (forall r e, le_res (tv n r e) (tv (S n) r e)) /\
    (forall r es, le_res (evs n r es) (evs (S n) r es)) /\ (forall f vs, le_res (call n f vs) (call (S n) f vs)) /\
    (forall r s, le_res (ex n r s) (ex (S n) r s)) /\ (forall r b, le_res (exb n r b) (exb (S n) r b)) /\
    (forall r x l b, le_res (forl n r x l b) (forl (S n) r x l b)).
  Proof.
    induction n as [|n IH].
    { repeat split; intros; apply le_time. }
    destruct IH as (I1 & I2 & I3 & I4 & I5 & I6 & I7).
    repeat split.
    - intros r e. set (m := S n) in *. cbn [Py_Spec.ev]. unfold m at 1. cbn [Py_Spec.ev].
      destruct e; try (repeat step; auto; fail).
    - intros r e. set (m := S n) in *. cbn [Py_Spec.tv]. unfold m at 1. cbn [Py_Spec.tv].
      destruct e; try (repeat step; auto; fail).
    - intros r es. set (m := S n) in *. cbn [Py_Spec.evs]. unfold m at 1. cbn [Py_Spec.evs].
      destruct es; repeat step; auto.
    - intros f vs. set (m := S n) in *. cbn [Py_Spec.call]. unfold m at 1. cbn [Py_Spec.call].
      destruct (fns f) as [[ps b]|]; repeat step; auto.
    - intros r s. set (m := S n) in *. cbn [Py_Spec.ex]. unfold m at 1. cbn [Py_Spec.ex].
      destruct s; try (repeat step; auto; fail).
    - intros r b. set (m := S n) in *. cbn [Py_Spec.exb]. unfold m at 1. cbn [Py_Spec.exb].
      destruct b; repeat step; auto.
    - intros r x l b. set (m := S n) in *. cbn [Py_Spec.forl]. unfold m at 1. cbn [Py_Spec.forl].
      destruct l; repeat step; auto.
  Qed.

  Lemma mono_from {A} (f : nat -> res A) : (forall n, le_res (f n) (f (S n))) ->
    forall n m, (n <= m)%nat -> f n <> Time -> f m = f n.
  Proof.
    intros H n m Hle Hn. induction Hle as [|m Hle IH]; [reflexivity|]. rewrite (H m); congruence.
  Qed.
  Lemma ev_mono n m r e : (n <= m)%nat -> ev n r e <> Time -> ev m r e = ev n r e.
  Proof. apply (mono_from (fun n => ev n r e)). intros k. apply (mono1 k). Qed.
  Lemma tv_mono n m r e : (n <= m)%nat -> tv n r e <> Time -> tv m r e = tv n r e.
  Proof. apply (mono_from (fun n => tv n r e)). intros k. apply (mono1 k). Qed.
  Lemma evs_mono n m r e : (n <= m)%nat -> evs n r e <> Time -> evs m r e = evs n r e.
  Proof. apply (mono_from (fun n => evs n r e)). intros k. apply (mono1 k). Qed.
  Lemma call_mono n m f vs : (n <= m)%nat -> call n f vs <> Time -> call m f vs = call n f vs.
  Proof. apply (mono_from (fun n => call n f vs)). intros k. apply (mono1 k). Qed.
  Lemma ex_mono n m r s : (n <= m)%nat -> ex n r s <> Time -> ex m r s = ex n r s.
  Proof. apply (mono_from (fun n => ex n r s)). intros k. apply (mono1 k). Qed.
  Lemma exb_mono n m r b : (n <= m)%nat -> exb n r b <> Time -> exb m r b = exb n r b.
  Proof. apply (mono_from (fun n => exb n r b)). intros k. apply (mono1 k). Qed.
  Lemma forl_mono n m r x l b : (n <= m)%nat -> forl n r x l b <> Time -> forl m r x l b = forl n r x l b.
  Proof. apply (mono_from (fun n => forl n r x l b)). intros k. apply (mono1 k). Qed.

  (** "terminates" (with a value or stuck) *)
  Definition term {A} (f : nat -> res A) : Prop := exists n, f n <> Time.
  Lemma term_bind {A B} (f : nat -> res A) (g : nat -> A -> res B) :
    (forall n, le_res (f n) (f (S n))) -> (forall n a, le_res (g n a) (g (S n) a)) ->
    term f -> (forall n a, f n = Val a -> term (fun m => g m a)) -> term (fun n => rbind (f n) (g n)).
  Proof using.
    clear. intros Hf Hg [n Hn] H. destruct (f n) as [a| |] eqn:E; [|exists n; rewrite E; discriminate|congruence].
    destruct (H n a E) as [m Hm]. exists (n + m)%nat.
    rewrite (mono_from f Hf n (n + m)) by (try lia; congruence). rewrite E. cbn.
    rewrite (mono_from (fun k => g k a) (fun k => Hg k a) m (n + m)); [exact Hm|lia|exact Hm].
  Qed.

  Lemma callfree_term e : callfree e = true -> forall r, (term (fun n => ev n r e)) /\ (term (fun n => tv n r e)).
  Proof.
    induction e; cbn [callfree]; intros Hc r; rewrite ?andb_true_iff in Hc.
    - split; [exists 1%nat|exists 2%nat]; cbn [Py_Spec.ev Py_Spec.tv]; unfold guard; destruct (room _ _ _); discriminate.
    - split; [exists 1%nat|exists 2%nat]; cbn [Py_Spec.ev Py_Spec.tv]; destruct (r x); try discriminate; unfold guard; destruct (room _ _ _); discriminate.
    - destruct (IHe Hc r) as [[n Hn] [m Hm]]. split.
      + exists (S (n + m)). destruct u; cbn [Py_Spec.ev].
        1-3: rewrite (ev_mono n) by (try lia; assumption); destruct (ev n r e); try discriminate; try congruence;
          cbn [rbind]; unfold guard; destruct (room _ _ _); discriminate.
        rewrite (tv_mono m) by (try lia; assumption); destruct (tv m r e); try discriminate; congruence.
      + destruct u.
        1-3: exists (S (S (n + m))); cbn [Py_Spec.tv]; cbn [Py_Spec.ev];
          rewrite (ev_mono n) by (try lia; assumption); destruct (ev n r e); try discriminate; try congruence;
          cbn [rbind]; unfold guard; destruct (room _ _ _); discriminate.
        exists (S (n + m)). cbn [Py_Spec.tv]. rewrite (tv_mono m) by (try lia; assumption); destruct (tv m r e); try discriminate; congruence.
    - destruct Hc as [H1 H2]. destruct (IHe1 H1 r) as [[n Hn] _], (IHe2 H2 r) as [[m Hm] _].
      assert (G : ev (S (n + m)) r (XBin o e1 e2) <> Time).
      { cbn [Py_Spec.ev]. rewrite (ev_mono n _ r e1), (ev_mono m _ r e2) by (try lia; assumption).
        destruct (ev n r e1), (ev m r e2); cbn; try discriminate; try congruence. unfold guard. destruct (_ && _); discriminate. }
      split; [exists (S (n + m)); exact G|]. exists (S (S (n + m))).
      change (tv (S (S (n + m))) r (XBin o e1 e2)) with (x <- ev (S (n + m)) r (XBin o e1 e2) ;; Val (negb (x =? 0))).
      destruct (ev (S (n+m)) r (XBin o e1 e2)); try discriminate; congruence.
    - destruct Hc as [H1 H2]. destruct (IHe1 H1 r) as [[n Hn] _], (IHe2 H2 r) as [[m Hm] _].
      assert (G : ev (S (n + m)) r (XCmp o e1 e2) <> Time).
      { cbn [Py_Spec.ev]. rewrite (ev_mono n _ r e1), (ev_mono m _ r e2) by (try lia; assumption).
        destruct (ev n r e1), (ev m r e2); cbn; try discriminate; try congruence. }
      split; [exists (S (n + m)); exact G|]. exists (S (S (n + m))).
      change (tv (S (S (n + m))) r (XCmp o e1 e2)) with (x <- ev (S (n + m)) r (XCmp o e1 e2) ;; Val (negb (x =? 0))).
      destruct (ev (S (n+m)) r (XCmp o e1 e2)); try discriminate; congruence.
    - destruct Hc as [H1 H2]. destruct (IHe1 H1 r) as [[n Hn] [n' Hn']], (IHe2 H2 r) as [[m Hm] [m' Hm']]. split.
      + exists (S (n + m)). cbn [Py_Spec.ev]. rewrite (ev_mono n _ r e1), (ev_mono m _ r e2) by (try lia; assumption).
        destruct (ev n r e1) as [z| |]; cbn; try discriminate; try congruence. destruct (z =? 0); [discriminate|].
        destruct (ev m r e2) as [y| |]; cbn; try discriminate; try congruence. unfold guard. destruct (is01 y); discriminate.
      + exists (S (n' + m')). cbn [Py_Spec.tv]. rewrite (tv_mono n' _ r e1), (tv_mono m' _ r e2) by (try lia; assumption).
        destruct (tv n' r e1) as [z| |]; cbn; try discriminate; try congruence. destruct z; [congruence|discriminate].
    - destruct Hc as [H1 H2]. destruct (IHe1 H1 r) as [[n Hn] [n' Hn']], (IHe2 H2 r) as [[m Hm] [m' Hm']]. split.
      + exists (S (n + m)). cbn [Py_Spec.ev]. rewrite (ev_mono n _ r e1), (ev_mono m _ r e2) by (try lia; assumption).
        destruct (ev n r e1) as [z| |]; cbn; try discriminate; try congruence. unfold guard.
        destruct (z =? 0); [|destruct (is01 z); discriminate].
        destruct (ev m r e2) as [y| |]; cbn; try discriminate; try congruence. destruct (is01 y); discriminate.
      + exists (S (n' + m')). cbn [Py_Spec.tv]. rewrite (tv_mono n' _ r e1), (tv_mono m' _ r e2) by (try lia; assumption).
        destruct (tv n' r e1) as [z| |]; cbn; try discriminate; try congruence. destruct z; [discriminate|congruence].
    - destruct Hc as [[H0 H1] H2]. destruct (IHe1 H0 r) as [_ [t Ht]], (IHe2 H1 r) as [[n Hn] [n' Hn']], (IHe3 H2 r) as [[m Hm] [m' Hm']]. split.
      + exists (S (t + n + m)). cbn [Py_Spec.ev]. rewrite (tv_mono t _ r e1), (ev_mono n _ r e2), (ev_mono m _ r e3) by (try lia; assumption).
        destruct (tv t r e1) as [z| |]; cbn; try discriminate; try congruence. destruct z; assumption.
      + exists (S (t + n' + m')). cbn [Py_Spec.tv]. rewrite (tv_mono t _ r e1), (tv_mono n' _ r e2), (tv_mono m' _ r e3) by (try lia; assumption).
        destruct (tv t r e1) as [z| |]; cbn; try discriminate; try congruence. destruct z; assumption.
    - discriminate.
  Qed.

  (** ** unassigned names *)
  Definition oenv (o : outcome) : penv := match o with ONorm r | OBrk r | OCont r | ORet r _ => r end.

  Lemma pset_other r x v y : y <> x -> pset r x v y = r y.
  Proof. intros H. unfold pset. destruct (Nat.eqb_spec y x); congruence. Qed.
  Lemma pset_same r x v : pset r x v x = v.
  Proof. unfold pset. rewrite Nat.eqb_refl. reflexivity. Qed.
  Lemma fold_pset_other v y xs : forall r, ~ In y xs -> fold_left (fun r x => pset r x (Some v)) xs r y = r y.
  Proof.
    induction xs as [|x xs IH]; intros r H; [reflexivity|]. cbn [fold_left]. cbn in H. rewrite IH by tauto. apply pset_other. intuition.
  Qed.
  Lemma psets_other y xs : forall vs r, ~ In y xs -> psets r xs vs y = r y.
  Proof.
    unfold psets. induction xs as [|x xs IH]; intros vs r H; [reflexivity|]. destruct vs; [reflexivity|].
    cbn [combine fold_left fst snd]. cbn in H. rewrite IH by tauto. apply pset_other. intuition.
  Qed.

  Lemma modset n :
    (forall r s o y, ex n r s = Val o -> ~ In y (assigned s) -> oenv o y = r y) /\
    (forall r b o y, exb n r b = Val o -> ~ In y (assigneds b) -> oenv o y = r y) /\
    (forall r x l b o y, forl n r x l b = Val o -> y <> x -> ~ In y (assigneds b) -> oenv o y = r y).
  Proof.
    induction n as [|n (I1 & I2 & I3)]; [repeat split; intros; discriminate|]. repeat split.
    - intros r s o y E Hy. destruct s; rewrite ex_S in E; cbn [assigned] in Hy.
      + destruct (ev n r e); try discriminate. cbn in E. unfold guard in E. destruct (fits w a); inversion E; subst.
        cbn. apply fold_pset_other. exact Hy.
      + destruct (evs n r es); try discriminate. cbn in E. unfold guard in E. destruct (_ && _); inversion E; subst. cbn.
        apply psets_other. exact Hy.
      + destruct (r x) eqn:Ex; try discriminate. destruct (ev n r e); try discriminate. cbn in E. unfold guard in E.
        destruct (_ && _); inversion E; subst. cbn. apply pset_other. cbn in Hy. intuition.
      + rewrite in_app_iff in Hy. destruct (tv n r t) as [c| |]; try discriminate. cbn in E. destruct c; eapply I2; eauto.
      + destruct (tv n r t) as [c| |]; try discriminate. cbn [rbind] in E. destruct c; [|inversion E; reflexivity].
        destruct (exb n r b) as [o1| |] eqn:E1; try discriminate. cbn [rbind] in E.
        pose proof (I2 _ _ _ y E1 Hy) as H1. destruct o1; cbn in H1; try (inversion E; subst; exact H1).
        * rewrite <- H1. eapply I1; eauto.
        * rewrite <- H1. eapply I1; eauto.
      + destruct (match beg with Some e => ev n r e | None => Val 0 end); try discriminate. cbn [rbind] in E.
        destruct (ev n r en); try discriminate. cbn [rbind] in E.
        destruct (match st with Some e => ev n r e | None => Val 1 end); try discriminate. cbn [rbind] in E.
        unfold guard in E. destruct (_ && _); try discriminate. cbn in Hy. eapply I3; eauto.
      + destruct (evs n r args); try discriminate. cbn [rbind] in E. destruct (call n f a); inversion E; reflexivity.
      + inversion E; reflexivity.
      + inversion E; reflexivity.
      + inversion E; reflexivity.
      + destruct e as [e|]; [|inversion E; reflexivity]. destruct (ev n r e); try discriminate. cbn in E. unfold guard in E.
        destruct (fits w a); inversion E; reflexivity.
    - intros r b o y E Hy. destruct b; rewrite exb_S in E; cbn [assigneds] in Hy; [inversion E; reflexivity|].
      rewrite in_app_iff in Hy. destruct (ex n r s) as [o1| |] eqn:E1; try discriminate. cbn [rbind] in E.
      assert (H1 : oenv o1 y = r y) by (eapply I1; eauto).
      destruct o1; try (inversion E; subst; exact H1). cbn in H1. rewrite <- H1. eapply I2; eauto.
    - intros r x l b o y E Hyx Hy. destruct l as [|v l]; rewrite forl_S in E.
      { inversion E. cbn. apply pset_other. exact Hyx. }
      destruct (exb n (pset r x (Some v)) b) as [o1| |] eqn:E1; try discriminate. cbn [rbind] in E.
      assert (H1 : oenv o1 y = r y).
      { rewrite (I2 _ _ _ y E1 Hy). apply pset_other. exact Hyx. }
      destruct o1; cbn in H1; try (inversion E; subst; exact H1); rewrite <- H1; eapply I3; eauto.
  Qed.
End M.

(** ** range *)
Lemma range_nil a b s : 0 < s -> b <= a -> py_range a b s = [].
Proof.
  intros Hs H. unfold py_range, range_count.
  replace (Z.to_nat ((b - a + s - 1) / s)) with 0%nat; [reflexivity|].
  assert ((b - a + s - 1) / s < 1) by (apply Z.div_lt_upper_bound; lia). lia.
Qed.
Lemma range_count_S a b s : 0 < s -> a < b -> range_count a b s = S (range_count (a + s) b s).
Proof.
  intros Hs H. unfold range_count. replace (b - a + s - 1) with ((b - (a + s) + s - 1) + 1 * s) by lia.
  rewrite Z.div_add by lia. assert (0 <= (b - (a + s) + s - 1) / s) by (apply Z.div_pos; lia). lia.
Qed.
Lemma range_cons a b s : 0 < s -> a < b -> py_range a b s = a :: py_range (a + s) b s.
Proof.
  intros Hs H. unfold py_range. rewrite (range_count_S a b s Hs H). cbn [seq map]. f_equal; [lia|].
  rewrite <- seq_shift, map_map. apply map_ext. intros k. lia.
Qed.
