(** Proofs for C51: the argument registers and the start registers of the pools. *)
From Verif Require Import Base Thr_Model Thr_Spec Thr_Proofs.
Open Scope nat_scope.

(** ** Which assignments there are *)
Definition AInv (b : build) : Prop :=
  (forall t s c u j f x, In (s, (c, ABind u j f x)) (acts (th b t)) <->
     u = t /\ start (th b t) = Some s /\
     exists s' g a, In (SRun f s' t g a) (sites b) /\ c = CAnd g (CAt f s') /\ nth_error a j = Some x) /\
  (forall t s c p f x v, In (s, (c, ASet p f x v)) (acts (th b t)) <->
     f = t /\ c = CTrue /\ ((v = true /\ In (SPoolRun t s p x) (sites b)) \/ (v = false /\ In (SPoolEnd t s p x) (sites b)))) /\
  (forall f s t g a, In (SRun f s t g a) (sites b) -> start (th b t) <> None).

Definition tracked (x : site) : bool :=
  match x with SRun _ _ _ _ _ | SPoolRun _ _ _ _ | SPoolEnd _ _ _ _ => true | _ => false end.
Definition asame (b b' : build) : Prop :=
  (forall u, acts (th b' u) = acts (th b u)) /\
  (forall u s, start (th b u) = Some s -> start (th b' u) = Some s) /\
  (forall x, tracked x = true -> In x (sites b') <-> In x (sites b)).

Lemma asame_refl : forall b, asame b b.
Proof. intros b. repeat split; auto. Qed.
Lemma asame_trans : forall a b c, asame a b -> asame b c -> asame a c.
Proof.
  intros a b c (A1 & A2 & A3) (B1 & B2 & B3). split; [|split].
  - intros u. rewrite B1. apply A1.
  - auto.
  - intros x Hx. rewrite (B3 x Hx). apply A3. exact Hx.
Qed.
Lemma ainv_same : forall b b', asame b b' -> AInv b -> AInv b'.
Proof.
  intros b b' (S1 & S2 & S3) (A1 & A2 & A3).
  assert (St : forall f s t g a, In (SRun f s t g a) (sites b) -> forall k, start (th b' t) = Some k -> start (th b t) = Some k).
  { intros f s t g a Hi k Hk. pose proof (A3 f s t g a Hi) as Q. destruct (start (th b t)) as [k'|] eqn:E; [|congruence].
    rewrite (S2 _ _ E) in Hk. exact Hk. }
  split; [|split].
  - intros t s c u j f x. rewrite S1, A1. split.
    + intros (B1 & B2 & s' & g & a & B3 & B4). split; [exact B1|]. split; [apply S2; exact B2|]. exists s', g, a. split; [apply S3; auto|exact B4].
    + intros (B1 & B2 & s' & g & a & B3 & B4). apply S3 in B3; [|reflexivity]. split; [exact B1|]. split; [eapply St; eassumption|].
      exists s', g, a. auto.
  - intros t s c p f x v. rewrite S1, A2. rewrite (S3 (SPoolRun t s p x) eq_refl), (S3 (SPoolEnd t s p x) eq_refl). reflexivity.
  - intros f s t g a Hi. apply S3 in Hi; [|reflexivity]. pose proof (A3 _ _ _ _ _ Hi) as Q.
    destruct (start (th b t)) as [k|] eqn:E; [|congruence]. rewrite (S2 _ _ E). discriminate.
Qed.
Lemma asame_upd : forall b t x, acts x = acts (th b t) -> (start x = start (th b t) \/ start (th b t) = None) -> asame b (upd b t x).
Proof.
  intros b t x A B. split; [|split].
  - intros u. cbn. destruct (Nat.eqb_spec u t) as [->|]; auto.
  - intros u s. cbn. destruct (Nat.eqb_spec u t) as [->|]; auto. intros E. destruct B; congruence.
  - intros y _. reflexivity.
Qed.
Lemma asame_note : forall b x, tracked x = false -> asame b (note b x).
Proof.
  intros b x H. split; [reflexivity|]. split; [auto|]. intros y Hy. cbn. rewrite in_app_iff. split; [|auto].
  intros [K|[<-|[]]]; [exact K|congruence].
Qed.
Lemma asame_next : forall b f c, asame b (goto_next b f c).
Proof. intros. apply asame_upd; auto. Qed.
Lemma asame_inc : forall b f, asame b (inc b f).
Proof. intros. apply asame_upd; auto. Qed.
Lemma asame_idx : forall b f n, asame b (set_index b f n).
Proof. intros. apply asame_upd; auto. Qed.
Lemma asame_goto : forall b f s d c e, asame b (goto_from b f s d c e).
Proof. intros. apply asame_upd; auto. Qed.
Lemma asame_close : forall b t, asame b (close b t).
Proof. intros b t. unfold close. destruct (fin (th b t)); [apply asame_refl|]. apply asame_upd; auto. Qed.
Lemma asame_prepare : forall b t b', prepare b t = Some b' -> asame b b'.
Proof.
  intros b t b' E. unfold prepare in E. destruct (start (th b t)) as [s|] eqn:Es.
  - destruct (fin (th b t)); [|discriminate]. destruct (child (th b t)); [|discriminate]. injection E as <-. apply asame_upd; auto.
  - injection E as <-. apply asame_upd; auto.
Qed.
Lemma asame_done : forall b f s c, asame b (note_done b f s c).
Proof.
  intros b f s c. destruct c as [k|t|c]; try apply asame_refl. cbn. destruct (fin (th b t)); [apply asame_note; reflexivity|apply asame_refl].
Qed.
Lemma asame_reset1 : forall b f t g b', reset1 b f t g = Some b' -> asame b b'.
Proof.
  intros b f t g b' E. unfold reset1 in E. destruct (start (th b t)) as [s|]; [|discriminate]. destruct (fin (th b t)) as [e|]; [|discriminate].
  injection E as <-. eapply asame_trans; [|apply asame_note; reflexivity]. eapply asame_trans; [apply asame_goto|apply asame_idx].
Qed.

Lemma bind_acts : forall args x c t j0 f s c' a, In (s, (c', a)) (acts (bind x c t j0 f args)) <->
  In (s, (c', a)) (acts x) \/ (s = cur x /\ c' = c /\ exists k y, nth_error args k = Some y /\ a = ABind t (j0 + k) f y).
Proof.
  induction args as [|y l IH]; intros x c t j0 f s c' a; cbn [bind].
  - split; [auto|]. intros [K|(_ & _ & k & y & K & _)]; [exact K|]. destruct k; discriminate.
  - rewrite IH. cbn [add_act acts cur]. rewrite in_app_iff. split.
    + intros [[K|[K|[]]]|(K1 & K2 & k & z & K3 & K4)]; [left; exact K| |].
      * injection K as <- <- <-. right. split; [reflexivity|]. split; [reflexivity|]. exists 0, y. split; [reflexivity|]. f_equal. lia.
      * right. split; [exact K1|]. split; [exact K2|]. exists (S k), z. split; [exact K3|]. rewrite K4. f_equal. lia.
    + intros [K|(K1 & K2 & k & z & K3 & K4)]; [auto|]. destruct k as [|k].
      * injection K3 as <-. left. right. left. rewrite K1, K2, K4. repeat f_equal. lia.
      * right. split; [exact K1|]. split; [exact K2|]. exists k, z. split; [exact K3|]. rewrite K4. f_equal. lia.
Qed.
Lemma bind_start : forall args x c t j f, start (bind x c t j f args) = start x.
Proof. intros. apply bind_same. Qed.

Section Acts.
  Variable progs : nat -> prog.
  Variable pool : nat -> list nat.
  Variable tid : nat -> nat.
  Section Func.
    Variable func : build -> nat -> option build.
    Hypothesis func_ok : forall b t b', AInv b -> func b t = Some b' -> AInv b'.

    Lemma ainv_run : forall b f t args g b', AInv b -> synth_run func b f t args g = Some b' -> AInv b'.
    Proof.
      intros b f t args g b' (A1 & A2 & A3) E. unfold synth_run in E. destruct (start (th b t)) as [s0|] eqn:Es; [|discriminate].
      destruct (Nat.eqb_spec (cur (th b t)) s0) as [Ec|_]; [|discriminate].
      set (s := cur (th b f)) in *. set (flag := CAnd g (CAt f s)) in *.
      set (b4 := note _ _) in E.
      assert (Ac : forall u, acts (th b4 u) = if Nat.eqb u t then acts (bind (th b t) flag t 0 f args) else acts (th b u)).
      { intros u. unfold b4, goto_next, set_index, goto_from. cbn. rewrite Nat.eqb_refl.
        destruct (Nat.eqb_spec u f) as [->|Hu].
        - cbn. destruct (Nat.eqb f t); reflexivity.
        - destruct (Nat.eqb u t); reflexivity. }
      assert (St : forall u, start (th b4 u) = start (th b u)).
      { intros u. unfold b4, goto_next, set_index, goto_from. cbn. rewrite Nat.eqb_refl.
        destruct (Nat.eqb_spec u f) as [->|Hu]; cbn.
        - destruct (Nat.eqb_spec f t) as [->|]; cbn; [apply bind_start|reflexivity].
        - destruct (Nat.eqb_spec u t) as [->|]; cbn; [apply bind_start|reflexivity]. }
      assert (Sb : sites b4 = sites b ++ [SRun f s t g args]) by reflexivity.
      assert (G : AInv b4).
      { clearbody b4. split; [|split].
        - intros u k c v j f' x. rewrite Ac, St, Sb. destruct (Nat.eqb_spec u t) as [->|Hu].
          + rewrite bind_acts, A1. split.
            * intros [(B1 & B2 & s' & g' & a & B3 & B4)|(B1 & B2 & i & y & B3 & B4)].
              -- split; [exact B1|]. split; [exact B2|]. exists s', g', a. split; [apply in_or_app; left; exact B3|exact B4].
              -- injection B4 as -> -> -> ->. split; [reflexivity|]. split; [congruence|]. exists s, g, args. split; [apply in_or_app; right; left; reflexivity|].
                 split; [exact B2|exact B3].
            * intros (B1 & B2 & s' & g' & a & B3 & B4 & B5). apply in_app_or in B3 as [B3|[B3|[]]].
              -- left. split; [exact B1|]. split; [exact B2|]. exists s', g', a. auto.
              -- injection B3 as <- <- <- <-. right. split; [congruence|]. split; [exact B4|]. exists j, x. split; [exact B5|]. rewrite B1. reflexivity.
          + rewrite A1. split; (intros (B1 & B2 & s' & g' & a & B3 & B4); split; [exact B1|]; split; [exact B2|]; exists s', g', a; split; [|exact B4]).
            * apply in_or_app. left. exact B3.
            * apply in_app_or in B3 as [B3|[B3|[]]]; [exact B3|congruence].
        - intros u k c p f' x v. rewrite Ac, Sb.
          assert (K : forall y, tracked y = true -> is_run y = false -> In y (sites b ++ [SRun f s t g args]) <-> In y (sites b)).
          { intros y _ Hy. rewrite in_app_iff. split; [|auto]. intros [K|[<-|[]]]; [exact K|discriminate]. }
          rewrite (K (SPoolRun u k p x)), (K (SPoolEnd u k p x)) by reflexivity. rewrite <- A2. destruct (Nat.eqb_spec u t) as [->|]; [|reflexivity].
          rewrite bind_acts. split; [|auto]. intros [B|(_ & _ & i & y & _ & B)]; [exact B|discriminate].
        - intros f' s' t' g' a' Hi. rewrite Sb in Hi. rewrite St. apply in_app_or in Hi as [Hi|[Hi|[]]]; [exact (A3 _ _ _ _ _ Hi)|].
          injection Hi as <- <- <- <- <-. congruence. }
      destruct (fin (th b4 t)); [injection E as <-; exact G|]. exact (func_ok b4 t b' G E).
    Qed.
    Lemma ainv_prepare_all : forall ts b b', AInv b -> prepare_all b ts = Some b' -> AInv b'.
    Proof.
      induction ts as [|t l IH]; intros b b' A E; cbn [prepare_all] in E; [injection E as <-; exact A|].
      destruct (prepare b t) as [b1|] eqn:E1; [|discriminate]. eapply IH; [|exact E]. eapply ainv_same; [eapply asame_prepare; exact E1|exact A].
    Qed.
    Lemma ainv_run_all : forall ts b f p fs args b', AInv b -> run_all tid func b f p fs args ts = Some b' -> AInv b'.
    Proof.
      induction ts as [|t l IH]; intros b f p fs args b' A E; cbn [run_all] in E; [injection E as <-; exact A|].
      destruct (synth_run func (set_index b f fs) f t args (CBit p (tid t))) as [b1|] eqn:E1; [|discriminate].
      eapply IH; [|exact E]. eapply ainv_same; [apply asame_close|]. eapply ainv_run; [|exact E1]. eapply ainv_same; [apply asame_idx|exact A].
    Qed.
    Lemma ainv_reset_all : forall ts b f x b', AInv b -> reset_all tid b f x ts = Some b' -> AInv b'.
    Proof.
      induction ts as [|t l IH]; intros b f x b' A E; cbn [reset_all] in E; [injection E as <-; exact A|].
      destruct (reset1 b f t _) as [b1|] eqn:E1; [|discriminate]. eapply IH; [|exact E]. eapply ainv_same; [eapply asame_reset1; exact E1|exact A].
    Qed.
    Lemma ainv_pool : forall b f p x s e, AInv b ->
      AInv (note (note (upd b f (add_act (add_act (th b f) s CTrue (ASet p f x true)) e CTrue (ASet p f x false))) (SPoolEnd f e p x)) (SPoolRun f s p x)).
    Proof.
      intros b f p x s e (A1 & A2 & A3). set (b' := note _ _).
      assert (Ac : forall u, acts (th b' u) = acts (th b u) ++ if Nat.eqb u f then [(s, (CTrue, ASet p f x true)); (e, (CTrue, ASet p f x false))] else []).
      { intros u. unfold b'. cbn. destruct (Nat.eqb_spec u f) as [->|]; [cbn; rewrite <- app_assoc; reflexivity|rewrite app_nil_r; reflexivity]. }
      assert (St : forall u, start (th b' u) = start (th b u)).
      { intros u. unfold b'. cbn. destruct (Nat.eqb_spec u f) as [->|]; reflexivity. }
      assert (Sb : sites b' = (sites b ++ [SPoolEnd f e p x]) ++ [SPoolRun f s p x]) by reflexivity.
      clearbody b'.
      assert (K : forall y, In y (sites b') <-> In y (sites b) \/ y = SPoolEnd f e p x \/ y = SPoolRun f s p x).
      { intros y. rewrite Sb, !in_app_iff. cbn. intuition auto. }
      split; [|split].
      - intros t k c u j f' y. rewrite Ac, in_app_iff, St. rewrite A1. split.
        + intros [(B1 & B2 & s' & g & a & B3 & B4)|B].
          * split; [exact B1|]. split; [exact B2|]. exists s', g, a. split; [apply K; auto|exact B4].
          * destruct (Nat.eqb t f); [destruct B as [B|[B|[]]]; discriminate|destruct B].
        + intros (B1 & B2 & s' & g & a & B3 & B4). left. split; [exact B1|]. split; [exact B2|]. exists s', g, a. split; [|exact B4].
          apply K in B3 as [B3|[B3|B3]]; [exact B3|discriminate|discriminate].
      - intros t k c q f' y v. rewrite Ac, in_app_iff, A2, !K. destruct (Nat.eqb_spec t f) as [->|Hn].
        + split.
          * intros [(B1 & B2 & [[B3 B4]|[B3 B4]])|[B|[B|[]]]].
            -- split; [exact B1|]. split; [exact B2|]. left. auto.
            -- split; [exact B1|]. split; [exact B2|]. right. auto.
            -- injection B as <- <- <- <- <- <-. split; [reflexivity|]. split; [reflexivity|]. left. auto.
            -- injection B as <- <- <- <- <- <-. split; [reflexivity|]. split; [reflexivity|]. right. auto.
          * intros (B1 & B2 & [[B3 [B4|[B4|B4]]]|[B3 [B4|[B4|B4]]]]); try discriminate.
            -- left. auto.
            -- injection B4 as -> -> ->. right. left. congruence.
            -- left. auto.
            -- injection B4 as -> -> ->. right. right. left. congruence.
        + split.
          * intros [(B1 & B2 & [[B3 B4]|[B3 B4]])|[]]; (split; [exact B1|]; split; [exact B2|]); auto.
          * intros (B1 & B2 & [[B3 [B4|[B4|B4]]]|[B3 [B4|[B4|B4]]]]); try discriminate; try congruence; left; auto.
      - intros f' s' t g a Hi. rewrite St. apply K in Hi as [Hi|[Hi|Hi]]; [exact (A3 _ _ _ _ _ Hi)|discriminate|discriminate].
    Qed.

    Lemma ainv_comp : forall p b f b' rs k, AInv b -> comp pool tid func b f p = Some (b', rs, k) -> AInv b'.
    Proof.
      induction p as [|w|p IHp q IHq|c p IHp q IHq|c p IHp| |t args|t|t|p x args|p x|p x]; intros b f b' rs k A E.
      - injection E as <- _ _. exact A.
      - destruct w as [k'|]; injection E as <- _ _; (eapply ainv_same; [apply asame_next|exact A]).
      - cbn [comp] in E. destruct (comp pool tid func b f p) as [[[b1 r1] k1]|] eqn:E1; [|discriminate].
        pose proof (IHp _ _ _ _ _ A E1) as A1. destruct k1; [injection E as <- _ _; exact A1|].
        destruct (comp pool tid func b1 f q) as [[[b2 r2] k2]|] eqn:E2; [|discriminate]. injection E as <- _ _. exact (IHq _ _ _ _ _ A1 E2).
      - apply comp_if in E as (cc & b1 & r1 & k1 & Ec & E1 & E). cbv zeta in E.
        assert (A1 : AInv b1) by (eapply IHp; [|exact E1]; eapply ainv_same; [apply asame_inc|exact A]).
        destruct E as [[-> _]|(b2 & r2 & k2 & E2 & -> & _)].
        + eapply ainv_same; [|exact A1]. eapply asame_trans; [apply asame_goto|apply asame_done].
        + assert (A2 : AInv b2) by (eapply IHq; [|exact E2]; eapply ainv_same; [apply asame_inc|exact A1]).
          eapply ainv_same; [|exact A2]. eapply asame_trans; [apply asame_goto|]. eapply asame_trans; [apply asame_goto|apply asame_done].
      - cbn [comp] in E. destruct (ccond b c) as [cc|] eqn:Ec; [|discriminate].
        destruct (comp pool tid func (inc b f) f p) as [[[b1 r1] k1]|] eqn:E1; [|discriminate].
        match type of E with Some (?B, ?r, _) = _ => assert (b' = B) as -> by congruence; clear E end.
        assert (A1 : AInv b1) by (eapply IHp; [|exact E1]; eapply ainv_same; [apply asame_inc|exact A]).
        eapply ainv_same; [|exact A1]. eapply asame_trans; [apply asame_inc|]. eapply asame_trans; [apply asame_goto|].
        eapply asame_trans; [apply asame_goto|apply asame_done].
      - cbn [comp] in E. match type of E with Some (?B, ?r, _) = _ => assert (b' = B) as -> by congruence; clear E end.
        eapply ainv_same; [apply asame_inc|exact A].
      - cbn [comp] in E. destruct (prepare b t) as [b1|] eqn:E1; [|discriminate].
        destruct (synth_run func b1 f t args CTrue) as [b2|] eqn:E2; [|discriminate].
        match type of E with Some (?B, ?r, _) = _ => assert (b' = B) as -> by congruence; clear E end.
        eapply ainv_same; [apply asame_close|]. eapply ainv_run; [|exact E2]. eapply ainv_same; [eapply asame_prepare; exact E1|exact A].
      - cbn [comp] in E. destruct (fin (th b t)) as [e|]; [|discriminate].
        match type of E with Some (?B, ?r, _) = _ => assert (b' = B) as -> by congruence; clear E end.
        eapply ainv_same; [|exact A]. eapply asame_trans; [apply asame_note|apply asame_next]. reflexivity.
      - cbn [comp] in E. destruct (reset1 b f t CTrue) as [b1|] eqn:E1; [|discriminate]. injection E as <- _ _.
        eapply ainv_same; [eapply asame_reset1; exact E1|exact A].
      - cbn [comp] in E.
        assert (A1 : AInv (goto_next b f CTrue)) by (eapply ainv_same; [apply asame_next|exact A]).
        set (b1 := goto_next b f CTrue) in *. clearbody b1.
        assert (Q : exists b2 b3, prepare_all b1 (pool p) = Some b2 /\ run_all tid func b2 f p (cur (th b2 f)) args (pool p) = Some b3 /\
          b' = note (note (upd (goto_next b3 f CTrue) f (add_act (add_act (th (goto_next b3 f CTrue) f) (cur (th b f)) CTrue (ASet p f x true)) (cur (th b3 f)) CTrue (ASet p f x false))) (SPoolEnd f (cur (th b3 f)) p x)) (SPoolRun f (cur (th b f)) p x)).
        { destruct (pool p) as [|t0 l0]; [discriminate|].
          destruct (prepare_all b1 (t0 :: l0)) as [b2|]; [|discriminate].
          destruct (run_all tid func b2 f p (cur (th b2 f)) args (t0 :: l0)) as [b3|] eqn:E3; [|discriminate].
          exists b2, b3. split; [reflexivity|]. split; [exact E3|]. cbv zeta in E. congruence. }
        destruct Q as (b2 & b3 & E2 & E3 & ->).
        apply ainv_pool. eapply ainv_same; [apply asame_next|]. eapply ainv_run_all; [|exact E3]. eapply ainv_prepare_all; [|exact E2]. exact A1.
      - cbn [comp] in E. destruct (end_mux tid b f x (pool p)) as [c|] eqn:Em; [|discriminate].
        match type of E with Some (?B, ?r, _) = _ => assert (b' = B) as -> by congruence; clear E end.
        eapply ainv_same; [|exact A]. eapply asame_trans; [apply asame_note|apply asame_next]. reflexivity.
      - cbn [comp] in E. destruct (reset_all tid b f x (pool p)) as [b1|] eqn:E1; [|discriminate]. injection E as <- _ _.
        eapply ainv_reset_all; eassumption.
    Qed.
  End Func.
  Lemma asame_resolve : forall rs b f d, asame b (resolve b f rs d).
  Proof.
    induction rs as [|r l IH]; intros b f d; [apply asame_refl|]. unfold resolve. cbn [fold_left].
    eapply asame_trans; [apply asame_goto|]. apply IH.
  Qed.
  Lemma ainv_func : forall n b t b', AInv b -> func progs pool tid n b t = Some b' -> AInv b'.
  Proof.
    induction n as [|n IH]; intros b t b' A E; [discriminate|]. cbn [func] in E.
    destruct (comp pool tid (func progs pool tid n) (goto_next b t CTrue) t (progs t)) as [[[b1 rs] k]|] eqn:E1; [|discriminate]. injection E as <-.
    eapply ainv_same; [apply asame_resolve|]. eapply ainv_comp; [exact IH| |exact E1]. eapply ainv_same; [apply asame_next|exact A].
  Qed.
  Lemma ainv0 : AInv build0.
  Proof.
    split; [|split].
    - intros. cbn. split; [intros []|]. intros (_ & K & _). discriminate.
    - intros. cbn. split; [intros []|]. intros (_ & _ & [[_ []]|[_ []]]).
    - intros f s t g a [].
  Qed.
  Lemma ainv_start : forall n ts b b', settled progs pool tid b -> AInv b -> start_threads progs pool tid n b ts = Some b' -> AInv b'.
  Proof.
    intros n ts. induction ts as [|t l IH]; intros b b' St A E; cbn [start_threads] in E; [injection E as <-; exact A|].
    destruct (start_thread progs pool tid n b t) as [b1|] eqn:E1; [|discriminate].
    eapply IH; [eapply start_thread_spec; eassumption| |exact E]. unfold start_thread in E1.
    destruct (fin (th b t)) as [e|] eqn:Ef; [discriminate|]. destruct (child (th b t)) eqn:Ec; [discriminate|].
    destruct (func progs pool tid n _ t) as [b2|] eqn:E2; [|discriminate].
    match type of E1 with Some ?B = _ => assert (b1 = B) as -> by congruence; clear E1 end.
    eapply ainv_same; [apply asame_upd; auto|]. eapply ainv_func; [|exact E2]. eapply ainv_same; [|exact A]. apply asame_upd; [reflexivity|].
    right. destruct St as [[I _] N]. destruct (I t) as [K|[K|(_ & e & K & _)]]; [rewrite K; reflexivity|exfalso; exact (N t K)|congruence].
  Qed.
End Acts.

(** ** What they do *)
Definition active (i : inp) (h : hw) (s : nat) (c : cond) (u : nat) : Prop := st h u = s /\ holds i h c = true.

(** the argument registers *)
Lemma do_acts_arg : forall i h x s acc t j,
  (exists c f y, In (s, (c, ABind t j f y)) (acts x) /\ holds i h c = true /\ arg (do_acts i h x s acc) t j = i_val i f y) \/
  ((forall c f y, In (s, (c, ABind t j f y)) (acts x) -> holds i h c = false) /\ arg (do_acts i h x s acc) t j = arg acc t j).
Proof.
  intros i h x s acc t j. unfold do_acts. revert acc. generalize (acts x). induction l as [|[k [c a]] l IH]; intros acc.
  - right. split; [intros c f y []|reflexivity].
  - cbn [fold_left fst snd]. destruct (IH (if Nat.eqb k s && holds i h c then do_act i a acc else acc)) as [(c' & f & y & H1 & H2 & H3)|[H1 H2]].
    + left. exists c', f, y. split; [right; exact H1|]. auto.
    + destruct (Nat.eqb_spec k s) as [->|Hk]; cbn [andb] in *; [destruct (holds i h c) eqn:Eh|].
      * assert (D : (exists f y, a = ABind t j f y) \/ (arg (do_act i a acc) t j = arg acc t j /\ forall f y, a <> ABind t j f y)).
        { destruct a as [t' j' f y|p f y v]; [|right; split; [reflexivity|discriminate]]. cbn.
          destruct (Nat.eqb_spec t t') as [->|Ht]; [destruct (Nat.eqb_spec j j') as [->|Hj]; [left; eauto|]|]; right; (split; [reflexivity|congruence]). }
        destruct D as [(f & y & ->)|[D1 D2]].
        -- left. exists c, f, y. split; [left; reflexivity|]. split; [exact Eh|]. rewrite H2. cbn. rewrite !Nat.eqb_refl. reflexivity.
        -- right. split; [|rewrite H2; exact D1]. intros c' f y [K|K]; [injection K as _ K; exfalso; exact (D2 _ _ K)|exact (H1 _ _ _ K)].
      * right. split; [|exact H2]. intros c' f y [K|K]; [injection K as -> _; exact Eh|exact (H1 _ _ _ K)].
      * right. split; [|exact H2]. intros c' f y [K|K]; [injection K as K _; congruence|exact (H1 _ _ _ K)].
Qed.
(** the start registers of the pools *)
Lemma do_acts_bits : forall i h x s acc p k,
  (exists c f y v, In (s, (c, ASet p f y v)) (acts x) /\ holds i h c = true /\ i_val i f y = k /\ bits (do_acts i h x s acc) p k = v) \/
  ((forall c f y v, In (s, (c, ASet p f y v)) (acts x) -> holds i h c = true -> i_val i f y <> k) /\
   bits (do_acts i h x s acc) p k = bits acc p k).
Proof.
  intros i h x s acc p k. unfold do_acts. revert acc. generalize (acts x). induction l as [|[m [c a]] l IH]; intros acc.
  - right. split; [intros c f y v []|reflexivity].
  - cbn [fold_left fst snd]. destruct (IH (if Nat.eqb m s && holds i h c then do_act i a acc else acc)) as [(c' & f & y & v & H1 & H2 & H3)|[H1 H2]].
    + left. exists c', f, y, v. split; [right; exact H1|]. auto.
    + destruct (Nat.eqb_spec m s) as [->|Hk]; cbn [andb] in *; [destruct (holds i h c) eqn:Eh|].
      * assert (D : (exists f y v, a = ASet p f y v /\ i_val i f y = k) \/ (bits (do_act i a acc) p k = bits acc p k /\ forall f y v, a = ASet p f y v -> i_val i f y <> k)).
        { destruct a as [t' j' f y|q f y v]; [right; split; [reflexivity|discriminate]|]. cbn.
          destruct (Nat.eqb_spec p q) as [->|Ht]; [destruct (Nat.eqb_spec k (i_val i f y)) as [->|Hj]; [left; eauto|]|]; right; (split; [reflexivity|congruence]). }
        destruct D as [(f & y & v & -> & Ev)|[D1 D2]].
        -- left. exists c, f, y, v. split; [left; reflexivity|]. split; [exact Eh|]. split; [exact Ev|]. rewrite H2. cbn. rewrite Ev, !Nat.eqb_refl. reflexivity.
        -- right. split; [|rewrite H2; exact D1]. intros c' f y v [K|K] Hc; [injection K as _ K; exact (D2 _ _ _ K)|exact (H1 _ _ _ _ K Hc)].
      * right. split; [|exact H2]. intros c' f y v [K|K] Hc; [injection K as -> _; congruence|exact (H1 _ _ _ _ K Hc)].
      * right. split; [|exact H2]. intros c' f y v [K|K] Hc; [injection K as K _; congruence|exact (H1 _ _ _ _ K Hc)].
Qed.

Section Run.
  Variable progs : nat -> prog.
  Variable pool : nat -> list nat.
  Variable tid : nat -> nat.
  Variable mains : list nat.
  Variable b : build.
  Hypothesis D : design progs pool tid mains b.
  Variable ts : list nat.
  Variable ins : nat -> inp.
  Local Notation state := (state b ts ins).
  Local Notation H n := (run b ts ins n).

  Lemma acts_b : AInv b.
  Proof. destruct D as [fuel E]. eapply ainv_start; [apply settled0|apply ainv0|exact E]. Qed.

  (** the run of [t] with arguments [a] is executed by [f] in cycle [n] *)
  Definition run_with (n t f : nat) (a : list nat) : Prop :=
    exists s g, In (SRun f s t g a) (sites b) /\ state n f = s /\ true_at b ts ins n g.

  Lemma args_step : forall n t j, In t ts ->
    (start (th b t) = Some (state n t) /\ exists f a x, run_with n t f a /\ nth_error a j = Some x /\ arg (H (S n)) t j = i_val (ins n) f x) \/
    ((forall f a x, start (th b t) = Some (state n t) -> run_with n t f a -> nth_error a j = Some x -> False) /\ arg (H (S n)) t j = arg (H n) t j).
  Proof.
    intros n t j Ht. cbn [run clock arg]. unfold clock. cbn [arg].
    destruct acts_b as (A1 & _ & _).
    set (i := ins n). set (h := H n).
    assert (G : forall l acc, (arg acc t j = arg h t j \/
        (exists c f y, In (st h t, (c, ABind t j f y)) (acts (th b t)) /\ holds i h c = true /\ arg acc t j = i_val i f y)) ->
        let acc' := fold_left (fun acc u => do_acts i h (th b u) (st h u) acc) l acc in
        (exists c f y, In (st h t, (c, ABind t j f y)) (acts (th b t)) /\ holds i h c = true /\ arg acc' t j = i_val i f y) \/
        (arg acc' t j = arg h t j /\ (In t l -> forall c f y, In (st h t, (c, ABind t j f y)) (acts (th b t)) -> holds i h c = false))).
    { induction l as [|u l IH]; intros acc Ha.
      - cbn. destruct Ha as [Ha|Ha]; [right; split; [exact Ha|intros []]|left; exact Ha].
      - cbn [fold_left]. cbv zeta. destruct (do_acts_arg i h (th b u) (st h u) acc t j) as [(c & f & y & K1 & K2 & K3)|[K1 K2]].
        + assert (u = t) by (apply A1 in K1 as [K1 _]; congruence). subst u.
          specialize (IH (do_acts i h (th b t) (st h t) acc) ltac:(right; exists c, f, y; auto)). destruct IH as [IH1|[IH1 IH2]]; [left; exact IH1|].
          destruct (in_dec Nat.eq_dec t l) as [Hi|Hn].
          * specialize (IH2 Hi _ _ _ K1). congruence.
          * left. exists c, f, y. split; [exact K1|]. split; [exact K2|]. rewrite <- K3. clear IH1 IH2.
            assert (Q : forall l acc, ~ In t l -> arg (fold_left (fun acc u => do_acts i h (th b u) (st h u) acc) l acc) t j = arg acc t j).
            { clear - A1. induction l as [|v l IHl]; intros acc N; [reflexivity|]. cbn [fold_left]. rewrite IHl by (intros K; apply N; right; exact K).
              destruct (do_acts_arg i h (th b v) (st h v) acc t j) as [(c & f & y & K1 & _)|[_ K]]; [|exact K].
              apply A1 in K1 as [K1 _]. exfalso. apply N. left. congruence. }
            apply Q. exact Hn.
        + specialize (IH (do_acts i h (th b u) (st h u) acc) ltac:(rewrite K2; exact Ha)). destruct IH as [IH1|[IH1 IH2]].
          * left. exact IH1.
          * right. split; [exact IH1|]. intros Hi. destruct (Nat.eq_dec u t) as [->|Hu]; [exact K1|]. apply IH2. destruct Hi as [Hi|Hi]; [contradiction|exact Hi]. }
    specialize (G ts h (or_introl eq_refl)). cbv zeta in G. destruct G as [(c & f & y & K1 & K2 & K3)|[K1 K2]].
    - left. apply A1 in K1 as (_ & K1 & s' & g & a & B1 & B2 & B3). split; [exact K1|]. exists f, a, y. split; [|split; [exact B3|exact K3]].
      subst c. cbn in K2. apply andb_true_iff in K2 as [K2 K4]. apply Nat.eqb_eq in K4. exists s', g. auto.
    - right. split; [|exact K1]. intros f a x Es (s' & g & B1 & B2 & B3) B4.
      assert (Hi : In (st h t, (CAnd g (CAt f s'), ABind t j f x)) (acts (th b t))).
      { apply A1. split; [reflexivity|]. split; [exact Es|]. exists s', g, a. auto. }
      specialize (K2 Ht _ _ _ Hi). cbn in K2. unfold true_at in B3. fold i h in B3. rewrite B3 in K2. cbn in K2. apply Nat.eqb_neq in K2. apply K2. exact B2.
  Qed.

  (** thread [u] selects (clears) thread number [k] of pool [p] in cycle [n] *)
  Definition selects (n u p k : nat) : Prop := exists x, In (SPoolRun u (state n u) p x) (sites b) /\ i_val (ins n) u x = k.
  Definition clears (n u p k : nat) : Prop := exists x, In (SPoolEnd u (state n u) p x) (sites b) /\ i_val (ins n) u x = k.
  Lemma bits_step : forall n p k,
    (exists u, In u ts /\ ((selects n u p k /\ bits (H (S n)) p k = true) \/ (clears n u p k /\ bits (H (S n)) p k = false))) \/
    ((forall u, In u ts -> ~ selects n u p k /\ ~ clears n u p k) /\ bits (H (S n)) p k = bits (H n) p k).
  Proof.
    intros n p k. destruct acts_b as (_ & A2 & _). cbn [run]. unfold clock. cbn [bits].
    set (i := ins n). set (h := H n).
    assert (G : forall l acc, let acc' := fold_left (fun acc u => do_acts i h (th b u) (st h u) acc) l acc in
      (exists u, In u l /\ ((selects n u p k /\ bits acc' p k = true) \/ (clears n u p k /\ bits acc' p k = false))) \/
      ((forall u, In u l -> ~ selects n u p k /\ ~ clears n u p k) /\ bits acc' p k = bits acc p k)).
    { induction l as [|u l IH]; intros acc; cbn [fold_left]; cbv zeta; [right; split; [intros u []|reflexivity]|].
      destruct (IH (do_acts i h (th b u) (st h u) acc)) as [(v & V1 & V2)|[V1 V2]]; [left; exists v; split; [right; exact V1|exact V2]|].
      destruct (do_acts_bits i h (th b u) (st h u) acc p k) as [(c & f & y & v & K1 & K2 & K3 & K4)|[K1 K2]].
      - apply A2 in K1 as (-> & -> & [[-> K1]|[-> K1]]).
        + left. exists u. split; [left; reflexivity|]. left. split; [exists y; auto|congruence].
        + left. exists u. split; [left; reflexivity|]. right. split; [exists y; auto|congruence].
      - right. split; [|congruence]. intros w [<-|Hw]; [|apply V1; exact Hw]. split.
        + intros (x & X1 & X2). apply (K1 CTrue u x true); [|reflexivity|exact X2]. apply A2. auto.
        + intros (x & X1 & X2). apply (K1 CTrue u x false); [|reflexivity|exact X2]. apply A2. auto. }
    apply G.
  Qed.

  Lemma pool_sites : forall f s p x, In (SPoolRun f s p x) (sites b) ->
    In (SPoolEnd f (S (S s)) p x) (sites b) /\ (forall t, In t (pool p) -> exists a, In (SRun f (S s) t (CBit p (tid t)) a) (sites b)).
  Proof. intros f s p x Hi. pose proof (site_ok progs pool tid mains b D _ Hi) as (_ & _ & A & B). auto. Qed.
  Lemma pool_first : forall f s p x n, In (SPoolRun f s p x) (sites b) -> state n f = s -> state (S n) f = S s.
  Proof.
    intros f s p x n Hi E. pose proof (site_ok progs pool tid mains b D _ Hi) as (_ & O & _).
    rewrite state_S, E, (next_only_eq _ _ _ _ _ _ _ _ O). reflexivity.
  Qed.
  Lemma pool_last : forall f s p x n, In (SPoolEnd f s p x) (sites b) -> state n f = s -> state (S n) f = S s.
  Proof.
    intros f s p x n Hi E. pose proof (site_ok progs pool tid mains b D _ Hi) as (_ & O).
    rewrite state_S, E, (next_only_eq _ _ _ _ _ _ _ _ O). reflexivity.
  Qed.

  (** a pool that only thread [f] uses, whose index does not change while run is under way *)
  Section Pool.
    Variables p f t0 : nat.
    Hypothesis own : forall u s x, In (SPoolRun u s p x) (sites b) \/ In (SPoolEnd u s p x) (sites b) -> u = f.
    Hypothesis Hf : In f ts.
    Hypothesis Ht0 : In t0 (pool p).
    Hypothesis stable : forall n s x, In (SPoolRun f s p x) (sites b) -> state n f = s -> i_val (ins (S (S n))) f x = i_val (ins n) f x.

    Lemma pool_second : forall s x n, In (SPoolRun f s p x) (sites b) -> state n f = S s -> state (S n) f = S (S s).
    Proof.
      intros s x n Hi E. destruct (pool_sites _ _ _ _ Hi) as [_ K]. destruct (K t0 Ht0) as [a Ha].
      exact (run_parent progs pool tid mains b D ts ins f (S s) t0 _ a n Ha E).
    Qed.
    Lemma bits_inv : forall n k, bits (H n) p k = true -> exists s x m, In (SPoolRun f s p x) (sites b) /\ state m f = s /\ i_val (ins m) f x = k /\
      ((n = S m /\ state n f = S s) \/ (n = S (S m) /\ state (S m) f = S s /\ state n f = S (S s))).
    Proof.
      induction n as [|n IH]; intros k E; [discriminate|].
      destruct (bits_step n p k) as [(u & Hu & [[(x & X1 & X2) _]|[_ K]])|[N K]].
      - assert (u = f) by (eapply own; left; exact X1). subst u. exists (state n f), x, n. split; [exact X1|]. split; [reflexivity|]. split; [exact X2|].
        left. split; [reflexivity|]. eapply pool_first; [exact X1|reflexivity].
      - congruence.
      - rewrite K in E. destruct (IH k E) as (s & x & m & A & B & C & [[-> F]|(-> & F1 & F2)]).
        + exists s, x, m. split; [exact A|]. split; [exact B|]. split; [exact C|]. right. split; [reflexivity|]. split; [exact F|].
          eapply pool_second; eassumption.
        + exfalso. destruct (N f Hf) as [_ N2]. apply N2. exists x. rewrite F2. split; [apply (pool_sites _ _ _ _ A)|].
          rewrite (stable m s x A B). exact C.
    Qed.
    Lemma pool_run_step : forall s x n, In (SPoolRun f s p x) (sites b) -> state n f = s ->
      state (S n) f = S s /\ state (S (S n)) f = S (S s) /\ state (S (S (S n))) f = S (S (S s)) /\
      (forall k, bits (H (S n)) p k = Nat.eqb k (i_val (ins n) f x)).
    Proof.
      intros s x n Hi E. pose proof (pool_first _ _ _ _ _ Hi E) as E1. pose proof (pool_second _ _ _ Hi E1) as E2.
      split; [exact E1|]. split; [exact E2|]. split; [eapply pool_last; [apply (pool_sites _ _ _ _ Hi)|exact E2]|].
      intros k. destruct (Nat.eqb_spec k (i_val (ins n) f x)) as [->|Hk].
      - destruct (bits_step n p (i_val (ins n) f x)) as [(u & Hu & [[_ K]|[(y & Y1 & Y2) _]])|[N _]]; [exact K| |].
        + assert (u = f) by (eapply own; right; exact Y1). subst u. exfalso.
          destruct (site_alone progs pool tid mains b D (SPoolRun f s p x) (SPoolEnd f (state n f) p y) f s Hi Y1 eq_refl) as [K|[K _]]; try discriminate.
          cbn. rewrite E. reflexivity.
        + exfalso. destruct (N f Hf) as [N1 _]. apply N1. exists x. rewrite E. auto.
      - destruct (bits (H (S n)) p k) eqn:Eb; [|reflexivity]. exfalso.
        destruct (bits_inv _ _ Eb) as (s' & x' & m & A & B & C & [[Em F]|(Em & F1 & F2)]).
        + assert (m = n) by lia. subst m. assert (Q : s' = s) by congruence. rewrite Q in A.
          destruct (site_alone progs pool tid mains b D (SPoolRun f s p x) (SPoolRun f s p x') f s Hi A eq_refl eq_refl) as [K|[K _]]; [|discriminate].
          injection K as ->. congruence.
        + assert (n = S m) by lia. subst n. assert (Q : s = S s') by congruence. rewrite Q in Hi.
          destruct (pool_sites _ _ _ _ A) as [_ K]. destruct (K t0 Ht0) as [a Ha].
          destruct (site_alone progs pool tid mains b D _ _ f (S s') Hi Ha eq_refl eq_refl) as [K'|[K' _]]; discriminate.
    Qed.
  End Pool.
End Run.
