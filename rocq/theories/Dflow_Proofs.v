(** Proofs for C65. *)
From Verif Require Import Base Dflow_Model Dflow_Spec.
Open Scope nat_scope.

Lemma forallb_eq_in {A} (f h : A -> bool) l : (forall x, In x l -> f x = h x) -> forallb f l = forallb h l.
Proof.
  induction l as [|x l IH]; intros H; [reflexivity|]. cbn [forallb]. rewrite (H x (or_introl eq_refl)), IH; [reflexivity|].
  intros y Hy. apply H. right. exact Hy.
Qed.

(** ** Streams *)
Lemma op_state_ext o A B k : (forall j, A j = B j) -> op_state o A k = op_state o B k.
Proof. intros H. induction k as [|k IH]; [reflexivity|]. cbn [op_state]. rewrite IH, H. reflexivity. Qed.
Lemma op_value_ext o A B k : (forall j, A j = B j) -> op_value o A k = op_value o B k.
Proof. intros H. unfold op_value. rewrite (op_state_ext o A B k H), H. reflexivity. Qed.
Lemma streams_snoc I l nd : streams I (l ++ [nd]) = streams I l ++ [node_stream I (streams I l) (length (streams I l)) nd].
Proof. unfold streams. rewrite fold_left_app. reflexivity. Qed.
Lemma streams_len I l : length (streams I l) = length l.
Proof.
  induction l as [|nd l IH] using rev_ind; [reflexivity|]. rewrite streams_snoc, !app_length, IH. reflexivity.
Qed.
Lemma streams_app I l1 l2 : exists e, streams I (l1 ++ l2) = streams I l1 ++ e.
Proof.
  induction l2 as [|nd l2 [e IH]] using rev_ind; [exists []; rewrite !app_nil_r; reflexivity|].
  rewrite app_assoc, streams_snoc, IH. rewrite <- app_assoc. eauto.
Qed.

Section Graph.
  Variable g : graph.
  Hypothesis Hg : legal g.
  Notation N := (size g).

  Lemma legal_node n : n < N -> match node g n with
     | NOp _ l => Forall (fun a => a < n) l
     | NPrev a r => a < n /\ r < n /\ handshake (node g r) /\ root g a = Some r
     | _ => True end.
  Proof using Hg. apply Hg. Qed.
  Lemma root_le n u : n < N -> root g n = Some u -> u <= n /\ u < N /\ handshake (node g u) /\ root g u = Some u.
  Proof using Hg.
    intros Hn H. pose proof (legal_node n Hn) as L. unfold root in H. destruct (node g n) eqn:E; try discriminate.
    - injection H as <-. unfold root. rewrite E. cbn. auto.
    - injection H as <-. unfold root. rewrite E. cbn. auto.
    - injection H as <-. destruct L as (L1 & L2 & L3 & _). split; [lia|]. split; [lia|]. split; [exact L3|].
      unfold root. destruct (node g r); try contradiction; reflexivity.
  Qed.
  Lemma is_root_true u n : is_root g u n = true <-> root g n = Some u.
  Proof using.
    clear. unfold is_root. destruct (root g n) as [v|]; [|split; discriminate]. rewrite Nat.eqb_eq. split; [intros ->; reflexivity|congruence].
  Qed.
  Lemma sinks_in u w : In w (sinks g u) <-> w < N /\ exists o l a, node g w = NOp o l /\ In a l /\ root g a = Some u.
  Proof using.
    clear. unfold sinks. rewrite filter_In, in_seq, existsb_exists. unfold args. split.
    - intros [H (a & Ha & Hr)]. apply is_root_true in Hr. split; [lia|]. destruct (node g w) as [| |o l|]; try contradiction. exists o, l, a. auto.
    - intros [H (o & l & a & E & Ha & Hr)]. rewrite E. split; [lia|]. exists a. split; [exact Ha|]. apply is_root_true, Hr.
  Qed.
  Lemma arg_lt w o l a : w < N -> node g w = NOp o l -> In a l -> a < w.
  Proof using Hg.
    intros Hw E Ha. pose proof (legal_node w Hw) as L. rewrite E in L. rewrite Forall_forall in L. apply L, Ha.
  Qed.
  Lemma sinks_gt u w : In w (sinks g u) -> u < w /\ w < N /\ handshake (node g u).
  Proof using Hg.
    rewrite sinks_in. intros [Hw (o & l & a & E & Ha & Hr)]. pose proof (arg_lt w o l a Hw E Ha).
    destruct (root_le a u ltac:(lia) Hr) as (? & ? & ? & ?). split; [lia|]. auto.
  Qed.
  Lemma outs_in u n : In n (outs_of g u) <-> In n (d_out g) /\ root g n = Some u.
  Proof using. clear. unfold outs_of. rewrite filter_In, is_root_true. reflexivity. Qed.
  Lemma outs_lt u n : In n (outs_of g u) -> n < N /\ u < N /\ handshake (node g u).
  Proof using Hg.
    rewrite outs_in. intros [H1 H2]. destruct Hg as [_ F]. rewrite Forall_forall in F. destruct (F n H1) as [L _].
    destruct (root_le n u L H2) as (_ & ? & ? & _). auto.
  Qed.

  (** the ready wire *)
  Lemma rdy_fuel s i f : forall f' u, N - u <= f -> N - u <= f' -> rdy f g s i u = rdy f' g s i u.
  Proof using Hg.
    assert (H0 : forall u, N - u <= 0 -> sinks g u = [] /\ outs_of g u = []).
    { intros u Hu. split.
      - destruct (sinks g u) as [|w l] eqn:E; [reflexivity|]. destruct (sinks_gt u w) as (? & ? & _); [rewrite E; left; reflexivity|]. lia.
      - destruct (outs_of g u) as [|w l] eqn:E; [reflexivity|]. destruct (outs_lt u w) as (_ & ? & _); [rewrite E; left; reflexivity|]. lia. }
    induction f as [|f IH]; intros f' u H1 H2.
    - destruct (H0 u H1) as [E1 E2]. destruct f' as [|f']; [reflexivity|]. cbn [rdy]. rewrite E1, E2. reflexivity.
    - destruct f' as [|f'].
      + destruct (H0 u H2) as [E1 E2]. cbn [rdy]. rewrite E1, E2. reflexivity.
      + cbn [rdy]. f_equal. apply forallb_eq_in. intros w Hw. destruct (sinks_gt u w Hw) as (G1 & G2 & _).
        rewrite (IH f' w) by lia. reflexivity.
  Qed.
  Lemma ready_eq s i u : ready g s i u =
    forallb (fun w => accept g s i w && all_valid g s i w) (sinks g u) && forallb (o_ready i) (outs_of g u).
  Proof using Hg.
    unfold ready. rewrite (rdy_fuel s i N (S N) u) by lia. cbn [rdy]. reflexivity.
  Qed.
  Lemma ready_true s i u : ready g s i u = true <->
    (forall w, In w (sinks g u) -> accept g s i w = true /\ all_valid g s i w = true) /\ (forall n, In n (outs_of g u) -> o_ready i n = true).
  Proof using Hg.
    rewrite ready_eq, andb_true_iff, !forallb_forall. split; intros [H1 H2]; (split; [|exact H2]); intros w Hw.
    - specialize (H1 w Hw). apply andb_prop in H1. exact H1.
    - apply andb_true_iff, H1, Hw.
  Qed.
  Lemma load_true s i w o l : node g w = NOp o l -> (load g s i w = true <->
    accept g s i w = true /\ (forall a u, In a l -> root g a = Some u -> ready g s i u = true /\ vbase g s i u = true)).
  Proof using.
    clear. intros E. unfold load, all_ready, all_valid, args. rewrite E, !andb_true_iff, !forallb_forall. split.
    - intros [[H1 H2] H3]. split; [exact H1|]. intros a u Ha Hr. specialize (H2 a Ha). specialize (H3 a Ha). unfold vsig in H3. rewrite Hr in *. auto.
    - intros [H1 H2]. split; [split; [exact H1|]|]; intros a Ha; [|unfold vsig]; destruct (root g a) as [u|] eqn:Hr; auto; apply (H2 a u Ha Hr).
  Qed.

  (** ** A cycle is fair if every operator takes its operands exactly when they are given away *)
  Definition fair (s : dst) (i : din) : Prop := forall u w, In w (sinks g u) -> load g s i w = release g s i u.
  Fixpoint fair_run (s : dst) (ins : list din) : Prop :=
    match ins with [] => True | i :: r => fair s i /\ fair_run (dstep g s i) r end.

  Theorem closed_fair s i : closed g -> fair s i.
  Proof using Hg.
    intros HC u w Hw. apply eq_true_iff_eq. pose proof Hw as Hw'. apply sinks_in in Hw'. destruct Hw' as [Hn (o & l & a & E & Ha & Hr)].
    rewrite (load_true s i w o l E). unfold release. rewrite andb_true_iff. split.
    - intros [_ H]. destruct (H a u Ha Hr). auto.
    - intros [Hv Hy]. pose proof (proj1 (ready_true s i u) Hy) as [Hs Ho]. destruct (Hs w Hw) as [A1 A2]. split; [exact A1|].
      intros b u' Hb Hr'. assert (Hw' : In w (sinks g u')) by (apply sinks_in; split; [exact Hn|exists o, l, b; auto]).
      split.
      + destruct (HC w u u' Hw Hw') as [<-|(HS & HO & HO')]; [exact Hy|]. apply ready_true. split.
        * intros x Hx. apply Hs, HS, Hx.
        * rewrite HO'. intros n [].
      + unfold all_valid, args in A2. rewrite E, forallb_forall in A2. specialize (A2 b Hb). unfold vsig in A2. rewrite Hr' in A2. exact A2.
  Qed.

  (** ** Words of fair runs *)
  Lemma cellof_step s i n : n < N -> cellof (dstep g s i) n = cell_step g s i n.
  Proof using.
    clear. intros H. unfold cellof, dstep. rewrite (nth_indep _ cell0 (cell_step g s i 0)) by (rewrite map_length, seq_length; exact H).
    rewrite map_nth, seq_nth by exact H. reflexivity.
  Qed.
  Lemma cellof_init n : n < N -> cellof (dinit g) n = cell_init (node g n).
  Proof using.
    clear. intros H. unfold cellof, dinit, node. change cell0 with (cell_init (NConst 0)). apply map_nth.
  Qed.
  Definition tok (s : dst) (w : nat) : list Z := rev (map snd (filter fst (c_pipe (cellof s w)))).
  Definition held (s : dst) (w : nat) : nat := length (tok s w).
  Lemma tok_split s w : c_pipe (cellof s w) <> [] ->
    tok s w = (if fst (front s w) then [snd (front s w)] else []) ++ rev (map snd (filter fst (removelast (c_pipe (cellof s w))))).
  Proof using.
    clear. intros H. unfold tok, front. rewrite (app_removelast_last (false, 0%Z) H) at 1.
    rewrite filter_app, map_app, rev_app_distr. cbn [filter]. destruct (fst (last _ _)); reflexivity.
  Qed.

  Variable I : nat -> nat -> Z.
  Notation D := (den g I).
  Definition opargs (l : list nat) : nat -> list Z := fun k => map (fun a => D a k) l.
  Lemma den_node n k : n < N -> D n k = match node g n with
    | NIn => I n k
    | NConst v => v
    | NOp o l => op_value o (opargs l) k
    | NPrev a _ => match k with O => 0%Z | S j => D a j end end.
  Proof using Hg.
    intros Hn. unfold den, node, size in *. destruct (nth_split (d_nodes g) (NConst 0) Hn) as (l1 & l2 & E & L).
    set (nd := nth n (d_nodes g) (NConst 0)) in *.
    assert (Ex : exists e, streams I (d_nodes g) = streams I l1 ++ node_stream I (streams I l1) n nd :: e).
    { rewrite E. replace (l1 ++ nd :: l2) with ((l1 ++ [nd]) ++ l2) by (rewrite <- app_assoc; reflexivity).
      destruct (streams_app I (l1 ++ [nd]) l2) as [e Ee]. exists e. rewrite Ee, streams_snoc, streams_len, L, <- app_assoc. reflexivity. }
    destruct Ex as [e Ex].
    assert (Hlen : length (streams I l1) = n) by (rewrite streams_len; exact L).
    assert (Hnth : forall a, a < n -> nth a (streams I (d_nodes g)) (fun _ => 0%Z) = nth a (streams I l1) (fun _ => 0%Z)).
    { intros a Ha. rewrite Ex. apply app_nth1. rewrite Hlen. exact Ha. }
    rewrite Ex at 1. rewrite app_nth2 by (rewrite Hlen; lia). rewrite Hlen, Nat.sub_diag. cbn [nth].
    pose proof (legal_node n Hn) as L1. unfold node in L1. fold nd in L1.
    unfold node_stream. destruct nd as [|v|o l|a r]; try reflexivity.
    - apply op_value_ext. intros j. unfold opargs, den. apply map_ext_in. intros a Ha. rewrite Forall_forall in L1. rewrite Hnth by (apply L1, Ha). reflexivity.
    - destruct k as [|j]; [reflexivity|]. destruct L1 as (L1 & _). rewrite Hnth by exact L1. reflexivity.
  Qed.

  Record kinv (s : dst) (cnt : nat -> nat) : Prop := mkKinv {
    k_op : forall w o l, w < N -> node g w = NOp o l ->
      length (c_pipe (cellof s w)) = S (op_more o) /\ tok s w = map (D w) (seq (cnt w) (held s w)) /\
      c_st (cellof s w) = op_state o (opargs l) (cnt w + held s w) /\
      (forall u, In w (sinks g u) -> cnt u = cnt w + held s w);
    k_prev : forall p a r, p < N -> node g p = NPrev a r -> c_reg (cellof s p) = D p (cnt r) }.

  Lemma kinv_init : kinv (dinit g) (fun _ => 0).
  Proof using Hg.
    assert (Ht : forall w o l, w < N -> node g w = NOp o l -> tok (dinit g) w = []).
    { intros w o l Hw E. unfold tok. rewrite cellof_init, E by exact Hw. cbn [cell_init c_pipe].
      induction (op_more o) as [|m IH]; [reflexivity|]. exact IH. }
    constructor.
    - intros w o l Hw E. unfold held. rewrite (Ht w o l Hw E). cbn [length]. rewrite cellof_init, E by exact Hw. cbn [cell_init c_pipe c_st].
      rewrite repeat_length. repeat split; auto.
    - intros p a r Hp E. rewrite cellof_init, E by exact Hp. rewrite den_node, E by exact Hp. reflexivity.
  Qed.

  Lemma dsig_den s cnt i n k : kinv s cnt -> n < N ->
    (forall m, m < N -> node g m = NIn -> release g s i m = true -> I m (cnt m) = i_data i m) ->
    (forall u, root g n = Some u -> release g s i u = true /\ cnt u = k) -> dsig g s i n = D n k.
  Proof using Hg.
    intros [KO KP] Hn HI Hu. rewrite den_node by exact Hn. unfold dsig, root in *. destruct (node g n) as [|v|o l|a r] eqn:E.
    - destruct (Hu n eq_refl) as [H1 <-]. symmetry. apply HI; assumption.
    - reflexivity.
    - destruct (Hu n eq_refl) as [H1 <-]. destruct (KO n o l Hn E) as (K1 & K2 & _).
      unfold release in H1. apply andb_prop in H1. destruct H1 as [H1 _]. unfold vbase in H1. rewrite E in H1.
      pose proof (tok_split s n ltac:(intros X; rewrite X in K1; discriminate)) as Ts. rewrite H1 in Ts.
      unfold held in K2. rewrite Ts in K2. cbn [app length seq map] in K2. injection K2 as K2 _. rewrite K2.
      rewrite den_node, E by exact Hn. reflexivity.
    - destruct (Hu r eq_refl) as [_ <-]. rewrite (KP n a r Hn E). rewrite den_node, E by exact Hn. reflexivity.
  Qed.
  Definition cnt' (s : dst) (i : din) (cnt : nat -> nat) (u : nat) : nat := cnt u + Nat.b2n (release g s i u).

  Lemma tok_step s i w o l : w < N -> node g w = NOp o l -> c_pipe (cellof s w) <> [] ->
    (if release g s i w then [snd (front s w)] else []) ++ tok (dstep g s i) w =
    tok s w ++ (if load g s i w then [snd (op_fun o (c_st (cellof s w)) (map (dsig g s i) l))] else []).
  Proof using.
    clear. intros Hw E Hp. rewrite (tok_split s w Hp). unfold tok. rewrite cellof_step by exact Hw. unfold cell_step. rewrite E.
    unfold release, vbase. rewrite E. pose proof (eq_refl (load g s i w)) as HL. unfold load in HL at 2. unfold accept, vbase in HL. rewrite E in HL.
    unfold accept, vbase at 1. rewrite E. destruct (fst (front s w)) eqn:Ef; cbn [andb negb orb] in *.
    - rewrite orb_false_r in *. destruct (ready g s i w) eqn:Er.
      + destruct (load g s i w); cbn [c_pipe filter fst]; rewrite ?map_cons; cbn [app].
        * cbn [map rev snd]. reflexivity.
        * rewrite app_nil_r. reflexivity.
      + cbn [andb] in HL. rewrite HL, app_nil_r. cbn [app]. change (rev (map snd (filter fst (c_pipe (cellof s w))))) with (tok s w). rewrite tok_split by exact Hp. rewrite Ef. reflexivity.
    - rewrite orb_true_r in *. cbn [app]. destruct (load g s i w); cbn [c_pipe filter fst].
      * cbn [map rev snd]. reflexivity.
      * rewrite app_nil_r. reflexivity.
  Qed.

  Theorem kinv_step s cnt i : kinv s cnt -> fair s i ->
    (forall m, m < N -> node g m = NIn -> release g s i m = true -> I m (cnt m) = i_data i m) ->
    kinv (dstep g s i) (cnt' s i cnt).
  Proof using Hg.
    intros HK HF HI. pose proof HK as [KO KP]. constructor.
    - intros w o l Hw E. destruct (KO w o l Hw E) as (K1 & K2 & K3 & K4).
      assert (Hp : c_pipe (cellof s w) <> []) by (intros X; rewrite X in K1; discriminate).
      pose proof (tok_step s i w o l Hw E Hp) as Ts.
      assert (Hlen : Nat.b2n (release g s i w) + held (dstep g s i) w = held s w + Nat.b2n (load g s i w)).
      { unfold held. apply (f_equal (@length Z)) in Ts. rewrite !app_length in Ts. destruct (release g s i w), (load g s i w); cbn [length Nat.b2n] in *; lia. }
      assert (Hval : load g s i w = true -> map (dsig g s i) l = opargs l (cnt w + held s w)).
      { intros HL. unfold opargs. apply map_ext_in. intros a Ha. pose proof (arg_lt w o l a Hw E Ha).
        apply (dsig_den s cnt i a); [exact HK|lia|exact HI|]. intros u Hr.
        assert (Hs : In w (sinks g u)) by (apply sinks_in; split; [exact Hw|exists o, l, a; auto]).
        split; [rewrite <- (HF u w Hs); exact HL|apply K4, Hs]. }
      assert (Hst : c_st (cellof (dstep g s i) w) = op_state o (opargs l) (cnt w + held s w + Nat.b2n (load g s i w)) /\
                    length (c_pipe (cellof (dstep g s i) w)) = S (op_more o)).
      { rewrite cellof_step by exact Hw. unfold cell_step. rewrite E.
        assert (Hrl : length (removelast (c_pipe (cellof s w))) = op_more o).
        { rewrite (app_removelast_last (false, 0%Z) Hp) in K1. rewrite app_length in K1. cbn in K1. lia. }
        destruct (accept g s i w) eqn:Ea.
        - destruct (load g s i w) eqn:El; cbn [c_st c_pipe length Nat.b2n]; rewrite Hrl.
          + rewrite Nat.add_1_r. cbn [op_state]. rewrite K3, (Hval eq_refl). auto.
          + rewrite Nat.add_0_r. auto.
        - replace (load g s i w) with false by (unfold load; rewrite Ea; reflexivity). cbn [Nat.b2n]. rewrite Nat.add_0_r. auto. }
      destruct Hst as [Hst Hpl]. split; [exact Hpl|].
      assert (Hsum : cnt' s i cnt w + held (dstep g s i) w = cnt w + held s w + Nat.b2n (load g s i w)) by (unfold cnt'; lia).
      split; [|split].
      + assert (Hall : tok s w ++ (if load g s i w then [snd (op_fun o (c_st (cellof s w)) (map (dsig g s i) l))] else [])
                       = map (D w) (seq (cnt w) (held s w + Nat.b2n (load g s i w)))).
        { rewrite seq_app, map_app, <- K2. f_equal. destruct (load g s i w) eqn:El; [|reflexivity]. cbn [Nat.b2n seq map]. f_equal.
          rewrite (Hval eq_refl), K3. rewrite den_node, E by exact Hw. reflexivity. }
        rewrite <- Hlen, <- Ts in Hall. rewrite seq_app, map_app in Hall. unfold cnt'.
        destruct (release g s i w); cbn [Nat.b2n seq map app] in Hall |- *.
        * injection Hall as _ Hall. exact Hall.
        * exact Hall.
      + rewrite Hsum. exact Hst.
      + intros u Hs. rewrite Hsum. unfold cnt'. rewrite (K4 u Hs), (HF u w Hs). reflexivity.
    - intros p a r Hp E. rewrite cellof_step by exact Hp. unfold cell_step. rewrite E. unfold cnt'.
      pose proof (legal_node p Hp) as L. rewrite E in L. destruct L as (L1 & L2 & L3 & L4).
      destruct (release g s i r) eqn:Er; cbn [Nat.b2n c_reg].
      + rewrite Nat.add_1_r. rewrite den_node, E by exact Hp. apply (dsig_den s cnt i a); [exact HK|lia|exact HI|].
        intros u Hu. rewrite L4 in Hu. injection Hu as <-. auto.
      + rewrite Nat.add_0_r. apply KP with a; assumption.
  Qed.
  Lemma words_cons n s i ins : words g n s (i :: ins) = moved g n s i ++ words g n (dstep g s i) ins.
  Proof using. reflexivity. Qed.
  Lemma moved_in n s i : node g n = NIn -> moved g n s i = if release g s i n then [i_data i n] else [].
  Proof using. clear. intros E. unfold moved, root, dsig. rewrite E. reflexivity. Qed.
  Lemma words_root n u s ins : root g n = Some u -> root g u = Some u -> length (words g n s ins) = length (words g u s ins).
  Proof using.
    clear. intros H1 H2. revert s. induction ins as [|i ins IH]; intros s; [reflexivity|]. rewrite !words_cons, !app_length, IH. f_equal.
    unfold moved. rewrite H1, H2. destruct (release g s i u); reflexivity.
  Qed.
  Theorem fair_words ins : forall s cnt, kinv s cnt -> fair_run s ins ->
    (forall n k x, n < N -> node g n = NIn -> nth_error (words g n s ins) k = Some x -> I n (cnt n + k) = x) ->
    (forall n u, n < N -> root g n = Some u -> words g n s ins = map (D n) (seq (cnt u) (length (words g n s ins)))) /\
    exists c, kinv (drun g s ins) c /\ forall u, root g u = Some u -> c u = cnt u + length (words g u s ins).
  Proof using Hg.
    induction ins as [|i ins IH]; intros s cnt HK HF HI.
    - split; [reflexivity|]. exists cnt. split; [exact HK|]. intros u _. cbn. lia.
    - destruct HF as [HF HF'].
      assert (HIn : forall m, m < N -> node g m = NIn -> release g s i m = true -> I m (cnt m) = i_data i m).
      { intros m Hm Em Hr. rewrite <- (Nat.add_0_r (cnt m)). apply (HI m 0); [assumption..|]. rewrite words_cons, moved_in, Hr by exact Em. reflexivity. }
      pose proof (kinv_step s cnt i HK HF HIn) as HK'. destruct (IH _ _ HK' HF') as [IH1 (c & IH2 & IH3)].
      { intros n k x Hn En Hx. unfold cnt'. rewrite <- Nat.add_assoc. apply HI; [assumption..|]. rewrite words_cons, moved_in by exact En.
        destruct (release g s i n); exact Hx. }
      split.
      + intros n u Hn Hu. rewrite words_cons, app_length, seq_app, map_app. specialize (IH1 n u Hn Hu).
        assert (Em : moved g n s i = if release g s i u then [D n (cnt u)] else []).
        { unfold moved. rewrite Hu. destruct (release g s i u) eqn:Er; [|reflexivity]. f_equal. apply (dsig_den s cnt i n); [assumption..|].
          intros v Hv. rewrite Hu in Hv. injection Hv as <-. auto. }
        rewrite Em. unfold cnt' in IH1. destruct (release g s i u); cbn [length seq map app Nat.b2n] in *; rewrite ?Nat.add_0_r in *.
        * f_equal. exact IH1.
        * exact IH1.
      + exists c. split; [exact IH2|]. intros u Hu. rewrite (IH3 u Hu). unfold cnt'. rewrite words_cons, app_length. unfold moved at 1. rewrite Hu.
        destruct (release g s i u); cbn [length Nat.b2n]; lia.
  Qed.
End Graph.

(** ** The words that receivers get *)
Lemma got_moved_private g s i n : legal g -> private g -> In n (d_out g) -> got g n s i = moved g n s i.
Proof.
  intros Hg HP Hn. unfold got, moved. destruct (root g n) as [u|] eqn:Hr; [|reflexivity]. unfold release. rewrite (ready_eq g Hg).
  destruct (HP n u Hn Hr) as [-> ->]. cbn [forallb andb]. rewrite andb_true_r. reflexivity.
Qed.
Lemma received_words_private g n : legal g -> private g -> In n (d_out g) -> forall ins s, received g n s ins = words g n s ins.
Proof.
  intros Hg HP Hn ins. induction ins as [|i ins IH]; intros s; [reflexivity|].
  change (received g n s (i :: ins)) with (got g n s i ++ received g n (dstep g s i) ins). rewrite words_cons, IH, got_moved_private by assumption. reflexivity.
Qed.
Lemma words_app g n s a b : words g n s (a ++ b) = words g n s a ++ words g n (drun g s a) b.
Proof.
  revert s. induction a as [|i a IH]; intros s; [reflexivity|]. cbn [app]. rewrite !words_cons, IH, app_assoc. reflexivity.
Qed.
Theorem closed_kahn g I n ins : legal g -> closed g -> private g -> In n (d_out g) -> extends g I (dinit g) ins ->
  received g n (dinit g) ins = map (den g I n) (seq 0 (length (received g n (dinit g) ins))).
Proof.
  intros Hg HC HP Hn HI. rewrite received_words_private by assumption.
  assert (HF : forall l s, fair_run g s l) by (induction l as [|i l IH]; intros s; cbn; auto using closed_fair).
  pose proof Hg as [_ F]. rewrite Forall_forall in F. destruct (F n Hn) as [Hlt [u Hu]].
  destruct (fair_words g Hg I ins (dinit g) (fun _ => 0) (kinv_init g Hg I) (HF ins _)) as [H _].
  { intros m k x Hm Em Hx. apply (HI m k x Hm Em Hx). }
  exact (H n u Hlt Hu).
Qed.

(** ** Lockstep *)
Section Lock.
  Variables (g : graph) (lev : nat -> nat) (S : nat).
  Hypotheses (Hg : legal g) (HL : levelled g lev S) (HD : driven g).
  Notation N := (size g).
  Definition hs n := n < N /\ handshake (node g n).

  Lemma sink_lev u w : In w (sinks g u) -> lev w = Datatypes.S (lev u) /\ hs w /\ hs u.
  Proof using Hg HL.
    intros H. destruct (sinks_gt g Hg u w H) as (G1 & G2 & G3). pose proof H as H'. apply sinks_in in H'. destruct H' as [_ (o & l & a & E & Ha & Hr)].
    pose proof (HL w G2) as [L _]. rewrite E in L. destruct L as [_ L]. split; [apply (L a u Ha Hr)|]. unfold hs. rewrite E. cbn. repeat split; auto. lia.
  Qed.
  Lemma lev_le n : hs n -> lev n <= S.
  Proof using HL. intros [H1 H2]. destruct (HL n H1) as [_ L]. apply (L H2). Qed.
  Lemma lev_top n : hs n -> lev n = S -> outs_of g n <> [] /\ sinks g n = [].
  Proof using HL Hg.
    intros H E. split; [destruct H as [H1 H2]; destruct (HL n H1) as [_ L]; apply (L H2), E|].
    destruct (sinks g n) as [|w l] eqn:Es; [reflexivity|]. destruct (sink_lev n w) as (L1 & L2 & _); [rewrite Es; left; reflexivity|].
    apply lev_le in L2. lia.
  Qed.
  Lemma lev_low n : hs n -> lev n < S -> sinks g n <> [] /\ outs_of g n = [].
  Proof using HL. intros [H1 H2] E. destruct (HL n H1) as [_ L]. apply (L H2), E. Qed.
  Lemma op_arg w o l : w < N -> node g w = NOp o l -> exists u, In w (sinks g u).
  Proof using HD.
    intros Hw E. pose proof (HD w Hw) as H. rewrite E in H. destruct H as (a & Ha & Hr). destruct (root g a) as [u|] eqn:Er; [|congruence].
    exists u. apply sinks_in. split; [exact Hw|]. exists o, l, a. auto.
  Qed.
  Lemma lev0_in n : hs n -> lev n = 0 -> node g n = NIn.
  Proof using Hg HL HD.
    intros [H1 H2] E. destruct (node g n) as [| |o l|] eqn:En; try contradiction; [reflexivity|].
    destruct (op_arg n o l H1 En) as [u Hu]. apply sink_lev in Hu. lia.
  Qed.
  Lemma levS_op n k : hs n -> lev n = Datatypes.S k -> exists o l u, node g n = NOp o l /\ In n (sinks g u) /\ lev u = k /\ hs u.
  Proof using Hg HL HD.
    intros [H1 H2] E. destruct (node g n) as [| |o l|] eqn:En; try contradiction.
    - pose proof (HL n H1) as [L _]. rewrite En in L. lia.
    - destruct (op_arg n o l H1 En) as [u Hu]. exists o, l, u. pose proof (sink_lev u n Hu) as (L1 & _ & L2).
      repeat split; (exact Hu || lia || apply L2 || reflexivity).
  Qed.
  Lemma top_out n u : In n (d_out g) -> root g n = Some u -> hs u /\ lev u = S.
  Proof using Hg HL.
    intros Hn Hr. pose proof Hg as [_ F]. rewrite Forall_forall in F. destruct (F n Hn) as [Hlt _].
    destruct (root_le g Hg n u Hlt Hr) as (_ & Hu & Hh & _). assert (H : hs u) by (split; assumption). split; [exact H|].
    pose proof (lev_le u H). destruct (Nat.eq_dec (lev u) S) as [E|E]; [exact E|]. destruct (lev_low u H ltac:(lia)) as [_ Ho].
    exfalso. assert (Hi : In n (outs_of g u)) by (apply outs_in; auto). rewrite Ho in Hi. exact Hi.
  Qed.

  Definition lock (s : dst) : Prop :=
    (forall w o l, w < N -> node g w = NOp o l -> length (c_pipe (cellof s w)) = 1) /\
    (forall w x o l o' l', w < N -> x < N -> node g w = NOp o l -> node g x = NOp o' l' -> lev w = lev x -> fst (front s w) = fst (front s x)).

  Lemma vbase_lev s i m n : lock s -> synchronous g i -> hs m -> hs n -> lev m = lev n -> vbase g s i m = vbase g s i n.
  Proof using Hg HL HD.
    intros [_ HK] [HS _] Hm Hn E. destruct (lev m) as [|k] eqn:Em.
    - pose proof (lev0_in m Hm Em) as E1. pose proof (lev0_in n Hn (eq_sym E)) as E2. unfold vbase. rewrite E1, E2. apply HS; try assumption; [apply Hm|apply Hn].
    - destruct (levS_op m k Hm Em) as (o & l & _ & E1 & _). destruct (levS_op n k Hn (eq_sym E)) as (o' & l' & _ & E2 & _).
      unfold vbase. rewrite E1, E2. apply (HK m n o l o' l'); try assumption; [apply Hm|apply Hn|congruence].
  Qed.
  Lemma all_valid_lev s i u w : lock s -> synchronous g i -> In w (sinks g u) -> all_valid g s i w = vbase g s i u.
  Proof using Hg HL HD.
    intros HK HS Hw. pose proof (sink_lev u w Hw) as (L1 & L2 & L3). pose proof Hw as Hw'. apply sinks_in in Hw'. destruct Hw' as [Hn (o & l & a & E & Ha & Hr)].
    apply eq_true_iff_eq. unfold all_valid, args. rewrite E, forallb_forall. split.
    - intros H. specialize (H a Ha). unfold vsig in H. rewrite Hr in H. exact H.
    - intros H b Hb. unfold vsig. destruct (root g b) as [u'|] eqn:Hr'; [|reflexivity].
      assert (Hw' : In w (sinks g u')) by (apply sinks_in; split; [exact Hn|exists o, l, b; auto]). pose proof (sink_lev u' w Hw') as (L1' & _ & L3').
      rewrite (vbase_lev s i u' u) by (assumption || lia). exact H.
  Qed.
  Lemma ready_lev s i d : lock s -> synchronous g i -> forall m n, hs m -> hs n -> lev m = lev n -> S - lev m = d -> ready g s i m = true -> ready g s i n = true.
  Proof using Hg HL HD.
    intros HK HS. induction d as [|d IH]; intros m n Hm Hn E Ed Hy; apply ready_true in Hy; try assumption; destruct Hy as [Y1 Y2]; apply ready_true; try assumption.
    - pose proof (lev_le m Hm). destruct (lev_top m Hm ltac:(lia)) as [T1 T2]. destruct (lev_top n Hn ltac:(lia)) as [T3 T4]. split; [rewrite T4; intros w []|].
      intros x Hx. destruct (outs_of g m) as [|y q] eqn:Eo; [congruence|]. destruct HS as [_ HS]. rewrite (HS x y).
      + apply Y2. left. reflexivity.
      + apply outs_in in Hx. apply Hx.
      + assert (Hy : In y (outs_of g m)) by (rewrite Eo; left; reflexivity). apply outs_in in Hy. apply Hy.
    - destruct (lev_low m Hm ltac:(lia)) as [T1 _]. destruct (lev_low n Hn ltac:(lia)) as [_ T2]. split; [|rewrite T2; intros w []].
      intros w Hw. pose proof (sink_lev n w Hw) as (L1 & L2 & _). destruct (sinks g m) as [|x q] eqn:Es; [congruence|].
      assert (Hx : In x (sinks g m)) by (rewrite Es; left; reflexivity). pose proof (sink_lev m x Hx) as (L1' & L2' & _).
      destruct (Y1 x ltac:(left; reflexivity)) as [A1 A2]. split.
      + unfold accept in *. apply orb_prop in A1. destruct A1 as [A1|A1].
        * rewrite (IH x w L2' L2 ltac:(lia) ltac:(lia) A1). reflexivity.
        * rewrite (vbase_lev s i w x) by (assumption || lia). rewrite A1. apply orb_true_r.
      + rewrite (all_valid_lev s i n w) by assumption. rewrite (all_valid_lev s i m x) in A2 by assumption. rewrite (vbase_lev s i n m) by (assumption || lia). exact A2.
  Qed.
  Lemma ready_lev_eq s i m n : lock s -> synchronous g i -> hs m -> hs n -> lev m = lev n -> ready g s i m = ready g s i n.
  Proof using Hg HL HD.
    intros HK HS Hm Hn E. apply eq_true_iff_eq. split; intros H.
    - apply (ready_lev s i (S - lev m) HK HS m n); auto.
    - apply (ready_lev s i (S - lev n) HK HS n m); auto.
  Qed.
  Lemma release_lev_eq s i m n : lock s -> synchronous g i -> hs m -> hs n -> lev m = lev n -> release g s i m = release g s i n.
  Proof using Hg HL HD.
    intros HK HS Hm Hn E. unfold release. rewrite (ready_lev_eq s i m n), (vbase_lev s i m n) by assumption. reflexivity.
  Qed.
  Theorem lock_fair s i : lock s -> synchronous g i -> fair g s i.
  Proof using Hg HL HD.
    intros HK HS u w Hw. pose proof (sink_lev u w Hw) as (L1 & L2 & L3). pose proof Hw as Hw'. apply sinks_in in Hw'. destruct Hw' as [Hn (o & l & a & E & Ha & Hr)].
    apply eq_true_iff_eq. rewrite (load_true g s i w o l E). unfold release. rewrite andb_true_iff. split.
    - intros [_ H]. destruct (H a u Ha Hr). auto.
    - intros [Hv Hy]. split; [apply (ready_true g Hg) in Hy; apply Hy, Hw|]. intros b u' Hb Hr'.
      assert (Hw' : In w (sinks g u')) by (apply sinks_in; split; [exact Hn|exists o, l, b; auto]). pose proof (sink_lev u' w Hw') as (L1' & _ & L3').
      rewrite (ready_lev_eq s i u' u), (vbase_lev s i u' u) by (assumption || lia). auto.
  Qed.
  Lemma front_step s i w o l : lock s -> w < N -> node g w = NOp o l ->
    length (c_pipe (cell_step g s i w)) = 1 /\
    fst (front (dstep g s i) w) = (if accept g s i w then load g s i w else vbase g s i w).
  Proof using.
    clear. intros [HK _] Hw E. specialize (HK w o l Hw E). unfold front. rewrite cellof_step by exact Hw. unfold cell_step, vbase, front. rewrite E.
    destruct (c_pipe (cellof s w)) as [|p [|q r]] eqn:Ep; try discriminate. destruct (accept g s i w); [destruct (load g s i w)|]; cbn [c_pipe removelast length last fst]; rewrite ?Ep; auto.
  Qed.
  Theorem lock_step s i : lock s -> synchronous g i -> lock (dstep g s i).
  Proof using Hg HL HD.
    intros HK HS. split.
    - intros w o l Hw E. rewrite cellof_step by exact Hw. apply (front_step s i w o l HK Hw E).
    - intros w x o l o' l' Hw Hx E E' El. destruct (front_step s i w o l HK Hw E) as [_ ->]. destruct (front_step s i x o' l' HK Hx E') as [_ ->].
      assert (Hhw : hs w) by (split; [exact Hw|rewrite E; exact Logic.I]). assert (Hhx : hs x) by (split; [exact Hx|rewrite E'; exact Logic.I]).
      destruct (op_arg w o l Hw E) as [u Hu]. destruct (op_arg x o' l' Hx E') as [u' Hu']. pose proof (sink_lev u w Hu) as (L1 & _ & L3). pose proof (sink_lev u' x Hu') as (L1' & _ & L3').
      rewrite (lock_fair s i HK HS u w Hu), (lock_fair s i HK HS u' x Hu'). unfold accept.
      rewrite (ready_lev_eq s i w x), (vbase_lev s i w x), (release_lev_eq s i u u') by (assumption || lia). reflexivity.
  Qed.
  Lemma lock_init : lock (dinit g).
  Proof using HL.
    assert (H : forall w o l, w < N -> node g w = NOp o l -> c_pipe (cellof (dinit g) w) = [(false, 0%Z)]).
    { intros w o l Hw E. rewrite cellof_init, E by exact Hw. pose proof (HL w Hw) as [L _]. rewrite E in L. destruct L as [L _]. cbn. rewrite L. reflexivity. }
    split.
    - intros w o l Hw E. rewrite (H w o l Hw E). reflexivity.
    - intros w x o l o' l' Hw Hx E E' _. unfold front. rewrite (H w o l Hw E), (H x o' l' Hx E'). reflexivity.
  Qed.
  Lemma lock_run ins : forall s, lock s -> Forall (synchronous g) ins -> fair_run g s ins /\ lock (drun g s ins).
  Proof using Hg HL HD.
    induction ins as [|i ins IH]; intros s HK HF; [split; [exact Logic.I|exact HK]|]. inversion HF as [|? ? H1 H2]; subst.
    destruct (IH (dstep g s i) (lock_step s i HK H1) H2) as [A B]. split; [split; [apply lock_fair; assumption|exact A]|exact B].
  Qed.
  Lemma got_moved_lock s i n : lock s -> synchronous g i -> In n (d_out g) -> got g n s i = moved g n s i.
  Proof using Hg HL HD.
    intros HK HS Hn. unfold got, moved. destruct (root g n) as [u|] eqn:Hr; [|reflexivity]. unfold release. rewrite (ready_eq g Hg).
    destruct (top_out n u Hn Hr) as [Hu Eu]. destruct (lev_top u Hu Eu) as [_ ->]. cbn [forallb andb].
    replace (forallb (o_ready i) (outs_of g u)) with (o_ready i n); [reflexivity|]. apply eq_true_iff_eq. rewrite forallb_forall. split.
    - intros H x Hx. destruct HS as [_ HS]. rewrite (HS x n); [exact H| |exact Hn]. apply outs_in in Hx. apply Hx.
    - intros H. apply H, outs_in. auto.
  Qed.
  Lemma received_words_lock n ins : In n (d_out g) -> forall s, lock s -> Forall (synchronous g) ins -> received g n s ins = words g n s ins.
  Proof using Hg HL HD.
    intros Hn. induction ins as [|i ins IH]; intros s HK HF; [reflexivity|]. inversion HF as [|? ? H1 H2]; subst.
    change (received g n s (i :: ins)) with (got g n s i ++ received g n (dstep g s i) ins).
    rewrite words_cons, (IH _ (lock_step s i HK H1) H2), got_moved_lock by assumption. reflexivity.
  Qed.
  Lemma words_lev m n ins : hs m -> hs n -> lev m = lev n -> forall s, lock s -> Forall (synchronous g) ins ->
    length (words g m s ins) = length (words g n s ins).
  Proof using Hg HL HD.
    intros Hm Hn E. induction ins as [|i ins IH]; intros s HK HF; [reflexivity|]. inversion HF as [|? ? H1 H2]; subst.
    rewrite !words_cons, !app_length, (IH _ (lock_step s i HK H1) H2). f_equal.
    assert (R : forall x, hs x -> root g x = Some x) by (intros x [_ Hx]; unfold root; destruct (node g x); try contradiction; reflexivity).
    unfold moved. rewrite (R m Hm), (R n Hn), (release_lev_eq s i m n) by assumption. destruct (release g s i n); reflexivity.
  Qed.

  Theorem lock_kahn I n ins : In n (d_out g) -> Forall (synchronous g) ins -> extends g I (dinit g) ins ->
    received g n (dinit g) ins = map (den g I n) (seq 0 (length (received g n (dinit g) ins))).
  Proof using Hg HL HD.
    intros Hn HS HI. rewrite received_words_lock by (assumption || apply lock_init).
    destruct (lock_run ins (dinit g) lock_init HS) as [HF _].
    pose proof Hg as [_ F]. rewrite Forall_forall in F. destruct (F n Hn) as [Hlt [u Hu]].
    destruct (fair_words g Hg I ins (dinit g) (fun _ => 0) (kinv_init g Hg I) HF) as [H _].
    { intros m k x Hm Em Hx. apply (HI m k x Hm Em Hx). }
    exact (H n u Hlt Hu).
  Qed.

  (** ** Liveness *)
  Section Live.
    Variable I : nat -> nat -> Z.
    Lemma held_front s cnt w o l : kinv g I s cnt -> w < N -> node g w = NOp o l -> held s w = Nat.b2n (fst (front s w)).
    Proof using HL.
      intros [KO _] Hw E. destruct (KO w o l Hw E) as (K1 & _). pose proof (HL w Hw) as [L _]. rewrite E in L. destruct L as [L _]. rewrite L in K1.
      unfold held, tok, front. destruct (c_pipe (cellof s w)) as [|[b v] [|q r]]; try discriminate. cbn. destruct b; reflexivity.
    Qed.
    (** the words an operator has taken *)
    Definition ld (s : dst) (cnt : nat -> nat) (w : nat) : nat := cnt w + held s w.
    Definition isop (w : nat) : Prop := w < N /\ exists o l, node g w = NOp o l.
    Definition slowest (s : dst) (cnt : nat -> nat) (m : nat) : Prop := forall w, isop w -> m <= ld s cnt w + lev w.
    Lemma sink_op u w : In w (sinks g u) -> isop w.
    Proof using. clear. rewrite sinks_in. intros [H (o & l & _ & E & _)]. split; eauto. Qed.
    Lemma sink_ld s cnt u w : kinv g I s cnt -> In w (sinks g u) -> cnt u = ld s cnt w.
    Proof using. intros [KO _] Hw. destruct (sink_op u w Hw) as [H (o & l & E)]. destruct (KO w o l H E) as (_ & _ & _ & K). apply K, Hw. Qed.

    Lemma slow_valid s cnt m i u w : kinv g I s cnt -> flowing g i -> slowest s cnt m -> In w (sinks g u) -> ld s cnt w + lev w = m -> vbase g s i u = true.
    Proof using Hg HL.
      intros HK [F1 _] HS Hw E. pose proof (sink_lev u w Hw) as (L1 & L2 & L3). pose proof (sink_ld s cnt u w HK Hw) as C. destruct L3 as [L3 L4].
      unfold vbase. destruct (node g u) as [| |o l|] eqn:En; try contradiction; [apply F1; assumption|].
      specialize (HS u ltac:(split; eauto)). unfold ld in HS at 1. rewrite (held_front s cnt u o l HK L3 En) in HS. destruct (fst (front s u)); [reflexivity|]. cbn [Nat.b2n] in HS. lia.
    Qed.
    Lemma slow_all_valid s cnt m i w : kinv g I s cnt -> flowing g i -> slowest s cnt m -> isop w -> ld s cnt w + lev w = m -> all_valid g s i w = true.
    Proof using Hg HL.
      intros HK HF HS [Hw (o & l & E)] Em. unfold all_valid, args. rewrite E, forallb_forall. intros a Ha. unfold vsig. destruct (root g a) as [u|] eqn:Hr; [|reflexivity].
      apply (slow_valid s cnt m i u w HK HF HS); [|exact Em]. apply sinks_in. split; [exact Hw|]. exists o, l, a. auto.
    Qed.
    Lemma slow_accept s cnt m i d : kinv g I s cnt -> flowing g i -> slowest s cnt m ->
      forall w, isop w -> ld s cnt w + lev w = m -> S - lev w = d -> accept g s i w = true.
    Proof using Hg HL.
      intros HK HF HS. induction d as [d IH] using (well_founded_induction lt_wf). intros w Hop Em Ed. unfold accept.
      destruct (vbase g s i w) eqn:Ev; [|apply orb_true_r]. cbn [negb]. rewrite orb_false_r. apply (ready_true g Hg). split.
      - intros x Hx. pose proof (sink_lev w x Hx) as (L1 & L2 & L3). pose proof (sink_op w x Hx) as Ox. pose proof (lev_le x L2).
        assert (Ex : ld s cnt x + lev x = m).
        { rewrite <- (sink_ld s cnt w x HK Hx). destruct Hop as [Hw (o & l & E)]. unfold ld in Em. rewrite (held_front s cnt w o l HK Hw E) in Em.
          unfold vbase in Ev. rewrite E in Ev. rewrite Ev in Em. cbn [Nat.b2n] in Em. lia. }
        split; [apply (IH (S - lev x) ltac:(lia) x Ox Ex eq_refl)|apply (slow_all_valid s cnt m i x HK HF HS Ox Ex)].
      - intros n Hn. apply HF. apply outs_in in Hn. apply Hn.
    Qed.
    Lemma slow_load s cnt m i w : kinv g I s cnt -> flowing g i -> slowest s cnt m -> isop w -> ld s cnt w + lev w = m -> load g s i w = true.
    Proof using Hg HL.
      intros HK HF HS Hop Em. pose proof Hop as [Hw (o & l & E)]. apply (load_true g s i w o l E). split; [apply (slow_accept s cnt m i _ HK HF HS w Hop Em eq_refl)|].
      intros a u Ha Hr. assert (Hs : In w (sinks g u)) by (apply sinks_in; split; [exact Hw|exists o, l, a; auto]).
      split; [|apply (slow_valid s cnt m i u w HK HF HS Hs Em)]. apply (ready_true g Hg). pose proof (sink_lev u w Hs) as (L1 & _ & _).
      split.
      - intros x Hx. pose proof (sink_lev u x Hx) as (L1' & _ & _). pose proof (sink_op u x Hx) as Ox.
        assert (Ex : ld s cnt x + lev x = m) by (rewrite <- (sink_ld s cnt u x HK Hx), (sink_ld s cnt u w HK Hs); lia).
        split; [apply (slow_accept s cnt m i _ HK HF HS x Ox Ex eq_refl)|apply (slow_all_valid s cnt m i x HK HF HS Ox Ex)].
      - intros n Hn. apply HF. apply outs_in in Hn. apply Hn.
    Qed.
    Lemma ld_step s cnt i w : kinv g I s cnt -> isop w -> ld (dstep g s i) (cnt' g s i cnt) w = ld s cnt w + Nat.b2n (load g s i w).
    Proof using.
      intros [KO _] [Hw (o & l & E)]. destruct (KO w o l Hw E) as (K1 & _). pose proof (tok_step g s i w o l Hw E ltac:(intros X; rewrite X in K1; discriminate)) as T.
      apply (f_equal (@length Z)) in T. rewrite !app_length in T. unfold ld, cnt', held. destruct (release g s i w), (load g s i w); cbn [length Nat.b2n] in *; lia.
    Qed.
    Lemma slow_step s cnt m i : kinv g I s cnt -> flowing g i -> slowest s cnt m -> slowest (dstep g s i) (cnt' g s i cnt) (m + 1).
    Proof using Hg HL.
      intros HK HF HS w Hop. rewrite (ld_step s cnt i w HK Hop). pose proof (HS w Hop). destruct (Nat.eq_dec (ld s cnt w + lev w) m) as [E|E]; [|lia].
      rewrite (slow_load s cnt m i w HK HF HS Hop E). cbn [Nat.b2n]. lia.
    Qed.
    (** between the inputs and the outputs *)
    Lemma cnt_bounds s cnt d : kinv g I s cnt -> forall u, hs u -> S - lev u = d -> exists x, hs x /\ lev x = S /\ cnt x <= cnt u /\ cnt u + lev u <= cnt x + S.
    Proof using Hg HL.
      intros HK. induction d as [|d IH]; intros u Hu Ed.
      - pose proof (lev_le u Hu). exists u. repeat split; try apply Hu; lia.
      - destruct (lev_low u Hu ltac:(lia)) as [L _]. destruct (sinks g u) as [|w q] eqn:Es; [congruence|].
        assert (Hw : In w (sinks g u)) by (rewrite Es; left; reflexivity). pose proof (sink_lev u w Hw) as (L1 & L2 & _). pose proof (sink_ld s cnt u w HK Hw) as C.
        destruct (IH w L2 ltac:(lia)) as (x & X1 & X2 & X3 & X4). exists x. split; [exact X1|]. split; [exact X2|].
        destruct (sink_op u w Hw) as [Hn (o & l & E)]. unfold ld in C. rewrite (held_front s cnt w o l HK Hn E) in C. destruct (fst (front s w)); cbn [Nat.b2n] in C; lia.
    Qed.
    Lemma live_run ins : forall s cnt m, kinv g I s cnt -> lock s -> Forall (synchronous g) ins -> Forall (flowing g) ins -> slowest s cnt m ->
      (forall n k x, n < N -> node g n = NIn -> nth_error (words g n s ins) k = Some x -> I n (cnt n + k) = x) ->
      exists c, kinv g I (drun g s ins) c /\ slowest (drun g s ins) c (m + length ins) /\ forall u, root g u = Some u -> c u = cnt u + length (words g u s ins).
    Proof using Hg HL HD.
      induction ins as [|i ins IH]; intros s cnt m HK HLk HS HF HM HI.
      - exists cnt. cbn [length]. rewrite Nat.add_0_r. split; [exact HK|]. split; [exact HM|]. intros u _. symmetry. apply Nat.add_0_r.
      - inversion HS as [|? ? S1 S2]; subst. inversion HF as [|? ? F1 F2]; subst.
        assert (HIn : forall m, m < N -> node g m = NIn -> release g s i m = true -> I m (cnt m) = i_data i m).
        { intros p Hp Ep Hr. rewrite <- (Nat.add_0_r (cnt p)). apply (HI p 0); [assumption..|]. rewrite words_cons, moved_in, Hr by exact Ep. reflexivity. }
        pose proof (kinv_step g Hg I s cnt i HK (lock_fair s i HLk S1) HIn) as HK'.
        destruct (IH _ _ _ HK' (lock_step s i HLk S1) S2 F2 (slow_step s cnt m i HK F1 HM)) as (c & C1 & C2 & C3).
        { intros n k x Hn En Hx. unfold cnt'. rewrite <- Nat.add_assoc. apply HI; [assumption..|]. rewrite words_cons, moved_in by exact En. destruct (release g s i n); exact Hx. }
        exists c. split; [exact C1|]. split; [cbn [length]; replace (m + Datatypes.S (length ins)) with (m + 1 + length ins) by lia; exact C2|].
        intros u Hu. rewrite (C3 u Hu). unfold cnt'. rewrite words_cons, app_length. unfold moved at 1. rewrite Hu. destruct (release g s i u); cbn [length Nat.b2n]; lia.
    Qed.
  End Live.

  (** streams that begin with the words accepted *)
  Definition seen (s : dst) (ins : list din) (n k : nat) : Z := nth k (words g n s ins) 0%Z.
  Lemma seen_extends s ins : extends g (seen s ins) s ins.
  Proof using. clear. intros n k x _ _ H. unfold seen. apply (nth_error_nth _ _ 0%Z) in H. exact H. Qed.
  Lemma out_root n : In n (d_out g) -> exists u, root g n = Some u /\ root g u = Some u /\ hs u /\ lev u = S /\ n < N.
  Proof using Hg HL.
    intros Hn. pose proof Hg as [_ F]. rewrite Forall_forall in F. destruct (F n Hn) as [Hlt [u Hu]]. exists u. destruct (top_out n u Hn Hu) as [H1 H2].
    destruct (root_le g Hg n u Hlt Hu) as (_ & _ & _ & H). auto.
  Qed.
  Theorem lock_conserved m n ins : In n (d_out g) -> m < N -> node g m = NIn -> Forall (synchronous g) ins ->
    length (received g n (dinit g) ins) <= length (words g m (dinit g) ins) <= length (received g n (dinit g) ins) + S.
  Proof using Hg HL HD.
    intros Hn Hm Em HS. rewrite received_words_lock by (assumption || apply lock_init). destruct (out_root n Hn) as (u & U1 & U2 & U3 & U4 & _).
    rewrite (words_root g n u _ _ U1 U2). destruct (lock_run ins (dinit g) lock_init HS) as [HF _].
    destruct (fair_words g Hg (seen (dinit g) ins) ins (dinit g) (fun _ => 0) (kinv_init g Hg _) HF (seen_extends _ _)) as [_ (c & C1 & C2)].
    assert (Hhm : hs m) by (split; [exact Hm|rewrite Em; exact Logic.I]). assert (Rm : root g m = Some m) by (unfold root; rewrite Em; reflexivity).
    destruct (cnt_bounds (seen (dinit g) ins) _ c _ C1 m Hhm eq_refl) as (x & X1 & X2 & X3 & X4).
    assert (Rx : root g x = Some x) by (destruct X1 as [_ Hx]; unfold root; destruct (node g x); try contradiction; reflexivity).
    rewrite (C2 x Rx), (C2 m Rm) in *. rewrite (words_lev u x ins U3 X1 ltac:(lia) _ lock_init HS). lia.
  Qed.
  Theorem lock_live n pre flow : In n (d_out g) -> Forall (synchronous g) pre -> Forall (synchronous g) flow -> Forall (flowing g) flow ->
    length (received g n (dinit g) pre) + length flow <= length (received g n (dinit g) (pre ++ flow)) + S.
  Proof using Hg HL HD.
    intros Hn HP HS HF. rewrite !received_words_lock by (assumption || apply lock_init || (apply Forall_app; auto)).
    destruct (out_root n Hn) as (u & U1 & U2 & U3 & U4 & _). rewrite !(words_root g n u _ _ U1 U2).
    set (I := seen (dinit g) (pre ++ flow)). pose proof (seen_extends (dinit g) (pre ++ flow)) as HI. fold I in HI.
    destruct (lock_run pre (dinit g) lock_init HP) as [FP LP].
    destruct (fair_words g Hg I pre (dinit g) (fun _ => 0) (kinv_init g Hg _) FP) as [_ (c & C1 & C2)].
    { intros m k x Hm Em Hx. apply (HI m k x Hm Em). rewrite words_app. rewrite nth_error_app1; [exact Hx|]. apply nth_error_Some. congruence. }
    assert (HC : forall x, hs x -> lev x = S -> c x = c u).
    { intros x X1 X2. assert (Rx : root g x = Some x) by (destruct X1 as [_ Hx]; unfold root; destruct (node g x); try contradiction; reflexivity).
      rewrite (C2 x Rx), (C2 u U2). f_equal. apply words_lev; (assumption || apply lock_init || lia). }
    rewrite words_app, app_length. destruct (Nat.eq_dec S 0) as [ES|ES].
    - (* no operators: the outputs are inputs *)
      enough (length flow <= length (words g u (drun g (dinit g) pre) flow)) by lia.
      pose proof (lev0_in u U3 ltac:(lia)) as Eu. destruct U3 as [U3 _]. clear - Eu HF U2 Hg HL U3 U4 ES. generalize (drun g (dinit g) pre) as s. induction flow as [|i flow IH]; intros s; [cbn; lia|].
      inversion HF as [|? ? F1 F2]; subst. specialize (IH F2 (dstep g s i)). rewrite words_cons, app_length. cbn [length]. unfold moved. rewrite U2. unfold release, vbase. rewrite Eu.
      rewrite (proj1 F1 u U3 Eu). assert (Hy : ready g s i u = true); [|rewrite Hy; cbn [andb length]; lia].
      apply (ready_true g Hg). assert (Hh : handshake (node g u)) by (rewrite Eu; exact Logic.I). split.
      + intros w Hw. pose proof (sinks_gt g Hg u w Hw) as (_ & G2 & _). pose proof (HL w G2) as [L1 L2]. apply sinks_in in Hw. destruct Hw as [_ (o & l & a & E & Ha & Hr)].
        rewrite E in *. destruct L1 as [_ L1]. destruct (L2 Logic.I) as [L2' _]. specialize (L1 a u Ha Hr). lia.
      + intros y Hy. apply outs_in in Hy. apply F1, Hy.
    - destruct (live_run I flow _ c (c u + 1) C1 LP HS HF) as (c' & D1 & D2 & D3).
      { intros w [Hw (o & l & E)]. assert (Hh : hs w) by (split; [exact Hw|rewrite E; exact Logic.I]).
        destruct (cnt_bounds I _ c _ C1 w Hh eq_refl) as (x & X1 & X2 & X3 & _). rewrite (HC x X1 ltac:(lia)) in X3. unfold ld.
        destruct (op_arg w o l Hw E) as [v Hv]. pose proof (sink_lev v w Hv). lia. }
      { intros m k x Hm Em Hx. assert (Rm : root g m = Some m) by (unfold root; rewrite Em; reflexivity). rewrite (C2 m Rm). apply (HI m _ x Hm Em). rewrite words_app. rewrite nth_error_app2 by lia.
        replace (0 + length (words g m (dinit g) pre) + k - length (words g m (dinit g) pre)) with k by lia. exact Hx. }
      destruct (levS_op u (Nat.pred S) U3 ltac:(lia)) as (o & l & v & E & _). specialize (D2 u ltac:(split; [apply U3|eauto])).
      unfold ld in D2. rewrite (held_front I _ c' u o l D1 (proj1 U3) E), U4 in D2. rewrite (D3 u U2), (C2 u U2) in D2.
      destruct (fst (front _ u)); cbn [Nat.b2n] in D2; lia.
  Qed.
End Lock.

(** ** Checkers for concrete graphs *)
Definition hsb (nd : dnode) : bool := match nd with NIn | NOp _ _ => true | _ => false end.
Definition emptyb {A} (l : list A) : bool := match l with [] => true | _ => false end.
Definition legalb (g : graph) : bool :=
  forallb (fun n => match node g n with
    | NOp _ l => forallb (fun a => a <? n) l
    | NPrev a r => (a <? n) && (r <? n) && hsb (node g r) && is_root g r a
    | _ => true end) (seq 0 (size g)) &&
  forallb (fun n => (n <? size g) && match root g n with Some _ => true | None => false end) (d_out g).
Definition levelledb (g : graph) (lev : nat -> nat) (S : nat) : bool :=
  forallb (fun n => match node g n with
    | NIn => lev n =? 0
    | NOp o l => (op_more o =? 0) && forallb (fun a => match root g a with Some u => lev n =? Datatypes.S (lev u) | None => true end) l
    | _ => true end &&
    implb (hsb (node g n)) ((lev n <=? S) && implb (lev n =? S) (negb (emptyb (outs_of g n))) && implb (lev n <? S) (negb (emptyb (sinks g n)) && emptyb (outs_of g n)))) (seq 0 (size g)).
Definition drivenb (g : graph) : bool :=
  forallb (fun n => match node g n with NOp _ l => existsb (fun a => match root g a with Some _ => true | None => false end) l | _ => true end) (seq 0 (size g)).
Definition privateb (g : graph) : bool :=
  forallb (fun n => match root g n with Some u => emptyb (sinks g u) && match outs_of g u with [m] => m =? n | _ => false end | None => true end) (d_out g).
Definition closedb (g : graph) : bool :=
  forallb (fun w => forallb (fun a => forallb (fun b => match root g a, root g b with
    | Some u, Some u' => (u =? u') || (if list_eq_dec Nat.eq_dec (sinks g u) (sinks g u') then true else false) && emptyb (outs_of g u) && emptyb (outs_of g u')
    | _, _ => true end) (args g w)) (args g w)) (seq 0 (size g)).
Lemma emptyb_eq {A} (l : list A) : emptyb l = true -> l = [].
Proof. destruct l; [reflexivity|discriminate]. Qed.
Lemma emptyb_neq {A} (l : list A) : negb (emptyb l) = true -> l <> [].
Proof. destruct l; [discriminate|congruence]. Qed.
Lemma hsb_hs nd : hsb nd = true <-> handshake nd.
Proof. destruct nd; cbn; split; auto; try discriminate; contradiction. Qed.
Lemma forallb_seq N f : forallb f (seq 0 N) = true -> forall n, n < N -> f n = true.
Proof. intros H n Hn. rewrite forallb_forall in H. apply H, in_seq. lia. Qed.
Lemma legalb_ok g : legalb g = true -> legal g.
Proof.
  unfold legalb. rewrite andb_true_iff. intros [H1 H2]. split.
  - intros n Hn. pose proof (forallb_seq _ _ H1 n Hn) as H. cbv beta in H. destruct (node g n) as [| |o l|a r]; auto.
    + rewrite Forall_forall. rewrite forallb_forall in H. intros a Ha. apply Nat.ltb_lt, H, Ha.
    + rewrite !andb_true_iff, !Nat.ltb_lt, hsb_hs, is_root_true in H. tauto.
  - rewrite Forall_forall. rewrite forallb_forall in H2. intros n Hn. specialize (H2 n Hn). apply andb_prop in H2. destruct H2 as [H2 H3].
    split; [apply Nat.ltb_lt, H2|]. destruct (root g n) as [u|]; [eauto|discriminate].
Qed.
Lemma levelledb_ok g lev S : levelledb g lev S = true -> levelled g lev S.
Proof.
  intros H n Hn. pose proof (forallb_seq _ _ H n Hn) as G. cbv beta in G. apply andb_prop in G. destruct G as [G1 G2]. split.
  - destruct (node g n) as [| |o l|]; auto; [apply Nat.eqb_eq, G1|]. apply andb_prop in G1. destruct G1 as [G1 G3]. split; [apply Nat.eqb_eq, G1|].
    intros a u Ha Hr. rewrite forallb_forall in G3. specialize (G3 a Ha). rewrite Hr in G3. apply Nat.eqb_eq, G3.
  - intros Hh. apply hsb_hs in Hh. rewrite Hh in G2. cbn [implb] in G2. rewrite !andb_true_iff in G2. destruct G2 as [[G2 G3] G4].
    split; [apply Nat.leb_le, G2|]. split.
    + intros E. apply Nat.eqb_eq in E. rewrite E in G3. apply emptyb_neq, G3.
    + intros E. apply Nat.ltb_lt in E. rewrite E in G4. cbn [implb] in G4. apply andb_prop in G4. split; [apply emptyb_neq, G4|apply emptyb_eq, G4].
Qed.
Lemma drivenb_ok g : drivenb g = true -> driven g.
Proof.
  intros H n Hn. pose proof (forallb_seq _ _ H n Hn) as G. cbv beta in G. destruct (node g n) as [| |o l|]; auto.
  apply existsb_exists in G. destruct G as (a & Ha & G). exists a. split; [exact Ha|]. destruct (root g a); [discriminate|discriminate].
Qed.
Lemma privateb_ok g : privateb g = true -> private g.
Proof.
  intros H n u Hn Hr. unfold privateb in H. rewrite forallb_forall in H. specialize (H n Hn). rewrite Hr in H. apply andb_prop in H. destruct H as [H1 H2].
  split; [apply emptyb_eq, H1|]. destruct (outs_of g u) as [|m [|]]; try discriminate. apply Nat.eqb_eq in H2. subst. reflexivity.
Qed.
Lemma closedb_ok g : closedb g = true -> closed g.
Proof.
  intros H w u u' Hu Hu'. apply sinks_in in Hu, Hu'. destruct Hu as [Hw (o & l & a & E & Ha & Hr)]. destruct Hu' as [_ (o' & l' & b & E' & Hb & Hr')].
  rewrite E in E'. injection E' as <- <-. pose proof (forallb_seq _ _ H w Hw) as G. cbv beta in G. unfold args in G. rewrite E in G.
  rewrite forallb_forall in G. specialize (G a Ha). rewrite forallb_forall in G. specialize (G b Hb). rewrite Hr, Hr' in G.
  apply orb_prop in G. destruct G as [G|G]; [left; apply Nat.eqb_eq, G|right].
  apply andb_prop in G. destruct G as [G G3]. apply andb_prop in G. destruct G as [G1 G2].
  destruct (list_eq_dec Nat.eq_dec (sinks g u) (sinks g u')) as [->|]; [|discriminate]. split; [reflexivity|]. split; apply emptyb_eq; assumption.
Qed.

Definition isin (nd : dnode) : bool := match nd with NIn => true | _ => false end.
Definition synchronousb (g : graph) (i : din) : bool :=
  forallb (fun m => forallb (fun n => implb (isin (node g m) && isin (node g n)) (Bool.eqb (i_valid i m) (i_valid i n))) (seq 0 (size g))) (seq 0 (size g)) &&
  forallb (fun m => forallb (fun n => Bool.eqb (o_ready i m) (o_ready i n)) (d_out g)) (d_out g).
Lemma synchronousb_ok g l : forallb (synchronousb g) l = true -> Forall (synchronous g) l.
Proof.
  rewrite forallb_forall, Forall_forall. intros H i Hi. specialize (H i Hi). apply andb_prop in H. destruct H as [H1 H2]. split.
  - intros m n Hm Hn Em En. pose proof (forallb_seq _ _ (forallb_seq _ _ H1 m Hm) n Hn) as H. cbv beta in H. rewrite Em, En in H. apply Bool.eqb_prop, H.
  - intros m n Hm Hn. rewrite forallb_forall in H2. specialize (H2 m Hm). rewrite forallb_forall in H2. apply Bool.eqb_prop, H2, Hn.
Qed.
