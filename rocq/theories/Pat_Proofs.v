From Verif Require Import Base Pat_Model Pat_Spec.
Open Scope Z_scope.

(** ** Ranges *)
Lemma upto_S k : 0 <= k -> upto (k + 1) = 0 :: map (Z.add 1) (upto k).
Proof.
  intros H. unfold upto. replace (Z.to_nat (k + 1)) with (S (Z.to_nat k)) by lia.
  cbn [List.seq map]. f_equal. rewrite <- seq_shift, !map_map. apply map_ext. intros; lia.
Qed.
Lemma upto_1 : upto 1 = [0].
Proof. reflexivity. Qed.

Fixpoint vis (size stride : list Z) : list Z :=
  match size, stride with
  | s :: size, d :: stride => flat_map (fun o => map (fun i => i * d + o) (upto s)) (vis size stride)
  | _, _ => [0]
  end.
Lemma flat_map_map {A B C} (f : B -> list C) (g : A -> B) l : flat_map f (map g l) = flat_map (fun x => f (g x)) l.
Proof. induction l; cbn; [reflexivity|]. rewrite IHl. reflexivity. Qed.
Lemma map_flat_map {A B C} (f : B -> C) (g : A -> list B) l : map f (flat_map g l) = flat_map (fun x => map f (g x)) l.
Proof. induction l; cbn; [reflexivity|]. rewrite map_app, IHl. reflexivity. Qed.
Lemma visits_vis p : visits p = vis (map fst p) (map snd p).
Proof.
  unfold visits. induction p as [|[s d] p IH]; [reflexivity|]. cbn [map fst snd tuples vis].
  rewrite <- IH, flat_map_map, map_flat_map.
  apply flat_map_ext. intros t. rewrite map_map. reflexivity.
Qed.

(** ** Congruence of lists *)
Definition cong (M : Z) (l l' : list Z) : Prop := Forall2 (fun a b => a mod M = b mod M) l l'.
Lemma cong_refl M l : cong M l l.
Proof. induction l; constructor; auto. Qed.
Lemma cong_trans M a b c : cong M a b -> cong M b c -> cong M a c.
Proof.
  intros H. revert c. induction H; intros c K; inversion K; subst; constructor; [congruence|].
  apply IHForall2. assumption.
Qed.
Lemma cong_map M (f g : Z -> Z) l l' : (forall a b, a mod M = b mod M -> f a mod M = g b mod M) -> cong M l l' -> cong M (map f l) (map g l').
Proof. intros H K. induction K; constructor; auto. Qed.
Lemma cong_flat_map M (f g : Z -> list Z) l l' : (forall a b, a mod M = b mod M -> cong M (f a) (g b)) -> cong M l l' -> cong M (flat_map f l) (flat_map g l').
Proof. intros H K. induction K as [|x y l l' E K IH]; cbn; [constructor|]. apply Forall2_app; [apply H, E|exact IH]. Qed.
Lemma cong_map_mod M off l l' : cong M l l' -> map (fun o => (off + o) mod M) l = map (fun o => (off + o) mod M) l'.
Proof.
  intros K. induction K; cbn; [reflexivity|]. f_equal; [|assumption].
  rewrite (Zplus_mod off x), H, <- Zplus_mod. reflexivity.
Qed.
Lemma cong_map_off M off off' l : off mod M = off' mod M -> map (fun o => (off + o) mod M) l = map (fun o => (off' + o) mod M) l.
Proof. intros E. apply map_ext. intros a. rewrite Zplus_mod, E, <- Zplus_mod. reflexivity. Qed.

Lemma cong_map2 M (f g : Z -> Z) (l : list Z) : (forall a, f a mod M = g a mod M) -> cong M (map f l) (map g l).
Proof. intros H. induction l; constructor; auto. Qed.
Lemma cong_vis M size stride stride' : cong M stride stride' -> cong M (vis size stride) (vis size stride').
Proof.
  revert stride stride'. induction size as [|s size IH]; intros stride stride' H; [apply cong_refl|].
  destruct H as [|d d' stride stride' E H]; [apply cong_refl|]. cbn [vis].
  apply cong_flat_map; [|auto].
  intros a b Eab. apply cong_map2. intros i. rewrite Zplus_mod, Zmult_mod, E, Eab, <- Zmult_mod, <- Zplus_mod. reflexivity.
Qed.

(** ** Padding *)
Lemma vis_pad size stride n : length size = length stride ->
  vis (size ++ repeat 1 n) (stride ++ repeat 0 n) = vis size stride.
Proof.
  revert stride. induction size as [|s size IH]; intros [|d stride] E; try discriminate E.
  - cbn [app vis]. clear E. induction n; [reflexivity|]. cbn [repeat vis]. rewrite IHn. reflexivity.
  - cbn [app vis]. rewrite IH; [reflexivity|]. cbn in E. lia.
Qed.

(** ** The odometer *)
Section Odo.
  Variable aw : Z.
  Hypothesis Haw : 0 <= aw.
  Let M := 2 ^ aw.

  Inductive wf : list Z -> list Z -> list Z -> list Z -> Prop :=
  | wf_nil : wf [] [] [] []
  | wf_cons c s d k cu si sd cn : 1 <= s < 2 ^ (aw + 1) -> 0 <= k < s -> wf cu si sd cn -> wf (c :: cu) (s :: si) (d :: sd) (k :: cn).

  (** What remains to be visited, the present position first *)
  Fixpoint rem (cur size stride cnt : list Z) : list Z :=
    match cur, size, stride, cnt with
    | c :: cur, s :: size, d :: stride, k :: cnt =>
        match rem cur size stride cnt with
        | [] => []
        | o :: os => map (fun i => c + i * d + o) (upto (k + 1)) ++ flat_map (fun o => map (fun i => i * d + o) (upto s)) os
        end
    | _, _, _, _ => [0]
    end.

  Lemma rem_hd cur size stride cnt : wf cur size stride cnt ->
    exists l, rem cur size stride cnt = fold_right Z.add 0 cur :: l.
  Proof.
    induction 1 as [|c s d k cu si sd cn Hs Hk W IH]; [exists []; reflexivity|].
    destruct IH as [l E]. cbn [rem fold_right]. rewrite E, upto_S by lia. cbn [map app].
    eexists. f_equal. lia.
  Qed.
  Lemma fold_left_add l z : fold_left Z.add l z = z + fold_right Z.add 0 l.
  Proof. revert z. induction l; intros z; cbn [fold_left fold_right]; [lia|]. rewrite IHl. lia. Qed.

  Lemma odo_false cur size stride cnt fc fk : wf cur size stride cnt -> length fc = length cur -> length fk = length cur ->
    odo aw false cur size stride cnt fc fk = (fc, fk, false).
  Proof.
    intros W. revert fc fk. induction W; intros fc fk E1 E2; destruct fc, fk; try discriminate; [reflexivity|].
    cbn [odo andb]. rewrite IHW by (cbn in *; lia). reflexivity.
  Qed.
  Lemma wf_len cur size stride cnt : wf cur size stride cnt ->
    length size = length cur /\ length stride = length cur /\ length cnt = length cur.
  Proof. induction 1; cbn; [auto|]. lia. Qed.
  Lemma pow1 : 2 ^ (aw + 1) = 2 * M.
  Proof. unfold M. rewrite Z.pow_add_r by lia. lia. Qed.
  Lemma dec_mod s : 1 <= s < 2 ^ (aw + 1) -> (s - 1) mod 2 ^ (aw + 1) = s - 1.
  Proof. intros H. apply Z.mod_small. lia. Qed.

  Lemma wf_start size stride (any : list Z) : Forall (fun s => 1 <= s < 2 ^ (aw + 1)) size -> length stride = length size -> length any = length size ->
    wf (map (fun _ => 0) any) size stride (map (fun s => (s - 1) mod 2 ^ (aw + 1)) size).
  Proof.
    intros F. revert stride any. induction F as [|s size Hs F IH]; intros [|d stride] [|a any] E1 E2; try discriminate; cbn [map]; constructor.
    - exact Hs.
    - rewrite dec_mod by exact Hs. lia.
    - apply IH; cbn in *; lia.
  Qed.
  Lemma rem_start size stride (any : list Z) : Forall (fun s => 1 <= s < 2 ^ (aw + 1)) size -> length stride = length size -> length any = length size ->
    rem (map (fun _ => 0) any) size stride (map (fun s => (s - 1) mod 2 ^ (aw + 1)) size) = vis size stride.
  Proof.
    intros F. revert stride any. induction F as [|s size Hs F IH]; intros [|d stride] [|a any] E1 E2; try discriminate; [reflexivity|].
    cbn [map rem vis]. pose proof (wf_start size stride any F ltac:(cbn in *; lia) ltac:(cbn in *; lia)) as W.
    destruct (rem_hd _ _ _ _ W) as [l El]. rewrite IH in * by (cbn in *; lia). rewrite El.
    cbn [flat_map]. rewrite dec_mod by exact Hs. replace (s - 1 + 1) with s by lia.
    f_equal; apply map_ext; intros; lia.
  Qed.

  Lemma odo_true cur size stride cnt : wf cur size stride cnt ->
    forall cs ks f, odo aw true cur size stride cnt cur cnt = (cs, ks, f) ->
    wf cs size stride ks /\
    if f then tl (rem cur size stride cnt) = [] /\ cs = map (fun _ => 0) cur /\ ks = map (fun s => (s - 1) mod 2 ^ (aw + 1)) size
    else rem cs size stride ks <> [] /\ cong M (rem cs size stride ks) (tl (rem cur size stride cnt)).
  Proof.
    induction 1 as [|c s d k cu si sd cn Hs Hk W IH]; intros cs ks f E.
    { cbn in E. injection E as <- <- <-. repeat split. constructor. }
    cbn [odo andb] in E. destruct (wf_len _ _ _ _ W) as (L1 & L2 & L3).
    destruct (rem_hd _ _ _ _ W) as [l El].
    destruct (Z.eqb_spec k 0) as [Ek|Ek].
    - destruct (odo aw true cu si sd cn cu cn) as [[cs' ks'] f'] eqn:Eo.
      injection E as <- <- <-. destruct (IH _ _ _ eq_refl) as [W' H']. split.
      { constructor; auto. rewrite dec_mod by exact Hs. lia. }
      destruct f'.
      + destruct H' as (Et & -> & ->). rewrite El in Et. cbn [tl] in Et. subst l.
        cbn [rem]. rewrite El, Ek. split; [reflexivity|]. split; reflexivity.
      + destruct H' as (Hn & H'). cbn [rem]. rewrite El in *. cbn [tl] in H'.
        destruct (rem cs' si sd ks') as [|o os] eqn:Er; [contradiction|].
        subst k. change (0 + 1) with 1. rewrite upto_1. cbn [map app tl].
        rewrite dec_mod by exact Hs. replace (s - 1 + 1) with s by lia.
        assert (flat_map (fun o => map (fun i => i * d + o) (upto s)) (o :: os)
          = map (fun i => 0 + i * d + o) (upto s) ++ flat_map (fun o => map (fun i => i * d + o) (upto s)) os) as <-
          by (cbn [flat_map]; f_equal).
        split.
        * cbn [flat_map]. replace s with (s - 1 + 1) by lia. rewrite upto_S by lia. discriminate.
        * apply cong_flat_map; [|exact H']. intros a b Eab. apply cong_map2. intros i.
          rewrite Zplus_mod, Eab, <- Zplus_mod. reflexivity.
    - rewrite odo_false in E by (auto; lia). injection E as <- <- <-.
      assert (Ek1 : (k - 1) mod 2 ^ (aw + 1) = k - 1) by (apply Z.mod_small; lia).
      split; [constructor; auto; rewrite Ek1; lia|].
      cbn [rem]. rewrite El, Ek1. replace (k - 1 + 1) with (k - 1 + 1) by lia. rewrite !upto_S by lia. cbn [map app tl].
      split; [discriminate|].
      replace (map (fun i => c + i * d + fold_right Z.add 0 cu) (map (Z.add 1) (upto k)))
        with (map (fun i => c + d + i * d + fold_right Z.add 0 cu) (upto k))
        by (rewrite map_map; apply map_ext; intros; lia).
      replace (upto k) with (upto (k - 1 + 1)) by (f_equal; lia). rewrite upto_S by lia. cbn [map app].
      rewrite !map_map.
      match goal with |- cong _ (?a :: ?b ++ ?t) (?a' :: ?b' ++ ?t) => change (cong M ((a :: b) ++ t) ((a' :: b') ++ t)) end.
      apply Forall2_app; [|apply cong_refl]. unfold M. constructor.
      + rewrite <- !Z.add_assoc. rewrite Zplus_mod_idemp_l. f_equal. lia.
      + apply cong_map2. intros i. rewrite <- !Z.add_assoc. rewrite Zplus_mod_idemp_l. f_equal. lia.
  Qed.
  Lemma all_offset_rem off cur size stride cnt : wf cur size stride cnt ->
    exists l, map (fun o => (off + o) mod M) (rem cur size stride cnt) = all_offset aw off cur :: map (fun o => (off + o) mod M) l /\
      rem cur size stride cnt = fold_right Z.add 0 cur :: l.
  Proof.
    intros W. destruct (rem_hd _ _ _ _ W) as [l E]. exists l. split; [|exact E]. rewrite E. cbn [map]. unfold all_offset.
    rewrite fold_left_add. reflexivity.
  Qed.
End Odo.

(** ** Stalls *)
Section Stall.
  Context {X I O : Type}.
  Variable step : X -> I -> X.
  Variable out : X -> I -> list O.
  Variable rdy : I -> bool.
  Variable P : I -> Prop.
  Hypothesis Hs : forall x i, P i -> rdy i = false -> step x i = x.
  Hypothesis Ho : forall x i, rdy i = false -> out x i = [].
  Lemma trace_filter x ins : Forall P ins -> trace step out x ins = trace step out x (filter rdy ins) /\
    final step x ins = final step x (filter rdy ins).
  Proof.
    unfold trace, final. intros F. revert x. induction F as [|i ins Pi F IH]; intros x; [split; reflexivity|]. cbn [filter].
    destruct (rdy i) eqn:E; cbn [outs concat fold_left].
    - destruct (IH (step x i)) as [-> ->]. split; reflexivity.
    - rewrite Hs, Ho by assumption. cbn [app]. apply IH.
  Qed.
End Stall.
Lemma trace_cons {X I O} (step : X -> I -> X) (out : X -> I -> list O) x i ins :
  trace step out x (i :: ins) = out x i ++ trace step out (step x i) ins.
Proof. reflexivity. Qed.
Lemma trace_app {X I O} (step : X -> I -> X) (out : X -> I -> list O) x a b :
  trace step out x (a ++ b) = trace step out x a ++ trace step out (final step x a) b.
Proof.
  revert x. induction a as [|i a IH]; intros x; [reflexivity|]. cbn [app]. rewrite !trace_cons, IH, app_assoc. reflexivity.
Qed.

(** ** Sources *)
Definition src_ok (n : nat) (x : src) : Prop :=
  length (cur x) = n /\ length (size x) = n /\ length (stride x) = n /\ length (cnt x) = n /\
  (st x = 0%nat -> en x = false) /\ (st x <= 2)%nat.

Lemma odo_len aw up a b c d e f n : length a = n -> length b = n -> length c = n -> length d = n -> length e = n -> length f = n ->
  length (fst (fst (odo aw up a b c d e f))) = n /\ length (snd (fst (odo aw up a b c d e f))) = n.
Proof.
  revert up b c d e f n. induction a as [|x a IH]; intros up b c d e f n H1 H2 H3 H4 H5 H6; destruct b, c, d, e, f; cbn in *; subst; try discriminate; [split; reflexivity|].
  specialize (IH (up && (z1 =? 0)) b c d e f (length a)).
  destruct (odo aw (up && (z1 =? 0)) a b c d e f) as [[cs ks] ff]. cbn in *. destruct IH; try lia; auto.
Qed.
Lemma src_ok_step aw n x i : src_ok n x -> sized n (set i) -> src_ok n (src_step aw x i).
Proof.
  intros (H1 & H2 & H3 & H4 & H5 & H6) [S1 S2]. unfold src_step. destruct (ordy i); cbn [negb]; [|repeat split; assumption].
  set (cur0 := if start i then _ else cur x). set (cnt0 := if start i then _ else cnt x).
  assert (L1 : length cur0 = n) by (unfold cur0; destruct (start i); rewrite ?map_length; assumption).
  assert (L2 : length cnt0 = n) by (unfold cnt0; destruct (start i); rewrite ?map_length; assumption).
  assert (L3 : length (if start i then s_sizes (set i) else size x) = n) by (destruct (start i); assumption).
  assert (L4 : length (if start i then s_strides (set i) else stride x) = n) by (destruct (start i); assumption).
  destruct (st x) as [|[|q]].
  - unfold src_ok; cbn. repeat split; auto. destruct (start i); lia.
  - pose proof (odo_len aw true (cur x) (size x) (stride x) (cnt x) cur0 cnt0 n H1 H2 H3 H4 L1 L2) as [K1 K2].
    destruct (odo aw true (cur x) (size x) (stride x) (cnt x) cur0 cnt0) as [[cs ks] f]. cbn in K1, K2.
    unfold src_ok; cbn. repeat split; auto.
    + destruct f; [discriminate|]. destruct (stop i); [reflexivity|discriminate].
    + destruct f; [lia|]. destruct (stop i); lia.
  - unfold src_ok; cbn. repeat split; auto; lia.
Qed.
Lemma src_ok_final aw n x ins : src_ok n x -> Forall (fun i => sized n (set i)) ins -> src_ok n (final (src_step aw) x ins).
Proof. intros H F. revert x H. induction F; intros x0 H0; [exact H0|]. cbn. apply IHF. apply src_ok_step; assumption. Qed.
Lemma src_ok_reset n : src_ok n (src_reset n).
Proof. unfold src_ok, src_reset; cbn. rewrite !repeat_length. repeat split; auto. Qed.

Section Source.
  Variable aw : Z.
  Hypothesis Haw : 0 <= aw.

  Definition todo (x : src) : list Z := map (fun o => (off x + o) mod 2 ^ aw) (rem (cur x) (size x) (stride x) (cnt x)).
  Definition running (x : src) : Prop := st x = 1%nat /\ wf aw (cur x) (size x) (stride x) (cnt x).

  Lemma src_run_step x i : running x -> ordy i = true -> start i = false -> stop i = false ->
    let y := src_step aw x i in
    exists a l, todo x = a :: l /\ addr y = a /\ en y = true /\ idle y = false /\
      ((l = [] /\ st y = 2%nat) \/ (running y /\ todo y = l)).
  Proof.
    intros [E1 W] Er Es Et. unfold src_step. rewrite Er, Es, Et, E1. cbn [negb].
    destruct (all_offset_rem aw (off x) _ _ _ _ W) as (l & El & Erem).
    destruct (odo aw true (cur x) (size x) (stride x) (cnt x) (cur x) (cnt x)) as [[cs ks] f] eqn:Eo.
    destruct (odo_true aw Haw _ _ _ _ W _ _ _ Eo) as [W' H].
    exists (all_offset aw (off x) (cur x)), (map (fun o => (off x + o) mod 2 ^ aw) l).
    split; [exact El|]. cbn. repeat (split; [reflexivity|]).
    rewrite Erem in H. cbn [tl] in H. destruct f.
    - left. destruct H as [-> _]. split; reflexivity.
    - right. split; [split; [reflexivity|exact W']|]. unfold todo. cbn.
      apply cong_map_mod. apply H.
  Qed.
  Lemma src_end_step x i : st x = 2%nat -> ordy i = true -> start i = false ->
    let y := src_step aw x i in st y = 0%nat /\ en y = false /\ idle y = true.
  Proof. intros E Er Es. unfold src_step. rewrite Er, Es, E. cbn. auto. Qed.
  Lemma src_wait_step x i : st x = 0%nat -> ordy i = true -> start i = false ->
    let y := src_step aw x i in st y = 0%nat /\ en y = false /\ idle y = idle x.
  Proof. intros E Er Es. unfold src_step. rewrite Er, Es, E. cbn. auto. Qed.

  Definition go (i : sin) : Prop := start i = false /\ stop i = false /\ ordy i = true.

  Lemma src_wait ins x : st x = 0%nat -> en x = false -> Forall go ins ->
    trace (src_step aw) src_read x ins = [] /\
    let y := final (src_step aw) x ins in st y = 0%nat /\ en y = false /\ idle y = idle x.
  Proof.
    intros H1 H2 F. revert x H1 H2. induction F as [|i ins (Es & Et & Er) F IH]; intros x H1 H2; [auto|].
    destruct (src_wait_step x i H1 Er Es) as (K1 & K2 & K3). rewrite trace_cons.
    destruct (IH _ K1 K2) as (-> & L). unfold src_read. rewrite H2, andb_false_r. split; [reflexivity|].
    cbn. cbn in L. rewrite <- K3. exact L.
  Qed.
  (** with a read pending *)
  Lemma src_busy ins x l : (running x /\ todo x = l \/ st x = 2%nat /\ l = []) -> en x = true -> idle x = false -> Forall go ins ->
    trace (src_step aw) src_read x ins = firstn (length ins) (addr x :: l) /\
    let y := final (src_step aw) x ins in
    ((length ins <= length l)%nat -> en y = true /\ idle y = false /\ nth_error (addr x :: l) (length ins) = Some (addr y)) /\
    ((length l < length ins)%nat -> st y = 0%nat /\ en y = false /\ idle y = true).
  Proof.
    intros H He Hi F. revert x l H He Hi. induction F as [|i ins (Es & Et & Er) F IH]; intros x l H He Hi.
    { split; [reflexivity|]. cbn. split; intros; [auto|lia]. }
    rewrite trace_cons. assert (Eo : src_read x i = [addr x]) by (unfold src_read; rewrite Er, He; reflexivity).
    rewrite Eo. cbn [length firstn app final fold_left]. change (fold_left (src_step aw) ins) with (fun z => final (src_step aw) z ins). cbv beta.
    destruct H as [[Hr Ht]|[H2 ->]].
    - destruct (src_run_step x i Hr Er Es Et) as (a & l' & E & Ea & Ee & Ei & H').
      rewrite Ht in E. subst l. specialize (IH (src_step aw x i) l').
      destruct IH as (T & U & V); [destruct H' as [[-> ?]|[? ?]]; auto|exact Ee|exact Ei|].
      rewrite T, Ea, E. split; [reflexivity|]. cbn [length nth_error]. rewrite <- Ea. split; intros HL; [apply U|apply V]; clear - HL; lia.
    - destruct (src_end_step x i H2 Er Es) as (K1 & K2 & K3).
      destruct (src_wait ins _ K1 K2 F) as (-> & L). rewrite K3 in L. rewrite firstn_nil.
      split; [reflexivity|]. cbn. split; intros HL; [clear - HL; lia|exact L].
  Qed.
  Lemma src_begin ins x l : running x -> todo x = l -> en x = false -> Forall go ins ->
    trace (src_step aw) src_read x ins = firstn (length ins - 1) l /\
    let y := final (src_step aw) x ins in
    ((1 <= length ins <= length l)%nat -> en y = true /\ idle y = false /\ nth_error l (length ins - 1) = Some (addr y)) /\
    ((length l < length ins)%nat -> st y = 0%nat /\ en y = false /\ idle y = true).
  Proof.
    intros Hr Ht He F. destruct F as [|i ins (Es & Et & Er) F].
    { split; [reflexivity|]. cbn. split; intros; lia. }
    rewrite trace_cons. assert (Eo : src_read x i = []) by (unfold src_read; rewrite He, andb_false_r; reflexivity).
    rewrite Eo. destruct (src_run_step x i Hr Er Es Et) as (a & l' & E & Ea & Ee & Ei & H').
    rewrite Ht in E. subst l. rewrite ?E.
    destruct (src_busy ins (src_step aw x i) l') as (T & U & V); [destruct H' as [[-> ?]|[? ?]]; auto|exact Ee|exact Ei|exact F|].
    cbn [length app]. replace (S (length ins) - 1)%nat with (length ins) by lia. rewrite T, Ea.
    split; [reflexivity|]. cbn [final fold_left]. change (fold_left (src_step aw) ins) with (fun z => final (src_step aw) z ins). cbv beta.
    rewrite <- Ea. split; intros HL; [apply U|apply V]; clear - HL; lia.
  Qed.

  Lemma src_start x i n : src_ok n x -> st x = 0%nat -> ordy i = true -> start i = true -> sized n (set i) ->
    Forall (fun s => 1 <= s < 2 ^ (aw + 1)) (s_sizes (set i)) ->
    let y := src_step aw x i in
    running y /\ todo y = map (fun o => (s_off (set i) + o) mod 2 ^ aw) (vis (s_sizes (set i)) (s_strides (set i))) /\ en y = false.
  Proof.
    intros (H1 & H2 & H3 & H4 & H5 & H6) E0 Er Es [S1 S2] F. unfold src_step, running, todo. rewrite Er, Es, E0. cbn.
    repeat split.
    - apply wf_start; try assumption; lia.
    - rewrite rem_start; auto; lia.
  Qed.
End Source.

(** ** Settings *)
Lemma set_pattern_sized aw n o p s : set_pattern aw n o p = Some s -> sized n s.
Proof.
  unfold set_pattern. destruct p as [|a p]; [discriminate|]. remember (a :: p) as q. destruct (n <? length q)%nat eqn:E; [discriminate|].
  intros H. injection H as <-. apply Nat.ltb_ge in E. unfold sized; cbn [s_sizes s_strides].
  rewrite !map_length, app_length, repeat_length. clear - E. lia.
Qed.
Lemma repeat_map {A B} (f : A -> B) a n : map f (repeat a n) = repeat (f a) n.
Proof. induction n; cbn; congruence. Qed.
Lemma pad_sizes aw p k : 0 <= aw -> Forall (fun x => 1 <= fst x < 2 ^ (aw + 1)) p ->
  map (fun x => fst x mod 2 ^ (aw + 1)) (p ++ repeat (1, 0) k) = map fst p ++ repeat 1 k /\
  Forall (fun s => 1 <= s < 2 ^ (aw + 1)) (map fst p ++ repeat 1 k).
Proof.
  intros Haw F.
  assert (P1 : 2 <= 2 ^ (aw + 1)) by (rewrite Z.pow_add_r by lia; pose proof (Z.pow_pos_nonneg 2 aw); lia).
  rewrite map_app, repeat_map. cbn [fst].
  split.
  - f_equal; [|rewrite Z.mod_small by lia; reflexivity]. induction F as [|x p Hx F IH]; [reflexivity|]. cbn [map]. rewrite IH, Z.mod_small by lia. reflexivity.
  - apply Forall_app. split.
    + induction F; cbn; constructor; auto.
    + apply Forall_forall. intros s Hs. apply repeat_spec in Hs. subst. lia.
Qed.
Lemma cong_mod_map aw (p : pattern) : cong (2 ^ aw) (map (fun x => snd x mod 2 ^ aw) p) (map snd p).
Proof. induction p; cbn; constructor; [apply Zmod_mod|assumption]. Qed.
Lemma pad_vis aw o p k : 0 <= aw -> Forall (fun x => 1 <= fst x < 2 ^ (aw + 1)) p ->
  map (fun z => (o mod 2 ^ aw + z) mod 2 ^ aw)
    (vis (map (fun x => fst x mod 2 ^ (aw + 1)) (p ++ repeat (1, 0) k)) (map (fun x => snd x mod 2 ^ aw) (p ++ repeat (1, 0) k)))
  = addresses aw o p.
Proof.
  intros Haw F. destruct (pad_sizes aw p k Haw F) as [-> _].
  rewrite (cong_map_off _ _ o) by apply Zmod_mod.
  rewrite (cong_map_mod _ _ _ _ (cong_vis _ _ _ _ (cong_mod_map aw _))).
  rewrite map_app, (repeat_map snd). cbn [snd]. rewrite vis_pad by (rewrite !map_length; reflexivity).
  unfold addresses. rewrite visits_vis. reflexivity.
Qed.
Lemma set_pattern_addresses aw n o p s : 0 <= aw -> set_pattern aw n o p = Some s ->
  Forall (fun x => 1 <= fst x < 2 ^ (aw + 1)) p ->
  Forall (fun z => 1 <= z < 2 ^ (aw + 1)) (s_sizes s) /\
  map (fun z => (s_off s + z) mod 2 ^ aw) (vis (s_sizes s) (s_strides s)) = addresses aw o p.
Proof.
  intros Haw H F. unfold set_pattern in H. destruct p as [|a p]; [discriminate|]. remember (a :: p) as q.
  destruct (n <? length q)%nat; [discriminate|]. injection H as <-. cbn [s_off s_sizes s_strides].
  split; [|apply pad_vis; assumption]. destruct (pad_sizes aw q (n - length q) Haw F) as [-> G]. exact G.
Qed.

Lemma quiet_go ins : Forall quiet ins -> Forall go (filter ordy ins).
Proof.
  induction 1 as [|i ins [H1 H2] F IH]; [constructor|]. cbn. destruct (ordy i) eqn:E; [|exact IH].
  constructor; [unfold go; auto|exact IH].
Qed.
Lemma src_filter aw x ins : trace (src_step aw) src_read x ins = trace (src_step aw) src_read x (filter ordy ins) /\
  final (src_step aw) x ins = final (src_step aw) x (filter ordy ins).
Proof.
  apply (trace_filter (src_step aw) src_read ordy (fun _ => True)).
  - intros y i _ E. unfold src_step. rewrite E. reflexivity.
  - intros y i E. unfold src_read. rewrite E. reflexivity.
  - apply Forall_forall. auto.
Qed.

Theorem source_pattern aw n o p s pre i0 ins : 0 <= aw ->
  set_pattern aw n o p = Some s -> Forall (fun x => 1 <= fst x < 2 ^ (aw + 1)) p ->
  Forall (fun i => sized n (set i)) pre ->
  let x := final (src_step aw) (src_reset n) pre in
  st x = 0%nat -> ordy i0 = true -> start i0 = true -> set i0 = s -> Forall quiet ins ->
  let y := src_step aw x i0 in
  let z := final (src_step aw) y ins in
  src_read x i0 = [] /\
  trace (src_step aw) src_read y ins = firstn (n_ready ins - 1) (addresses aw o p) /\
  ((1 <= n_ready ins <= length (addresses aw o p))%nat -> en z = true /\ idle z = false /\ nth_error (addresses aw o p) (n_ready ins - 1) = Some (addr z)) /\
  ((length (addresses aw o p) < n_ready ins)%nat -> st z = 0%nat /\ en z = false /\ idle z = true).
Proof.
  intros Haw Hs F Fp x E0 Er Es Eset Q y z.
  pose proof (src_ok_final aw n _ pre (src_ok_reset n) Fp) as K. fold x in K.
  destruct (set_pattern_addresses aw n o p s Haw Hs F) as [G A].
  subst s. destruct (src_start aw Haw x i0 n K E0 Er Es (set_pattern_sized _ _ _ _ _ Hs) G) as (R & T & Ee).
  rewrite A in T. fold y in R, T, Ee.
  destruct (src_filter aw y ins) as [F1 F2].
  destruct (src_begin aw Haw (filter ordy ins) y _ R T Ee (quiet_go _ Q)) as (B1 & B2 & B3).
  split; [unfold src_read; destruct K as (_ & _ & _ & _ & K & _); rewrite K, andb_false_r by exact E0; reflexivity|].
  split; [rewrite F1; exact B1|]. unfold z. rewrite F2. split; assumption.
Qed.

(** Stop *)
Lemma src_stop_step aw n x i : src_ok n x -> ordy i = true -> start i = false -> stop i = true ->
  let y := src_step aw x i in en y = false /\ (st y = 0%nat \/ st y = 2%nat).
Proof.
  intros (_ & _ & _ & _ & H5 & H6) Er Es Et. unfold src_step. rewrite Er, Es, Et. cbn [negb].
  destruct (st x) as [|[|q]].
  - cbn. auto.
  - destruct (odo _ _ _ _ _ _ _ _) as [[cs ks] f]. cbn. destruct f; auto.
  - cbn. auto.
Qed.
Lemma src_stopped aw ins x : (st x = 0%nat \/ st x = 2%nat) -> en x = false -> Forall (fun i => start i = false /\ ordy i = true) ins ->
  trace (src_step aw) src_read x ins = [] /\
  ((1 <= length ins)%nat -> st (final (src_step aw) x ins) = 0%nat).
Proof.
  intros H He F. revert x H He. induction F as [|i ins (Es & Er) F IH]; intros x H He; [split; [reflexivity|cbn; lia]|].
  rewrite trace_cons. unfold src_read at 1. rewrite He, andb_false_r. cbn [app final fold_left].
  change (fold_left (src_step aw) ins) with (fun z => final (src_step aw) z ins). cbv beta.
  assert (K : st (src_step aw x i) = 0%nat /\ en (src_step aw x i) = false).
  { unfold src_step. rewrite Er, Es. destruct H as [H|H]; rewrite H; cbn; auto. }
  destruct K as [K1 K2]. destruct (IH _ (or_introl K1) K2) as [T U]. split; [exact T|]. intros _.
  destruct ins; [exact K1|]. apply U. cbn; lia.
Qed.
Lemma firstn_snoc {A} (l : list A) k a : nth_error l k = Some a -> firstn k l ++ [a] = firstn (S k) l.
Proof.
  revert l. induction k; intros [|b l] E; try discriminate; cbn in *; [congruence|]. rewrite IHk by exact E. reflexivity.
Qed.
Theorem source_stop aw n o p s pre i0 ins1 i1 ins2 : 0 <= aw ->
  set_pattern aw n o p = Some s -> Forall (fun x => 1 <= fst x < 2 ^ (aw + 1)) p ->
  Forall (fun i => sized n (set i)) pre ->
  let x := final (src_step aw) (src_reset n) pre in
  st x = 0%nat -> ordy i0 = true -> start i0 = true -> set i0 = s -> Forall quiet ins1 -> Forall (fun i => sized n (set i)) ins1 ->
  ordy i1 = true -> start i1 = false -> stop i1 = true -> Forall (fun i => start i = false) ins2 ->
  let y := src_step aw x i0 in
  trace (src_step aw) src_read y (ins1 ++ i1 :: ins2) = firstn (n_ready ins1) (addresses aw o p) /\
  ((1 <= n_ready ins2)%nat -> st (final (src_step aw) y (ins1 ++ i1 :: ins2)) = 0%nat).
Proof.
  intros Haw Hs F Fp x E0 Er Es Eset Q1 Fs1 Er1 Es1 Et1 Q2 y.
  destruct (source_pattern aw n o p s pre i0 ins1 Haw Hs F Fp E0 Er Es Eset Q1) as (_ & T & U & V).
  fold x in T, U, V. fold y in T, U, V.
  assert (K : src_ok n (final (src_step aw) y ins1)).
  { apply src_ok_final; [|exact Fs1]. apply src_ok_step; [apply src_ok_final; [apply src_ok_reset|exact Fp]|]. rewrite Eset.
    apply (set_pattern_sized _ _ _ _ _ Hs). }
  set (w := final (src_step aw) y ins1) in *.
  destruct (src_stop_step aw n w i1 K Er1 Es1 Et1) as [Z1 Z2].
  destruct (src_filter aw (src_step aw w i1) ins2) as [F1 F2].
  assert (Q : Forall (fun i => start i = false /\ ordy i = true) (filter ordy ins2)).
  { clear - Q2. induction Q2; cbn; [constructor|]. destruct (ordy x) eqn:E; auto. }
  destruct (src_stopped aw (filter ordy ins2) _ Z2 Z1 Q) as [S1 S2].
  rewrite trace_app, trace_cons, T. fold w. rewrite F1, S1, app_nil_r.
  split.
  - unfold src_read. rewrite Er1. cbn [andb].
    destruct (Nat.eq_dec (n_ready ins1) 0) as [Ez|Ez].
    + (* nothing ready so far *)
      assert (E : en w = false).
      { unfold w. destruct (src_filter aw y ins1) as [_ ->]. unfold n_ready in Ez. apply length_zero_iff_nil in Ez. rewrite Ez. cbn.
        unfold y, src_step. rewrite Er. cbn [negb]. rewrite E0. reflexivity. }
      rewrite E, Ez. reflexivity.
    + destruct (Nat.le_gt_cases (n_ready ins1) (length (addresses aw o p))) as [L|L].
      * destruct (U ltac:(lia)) as (E & _ & N). rewrite E. rewrite (firstn_snoc _ _ _ N). f_equal. lia.
      * destruct (V ltac:(lia)) as (_ & E & _). rewrite E, app_nil_r. rewrite !firstn_all2 by lia. reflexivity.
  - intros H. unfold final. rewrite fold_left_app. cbn [fold_left]. fold (final (src_step aw) y ins1). fold w.
    fold (final (src_step aw) (src_step aw w i1) ins2). rewrite F2. apply S2. exact H.
Qed.

(** ** Several patterns *)
Lemma shift_self {A} (a : A) l : exists z, shift (a :: l) (a :: l) = l ++ [z].
Proof.
  unfold shift. assert (E : exists z, skipn (length l) (a :: l) = [z]).
  { revert a. induction l as [|b l IH]; intros a; [exists a; reflexivity|]. cbn [length skipn]. apply IH. }
  destruct E as [z E]. exists z. rewrite E. reflexivity.
Qed.
(** the patterns still to come: [n] of them *)
Fixpoint coming (aw : Z) (S : list Z) (n : nat) (os : list Z) (ds : list (list Z)) : list Z :=
  match n, os, ds with
  | S n, o :: os, d :: ds => map (fun z => (o + z) mod 2 ^ aw) (vis S d) ++ coming aw S n os ds
  | _, _, _ => []
  end.
Lemma coming_app aw S n os ds z z' : (n <= length os)%nat -> (n <= length ds)%nat ->
  coming aw S n (os ++ z) (ds ++ z') = coming aw S n os ds.
Proof.
  revert os ds. induction n as [|n IH]; intros [|o os] [|d ds] H1 H2; cbn [coming app length] in *; try reflexivity; try lia.
  rewrite IH by lia. reflexivity.
Qed.

Section Multi.
  Variable aw nw : Z.
  Hypothesis Haw : 0 <= aw.
  Hypothesis Hnw : 0 <= nw.

  (** [S] is the common list of sizes of the current line and the next [n] lines *)
  Definition m_lines (S : list Z) (n : nat) (offs : list Z) (sizes strides : list (list Z)) : Prop :=
    exists o d si os ds, offs = o :: os /\ sizes = S :: si /\ strides = d :: ds /\
      (n <= length os)%nat /\ length os = length ds /\ length os = length si /\
      (forall j, (j < n)%nat -> nth_error si j = Some S) /\ Forall (fun d => length d = length S) (d :: ds).
  Definition m_todo (S : list Z) (n : nat) (offs : list Z) (strides : list (list Z)) (cur cnt : list Z) : list Z :=
    map (fun z => (nth 0 offs 0 + z) mod 2 ^ aw) (rem cur S (nth 0 strides []) cnt) ++ coming aw S n (tl offs) (tl strides).

  Lemma m_lines_shift S n offs sizes strides : m_lines S (Datatypes.S n) offs sizes strides ->
    m_lines S n (shift offs offs) (shift sizes sizes) (shift strides strides) /\
    coming aw S (Datatypes.S n) (tl offs) (tl strides) =
      map (fun z => (nth 0 (shift offs offs) 0 + z) mod 2 ^ aw) (vis S (nth 0 (shift strides strides) [])) ++
      coming aw S n (tl (shift offs offs)) (tl (shift strides strides)) /\
    length (nth 0 (shift strides strides) []) = length S.
  Proof.
    intros (o & d & si & os & ds & -> & -> & -> & L1 & L2 & L3 & HS & HF).
    destruct (shift_self o os) as [zo Eo], (shift_self S si) as [zs Es], (shift_self d ds) as [zd Ed].
    destruct os as [|o1 os]; [cbn in L1; lia|]. destruct ds as [|d1 ds]; [discriminate|]. destruct si as [|s1 si]; [discriminate|].
    assert (E1 : s1 = S) by (specialize (HS 0%nat ltac:(lia)); cbn in HS; congruence). subst s1.
    rewrite Eo, Es, Ed. cbn [app tl nth coming]. cbn [length] in *. split; [|split].
    - exists o1, d1, (si ++ [zs]), (os ++ [zo]), (ds ++ [zd]). rewrite !app_length. cbn [length].
      repeat split; try reflexivity; try lia.
      + intros j Hj. specialize (HS (Datatypes.S j) ltac:(lia)). cbn in HS.
        rewrite nth_error_app1; [exact HS|]. apply nth_error_Some. congruence.
      + inversion HF as [|? ? Ha HF' ]; subst. inversion HF' as [|? ? Hb HF'']; subst.
        change (d1 :: ds ++ [zd]) with ((d1 :: ds) ++ [zd]). apply Forall_app. split; [exact HF'|].
        constructor; [|constructor]. assert (In zd (shift (d :: d1 :: ds) (d :: d1 :: ds))) by (rewrite Ed; apply in_app_iff; right; left; reflexivity).
        assert (Hin : In zd (d :: d1 :: ds)).
        { unfold shift in H. apply in_app_iff in H. destruct H as [H|H]; [right; exact H|].
          rewrite <- (firstn_skipn (length (d1 :: ds)) (d :: d1 :: ds)). apply in_app_iff. right. exact H. }
        rewrite Forall_forall in HF. apply HF, Hin.
    - rewrite coming_app by lia. reflexivity.
    - rewrite Forall_forall in HF. apply HF. right. left. reflexivity.
  Qed.
  Lemma m_lines_hd S n offs sizes strides : m_lines S n offs sizes strides -> nth 0 sizes [] = S.
  Proof. intros (o & d & si & os & ds & -> & -> & -> & _). reflexivity. Qed.

  Definition m_running (S : list Z) (n : nat) (x : msrc) : Prop :=
    m_st x = 1%nat /\ num x = Z.of_nat n /\ Z.of_nat n < 2 ^ nw /\ m_lines S n (m_offs x) (m_sizes x) (m_strides x) /\
    Forall (fun s => 1 <= s < 2 ^ (aw + 1)) S /\ wf aw (m_cur x) S (nth 0 (m_strides x) []) (m_cnt x).
  Definition mtodo (S : list Z) (n : nat) (x : msrc) : list Z := m_todo S n (m_offs x) (m_strides x) (m_cur x) (m_cnt x).
  Definition m_go (i : min) : Prop := m_start i = false /\ m_stop i = false /\ m_set i = None /\ m_ordy i = true.

  Lemma m_run_step S n x i : m_running S n x -> m_go i ->
    let y := msrc_step aw nw x i in
    exists a l, mtodo S n x = a :: l /\ m_addr y = a /\ m_en y = true /\ m_idle y = false /\
      ((l = [] /\ m_st y = 2%nat) \/ exists m, m_running S m y /\ mtodo S m y = l).
  Proof.
    intros (E1 & En & Hn & HL & HS & W) (Es & Et & Em & Er). unfold msrc_step. rewrite Er, Es, Et, E1, Em. cbn [negb].
    rewrite (m_lines_hd _ _ _ _ _ HL).
    destruct (all_offset_rem aw (nth 0 (m_offs x) 0) _ _ _ _ W) as (l & El & Erem).
    destruct (odo aw true (m_cur x) S (nth 0 (m_strides x) []) (m_cnt x) (m_cur x) (m_cnt x)) as [[cs ks] f] eqn:Eo.
    destruct (odo_true aw Haw _ _ _ _ W _ _ _ Eo) as [W' H].
    exists (all_offset aw (nth 0 (m_offs x) 0) (m_cur x)), (map (fun o => (nth 0 (m_offs x) 0 + o) mod 2 ^ aw) l ++ coming aw S n (tl (m_offs x)) (tl (m_strides x))).
    split; [unfold mtodo, m_todo; rewrite El; reflexivity|]. cbn [m_st m_addr m_en m_idle num m_offs m_cur m_sizes m_strides m_cnt]. repeat (split; [reflexivity|]).
    rewrite Erem in H. cbn [tl] in H. destruct f.
    - destruct H as [-> [-> ->]]. cbn [map app andb]. destruct (Z.eqb_spec (num x) 0) as [E0|E0].
      + left. assert (n = 0%nat) by lia. subst n. split; reflexivity.
      + right. destruct n as [|n]; [lia|]. exists n. destruct (m_lines_shift _ _ _ _ _ HL) as (HL' & Ec & Ld).
        destruct (wf_len _ Haw _ _ _ _ W) as (L1 & L2 & L3).
        assert (Ew : (num x - 1) mod 2 ^ nw = Z.of_nat n) by (rewrite Z.mod_small by lia; lia).
        unfold m_running, mtodo, m_todo; cbn [m_st m_addr m_en m_idle num m_offs m_cur m_sizes m_strides m_cnt]. rewrite Ew. split.
        * repeat (split; [auto; try lia|]). apply wf_start; auto.
        * rewrite rem_start by (auto; lia). rewrite Ec. reflexivity.
    - right. exists n. cbn [andb]. split.
      + unfold m_running; cbn. auto 8.
      + unfold mtodo, m_todo; cbn. f_equal. apply cong_map_mod. apply H.
  Qed.
  Lemma m_wait ins x : m_st x = 0%nat -> m_en x = false -> Forall m_go ins ->
    trace (msrc_step aw nw) msrc_read x ins = [] /\
    let y := final (msrc_step aw nw) x ins in m_st y = 0%nat /\ m_en y = false /\ m_idle y = m_idle x.
  Proof.
    intros H1 H2 F. revert x H1 H2. induction F as [|i ins (Es & Et & Em & Er) F IH]; intros x H1 H2; [auto|].
    assert (K : let y := msrc_step aw nw x i in m_st y = 0%nat /\ m_en y = false /\ m_idle y = m_idle x)
      by (unfold msrc_step; rewrite Er, Es, H1; cbn; auto).
    destruct K as (K1 & K2 & K3). rewrite trace_cons.
    destruct (IH _ K1 K2) as (-> & L). unfold msrc_read. rewrite H2, andb_false_r. split; [reflexivity|].
    cbn. cbn in L. rewrite <- K3. exact L.
  Qed.
  Lemma m_busy S ins x l : ((exists n, m_running S n x /\ mtodo S n x = l) \/ m_st x = 2%nat /\ l = []) -> m_en x = true -> m_idle x = false -> Forall m_go ins ->
    trace (msrc_step aw nw) msrc_read x ins = firstn (length ins) (m_addr x :: l) /\
    let y := final (msrc_step aw nw) x ins in
    ((length ins <= length l)%nat -> m_en y = true /\ m_idle y = false) /\
    ((length l < length ins)%nat -> m_st y = 0%nat /\ m_en y = false /\ m_idle y = true).
  Proof.
    intros H He Hi F. revert x l H He Hi. induction F as [|i ins G F IH]; intros x l H He Hi.
    { split; [reflexivity|]. cbn. split; intros; [auto|lia]. }
    rewrite trace_cons. assert (Eo : msrc_read x i = [m_addr x]) by (unfold msrc_read; destruct G as (_ & _ & _ & ->); rewrite He; reflexivity).
    rewrite Eo. cbn [length firstn app final fold_left]. change (fold_left (msrc_step aw nw) ins) with (fun z => final (msrc_step aw nw) z ins). cbv beta.
    destruct H as [(n & Hr & Ht)|[H2 ->]].
    - destruct (m_run_step S n x i Hr G) as (a & l' & E & Ea & Ee & Ei & H').
      rewrite Ht in E. clear Ht. subst l. specialize (IH (msrc_step aw nw x i) l').
      destruct IH as (T & U & V); [destruct H' as [[-> ?]|[? ?]]; eauto|exact Ee|exact Ei|].
      rewrite T, Ea. split; [reflexivity|]. cbn [length]. split; intros HL; [apply U|apply V]; clear - HL; lia.
    - assert (K : let y := msrc_step aw nw x i in m_st y = 0%nat /\ m_en y = false /\ m_idle y = true)
        by (unfold msrc_step; destruct G as (Es & Et & Em & Er); rewrite Er, Es, H2; cbn; auto).
      destruct K as (K1 & K2 & K3).
      destruct (m_wait ins _ K1 K2 F) as (-> & L). rewrite K3 in L. rewrite firstn_nil.
      split; [reflexivity|]. cbn. split; intros HL; [clear - HL; lia|exact L].
  Qed.
  Lemma m_begin S n ins x l : m_running S n x -> mtodo S n x = l -> m_en x = false -> Forall m_go ins ->
    trace (msrc_step aw nw) msrc_read x ins = firstn (length ins - 1) l /\
    let y := final (msrc_step aw nw) x ins in
    ((1 <= length ins <= length l)%nat -> m_en y = true /\ m_idle y = false) /\
    ((length l < length ins)%nat -> m_st y = 0%nat /\ m_en y = false /\ m_idle y = true).
  Proof.
    intros Hr Ht He F. destruct F as [|i ins G F].
    { split; [reflexivity|]. cbn. split; intros; lia. }
    rewrite trace_cons. assert (Eo : msrc_read x i = []) by (unfold msrc_read; rewrite He, andb_false_r; reflexivity).
    rewrite Eo. destruct (m_run_step S n x i Hr G) as (a & l' & E & Ea & Ee & Ei & H').
    rewrite Ht in E. clear Ht. subst l.
    destruct (m_busy S ins (msrc_step aw nw x i) l') as (T & U & V); [destruct H' as [[-> ?]|[? ?]]; eauto|exact Ee|exact Ei|exact F|].
    cbn [length app]. replace (Datatypes.S (length ins) - 1)%nat with (length ins) by lia. rewrite T, Ea.
    split; [reflexivity|]. cbn [final fold_left]. change (fold_left (msrc_step aw nw) ins) with (fun z => final (msrc_step aw nw) z ins). cbv beta.
    split; intros HL; [apply U|apply V]; clear - HL; lia.
  Qed.
End Multi.
