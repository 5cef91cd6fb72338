From Verif Require Import Base AxiSlave_Model Skid_Model Skid_Proofs AxisLite_Model AxisLite_Spec AxisLite_Proofs
  AximLite_Model AximLite_Spec.
Open Scope Z_scope.

(** ** Chains of skid buffers that hold at most one word *)
Lemma chain_out_indep {A} (bs : list (sb A)) v d v' d' : bs <> [] -> chain_out bs v d = chain_out bs v' d'.
Proof. destruct bs; [congruence|reflexivity]. Qed.
Lemma ch_nil {A} (bs : list (sb A)) v d r : bs <> [] -> Forall ok bs -> cheld bs = [] ->
  fst (chain_out bs v d) = false /\ chain_ready bs r = true /\ cheld (chain_step bs v d r) = if v then [d] else [].
Proof.
  intros N O E.
  assert (F : fst (chain_out bs v d) = false).
  { rewrite (chain_out_indep bs v d false d N). pose proof (chain_held bs false d true O) as H. rewrite E in H.
    cbn [andb app] in H. destruct (fst (chain_out bs false d)); [discriminate|reflexivity]. }
  assert (R : chain_ready bs r = true).
  { destruct bs as [|b bs]; [congruence|]. cbn [cheld] in E. apply app_eq_nil in E as [_ E]. unfold held in E.
    apply app_eq_nil in E as [_ E]. cbn. unfold s_ready. destruct (tmp_valid b); [discriminate|reflexivity]. }
  split; [exact F|]. split; [exact R|]. pose proof (chain_held bs v d r O) as H. rewrite E, F, R in H.
  cbn [andb app] in H. rewrite <- H. destruct v; reflexivity.
Qed.
Lemma ch_one {A} (bs : list (sb A)) d r x : bs <> [] -> Forall ok bs -> cheld bs = [x] ->
  (fst (chain_out bs false d) = false /\ cheld (chain_step bs false d r) = [x]) \/
  (fst (chain_out bs false d) = true /\ snd (chain_out bs false d) = x /\
   cheld (chain_step bs false d r) = if r then [] else [x]).
Proof.
  intros N O E. pose proof (chain_held bs false d r O) as H. pose proof (chain_held bs false d true O) as H1.
  rewrite E in H, H1. cbn [andb app] in H, H1. destruct (fst (chain_out bs false d)).
  - right. split; [reflexivity|]. cbn [andb app] in H1. injection H1 as H1 _. split; [congruence|].
    destruct r; cbn [andb app] in H; [injection H as _ H; congruence|congruence].
  - left. split; [reflexivity|]. cbn [andb app] in H. congruence.
Qed.

(** ** The invariant of the master *)
Definition chans (m : mst) arv awv wv wh rh o : Prop :=
  p_arv m = arv /\ p_awv m = awv /\ p_wv m = wv /\ cheld (p_wsb m) = wh /\ cheld (p_rsb m) = rh /\ p_out m = o.
Definition shape (m : mst) : Prop :=
  p_wsb m <> [] /\ p_rsb m <> [] /\ Forall ok (p_wsb m) /\ Forall ok (p_rsb m).
Definition minv (m : mst) (g : going) (pend : list trans) : Prop :=
  match p_ph m with
  | POut | R0 _ _ | W0 _ _ _ => g = GNone /\ pend = [] /\ chans m false false false [] [] 0
  | R1 a _ => g = GNone /\ pend = [] /\ chans m true false false [] [] 0 /\ p_ara m = a
  | RD a _ _ | R2 a _ =>
      (g = GRead a /\ pend = [] /\ chans m false false false [] [] 0) \/
      (exists d, g = GNone /\ pend = [XRead a d] /\ chans m false false false [] [d] 0)
  | W1 a _ _ => g = GNone /\ pend = [] /\ chans m false true false [] [] 0 /\ p_awa m = a
  | WD a _ _ _ | W2 a _ _ => g = GWrite a /\ pend = [] /\ chans m false false false [] [] 1
  | W3 a v _ => g = GWrite a /\ pend = [] /\ chans m false false true [] [] 1 /\ p_wd m = v
  | W4 a v _ =>
      (g = GWrite a /\ pend = [] /\ chans m false false false [v] [] 1) \/
      (g = GResp a v /\ pend = [] /\ chans m false false false [] [] 1) \/
      (g = GNone /\ pend = [XWrite a v] /\ chans m false false false [] [] 0)
  end.

Lemma m_step_wsb m i : p_wsb (m_step m i) = chain_step (p_wsb m) (p_wv m) (p_wd m) (n_wready i).
Proof.
  unfold m_step. destruct (m_r m i). destruct (p_ph m) as [|a dl|a dl|a dl k|a dl|a v dl|a v dl|a v dl k|a v dl|a v dl|a v dl];
    try reflexivity; destruct b; try reflexivity; destruct (negb _); reflexivity.
Qed.
Lemma m_step_rsb m i : p_rsb (m_step m i) = chain_step (p_rsb m) (fst (rin i)) (snd (rin i)) (m_rready m).
Proof.
  unfold m_step. destruct (m_r m i). destruct (p_ph m) as [|a dl|a dl|a dl k|a dl|a v dl|a v dl|a v dl k|a v dl|a v dl|a v dl];
    try reflexivity; destruct b; try reflexivity; destruct (negb _); reflexivity.
Qed.
Lemma chain_step_ne {A} (bs : list (sb A)) v d r : bs <> [] -> chain_step bs v d r <> [].
Proof. destruct bs; [congruence|discriminate]. Qed.
Lemma shape_step m i : shape m -> shape (m_step m i).
Proof.
  intros (A & B & C & D). unfold shape. rewrite m_step_wsb, m_step_rsb.
  split; [apply chain_step_ne, A|]. split; [apply chain_step_ne, B|]. split; apply chain_ok; assumption.
Qed.

Definition progress (m m' : mst) (pend dn pend' : list trans) : Prop :=
  (p_log m' = p_log m /\ pend' = pend ++ dn) \/
  (exists cr x, p_log m' = p_log m ++ [cr] /\ pend = [x] /\ call_is cr x /\ dn = [] /\ pend' = []).

Lemma mstep m i g pend done : shape m -> minv m g pend -> slave_legal g i ->
  exists g' dn pend', order_cycle (g, done) (m_events m i) = Some (g', done ++ dn) /\
    minv (m_step m i) g' pend' /\ progress m (m_step m i) pend dn pend'.
Proof.
  intros (NW & NR & OW & OR) I (LR & LB).
  destruct m as [ph arv ara awv awa wv wd wsb rsb out log]. cbn [p_wsb p_rsb] in *.
  assert (NRn : (forall a, g <> GRead a) -> n_r i = None).
  { intros H. destruct (n_r i); [|reflexivity]. destruct LR as [a E]; [discriminate|]. destruct (H a E). }
  assert (NBn : (forall a v, g <> GResp a v) -> n_b i = false).
  { intros H. destruct (n_b i); [|reflexivity]. destruct LB as (a & v & E); [reflexivity|]. destruct (H a v E). }
  clear LR LB.
  unfold minv in I. cbn [p_ph p_arv p_awv p_wv p_wsb p_rsb p_out p_ara p_awa p_wd] in I. unfold chans in I.
  cbn [p_ph p_arv p_awv p_wv p_wsb p_rsb p_out p_ara p_awa p_wd] in I.
  unfold order_cycle, m_events, m_xrready, m_w, m_step, m_r, m_arack, m_awack, m_wack, m_wready, m_rready.
  cbn [p_ph p_arv p_awv p_wv p_wsb p_rsb p_out p_ara p_awa p_wd p_log].
  Ltac fin := cbn; rewrite ?app_nil_r; repeat split; auto.
  Ltac done_same := left; split; [reflexivity|rewrite ?app_nil_r; reflexivity].
  destruct ph as [|a dl|a dl|a dl k|a dl|a v dl|a v dl|a v dl k|a v dl|a v dl|a v dl].
  - (* POut *)
    destruct I as (-> & -> & -> & -> & -> & HW & HR & ->).
    rewrite NRn, NBn by discriminate. unfold rin. rewrite NRn by discriminate. cbn [fst snd].
    destruct (ch_nil wsb false wd (n_wready i) NW OW HW) as (W1 & W2 & W3).
    destruct (ch_nil rsb false 0 false NR OR HR) as (R1 & R2 & R3).
    rewrite W1. destruct (chain_out rsb false 0) as [rv rd] eqn:RE. cbn [fst] in R1. subst rv. cbn [andb].
    exists GNone, [], []. rewrite app_nil_r. split; [destruct (chain_ready rsb false); reflexivity|].
    split; [|done_same]. unfold minv, chans. cbn [p_ph p_arv p_awv p_wv p_wsb p_rsb p_out p_ara p_awa p_wd].
    rewrite W3, R3. cbn. destruct (n_go i) as [[a dl|a v dl]|]; repeat split; auto.
  - (* R0 *)
    destruct I as (-> & -> & -> & -> & -> & HW & HR & ->).
    rewrite NRn, NBn by discriminate. unfold rin. rewrite NRn by discriminate. cbn [fst snd].
    destruct (ch_nil wsb false wd (n_wready i) NW OW HW) as (W1 & W2 & W3).
    destruct (ch_nil rsb false 0 false NR OR HR) as (R1 & R2 & R3).
    rewrite W1. destruct (chain_out rsb false 0) as [rv rd] eqn:RE. cbn [fst] in R1. subst rv. cbn [andb negb].
    rewrite orb_true_r. exists GNone, [], []. rewrite app_nil_r. split; [destruct (chain_ready rsb false); reflexivity|].
    split; [|done_same]. unfold minv, chans. cbn [p_ph p_arv p_awv p_wv p_wsb p_rsb p_out p_ara p_awa p_wd].
    rewrite W3, R3. cbn. repeat split; auto.
  - (* R1 *)
    destruct I as (-> & -> & (-> & -> & -> & HW & HR & ->) & ->).
    rewrite NRn, NBn by discriminate. unfold rin. rewrite NRn by discriminate. cbn [fst snd].
    destruct (ch_nil wsb false wd (n_wready i) NW OW HW) as (W1 & W2 & W3).
    destruct (ch_nil rsb false 0 false NR OR HR) as (R1 & R2 & R3).
    rewrite W1, R2. destruct (chain_out rsb false 0) as [rv rd] eqn:RE. cbn [fst] in R1. subst rv. cbn [andb negb].
    destruct (n_arready i) eqn:AR; cbn [e_ar e_r e_aw e_w e_b].
    + exists (GRead a), [], []. rewrite app_nil_r. split; [reflexivity|]. split; [|done_same].
      unfold minv, chans. cbn [p_ph p_arv p_awv p_wv p_wsb p_rsb p_out p_ara p_awa p_wd]. rewrite W3, R3.
      destruct dl; cbn; left; repeat split; auto.
    + exists GNone, [], []. rewrite app_nil_r. split; [reflexivity|]. split; [|done_same].
      unfold minv, chans. cbn [p_ph p_arv p_awv p_wv p_wsb p_rsb p_out p_ara p_awa p_wd]. rewrite W3, R3.
      cbn. repeat split; auto.
  - (* RD *)
    destruct I as [(-> & -> & -> & -> & -> & HW & HR & ->)|(d & -> & -> & -> & -> & -> & HW & HR & ->)].
    + rewrite NBn by discriminate.
      destruct (ch_nil wsb false wd (n_wready i) NW OW HW) as (W1 & W2 & W3).
      destruct (ch_nil rsb (fst (rin i)) (snd (rin i)) false NR OR HR) as (R1 & R2 & R3).
      rewrite W1, R2. destruct (chain_out rsb (fst (rin i)) (snd (rin i))) as [rv rd] eqn:RE. cbn [fst] in R1. subst rv. cbn [andb negb].
      unfold rin in *. destruct (n_r i) as [d|]; cbn [fst snd] in *; cbn [e_ar e_r e_aw e_w e_b].
      * exists GNone, [XRead a d], [XRead a d]. split; [reflexivity|]. split; [|left; split; reflexivity].
        unfold minv, chans. cbn [p_ph p_arv p_awv p_wv p_wsb p_rsb p_out p_ara p_awa p_wd]. rewrite W3, R3.
        destruct k; right; exists d; cbn; repeat split; auto.
      * exists (GRead a), [], []. rewrite app_nil_r. split; [reflexivity|]. split; [|done_same].
        unfold minv, chans. cbn [p_ph p_arv p_awv p_wv p_wsb p_rsb p_out p_ara p_awa p_wd]. rewrite W3, R3.
        destruct k; left; cbn; repeat split; auto.
    + rewrite NRn, NBn by discriminate. unfold rin. rewrite NRn by discriminate. cbn [fst snd].
      destruct (ch_nil wsb false wd (n_wready i) NW OW HW) as (W1 & W2 & W3). rewrite W1.
      assert (R3 : cheld (chain_step rsb false 0 false) = [d]) by (destruct (ch_one rsb 0 false d NR OR HR) as [(_ & X)|(_ & _ & X)]; exact X).
      destruct (chain_out rsb false 0) as [rv rd] eqn:RE. cbn [andb negb].
      exists GNone, [], [XRead a d]. rewrite app_nil_r. split; [destruct (chain_ready rsb false); reflexivity|].
      split; [|done_same]. unfold minv, chans. cbn [p_ph p_arv p_awv p_wv p_wsb p_rsb p_out p_ara p_awa p_wd].
      rewrite W3, R3. destruct k; right; exists d; cbn; repeat split; auto.
  - (* R2 *)
    destruct I as [(-> & -> & -> & -> & -> & HW & HR & ->)|(d & -> & -> & -> & -> & -> & HW & HR & ->)].
    + rewrite NBn by discriminate.
      destruct (ch_nil wsb false wd (n_wready i) NW OW HW) as (W1 & W2 & W3).
      destruct (ch_nil rsb (fst (rin i)) (snd (rin i)) true NR OR HR) as (R1 & R2 & R3).
      rewrite W1, R2. destruct (chain_out rsb (fst (rin i)) (snd (rin i))) as [rv rd] eqn:RE. cbn [fst] in R1. subst rv. cbn [andb negb].
      unfold rin in *. destruct (n_r i) as [d|]; cbn [fst snd] in *; cbn [e_ar e_r e_aw e_w e_b].
      * exists GNone, [XRead a d], [XRead a d]. split; [reflexivity|]. split; [|left; split; reflexivity].
        unfold minv, chans. cbn [p_ph p_arv p_awv p_wv p_wsb p_rsb p_out p_ara p_awa p_wd]. rewrite W3, R3.
        right; exists d; cbn; repeat split; auto.
      * exists (GRead a), [], []. rewrite app_nil_r. split; [reflexivity|]. split; [|done_same].
        unfold minv, chans. cbn [p_ph p_arv p_awv p_wv p_wsb p_rsb p_out p_ara p_awa p_wd]. rewrite W3, R3.
        left; cbn; repeat split; auto.
    + rewrite NRn, NBn by discriminate. unfold rin. rewrite NRn by discriminate. cbn [fst snd].
      destruct (ch_nil wsb false wd (n_wready i) NW OW HW) as (W1 & W2 & W3). rewrite W1.
      destruct (ch_one rsb 0 true d NR OR HR) as [(X1 & R3)|(X1 & X2 & R3)];
        destruct (chain_out rsb false 0) as [rv rd] eqn:RE; cbn [fst snd] in *; subst rv; cbn [andb negb].
      * exists GNone, [], [XRead a d]. rewrite app_nil_r. split; [destruct (chain_ready rsb true); reflexivity|].
        split; [|done_same]. unfold minv, chans. cbn [p_ph p_arv p_awv p_wv p_wsb p_rsb p_out p_ara p_awa p_wd].
        rewrite W3, R3. right; exists d; cbn; repeat split; auto.
      * subst rd. exists GNone, [], []. rewrite app_nil_r. split; [destruct (chain_ready rsb true); reflexivity|]. split.
        -- unfold minv, chans. cbn [p_ph p_arv p_awv p_wv p_wsb p_rsb p_out p_ara p_awa p_wd]. rewrite W3, R3. cbn. repeat split; auto.
        -- right. exists (CRd a dl, d), (XRead a d). cbn. repeat split; auto.
  - (* W0 *)
    destruct I as (-> & -> & -> & -> & -> & HW & HR & ->).
    rewrite NRn, NBn by discriminate. unfold rin. rewrite NRn by discriminate. cbn [fst snd].
    destruct (ch_nil wsb false wd (n_wready i) NW OW HW) as (W1 & W2 & W3).
    destruct (ch_nil rsb false 0 false NR OR HR) as (R1 & R2 & R3).
    rewrite W1. destruct (chain_out rsb false 0) as [rv rd] eqn:RE. cbn [fst] in R1. subst rv. cbn [andb negb].
    rewrite orb_true_r. exists GNone, [], []. rewrite app_nil_r. split; [destruct (chain_ready rsb false); reflexivity|].
    split; [|done_same]. unfold minv, chans. cbn [p_ph p_arv p_awv p_wv p_wsb p_rsb p_out p_ara p_awa p_wd].
    rewrite W3, R3. cbn. repeat split; auto.
  - (* W1 *)
    destruct I as (-> & -> & (-> & -> & -> & HW & HR & ->) & ->).
    rewrite NRn, NBn by discriminate. unfold rin. rewrite NRn by discriminate. cbn [fst snd].
    destruct (ch_nil wsb false wd (n_wready i) NW OW HW) as (W1 & W2 & W3).
    destruct (ch_nil rsb false 0 false NR OR HR) as (R1 & R2 & R3).
    rewrite W1, R2. destruct (chain_out rsb false 0) as [rv rd] eqn:RE. cbn [fst] in R1. subst rv. cbn [andb negb].
    destruct (n_awready i) eqn:AR; cbn [e_ar e_r e_aw e_w e_b].
    + exists (GWrite a), [], []. rewrite app_nil_r. split; [reflexivity|]. split; [|done_same].
      unfold minv, chans. cbn [p_ph p_arv p_awv p_wv p_wsb p_rsb p_out p_ara p_awa p_wd]. rewrite W3, R3.
      destruct dl; cbn; repeat split; auto.
    + exists GNone, [], []. rewrite app_nil_r. split; [reflexivity|]. split; [|done_same].
      unfold minv, chans. cbn [p_ph p_arv p_awv p_wv p_wsb p_rsb p_out p_ara p_awa p_wd]. rewrite W3, R3.
      cbn. repeat split; auto.
  - (* WD *)
    destruct I as (-> & -> & -> & -> & -> & HW & HR & ->).
    rewrite NRn, NBn by discriminate. unfold rin. rewrite NRn by discriminate. cbn [fst snd].
    destruct (ch_nil wsb false wd (n_wready i) NW OW HW) as (W1 & W2 & W3).
    destruct (ch_nil rsb false 0 false NR OR HR) as (R1 & R2 & R3).
    rewrite W1. destruct (chain_out rsb false 0) as [rv rd] eqn:RE. cbn [fst] in R1. subst rv. cbn [andb negb].
    exists (GWrite a), [], []. rewrite app_nil_r. split; [destruct (chain_ready rsb false); reflexivity|].
    split; [|done_same]. unfold minv, chans. cbn [p_ph p_arv p_awv p_wv p_wsb p_rsb p_out p_ara p_awa p_wd].
    rewrite W3, R3. destruct k; cbn; repeat split; auto.
  - (* W2 *)
    destruct I as (-> & -> & -> & -> & -> & HW & HR & ->).
    rewrite NRn, NBn by discriminate. unfold rin. rewrite NRn by discriminate. cbn [fst snd].
    destruct (ch_nil wsb false wd (n_wready i) NW OW HW) as (W1 & W2 & W3).
    destruct (ch_nil rsb false 0 false NR OR HR) as (R1 & R2 & R3).
    rewrite W1. destruct (chain_out rsb false 0) as [rv rd] eqn:RE. cbn [fst] in R1. subst rv. cbn [andb negb].
    rewrite orb_true_r. exists (GWrite a), [], []. rewrite app_nil_r. split; [destruct (chain_ready rsb false); reflexivity|].
    split; [|done_same]. unfold minv, chans. cbn [p_ph p_arv p_awv p_wv p_wsb p_rsb p_out p_ara p_awa p_wd].
    rewrite W3, R3. cbn. repeat split; auto.
  - (* W3 *)
    destruct I as (-> & -> & (-> & -> & -> & HW & HR & ->) & ->).
    rewrite NRn, NBn by discriminate. unfold rin. rewrite NRn by discriminate. cbn [fst snd].
    destruct (ch_nil wsb true v (n_wready i) NW OW HW) as (W1 & W2 & W3).
    destruct (ch_nil rsb false 0 false NR OR HR) as (R1 & R2 & R3).
    rewrite W1, W2. destruct (chain_out rsb false 0) as [rv rd] eqn:RE. cbn [fst] in R1. subst rv. cbn [andb negb orb].
    exists (GWrite a), [], []. rewrite app_nil_r. split; [destruct (chain_ready rsb false); reflexivity|].
    split; [|done_same]. unfold minv, chans. cbn [p_ph p_arv p_awv p_wv p_wsb p_rsb p_out p_ara p_awa p_wd].
    rewrite W3, R3. left. cbn. repeat split; auto.
  - (* W4 *)
    destruct I as [(-> & -> & -> & -> & -> & HW & HR & ->)|[(-> & -> & -> & -> & -> & HW & HR & ->)|(-> & -> & -> & -> & -> & HW & HR & ->)]].
    + rewrite NRn, NBn by discriminate. unfold rin. rewrite NRn by discriminate. cbn [fst snd].
      destruct (ch_nil rsb false 0 false NR OR HR) as (R1 & R2 & R3).
      destruct (chain_out rsb false 0) as [rv rd] eqn:RE. cbn [fst] in R1. subst rv.
      rewrite R2.
      destruct (ch_one wsb wd (n_wready i) v NW OW HW) as [(X1 & W3)|(X1 & X2 & W3)]; rewrite X1; [|rewrite X2; destruct (n_wready i)]; cbn [andb negb orb].
      * exists (GWrite a), [], []. rewrite app_nil_r. split; [reflexivity|]. split; [|done_same].
        unfold minv, chans. cbn. rewrite W3, R3. left. repeat split; auto.
      * exists (GResp a v), [], []. rewrite app_nil_r. split; [reflexivity|]. split; [|done_same].
        unfold minv, chans. cbn. rewrite W3, R3. right. left. repeat split; auto.
      * exists (GWrite a), [], []. rewrite app_nil_r. split; [reflexivity|]. split; [|done_same].
        unfold minv, chans. cbn. rewrite W3, R3. left. repeat split; auto.
    + rewrite NRn by discriminate. unfold rin. rewrite NRn by discriminate. cbn [fst snd].
      destruct (ch_nil wsb false wd (n_wready i) NW OW HW) as (W1 & W2 & W3).
      destruct (ch_nil rsb false 0 false NR OR HR) as (R1 & R2 & R3).
      rewrite W1, R2. destruct (chain_out rsb false 0) as [rv rd] eqn:RE. cbn [fst] in R1. subst rv. cbn [andb negb].
      destruct (n_b i) eqn:NB; cbn [e_ar e_r e_aw e_w e_b].
      * exists GNone, [XWrite a v], [XWrite a v]. split; [reflexivity|]. split; [|left; split; reflexivity].
        unfold minv, chans. cbn. rewrite W3, R3. right. right. repeat split; auto.
      * exists (GResp a v), [], []. rewrite app_nil_r. split; [reflexivity|]. split; [|done_same].
        unfold minv, chans. cbn. rewrite W3, R3. right. left. repeat split; auto.
    + rewrite NRn, NBn by discriminate. unfold rin. rewrite NRn by discriminate. cbn [fst snd].
      destruct (ch_nil wsb false wd (n_wready i) NW OW HW) as (W1 & W2 & W3).
      destruct (ch_nil rsb false 0 false NR OR HR) as (R1 & R2 & R3).
      rewrite W1, R2. destruct (chain_out rsb false 0) as [rv rd] eqn:RE. cbn [fst] in R1. subst rv. cbn [andb negb].
      exists GNone, [], []. rewrite app_nil_r. split; [reflexivity|]. split.
      * unfold minv, chans. cbn. rewrite W3, R3. repeat split; auto.
      * right. exists (CWr a v dl, 0), (XWrite a v). cbn. repeat split; auto.
Qed.

(** ** Runs of the master *)
Definition tied (m : mst) (st : going * list trans) : Prop :=
  shape m /\ exists pre pend, snd st = pre ++ pend /\ Forall2 call_is (p_log m) pre /\ minv m (fst st) pend.
Lemma tied_step m st i : tied m st -> slave_legal (fst st) i ->
  exists st', order_cycle st (m_events m i) = Some st' /\ tied (m_step m i) st'.
Proof.
  intros (SH & pre & pend & E & F & I) L. destruct st as [g done]. cbn [fst snd] in *. subst done.
  destruct (mstep m i g pend (pre ++ pend) SH I L) as (g' & dn & pend' & O & I' & P).
  exists (g', (pre ++ pend) ++ dn). split; [exact O|]. split; [apply shape_step, SH|]. cbn [fst snd].
  destruct P as [(LE & ->)|(cr & x & LE & -> & C & -> & ->)].
  - exists pre, (pend ++ dn). rewrite app_assoc, LE. split; [reflexivity|]. split; [exact F|exact I'].
  - exists (pre ++ [x]), []. rewrite LE. split; [reflexivity|]. split; [|exact I'].
    apply Forall2_app; [exact F|]. constructor; [exact C|constructor].
Qed.
Lemma tied_run : forall ins m st, tied m st -> all_legal m st ins ->
  exists st', order_run st (outs m_step m_events m ins) = Some st' /\ tied (final m_step m ins) st'.
Proof.
  induction ins as [|i ins IH]; intros m st T L.
  - exists st. split; [reflexivity|exact T].
  - destruct L as (L1 & L2). destruct (tied_step m st i T L1) as (st1 & E & T1). rewrite E in L2.
    destruct (IH _ _ T1 L2) as (st' & E' & T'). exists st'. cbn [outs order_run]. rewrite E. split; [exact E'|exact T'].
Qed.
Lemma tied_init n : (1 <= n)%nat -> tied (m_init n) (GNone, []).
Proof.
  intros H. split.
  - unfold shape, m_init. cbn. destruct n; [lia|]. repeat split; try discriminate; apply (init_ok 0 (S n)).
  - exists [], []. split; [reflexivity|]. split; [constructor|]. unfold minv, chans. cbn.
    rewrite !cheld_init. repeat split; auto.
Qed.
Lemma tied_cases m st : tied m st ->
  exists pre pend, snd st = pre ++ pend /\ Forall2 call_is (p_log m) pre /\ (length pend <= 1)%nat /\
    (~ in_call m -> fst st = GNone /\ pend = []).
Proof.
  intros (_ & pre & pend & E & F & I). exists pre, pend. split; [exact E|]. split; [exact F|].
  unfold minv, in_call in *. destruct (p_ph m); cbn [app] in I;
    repeat match goal with
    | H : _ \/ _ |- _ => destruct H
    | H : exists _, _ |- _ => destruct H
    | H : _ /\ _ |- _ => destruct H
    end; subst pend; cbn [length]; (split; [lia|intros N; try (split; [assumption|reflexivity]); exfalso; apply N; discriminate]).
Qed.

(** ** Valid signals *)
Lemma m_step_regs m i :
  let rq := match p_ph m with R0 _ _ => m_arack m i | _ => false end in
  let wq := match p_ph m with W0 _ _ _ => m_awack m i | _ => false end in
  p_arv (m_step m i) = rq || p_arv m && negb (n_arready i) /\
  p_ara (m_step m i) = (if rq then match p_ph m with R0 a _ => a | _ => 0 end else p_ara m) /\
  p_awv (m_step m i) = wq || p_awv m && negb (n_awready i) /\
  p_awa (m_step m i) = (if wq then match p_ph m with W0 a _ _ => a | _ => 0 end else p_awa m).
Proof.
  unfold m_step. destruct (m_r m i) as [rv rd]. cbv zeta.
  destruct (p_ph m); try (repeat split; reflexivity).
  - destruct rv; repeat split; reflexivity.
  - destruct (negb _); repeat split; reflexivity.
Qed.
Lemma hold_step m i : shape m -> held_back m i (m_step m i).
Proof.
  intros (NW & NR & OW & OR). destruct (m_step_regs m i) as (A & B & C & D). unfold held_back. split; [|split].
  - intros V N. rewrite A, B. unfold m_arack. rewrite V, N. cbn [negb orb andb].
    destruct (p_ph m); split; reflexivity.
  - intros V N. rewrite C, D. unfold m_awack. rewrite V, N. cbn [negb orb andb]. rewrite andb_false_r.
    destruct (p_ph m); split; reflexivity.
  - unfold m_w. rewrite m_step_wsb. intros V N. rewrite N.
    destruct (chain_stable_step (p_wsb m) (p_wv m) (p_wd m) (p_wv (m_step m i)) (p_wd (m_step m i)) false NW OW V eq_refl) as (X & Y).
    rewrite (surjective_pairing (chain_out (chain_step _ _ _ _) _ _)), X, Y, <- V.
    symmetry. apply surjective_pairing.
Qed.
Lemma shape_run : forall ins m, shape m -> shape (final m_step m ins).
Proof. induction ins as [|i ins IH]; intros m H; [exact H|]. cbn. apply IH, shape_step, H. Qed.

(** ** A slave that waits for the data before it takes the address *)
Definition no_write (m : mst) : Prop :=
  shape m /\ p_wv m = false /\ cheld (p_wsb m) = [] /\
  match p_ph m with WD _ _ _ _ | W2 _ _ _ | W3 _ _ _ | W4 _ _ _ => False | _ => True end /\
  Forall (fun cr => match fst cr with CWr _ _ _ => False | CRd _ _ => True end) (p_log m).
Lemma no_write_step m i : no_write m -> (n_awready i = true -> fst (m_w m) = true) -> no_write (m_step m i).
Proof.
  intros (SH & V & H & P & L) D. assert (SH' := SH). destruct SH' as (NW & _ & OW & _).
  destruct (ch_nil (p_wsb m) (p_wv m) (p_wd m) (n_wready i) NW OW H) as (X1 & X2 & X3).
  assert (AW : n_awready i = false) by (destruct (n_awready i); [unfold m_w in D; rewrite X1 in D; discriminate (D eq_refl)|reflexivity]).
  split; [apply shape_step, SH|]. split; [|split; [|split]].
  - unfold m_step. destruct (m_r m i) as [rv rd]. destruct (p_ph m); try contradiction; cbn [p_wv]; rewrite ?V; try reflexivity.
    destruct rv; cbn [p_wv]; reflexivity.
  - rewrite m_step_wsb, X3, V. reflexivity.
  - unfold m_step. destruct (m_r m i) as [rv rd]. rewrite AW. destruct (p_ph m); try contradiction; cbn [p_ph]; try exact I.
    + destruct (n_go i) as [[]|]; exact I.
    + destruct (m_arack m i); exact I.
    + destruct (p_arv m && n_arready i); [|exact I]. destruct dl; exact I.
    + destruct k; exact I.
    + destruct rv; exact I.
    + destruct (m_awack m i); exact I.
    + rewrite andb_false_r. exact I.
  - unfold m_step. destruct (m_r m i) as [rv rd]. destruct (p_ph m); try contradiction; cbn [p_log]; try exact L.
    destruct rv; cbn [p_log]; [|exact L]. apply Forall_app. split; [exact L|]. repeat constructor.
Qed.
Lemma no_write_run : forall ins m, no_write m -> data_first m ins -> no_write (final m_step m ins).
Proof.
  induction ins as [|i ins IH]; intros m H D; [exact H|]. destruct D as [D1 D2]. cbn.
  apply IH; [apply no_write_step; assumption|exact D2].
Qed.

(** ** The master and the register slave *)
Section Sys.
  Variables (len mw sh xz : Z) (xb : bool).
  Hypothesis Hmw : 0 <= mw.
  Hypothesis Hsh : 0 <= sh.
  Notation sstep := (ms_step len mw sh xz xb).
  Notation srun := (final (ms_step len mw sh xz xb)).

  Definition gt (g : going) (t : txn) : Prop :=
    match g, t with
    | GNone, TNone => True
    | GRead a, TRead j _ => j = regno mw sh a
    | GRead a, TData _ => True
    | GWrite a, TWrite j => j = regno mw sh a
    | GResp _ _, TResp => True
    | _, _ => False
    end.
  Definition no_top (e : bus) : bus := mkBus (e_ar e) (e_r e) (e_aw e) (e_w e) (e_b e) None.
  Lemma same_events s i : m_events (s_m s) (to_m s i) = no_top (lite_out (s_l s) (to_l s i)).
  Proof using.
    unfold m_events, no_top, lite_out, to_m, to_l, opt_if. cbn. f_equal.
    - destruct (p_arv (s_m s)), (l_arready (s_l s)); reflexivity.
    - destruct (m_xrready (s_m s)), (l_rvalid (s_l s)); reflexivity.
    - destruct (p_awv (s_m s)), (l_awready (s_l s)); reflexivity.
    - destruct (fst (m_w (s_m s))), (l_wready (s_l s)); reflexivity.
    - rewrite andb_true_r. reflexivity.
  Qed.
  Lemma gt_legal s i g t : rel mw sh (s_l s) t -> gt g t -> slave_legal g (to_m s i).
  Proof using.
    intros R G. unfold slave_legal, to_m, opt_if. cbn [n_r n_b]. split.
    - intros H. destruct (l_rvalid (s_l s)) eqn:V; [|congruence].
      destruct t as [|j [|[|k]]|d|j|]; cbn [rel] in R.
      + destruct R as (_ & _ & _ & X & _). congruence.
      + destruct R as (_ & _ & _ & X & _). congruence.
      + destruct R as (_ & _ & _ & X & _). congruence.
      + contradiction.
      + destruct g; try contradiction. eauto.
      + destruct R as [(_ & _ & _ & X & _)|(_ & _ & _ & X & _)]; congruence.
      + destruct R as (_ & _ & _ & X & _). congruence.
    - intros V. destruct t as [|j [|[|k]]|d|j|]; cbn [rel] in R.
      + destruct R as (_ & _ & _ & _ & X). congruence.
      + destruct R as (_ & _ & _ & _ & X & _). congruence.
      + destruct R as (_ & _ & _ & _ & X & _). congruence.
      + contradiction.
      + destruct R as (_ & _ & _ & _ & X & _). congruence.
      + destruct R as [(_ & _ & _ & _ & X & _)|(_ & _ & _ & _ & X & _)]; congruence.
      + destruct g; try contradiction. eauto.
  Qed.
  Lemma gt_step g t done done' b b' g' t' e : gt g t ->
    order_cycle (g, done) (no_top e) = Some (g', done') -> bus_cycle len mw sh xz (t, b) e = Some (t', b') -> gt g' t'.
  Proof using.
    unfold order_cycle, bus_cycle, no_top. cbn [e_ar e_r e_aw e_w e_b]. intros G.
    destruct (e_ar e) as [a|], (e_r e) as [d|], (e_aw e) as [a'|], (e_w e) as [v|], (e_b e); try discriminate.
    - destruct g; try discriminate. destruct t; try contradiction. intros [= <- <-] [= <- <-]. reflexivity.
    - destruct g as [|a| |]; try discriminate. destruct t as [|j k|d'| |]; try contradiction; try discriminate.
      destruct (d =? d'); [|discriminate]. intros [= <- <-] [= <- <-]. exact I.
    - destruct g; try discriminate. destruct t; try contradiction. intros [= <- <-] [= <- <-]. reflexivity.
    - destruct g as [| |a|]; try discriminate. destruct t; try contradiction. intros [= <- <-] [= <- <-]. exact I.
    - destruct g; try discriminate. destruct t; try contradiction. intros [= <- <-] [= <- <-]. exact I.
    - intros [= <- <-]. destruct t as [|j [|k]|d'|j|]; try (intros [= <- <-]; exact G).
      destruct (b_read len xz b j) as [x b1]. intros [= <- <-]. destruct g; try contradiction. exact I.
  Qed.

  Definition cinv (s : msys) (g : going) (done : list trans) (t : txn) : Prop :=
    tied (s_m s) (g, done) /\ rel mw sh (s_l s) t /\ gt g t.
  Lemma cstep s i g done t : cinv s g done t ->
    exists g' done' t',
      order_cycle (g, done) (no_top (lite_out (s_l s) (to_l s i))) = Some (g', done') /\
      bus_cycle len mw sh xz (t, bank_of (s_l s)) (lite_out (s_l s) (to_l s i)) = Some (t', bank_of (s_l (sstep s i))) /\
      cinv (sstep s i) g' done' t'.
  Proof using Hmw Hsh.
    intros (T & R & G).
    destruct (tied_step (s_m s) (g, done) (to_m s i) T (gt_legal s i g t R G)) as ([g' done'] & E & T').
    rewrite same_events in E.
    destruct (sim len mw sh xz xb Hmw Hsh (s_l s) t (to_l s i) R) as (t' & E2 & R').
    exists g', done', t'. split; [exact E|]. split; [exact E2|]. split; [exact T'|]. split; [exact R'|].
    exact (gt_step g t done done' _ _ g' t' _ G E E2).
  Qed.
  Lemma cinit n : (1 <= n)%nat -> cinv (ms_init n) GNone [] TNone.
  Proof using. intros H. split; [exact (tied_init n H)|]. split; [cbn; repeat split; auto|exact I]. Qed.

  (** *** Words *)
  Definition reg_write (b : Z -> Z) (x : trans) : Z -> Z :=
    match x with XRead _ _ => b
    | XWrite a v => if in_range len (regno mw sh a) then upd b (regno mw sh a) v else b end.
  Definition word (b : Z -> Z) (a : Z) : Z := if in_range len (regno mw sh a) then b (regno mw sh a) else xz.
  Definition regs (xs : list trans) : Z -> Z := fold_left reg_write xs (fun _ => 0).
  Lemma plays_app : forall xs b ys, plays len mw sh xz b (xs ++ ys) <->
    plays len mw sh xz b xs /\ plays len mw sh xz (fold_left reg_write xs b) ys.
  Proof using.
    induction xs as [|[a d|a v] xs IH]; intros b ys; cbn [app plays fold_left reg_write].
    - tauto.
    - rewrite IH. tauto.
    - rewrite IH. tauto.
  Qed.
  Definition dinv (s : msys) (g : going) (done : list trans) (t : txn) : Prop :=
    plays len mw sh xz (fun _ => 0) done /\ (forall j, l_flag (s_l s) j = false) /\
    l_reg (s_l s) = (match g with GResp a v => regs (done ++ [XWrite a v]) | _ => regs done end) /\
    (forall a d, g = GRead a -> t = TData d -> d = word (regs done) a).
  Lemma dstep s i g done t g' done' t' : q_top i = None -> cinv s g done t -> dinv s g done t ->
    order_cycle (g, done) (no_top (lite_out (s_l s) (to_l s i))) = Some (g', done') ->
    bus_cycle len mw sh xz (t, bank_of (s_l s)) (lite_out (s_l s) (to_l s i)) = Some (t', bank_of (s_l (sstep s i))) ->
    dinv (sstep s i) g' done' t'.
  Proof using.
    intros NT (_ & _ & G) (P & F & RG & D). unfold order_cycle, bus_cycle, no_top. cbn [e_ar e_r e_aw e_w e_b].
    set (s' := sstep s i). clearbody s'. change (e_top (lite_out (s_l s) (to_l s i))) with (q_top i). rewrite NT.
    set (e := lite_out (s_l s) (to_l s i)). clearbody e.
    unfold bank_of. unfold dinv.
    destruct (e_ar e) as [a|], (e_r e) as [d|], (e_aw e) as [a'|], (e_w e) as [v|], (e_b e); try discriminate.
    - destruct g; try discriminate. destruct t; try contradiction. intros [= <- <-] [= <- <- <- _].
      repeat split; auto. discriminate.
    - destruct g as [|a| |]; try discriminate. destruct t as [|j k|d'| |]; try contradiction; try discriminate.
      destruct (d =? d') eqn:DE; [|discriminate]. apply Z.eqb_eq in DE. subst d'.
      intros [= <- <-] [= <- <- <- _]. split.
      { apply plays_app. split; [exact P|]. cbn. split; [|exact I]. exact (D a d eq_refl eq_refl). }
      split; [exact F|]. split; [|discriminate]. rewrite RG. unfold regs. rewrite fold_left_app. reflexivity.
    - destruct g; try discriminate. destruct t; try contradiction. intros [= <- <-] [= <- <- <- _].
      repeat split; auto. discriminate.
    - destruct g as [| |a|]; try discriminate. destruct t as [| | |j|]; try contradiction. cbn in G. subst j.
      unfold b_write. cbn [b_reg b_flag b_clear]. intros [= <- <-].
      assert (X : regs (done ++ [XWrite a v]) = if in_range len (regno mw sh a) then upd (l_reg (s_l s)) (regno mw sh a) v else l_reg (s_l s)).
      { unfold regs. rewrite fold_left_app. rewrite RG. reflexivity. }
      rewrite X. destruct (in_range len (regno mw sh a)); intros [= <- <- <- _]; repeat split; auto; discriminate.
    - destruct g as [| | |a v]; try discriminate. destruct t; try contradiction. intros [= <- <-] [= <- <- <- _].
      split; [apply plays_app; split; [exact P|cbn; exact I]|]. repeat split; auto. discriminate.
    - intros [= <- <-]. destruct t as [|j [|k]|d'|j|]; try (intros [= <- <- <- _]; repeat split; auto; fail).
      + destruct g as [|a| |]; try contradiction. cbn in G. subst j. unfold b_read. cbn [b_reg b_flag b_clear]. rewrite F.
        assert (X : word (regs done) a = if in_range len (regno mw sh a) then l_reg (s_l s) (regno mw sh a) else xz)
          by (rewrite RG; reflexivity).
        destruct (in_range len (regno mw sh a)); intros [= <- <- <- _]; repeat split; auto;
          intros a0 d0 [= <-] [= <-]; rewrite X; reflexivity.
      + intros [= <- <- <- _]. repeat split; auto. discriminate.
  Qed.
  Lemma drun : forall ins s g done t, Forall (fun i => q_top i = None) ins -> cinv s g done t -> dinv s g done t ->
    exists g' done' t', cinv (srun s ins) g' done' t' /\ dinv (srun s ins) g' done' t'.
  Proof using Hmw Hsh.
    induction ins as [|i ins IH]; intros s g done t F C D; [eauto|].
    apply Forall_cons_iff in F as [F1 F2]. destruct (cstep s i g done t C) as (g' & done' & t' & E1 & E2 & C').
    apply (IH (sstep s i) g' done' t' F2 C'). exact (dstep s i g done t g' done' t' F1 C D E1 E2).
  Qed.
  Lemma end_to_end n ins : (1 <= n)%nat -> Forall (fun i => q_top i = None) ins ->
    exists xs, Forall2 call_is (p_log (s_m (srun (ms_init n) ins))) xs /\ plays len mw sh xz (fun _ => 0) xs.
  Proof using Hmw Hsh.
    intros N F. destruct (drun ins (ms_init n) GNone [] TNone F (cinit n N)) as (g & done & t & (T & _) & (P & _)).
    { split; [exact I|]. repeat split; auto. discriminate. }
    destruct T as (_ & pre & pend & E & F2 & _). cbn in E. subst done. exists pre. split; [exact F2|].
    apply plays_app in P. tauto.
  Qed.
  Lemma crun : forall ins s g done t, cinv s g done t -> exists g' done' t', cinv (srun s ins) g' done' t'.
  Proof using Hmw Hsh.
    induction ins as [|i ins IH]; intros s g done t C; [eauto|].
    destruct (cstep s i g done t C) as (g' & done' & t' & _ & _ & C'). exact (IH _ _ _ _ C').
  Qed.
End Sys.

(** ** Every call returns *)
Lemma weight_nil {A} (bs : list (sb A)) : cheld bs = [] -> weight bs = 0%nat.
Proof.
  induction bs as [|b bs IH]; [reflexivity|]. cbn [cheld weight]. intros E. apply app_eq_nil in E as [E1 E2].
  rewrite (IH E1). unfold held in E2. destruct (m_valid b), (tmp_valid b); try discriminate. reflexivity.
Qed.
Lemma weight_one {A} (bs : list (sb A)) x : Forall ok bs -> cheld bs = [x] -> (0 < weight bs <= length bs)%nat.
Proof.
  induction bs as [|b bs IH]; [discriminate|]. intros O E. apply Forall_cons_iff in O as [Ob O]. cbn [cheld weight length] in *.
  unfold held, ok in *. destruct (m_valid b), (tmp_valid b).
  - apply (f_equal (@length A)) in E. rewrite app_length in E. cbn in E. lia.
  - destruct (cheld bs) as [|y l] eqn:C; [|apply (f_equal (@length A)) in E; rewrite app_length in E; cbn in E; lia].
    rewrite (weight_nil bs C). lia.
  - specialize (Ob eq_refl). discriminate.
  - cbn [app] in E. rewrite app_nil_r in E. specialize (IH O E). lia.
Qed.

Definition cur (ph : mph) : option call :=
  match ph with
  | POut => None
  | R0 a dl | R1 a dl | R2 a dl => Some (CRd a dl)
  | RD a dl _ => Some (CRd a (Some dl))
  | W0 a v dl | W1 a v dl | W2 a v dl | W3 a v dl | W4 a v dl => Some (CWr a v dl)
  | WD a v dl _ => Some (CWr a v (Some dl))
  end.
Definition meas (n : nat) (s : msys) : nat :=
  match p_ph (s_m s) with
  | POut => 0
  | R0 _ dl => n + 6 + dly dl
  | R1 _ dl => n + 4 + dly dl + (if l_arready (s_l s) then 0 else 1)
  | RD _ _ k => n + 4 + k
  | R2 _ _ => if (weight (p_rsb (s_m s)) =? 0)%nat then n + 3 - Z.to_nat (l_fsm (s_l s)) else weight (p_rsb (s_m s))
  | W0 _ _ dl => n + 8 + dly dl
  | W1 _ _ dl => n + 6 + dly dl + (if l_awready (s_l s) then 0 else 1)
  | WD _ _ _ k => n + 6 + k
  | W2 _ _ _ => n + 5
  | W3 _ _ _ => n + 4
  | W4 _ _ _ =>
      if (weight (p_wsb (s_m s)) =? 0)%nat then (if 0 <? p_out (s_m s) then 2 else 1)
      else weight (p_wsb (s_m s)) + 2 + (if l_fsm (s_l s) =? 0 then 1 else 0)
  end.

Lemma m_step_ph m i : let m' := m_step m i in
  match p_ph m with
  | POut => p_ph m' = match n_go i with Some (CRd a dl) => R0 a dl | Some (CWr a v dl) => W0 a v dl | None => POut end
            /\ p_log m' = p_log m
  | R0 a dl => p_ph m' = (if m_arack m i then R1 a dl else R0 a dl) /\ p_log m' = p_log m
  | R1 a dl => p_ph m' = (if p_arv m && n_arready i then after_addr_r a dl else R1 a dl) /\ p_log m' = p_log m
  | RD a dl k => p_ph m' = (match k with O => R2 a (Some dl) | S k' => RD a dl k' end) /\ p_log m' = p_log m
  | R2 a dl => if fst (m_r m i) then p_ph m' = POut /\ p_log m' = p_log m ++ [(CRd a dl, snd (m_r m i))]
               else p_ph m' = R2 a dl /\ p_log m' = p_log m
  | W0 a v dl => p_ph m' = (if m_awack m i then W1 a v dl else W0 a v dl) /\ p_log m' = p_log m
  | W1 a v dl => p_ph m' = (if p_awv m && n_awready i then after_addr_w a v dl else W1 a v dl) /\ p_log m' = p_log m
  | WD a v dl k => p_ph m' = (match k with O => W2 a v (Some dl) | S k' => WD a v dl k' end) /\ p_log m' = p_log m
  | W2 a v dl => p_ph m' = (if m_wack m i then W3 a v dl else W2 a v dl) /\ p_log m' = p_log m
  | W3 a v dl => p_ph m' = (if p_wv m && m_wready m i then W4 a v dl else W3 a v dl) /\ p_log m' = p_log m
  | W4 a v dl => if negb ((0 <? p_out m) || p_awv m) then p_ph m' = POut /\ p_log m' = p_log m ++ [(CWr a v dl, 0)]
                 else p_ph m' = W4 a v dl /\ p_log m' = p_log m
  end.
Proof.
  cbv zeta. unfold m_step. destruct (m_r m i) as [rv rd]. destruct (p_ph m); try (split; reflexivity).
  - destruct rv; split; reflexivity.
  - destruct (negb _); split; reflexivity.
Qed.
Lemma m_step_out m i : p_out (m_step m i) =
  if p_awv m && n_awready i && negb (n_b i) && (p_out m <? 7) then p_out m + 1
  else if negb (p_awv m && n_awready i) && n_b i && (0 <? p_out m) then p_out m - 1 else p_out m.
Proof.
  unfold m_step. destruct (m_r m i) as [rv rd]. destruct (p_ph m); try reflexivity.
  - destruct rv; reflexivity.
  - destruct (negb _); reflexivity.
Qed.

Section Returns.
  Variables (len mw sh xz : Z) (xb : bool) (n : nat).
  Hypothesis Hmw : 0 <= mw.
  Hypothesis Hsh : 0 <= sh.
  Notation sstep := (ms_step len mw sh xz xb).
  Notation srun := (final (ms_step len mw sh xz xb)).
  Definition sized (s : msys) : Prop := length (p_wsb (s_m s)) = n /\ length (p_rsb (s_m s)) = n.
  Lemma sized_step s i : sized s -> sized (sstep s i).
  Proof using.
    intros [A B]. unfold sized, ms_step. cbn [s_m]. rewrite m_step_wsb, m_step_rsb, !chain_length. split; assumption.
  Qed.

  Lemma mstep_meas s i g done t c : cinv mw sh s g done t -> sized s -> cur (p_ph (s_m s)) = Some c ->
    (exists r, p_log (s_m (sstep s i)) = p_log (s_m s) ++ [(c, r)]) \/
    (p_log (s_m (sstep s i)) = p_log (s_m s) /\ cur (p_ph (s_m (sstep s i))) = Some c /\
     (meas n (sstep s i) < meas n s)%nat).
  Proof using Hmw Hsh.
    intros (T & R & G) (SW & SR) C. destruct T as (SHP & pre & pend & _ & _ & I). cbn [fst] in I.
    destruct SHP as (NW & NR & OW & OR).
    unfold minv in I. pose proof (m_step_ph (s_m s) (to_m s i)) as P. cbv zeta in P. unfold ms_step in *. cbn [s_m s_l] in *.
    pose proof (m_step_rsb (s_m s) (to_m s i)) as RB. pose proof (m_step_wsb (s_m s) (to_m s i)) as WB.
    pose proof (m_step_out (s_m s) (to_m s i)) as OUT.
    unfold chans in I. unfold meas. cbn [s_m s_l].
    destruct (p_ph (s_m s)) as [|a dl|a dl|a dl k|a dl|a v dl|a v dl|a v dl k|a v dl|a v dl|a v dl] eqn:PH; cbn [cur] in C;
      try discriminate; injection C as <-.
    - (* R0 *) destruct I as (-> & -> & V & _). destruct P as (P1 & P2). unfold m_arack in P1. rewrite V, orb_true_r in P1.
      right. rewrite P1, P2. split; [reflexivity|]. split; [reflexivity|]. destruct (l_arready _); lia.
    - (* R1 *) destruct I as (-> & -> & (V & W & _ & _ & HR1 & _) & _). destruct t as [|j k|d|j|]; try contradiction.
      destruct P as (P1 & P2). rewrite V in P1. cbn [andb to_m n_arready] in P1. right. rewrite P1, P2. split; [reflexivity|].
      destruct (l_arready (s_l s)) eqn:AR.
      + destruct dl as [k|]; cbn [after_addr_r cur dly].
        * split; [reflexivity|]. lia.
        * split; [reflexivity|]. rewrite RB.
          assert (L : l_rvalid (s_l s) = false) by (destruct R as (_ & _ & _ & X & _); exact X).
          unfold rin, to_m, opt_if. cbn [n_r]. rewrite L. cbn [fst snd].
          destruct (ch_nil (p_rsb (s_m s)) false 0 (m_rready (s_m s)) NR OR HR1) as (_ & _ & X).
          cbn in X. rewrite (weight_nil _ X). cbn [Nat.eqb]. lia.
      + cbn [cur]. split; [reflexivity|].
        assert (X : l_arready (lite_step len mw sh xz xb (s_l s) (to_l s i)) = true).
        { destruct R as (F & RD & WR & RV & BV). unfold l_arready, lite_step. cbn [l_fsm l_rd l_wr l_par l_paw].
          rewrite F, RD, WR. cbn [Z.eqb orb andb negb]. unfold l_arack, l_awack. rewrite AR. cbn [andb negb].
          unfold to_l, opt_if. cbn [li_aw li_ar]. rewrite V, W. cbn [is_some negb andb]. rewrite !andb_false_r. reflexivity. }
        rewrite X. lia.
    - (* RD *) destruct P as (P1 & P2). right. rewrite P1, P2. split; [reflexivity|]. destruct k as [|k]; cbn [cur].
      + split; [reflexivity|]. rewrite RB. destruct (weight (chain_step _ _ _ _) =? 0)%nat eqn:E; [lia|].
        assert (Y : exists x, cheld (p_rsb (m_step (s_m s) (to_m s i))) = [x]).
        { rewrite RB. unfold m_rready. rewrite PH.
          destruct I as [(-> & -> & _ & _ & _ & _ & HR & _)|(d & -> & -> & _ & _ & _ & _ & HR & _)].
          - destruct (ch_nil (p_rsb (s_m s)) (fst (rin (to_m s i))) (snd (rin (to_m s i))) false NR OR HR) as (_ & _ & X).
            rewrite X. destruct (fst (rin (to_m s i))); [eauto|]. exfalso. unfold m_rready in E. rewrite PH in E.
            rewrite (weight_nil _ X) in E. discriminate.
          - assert (N0 : rin (to_m s i) = (false, 0)).
            { destruct t as [|j k|x|j|]; try contradiction. destruct R as (_ & _ & _ & RV & _).
              unfold rin, to_m, opt_if. cbn [n_r]. rewrite RV. reflexivity. }
            rewrite N0. cbn [fst snd]. exists d. destruct (ch_one (p_rsb (s_m s)) 0 false d NR OR HR) as [(_ & X)|(_ & _ & X)]; exact X. }
        destruct Y as (x & Y). rewrite RB in Y. apply weight_one in Y; [|apply chain_ok, OR]. rewrite chain_length in Y. lia.
      + split; [reflexivity|]. lia.
    - (* R2 *)
      assert (RR : m_rready (s_m s) = true) by (unfold m_rready; rewrite PH; reflexivity). rewrite RR in RB.
      destruct I as [(-> & -> & _ & _ & _ & _ & HR & _)|(d & -> & -> & _ & _ & _ & _ & HR & _)].
      + destruct (ch_nil (p_rsb (s_m s)) (fst (rin (to_m s i))) (snd (rin (to_m s i))) true NR OR HR) as (X1 & X2 & X3).
        unfold m_r in P. rewrite X1 in P. destruct P as (P1 & P2). right. rewrite P1, P2, RB. split; [reflexivity|]. cbn [cur].
        split; [reflexivity|]. rewrite (weight_nil _ HR). cbn [Nat.eqb].
        assert (XR : m_xrready (s_m s) = true) by (unfold m_xrready; rewrite RR; exact X2).
        destruct t as [|j [|[|k]]|d|j|]; cbn [gt] in G; try contradiction; cbn [rel] in R; try contradiction.
        * destruct R as (F & RD & WR & RV & BV & _).
          assert (N0 : rin (to_m s i) = (false, 0)) by (unfold rin, to_m, opt_if; cbn [n_r]; rewrite RV; reflexivity).
          rewrite N0 in *. cbn [fst snd] in *. rewrite (weight_nil _ X3). cbn [Nat.eqb].
          unfold lite_step. cbn [l_fsm]. unfold l_push, l_rack. rewrite F, RV. cbn [negb]. rewrite orb_true_r. cbn. lia.
        * destruct R as (F & RD & WR & RV & BV & _).
          assert (N0 : rin (to_m s i) = (false, 0)) by (unfold rin, to_m, opt_if; cbn [n_r]; rewrite RV; reflexivity).
          rewrite N0 in *. cbn [fst snd] in *. rewrite (weight_nil _ X3). cbn [Nat.eqb].
          unfold lite_step. cbn [l_fsm]. rewrite F, RD, WR. cbn. lia.
        * destruct R as (F & RD & WR & RV & BV & _).
          assert (N0 : rin (to_m s i) = (true, l_rdata (s_l s))) by (unfold rin, to_m, opt_if; cbn [n_r]; rewrite RV; reflexivity).
          rewrite N0 in *. cbn [fst snd] in *. pose proof (weight_one _ _ (chain_ok _ _ _ _ OR) X3) as WO.
          rewrite chain_length in WO. destruct (weight (chain_step _ _ _ _) =? 0)%nat eqn:E; [apply Nat.eqb_eq in E; lia|].
          rewrite F. change (Z.to_nat 2) with 2%nat. lia.
      + destruct t as [|j k|x|j|]; try contradiction.
        assert (N0 : rin (to_m s i) = (false, 0)).
        { destruct R as (_ & _ & _ & RV & _). unfold rin, to_m, opt_if. cbn [n_r]. rewrite RV. reflexivity. }
        unfold m_r in P. rewrite N0 in *. cbn [fst snd] in *.
        pose proof (weight_one _ _ OR HR) as WO.
        destruct (ch_one (p_rsb (s_m s)) 0 true d NR OR HR) as [(X1 & X3)|(X1 & X2 & X3)]; rewrite X1 in P.
        * destruct P as (P1 & P2). right. rewrite P1, P2, RB. split; [reflexivity|]. cbn [cur]. split; [reflexivity|].
          pose proof (weight_step_strict (p_rsb (s_m s)) false 0 OR (proj1 WO)) as ST. cbn [andb entry] in ST.
          pose proof (weight_one _ _ (chain_ok _ _ _ _ OR) X3) as WO2.
          destruct (weight (chain_step _ _ _ _) =? 0)%nat eqn:E; [apply Nat.eqb_eq in E; lia|].
          destruct (weight (p_rsb (s_m s)) =? 0)%nat eqn:E2; [apply Nat.eqb_eq in E2; lia|]. lia.
        * destruct P as (P1 & P2). left. eexists. exact P2.
    - (* W0 *) destruct I as (-> & -> & _ & V & _ & _ & _ & O). destruct P as (P1 & P2). unfold m_awack in P1.
      rewrite V, O, orb_true_r in P1. cbn [Z.eqb andb] in P1.
      right. rewrite P1, P2. split; [reflexivity|]. split; [reflexivity|]. destruct (l_awready _); lia.
    - (* W1 *) destruct I as (-> & -> & (W & V & _) & _). destruct t as [|j k|d|j|]; try contradiction.
      destruct P as (P1 & P2). rewrite V in P1. cbn [andb to_m n_awready] in P1. right. rewrite P1, P2. split; [reflexivity|].
      destruct (l_awready (s_l s)) eqn:AR.
      + destruct dl as [k|]; cbn [after_addr_w cur dly]; (split; [reflexivity|lia]).
      + cbn [cur]. split; [reflexivity|].
        assert (X : l_awready (lite_step len mw sh xz xb (s_l s) (to_l s i)) = true).
        { destruct R as (F & RD & WR & RV & BV). unfold l_awready, lite_step. cbn [l_fsm l_rd l_wr l_paw l_bvalid].
          rewrite F, RD, WR, BV. cbn [Z.eqb orb andb negb]. unfold l_arack, l_awack. rewrite AR. cbn [andb negb].
          unfold l_whs, l_wready. rewrite F. cbn [Z.eqb andb].
          unfold to_l, opt_if. cbn [li_aw li_ar]. rewrite V, W. cbn [is_some negb andb]. rewrite !andb_false_r. reflexivity. }
        rewrite X. lia.
    - (* WD *) destruct P as (P1 & P2). right. rewrite P1, P2. split; [reflexivity|]. destruct k; cbn [cur]; (split; [reflexivity|lia]).
    - (* W2 *) destruct I as (-> & -> & _ & _ & V & _). destruct P as (P1 & P2). unfold m_wack in P1. rewrite V, orb_true_r in P1.
      right. rewrite P1, P2. split; [reflexivity|]. split; [reflexivity|lia].
    - (* W3 *) destruct I as (-> & -> & (_ & _ & V & HW & _) & _). destruct P as (P1 & P2).
      destruct (ch_nil (p_wsb (s_m s)) (p_wv (s_m s)) (p_wd (s_m s)) (n_wready (to_m s i)) NW OW HW) as (_ & X2 & X3).
      unfold m_wready in P1. rewrite X2, V in P1. cbn [andb] in P1. right. rewrite P1, P2, WB. split; [reflexivity|]. cbn [cur].
      split; [reflexivity|]. rewrite V in X3 |- *. pose proof (weight_one _ _ (chain_ok _ _ _ _ OW) X3) as WO.
      rewrite chain_length in WO. destruct (weight (chain_step _ _ _ _) =? 0)%nat eqn:E; [apply Nat.eqb_eq in E; lia|].
      destruct (l_fsm _ =? 0); lia.
    - (* W4 *)
      destruct I as [(-> & -> & _ & W & V & HW & _ & O)|[(-> & -> & _ & W & V & HW & _ & O)|(-> & -> & _ & W & V & HW & _ & O)]];
        rewrite W, O in P; cbn in P.
      + destruct t as [|j k|d|j|]; try contradiction. destruct P as (P1 & P2). right. rewrite P1, P2, WB. split; [reflexivity|]. cbn [cur].
        split; [reflexivity|]. rewrite V. pose proof (weight_one _ _ OW HW) as WO.
        destruct (weight (p_wsb (s_m s)) =? 0)%nat eqn:E2; [apply Nat.eqb_eq in E2; lia|]. clear E2.
        destruct R as [(F & RD & WR & RV & BV & _)|(F & RD & WR & RV & BV & _)].
        * assert (NXT : l_fsm (lite_step len mw sh xz xb (s_l s) (to_l s i)) = 3)
            by (unfold lite_step; cbn [l_fsm]; rewrite F, WR; reflexivity).
          rewrite NXT, F. cbn [Z.eqb].
          pose proof (weight_step (p_wsb (s_m s)) false (p_wd (s_m s)) (n_wready (to_m s i)) OW) as ST. cbn [andb entry] in ST.
          clear - WO ST; destruct (weight (chain_step _ _ _ _) =? 0)%nat; [destruct (0 <? p_out _); lia|lia].
        * assert (WRD : n_wready (to_m s i) = true) by (cbn; unfold l_wready; rewrite F; reflexivity). rewrite WRD.
          pose proof (weight_step_strict (p_wsb (s_m s)) false (p_wd (s_m s)) OW (proj1 WO)) as ST. cbn [andb entry] in ST.
          rewrite F. cbn [Z.eqb].
          assert (NZ : l_fsm (lite_step len mw sh xz xb (s_l s) (to_l s i)) =? 0 = false)
            by (unfold lite_step; cbn [l_fsm]; rewrite F; cbn [Z.eqb Pos.eqb]; destruct (is_some _); reflexivity).
          rewrite NZ. clear - WO ST; destruct (weight (chain_step _ _ _ _) =? 0)%nat; [destruct (0 <? p_out _); lia|lia].
      + destruct t as [|j k|d|j|]; try contradiction. destruct P as (P1 & P2). right. rewrite P1, P2, WB. split; [reflexivity|]. cbn [cur].
        split; [reflexivity|]. rewrite V. rewrite (weight_nil _ HW).
        destruct (ch_nil (p_wsb (s_m s)) false (p_wd (s_m s)) (n_wready (to_m s i)) NW OW HW) as (_ & _ & X3).
        cbn in X3. cbn [to_m n_wready]. rewrite (weight_nil _ X3). cbn [Nat.eqb]. rewrite OUT, W, O.
        destruct R as (_ & _ & _ & _ & BV). cbn [to_m n_b andb]. rewrite BV. cbn. lia.
      + destruct P as (P1 & P2). left. eexists. exact P2.
  Qed.

  Lemma returns_in : forall k s g done t c more, cinv mw sh s g done t -> sized s -> cur (p_ph (s_m s)) = Some c ->
    (meas n s <= k)%nat -> (k <= length more)%nat ->
    exists j r, (j <= k)%nat /\ p_log (s_m (srun s (firstn j more))) = p_log (s_m s) ++ [(c, r)].
  Proof using Hmw Hsh.
    induction k as [|k IH]; intros s g done t c more C SZ CU M L.
    - exfalso. pose proof (mstep_meas s (mkMSIn None None) g done t c C SZ CU) as [(r & X)|(_ & _ & X)]; [|lia].
      unfold meas in M. destruct (p_ph (s_m s)) eqn:PH; cbn in CU; try discriminate; try lia.
      + destruct (weight (p_rsb (s_m s)) =? 0)%nat eqn:E; [|apply Nat.eqb_neq in E; lia].
        destruct C as (T & R & G). destruct T as ((NW & NR & OW & OR) & pre & pend & _ & _ & I). unfold minv in I. cbn [fst] in I.
        rewrite PH in I. destruct I as [(-> & -> & CH)|(d & -> & -> & CH)].
        * destruct t as [|j [|[|k]]|x|j|]; cbn [gt rel] in *; try contradiction; destruct R as (F2 & _); rewrite F2 in M;
            [change (Z.to_nat 1) with 1%nat in M|change (Z.to_nat 0) with 0%nat in M|change (Z.to_nat 2) with 2%nat in M]; lia.
        * apply Nat.eqb_eq in E. destruct CH as (_ & _ & _ & _ & HR & _). pose proof (weight_one _ _ OR HR). lia.
      + destruct (weight (p_wsb (s_m s)) =? 0)%nat eqn:E; [destruct (0 <? _); lia|]. lia.
    - destruct more as [|i more]; [cbn in L; lia|]. cbn [length] in L.
      destruct (mstep_meas s i g done t c C SZ CU) as [(r & X)|(X1 & X2 & X3)].
      + exists 1%nat, r. split; [lia|]. exact X.
      + destruct (cstep len mw sh xz xb Hmw Hsh s i g done t C) as (g' & done' & t' & _ & _ & C').
        destruct (IH (sstep s i) g' done' t' c more C' (sized_step s i SZ) X2 ltac:(lia) ltac:(lia)) as (j & r & J & E).
        exists (S j), r. split; [lia|]. cbn [firstn final fold_left]. rewrite <- X1. exact E.
  Qed.
  Lemma sized_run : forall ins s, sized s -> sized (srun s ins).
  Proof using. induction ins as [|i ins IH]; intros s H; [exact H|]. cbn. apply IH, sized_step, H. Qed.
  Lemma returns ins i more c : (1 <= n)%nat ->
    p_ph (s_m (srun (ms_init n) ins)) = POut -> q_go i = Some c -> (bound n c <= length more)%nat ->
    exists j r, (j <= bound n c)%nat /\
      p_log (s_m (srun (ms_init n) (ins ++ [i] ++ firstn j more))) = p_log (s_m (srun (ms_init n) ins)) ++ [(c, r)].
  Proof using Hmw Hsh.
    intros N PH GO L. destruct (crun len mw sh xz xb Hmw Hsh ins (ms_init n) GNone [] TNone (cinit mw sh n N)) as (g & done & t & C).
    destruct (cstep len mw sh xz xb Hmw Hsh _ i g done t C) as (g' & done' & t' & _ & _ & C').
    assert (SZ : sized (srun (ms_init n) ins)).
    { apply sized_run. unfold sized, ms_init, m_init. cbn. rewrite !repeat_length. split; reflexivity. }
    set (s := srun (ms_init n) ins) in *.
    pose proof (m_step_ph (s_m s) (to_m s i)) as P. cbv zeta in P. rewrite PH in P. cbn [to_m n_go] in P. rewrite GO in P.
    destruct P as (P1 & P2).
    assert (CU : cur (p_ph (s_m (sstep s i))) = Some c) by (unfold ms_step; cbn [s_m]; rewrite P1; destruct c; reflexivity).
    assert (M : (meas n (sstep s i) <= bound n c)%nat).
    { unfold meas, ms_step. cbn [s_m]. rewrite P1. destruct c; cbn; lia. }
    destruct (returns_in (bound n c) _ g' done' t' c more C' (sized_step s i SZ) CU M L) as (j & r & J & E).
    exists j, r. split; [exact J|]. unfold final in *. rewrite !fold_left_app. cbn [fold_left]. fold s.
    rewrite E. unfold ms_step. cbn [s_m]. rewrite P2. reflexivity.
  Qed.
End Returns.
