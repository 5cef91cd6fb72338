(** Proofs about the DMA data machines. *)
From Verif Require Import Base Pack Ram_Model Ram_Spec Ram_Proofs AxiDma_Model AxiDma_Spec AxiDma_Proofs AxiData_Model AxiData_Spec.
Open Scope Z_scope.

Ltac zclean := repeat match goal with
  | H : context [cat _] |- _ => clear H
  | H : context [le _ _] |- _ => clear H
  | H : context [x_wdata _] |- _ => clear H
  | H : context [xi_data _] |- _ => clear H
  end; repeat match goal with
  | H : ?T |- _ => match type of T with Prop =>
      lazymatch T with
      | Z.le _ _ => fail | Z.lt _ _ => fail | Z.le _ _ /\ _ => fail
      | @eq Z _ _ => fail | @eq nat _ _ => fail | (_ <= _)%nat => fail | (_ < _)%nat => fail
      | x_count _ <> _ => fail
      | (_ =? _) = _ => fail
      | _ => clear H end end
  end.
Ltac zl := zclean; lia.
Ltac zn := zclean; nia.

Lemma Forall2_len {A B} (R : A -> B -> Prop) a b : Forall2 R a b -> length a = length b.
Proof. induction 1; cbn; congruence. Qed.

(** ** Words and parts *)
Section Words.
  Variable w : Z.
  Hypothesis Hw : 0 <= w.
  Lemma pow_split n : 0 <= n -> 2 ^ (w * (n + 1)) = 2 ^ w * 2 ^ (w * n).
  Proof. intros Hn. rewrite <- Z.pow_add_r by nia. f_equal. lia. Qed.
  Lemma le_snoc l b : le w (l ++ [b]) = le w l + 2 ^ (w * Z.of_nat (length l)) * b.
  Proof.
    induction l as [|x l IH]; [cbn [app le fold_right length]; change (Z.of_nat 0) with 0; rewrite ?Z.mul_0_r, ?Z.pow_0_r; ring|].
    cbn [app le fold_right length]. fold (le w (l ++ [b])) (le w l). rewrite IH.
    replace (Z.of_nat (S (length l))) with (Z.of_nat (length l) + 1) by lia. rewrite pow_split by lia. ring.
  Qed.
  Lemma le_bound l : Forall (fun b => 0 <= b < 2 ^ w) l -> 0 <= le w l < 2 ^ (w * Z.of_nat (length l)).
  Proof.
    induction l as [|x l IH]; intros H; [cbn [le fold_right length]; change (Z.of_nat 0) with 0; rewrite ?Z.mul_0_r, ?Z.pow_0_r; lia|].
    specialize (IH (Forall_inv_tail H)). pose proof (Forall_inv H) as Hx. cbn beta in Hx.
    cbn [le fold_right length]. fold (le w l).
    replace (Z.of_nat (S (length l))) with (Z.of_nat (length l) + 1) by lia. rewrite pow_split by lia. nia.
  Qed.
  Lemma cat2 m x y : 0 <= m -> cat [(w, x); (m, y)] = (x mod 2 ^ w) * 2 ^ m + y mod 2 ^ m.
  Proof.
    intros Hm. cbn [cat total_width fold_right fst]. rewrite Z.add_0_r, Z.shiftl_0_r, Z.lor_0_r.
    rewrite lor_shift_add; [reflexivity|exact Hm|]. apply Z.mod_pos_bound, Z.pow_pos_nonneg; lia.
  Qed.
  (** shifting a part in from above *)
  Lemma shift_in p c d x : 0 <= c < p -> 0 <= d < 2 ^ (w * p) -> 0 <= x < 2 ^ w ->
    let d' := cat [(w, x); (w * (p - 1), Z.shiftr d w)] in
    0 <= d' < 2 ^ (w * p) /\ d' / 2 ^ (w * (p - (c + 1))) = d / 2 ^ (w * (p - c)) + 2 ^ (w * c) * x.
  Proof.
    intros Hc Hd Hx. cbv zeta. rewrite cat2 by nia. rewrite Z.shiftr_div_pow2, (Z.mod_small x) by lia.
    assert (E1 : 2 ^ (w * p) = 2 ^ w * 2 ^ (w * (p - 1))) by (rewrite <- pow_split by lia; f_equal; lia).
    assert (P1 : 0 < 2 ^ w) by (apply Z.pow_pos_nonneg; lia).
    assert (P2 : 0 < 2 ^ (w * (p - 1))) by (apply Z.pow_pos_nonneg; nia).
    assert (H1 : 0 <= d / 2 ^ w < 2 ^ (w * (p - 1)))
      by (split; [apply Z.div_pos; lia|apply Z.div_lt_upper_bound; [lia|rewrite <- E1; lia]]).
    rewrite Z.mod_small by exact H1. split; [nia|].
    assert (P3 : 0 < 2 ^ (w * (p - (c + 1)))) by (apply Z.pow_pos_nonneg; nia).
    replace (x * 2 ^ (w * (p - 1))) with ((2 ^ (w * c) * x) * 2 ^ (w * (p - (c + 1)))).
    - rewrite Z.div_add_l by lia. rewrite Z.div_div by lia.
      replace (2 ^ w * 2 ^ (w * (p - (c + 1)))) with (2 ^ (w * (p - c)))
        by (rewrite <- Z.pow_add_r by nia; f_equal; lia). lia.
    - replace (2 ^ (w * (p - 1))) with (2 ^ (w * c) * 2 ^ (w * (p - (c + 1)))); [ring|].
      rewrite <- Z.pow_add_r by nia. f_equal. lia.
  Qed.
  Lemma part_shift x j : part w x (S j) = part w (x / 2 ^ w) j.
  Proof.
    unfold part. rewrite Z.div_div.
    - do 2 f_equal. rewrite <- Z.pow_add_r by nia. f_equal. lia.
    - apply Z.pow_nonzero; lia.
    - apply Z.pow_pos_nonneg; nia.
  Qed.
End Words.

Lemma group_app p l x j : ((S j) * p <= length l)%nat -> group p (l ++ [x]) j = group p l j.
Proof.
  intros H. unfold group. rewrite skipn_app, firstn_app.
  rewrite skipn_length. replace (p - (length l - j * p))%nat with 0%nat by lia. cbn [firstn]. apply app_nil_r.
Qed.
Lemma group_last p l j : length l = (S j * p)%nat -> group p l j = skipn (j * p) l.
Proof. intros H. unfold group. apply firstn_all2. rewrite skipn_length. lia. Qed.

(** ** The RAM side *)
Section Ram.
  Variables aw lw : Z.
  Hypothesis Haw : 0 <= aw.
  Definition plain_in (i : wb_in) : Prop := wbi_cond i = false /\ wbi_last i = false /\ wbi_quit i = false.
  Lemma wb_idle_keep s i : wb_run s = false -> wbi_cond i = false ->
    wb_run (wb_step aw lw s i) = false /\ wb_mem (wb_step aw lw s i) = wb_mem s.
  Proof. intros H Hc. unfold wb_step. rewrite H, Hc. cbn. auto. Qed.
  Lemma winv_done m a st n ws s i : 0 < Z.of_nat n < 2 ^ lw -> WInv aw m a st n ws s -> wplain i ->
    (n <= length (ws ++ words_of i))%nat ->
    wb_run (wb_step aw lw s i) = false /\
    wb_mem (wb_step aw lw s i) = store_words aw a st 0 (firstn n (ws ++ words_of i)) m.
  Proof.
    intros Hn HI Hp Hl. destruct (winv_step aw lw m a st n Haw Hn s ws i HI Hp) as [H _].
    inversion H as [? ? ? Hk | ? ? Hr Hk Hm]; subst; [lia|]. auto.
  Qed.
End Ram.

(** ** Bus to RAM *)
Definition packz (r : ratio) : Z := Z.of_nat (pack r).
Section Read.
  Variable r : ratio.
  Variables w aw lw : Z.
  Hypothesis Haw : 0 <= aw.
  Hypothesis Hw : 0 <= w.
  Hypothesis Hr : match r with Same => True | Narrow lp | Wide lp => 0 < lp end.
  Lemma pack_P : match r with Same => packz r = 1 | Narrow lp | Wide lp => packz r = 2 ^ lp /\ 2 <= packz r end.
  Proof.
    unfold packz, pack. destruct r as [|lp|lp]; [reflexivity| |];
      (assert (2 <= 2 ^ lp) by (change 2 with (2 ^ 1) at 1; apply Z.pow_le_mono_r; lia); lia).
  Qed.

  Definition pending (s : rd) : list Z :=
    match r with
    | Same => []
    | Narrow _ => if x_wvalid s then [x_wdata s] else []
    | Wide _ => if x_wvalid s then [x_wdata s mod 2 ^ w] else []
    end.
  (** [k] RAM words produced from the bus words [bs] *)
  Definition shape (s : rd) (bs : list Z) (k : nat) : Prop :=
    match r with
    | Same => length bs = k
    | Narrow _ =>
        Z.of_nat (length bs) = Z.of_nat k * (packz r) + x_count s /\ 0 <= x_count s < (packz r) /\
        0 <= x_wdata s < 2 ^ (w * (packz r)) /\
        x_wdata s / 2 ^ (w * ((packz r) - x_count s)) = le w (skipn (k * pack r) bs)
    | Wide _ =>
        Z.of_nat (length bs) * (packz r) = Z.of_nat k + (if x_count s =? 0 then 0 else (packz r) - x_count s) /\
        x_count s = Z.of_nat k mod (packz r) /\
        (x_count s <> 0 -> forall j, part w (x_wdata s) (S j) =
             part w (nth (k / pack r)%nat bs 0) (j + Z.to_nat (x_count s)))
    end.

  (** a request [q] in progress *)
  Definition busy (s : rd) (m : Z -> Z) (q : rrequest) (bs : list Z) : Prop :=
    exists k ws, WInv aw m (fst (fst q)) (snd (fst q)) (nwords q) ws (x_wb s) /\
      ws ++ pending s = ram_words r w bs k /\ (k < nwords q)%nat /\ x_size s = snd q - Z.of_nat k /\
      shape s bs k.
  (** no request in progress; the RAM holds [m], at the latest after this cycle *)
  Definition settled (s : rd) (m : Z -> Z) : Prop :=
    forall i, let wb := wb_step aw lw (x_wb s) (rd_ram r w s i) in wb_run wb = false /\ wb_mem wb = m.

  Lemma ram_words_S bs n : ram_words r w bs (S n) = ram_words r w bs n ++ [ram_word r w bs n].
  Proof. unfold ram_words. rewrite seq_S, map_app. reflexivity. Qed.
  Lemma ram_words_length bs n : length (ram_words r w bs n) = n.
  Proof. unfold ram_words. rewrite map_length, seq_length. reflexivity. Qed.

  (** the words already produced do not change when a beat arrives *)
  Definition room (bs : list Z) (k : nat) : Prop :=
    match r with
    | Same => (k <= length bs)%nat
    | Narrow _ => (k * pack r <= length bs)%nat
    | Wide _ => (k <= length bs * pack r)%nat
    end.
  Lemma ram_word_app bs x j k : (j < k)%nat -> room bs k -> ram_word r w (bs ++ [x]) j = ram_word r w bs j.
  Proof.
    pose proof pack_P as HP. unfold room, ram_word. intros Hj H. destruct r as [|lp|lp].
    - apply app_nth1. lia.
    - rewrite group_app; [reflexivity|]. nia.
    - rewrite app_nth1; [reflexivity|]. apply Nat.div_lt_upper_bound; [unfold packz in HP; lia|]. lia.
  Qed.
  Lemma ram_words_app bs x k : room bs k -> ram_words r w (bs ++ [x]) k = ram_words r w bs k.
  Proof.
    intros H. apply map_ext_in. intros j Hj. apply in_seq in Hj. apply (ram_word_app bs x j k); [lia|exact H].
  Qed.
  Lemma shape_room s bs k : shape s bs k -> room bs k.
  Proof.
    pose proof pack_P as HP. unfold shape, room. destruct r as [|lp|lp].
    - lia.
    - unfold packz in *. nia.
    - intros (H1 & H2 & _). pose proof (Z.mod_pos_bound (Z.of_nat k) (packz (Wide lp)) ltac:(lia)).
      destruct (x_count s =? 0); unfold packz in *; nia.
  Qed.

  Lemma dec_ok n k : 1 <= n < 2 ^ lw -> (k < Z.to_nat n)%nat -> (n - Z.of_nat k - 1) mod 2 ^ lw = n - Z.of_nat (S k).
  Proof. intros. rewrite Z.mod_small; lia. Qed.

  (** emitting a word, and going on or finishing *)
  Lemma emit s i m q bs bs' ws k word :
    legal_req lw q -> WInv aw m (fst (fst q)) (snd (fst q)) (nwords q) ws (x_wb s) -> x_fsm s = 2 ->
    ws ++ pending s = ram_words r w bs k -> (k < nwords q)%nat -> room bs k ->
    (bs' = bs \/ exists x, bs' = bs ++ [x]) ->
    x_size s = snd q - Z.of_nat k ->
    let s' := rd_step r w aw lw s i in
    x_wb s' = wb_step aw lw (x_wb s) (rd_ram r w s i) ->
    match r with Same => words_of (rd_ram r w s i) = [word] | _ => pending s' = [word] /\ words_of (rd_ram r w s i) = pending s end ->
    word = ram_word r w bs' k ->
    x_size s' = (x_size s - 1) mod 2 ^ lw -> x_fsm s' = (if x_size s <=? 1 then 0 else 2) ->
    shape s' bs' (S k) ->
    (x_fsm s' = 2 /\ busy s' m q bs') \/
    (x_fsm s' = 0 /\ settled s' (store_words aw (fst (fst q)) (snd (fst q)) 0 (ram_words r w bs' (nwords q)) m) /\ S k = nwords q).
  Proof.
    intros Hl HI Hf Hws Hk Hroom Hbs Hsz s' Hwb Hword Ew Hsz' Hf' Hsh.
    assert (Hpl : wplain (rd_ram r w s i)) by (unfold wplain, rd_ram; cbn; rewrite Hf; auto).
    assert (Hn : 0 < Z.of_nat (nwords q) < 2 ^ lw) by (unfold nwords, legal_req in *; lia).
    destruct (winv_step aw lw m _ _ _ Haw Hn _ _ _ HI Hpl) as [HI' _]. rewrite <- Hwb in HI'.
    assert (Ewords : (ws ++ words_of (rd_ram r w s i)) ++ pending s' = ram_words r w bs' (S k)).
    { rewrite ram_words_S, <- Ew.
      assert (E0 : ram_words r w bs' k = ram_words r w bs k)
        by (destruct Hbs as [->|[x ->]]; [reflexivity|apply ram_words_app; exact Hroom]).
      rewrite E0, <- Hws. unfold pending in *. destruct r as [|lp|lp].
      - rewrite Hword, !app_nil_r. reflexivity.
      - destruct Hword as [-> ->]. reflexivity.
      - destruct Hword as [-> ->]. reflexivity. }
    rewrite Hsz in Hf', Hsz'. unfold nwords in Hk. rewrite dec_ok in Hsz' by (unfold legal_req in Hl; assumption).
    destruct (snd q - Z.of_nat k <=? 1) eqn:E.
    - right. split; [exact Hf'|]. assert (Ek : S k = nwords q) by (unfold nwords; lia). split; [|exact Ek].
      intros j. cbv zeta.
      assert (Hpl' : wplain (rd_ram r w s' j)) by (unfold wplain, rd_ram; cbn; rewrite Hf'; auto).
      assert (Hlen : length ((ws ++ words_of (rd_ram r w s i)) ++ pending s') = nwords q)
        by (rewrite Ewords, ram_words_length; exact Ek).
      assert (Hwo : exists junk, words_of (rd_ram r w s' j) = pending s' ++ junk).
      { unfold words_of, rd_ram, pending. cbn. destruct r; [eexists; reflexivity| |];
          destruct (x_wvalid s'); exists []; reflexivity. }
      destruct Hwo as [junk Hwo].
      destruct (winv_done aw lw Haw m _ _ _ _ _ _ Hn HI' Hpl') as [A B].
      { rewrite Hwo, app_assoc, app_length, Hlen. lia. }
      split; [exact A|]. rewrite B. f_equal. rewrite Hwo, app_assoc, firstn_app, Hlen, Nat.sub_diag. cbn [firstn].
      rewrite app_nil_r, firstn_all2 by (rewrite Hlen; lia). rewrite Ewords, Ek. reflexivity.
    - left. split; [exact Hf'|]. exists (S k), (ws ++ words_of (rd_ram r w s i)).
      split; [exact HI'|]. split; [exact Ewords|]. split; [unfold nwords; lia|]. split; [exact Hsz'|exact Hsh].
  Qed.

  (** a cycle without a new word *)
  Lemma hold s i m q bs bs' ws k :
    legal_req lw q -> WInv aw m (fst (fst q)) (snd (fst q)) (nwords q) ws (x_wb s) -> x_fsm s = 2 ->
    ws ++ pending s = ram_words r w bs k -> (k < nwords q)%nat -> room bs k ->
    (bs' = bs \/ exists x, bs' = bs ++ [x]) ->
    x_size s = snd q - Z.of_nat k ->
    let s' := rd_step r w aw lw s i in
    x_wb s' = wb_step aw lw (x_wb s) (rd_ram r w s i) ->
    words_of (rd_ram r w s i) = pending s -> pending s' = [] ->
    x_size s' = x_size s -> shape s' bs' k -> busy s' m q bs'.
  Proof.
    intros Hl HI Hf Hws Hk Hroom Hbs Hsz s' Hwb Hwo Hp' Hsz' Hsh.
    assert (Hpl : wplain (rd_ram r w s i)) by (unfold wplain, rd_ram; cbn; rewrite Hf; auto).
    assert (Hn : 0 < Z.of_nat (nwords q) < 2 ^ lw) by (unfold nwords, legal_req in *; lia).
    destruct (winv_step aw lw m _ _ _ Haw Hn _ _ _ HI Hpl) as [HI' _]. rewrite <- Hwb in HI'.
    exists k, (ws ++ words_of (rd_ram r w s i)). split; [exact HI'|].
    rewrite Hp', app_nil_r, Hwo, Hws. split; [|rewrite Hsz'; auto].
    destruct Hbs as [->|[x ->]]; [reflexivity|symmetry; apply ram_words_app; exact Hroom].
  Qed.
  Lemma wb_of s i : x_wb (rd_step r w aw lw s i) = wb_step aw lw (x_wb s) (rd_ram r w s i).
  Proof.
    unfold rd_step. destruct (x_fsm s =? 0); [destruct (xi_req i) as [[[? ?] ?]|]; reflexivity|].
    destruct (x_fsm s =? 1); [reflexivity|]. destruct r; reflexivity.
  Qed.

  Lemma busy_step s i m q bs : legal_req lw q -> x_fsm s = 2 -> in_range r w i -> busy s m q bs ->
    let s' := rd_step r w aw lw s i in
    let bs' := bs ++ rd_beat r s i in
    (x_fsm s' = 2 /\ busy s' m q bs') \/
    (x_fsm s' = 0 /\ settled s' (store_words aw (fst (fst q)) (snd (fst q)) 0 (ram_words r w bs' (nwords q)) m) /\
     own_beats r q bs').
  Proof.
    intros Hl Hf Hin (k & ws & HI & Hws & Hk & Hsz & Hsh). cbv zeta.
    pose proof (shape_room s bs k Hsh) as Hroom. pose proof pack_P as HP. pose proof (wb_of s i) as Hwb.
    pose proof (fun bs' word => emit s i m q bs bs' ws k word Hl HI Hf Hws Hk Hroom) as Em. cbv zeta in Em.
    pose proof (fun bs' => hold s i m q bs bs' ws k Hl HI Hf Hws Hk Hroom) as Ho. cbv zeta in Ho.
    set (s' := rd_step r w aw lw s i) in *.
    unfold rd_beat, rd_ready. rewrite Hf. cbn [Z.eqb Pos.eqb andb].
    assert (Es : s' = rd_step r w aw lw s i) by reflexivity. clearbody s'.
    unfold rd_step in Es. rewrite Hf in Es. cbn [Z.eqb Pos.eqb] in Es.
    unfold shape in Hsh. destruct r as [|lp|lp] eqn:Er.
    - (* same *)
      destruct (xi_valid i) eqn:Ev; cbn [andb].
      + destruct (Em (bs ++ [xi_data i]) (xi_data i)) as [A|(A & B & C)]; [right; eexists; reflexivity|exact Hsz|exact Hwb| | | | |
          |left; exact A|right; split; [exact A|split; [exact B|]]].
        * unfold words_of, rd_ram. cbn. rewrite Ev. reflexivity.
        * cbn [ram_word]. rewrite app_nth2 by zl. replace (k - length bs)%nat with 0%nat by zl. reflexivity.
        * rewrite Es; reflexivity.
        * rewrite Es; reflexivity.
        * unfold shape. rewrite Er, app_length. cbn [length]. zl.
        * unfold own_beats, bus_words. rewrite app_length. cbn [length]. zl.
      + left. split; [rewrite Es; reflexivity|]. rewrite app_nil_r. apply Ho; try rewrite Es; auto.
        * unfold words_of, rd_ram, pending. cbn. rewrite Ev, Er. reflexivity.
        * unfold pending. rewrite Er. reflexivity.
        * unfold shape. rewrite Er. exact Hsh.
    - (* narrow *)
      destruct HP as [HP1 HP2]. destruct Hsh as (S1 & S2 & S3 & S4). cbn in Hin.
      assert (Hbl : length bs = (k * pack (Narrow lp) + Z.to_nat (x_count s))%nat)
        by (clear - S1 S2; unfold packz in S1; zl).
      assert (Ewo : words_of (rd_ram (Narrow lp) w s i) = pending s)
        by (unfold words_of, rd_ram, pending; rewrite Er; reflexivity).
      destruct (xi_valid i) eqn:Ev; cbn [andb] in Es |- *.
      + destruct (shift_in w Hw (packz (Narrow lp)) (x_count s) (x_wdata s) (xi_data i) S2 S3 Hin) as [D1 D2].
        assert (Elen : length (skipn (k * pack (Narrow lp)) bs) = Z.to_nat (x_count s)).
        { rewrite skipn_length, Hbl. clear; zl. }
        assert (Eskip : skipn (k * pack (Narrow lp)) (bs ++ [xi_data i]) = skipn (k * pack (Narrow lp)) bs ++ [xi_data i]).
        { rewrite skipn_app. replace (k * pack (Narrow lp) - length bs)%nat with 0%nat by (rewrite Hbl; clear; zl). reflexivity. }
        assert (Ele : le w (skipn (k * pack (Narrow lp)) (bs ++ [xi_data i])) =
          cat [(w, xi_data i); (w * (packz (Narrow lp) - 1), Z.shiftr (x_wdata s) w)] / 2 ^ (w * (packz (Narrow lp) - (x_count s + 1)))).
        { rewrite Eskip, (le_snoc w Hw), Elen, Z2Nat.id, D2, S4 by zl. reflexivity. }
        rewrite HP1 in S2, Ele, D1. destruct (x_count s =? 2 ^ lp - 1) eqn:Ec.
        * apply Z.eqb_eq in Ec.
          assert (Elen2 : length (bs ++ [xi_data i]) = (S k * pack (Narrow lp))%nat).
          { rewrite app_length, Hbl. cbn [length]. rewrite <- HP1 in Ec. clear - Ec HP2. unfold packz in *. zl. }
          destruct (Em (bs ++ [xi_data i]) (x_wdata s')) as [A|(A & B & C)]; [right; eexists; reflexivity|exact Hsz|exact Hwb| | | | |
            |left; exact A|right; split; [exact A|split; [exact B|]]].
          -- split; [|exact Ewo]. unfold pending. rewrite Er, Es. reflexivity.
          -- cbn [ram_word]. rewrite (group_last _ _ _ Elen2), Ele. rewrite Es. cbn [x_wdata orb].
             assert (E0 : 2 ^ lp - (x_count s + 1) = 0) by (clear - Ec; lia).
             rewrite E0, Z.mul_0_r, Z.pow_0_r, Z.div_1_r. reflexivity.
          -- rewrite Es; reflexivity.
          -- rewrite Es. cbn [x_fsm]. destruct (x_size s <=? 1); reflexivity.
          -- unfold shape. rewrite Er, Es. cbn [x_count x_wdata orb]. rewrite HP1, Elen2. split; [|split; [zl|split]].
             ++ rewrite <- HP1. unfold packz. zl.
             ++ exact D1.
             ++ rewrite skipn_all2 by (rewrite Elen2; zl). rewrite Z.sub_0_r. apply Z.div_small. exact D1.
          -- unfold own_beats, bus_words. rewrite Elen2, C. reflexivity.
        * apply Z.eqb_neq in Ec. left.
          replace (x_count s <? 2 ^ lp - 1) with true in Es by zl. cbn [orb] in Es. rewrite andb_false_r in Es.
          split; [rewrite Es; reflexivity|]. apply Ho; try rewrite Es; auto; [right; eexists; reflexivity|unfold pending; rewrite Er; reflexivity|].
          unfold shape. rewrite Er; try rewrite Es. cbn [x_count x_wdata]. rewrite HP1, Z.mod_small by zl.
          rewrite app_length. cbn [length]. split; [rewrite <- HP1; zl|]. split; [zl|]. split; [exact D1|]. symmetry. exact Ele.
      + left. cbn [orb] in Es. split; [rewrite Es; reflexivity|]. rewrite app_nil_r. apply Ho; try rewrite Es; auto; [unfold pending; rewrite Er; reflexivity|].
        unfold shape. rewrite Er; try rewrite Es. cbn [x_count x_wdata]. auto.
    - (* wide *)
      destruct HP as [HP1 HP2]. destruct Hsh as (S1 & S2 & S3). clear Hin.
      assert (Ewo : words_of (rd_ram (Wide lp) w s i) = pending s)
        by (unfold words_of, rd_ram, pending; rewrite Er; reflexivity).
      assert (Epk : packz (Wide lp) = Z.of_nat (pack (Wide lp))) by reflexivity.
      pose proof (Z.mod_pos_bound (Z.of_nat k) (packz (Wide lp)) ltac:(zl)) as Hmod. rewrite <- S2 in Hmod.
      pose proof (Z.div_mod (Z.of_nat k) (packz (Wide lp)) ltac:(zl)) as Hdm. rewrite <- S2 in Hdm.
      assert (Hnat : (k mod pack (Wide lp) = Z.to_nat (x_count s))%nat).
      { apply Nat2Z.inj. rewrite Nat2Z.inj_mod, <- Epk, <- S2. zl. }
      destruct (x_count s =? 0) eqn:Ec.
      + apply Z.eqb_eq in Ec. replace (0 <? x_count s) with false in Es by zl. rewrite andb_false_r, orb_false_l in Es.
        destruct (xi_valid i) eqn:Ev; cbn [andb orb] in Es |- *.
        * assert (Ek : (k = length bs * pack (Wide lp))%nat) by (rewrite Epk in S1; zn).
          assert (Ediv : (k / pack (Wide lp) = length bs)%nat) by (rewrite Ek; apply Nat.div_mul; zl).
          replace (x_count s =? 2 ^ lp - 1) with false in Es by zl.
          assert (Hc1 : (Z.of_nat (S k)) mod packz (Wide lp) = 1).
          { replace (Z.of_nat (S k)) with (1 + Z.of_nat (length bs) * packz (Wide lp)) by zl.
            rewrite Z.mod_add by zl. apply Z.mod_small. zl. }
          destruct (Em (bs ++ [xi_data i]) (xi_data i mod 2 ^ w)) as [A|(A & B & C)]; [right; eexists; reflexivity|exact Hsz|exact Hwb| | | | |
            |left; exact A|right; split; [exact A|split; [exact B|]]].
          -- split; [|exact Ewo]. unfold pending. rewrite Er, Es. reflexivity.
          -- cbn [ram_word]. rewrite Ediv, app_nth2, Nat.sub_diag, Hnat, Ec by zl. cbn [nth Z.to_nat]. unfold part.
             change (Z.of_nat 0) with 0. rewrite Z.mul_0_r, Z.pow_0_r, Z.div_1_r. reflexivity.
          -- rewrite Es; reflexivity.
          -- rewrite Es. cbn [x_fsm]. rewrite andb_true_r. destruct (x_size s <=? 1); reflexivity.
          -- unfold shape. rewrite Er; try rewrite Es. cbn [x_count x_wdata]. rewrite Ec, Hc1. change (0 + 1) with 1. rewrite Z.mod_small by zl.
             cbn [Z.eqb]. rewrite app_length. cbn [length]. split; [zl|]. split; [reflexivity|]. intros _ j.
             replace (S k / pack (Wide lp))%nat with (length bs).
             ++ rewrite app_nth2, Nat.sub_diag by zl. cbn [nth]. f_equal. zl.
             ++ apply Nat.div_unique with (r := 1%nat); zl.
          -- unfold own_beats, bus_words. rewrite app_length, <- C, Ek. cbn [length].
             apply Nat.div_unique with (r := 0%nat); zl.
        * left. split; [rewrite Es; cbn [x_fsm]; rewrite andb_false_r; reflexivity|]. rewrite app_nil_r.
          apply Ho; try rewrite Es; auto; [unfold pending; rewrite Er; reflexivity|].
          unfold shape. rewrite Er; try rewrite Es. cbn [x_count x_wdata].
          replace (x_count s =? 2 ^ lp - 1) with false by zl. rewrite Ec. cbn [Z.eqb]. rewrite <- S2.
          split; [zl|]. split; [congruence|]. intros X. exfalso. apply X. reflexivity.
      + apply Z.eqb_neq in Ec. replace (0 <? x_count s) with true in Es by zl. rewrite andb_false_r in Es. cbn [andb orb] in Es |- *.
        rewrite app_nil_r.
        assert (Hc1 : (Z.of_nat (S k)) mod packz (Wide lp) = if x_count s =? 2 ^ lp - 1 then 0 else x_count s + 1).
        { destruct (x_count s =? 2 ^ lp - 1) eqn:E.
          - symmetry. apply Z.mod_unique with (q := Z.of_nat k / packz (Wide lp) + 1); zn.
          - symmetry. apply Z.mod_unique with (q := Z.of_nat k / packz (Wide lp)); zn. }
        destruct (Em bs (Z.shiftr (x_wdata s) w mod 2 ^ w)) as [A|(A & B & C)]; [left; reflexivity|exact Hsz|exact Hwb| | | | |
            |left; exact A|right; split; [exact A|split; [exact B|]]].
        * split; [|exact Ewo]. unfold pending. rewrite Er, Es. reflexivity.
        * cbn [ram_word]. rewrite Hnat. rewrite <- (Nat.add_0_l (Z.to_nat (x_count s))), <- (S3 Ec 0%nat).
          rewrite (part_shift w Hw), Z.shiftr_div_pow2 by zl. unfold part.
          change (Z.of_nat 0) with 0. rewrite Z.mul_0_r, Z.pow_0_r, Z.div_1_r. reflexivity.
        * rewrite Es; reflexivity.
        * rewrite Es. cbn [x_fsm]. destruct (x_size s <=? 1); cbn [andb orb]; rewrite ?andb_false_r; reflexivity.
        * unfold shape. rewrite Er; try rewrite Es. cbn [x_count x_wdata]. rewrite Hc1.
          destruct (x_count s =? 2 ^ lp - 1) eqn:E.
          -- cbn [Z.eqb]. split; [zl|]. split; [reflexivity|]. intros X. exfalso. apply X. reflexivity.
          -- rewrite Z.mod_small by zl. replace (x_count s + 1 =? 0) with false by zl. split; [zl|]. split; [reflexivity|].
             intros _ j. rewrite Z.shiftr_div_pow2, <- (part_shift w Hw), (S3 Ec (S j)) by zl.
             replace (S k / pack (Wide lp))%nat with (k / pack (Wide lp))%nat.
             ++ f_equal. zl.
             ++ apply Nat.div_unique with (r := S (k mod pack (Wide lp))); [rewrite Hnat; zl|].
                pose proof (Nat.div_mod k (pack (Wide lp)) ltac:(zl)). zl.
        * unfold own_beats, bus_words. rewrite <- C.
          assert (Hx : Z.of_nat (length bs) * packz (Wide lp) = Z.of_nat k + (packz (Wide lp) - x_count s)) by exact S1.
          apply Nat.div_unique with (r := Z.to_nat (x_count s)); zl.
  Qed.

  Definition wrange (s : rd) : Prop :=
    match r with Narrow _ => 0 <= x_wdata s < 2 ^ (w * packz r) | _ => True end.
  Lemma wrange_step s i : wrange s -> wrange (rd_step r w aw lw s i).
  Proof.
    unfold wrange. pose proof pack_P as HP. destruct r as [|lp|lp]; auto. intros H. unfold rd_step.
    destruct (x_fsm s =? 0); [destruct (xi_req i) as [[[? ?] ?]|]; exact H|]. destruct (x_fsm s =? 1); [exact H|].
    cbn [x_wdata]. destruct (_ || _); [|exact H].
    pose proof (cat_bound [(w, xi_data i); (w * (2 ^ lp - 1), Z.shiftr (x_wdata s) w)]) as Hc.
    destruct HP as [HP1 HP2].
    cbn [total_width fold_right fst] in Hc. rewrite HP1 in *.
    replace (w * 2 ^ lp) with (w + (w * (2 ^ lp - 1) + 0)) by ring. apply Hc.
    repeat constructor; cbn [fst]; nia.
  Qed.

  Variable m0 : Z -> Z.
  Definition rinv (s : rd) (qs : list rrequest) (bs : list Z) : Prop :=
    wrange s /\ exists done bss, Forall2 (own_beats r) done bss /\
      if x_fsm s =? 0 then qs = done /\ bs = concat bss /\ settled s (image r w aw done bss m0)
      else exists q, qs = done ++ [q] /\ legal_req lw q /\
        if x_fsm s =? 1 then bs = concat bss /\ q = (x_addr s, x_stride s, x_size s) /\
          wb_run (x_wb s) = false /\ wb_mem (x_wb s) = image r w aw done bss m0
        else x_fsm s = 2 /\ exists cur, bs = concat bss ++ cur /\ busy s (image r w aw done bss m0) q cur.

  Lemma image_snoc qs bss q bs m : length qs = length bss ->
    image r w aw (qs ++ [q]) (bss ++ [bs]) m =
    store_words aw (fst (fst q)) (snd (fst q)) 0 (ram_words r w bs (nwords q)) (image r w aw qs bss m).
  Proof.
    intros H. unfold image. replace (combine (qs ++ [q]) (bss ++ [bs])) with (combine qs bss ++ [(q, bs)]).
    - rewrite fold_left_app. reflexivity.
    - revert bss H. induction qs as [|x qs IH]; intros [|y bss] H; try discriminate; [reflexivity|].
      cbn. f_equal. apply IH. injection H. auto.
  Qed.
  Lemma rinv_init : rinv (rd_init m0) [] [].
  Proof.
    split.
    - unfold wrange. pose proof pack_P as HP. destruct r; auto. cbn [rd_init x_wdata]. split; [lia|]. apply Z.pow_pos_nonneg; nia.
    - exists [], []. split; [constructor|]. cbn. repeat split; reflexivity.
  Qed.
  Lemma rinv_step s i qs bs : rinv s qs bs -> in_range r w i -> Forall (legal_req lw) (rd_taken s i) ->
    rinv (rd_step r w aw lw s i) (qs ++ rd_taken s i) (bs ++ rd_beat r s i).
  Proof.
    intros (Hwr & done & bss & HF & H) Hin Hl. split; [apply wrange_step, Hwr|]. pose proof (Forall2_len _ _ _ HF) as Hlen. unfold rd_taken in *.
    destruct (x_fsm s =? 0) eqn:E0.
    - destruct H as (-> & -> & Hset). apply Z.eqb_eq in E0.
      assert (Eb : rd_beat r s i = []) by (unfold rd_beat, rd_ready; rewrite E0; reflexivity). rewrite Eb, app_nil_r.
      destruct (Hset i) as [A B]. exists done, bss. split; [exact HF|].
      destruct (xi_req i) as [[[a st] n]|] eqn:Eq.
      + unfold rd_step. rewrite E0, Eq. cbn [Z.eqb Pos.eqb x_fsm]. exists (a, st, n). split; [reflexivity|].
        split; [exact (Forall_inv Hl)|]. cbn [x_wb x_addr x_stride x_size]. auto.
      + rewrite app_nil_r. pose proof (wb_of s i) as Hwb.
        assert (Ef : x_fsm (rd_step r w aw lw s i) = 0) by (unfold rd_step; rewrite E0, Eq; reflexivity).
        rewrite Ef. cbn [Z.eqb]. split; [reflexivity|]. split; [reflexivity|].
        intros j. cbv zeta. rewrite <- Hwb in A, B. rewrite <- B. apply wb_idle_keep; [exact A|].
        unfold rd_ram. cbn. rewrite Ef. reflexivity.
    - rewrite app_nil_r. destruct H as (q & -> & Hq & H). apply Z.eqb_neq in E0.
      destruct (x_fsm s =? 1) eqn:E1.
      + apply Z.eqb_eq in E1. destruct H as (-> & -> & A & B).
        assert (Eb : rd_beat r s i = []) by (unfold rd_beat, rd_ready; rewrite E1; reflexivity). rewrite Eb, app_nil_r.
        exists done, bss. split; [exact HF|]. pose proof (wb_of s i) as Hwb.
        assert (Es : rd_step r w aw lw s i = mkRd 2 (x_addr s) (x_stride s) (x_size s) 0 (x_wdata s) false
                       (wb_step aw lw (x_wb s) (rd_ram r w s i))) by (unfold rd_step; rewrite E1; reflexivity).
        rewrite Es. cbn [x_fsm Z.eqb Pos.eqb]. exists (x_addr s, x_stride s, x_size s). split; [reflexivity|].
        split; [exact Hq|]. split; [reflexivity|]. exists []. rewrite app_nil_r. split; [reflexivity|].
        unfold legal_req in Hq. cbn [snd] in Hq.
        exists 0%nat, []. cbn [x_wb x_size fst snd]. rewrite <- B. split.
        * assert (En : Z.of_nat (nwords (x_addr s, x_stride s, x_size s)) = x_size s) by (unfold nwords; cbn [snd]; lia).
          pose proof (wburst_start aw lw (x_wb s) (x_addr s) (x_stride s) (nwords (x_addr s, x_stride s, x_size s)) Haw
                       ltac:(lia) A) as Hst. rewrite En in Hst.
          replace (wb_step aw lw (x_wb s) (rd_ram r w s i)) with (wb_step aw lw (x_wb s) (wstart_in (x_addr s) (x_stride s) (x_size s))); [exact Hst|].
          unfold wb_step. rewrite A. unfold rd_ram, wstart_in. cbn. rewrite E1. reflexivity.
        * pose proof pack_P as HP. unfold pending, shape, nwords. cbn [x_wvalid x_count x_wdata snd].
          split; [destruct r; reflexivity|]. split; [lia|]. split; [lia|]. destruct r as [|lp|lp] eqn:Er.
          -- reflexivity.
          -- unfold wrange in Hwr. rewrite Er in Hwr. cbn [length skipn]. rewrite Z.sub_0_r. split; [reflexivity|]. split; [lia|]. split; [exact Hwr|].
             rewrite Z.div_small by exact Hwr. rewrite skipn_nil. reflexivity.
          -- cbn [length Z.eqb]. rewrite Z.mod_0_l by lia. split; [lia|]. split; [reflexivity|]. intros X. exfalso. apply X. reflexivity.
      + destruct H as (E2 & cur & -> & Hb).
        destruct (busy_step s i _ q cur Hq E2 Hin Hb) as [[A B]|(A & B & C)].
        * exists done, bss. split; [exact HF|]. rewrite A. cbn [Z.eqb Pos.eqb]. exists q. split; [reflexivity|]. split; [exact Hq|].
          split; [reflexivity|]. exists (cur ++ rd_beat r s i). split; [symmetry; apply app_assoc|exact B].
        * exists (done ++ [q]), (bss ++ [cur ++ rd_beat r s i]). split; [apply Forall2_app; [exact HF|constructor; [exact C|constructor]]|].
          rewrite A. cbn [Z.eqb]. split; [reflexivity|]. rewrite concat_app. cbn [concat]. rewrite app_nil_r, app_assoc.
          split; [reflexivity|]. rewrite image_snoc by exact Hlen. exact B.
  Qed.

  Lemma rinv_run ins : forall s qs bs, rinv s qs bs -> Forall (in_range r w) ins ->
    Forall (legal_req lw) (rd_requests r w aw lw s ins) ->
    rinv (rd_run r w aw lw s ins) (qs ++ rd_requests r w aw lw s ins) (bs ++ rd_beats r w aw lw s ins).
  Proof.
    induction ins as [|i ins IH]; intros s qs bs HI Hin Hl.
    - cbn. rewrite !app_nil_r. exact HI.
    - unfold rd_requests, rd_beats, rd_run, final in *. cbn [outs concat fold_left] in *.
      apply Forall_app in Hl. destruct Hl as [Hl1 Hl2]. rewrite !app_assoc. apply IH; [|exact (Forall_inv_tail Hin)|exact Hl2].
      apply rinv_step; [exact HI|exact (Forall_inv Hin)|exact Hl1].
  Qed.

  (** progress *)
  Definition left_words (s : rd) : Z :=
    match r with Narrow _ => x_size s * packz r - x_count s | _ => x_size s end.
  Definition rmeasure (s : rd) : Z :=
    if x_fsm s =? 0 then b2z (wb_run (x_wb s))
    else if x_fsm s =? 1 then x_size s * (match r with Narrow _ => packz r | _ => 1 end) + 2
    else left_words s + 1.

  Lemma rmeasure_step s i qs bs : rinv s qs bs -> in_range r w i -> rd_no_request i ->
    rmeasure (rd_step r w aw lw s i) <= Z.max 0 (rmeasure s - b2z (xi_valid i)).
  Proof.
    intros HI Hin Hn. pose proof pack_P as HP.
    destruct HI as (_ & done & bss & HF & H).
    destruct (x_fsm s =? 0) eqn:E0.
    - destruct H as (_ & _ & Hset). destruct (Hset i) as [A _]. rewrite <- wb_of in A.
      unfold rmeasure at 1. unfold rd_step at 1. rewrite E0, Hn. cbn [x_fsm Z.eqb]. rewrite A. cbn [b2z]. lia.
    - destruct H as (q & _ & Hq & H). destruct (x_fsm s =? 1) eqn:E1.
      + destruct H as (_ & -> & _ & _). unfold legal_req in Hq. cbn [snd] in Hq.
        unfold rmeasure, left_words. unfold rd_step. rewrite E0, E1. cbn [x_fsm Z.eqb Pos.eqb x_size x_count].
        assert (b2z (xi_valid i) <= 1) by (destruct (xi_valid i); cbn; lia).
        destruct r; cbn [x_size x_count]; lia.
      + destruct H as (E2 & cur & _ & Hb).
        destruct (busy_step s i _ q cur Hq E2 Hin Hb) as [[A B]|(A & B & C)].
        * destruct Hb as (k & ws & _ & _ & Hk & Hsz & Hsh). unfold nwords in Hk. unfold legal_req in Hq.
          assert (Hs1 : 1 <= x_size s < 2 ^ lw) by lia. clear B.
          assert (Hf2 : x_fsm (rd_step r w aw lw s i) =? 0 = false /\ x_fsm (rd_step r w aw lw s i) =? 1 = false)
            by (rewrite A; split; reflexivity). destruct Hf2 as [Hf2 Hf3].
          unfold rmeasure. rewrite E0, E1, Hf2, Hf3. clear Hf2 Hf3.
          unfold left_words, shape in *. revert A. unfold rd_step. rewrite E0, E1.
          destruct r as [|lp|lp]; cbn [x_fsm x_size x_count]; intros A.
          -- destruct (xi_valid i); cbn [b2z]; rewrite ?Z.mod_small by lia; lia.
          -- destruct HP as [HP1 HP2]. destruct Hsh as (_ & Hc & _).
             destruct (xi_valid i); cbn [b2z andb] in *; [|destruct (x_count s =? 2 ^ lp - 1); lia].
             destruct (x_count s =? 2 ^ lp - 1) eqn:Ec; [rewrite Z.mod_small by lia; nia|].
             replace (x_count s <? 2 ^ lp - 1) with true by lia. rewrite Z.mod_small by lia. lia.
          -- destruct HP as [HP1 HP2]. destruct Hsh as (_ & Hc & _).
             pose proof (Z.mod_pos_bound (Z.of_nat k) (packz (Wide lp)) ltac:(lia)) as Hb. rewrite <- Hc in Hb.
             destruct (0 <? x_count s) eqn:En; [rewrite Z.mod_small by lia; destruct (xi_valid i); cbn [b2z]; lia|].
             replace (x_count s =? 0) with true by lia. rewrite andb_true_r.
             destruct (xi_valid i); cbn [b2z]; rewrite ?Z.mod_small by lia; lia.
        * clear B. destruct Hb as (k & ws & _ & _ & Hk & Hsz & Hsh). unfold nwords in Hk. unfold legal_req in Hq.
          unfold rmeasure. rewrite A, E0, E1. cbn [Z.eqb].
          assert (b2z (xi_valid i) <= 1) by (destruct (xi_valid i); cbn; lia).
          assert (b2z (wb_run (x_wb (rd_step r w aw lw s i))) <= 1) by (destruct (wb_run _); cbn; lia).
          assert (1 <= left_words s).
          { unfold left_words, shape in *. destruct r as [|lp|lp]; [lia| |lia]. destruct Hsh as (_ & Hc & _). nia. }
          lia.
  Qed.
  Lemma rd_cost_ge qs : Forall (legal_req lw) qs -> 2 <= rd_cost r qs /\
    forall q, In q qs -> snd q * (match r with Narrow _ => Z.of_nat (pack r) | _ => 1 end) + 2 <= rd_cost r qs.
  Proof.
    unfold rd_cost. set (f := match r with Narrow _ => Z.of_nat (pack r) | _ => 1 end).
    assert (Hf : 0 <= f) by (unfold f; destruct r; lia). clearbody f.
    induction qs as [|x qs IH]; intros H; [split; [cbn; lia|intros q []]|].
    destruct (IH (Forall_inv_tail H)) as [A B]. pose proof (Forall_inv H) as Hx. unfold legal_req in Hx.
    cbn [fold_right]. split; [nia|]. intros q [<-|Hq]; [lia|]. specialize (B q Hq). nia.
  Qed.
  Lemma rmeasure_bound s qs bs : rinv s qs bs -> Forall (legal_req lw) qs -> rmeasure s <= rd_cost r qs.
  Proof.
    intros (_ & done & bss & HF & H) Hl. pose proof pack_P as HP. destruct (rd_cost_ge qs Hl) as [C1 C2].
    unfold rmeasure. destruct (x_fsm s =? 0) eqn:E0.
    - destruct (wb_run (x_wb s)); cbn [b2z]; lia.
    - destruct H as (q & Hqs & Hq & H). specialize (C2 q ltac:(rewrite Hqs; apply in_or_app; right; left; reflexivity)).
      fold (packz r) in C2.
      destruct (x_fsm s =? 1) eqn:E1.
      + destruct H as (_ & -> & _). cbn [snd] in C2. lia.
      + destruct H as (E2 & cur & _ & (k & ws & _ & _ & Hk & Hsz & Hsh)). unfold left_words, shape in *.
        destruct r as [|lp|lp]; [lia| |lia]. destruct Hsh as (_ & Hc & _). nia.
  Qed.
  Lemma rmeasure_zero s qs bs : rinv s qs bs -> rmeasure s <= 0 -> x_fsm s = 0 /\ wb_run (x_wb s) = false.
  Proof.
    intros (_ & done & bss & HF & H) Hm. pose proof pack_P as HP. unfold rmeasure in Hm.
    destruct (x_fsm s =? 0) eqn:E0; [split; [lia|destruct (wb_run (x_wb s)); [cbn in Hm; lia|reflexivity]]|].
    exfalso. destruct H as (q & Hqs & Hq & H). unfold legal_req in Hq. destruct (x_fsm s =? 1) eqn:E1.
    - destruct H as (_ & -> & _). cbn [snd] in Hq. destruct r; nia.
    - destruct H as (E2 & cur & _ & (k & ws & _ & _ & Hk & Hsz & Hsh)). unfold left_words, shape, nwords in *.
      destruct r as [|lp|lp]; [lia| |lia]. destruct Hsh as (_ & Hc & _). nia.
  Qed.
  Lemma requests_none ins : forall s, Forall rd_no_request ins -> rd_requests r w aw lw s ins = [].
  Proof.
    induction ins as [|i ins IH]; intros s H; [reflexivity|]. unfold rd_requests. cbn [outs concat].
    change (rd_taken s i ++ rd_requests r w aw lw (rd_step r w aw lw s i) ins = []).
    rewrite (IH _ (Forall_inv_tail H)). unfold rd_taken. rewrite (Forall_inv H). destruct (x_fsm s =? 0); reflexivity.
  Qed.
  Lemma rmeasure_run ins : forall s qs bs, rinv s qs bs -> Forall (in_range r w) ins -> Forall rd_no_request ins ->
    rmeasure (rd_run r w aw lw s ins) <= Z.max 0 (rmeasure s - count (map xi_valid ins)).
  Proof.
    induction ins as [|i ins IH]; intros s qs bs HI Hin Hn; [cbn; lia|].
    unfold rd_run, final. cbn [fold_left map]. unfold count. cbn [fold_right]. fold (count (map xi_valid ins)).
    pose proof (rmeasure_step s i qs bs HI (Forall_inv Hin) (Forall_inv Hn)) as A.
    assert (Et : rd_taken s i = []) by (unfold rd_taken; rewrite (Forall_inv Hn); destruct (x_fsm s =? 0); reflexivity).
    pose proof (rinv_step s i qs bs HI (Forall_inv Hin) ltac:(rewrite Et; constructor)) as HI'.
    pose proof (IH _ _ _ HI' (Forall_inv_tail Hin) (Forall_inv_tail Hn)) as B. unfold rd_run, final in B.
    assert (0 <= count (map xi_valid ins)) by (clear; induction (map xi_valid ins) as [|[] l IHl]; unfold count in *; cbn [fold_right b2z]; lia). lia.
  Qed.

  Theorem read_correct ins : Forall (in_range r w) ins -> Forall (legal_req lw) (rd_requests r w aw lw (rd_init m0) ins) ->
    let s := rd_run r w aw lw (rd_init m0) ins in
    let qs := rd_requests r w aw lw (rd_init m0) ins in
    x_fsm s = 0 -> wb_run (x_wb s) = false ->
    exists bss, Forall2 (own_beats r) qs bss /\ rd_beats r w aw lw (rd_init m0) ins = concat bss /\
      wb_mem (x_wb s) = image r w aw qs bss m0.
  Proof.
    intros Hin Hl s qs H0 Hw0. pose proof (rinv_run ins (rd_init m0) [] [] rinv_init Hin Hl) as (_ & done & bss & HF & H).
    cbn [app] in H. fold s qs in H. rewrite H0 in H. cbn [Z.eqb] in H. destruct H as (-> & Hb & Hset).
    exists bss. split; [exact HF|]. split; [exact Hb|]. destruct (Hset (mkRdIn None false 0)) as [_ B]. rewrite <- B.
    symmetry. apply wb_idle_keep; [exact Hw0|]. unfold rd_ram. cbn. rewrite H0. reflexivity.
  Qed.
  Theorem read_finish ins more : Forall (in_range r w) (ins ++ more) ->
    Forall (legal_req lw) (rd_requests r w aw lw (rd_init m0) ins) -> Forall rd_no_request more ->
    rd_cost r (rd_requests r w aw lw (rd_init m0) ins) <= count (map xi_valid more) ->
    let s := rd_run r w aw lw (rd_init m0) (ins ++ more) in
    x_fsm s = 0 /\ wb_run (x_wb s) = false /\
    rd_requests r w aw lw (rd_init m0) (ins ++ more) = rd_requests r w aw lw (rd_init m0) ins.
  Proof.
    intros Hin Hl Hn Hc s. apply Forall_app in Hin. destruct Hin as [Hin1 Hin2].
    pose proof (rinv_run ins (rd_init m0) [] [] rinv_init Hin1 Hl) as HI. cbn [app] in HI.
    assert (Es : s = rd_run r w aw lw (rd_run r w aw lw (rd_init m0) ins) more)
      by (unfold s, rd_run, final; apply fold_left_app).
    pose proof (rmeasure_run more _ _ _ HI Hin2 Hn) as A. rewrite <- Es in A.
    pose proof (rmeasure_bound _ _ _ HI Hl) as B.
    pose proof (rinv_run more _ _ _ HI Hin2 ltac:(rewrite requests_none by exact Hn; constructor)) as HI2. rewrite <- Es in HI2.
    destruct (rmeasure_zero _ _ _ HI2 ltac:(lia)) as [C D]. split; [exact C|]. split; [exact D|].
    unfold rd_requests. rewrite outs_app, concat_app.
    change (rd_requests r w aw lw (rd_init m0) ins ++ rd_requests r w aw lw (rd_run r w aw lw (rd_init m0) ins) more =
            rd_requests r w aw lw (rd_init m0) ins).
    rewrite (requests_none more) by exact Hn. apply app_nil_r.
  Qed.
End Read.

(** ** RAM to bus *)
Section Write.
  Variable r : ratio.
  Variables w aw lw : Z.
  Hypothesis Haw : 0 <= aw.
  Hypothesis Hw : 0 <= w.
  Hypothesis Hr : match r with Same => True | Narrow lp | Wide lp => 0 < lp end.
  Variable mem : Z -> Z.
  Hypothesis Hmem : match r with Wide _ => forall a, 0 <= mem a < 2 ^ w | _ => True end.

  Definition jword (j : wjob) (k : nat) : Z := mem (burst_addr aw (j_addr j) (j_stride j) k).
  Definition total (j : wjob) : nat := bus_words r (Z.to_nat (j_n j)).
  (** RAM words read for a job *)
  Definition ram_total (j : wjob) : nat := match r with Wide _ => total j * pack r | _ => Z.to_nat (j_n j) end.
  Definition unit : Z := match r with Wide _ => packz r | _ => 1 end.
  Definition wjob_ok := job_ok r lw.

  Lemma global_is n : 0 <= n -> global_size r n = Z.of_nat (bus_words r (Z.to_nat n)).
  Proof.
    intros Hn. pose proof (pack_P r Hr) as HP. unfold packz in HP. destruct (global_size_spec r n Hn) as [G1 G2].
    destruct r as [|lp|lp].
    - cbn. lia.
    - destruct HP as [HP1 HP2]. rewrite (G1 lp eq_refl) by lia. unfold bus_words. rewrite Nat2Z.inj_mul, HP1. lia.
    - destruct HP as [HP1 HP2]. specialize (G2 lp eq_refl ltac:(lia)). unfold bus_words.
      set (g := global_size (Wide lp) n) in *. clearbody g. set (p := pack (Wide lp)) in *. clearbody p.
      rewrite <- HP1 in G2.
      assert (0 <= g) by nia.
      assert (E : (Z.to_nat g = (Z.to_nat n + p - 1) / p)%nat); [|lia].
      apply Nat.div_unique with (r := (Z.to_nat n + p - 1 - p * Z.to_nat g)%nat); nia.
  Qed.
  Lemma local_is j : wjob_ok j -> wr_local r (j_n j) mod 2 ^ lw = Z.of_nat (ram_total j) /\ (0 < Z.of_nat (ram_total j) < 2 ^ lw) /\
    (0 < total j)%nat.
  Proof.
    intros (H1 & H2 & _). pose proof (pack_P r Hr) as HP. unfold wr_local, ram_total, total.
    pose proof (global_is (j_n j) ltac:(lia)) as Hg. unfold bus_words in *. unfold packz in *.
    destruct r as [|lp|lp].
    - rewrite Z.mod_small by lia. lia.
    - rewrite Z.mod_small by lia. split; [lia|]. split; [lia|]. destruct HP. nia.
    - destruct HP as [HP1 HP2]. rewrite Hg, Z.shiftl_mul_pow2, <- HP1 by lia.
      assert (E : (0 < (Z.to_nat (j_n j) + pack (Wide lp) - 1) / pack (Wide lp))%nat).
      { apply Nat.div_str_pos. lia. }
      rewrite Nat2Z.inj_mul. rewrite Z.mod_small by nia. split; [reflexivity|]. split; [nia|exact E].
  Qed.

  (** rest of the current burst, then the other bursts *)
  Definition cur_flags (b : Z) : list bool := if b =? 0 then [] else burst_flags b.
  Lemma cur_flags_step b : 1 <= b -> cur_flags b = (b =? 1) :: cur_flags (b - 1).
  Proof.
    intros H. unfold cur_flags. replace (b =? 0) with false by lia. unfold burst_flags.
    destruct (Z.eqb_spec b 1) as [->|N]; [reflexivity|]. replace (b - 1 =? 0) with false by lia.
    replace (Z.to_nat b - 1)%nat with (S (Z.to_nat (b - 1) - 1)) by lia. reflexivity.
  Qed.
  Definition wrest (j : wjob) (e : nat) (b : Z) (ls : list Z) : list (Z * bool) :=
    combine (map (bus_word r w aw mem (j_addr j) (j_stride j)) (seq e (total j - e))) (cur_flags b ++ flat_map burst_flags ls).
  Lemma wrest_step j e b ls : (e < total j)%nat -> 1 <= b ->
    wrest j e b ls = (bus_word r w aw mem (j_addr j) (j_stride j) e, b =? 1) :: wrest j (S e) (b - 1) ls.
  Proof.
    intros H Hb. unfold wrest. replace (total j - e)%nat with (S (total j - S e)) by lia.
    cbn [seq map]. rewrite (cur_flags_step b Hb). reflexivity.
  Qed.
  Lemma wrest_next j e l ls : 1 <= l -> wrest j e l ls = wrest j e 0 (l :: ls).
  Proof. intros H. unfold wrest, cur_flags. replace (l =? 0) with false by lia. reflexivity. Qed.

  Definition wshape (s : wr) (j : wjob) (k e : nat) (b : Z) : Prop :=
    match r with
    | Same => k = e /\ y_size s = b
    | Narrow _ =>
        y_size s = b /\ 0 <= y_count s < packz r /\ 
        Z.of_nat k * packz r = Z.of_nat e + (if y_count s =? 0 then 0 else packz r - y_count s) /\
        (y_count s <> 0 -> y_wlast s = Nat.eqb k (ram_total j) /\ (0 < k)%nat /\
           forall t, part w (y_wdata s) t = part w (jword j (k - 1)) (Z.to_nat (y_count s) + t))
    | Wide _ =>
        y_size s = b * packz r - y_count s /\ 0 <= y_count s < packz r /\ (y_count s <> 0 -> 1 <= b /\ y_wvalid s = false) /\
        Z.of_nat k = Z.of_nat e * packz r + y_count s /\ 0 <= y_wdata s < 2 ^ (w * packz r) /\
        y_wdata s / 2 ^ (w * (packz r - y_count s)) = le w (map (jword j) (seq (e * pack r) (Z.to_nat (y_count s))))
    end.
  Definition idle_rb (rb : rburst) : Prop := rb_run rb = false /\ rb_rvalid rb = false.
  Definition wrange' (s : wr) : Prop :=
    match r with Wide _ => 0 <= y_wdata s < 2 ^ (w * packz r) | _ => True end.
  Definition jobs_entries := flat_map job_entries.
  Definition jobs_beats := flat_map (job_beats r w aw mem).
  Definition winv (s : wr) (rest : list (Z * bool)) : Prop :=
    wrange' s /\ exists jobs, Forall wjob_ok jobs /\
    if y_fsm s =? 0 then idle_rb (y_rb s) /\ y_size s = 0 /\ y_queue s = jobs_entries jobs /\ rest = jobs_beats jobs
    else exists j, wjob_ok j /\
      if y_fsm s =? 1 then idle_rb (y_rb s) /\ y_addr s = j_addr j /\ y_stride s = j_stride j /\
        y_size s = Z.of_nat (ram_total j) /\
        y_queue s = map WBurst (j_bursts j) ++ jobs_entries jobs /\ rest = job_beats r w aw mem j ++ jobs_beats jobs
      else y_fsm s = 2 /\ exists k e b ls,
        RInv aw mem (j_addr j) (j_stride j) (ram_total j) (y_rb s) k /\
        (e < total j)%nat /\ 0 <= b /\ Forall (fun l => 1 <= l) ls /\
        b + fold_right Z.add 0 ls = Z.of_nat (total j) - Z.of_nat e /\
        y_queue s = map WBurst ls ++ jobs_entries jobs /\ rest = wrest j e b ls ++ jobs_beats jobs /\ wshape s j k e b.

  Lemma rb_idle_step s i : idle_rb s -> rbi_cond i = false -> idle_rb (rb_step aw lw mem s i).
  Proof. intros [H1 H2] Hc. unfold rb_step, idle_rb. rewrite H1, Hc. cbn. auto. Qed.
  Lemma rb_of s i : y_rb (wr_step r w aw lw mem s i) = rb_step aw lw mem (y_rb s) (wr_ram r s i).
  Proof.
    unfold wr_step. destruct (y_fsm s =? 0); [destruct (wr_head s i); reflexivity|].
    destruct (y_fsm s =? 1); [reflexivity|].
    destruct (if y_size s =? 0 then wr_head s i else None); destruct r; reflexivity.
  Qed.
  Lemma wcond_idle s i : idle_rb (y_rb s) -> y_fsm s <> 2 -> wr_beat r w s i = [].
  Proof.
    intros [_ H] Hf. unfold wr_beat, wr_wcond. rewrite H. replace (y_fsm s =? 2) with false by lia. destruct r; reflexivity.
  Qed.
  Lemma wrange_step' s i : wrange' s -> wrange' (wr_step r w aw lw mem s i).
  Proof.
    unfold wrange'. pose proof (pack_P r Hr) as HP. destruct r as [|lp|lp]; auto. intros H. unfold wr_step.
    destruct (y_fsm s =? 0); [destruct (wr_head s i); exact H|]. destruct (y_fsm s =? 1); [exact H|].
    destruct (if y_size s =? 0 then wr_head s i else None); cbn [y_wdata];
      (destruct (_ && _); [|exact H]; unfold wr_wide_data;
       pose proof (cat_bound [(w, rb_rdata (y_rb s)); (w * (2 ^ lp - 1), Z.shiftr (y_wdata s) w)]) as Hc;
       destruct HP as [HP1 HP2]; cbn [total_width fold_right fst] in Hc; rewrite HP1 in *;
       replace (w * 2 ^ lp) with (w + (w * (2 ^ lp - 1) + 0)) by ring; apply Hc;
       repeat constructor; cbn [fst]; nia).
  Qed.

  Lemma winv_init jobs : Forall wjob_ok jobs -> winv (wr_init (jobs_entries jobs)) (jobs_beats jobs).
  Proof.
    intros H. split.
    - unfold wrange'. pose proof (pack_P r Hr) as HP. destruct r; auto. cbn [wr_init y_wdata]. split; [lia|]. apply Z.pow_pos_nonneg; nia.
    - exists jobs. split; [exact H|]. cbn. repeat split; reflexivity.
  Qed.

  Lemma winv_step0 s i rest : y_fsm s = 0 -> winv s rest ->
    exists rest', rest = wr_beat r w s i ++ rest' /\ winv (wr_step r w aw lw mem s i) rest'.
  Proof.
    intros Hf (Hwr & jobs & HF & H). pose proof (wrange_step' s i Hwr) as Hwr'. rewrite Hf in H. cbn [Z.eqb] in H.
    destruct H as (Hid & Hsz & Hq & ->). exists (jobs_beats jobs).
    rewrite wcond_idle by (assumption || lia). split; [reflexivity|]. split; [exact Hwr'|].
    assert (Hid' : idle_rb (rb_step aw lw mem (y_rb s) (wr_ram r s i)))
      by (apply rb_idle_step; [exact Hid|unfold wr_ram; cbn; rewrite Hf; reflexivity]).
    unfold wr_step. rewrite Hf. cbn [Z.eqb]. unfold wr_head. rewrite Hq.
    destruct (yi_avail i); [destruct jobs as [|j jobs]|].
    - cbn. exists []. split; [exact HF|]. cbn [y_fsm Z.eqb]. auto.
    - cbn [jobs_entries flat_map job_entries app went_addr went_stride went_size tl].
      exists jobs. split; [exact (Forall_inv_tail HF)|]. cbn [y_fsm Z.eqb Pos.eqb]. exists j. pose proof (Forall_inv HF) as Hj. split; [exact Hj|].
      cbn [y_rb y_addr y_stride y_size y_queue]. destruct (local_is j Hj) as (L1 & _). auto 8.
    - exists jobs. split; [exact HF|]. cbn [y_fsm Z.eqb y_rb y_size y_queue]. auto.
  Qed.

  Lemma job_beats_rest j : job_beats r w aw mem j = wrest j 0 0 (j_bursts j).
  Proof. unfold job_beats, wrest, cur_flags. rewrite Nat.sub_0_r. reflexivity. Qed.

  Lemma winv_step1 s i rest : y_fsm s = 1 -> winv s rest ->
    exists rest', rest = wr_beat r w s i ++ rest' /\ winv (wr_step r w aw lw mem s i) rest'.
  Proof.
    intros Hf (Hwr & jobs & HF & H). pose proof (wrange_step' s i Hwr) as Hwr'. rewrite Hf in H. cbn [Z.eqb Pos.eqb] in H.
    destruct H as (j & Hj & Hid & Ha & Hst & Hsz & Hq & ->). exists (job_beats r w aw mem j ++ jobs_beats jobs).
    rewrite wcond_idle by (assumption || lia). split; [reflexivity|]. split; [exact Hwr'|].
    exists jobs. split; [exact HF|]. destruct (local_is j Hj) as (_ & L2 & L3).
    pose proof (rb_of s i) as Hrb.
    assert (Es : wr_step r w aw lw mem s i = mkWr 2 (y_addr s) (y_stride s) 0 (match r with Same => y_count s | _ => 0 end)
      (y_wdata s) (y_wlast s) (wr_wcond r s i && wr_ack s i || y_wvalid s && negb (yi_ready i)) (rb_step aw lw mem (y_rb s) (wr_ram r s i)) (y_queue s)) by (unfold wr_step; rewrite Hf; reflexivity).
    rewrite Es. cbn [y_fsm Z.eqb Pos.eqb]. exists j. split; [exact Hj|]. split; [reflexivity|].
    exists 0%nat, 0%nat, 0, (j_bursts j). cbn [y_rb y_queue]. destruct Hj as (J1 & J2 & J3 & J4). split.
    - pose proof (rburst_start aw lw mem (y_rb s) (j_addr j) (j_stride j) (ram_total j) (wr_rready r s i) Haw L2 (proj1 Hid)) as Hst'.
      replace (wr_ram r s i) with (start_in (j_addr j) (j_stride j) (Z.of_nat (ram_total j)) (wr_rready r s i)); [exact Hst'|].
      unfold wr_ram, start_in. rewrite Hf, Ha, Hst, Hsz. reflexivity.
    - split; [exact L3|]. split; [lia|]. split; [exact J3|]. split; [unfold total; rewrite J4; lia|].
      split; [exact Hq|]. split; [rewrite job_beats_rest; reflexivity|].
      unfold wrange' in Hwr. pose proof (pack_P r Hr) as HP. unfold wshape. cbn [y_size y_count y_wdata y_wlast y_wvalid]. clear Es Hrb L2 L3 Hwr'.
      destruct r as [|lp|lp].
      + auto.
      + destruct HP. split; [reflexivity|]. split; [lia|]. split; [cbn [Z.eqb]; lia|]. intros X; exfalso; apply X; reflexivity.
      + destruct HP. split; [lia|]. split; [lia|]. split; [intros X; exfalso; apply X; reflexivity|]. split; [lia|]. split; [exact Hwr|].
        rewrite Z.sub_0_r. apply Z.div_small, Hwr.
  Qed.

  (** state 2, no room for a word: maybe a new burst size *)
  Lemma fold_pos ls : Forall (fun l => 1 <= l) ls -> 0 <= fold_right Z.add 0 ls.
  Proof. induction 1; cbn [fold_right]; lia. Qed.
  Lemma sum_bound j : wjob_ok j -> Z.of_nat (total j) * unit < 2 ^ lw.
  Proof.
    intros (H1 & H2 & _). unfold total, unit, packz. destruct r; lia.
  Qed.
  Lemma unit_pos : 1 <= unit.
  Proof. pose proof (pack_P r Hr) as HP. unfold unit. destruct r; lia. Qed.

  Lemma winv_step2_deq s i rest : y_fsm s = 2 -> y_size s = 0 -> winv s rest ->
    wr_beat r w s i = [] /\ winv (wr_step r w aw lw mem s i) rest.
  Proof.
    intros Hf Hsz (Hwr & jobs & HF & H). pose proof (wrange_step' s i Hwr) as Hwr'. rewrite Hf in H. cbn [Z.eqb Pos.eqb] in H.
    destruct H as (j & Hj & _ & k & e & b & ls & HR & He & Hb & Hls & Hsum & Hq & -> & Hsh).
    assert (Hrr : wr_rready r s i = false) by (unfold wr_rready; rewrite Hsz; apply andb_false_r).
    assert (Hwc : wr_wcond r s i = false).
    { unfold wr_wcond. rewrite Hrr, Hsz. destruct r; rewrite ?andb_false_r; reflexivity. }
    split; [unfold wr_beat; rewrite Hwc; reflexivity|]. split; [exact Hwr'|].
    exists jobs. split; [exact HF|]. pose proof (pack_P r Hr) as HP. pose proof (sum_bound j Hj) as Hsb. pose proof unit_pos as Hu.
    assert (Eb : b = 0 /\ (match r with Wide _ => y_count s = 0 | _ => True end)).
    { unfold wshape in Hsh. destruct r as [|lp|lp]; [lia|lia|]. destruct HP, Hsh as (A & B & C & _).
      destruct (Z.eq_dec (y_count s) 0); nia. }
    destruct Eb as [-> Ec].
    assert (Hpl : plain (wr_ram r s i)) by (unfold plain, wr_ram; cbn; rewrite Hf; auto).
    destruct (local_is j Hj) as (_ & L2 & _).
    destruct (Ram_Proofs.rinv_step aw lw mem _ _ _ Haw L2 _ _ _ HR Hpl) as [HR' _].
    change (rbi_rready (wr_ram r s i)) with (wr_rready r s i) in HR'. rewrite Hrr, andb_false_r, Nat.add_0_r in HR'.
    assert (Es : exists size q, wr_step r w aw lw mem s i = mkWr 2 (y_addr s) (y_stride s) size (y_count s) (y_wdata s) (y_wlast s)
       (y_wvalid s && negb (yi_ready i))
       (rb_step aw lw mem (y_rb s) (wr_ram r s i)) q /\
       ((size = 0 /\ q = y_queue s) \/ exists l ls', ls = l :: ls' /\ size = unit * l /\ q = map WBurst ls' ++ jobs_entries jobs)).
    { unfold wr_step. rewrite Hf, Hsz. cbn [Z.eqb Pos.eqb]. rewrite Hwc, Hrr. unfold wr_head. rewrite Hq.
      rewrite !andb_false_r. cbn [andb].
      destruct ls as [|l ls]; [cbn in Hsum; lia|]. cbn [map app].
      destruct (yi_avail i).
      - exists (unit * l), (map WBurst ls ++ jobs_entries jobs). split; [|right; exists l, ls; auto].
        assert (Hl : 1 <= l) by exact (Forall_inv Hls). pose proof (fold_pos ls (Forall_inv_tail Hls)) as Hfp. cbn [fold_right] in Hsum.
        assert (Em : wr_burst r (went_size (WBurst l)) mod 2 ^ lw = unit * l).
        { cbn [went_size]. unfold wr_burst, unit in *. destruct r as [|lp|lp]; [rewrite Z.mod_small; lia|rewrite Z.mod_small; lia|].
          destruct HP as [HP1 HP2]. rewrite Z.shiftl_mul_pow2, <- HP1 by lia. rewrite Z.mod_small; nia. }
        rewrite Em. destruct r; rewrite ?andb_false_r; reflexivity.
      - exists 0, (y_queue s). split; [|left; auto]. rewrite Hq. destruct r; rewrite ?andb_false_r; reflexivity. }
    destruct Es as (size & q & Es & Hcase). rewrite Es. cbn [y_fsm Z.eqb Pos.eqb]. exists j. split; [exact Hj|]. split; [reflexivity|].
    destruct Hcase as [[-> ->]|(l & ls' & -> & -> & ->)].
    - exists k, e, 0, ls. cbn [y_rb y_queue]. repeat (split; [assumption|]). split; [reflexivity|].
      unfold wshape in *. cbn [y_size y_count y_wdata y_wlast y_wvalid]. rewrite Hsz in Hsh.
      destruct r; try exact Hsh. destruct Hsh as (A & B & C & D). split; [exact A|]. split; [exact B|].
      split; [intros X; exfalso; exact (X Ec)|exact D].
    - exists k, e, l, ls'. cbn [y_rb y_queue]. split; [exact HR'|]. split; [exact He|].
      pose proof (Forall_inv Hls) as Hl. cbn beta in Hl. split; [lia|]. split; [exact (Forall_inv_tail Hls)|].
      cbn [fold_right] in Hsum. split; [lia|]. split; [reflexivity|]. split; [rewrite (wrest_next j e l ls' Hl); reflexivity|].
      unfold wshape, unit in *. cbn [y_size y_count y_wdata y_wlast y_wvalid]. clear Es.
      destruct r as [|lp|lp].
      + split; [apply Hsh|lia].
      + split; [lia|]. apply Hsh.
      + destruct Hsh as (A & B & C & D). split; [rewrite Ec; lia|]. split; [exact B|]. split; [intros X; exfalso; exact (X Ec)|exact D].
  Qed.
  (** ** A burst is running *)
  Lemma emit_close s' jobs j k' e b ls :
    Forall wjob_ok jobs -> wjob_ok j -> wrange' s' ->
    RInv aw mem (j_addr j) (j_stride j) (ram_total j) (y_rb s') k' -> (e < total j)%nat -> 1 <= b ->
    Forall (fun l => 1 <= l) ls -> b + fold_right Z.add 0 ls = Z.of_nat (total j) - Z.of_nat e ->
    y_queue s' = map WBurst ls ++ jobs_entries jobs ->
    y_fsm s' = (if Nat.eqb (S e) (total j) then 0 else 2) ->
    (S e = total j -> k' = ram_total j) -> (b = 1 -> y_size s' = 0) ->
    wshape s' j k' (S e) (b - 1) ->
    winv s' (wrest j (S e) (b - 1) ls ++ jobs_beats jobs).
  Proof.
    intros HF Hj Hwr HR He Hb Hls Hsum Hq Hf Hk Hsz Hsh. split; [exact Hwr|]. exists jobs. split; [exact HF|].
    rewrite Hf. destruct (Nat.eqb_spec (S e) (total j)) as [E|E]; cbn [Z.eqb Pos.eqb].
    - pose proof (fold_pos ls Hls) as Hfp. assert (b = 1) by lia. subst b.
      destruct ls as [|l ls]; [|pose proof (Forall_inv Hls) as X; pose proof (fold_pos ls (Forall_inv_tail Hls)); cbn [fold_right] in Hsum; cbn beta in X; lia].
      split; [|split; [apply Hsz; reflexivity|split; [exact Hq|]]].
      + rewrite (Hk E) in HR. destruct (local_is j Hj) as (_ & L & _).
        inversion HR as [k0 s0 A1 A2 A3 A4 A5 A6 A7|k0 s0 A1 A2|k0 s0 A1 A2 A3 A4]; [lia|lia|split; assumption].
      + unfold wrest. replace (total j - S e)%nat with 0%nat by lia. reflexivity.
    - exists j. split; [exact Hj|]. split; [reflexivity|]. exists k', (S e), (b - 1), ls.
      split; [exact HR|]. split; [lia|]. split; [lia|]. split; [exact Hls|]. split; [lia|]. split; [exact Hq|]. split; [reflexivity|exact Hsh].
  Qed.
  Lemma keep_close s' jobs j k' e b ls :
    Forall wjob_ok jobs -> wjob_ok j -> wrange' s' ->
    RInv aw mem (j_addr j) (j_stride j) (ram_total j) (y_rb s') k' -> (e < total j)%nat -> 0 <= b ->
    Forall (fun l => 1 <= l) ls -> b + fold_right Z.add 0 ls = Z.of_nat (total j) - Z.of_nat e ->
    y_queue s' = map WBurst ls ++ jobs_entries jobs -> y_fsm s' = 2 -> wshape s' j k' e b ->
    winv s' (wrest j e b ls ++ jobs_beats jobs).
  Proof.
    intros HF Hj Hwr HR He Hb Hls Hsum Hq Hf Hsh. split; [exact Hwr|]. exists jobs. split; [exact HF|].
    rewrite Hf. cbn [Z.eqb Pos.eqb]. exists j. split; [exact Hj|]. split; [reflexivity|]. exists k', e, b, ls. auto 10.
  Qed.

  Lemma step2_size s : y_fsm s = 2 -> 0 < y_size s -> y_size s < 2 ^ lw -> (y_size s - 1) mod 2 ^ lw = y_size s - 1 /\ (y_size s =? 0) = false.
  Proof. intros. split; [apply Z.mod_small; lia|lia]. Qed.

  Lemma last_flag j e b ls : Forall (fun l => 1 <= l) ls -> b + fold_right Z.add 0 ls = Z.of_nat (total j) - Z.of_nat e -> 1 <= b ->
    (e < total j)%nat -> Nat.eqb (S e) (total j) = true -> b = 1.
  Proof. intros Hls Hs Hb He H. apply Nat.eqb_eq in H. pose proof (fold_pos ls Hls). lia. Qed.
  Lemma winv_same s i rest : r = Same -> y_fsm s = 2 -> 0 < y_size s -> winv s rest ->
    exists rest', rest = wr_beat r w s i ++ rest' /\ winv (wr_step r w aw lw mem s i) rest'.
  Proof.
    intros Er Hf Hsz (Hwr & jobs & HF & H). pose proof (wrange_step' s i Hwr) as Hwr'. rewrite Hf in H. cbn [Z.eqb Pos.eqb] in H.
    destruct H as (j & Hj & _ & k & e & b & ls & HR & He & Hb & Hls & Hsum & Hq & -> & Hsh).
    pose proof (sum_bound j Hj) as Hsb. pose proof (fold_pos ls Hls) as Hfp.
    assert (Hpl : plain (wr_ram r s i)) by (unfold plain, wr_ram; cbn; rewrite Hf; auto).
    destruct (local_is j Hj) as (_ & L2 & _).
    destruct (Ram_Proofs.rinv_step aw lw mem _ _ _ Haw L2 _ _ _ HR Hpl) as [HR' Hword]. rewrite <- rb_of in HR'.
    change (rbi_rready (wr_ram r s i)) with (wr_rready r s i) in HR'.
    unfold wshape in Hsh. unfold unit in Hsb. rewrite Er in Hsh, Hsb. destruct Hsh as [Hk Hbs]. subst k.
    assert (Etot : ram_total j = total j) by (unfold ram_total, total, bus_words; rewrite Er; reflexivity).
    destruct (step2_size s Hf Hsz ltac:(lia)) as [Hdec Hne].
    set (s' := wr_step r w aw lw mem s i) in *. set (rv := rb_rvalid (y_rb s) && wr_rready r s i) in *.
    assert (Es : s' = mkWr (if rv && rb_rlast (y_rb s) then 0 else 2) (y_addr s) (y_stride s)
             (if rv then y_size s - 1 else y_size s) (y_count s) (y_wdata s) (y_wlast s) (y_wvalid s') (y_rb s') (y_queue s)).
    { unfold s', rv, wr_step. rewrite Hf, Hne. cbn [Z.eqb Pos.eqb]. rewrite Er. rewrite Hdec. reflexivity. }
    assert (Ewb : wr_beat r w s i = if rv then [(rb_rdata (y_rb s), rb_rlast (y_rb s) || (y_size s =? 1))] else []).
    { unfold wr_beat, rv, wr_wcond, wr_rready. rewrite Er. cbn [wr_data wr_last].
      destruct (wr_ack s i); cbn [andb]; rewrite ?andb_false_r, ?andb_true_r; reflexivity. }
    clearbody s'. rewrite Ewb. destruct rv eqn:Erv.
    - assert (Hv : rb_rvalid (y_rb s) = true) by (unfold rv in Erv; apply andb_prop in Erv; apply Erv).
      destruct (Hword Hv) as (W1 & W2 & W3). clear Hword. rewrite Etot in W2. rewrite W2 in *.
      exists (wrest j (S e) (b - 1) ls ++ jobs_beats jobs). split.
      + rewrite wrest_step by (assumption || lia). cbn [app]. f_equal. f_equal.
        * rewrite W1, Er. reflexivity.
        * rewrite Hbs. destruct (Nat.eqb (S e) (total j)) eqn:El; [|reflexivity].
          rewrite (last_flag j e b ls Hls Hsum ltac:(lia) He El). reflexivity.
      + apply (emit_close s' jobs j (e + 1)); try assumption; try (rewrite Es; cbn [y_queue y_fsm y_size]); try lia.
        * exact Hq.
        * cbn [andb]. reflexivity.
        * unfold wshape. rewrite Er. cbn [y_size]. lia.
    - exists (wrest j e b ls ++ jobs_beats jobs). split; [reflexivity|]. rewrite Nat.add_0_r in HR'.
      apply (keep_close s' jobs j e); try assumption; try (rewrite Es; cbn [y_queue y_fsm y_size]); try assumption.
      + reflexivity.
      + unfold wshape. rewrite Er. cbn [y_size]. auto.
  Qed.
  Lemma winv_narrow lp s i rest : r = Narrow lp -> y_fsm s = 2 -> 0 < y_size s -> winv s rest ->
    exists rest', rest = wr_beat r w s i ++ rest' /\ winv (wr_step r w aw lw mem s i) rest'.
  Proof.
    intros Er Hf Hsz (Hwr & jobs & HF & H). pose proof (wrange_step' s i Hwr) as Hwr'. rewrite Hf in H. cbn [Z.eqb Pos.eqb] in H.
    destruct H as (j & Hj & _ & k & e & b & ls & HR & He & Hb & Hls & Hsum & Hq & -> & Hsh).
    pose proof (sum_bound j Hj) as Hsb. pose proof (fold_pos ls Hls) as Hfp.
    assert (Hpl : plain (wr_ram r s i)) by (unfold plain, wr_ram; cbn; rewrite Hf; auto).
    destruct (local_is j Hj) as (_ & L2 & _).
    destruct (Ram_Proofs.rinv_step aw lw mem _ _ _ Haw L2 _ _ _ HR Hpl) as [HR' Hword]. rewrite <- rb_of in HR'.
    change (rbi_rready (wr_ram r s i)) with (wr_rready r s i) in HR'.
    pose proof (pack_P r Hr) as HP.
    unfold wshape in Hsh. unfold unit in Hsb. rewrite Er in Hsh, Hsb, HP. rewrite <- Er in Hsh, HP.
    destruct HP as [HP1 HP2]. destruct Hsh as (Hbs & Hc & Hke & Hpart).
    assert (Hpz : packz r = Z.of_nat (pack r)) by reflexivity.
    assert (Etot : (total j = ram_total j * pack r)%nat) by (unfold ram_total, total, bus_words; rewrite Er; reflexivity).
    destruct (step2_size s Hf Hsz ltac:(lia)) as [Hdec Hne].
    assert (Hinc : y_count s <> 2 ^ lp - 1 -> (y_count s + 1) mod 2 ^ lp = y_count s + 1) by (intros; apply Z.mod_small; lia).
    set (s' := wr_step r w aw lw mem s i) in *.
    set (wc := wr_ack s i && ((0 <? y_count s) || rb_rvalid (y_rb s))).
    assert (Ewc : wr_wcond r s i = wc).
    { unfold wr_wcond, wc. rewrite Er, Hf. cbn [Z.eqb Pos.eqb andb]. replace (0 <? y_size s) with true by lia. rewrite andb_true_r. reflexivity. }
    assert (Es : s' = mkWr (if wc && (y_count s =? 2 ^ lp - 1) && y_wlast s then 0 else 2) (y_addr s) (y_stride s)
             (if wc then y_size s - 1 else y_size s)
             (if wc && (y_count s =? 2 ^ lp - 1) then 0 else if wc then (y_count s + 1) mod 2 ^ lp else y_count s)
             (if wc && (0 <? y_count s) then Z.shiftr (y_wdata s) w
              else if wc && (y_count s =? 0) then Z.shiftr (rb_rdata (y_rb s)) w else y_wdata s)
             (if wc && (y_count s =? 0) then rb_rlast (y_rb s) else y_wlast s) (y_wvalid s') (y_rb s') (y_queue s)).
    { unfold s', wr_step. rewrite Hf, Hne. cbn [Z.eqb Pos.eqb]. rewrite Ewc, Hdec, Er. reflexivity. }
    assert (Ewb : wr_beat r w s i = if wc then [(wr_data r w s, y_size s =? 1)] else []).
    { unfold wr_beat. rewrite Ewc. unfold wr_last. rewrite Er at 2. unfold wc. destruct (wr_ack s i); cbn [andb]; rewrite ?andb_false_r, ?andb_true_r; reflexivity. }
    assert (Hrr : rb_rvalid (y_rb s) && wr_rready r s i = wc && (y_count s =? 0)).
    { unfold wr_rready, wc. rewrite Er. replace (0 <? y_size s) with true by lia.
      destruct (Z.eqb_spec (y_count s) 0) as [E|E].
      - rewrite E. cbn [Z.ltb Z.compare orb]. rewrite !andb_true_r. apply andb_comm.
      - rewrite !andb_false_r. reflexivity. }
    rewrite Hrr in HR'. clearbody s'. clear Hpl. rewrite Ewb. destruct wc eqn:Ew; cbn [andb] in HR', Es.
    - exists (wrest j (S e) (b - 1) ls ++ jobs_beats jobs).
      (* index and part of the RAM word being sent *)
      assert (Hdat : wr_data r w s = bus_word r w aw mem (j_addr j) (j_stride j) e).
      { unfold wr_data, bus_word. rewrite Er. rewrite <- Er. fold (jword j (e / pack r)).
        destruct (Z.eqb_spec (y_count s) 0) as [E|E].
        - unfold wc in Ew. rewrite E in Ew. cbn [Z.ltb Z.compare orb] in Ew. apply andb_prop in Ew. destruct Ew as [_ Ew].
          destruct (Hword Ew) as (W1 & _ & _). rewrite W1. fold (jword j k).
          assert (X : (e = k * pack r)%nat) by (clear - Hke E Hpz; lia).
          rewrite X, Nat.div_mul, Nat.mod_mul by lia. unfold part. change (Z.of_nat 0) with 0. rewrite Z.mul_0_r, Z.pow_0_r, Z.div_1_r. reflexivity.
        - destruct (Hpart E) as (_ & Hk0 & Hp). specialize (Hp 0%nat).
          assert (X : (e = pack r * (k - 1) + Z.to_nat (y_count s))%nat) by (clear - Hke E Hpz Hk0 Hc; nia).
          assert (X1 : (e / pack r = k - 1)%nat) by (symmetry; apply Nat.div_unique with (r := Z.to_nat (y_count s)); [clear - Hc Hpz; lia|exact X]).
          assert (X2 : (e mod pack r = Z.to_nat (y_count s))%nat) by (symmetry; apply Nat.mod_unique with (q := (k - 1)%nat); [clear - Hc Hpz; lia|exact X]).
          rewrite X1, X2. rewrite Nat.add_0_r in Hp. rewrite <- Hp. unfold part. change (Z.of_nat 0) with 0. rewrite Z.mul_0_r, Z.pow_0_r, Z.div_1_r. reflexivity. }
      split.
      + rewrite wrest_step by (assumption || lia). cbn [app]. rewrite Hdat, Hbs. reflexivity.
      + destruct (Z.eqb_spec (y_count s) 0) as [E|E].
        * (* first part: the RAM word is taken *)
          assert (Ev : rb_rvalid (y_rb s) = true).
          { unfold wc in Ew. rewrite E in Ew. cbn [Z.ltb Z.compare orb] in Ew. apply andb_prop in Ew. apply Ew. }
          destruct (Hword Ev) as (W1 & W2 & W3). clear Hword.
          assert (X : (e = k * pack r)%nat) by (clear - Hke E Hpz; lia).
          assert (Hnf : (y_count s =? 2 ^ lp - 1) = false) by (clear - E HP1 HP2; lia).
          rewrite Hnf in Es. rewrite E in Es, Hinc. cbn [andb Z.ltb Z.compare] in Es. rewrite Hinc in Es by (clear - HP1 HP2; lia).
          assert (Hnl : S e <> total j) by (clear - X W3 Etot HP2 Hpz; nia).
          apply (emit_close s' jobs j (k + 1)); try assumption; try (rewrite Es; cbn [y_queue y_fsm y_size]); try (clear - Hbs Hsz; lia).
          -- exact Hq.
          -- destruct (Nat.eqb_spec (S e) (total j)); [contradiction|reflexivity].
          -- intros Y; contradiction.
          -- unfold wshape. rewrite Er. rewrite <- Er. cbn [y_size y_count y_wlast y_wdata].
             split; [clear - Hbs; lia|]. split; [clear - HP2; lia|]. split; [change (0 + 1 =? 0) with false; cbv iota; clear - X HP2 Hpz; nia|].
             intros _. split; [rewrite W2; f_equal; lia|]. split; [lia|]. intros t.
             replace (k + 1 - 1)%nat with k by lia. change (Z.to_nat (0 + 1) + t)%nat with (S t).
             rewrite (part_shift w Hw), Z.shiftr_div_pow2 by assumption. rewrite W1. reflexivity.
        * destruct (Hpart E) as (P1 & P2 & P3). rewrite Nat.add_0_r in HR'.
          replace (0 <? y_count s) with true in Es by (clear - E Hc; lia).
          assert (X : (e = pack r * (k - 1) + Z.to_nat (y_count s))%nat) by (clear - Hke E Hpz P2 Hc; nia).
          assert (Hkn : (k <= ram_total j)%nat).
          { inversion HR; clear - H H0 H1; lia. }
          apply (emit_close s' jobs j k); try assumption; try (rewrite Es; cbn [y_queue y_fsm y_size]); try (clear - Hbs Hsz; lia).
          -- exact Hq.
          -- rewrite P1. destruct (Z.eqb_spec (y_count s) (2 ^ lp - 1)) as [Ef|Ef]; cbn [andb].
             ++ replace (Nat.eqb (S e) (total j)) with (Nat.eqb k (ram_total j)); [reflexivity|].
                assert (Se : S e = (k * pack r)%nat) by (clear - X Ef HP1 Hpz P2 HP2; nia). rewrite Se, Etot.
                destruct (Nat.eqb_spec k (ram_total j)) as [Y|Y]; [rewrite Y; symmetry; apply Nat.eqb_refl|].
                symmetry; apply Nat.eqb_neq. intros Z0. apply Y. apply Nat.mul_cancel_r in Z0; [exact Z0|clear - HP2 Hpz; lia].
             ++ destruct (Nat.eqb_spec (S e) (total j)) as [Y|Y]; [|reflexivity]. exfalso.
                rewrite Etot in Y. clear - X Y Ef HP1 Hpz P2 Hc Hkn HP2.
                assert (Z.of_nat e + 1 = Z.of_nat (ram_total j) * packz r) by nia.
                assert (Z.of_nat e = packz r * (Z.of_nat k - 1) + y_count s) by nia. nia.
          -- intros Y. rewrite Etot in Y. clear - X Y Hpz P2 Hc Hkn HP2. nia.
          -- unfold wshape. rewrite Er. rewrite <- Er. cbn [y_size y_count y_wlast y_wdata].
             split; [clear - Hbs; lia|]. destruct (Z.eqb_spec (y_count s) (2 ^ lp - 1)) as [Ef|Ef].
             ++ cbn [Z.eqb]. split; [clear - HP2; lia|]. split; [clear - Hke E Ef HP1 HP2; nia|]. intros Y; exfalso; apply Y; reflexivity.
             ++ rewrite (Hinc Ef). split; [clear - Hc Ef HP1; lia|]. replace (y_count s + 1 =? 0) with false by (clear - Hc; lia).
                split; [clear - Hke E; lia|]. intros _. split; [exact P1|]. split; [exact P2|]. intros t.
                rewrite Z.shiftr_div_pow2, <- (part_shift w Hw), (P3 (S t)) by assumption. f_equal. clear - Hc; lia.
    - exists (wrest j e b ls ++ jobs_beats jobs). split; [reflexivity|]. rewrite Nat.add_0_r in HR'.
      apply (keep_close s' jobs j k); try assumption; try (rewrite Es; cbn [y_queue y_fsm y_size]); try assumption.
      + reflexivity.
      + unfold wshape. rewrite Er. rewrite <- Er. cbn [y_size y_count y_wlast y_wdata]. auto.
  Qed.
  Lemma seq_snoc a n : seq a (S n) = seq a n ++ [(a + n)%nat].
  Proof. replace (S n) with (n + 1)%nat by lia. rewrite seq_app. reflexivity. Qed.
  Lemma map_seq_shift {A} (f : nat -> A) a n : map (fun t => f (a + t)%nat) (seq 0 n) = map f (seq a n).
  Proof.
    transitivity (map f (seq (a + 0) n)); [|rewrite Nat.add_0_r; reflexivity].
    generalize 0%nat. induction n as [|n IH]; intros b; [reflexivity|]. cbn [seq map]. f_equal. rewrite IH. do 2 f_equal. lia.
  Qed.
  Lemma winv_wide lp s i rest : r = Wide lp -> y_fsm s = 2 -> 0 < y_size s -> winv s rest ->
    exists rest', rest = wr_beat r w s i ++ rest' /\ winv (wr_step r w aw lw mem s i) rest'.
  Proof.
    intros Er Hf Hsz (Hwr & jobs & HF & H). pose proof (wrange_step' s i Hwr) as Hwr'. rewrite Hf in H. cbn [Z.eqb Pos.eqb] in H.
    destruct H as (j & Hj & _ & k & e & b & ls & HR & He & Hb & Hls & Hsum & Hq & -> & Hsh).
    pose proof (sum_bound j Hj) as Hsb. pose proof (fold_pos ls Hls) as Hfp.
    assert (Hpl : plain (wr_ram r s i)) by (unfold plain, wr_ram; cbn; rewrite Hf; auto).
    destruct (local_is j Hj) as (_ & L2 & _).
    destruct (Ram_Proofs.rinv_step aw lw mem _ _ _ Haw L2 _ _ _ HR Hpl) as [HR' Hword]. rewrite <- rb_of in HR'.
    change (rbi_rready (wr_ram r s i)) with (wr_rready r s i) in HR'.
    pose proof (pack_P r Hr) as HP. pose proof Hmem as Hmem'.
    unfold wshape in Hsh. unfold unit in Hsb. rewrite Er in Hsh, Hsb, HP, Hmem'. rewrite <- Er in Hsh, Hsb, HP.
    destruct HP as [HP1 HP2]. destruct Hsh as (Hbs & Hc & Hc1 & Hke & Hd & Hle).
    assert (Hpz : packz r = Z.of_nat (pack r)) by reflexivity.
    assert (Etot : (ram_total j = total j * pack r)%nat) by (unfold ram_total; rewrite Er; reflexivity).
    assert (Hb1 : 1 <= b) by (clear - Hbs Hsz Hc HP2; nia).
    assert (Hsl : y_size s < 2 ^ lw) by (clear - Hbs Hc Hsum Hsb Hfp HP2; nia).
    destruct (step2_size s Hf Hsz Hsl) as [Hdec Hne].
    assert (Hinc : y_count s <> 2 ^ lp - 1 -> (y_count s + 1) mod 2 ^ lp = y_count s + 1) by (intros; apply Z.mod_small; clear Hword; lia).
    set (s' := wr_step r w aw lw mem s i) in *.
    set (rv := rb_rvalid (y_rb s) && wr_rready r s i) in *.
    assert (Ewc : wr_wcond r s i = (y_count s =? 2 ^ lp - 1) && rv).
    { unfold wr_wcond, rv. rewrite Er at 1. rewrite Hf. cbn [Z.eqb Pos.eqb andb]. rewrite andb_assoc. reflexivity. }
    assert (Hack : rv = true -> y_count s <> 0 -> wr_ack s i = true).
    { intros _ X. unfold wr_ack. destruct (Hc1 X) as [_ ->]. apply orb_true_r. }
    assert (Hack0 : rv = true -> y_count s = 0 -> y_wvalid s && negb (yi_ready i) = false).
    { unfold rv, wr_rready, wr_ack. rewrite Er. intros X Y. rewrite Y in X. cbn [Z.ltb Z.compare] in X. destruct (yi_ready i), (y_wvalid s); try reflexivity.
      cbn in X. rewrite andb_false_r in X. discriminate. }
    assert (Es : s' = mkWr (if (y_count s =? 2 ^ lp - 1) && rv && rb_rlast (y_rb s) then 0 else 2) (y_addr s) (y_stride s)
             (if rv then y_size s - 1 else y_size s)
             (if rv && (y_count s =? 2 ^ lp - 1) then 0 else if rv then (y_count s + 1) mod 2 ^ lp else y_count s)
             (if rv then wr_wide_data w lp s else y_wdata s) (y_wlast s) ((y_count s =? 2 ^ lp - 1) && rv && wr_ack s i || y_wvalid s && negb (yi_ready i))
             (y_rb s') (y_queue s)).
    { unfold s', wr_step. rewrite Hf, Hne. cbn [Z.eqb Pos.eqb]. rewrite Ewc, Hdec. fold rv. clearbody rv. rewrite Er. reflexivity. }
    assert (Ewb : wr_beat r w s i = if (y_count s =? 2 ^ lp - 1) && rv then [(wr_wide_data w lp s, rb_rlast (y_rb s) || (y_size s =? 1))] else []).
    { unfold wr_beat. rewrite Ewc. unfold wr_last, wr_data. rewrite Er at 1 2. destruct (Z.eqb_spec (y_count s) (2 ^ lp - 1)) as [X|X]; cbn [andb]; [|reflexivity].
      destruct rv eqn:Erv; [|reflexivity]. rewrite Hack; [reflexivity|reflexivity|clear - X HP1 HP2; lia]. }
    clearbody s'. clear Hpl. rewrite Ewb. clear Ewb Ewc. destruct rv eqn:Erv; cbn [andb] in HR', Es; rewrite ?andb_true_r, ?andb_false_r in *.
    - assert (Ev : rb_rvalid (y_rb s) = true) by (unfold rv in Erv; apply andb_prop in Erv; apply Erv).
      destruct (Hword Ev) as (W1 & W2 & W3). clear Hword. fold (jword j k) in W1.
      destruct (shift_in w Hw (packz r) (y_count s) (y_wdata s) (jword j k) Hc Hd (Hmem' _)) as [D1 D2].
      assert (Ed : wr_wide_data w lp s = cat [(w, jword j k); (w * (packz r - 1), Z.shiftr (y_wdata s) w)]).
      { unfold wr_wide_data. rewrite W1, HP1. reflexivity. }
      rewrite <- Ed in D1, D2.
      assert (Ek : k = (e * pack r + Z.to_nat (y_count s))%nat) by (clear - Hke Hc Hpz; nia).
      assert (Ele : wr_wide_data w lp s / 2 ^ (w * (packz r - (y_count s + 1))) =
                    le w (map (jword j) (seq (e * pack r) (S (Z.to_nat (y_count s)))))).
      { rewrite D2, Hle, seq_snoc, map_app. cbn [map]. rewrite <- Ek, (le_snoc w Hw), map_length, seq_length, Z2Nat.id by (clear - Hc; lia). reflexivity. }
      destruct (Z.eqb_spec (y_count s) (2 ^ lp - 1)) as [Ef|Ef]; cbn [andb] in Es |- *.
      + assert (Epk : S (Z.to_nat (y_count s)) = pack r) by (clear - Ef HP1 Hpz HP2; lia).
        assert (El : rb_rlast (y_rb s) = Nat.eqb (S e) (total j)).
        { rewrite W2, Etot, Ek. replace (S (e * pack r + Z.to_nat (y_count s))) with (S e * pack r)%nat by (clear - Epk; lia).
          assert (Hp0 : pack r <> 0%nat) by (clear - Epk; lia).
          destruct (Nat.eqb_spec (S e) (total j)) as [Y|Y]; [rewrite Y; apply Nat.eqb_refl|].
          apply Nat.eqb_neq. intros Z0. apply Y. apply Nat.mul_cancel_r in Z0; assumption. }
        exists (wrest j (S e) (b - 1) ls ++ jobs_beats jobs). split.
        * rewrite wrest_step by assumption. cbn [app]. f_equal. f_equal.
          -- unfold bus_word. rewrite Er. rewrite <- Er. cbn beta zeta.
             change (fun t : nat => mem (burst_addr aw (j_addr j) (j_stride j) (e * pack r + t))) with (fun t : nat => jword j (e * pack r + t)).
             rewrite map_seq_shift. rewrite Epk in Ele. rewrite <- Ele.
             replace (packz r - (y_count s + 1)) with 0 by (clear - Ef HP1; lia). rewrite Z.mul_0_r, Z.pow_0_r, Z.div_1_r. reflexivity.
          -- rewrite El. assert (Eb : (y_size s =? 1) = (b =? 1)).
             { rewrite Hbs. rewrite Ef, <- HP1. clear - HP2 Hb1. destruct (Z.eqb_spec b 1); nia. }
             rewrite Eb. destruct (Nat.eqb (S e) (total j)) eqn:E1; [|reflexivity].
             rewrite (last_flag j e b ls Hls Hsum Hb1 He E1). reflexivity.
        * rewrite El in Es. apply (emit_close s' jobs j (k + 1)); try assumption; try (rewrite Es; cbn [y_queue y_fsm y_size]); try assumption.
          -- reflexivity.
          -- intros Y. rewrite Etot, <- Y, Ek. clear - Epk. lia.
          -- intros ->. clear - Hbs Ef HP1. lia.
          -- unfold wshape. rewrite Er. rewrite <- Er. cbn [y_size y_count y_wlast y_wdata y_wvalid].
             split; [clear - Hbs Ef HP1; nia|]. split; [clear - HP2; lia|]. split; [intros X; exfalso; apply X; reflexivity|].
             split; [clear - Hke Ef HP1; nia|]. split; [exact D1|]. cbn [Z.to_nat seq map le fold_right]. rewrite Z.sub_0_r. apply Z.div_small, D1.
      + exists (wrest j e b ls ++ jobs_beats jobs). split; [reflexivity|].
        apply (keep_close s' jobs j (k + 1)); try assumption; try (rewrite Es; cbn [y_queue y_fsm y_size]); try assumption.
        * reflexivity.
        * unfold wshape. rewrite Er. rewrite <- Er. cbn [y_size y_count y_wlast y_wdata y_wvalid]. rewrite (Hinc Ef).
          split; [clear - Hbs; lia|]. split; [clear - Hc Ef HP1; lia|]. split.
          { intros _. split; [exact Hb1|]. cbn [orb]. destruct (Z.eq_dec (y_count s) 0) as [X|X]; [exact (Hack0 eq_refl X)|].
            destruct (Hc1 X) as [_ ->]. reflexivity. }
          split; [clear - Hke; lia|]. split; [exact D1|]. rewrite Ele. do 2 f_equal. clear - Hc. f_equal. lia.
    - exists (wrest j e b ls ++ jobs_beats jobs). split; [reflexivity|]. rewrite Nat.add_0_r in HR'.
      apply (keep_close s' jobs j k); try assumption; try (rewrite Es; cbn [y_queue y_fsm y_size]); try assumption.
      + reflexivity.
      + unfold wshape. rewrite Er. rewrite <- Er. cbn [y_size y_count y_wlast y_wdata y_wvalid].
        split; [exact Hbs|]. split; [exact Hc|]. split; [|auto]. intros X. destruct (Hc1 X) as [A B]. split; [exact A|]. rewrite B. reflexivity.
  Qed.

  Lemma winv_step s i rest : winv s rest ->
    exists rest', rest = wr_beat r w s i ++ rest' /\ winv (wr_step r w aw lw mem s i) rest'.
  Proof.
    intros H. destruct (Z.eq_dec (y_fsm s) 0) as [H0|H0]; [apply winv_step0; assumption|].
    destruct (Z.eq_dec (y_fsm s) 1) as [H1|H1]; [apply winv_step1; assumption|].
    assert (Hf : y_fsm s = 2 /\ 0 <= y_size s).
    { destruct H as (_ & jobs & _ & H). apply Z.eqb_neq in H0, H1. rewrite H0, H1 in H.
      destruct H as (j & Hj & Hf & k & e & b & ls & _ & He & Hb & _ & _ & _ & _ & Hsh). split; [exact Hf|].
      pose proof (pack_P r Hr) as HP. unfold wshape in Hsh. destruct r; [lia|lia|]. destruct HP, Hsh as (A & B & C & _).
      destruct (Z.eq_dec (y_count s) 0) as [E|E]; [nia|]. destruct (C E). nia. }
    destruct Hf as [Hf Hs]. destruct (Z.eq_dec (y_size s) 0) as [Hz|Hz].
    - destruct (winv_step2_deq s i rest Hf Hz H) as [A B]. exists rest. rewrite A. auto.
    - assert (Er : r = Same \/ (exists lp, r = Narrow lp) \/ exists lp, r = Wide lp) by (destruct r; eauto).
      destruct Er as [Er|[[lp Er]|[lp Er]]]; [apply winv_same|apply (winv_narrow lp)|apply (winv_wide lp)]; auto; lia.
  Qed.

  Theorem write_prefix jobs ins : Forall wjob_ok jobs ->
    exists rest, jobs_beats jobs = wr_beats r w aw lw mem (wr_init (jobs_entries jobs)) ins ++ rest /\
      winv (final (wr_step r w aw lw mem) (wr_init (jobs_entries jobs)) ins) rest.
  Proof.
    intros H. pose proof (winv_init jobs H) as Hi. revert Hi. generalize (wr_init (jobs_entries jobs)) (jobs_beats jobs).
    induction ins as [|i ins IH]; intros s rest Hi.
    - exists rest. split; [reflexivity|exact Hi].
    - destruct (winv_step s i rest Hi) as (rest1 & -> & H1). destruct (IH _ _ H1) as (rest2 & -> & H2).
      exists rest2. split; [|exact H2]. unfold wr_beats. cbn [outs concat]. rewrite app_assoc. reflexivity.
  Qed.
  (** ** Progress *)
  Definition lat (rb : rburst) : Z := if rb_run rb && negb (rb_rvalid rb) then 1 else 0.
  Definition ecost (e : wentry) : Z := match e with WReq _ _ _ => 3 | WBurst l => 1 + unit * l end.
  Definition qcost (q : list wentry) : Z := fold_right (fun e c => ecost e + c) 0 q.
  Definition wm (s : wr) : Z :=
    qcost (y_queue s) + (if y_fsm s =? 0 then 0 else if y_fsm s =? 1 then 2 else y_size s + lat (y_rb s)).

  Lemma lat_step a st n rb k i : (0 < Z.of_nat n < 2 ^ lw) -> RInv aw mem a st n rb k -> plain i ->
    lat (rb_step aw lw mem rb i) + (if rbi_rready i then lat rb else 0) <= lat rb.
  Proof.
    intros Hn H [Hc Hq]. unfold rb_step, rb_renable, lat.
    destruct H as [k s Hr' Hk Ha Hs Hl Hv Hla | k s Hr' Hk Ha Hs Hl Hv Hla Hd | k s Hr' Hk Hv Hla].
    - rewrite Hr', Hv, Hla, Hq, Hl. cbn [negb andb orb]. replace (0 <? Z.of_nat n) with true by lia.
      destruct (rbi_rready i); cbn; lia.
    - rewrite Hr', Hv, Hla, Hq. cbn [negb andb orb]. rewrite Hl.
      destruct (rbi_rready i); cbn [andb]; [|rewrite andb_false_r; cbn; lia].
      destruct (0 <? Z.of_nat n - Z.of_nat (S k)), (Nat.eqb (S k) n), (Z.of_nat n - Z.of_nat (S k) <=? 1); cbn; lia.
    - rewrite Hr', Hc. cbn. destruct (rbi_rready i); lia.
  Qed.
  Lemma lat_pos rb : 0 <= lat rb.
  Proof. unfold lat. destruct (_ && _); lia. Qed.
  Lemma lat_run a st n rb k : RInv aw mem a st n rb k -> (k < n)%nat -> rb_rvalid rb = false -> lat rb = 1.
  Proof. intros H Hk Hv. unfold lat. inversion H; rewrite ?Hv in *; try discriminate; [rewrite H0; reflexivity|lia]. Qed.
  Lemma qcost_cons e q : qcost (e :: q) = ecost e + qcost q.
  Proof. reflexivity. Qed.
  Lemma qcost_app a b : qcost (a ++ b) = qcost a + qcost b.
  Proof. induction a as [|e a IH]; [reflexivity|]. cbn [app]. rewrite !qcost_cons, IH. lia. Qed.
  Lemma qcost_bursts ls : Forall (fun l => 1 <= l) ls -> 0 <= qcost (map WBurst ls).
  Proof. pose proof unit_pos. induction 1; [reflexivity|]. cbn [map]. rewrite qcost_cons. cbn [ecost]. nia. Qed.
  Lemma qcost_jobs jobs : Forall wjob_ok jobs -> 0 <= qcost (jobs_entries jobs).
  Proof.
    induction 1 as [|j jobs Hj _ IH]; [reflexivity|]. unfold jobs_entries. cbn [flat_map job_entries app].
    rewrite qcost_cons, qcost_app. cbn [ecost].
    pose proof (qcost_bursts (j_bursts j)) as Hb. destruct Hj as (_ & _ & Hj & _). specialize (Hb Hj). unfold jobs_entries in IH. lia.
  Qed.
  Lemma good_parts s i : wr_good i = true -> yi_avail i = true /\ wr_ack s i = true.
  Proof. unfold wr_good, wr_ack. intros H. apply andb_prop in H. destruct H as [-> ->]. auto. Qed.

  Lemma size_nonneg s rest : winv s rest -> y_fsm s = 2 -> 0 <= y_size s.
  Proof.
    intros (_ & jobs & _ & H) Hf. rewrite Hf in H. cbn [Z.eqb Pos.eqb] in H.
    destruct H as (j & Hj & _ & k & e & b & ls & _ & He & Hb & _ & _ & _ & _ & Hsh).
    pose proof (pack_P r Hr) as HP. unfold wshape in Hsh. destruct r; [lia|lia|]. destruct HP, Hsh as (A & B & C & _).
    destruct (Z.eq_dec (y_count s) 0) as [E|E]; [nia|]. destruct (C E). nia.
  Qed.
  Lemma wm_pos s rest : winv s rest -> 0 <= wm s.
  Proof.
    intros H. pose proof (size_nonneg s rest H) as Hsz. destruct H as (_ & jobs & HF & H). pose proof (qcost_jobs jobs HF) as Hq0.
    unfold wm. pose proof (lat_pos (y_rb s)) as Hl. destruct (Z.eqb_spec (y_fsm s) 0) as [E|E].
    - destruct H as (_ & _ & -> & _). lia.
    - destruct H as (j & Hj & H). pose proof Hj as (_ & _ & Hjb & _). pose proof (qcost_bursts _ Hjb) as Hq1. destruct (Z.eqb_spec (y_fsm s) 1) as [E1|E1].
      + destruct H as (_ & _ & _ & _ & -> & _). rewrite qcost_app. lia.
      + destruct H as (Hf & k & e & b & ls & _ & _ & _ & Hls & _ & -> & _ & _). rewrite qcost_app. pose proof (qcost_bursts _ Hls). specialize (Hsz Hf). lia.
  Qed.

  Lemma wm_step s i rest : winv s rest -> wm (wr_step r w aw lw mem s i) <= Z.max 0 (wm s - b2z (wr_good i)).
  Proof.
    intros H. pose proof (wm_pos s rest H) as Hpos. pose proof (size_nonneg s rest H) as Hsz. pose proof (good_parts s i) as Hgood. pose proof unit_pos as Hu.
    destruct H as (Hwr & jobs & HF & H).
    destruct (Z.eq_dec (y_fsm s) 0) as [H0|H0].
    { rewrite H0 in H. cbn [Z.eqb] in H. destruct H as (Hid & Hz & Hq & _). clear Hsz. unfold wm in *. rewrite H0 in *. cbn [Z.eqb] in Hpos |- *.
      unfold wr_step, wr_head. rewrite H0. cbn [Z.eqb]. destruct (yi_avail i) eqn:Ea.
      - rewrite Hq in *. destruct jobs as [|j jobs]; cbn [jobs_entries flat_map job_entries app].
        + cbn. lia.
        + cbn [y_queue y_fsm tl Z.eqb Pos.eqb qcost fold_right ecost].
          match goal with |- ?a + 2 <= Z.max 0 (3 + ?b + 0 - _) => change b with a; assert (0 <= b2z (wr_good i) <= 1) by (unfold b2z; destruct (wr_good i); lia); lia end.
      - cbn [y_queue y_fsm Z.eqb]. destruct (wr_good i) eqn:Eg; [destruct (Hgood eq_refl); discriminate|]. cbn [b2z]. lia. }
    apply Z.eqb_neq in H0. rewrite H0 in H. destruct H as (j & Hj & H).
    destruct (Z.eq_dec (y_fsm s) 1) as [H1|H1].
    { rewrite H1 in H. cbn [Z.eqb Pos.eqb] in H. destruct H as (Hid & Ha & Hst & Hz & Hq & _). unfold wm in *. rewrite H1 in *. cbn [Z.eqb Pos.eqb] in *.
      unfold wr_step. rewrite H1. cbn [Z.eqb Pos.eqb y_queue y_fsm y_size y_rb].
      assert (Hl : lat (rb_step aw lw mem (y_rb s) (wr_ram r s i)) <= 1) by (unfold lat; destruct (_ && _); lia).
      assert (0 <= b2z (wr_good i) <= 1) by (unfold b2z; destruct (wr_good i); lia). lia. }
    apply Z.eqb_neq in H1. rewrite H1 in H. destruct H as (Hf & k & e & b & ls & HR & He & Hb & Hls & Hsum & Hq & _ & Hsh).
    specialize (Hsz Hf).
    assert (Hpl : plain (wr_ram r s i)) by (unfold plain, wr_ram; cbn; rewrite Hf; auto).
    destruct (local_is j Hj) as (_ & L2 & _). pose proof (lat_step _ _ _ _ _ _ L2 HR Hpl) as HL.
    change (rbi_rready (wr_ram r s i)) with (wr_rready r s i) in HL. rewrite <- rb_of in HL.
    pose proof (sum_bound j Hj) as Hsb. pose proof (fold_pos ls Hls) as Hfp. pose proof (pack_P r Hr) as HP.
    pose proof (lat_pos (y_rb s)) as Hl0. pose proof (lat_pos (y_rb (wr_step r w aw lw mem s i))) as Hl1.
    assert (Hwm : wm s = qcost (y_queue s) + (y_size s + lat (y_rb s))) by (unfold wm; rewrite Hf; reflexivity).
    assert (Hwm' : wm (wr_step r w aw lw mem s i) <= qcost (y_queue (wr_step r w aw lw mem s i)) +
        (Z.max 0 (y_size (wr_step r w aw lw mem s i)) + lat (y_rb (wr_step r w aw lw mem s i)))).
    { unfold wm. destruct (y_fsm (wr_step r w aw lw mem s i) =? 0); [clear - Hl1; lia|]. destruct (Z.eqb_spec (y_fsm (wr_step r w aw lw mem s i)) 1) as [X|X]; [|apply Z.add_le_mono_l, Z.add_le_mono_r, Z.le_max_r]. exfalso. revert X.
      unfold wr_step. rewrite Hf. cbn [Z.eqb Pos.eqb]. destruct (if y_size s =? 0 then wr_head s i else None); destruct r; cbn [y_fsm];
      match goal with |- (if ?c then _ else _) = _ -> _ => destruct c; lia end. }
    set (s' := wr_step r w aw lw mem s i) in *.
    destruct (Z.eq_dec (y_size s) 0) as [Hz|Hz].
    - (* a burst size is taken *)
      assert (Hrr : wr_rready r s i = false) by (unfold wr_rready; rewrite Hz; apply andb_false_r).
      assert (Hwc : wr_wcond r s i = false).
      { unfold wr_wcond. rewrite Hrr, Hz. destruct r; rewrite ?andb_false_r; reflexivity. }
      assert (Eb : b = 0).
      { unfold wshape in Hsh. destruct r as [|lp|lp]; [lia|lia|]. destruct HP, Hsh as (A & B & C & _).
        destruct (Z.eq_dec (y_count s) 0) as [E|E]; [nia|]. destruct (C E). nia. }
      subst b. destruct ls as [|l ls]; [cbn in Hsum; lia|].
      assert (Es : (yi_avail i = false /\ y_size s' = 0 /\ y_queue s' = y_queue s) \/ (y_size s' <= unit * l /\ qcost (y_queue s') = qcost (y_queue s) - 1 - unit * l)).
      { unfold s', wr_step, wr_head. rewrite Hf, Hz, Hwc, Hrr. cbn [Z.eqb Pos.eqb]. rewrite Hq. cbn [map app]. rewrite andb_false_r. cbn [andb].
        destruct (yi_avail i); [right|left].
        - assert (Hl : 1 <= l) by exact (Forall_inv Hls). pose proof (fold_pos ls (Forall_inv_tail Hls)) as Hfp1. cbn [fold_right] in Hsum.
          assert (Em : wr_burst r (went_size (WBurst l)) mod 2 ^ lw = unit * l).
          { cbn [went_size]. unfold wr_burst, unit in *. destruct r as [|lp|lp]; [rewrite Z.mod_small; lia|rewrite Z.mod_small; lia|].
            destruct HP as [HP1 HP2]. rewrite Z.shiftl_mul_pow2, <- HP1 by lia. rewrite Z.mod_small; nia. }
          rewrite Em. split; [destruct r; cbn [y_size]; lia|].
          assert (Eq : forall X, qcost (WBurst l :: X) = 1 + unit * l + qcost X) by reflexivity. rewrite Eq.
          destruct r; cbn [y_queue tl]; lia.
        - split; [reflexivity|]. split; destruct r; cbn [y_size y_queue]; auto. }
      assert (Hl2 : lat (y_rb s') <= lat (y_rb s)) by (clear - HL Hl0; destruct (wr_rready r s i); lia).
      assert (Hul : 0 <= unit * l) by (pose proof (Forall_inv Hls) as X; cbn beta in X; clear - X Hu; nia).
      clear - Es Hwm Hwm' Hpos Hl2 Hgood Hz Hul. destruct Es as [(Ea & Es & Eq)|[Es Eq]].
      + rewrite Es, Eq in Hwm'. destruct (wr_good i); [destruct (Hgood eq_refl); congruence|]. cbn [b2z]. lia.
      + rewrite Eq in Hwm'. assert (0 <= b2z (wr_good i) <= 1) by (unfold b2z; destruct (wr_good i); lia). lia.
    - assert (Hs0 : 0 < y_size s) by lia.
      assert (Hsl : y_size s < 2 ^ lw).
      { clear - Hsh Hsum Hsb Hfp HP. unfold wshape, unit in *. destruct r; [lia|lia|]. destruct Hsh as (A & B & _). destruct HP. nia. }
      destruct (step2_size s Hf Hs0 Hsl) as [Hdec Hne].
      assert (Hq' : y_queue s' = y_queue s).
      { unfold s', wr_step. rewrite Hf, Hne. cbn [Z.eqb Pos.eqb]. destruct r; reflexivity. }
      assert (Hkn : match r with Narrow _ => y_count s = 0 | _ => True end -> (k < ram_total j)%nat).
      { clear - Hsh He HP. unfold wshape, ram_total, total, bus_words in *. unfold packz in *. destruct r as [|lp|lp].
        - intros _. destruct Hsh. lia.
        - intros X. destruct Hsh as (_ & _ & A & _). rewrite X in A. cbn [Z.eqb] in A. destruct HP. nia.
        - intros _. destruct Hsh as (_ & A & _ & B & _). destruct HP. set (t := ((Z.to_nat (j_n j) + pack (Wide lp) - 1) / pack (Wide lp))%nat) in *. clearbody t. nia. }
      assert (Es : y_size s' = if (match r with Narrow _ => wr_wcond r s i | _ => rb_rvalid (y_rb s) && wr_rready r s i end) then y_size s - 1 else y_size s).
      { unfold s', wr_step. rewrite Hf, Hne, Hdec. cbn [Z.eqb Pos.eqb]. destruct r; reflexivity. }
      rewrite Hq' in Hwm'.
      assert (Hmain : y_size s' + lat (y_rb s') <= y_size s + lat (y_rb s) - b2z (wr_good i) /\ 0 <= y_size s').
      { destruct (wr_good i) eqn:Eg; cbn [b2z].
        - destruct (Hgood eq_refl) as [_ Hack]. clear Hgood.
          assert (Hrr : match r with Narrow _ => y_count s = 0 | _ => True end -> wr_rready r s i = true).
          { unfold wr_rready. rewrite Hack. replace (0 <? y_size s) with true by (clear - Hs0; lia). destruct r; auto. intros ->. reflexivity. }
          destruct (rb_rvalid (y_rb s)) eqn:Ev.
          + assert (Hy : y_size s' = y_size s - 1).
            { rewrite Es. assert (Er : (exists lp, r = Narrow lp) \/ match r with Narrow _ => False | _ => True end) by (destruct r; eauto).
              destruct Er as [[lp Er]|Er].
              - unfold wr_wcond. rewrite Er, Hf, Hack, Ev. replace (0 <? y_size s) with true by (clear - Hs0; lia). rewrite orb_true_r. reflexivity.
              - rewrite Hrr by (destruct r; tauto). destruct r; [reflexivity|tauto|reflexivity]. }
            clear - Hy HL Hs0 Hl0. destruct (wr_rready r s i); lia.
          + assert (Er : (exists lp, r = Narrow lp /\ y_count s <> 0) \/ match r with Narrow _ => y_count s = 0 | _ => True end)
              by (destruct r; auto; destruct (Z.eq_dec (y_count s) 0); eauto).
            destruct Er as [[lp [Er En]]|Er].
            * assert (Hy : y_size s' = y_size s - 1).
              { rewrite Es. unfold wr_wcond. unfold wshape in Hsh. rewrite Er in Hsh. destruct Hsh as (_ & Hc & _).
                rewrite Er, Hf, Hack. replace (0 <? y_size s) with true by (clear - Hs0; lia). replace (0 <? y_count s) with true by (clear - Hc En; lia). reflexivity. }
              clear - Hy HL Hs0 Hl0. destruct (wr_rready r s i); lia.
            * assert (Hlat : lat (y_rb s) = 1) by exact (lat_run _ _ _ _ _ HR (Hkn Er) Ev).
              rewrite (Hrr Er), Hlat in HL. assert (Hys : y_size s' <= y_size s /\ y_size s - 1 <= y_size s') by (clear - Es; rewrite Es; match goal with |- context [if ?c then _ else _] => destruct c end; lia).
              clear - HL Hlat Hys Hs0. lia.
        - assert (Hys : y_size s' <= y_size s /\ y_size s - 1 <= y_size s') by (clear - Es; rewrite Es; match goal with |- context [if ?c then _ else _] => destruct c end; lia).
          clear - HL Hys Hs0 Hl0. destruct (wr_rready r s i); lia. }
      clear - Hmain Hwm Hwm'. lia.
  Qed.

  Lemma wm_done s rest : winv s rest -> wm s <= 0 -> rest = [].
  Proof.
    intros H Hm. pose proof (size_nonneg s rest H) as Hsz. destruct H as (_ & jobs & HF & H). pose proof (lat_pos (y_rb s)) as Hl. unfold wm in Hm.
    pose proof (qcost_jobs jobs HF) as Hq0. pose proof unit_pos as Hu.
    destruct (Z.eqb_spec (y_fsm s) 0) as [E|E].
    - destruct H as (_ & _ & Hq & ->). rewrite Hq in Hm. destruct jobs as [|j jobs]; [reflexivity|]. exfalso.
      pose proof (Forall_inv HF) as (_ & _ & Hj & _). pose proof (qcost_bursts _ Hj) as Hb. pose proof (qcost_jobs jobs (Forall_inv_tail HF)) as Hq1.
      unfold jobs_entries in Hm, Hq1. cbn [flat_map job_entries app] in Hm.
      change (qcost (WReq (j_addr j) (j_stride j) (j_n j) :: map WBurst (j_bursts j) ++ flat_map job_entries jobs)) with
        (3 + qcost (map WBurst (j_bursts j) ++ flat_map job_entries jobs)) in Hm. rewrite qcost_app in Hm. lia.
    - exfalso. destruct H as (j & Hj & H). pose proof Hj as (_ & _ & Hjb & _). pose proof (qcost_bursts _ Hjb) as Hq1.
      destruct (Z.eqb_spec (y_fsm s) 1) as [E1|E1].
      + destruct H as (_ & _ & _ & _ & Hq & _). rewrite Hq, qcost_app in Hm. lia.
      + destruct H as (Hf & k & e & b & ls & _ & He & Hb & Hls & Hsum & Hq & _ & Hsh). rewrite Hq, qcost_app in Hm. specialize (Hsz Hf).
        pose proof (qcost_bursts _ Hls) as Hq2. destruct ls as [|l ls].
        * cbn [fold_right] in Hsum. pose proof (pack_P r Hr) as HP. unfold wshape in Hsh. clear - Hsh Hsum He Hm HP Hsz Hq2 Hq0 Hl. destruct r; [lia|lia|].
          destruct Hsh as (A & B & C & _). destruct HP. nia.
        * pose proof (Forall_inv Hls) as X. cbn beta in X. pose proof (qcost_bursts _ (Forall_inv_tail Hls)) as Hq3.
          cbn [map] in Hm. change (qcost (WBurst l :: map WBurst ls)) with (1 + unit * l + qcost (map WBurst ls)) in Hm.
          assert (0 <= unit * l) by (clear - X Hu; nia). lia.
  Qed.
  Lemma wr_cost_eq jobs : Forall wjob_ok jobs -> qcost (jobs_entries jobs) = wr_cost r jobs.
  Proof.
    induction 1 as [|j jobs Hj _ IH]; [reflexivity|]. unfold jobs_entries in *. cbn [flat_map job_entries app wr_cost fold_right]. fold (wr_cost r jobs).
    change (qcost (WReq (j_addr j) (j_stride j) (j_n j) :: map WBurst (j_bursts j) ++ flat_map job_entries jobs)) with
        (3 + qcost (map WBurst (j_bursts j) ++ flat_map job_entries jobs)). rewrite qcost_app, IH.
    assert (E : forall ls, qcost (map WBurst ls) = Z.of_nat (length ls) + unit * fold_right Z.add 0 ls).
    { induction ls as [|l ls IH']; [cbn; lia|]. cbn [map length fold_right].
      change (qcost (WBurst l :: map WBurst ls)) with (1 + unit * l + qcost (map WBurst ls)). rewrite IH'. lia. }
    destruct Hj as (_ & _ & _ & Hj). rewrite E, Hj. unfold unit, packz. destruct r; lia.
  Qed.

  Theorem write_finish jobs ins : Forall wjob_ok jobs -> wr_cost r jobs <= count (map wr_good ins) ->
    wr_beats r w aw lw mem (wr_init (jobs_entries jobs)) ins = jobs_beats jobs.
  Proof.
    intros HF Hc. destruct (write_prefix jobs ins HF) as (rest & E & Hinv).
    assert (Hm : wm (final (wr_step r w aw lw mem) (wr_init (jobs_entries jobs)) ins) <= Z.max 0 (wm (wr_init (jobs_entries jobs)) - count (map wr_good ins))).
    { pose proof (winv_init jobs HF) as Hi. revert Hi. clear Hinv E Hc rest. generalize (wr_init (jobs_entries jobs)) (jobs_beats jobs).
      induction ins as [|i ins IH]; intros s rest Hi; [cbn [final fold_left map]; change (count []) with 0; lia|].
      destruct (winv_step s i rest Hi) as (rest1 & _ & H1). specialize (IH _ _ H1). pose proof (wm_step s i rest Hi) as Hs.
      unfold final in *. cbn [fold_left map]. change (count (wr_good i :: map wr_good ins)) with (b2z (wr_good i) + count (map wr_good ins)).
      assert (0 <= count (map wr_good ins)) by (clear; induction ins as [|x l IHl]; [reflexivity|]; change (count (map wr_good (x :: l))) with (b2z (wr_good x) + count (map wr_good l)); destruct (wr_good x); cbn [b2z]; lia).
      clear - IH Hs H; lia. }
    rewrite (wm_done _ _ Hinv) in E; [rewrite app_nil_r in E; auto|].
    assert (E0 : wm (wr_init (jobs_entries jobs)) = wr_cost r jobs) by (unfold wm; cbn [y_queue wr_init y_fsm Z.eqb]; rewrite wr_cost_eq by exact HF; lia).
    rewrite E0 in Hm. lia.
  Qed.
End Write.
