From Verif Require Import Base Bits Buffer_Model Buffer_Spec.
Open Scope Z_scope.

(** * ring address *)
Lemma addr_width_ok len : 2 <= len -> 1 <= addr_width len /\ len <= 2 ^ addr_width len.
Proof.
  intros H. unfold addr_width. split; [|apply Z.log2_up_spec; lia].
  change 1 with (Z.log2_up 2). apply Z.log2_up_le_mono. lia.
Qed.
Lemma addr_width_32 len : 2 <= len <= 2 ^ 31 -> addr_width len <= 32.
Proof. intros H. unfold addr_width. rewrite <- (Z.log2_up_pow2 32) by lia. apply Z.log2_up_le_mono. change (2 ^ 31) with 2147483648 in H. change (2 ^ 32) with 4294967296. lia. Qed.
Lemma off_congr o z a : means o z -> 0 <= a -> match o with OInt _ => a <= 32 | OSig w _ => a <= w end ->
  off_bits o mod 2 ^ a = z mod 2 ^ a.
Proof.
  intros M A W. destruct o as [y|w x]; cbn [off_bits means] in *.
  - subst z. apply mod_mod_le. lia.
  - destruct M as [s ->]. rewrite <- (mod_mod_le (value w s x) w a) by lia. rewrite value_mod by lia. reflexivity.
Qed.
Lemma raddr_ok len base o z : offset_ok len o z -> 0 <= base < len -> ring_raddr len base o = (base + z) mod len.
Proof.
  intros (L & M & C) Hb. destruct (addr_width_ok len ltac:(lia)) as [A1 A2]. pose proof (addr_width_32 len L) as A3.
  unfold ring_raddr. cbv zeta. set (a := addr_width len) in *. set (c := Z.max a (off_width o)).
  assert (Ca : a <= c) by lia. assert (P : 0 < 2 ^ a) by (apply pow_pos; lia).
  destruct C as [[E W]|[Z0 W]].
  - rewrite E. transitivity (((base + off_bits o) mod 2 ^ c) mod 2 ^ a).
    + destruct (_ <=? _); [|reflexivity]. set (v := (base + off_bits o) mod 2 ^ c).
      replace (v - 2 ^ a) with (v + -1 * 2 ^ a) by lia. apply Z.mod_add. lia.
    + rewrite mod_mod_le by lia. rewrite Z.add_mod, (off_congr o z a M), <- Z.add_mod by (destruct o; lia). reflexivity.
  - assert (B : off_bits o = z).
    { destruct o as [y|w x]; cbn [off_bits means] in *; [subst y; apply Z.mod_small; lia|].
      destruct M as [s ->]. destruct s; cbn [value] in *; [|reflexivity].
      pose proof (sgn_range w x W) as R. pose proof (pow_split w W) as PS. pose proof (pow_pos (w - 1) ltac:(lia)) as PP.
      rewrite <- (sgn_mod w x) by lia. apply Z.mod_small. lia. }
    rewrite B. assert (CL : 2 * len <= 2 ^ c).
    { assert (2 ^ 32 <= 2 ^ c) by (apply Z.pow_le_mono_r; [lia|]; subst c; destruct o; cbn; lia).
      change (2 ^ 32) with (2 * 2 ^ 31) in *. lia. }
    rewrite (Z.mod_small (base + z)) by lia.
    destruct (Z.leb_spec len (base + z)).
    + rewrite (Z.mod_small (base + z - len)) by lia. symmetry. replace (base + z) with (base + z - len + 1 * len) at 1 by lia.
      rewrite Z.mod_add by lia. apply Z.mod_small. lia.
    + rewrite !Z.mod_small by lia. reflexivity.
Qed.

(** * ring buffer state, output one stage after the buffer *)
Lemma passed_app l i : passed (l ++ [i]) = passed l ++ (if r_go i && r_valid i then [(r_data i, r_wen i)] else []).
Proof. unfold passed. rewrite filter_app, map_app. cbn. destruct (_ && _); reflexivity. Qed.
Lemma kept_app a b : kept (a ++ b) = kept a ++ kept b.
Proof. unfold kept. rewrite filter_app, map_app. reflexivity. Qed.
Lemma occupied_app l i : occupied (l ++ [i]) = if r_go i then r_valid i else occupied l.
Proof. unfold occupied. rewrite fold_left_app. reflexivity. Qed.
(** elements before the one at the next stage *)
Definition before (l : list rin) : list (Z * bool) := if occupied l then removelast (passed l) else passed l.
Record RInv (len : Z) (l : list rin) (s : rst) : Prop := {
  ri_waddr : rs_waddr s = Z.of_nat (length (kept (passed l))) mod len;
  ri_prev : rs_prev s = [Z.of_nat (length (kept (before l))) mod len];
  ri_valid : rs_valid s = [occupied l];
  ri_mem : forall m, (m < length (kept (passed l)))%nat -> Z.of_nat (length (kept (passed l))) - Z.of_nat m <= len ->
           rs_mem s (Z.of_nat m mod len) = nth m (kept (passed l)) 0;
  ri_occ : occupied l = true -> passed l <> []
}.
Lemma mod_next n len : 2 <= len -> (if Z.of_nat n mod len =? len - 1 then 0 else Z.of_nat n mod len + 1) = Z.of_nat (n + 1) mod len.
Proof.
  intros H. replace (Z.of_nat (n + 1)) with (Z.of_nat n + 1) by lia. pose proof (Z.mod_pos_bound (Z.of_nat n) len ltac:(lia)) as B.
  rewrite <- (Z.add_mod_idemp_l (Z.of_nat n)) by lia. set (x := Z.of_nat n mod len) in *. clearbody x.
  destruct (Z.eqb_spec x (len - 1)); [replace (x + 1) with (0 + 1 * len) by lia; rewrite Z.mod_add by lia; symmetry; apply Z.mod_0_l; lia|].
  symmetry. apply Z.mod_small. lia.
Qed.
Lemma ring_inv len mem l : 2 <= len -> RInv len l (ring_run len 1 mem l).
Proof.
  intros H. unfold ring_run. induction l as [|i l IH] using rev_ind.
  - split; cbn; try reflexivity; intros; try discriminate; lia.
  - rewrite fold_left_app. cbn [fold_left]. set (s := fold_left (ring_step len) l (ring_init 1 mem)) in *. clearbody s.
    destruct IH as [IW IP IV IM IO].
    unfold ring_step. rewrite IP, IV. cbn [last push removelast].
    destruct (r_go i) eqn:G; cbn [andb].
    2:{ split; cbn [rs_waddr rs_prev rs_valid rs_mem]; unfold before; rewrite ?occupied_app, ?passed_app, ?G; cbn [andb]; rewrite ?app_nil_r; try assumption; reflexivity. }
    assert (PV : (if occupied l then [rs_waddr s] else [Z.of_nat (length (kept (before l))) mod len]) = [Z.of_nat (length (kept (passed l))) mod len]).
    { rewrite IW. unfold before. destruct (occupied l); reflexivity. }
    destruct (r_valid i) eqn:V; cbn [andb].
    2:{ split; cbn [rs_waddr rs_prev rs_valid rs_mem]; unfold before; rewrite ?occupied_app, ?passed_app, ?G, ?V; cbn [andb]; rewrite ?app_nil_r; try assumption; try reflexivity. discriminate. }
    assert (BE : before (l ++ [i]) = passed l).
    { unfold before. rewrite occupied_app, passed_app, G, V. cbn [andb]. rewrite removelast_last. reflexivity. }
    split; cbn [rs_waddr rs_prev rs_valid rs_mem]; rewrite ?BE; rewrite ?occupied_app, ?passed_app, ?G, ?V; cbn [andb]; rewrite ?kept_app; try assumption; try reflexivity.
    + destruct (r_wen i) eqn:W; cbn [kept filter snd map fst]; rewrite ?app_nil_r; [|exact IW].
      rewrite app_length, IW. apply mod_next, H.
    + destruct (r_wen i) eqn:W; cbn [kept filter snd map fst]; rewrite ?app_nil_r; [|exact IM].
      set (K := kept (passed l)) in *. intros m Hm Hl. rewrite app_length in *. cbn [length] in *.
      unfold upd. rewrite IW. fold K. destruct (Nat.eq_dec m (length K)) as [->|N].
      * rewrite Z.eqb_refl, app_nth2, Nat.sub_diag by lia. reflexivity.
      * rewrite app_nth1 by lia. destruct (Z.eqb_spec (Z.of_nat m mod len) (Z.of_nat (length K) mod len)) as [E|E].
        -- exfalso. apply (f_equal (fun x => x)) in E.
           assert (D : (Z.of_nat (length K) - Z.of_nat m) mod len = 0) by (rewrite Zminus_mod, E, Z.sub_diag; apply Z.mod_0_l; lia).
           rewrite Z.mod_small in D by lia. lia.
        -- apply IM; lia.
    + intros _ E. apply app_eq_nil in E. destruct E; discriminate.
Qed.
Lemma ring_read len mem l i z m : 2 <= len -> offset_ok len (r_off i) z -> occupied l = true -> r_go i = true -> r_ren i = true ->
  (m < length (kept (passed l)))%nat -> Z.of_nat (length (kept (passed l))) - Z.of_nat m <= len ->
  (exists q, Z.of_nat m = Z.of_nat (length (kept (removelast (passed l)))) + z + q * len) ->
  rs_rdata (ring_run len 1 mem (l ++ [i])) = nth m (kept (passed l)) 0.
Proof.
  intros H O C G R M1 M2 (q & E). unfold ring_run. rewrite fold_left_app. cbn [fold_left]. fold (ring_run len 1 mem l).
  destruct (ring_inv len mem l H) as [IW IP IV IM IO]. unfold ring_step. cbn [rs_rdata]. rewrite IP, IV, G, R, C. cbn [last andb].
  unfold before. rewrite C. rewrite (raddr_ok len _ _ z O) by (apply Z.mod_pos_bound; lia).
  rewrite Z.add_mod_idemp_l by lia. rewrite <- (IM m M1 M2). f_equal. rewrite E. symmetry. apply Z.mod_add. lia.
Qed.

(** * line buffer *)
Lemma map2_length {X Y T} (f : X -> Y -> T) l : forall m, length l = length m -> length (map2 f l m) = length m.
Proof. induction l as [|x l IH]; intros [|y m] E; cbn in *; try congruence; try lia. f_equal. apply IH. lia. Qed.
Lemma map2_nth {X Y T} (f : X -> Y -> T) dx dy dt l : forall m j, length l = length m -> (j < length m)%nat -> nth j (map2 f l m) dt = f (nth j l dx) (nth j m dy).
Proof. induction l as [|x l IH]; intros [|y m] [|j] E H; cbn in *; try lia; try reflexivity. apply IH; lia. Qed.
Lemma last_nth (l : list Z) : last l 0 = nth (length l - 1) l 0.
Proof.
  destruct l as [|x l]; [reflexivity|]. destruct (exists_last (l := x :: l)) as (l' & y & E); [discriminate|]. rewrite E, last_last, app_length. cbn [length].
  rewrite app_nth2 by lia. replace (length l' + 1 - 1 - length l')%nat with O by lia. reflexivity.
Qed.
Lemma removelast_nth (l : list Z) n : (n < length l - 1)%nat -> nth n (removelast l) 0 = nth n l 0.
Proof.
  intros H. destruct l as [|x l]; [reflexivity|]. destruct (exists_last (l := x :: l)) as (l' & y & E); [discriminate|]. rewrite E in *.
  rewrite removelast_last. rewrite app_length in H. cbn in H. rewrite app_nth1 by lia. reflexivity.
Qed.
Lemma removelast_length {X} (l : list X) : length (removelast l) = (length l - 1)%nat.
Proof.
  destruct l as [|x l]; [reflexivity|]. destruct (exists_last (l := x :: l)) as (l' & y & E); [discriminate|]. rewrite E, removelast_last, app_length. cbn. lia.
Qed.
Lemma enter_length x l : l <> [] -> length (enter x l) = length l.
Proof. intros N. unfold enter. cbn [length]. rewrite removelast_length. destruct l; [congruence|cbn; lia]. Qed.

Section LineP.
  Variables (A B : nat) (m : nat) (w : Z) (sg hasrot : bool).
  Hypothesis HA : (1 <= A)%nat.
  Hypothesis HB : (1 <= B)%nat.
  Hypothesis Hm : (3 <= m)%nat.
  Let M := Z.of_nat m.
  Hypothesis Hw : forall x, 0 <= x < M -> value w sg x = x.
  Let N := (A + m - 1)%nat.
  (** shape of the rows, and the value entering row j *)
  Definition shaped (R : list (list Z)) : Prop := length R = B /\ forall j, (j < B)%nat -> length (nth j R []) = N.
  Definition entering (R : list (list Z)) (i : lin) (j : nat) : Z :=
    if hasrot && l_rot i then last (nth j R []) 0 else if (j =? B - 1)%nat then l_data i else last (nth (S j) R []) 0.
  Lemma perform_some R i j : shaped R -> (l_shift i || (hasrot && l_rot i)) = true -> (j < B)%nat ->
    nth j (perform hasrot R i) [] = enter (entering R i j) (nth j R []).
  Proof.
    intros [LR LN] E Hj. unfold perform, entering. destruct (hasrot && l_rot i) eqn:ER.
    - unfold rotate_rows. rewrite (nth_indep _ [] (enter (last [] 0) [])) by (rewrite map_length; lia).
      rewrite (map_nth (fun r => enter (last r 0) r)). reflexivity.
    - rewrite orb_false_r in E. rewrite E. unfold shift_rows.
      assert (LT : length (map (fun r => last r 0) (tl R) ++ [l_data i]) = length R).
      { rewrite app_length, map_length. destruct R; cbn in *; lia. }
      rewrite (map2_nth enter 0 []) by lia. f_equal.
      destruct (Nat.eqb_spec j (B - 1)) as [->|Nj].
      + rewrite app_nth2; rewrite map_length; destruct R; cbn [tl length] in *; try lia.
        replace (B - 1 - length R)%nat with O by lia. reflexivity.
      + rewrite app_nth1 by (rewrite map_length; destruct R; cbn [tl length] in *; lia).
        rewrite (nth_indep _ 0 (last [] 0)) by (rewrite map_length; destruct R; cbn [tl length] in *; lia).
        rewrite (map_nth (fun r => last r 0)). destruct R; [cbn in *; lia|]. reflexivity.
  Qed.
  Lemma perform_none R i : (l_shift i || (hasrot && l_rot i)) = false -> perform hasrot R i = R.
  Proof. intros E. apply orb_false_iff in E. destruct E as [E1 E2]. unfold perform. rewrite E1, E2. reflexivity. Qed.
  Lemma row_nonempty R j : shaped R -> (j < B)%nat -> nth j R [] <> [].
  Proof. intros [_ LN] Hj E. specialize (LN j Hj). rewrite E in LN. unfold N in LN. cbn in LN. lia. Qed.
  Lemma perform_shaped R i : shaped R -> shaped (perform hasrot R i).
  Proof.
    intros S0. destruct (l_shift i || (hasrot && l_rot i)) eqn:E; [|rewrite perform_none by exact E; exact S0].
    split.
    - destruct S0 as [LR LN]. unfold perform, rotate_rows, shift_rows. destruct (hasrot && l_rot i); [rewrite map_length; exact LR|].
      destruct (l_shift i); [|exact LR]. rewrite map2_length; [exact LR|]. rewrite app_length, map_length. destruct R; cbn in *; lia.
    - intros j Hj. rewrite perform_some by assumption. rewrite enter_length by (apply row_nonempty; assumption). apply S0, Hj.
  Qed.
  Lemma enter_nth x l n : (n < length l)%nat -> nth n (enter x l) 0 = match n with O => x | S n => nth n l 0 end.
  Proof. intros H. unfold enter. destruct n; [reflexivity|]. cbn [nth]. apply removelast_nth. lia. Qed.

  (** [c] events performed, [p] is the pending one *)
  Record LInv (s : lst) (R : list (list Z)) (p : lin) (c : Z) : Prop := {
    li_shape : shaped R;
    li_c : 0 <= c;
    li_win : forall i j, (i < A)%nat -> (j < B)%nat -> ls_win s i j = window A R i j;
    li_ps : ls_pshift s = l_shift p;
    li_pr : ls_prot s = l_rot p;
    li_pd : ls_pdata s = l_data p;
    li_head : ls_head s = (if l_shift p || (hasrot && l_rot p) then c + 1 else c) mod M;
    li_tail : ls_tail s = ((if l_shift p || (hasrot && l_rot p) then c + 1 else c) + M - 1) mod M;
    li_ptail : (l_shift p || (hasrot && l_rot p)) = true -> ls_ptail s = (c + M - 1) mod M;
    li_mem : forall j k, (j < B)%nat -> (k < m - 1)%nat -> ls_mem s j ((c + M - 2 - Z.of_nat k) mod M) = nth (A + k) (nth j R []) 0;
    li_rd : (l_shift p || (hasrot && l_rot p)) = true -> forall j, (j < B)%nat -> ls_rd s j = last (nth j R []) 0
  }.
  Lemma addr_small x : 0 <= x < M -> x mod 2 ^ addr_width M = x.
  Proof.
    intros H. apply Z.mod_small. split; [lia|]. eapply Z.lt_le_trans; [apply H|].
    apply (proj2 (addr_width_ok M ltac:(unfold M in *; lia))).
  Qed.
  Lemma line_next_ok c : line_next M w sg (c mod M) = (c + 1) mod M.
  Proof.
    assert (M3 : 3 <= M) by (unfold M; lia). unfold line_next. pose proof (Z.mod_pos_bound c M ltac:(lia)) as Bd.
    rewrite <- (Z.add_mod_idemp_l c) by lia. set (x := c mod M) in *. clearbody x.
    destruct (Z.eqb_spec x (M - 1)) as [->|Ne].
    - rewrite Hw by lia. replace (M - 1 + 1) with (0 + 1 * M) by lia. rewrite Z.mod_add by lia. symmetry. apply Z.mod_0_l. lia.
    - rewrite Hw by lia. symmetry. apply Z.mod_small. lia.
  Qed.
  Lemma mod_ne x y : 0 < x - y < M -> x mod M <> y mod M.
  Proof.
    intros H E. assert (D : (x - y) mod M = 0) by (rewrite Zminus_mod, E, Z.sub_diag; apply Z.mod_0_l; lia).
    rewrite Z.mod_small in D by lia. lia.
  Qed.
  Lemma line_inv_step s R p c i : LInv s R p c ->
    if l_go i then exists c', LInv (line_step A B M w sg hasrot s i) (perform hasrot R p) i c'
    else LInv (line_step A B M w sg hasrot s i) R p c.
  Proof.
    intros [S0 C0 IW IPS IPR IPD IH IT IPT IM IR].
    assert (M3 : 3 <= M) by (unfold M; lia).
    unfold line_step. cbv zeta. rewrite IPS, IPR. set (d := l_shift p || (hasrot && l_rot p)) in *.
    (* memory after the (ungated) write *)
    assert (MW : forall j k, (j < B)%nat -> (k < m - 1)%nat ->
       (if d then upd (ls_mem s j) (ls_ptail s mod 2 ^ addr_width M) (ls_win s 0%nat j) else ls_mem s j) ((c + M - 2 - Z.of_nat k) mod M)
       = nth (A + k) (nth j R []) 0).
    { intros j k Hj Hk. destruct d eqn:D; [|apply IM; assumption]. rewrite (IPT eq_refl).
      rewrite addr_small by (apply Z.mod_pos_bound; lia). unfold upd.
      destruct (Z.eqb_spec ((c + M - 2 - Z.of_nat k) mod M) ((c + M - 1) mod M)) as [E|E]; [|apply IM; assumption].
      exfalso. symmetry in E. revert E. apply mod_ne. unfold M in *. lia. }
    destruct (l_go i) eqn:G; cbn [andb].
    2:{ split; cbn [ls_win ls_pshift ls_prot ls_pdata ls_head ls_tail ls_ptail ls_mem ls_rd]; try assumption; reflexivity. }
    pose proof (perform_shaped R p S0) as S1.
    assert (NP : forall j n, (j < B)%nat -> (n < A + m - 1)%nat -> (n < length (nth j R []))%nat).
    { intros j n Hj Hn. rewrite (proj2 S0 j Hj). exact Hn. }
    assert (MM : M = Z.of_nat m) by reflexivity. clearbody M.
    pose proof (fun n => Z.mod_pos_bound n M ltac:(clear - M3; lia)) as MP.
    assert (EX : forall c', c' = (if d then c + 1 else c) -> LInv (mkLSt
      (if d then line_in A B hasrot s else ls_win s)
      (if l_shift i || (hasrot && l_rot i) then line_next M w sg (ls_head s) else ls_head s)
      (if l_shift i || (hasrot && l_rot i) then line_next M w sg (ls_tail s) else ls_tail s)
      (ls_tail s) (l_shift i) (l_rot i) (l_data i)
      (fun j => if d then upd (ls_mem s j) (ls_ptail s mod 2 ^ addr_width M) (ls_win s 0%nat j) else ls_mem s j)
      (fun j => ls_mem s j (ls_head s mod 2 ^ addr_width M))) (perform hasrot R p) i c').
    2:{ eexists. apply EX. reflexivity. }
    intros c' EC. assert (DE : l_shift p || (hasrot && l_rot p) = d) by reflexivity. clearbody d.
    split; cbn [ls_win ls_pshift ls_prot ls_pdata ls_head ls_tail ls_ptail ls_mem ls_rd]; try assumption; try reflexivity.
    - destruct d; clear - C0 EC; lia.
    - intros x j Hx Hj. destruct d.
      + unfold window. rewrite perform_some by assumption.
        rewrite enter_nth by (apply NP; [assumption|clear - HA Hm Hx; lia]).
        unfold line_in. destruct (Nat.eqb_spec x (A - 1)) as [->|Nx].
        * replace (A - 1 - (A - 1))%nat with O by (clear; lia). unfold entering. rewrite IPR, IPD.
          destruct (hasrot && l_rot p); [apply (IR eq_refl); assumption|].
          destruct (Nat.eqb_spec j (B - 1)); [reflexivity|]. apply (IR eq_refl). clear - Hj n; lia.
        * replace (A - 1 - x)%nat with (S (A - 1 - S x))%nat by (clear - Hx Nx; lia). apply (IW (S x) j); [clear - Hx Nx; lia|exact Hj].
      + rewrite perform_none by assumption. apply IW; assumption.
    - rewrite IH, <- EC. rewrite line_next_ok. destruct (l_shift i || (hasrot && l_rot i)); reflexivity.
    - rewrite IT, <- EC. rewrite line_next_ok. destruct (l_shift i || (hasrot && l_rot i)); f_equal. clear; lia.
    - intros _. rewrite IT, <- EC. reflexivity.
    - intros j k Hj Hk. destruct d.
      + rewrite perform_some by assumption. rewrite enter_nth by (apply NP; [assumption|clear - HA Hm Hk; lia]).
        destruct (A + k)%nat as [|q] eqn:Q; [clear - Q HA; lia|]. destruct k as [|k].
        * rewrite (IPT eq_refl), addr_small by apply MP. unfold upd.
          replace (c' + M - 2 - Z.of_nat 0) with (c + M - 1) by (clear - EC; lia). rewrite Z.eqb_refl.
          rewrite (IW O j) by assumption. unfold window. f_equal. clear - Q; lia.
        * replace (c' + M - 2 - Z.of_nat (S k)) with (c + M - 2 - Z.of_nat k) by (clear - EC; lia).
          rewrite MW by (assumption || (clear - Hk; lia)). f_equal. clear - Q; lia.
      + rewrite perform_none by assumption. rewrite EC. apply MW; assumption.
    - intros _ j Hj. rewrite IH, addr_small by apply MP. rewrite last_nth, (proj2 S1 j Hj). rewrite <- EC.
      destruct d.
      + rewrite perform_some by assumption. rewrite enter_nth by (rewrite (proj2 S0 j Hj); unfold N; clear - HA Hm; lia).
        destruct (N - 1)%nat as [|q] eqn:Q; [unfold N in Q; clear - HA Hm Q; lia|].
        replace q with (A + (m - 3))%nat by (unfold N in Q; clear - HA Hm Q; lia). rewrite <- IM by (assumption || (clear - Hm; lia)). f_equal. f_equal. clear - EC MM Hm. lia.
      + rewrite perform_none by assumption. replace (N - 1)%nat with (A + (m - 2))%nat by (unfold N; clear - HA Hm; lia). rewrite <- IM by (assumption || (clear - Hm; lia)). f_equal.
        rewrite EC. f_equal. clear - MM Hm. lia.
  Qed.
  Lemma seq_nth_Z (f : Z -> Z) k : (k < m - 1)%nat -> nth k (map (fun a => f (Z.of_nat a)) (rev (seq 0 (m - 1)))) 0 = f (Z.of_nat (m - 2 - k)).
  Proof.
    intros H. rewrite (nth_indep _ 0 (f (Z.of_nat 0))) by (rewrite map_length, rev_length, seq_length; exact H).
    rewrite (map_nth (fun a => f (Z.of_nat a))). rewrite rev_nth by (rewrite seq_length; exact H). rewrite seq_length, seq_nth by lia.
    f_equal. f_equal. lia.
  Qed.
  Lemma first_shaped mem : shaped (first_rows A B m mem).
  Proof.
    unfold first_rows. split; [rewrite map_length, seq_length; reflexivity|]. intros j Hj.
    match goal with |- length (nth j (map ?f _) _) = _ => rewrite (nth_indep _ [] (f O)) by (rewrite map_length, seq_length; exact Hj); rewrite (map_nth f) end.
    rewrite app_length, repeat_length, map_length, rev_length, seq_length. unfold N. lia.
  Qed.
  Lemma first_row mem j : (j < B)%nat -> nth j (first_rows A B m mem) [] = repeat 0 A ++ map (fun a => mem j (Z.of_nat a)) (rev (seq 0 (m - 1))).
  Proof.
    intros Hj. unfold first_rows.
    match goal with |- nth j (map ?f _) _ = _ => rewrite (nth_indep _ [] (f O)) by (rewrite map_length, seq_length; exact Hj); rewrite (map_nth f) end.
    rewrite seq_nth by exact Hj. reflexivity.
  Qed.
  Lemma nth_repeat0 n k : nth k (repeat 0 n) 0 = 0.
  Proof. revert k. induction n as [|n IH]; intros [|k]; cbn; auto. Qed.
  Lemma line_inv_init mem : LInv (line_init w sg 0 (M - 1) mem) (first_rows A B m mem) no_event 0.
  Proof.
    assert (M3 : 3 <= M) by (unfold M; lia).
    split; cbn [line_init ls_win ls_pshift ls_prot ls_pdata ls_head ls_tail ls_ptail ls_mem ls_rd no_event l_shift l_rot l_data orb andb]; rewrite ?andb_false_r; try reflexivity; try discriminate.
    - apply first_shaped.
    - intros i j Hi Hj. unfold window. rewrite first_row by exact Hj. rewrite app_nth1 by (rewrite repeat_length; lia). rewrite nth_repeat0. reflexivity.
    - rewrite Hw by lia. symmetry. apply Z.mod_0_l. lia.
    - rewrite Hw by lia. symmetry. apply Z.mod_small. lia.
    - intros j k Hj Hk. rewrite first_row by exact Hj. rewrite app_nth2 by (rewrite repeat_length; lia). rewrite repeat_length.
      replace (A + k - A)%nat with k by lia. rewrite (seq_nth_Z (mem j)) by exact Hk. f_equal. rewrite Z.mod_small; unfold M in *; lia.
  Qed.
  Definition line_run (mem : nat -> Z -> Z) (l : list lin) : lst := fold_left (line_step A B M w sg hasrot) l (line_init w sg 0 (M - 1) mem).
  Lemma goes_app l i : goes (l ++ [i]) = goes l ++ (if l_go i then [i] else []).
  Proof. unfold goes. rewrite filter_app. cbn. destruct (l_go i); reflexivity. Qed.
  Lemma line_inv mem l : exists c, LInv (line_run mem l) (fold_left (perform hasrot) (performed l) (first_rows A B m mem)) (last (goes l) no_event) c.
  Proof.
    unfold line_run, performed. induction l as [|i l IH] using rev_ind; [exists 0; apply line_inv_init|].
    destruct IH as [c IH]. rewrite fold_left_app. cbn [fold_left]. apply (line_inv_step _ _ _ _ i) in IH. rewrite goes_app.
    destruct (l_go i); [|rewrite app_nil_r; exists c; exact IH].
    rewrite last_last, removelast_last. destruct IH as [c' IH]. exists c'.
    destruct (goes l) as [|g gs] eqn:G; [cbn in IH |- *; unfold perform in IH; cbn in IH; rewrite andb_false_r in IH; exact IH|].
    assert (E : g :: gs = removelast (g :: gs) ++ [last (g :: gs) no_event]) by (apply app_removelast_last; discriminate).
    replace (fold_left (perform hasrot) (g :: gs) (first_rows A B m mem)) with (perform hasrot (fold_left (perform hasrot) (removelast (g :: gs)) (first_rows A B m mem)) (last (g :: gs) no_event)); [exact IH|].
    rewrite E at 3. rewrite fold_left_app. reflexivity.
  Qed.
  Lemma line_window mem l i j : (i < A)%nat -> (j < B)%nat ->
    ls_win (line_run mem l) i j = window A (fold_left (perform hasrot) (performed l) (first_rows A B m mem)) i j.
  Proof. intros Hi Hj. destruct (line_inv mem l) as [c I]. apply (li_win _ _ _ _ I); assumption. Qed.

  (** without rotation the rows form one long delay line *)
  Definition flat (R : list (list Z)) : list Z := concat (rev R).
  Lemma flat_cons r R : flat (r :: R) = flat R ++ r.
  Proof. unfold flat. cbn. rewrite concat_app. cbn. rewrite app_nil_r. reflexivity. Qed.
  Lemma removelast_app2 (a b : list Z) : b <> [] -> removelast (a ++ b) = a ++ removelast b.
  Proof. intros Nb. apply removelast_app. exact Nb. Qed.
  Lemma last_app2 (a b : list Z) : b <> [] -> last (a ++ b) 0 = last b 0.
  Proof.
    intros Nb. destruct (exists_last (l := b) Nb) as (b' & y & ->). rewrite app_assoc, !last_last. reflexivity.
  Qed.
  Lemma flat_shift x R : R <> [] -> Forall (fun r => r <> []) R -> flat (shift_rows x R) = enter x (flat R) /\ flat R <> [] /\ last (flat R) 0 = last (hd [] R) 0.
  Proof.
    induction R as [|r R IH]; intros Ne F; [congruence|]. inversion F as [|? ? Nr F']; subst.
    destruct R as [|r2 R].
    - unfold shift_rows, flat. cbn. rewrite !app_nil_r. repeat split; exact Nr || reflexivity.
    - destruct (IH ltac:(discriminate) F') as (E & NF & LF). cbn [hd] in *.
      assert (ES : shift_rows x (r :: r2 :: R) = enter (last r2 0) r :: shift_rows x (r2 :: R)) by reflexivity.
      rewrite ES, !flat_cons, E. rewrite flat_cons in NF, LF. repeat split.
      + rewrite <- LF. unfold enter. cbn [app]. f_equal. rewrite removelast_app2 by exact Nr.
        rewrite <- flat_cons in *. rewrite (app_removelast_last 0 NF) at 3. rewrite <- app_assoc. reflexivity.
      + intros Q. apply app_eq_nil in Q. destruct Q; contradiction.
      + rewrite last_app2 by exact Nr. reflexivity.
  Qed.
  Lemma flat_length R : (forall j, (j < length R)%nat -> length (nth j R []) = N) -> length (flat R) = (length R * N)%nat.
  Proof.
    intros LN. assert (G : forall R', (forall r, In r R' -> length r = N) -> length (flat R') = (length R' * N)%nat).
    { induction R' as [|a R' IH']; intros H; [reflexivity|]. rewrite flat_cons, app_length, IH', (H a) by (cbn in *; auto). cbn. lia. }
    apply G. intros a Ia. apply (In_nth _ _ []) in Ia. destruct Ia as (k & Hk & <-). apply LN, Hk.
  Qed.
  Lemma flat_shaped R : shaped R -> length (flat R) = (B * N)%nat.
  Proof. intros [L1 L2]. rewrite flat_length by (rewrite L1; exact L2). rewrite L1. reflexivity. Qed.
  Lemma flat_nth_gen R : (forall j, (j < length R)%nat -> length (nth j R []) = N) ->
    forall j n, (j < length R)%nat -> (n < N)%nat -> nth ((length R - 1 - j) * N + n) (flat R) 0 = nth n (nth j R []) 0.
  Proof.
    induction R as [|r R IH]; intros LN j n Hj Hn; [cbn in Hj; lia|].
    assert (LF : length (flat R) = (length R * N)%nat) by (apply flat_length; intros k Hk; apply (LN (S k)); cbn; lia).
    rewrite flat_cons. cbn [length] in *. destruct j as [|j].
    - rewrite app_nth2 by (rewrite LF; nia). rewrite LF. f_equal. nia.
    - rewrite app_nth1.
      + cbn [nth]. rewrite <- IH by (try lia; intros q Hq; apply (LN (S q)); lia). f_equal. f_equal. f_equal. lia.
      + rewrite LF. assert ((S (length R) - 1 - S j) * N + N <= length R * N)%nat; [|lia].
        replace ((S (length R) - 1 - S j) * N + N)%nat with ((length R - 1 - j + 1) * N)%nat by (replace (S (length R) - 1 - S j)%nat with (length R - 1 - j)%nat by lia; lia).
        apply Nat.mul_le_mono_r. lia.
  Qed.
  Lemma flat_nth R : shaped R -> forall j n, (j < B)%nat -> (n < N)%nat -> nth ((B - 1 - j) * N + n) (flat R) 0 = nth n (nth j R []) 0.
  Proof. intros [LR LN] j n Hj Hn. rewrite <- LR. apply flat_nth_gen; try (rewrite LR); assumption. Qed.
  Lemma flat_run R l : shaped R -> Forall (fun i => (hasrot && l_rot i) = false) l ->
    shaped (fold_left (perform hasrot) l R) /\
    forall n, (n < length (shifted l))%nat -> (n < length (flat R))%nat -> nth n (flat (fold_left (perform hasrot) l R)) 0 = nth n (shifted l) 0.
  Proof.
    intros S0. induction l as [|i l IH] using rev_ind; intros F; [split; [exact S0|cbn; lia]|].
    apply Forall_app in F. destruct F as [F1 F2]. inversion F2 as [|? ? Fi _]; subst. destruct (IH F1) as [SH IN]. clear IH.
    rewrite fold_left_app. cbn [fold_left]. set (R' := fold_left (perform hasrot) l R) in *.
    split; [apply perform_shaped, SH|]. unfold shifted. rewrite filter_app, map_app, rev_app_distr. fold (shifted l). cbn [filter].
    unfold perform. rewrite Fi. destruct (l_shift i) eqn:E; cbn [map rev app]; [|exact IN].
    intros n Hn HR. assert (NE : R' <> []) by (destruct SH as [Q _]; destruct R'; [cbn in Q; lia|discriminate]).
    assert (FN : Forall (fun r => r <> []) R').
    { apply Forall_forall. intros r Ir. apply (In_nth _ _ []) in Ir. destruct Ir as (k & Hk & <-). apply row_nonempty; [exact SH|]. rewrite <- (proj1 SH). exact Hk. }
    destruct (flat_shift (l_data i) R' NE FN) as (-> & NF & _).
    assert (LF : length (flat R') = length (flat R)).
    { rewrite !flat_shaped by assumption. reflexivity. }
    rewrite enter_nth by lia. destruct n as [|n]; [reflexivity|]. cbn [nth]. apply IN; [cbn in Hn; lia|lia].
  Qed.
  Lemma line_delay mem l i j : (i < A)%nat -> (j < B)%nat -> Forall (fun i => (hasrot && l_rot i) = false) l ->
    let k := ((B - 1 - j) * (A + m - 1) + (A - 1 - i))%nat in
    (k < length (shifted (performed l)))%nat ->
    ls_win (line_run mem l) i j = nth k (shifted (performed l)) 0.
  Proof.
    intros Hi Hj F k Hk. rewrite line_window by assumption.
    assert (F' : Forall (fun i => (hasrot && l_rot i) = false) (performed l)).
    { apply Forall_forall. intros x Ix. rewrite Forall_forall in F. apply F. unfold performed in Ix.
      assert (G : forall q : list lin, In x (removelast q) -> In x q).
      { intros q. destruct q as [|a q]; [auto|]. intros H. rewrite (app_removelast_last no_event (l := a :: q)) by discriminate. apply in_or_app. left. exact H. }
      apply G in Ix. unfold goes in Ix. apply filter_In in Ix. apply Ix. }
    destruct (flat_run (first_rows A B m mem) (performed l) (first_shaped mem) F') as [SH FN].
    unfold window. rewrite <- (flat_nth _ SH j (A - 1 - i)) by (assumption || (unfold N; lia)). apply FN; [exact Hk|].
    pose proof (flat_shaped _ (first_shaped mem)) as G.
    rewrite G. assert ((B - 1 - j) * N + N <= B * N)%nat; [|unfold N in *; lia].
    replace ((B - 1 - j) * N + N)%nat with ((B - j) * N)%nat by (replace (B - j)%nat with (S (B - 1 - j)) by lia; cbn; lia).
    apply Nat.mul_le_mono_r. lia.
  Qed.
End LineP.
