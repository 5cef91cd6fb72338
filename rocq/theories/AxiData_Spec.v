(** What a DMA transfer must do to the data: word [j] of the other side, by index. *)
From Verif Require Import Base Ram_Model Ram_Spec AxiDma_Model AxiData_Model.
Open Scope Z_scope.

(** [w]-bit parts, least significant first. *)
Definition le (w : Z) (l : list Z) : Z := fold_right (fun b acc => b + 2 ^ w * acc) 0 l.
Definition part (w : Z) (x : Z) (j : nat) : Z := x / 2 ^ (w * Z.of_nat j) mod 2 ^ w.
Definition pack (r : ratio) : nat := match r with Same => 1 | Narrow lp | Wide lp => Z.to_nat (2 ^ lp) end.
(** [p] consecutive elements of [l] from index [j*p] *)
Definition group (p : nat) (l : list Z) (j : nat) : list Z := firstn p (skipn (j * p) l).

(** ** Bus to RAM: the [n] RAM words of a request whose bus words are [bs] *)
Definition ram_word (r : ratio) (w : Z) (bs : list Z) (j : nat) : Z :=
  match r with
  | Same => nth j bs 0
  | Narrow _ => le w (group (pack r) bs j)
  | Wide _ => part w (nth (j / pack r) bs 0) (j mod pack r)
  end.
Definition ram_words (r : ratio) (w : Z) (bs : list Z) (n : nat) : list Z := map (ram_word r w bs) (seq 0 n).
(** bus words a request of [n] RAM words consumes *)
Definition bus_words (r : ratio) (n : nat) : nat :=
  match r with Same => n | Narrow _ => n * pack r | Wide _ => (n + pack r - 1) / pack r end.

Definition rrequest := (Z * Z * Z)%type.
Definition legal_req (lw : Z) (q : rrequest) : Prop := 1 <= snd q < 2 ^ lw.
Definition nwords (q : rrequest) : nat := Z.to_nat (snd q).
Definition own_beats (r : ratio) (q : rrequest) (bs : list Z) : Prop := length bs = bus_words r (nwords q).
(** the RAM after requests [qs] with bus words [bss] *)
Definition image (r : ratio) (w aw : Z) (qs : list rrequest) (bss : list (list Z)) (m : Z -> Z) : Z -> Z :=
  fold_left (fun m x => store_words aw (fst (fst (fst x))) (snd (fst (fst x))) 0
                          (ram_words r w (snd x) (nwords (fst x))) m) (combine qs bss) m.

Section Run.
  Variables (r : ratio) (w aw lw : Z).
  Definition rd_run (s : rd) (ins : list rd_in) : rd := final (rd_step r w aw lw) s ins.
  Definition rd_beats (s : rd) (ins : list rd_in) : list Z := concat (outs (rd_step r w aw lw) (rd_beat r) s ins).
  Definition rd_requests (s : rd) (ins : list rd_in) : list rrequest :=
    concat (outs (rd_step r w aw lw) rd_taken s ins).
End Run.
Definition in_range (r : ratio) (w : Z) (i : rd_in) : Prop :=
  match r with Narrow _ => 0 <= xi_data i < 2 ^ w | _ => True end.
Definition rd_no_request (i : rd_in) : Prop := xi_req i = None.

(** ** RAM to bus *)
(** the bus word [j] of a request; RAM words beyond the request fill up the last one *)
Definition bus_word (r : ratio) (w aw : Z) (mem : Z -> Z) (a st : Z) (j : nat) : Z :=
  let word k := mem (burst_addr aw a st k) in
  match r with
  | Same => word j
  | Narrow _ => part w (word (j / pack r)%nat) (j mod pack r)
  | Wide _ => le w (map (fun t => word (j * pack r + t)%nat) (seq 0 (pack r)))
  end.
(** last flags: one at the end of every burst *)
Definition burst_flags (l : Z) : list bool := repeat false (Z.to_nat l - 1) ++ [true].
Record wjob := mkJob { j_addr : Z; j_stride : Z; j_n : Z; j_bursts : list Z }.
Definition job_ok (r : ratio) (lw : Z) (j : wjob) : Prop :=
  1 <= j_n j < 2 ^ lw /\ Z.of_nat (bus_words r (Z.to_nat (j_n j))) * Z.of_nat (match r with Wide _ => pack r | _ => 1 end) < 2 ^ lw /\
  Forall (fun l => 1 <= l) (j_bursts j) /\
  fold_right Z.add 0 (j_bursts j) = Z.of_nat (bus_words r (Z.to_nat (j_n j))).
Definition job_entries (j : wjob) : list wentry := WReq (j_addr j) (j_stride j) (j_n j) :: map WBurst (j_bursts j).
Definition job_beats (r : ratio) (w aw : Z) (mem : Z -> Z) (j : wjob) : list (Z * bool) :=
  combine (map (bus_word r w aw mem (j_addr j) (j_stride j)) (seq 0 (bus_words r (Z.to_nat (j_n j)))))
          (flat_map burst_flags (j_bursts j)).
Definition wr_beats (r : ratio) (w aw lw : Z) (mem : Z -> Z) (s : wr) (ins : list wr_in) : list (Z * bool) :=
  concat (outs (wr_step r w aw lw mem) (wr_beat r w) s ins).
Definition wr_good (i : wr_in) : bool := yi_avail i && yi_ready i.

(** cycles with a valid bus word that certainly suffice for the requests *)
Definition rd_cost (r : ratio) (qs : list rrequest) : Z :=
  fold_right (fun q c => snd q * (match r with Narrow _ => Z.of_nat (pack r) | _ => 1 end) + c) 2 qs.
(** cycles with a queue entry and a ready bus that certainly suffice for the jobs *)
Definition wr_cost (r : ratio) (jobs : list wjob) : Z :=
  fold_right (fun j c => 3 + Z.of_nat (length (j_bursts j))
    + Z.of_nat (bus_words r (Z.to_nat (j_n j))) * (match r with Wide _ => Z.of_nat (pack r) | _ => 1 end) + c) 0 jobs.
