(** What the DMA address phase must produce. *)
From Verif Require Import Base AxiDma_Model.
Open Scope Z_scope.

(** [covers bytes a n bs]: the bursts [bs] (address, number of beats of [bytes] bytes each), in
    order, cover exactly the [n] words from [a] on, with no gap and no overlap; every burst has
    1 to 256 beats, and its first and last byte lie in the same 4096-byte page. *)
Fixpoint covers (bytes a n : Z) (bs : list (Z * Z)) : Prop :=
  match bs with
  | [] => n = 0
  | (a', l) :: r =>
      a' = a /\ 1 <= l <= 256 /\ a / 4096 = (a + l * bytes - 1) / 4096 /\
      covers bytes (a + l * bytes) (n - l) r
  end.

(** Requests a DMA engine with [2^aw] bytes of address space and words of [bytes] bytes can be
    asked: at least one word, and the words from the one containing the address lie inside the
    address space. *)
Definition reasonable (aw bytes : Z) (r : Z * Z) : Prop :=
  0 <= fst r < 2 ^ aw /\ 1 <= snd r /\ (fst r / bytes) * bytes + snd r * bytes <= 2 ^ aw.

(** The bursts wanted for a request: the address is rounded down to a word. *)
Definition wanted_bursts (bytes : Z) (r : Z * Z) (bs : list (Z * Z)) : Prop :=
  covers bytes ((fst r / bytes) * bytes) (snd r) bs.

Section Run.
  Variables (write : bool) (aw s : Z).
  Definition rq_run (q : rq) (ins : list rq_in) : rq := final (rq_step write aw s) q ins.
  (** bursts handed to the bus, and requests taken from the thread, in order *)
  Definition bursts (q : rq) (ins : list rq_in) : list (Z * Z) :=
    concat (outs (rq_step write aw s) rq_burst q ins).
  Definition taken (q : rq) (ins : list rq_in) : list (Z * Z) :=
    concat (outs (rq_step write aw s) rq_taken q ins).
  (** burst sizes put into the write queue *)
  Definition queued (q : rq) (ins : list rq_in) : list Z :=
    flat_map (fun x => match x with Some z => [z] | None => [] end)
             (concat (outs (rq_step write aw s) (rq_enq write) q ins)).
End Run.

(** A cycle in which nothing outside holds the engine up. *)
Definition good (i : rq_in) : bool := i_ready i && negb (i_full i) && i_acc i.
Definition no_request (i : rq_in) : Prop := i_req i = None.
Definition words (rs : list (Z * Z)) : Z := fold_right (fun r n => snd r + n) 0 rs.

(** A slave's write responses: in no cycle more responses than addresses taken before. *)
Fixpoint answers_only_requests (pending : Z) (h : list (bool * bool)) : Prop :=
  match h with
  | [] => True
  | (a, b) :: r => (b = true -> 0 < pending) /\ answers_only_requests (pending + b2z a - b2z b) r
  end.
Definition count (l : list bool) : Z := fold_right (fun b n => b2z b + n) 0 l.

(** A request word's fields fit their widths. *)
Definition fits (ow aw : Z) (d : dreq) : Prop :=
  0 <= d_op d < 2 ^ ow /\ 0 <= d_addr d < 2 ^ aw /\ 0 <= d_stride d < 2 ^ aw /\
  0 <= d_size d < 2 ^ (aw + 1) /\ 0 <= d_block d < 2 ^ aw.
