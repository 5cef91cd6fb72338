(** Block bursts of a multibank RAM: one burst unit per bank, and an FSM that turns to the next bank after
    every block; and bursts that write the same words to all banks.
    Modelled code: [thread/ram.py:575-683] (read_burst_block), [752-831] (write_burst_block), [887-903]
    (write_burst_bcast).  The units of the banks are [rb_step] and [wb_step] of Ram_Model (a bank is a plain
    RAM, whose packed bursts are its bursts).

    Simplifications: as in Ram_Model the memory of a bank is not written during a read burst, and words
    are unbounded.  [n] is the number of banks, [aw] the address width of a bank, [lw] and [bw] the widths of
    the length and block size arguments. *)
From Verif Require Import Base Ram_Model.
Open Scope Z_scope.

(** ** Writing blocks *)
Record wblock := mkWK {
  wk_fsm : nat;                       (* 0 init, [S i] bank [i] *)
  wk_length : Z; wk_bsize : Z; wk_count : Z; wk_done : bool;
  wk_unit : nat -> wburst
}.
(** arguments of a cycle: those of a burst and the block size *)
Record wk_in := mkWKIn { wki : wb_in; wki_bsize : Z }.

(** what the unit of bank [i] is given [762-773,799-801] *)
Definition wk_sub (s : wblock) (x : wk_in) (i : nat) : wb_in :=
  let u := wki x in
  mkWBIn (wbi_cond u) (wbi_addr u) (wbi_stride u) (wbi_length u)
         (wbi_valid u && (wk_fsm s =? S i)%nat) (wbi_data u) (wbi_last u)
         (wbi_quit u || wbi_valid u && wbi_last u || wbi_valid u && (wk_length s <=? 1)).
(** one clock cycle *)
Definition wk_step (n : nat) (aw lw bw : Z) (s : wblock) (x : wk_in) : wblock :=
  let u := wki x in let v := wbi_valid u in
  let unit := fun i => wb_step aw lw (wk_unit s i) (wk_sub s x i) in
  if (wk_fsm s =? 0)%nat then                                              (* [785-792] *)
    mkWK (if wbi_cond u && (0 <? wbi_length u) then 1%nat else 0%nat)
         (wbi_length u mod 2 ^ lw) (wki_bsize x mod 2 ^ bw) 0 false unit
  else
    let full := wk_count s =? wk_bsize s - 1 in
    let len1 := if v then (wk_length s - 1) mod 2 ^ lw else wk_length s in         (* [803-807] *)
    let done1 := if v then false else wk_done s in
    let done2 := if v && (wk_length s <=? 1) then true else done1 in               (* [808-810] *)
    let done3 := if v && wbi_last u then true else done2 in                        (* [811-813] *)
    let count1 := if v then (wk_count s + 1) mod 2 ^ bw else wk_count s in
    let count2 := if v && full then 0 else count1 in                               (* [814-816] *)
    let f1 := if v && full then (if (wk_fsm s =? n)%nat then 1%nat else S (wk_fsm s)) else wk_fsm s in   (* [818-821] *)
    let f2 := if v && (wk_length s <=? 1) then 0%nat else f1 in                    (* [823] *)
    let f3 := if v && wbi_last u then 0%nat else f2 in                             (* [824] *)
    let f4 := if wbi_quit u then 0%nat else f3 in                                  (* [825] *)
    mkWK f4 len1 (wk_bsize s) count2 done3 unit.
(** the wready returned to the caller: collected after the index of the FSM was moved on [827-829] *)
Definition wk_ready (n : nat) (s : wblock) : bool :=
  existsb (fun i => (wk_fsm s =? S (S i))%nat) (seq 0 n).

(** ** Reading blocks *)
Record rblock := mkRK {
  rk_fsm : nat;
  rk_length : Z; rk_bsize : Z; rk_count : Z;
  rk_valid : bool; rk_last : bool;
  rk_sel : nat -> bool;               (* ram_sel of each bank *)
  rk_unit : nat -> rburst
}.
Record rk_in := mkRKIn { rki : rb_in; rki_bsize : Z }.
(** what the unit of bank [i] is given [587-603,639-640] *)
Definition rk_sub (s : rblock) (x : rk_in) (i : nat) : rb_in :=
  let u := rki x in
  mkRBIn (rbi_cond u) (rbi_addr u) (rbi_stride u) (rbi_length u)
         (rbi_rready u && (rk_fsm s =? S i)%nat)
         (rbi_rquit u || rk_valid s && rk_last s).
(** one clock cycle *)
Definition rk_step (n : nat) (aw lw bw : Z) (mem : nat -> Z -> Z) (s : rblock) (x : rk_in) : rblock :=
  let u := rki x in let rr := rbi_rready u in
  let unit := fun i => rb_step aw lw (mem i) (rk_unit s i) (rk_sub s x i) in
  if (rk_fsm s =? 0)%nat then                                              (* [616-629] *)
    mkRK (if rbi_cond u && (0 <? rbi_length u) then 1%nat else 0%nat)
         (rbi_length u mod 2 ^ lw) (rki_bsize x mod 2 ^ bw) 0 false false (fun _ => false) unit
  else
    let full := rk_count s =? rk_bsize s - 1 in
    let go := rr && (0 <? rk_length s) in
    let fin := rk_last s && rk_valid s && rr in
    let len1 := if go then (rk_length s - 1) mod 2 ^ lw else rk_length s in        (* [653-657] *)
    let count1 := if go then (rk_count s + 1) mod 2 ^ bw else rk_count s in
    let v1 := if go then true else rk_valid s in
    let l1 := if rr && (rk_length s <=? 1) then true else rk_last s in             (* [658-660] *)
    let '(v2, l2) := if fin then (false, false) else (v1, l1) in                   (* [661-664] *)
    let '(v3, l3) := if rbi_rquit u then (false, false) else (v2, l2) in           (* [665-668] *)
    let count2 := if rr && full then 0 else count1 in                              (* [669-671] *)
    let f1 := if rr && full then (if (rk_fsm s =? n)%nat then 1%nat else S (rk_fsm s)) else rk_fsm s in   (* [673-676] *)
    let f2 := if fin then 0%nat else f1 in                                         (* [678] *)
    let f3 := if rbi_rquit u then 0%nat else f2 in                                 (* [679] *)
    mkRK f3 len1 (rk_bsize s) count2 v3 l3
         (fun j => if rr then (rk_fsm s =? S j)%nat else rk_sel s j)               (* [643-651] *)
         unit.
(** the word: a mux over the banks, the last one outermost [642; types/util.py:67-89] *)
Definition rk_data (n : nat) (s : rblock) : Z :=
  fold_left (fun prev i => if rk_sel s i then rb_rdata (rk_unit s i) else prev) (seq 0 n) 0.
Definition rk_out (n : nat) (s : rblock) (_ : rk_in) : rb_obs := mkRBO (rk_valid s) (rk_last s) (rk_data n s).

(** ** Writing the same words to all banks [887-903] *)
Definition bcast_step (aw lw : Z) (us : nat -> wburst) (u : wb_in) : nat -> wburst :=
  fun i => wb_step aw lw (us i) u.
(** the wready returned is that of the first bank [903] *)
Definition bcast_ready (us : nat -> wburst) : bool := wb_ready (us 0%nat).
