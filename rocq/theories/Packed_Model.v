(** Packed bursts of a multibank RAM: one element of every bank side by side in a wide word; and the
    conversion of a number of elements into a number of wide words by the packed DMA calls.
    Modelled code: [thread/ram.py:685-750] (read_burst_packed), [833-885] (write_burst_packed),
    [thread/axim.py:588-618,636-668] (_dma_read_packed, _dma_write_packed, up to the call of the DMA).

    Simplifications: the banks are plain RAMs and are not written during a read burst; the DMA that moves the
    wide words is the subject of other properties. [n] is the number of banks, [aw] the address width of the
    multibank RAM, [lw] the width of the length argument, [dw] the width of an element. *)
From Verif Require Import Base Ram_Model.
Open Scope Z_scope.

(** [ram.shift], the logarithm of the number of banks rounded up [thread/ram.py:405; types/util.py:47-49] *)
Definition shift_of (n : nat) : Z := Z.log2_up (Z.of_nat n).

(** ** Writing *)
Record pwrite := mkPW { pw_run : bool; pw_addr : Z; pw_stride : Z; pw_length : Z; pw_done : bool;
                        pw_banks : nat -> Z -> Z }.
(** one clock cycle *)
Definition pw_step (n : nat) (aw lw dw : Z) (s : pwrite) (i : wb_in) : pwrite :=
  let banks' := fun b =>                                                     (* [858-868] *)
    if pw_run s && wbi_valid i && (b <? n)%nat
    then upd (pw_banks s b) (Z.shiftr (pw_addr s) (shift_of n)) (Z.shiftr (wbi_data i) (dw * Z.of_nat b) mod 2 ^ dw)
    else pw_banks s b in
  if negb (pw_run s) then                                                    (* [850-856] *)
    mkPW (wbi_cond i && (0 <? wbi_length i))
         (wbi_addr i mod 2 ^ aw) (wbi_stride i mod 2 ^ aw) (wbi_length i mod 2 ^ lw) false banks'
  else
    let v := wbi_valid i in
    let '(a1, l1, d1) := if v then ((pw_addr s + pw_stride s) mod 2 ^ aw, (pw_length s - 1) mod 2 ^ lw, false)
                         else (pw_addr s, pw_length s, pw_done s) in           (* [870-874] *)
    let d2 := if v && (pw_length s <=? 1) then true else d1 in                 (* [875-877] *)
    let d3 := if v && wbi_last i then true else d2 in                          (* [878-880] *)
    let r1 := if v && (pw_length s <=? 1) then false else true in              (* [881] *)
    let r2 := if v && wbi_last i then false else r1 in                         (* [882] *)
    let r3 := if wbi_quit i then false else r2 in                              (* [883] *)
    mkPW r3 a1 (pw_stride s) l1 d3 banks'.
(** wready [859] *)
Definition pw_ready (s : pwrite) : bool := pw_run s.

(** ** Reading *)
(** the words of all banks side by side, the first bank lowest [727-730] *)
Fixpoint pack (dw : Z) (banks : nat -> Z -> Z) (q : Z) (n : nat) : Z :=
  match n with
  | O => 0
  | S j => pack dw banks q j + (banks j q mod 2 ^ dw) * 2 ^ (dw * Z.of_nat j)
  end.
(** one clock cycle: the FSM is that of [read_burst] [692-711,732-749], only the word read differs [713-730] *)
Definition pr_step (n : nat) (aw lw dw : Z) (banks : nat -> Z -> Z) : rburst -> rb_in -> rburst :=
  rb_step aw lw (fun a => pack dw banks (Z.shiftr a (shift_of n)) n).

(** ** Number of wide words for [size] elements [axim.py:603-614,651-662] *)
Definition packed_size (n : nat) (size : Z) : Z :=
  let high := Z.shiftr size (shift_of n) in
  let low := Z.land size (Z.ones (shift_of n)) in
  if 0 <? low then high + 1 else high.
