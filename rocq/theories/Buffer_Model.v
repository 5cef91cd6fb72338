(** RingBuffer and LineBuffer (veriloggen/stream/stypes.py:4151-4257, 4469-4713). *)
From Verif Require Import Base Bits.
Open Scope Z_scope.

(** * RingBuffer *)
(** The offset operand of [read]: a constant (printed as a literal) or the signal of a node of
    width [w] holding the pattern [x]. *)
Inductive off := OInt (z : Z) | OSig (w x : Z).
(** [raddr_base + offset >= length] is evaluated at the widest operand, the literal [length]
    having 32 bits, and unsigned because [raddr_base] is: a narrower signal is zero extended, a
    negative literal is negated after the extension [4237-4239] *)
Definition off_width (o : off) : Z := match o with OInt _ => 32 | OSig w _ => Z.max w 32 end.
Definition off_bits (o : off) : Z := match o with OInt z => z mod 2 ^ 32 | OSig w x => x mod 2 ^ w end.
(** [addrwidth] [4179, 4227] *)
Definition addr_width (len : Z) : Z := Z.log2_up len.
(** [raddr] [4236-4242] *)
Definition ring_raddr (len base : Z) (o : off) : Z :=
  let v := (base + off_bits o) mod 2 ^ Z.max (addr_width len) (off_width o) in
  (if len <=? v then v - len else v) mod 2 ^ addr_width len.

(** One cycle: [r_go] is senable; [r_valid], [r_data], [r_wen] belong to the element at the stage
    of the buffer; [r_off], [r_ren] to the element at the stage of the output node. *)
Record rin := mkRIn { r_go : bool; r_valid : bool; r_data : Z; r_wen : bool; r_off : off; r_ren : bool }.
(** [waddr], the registers of [seq.Prev(waddr, diff)], the valid bits of the stages in between,
    the memory and the [rdata] register of the read port *)
Record rst := mkRSt { rs_waddr : Z; rs_prev : list Z; rs_valid : list bool; rs_mem : Z -> Z; rs_rdata : Z }.
(** [diff] = start_stage of the output node minus that of the buffer, at least 1 *)
Definition ring_init (diff : nat) (mem : Z -> Z) : rst := mkRSt 0 (repeat 0 diff) (repeat false diff) mem 0.
Definition push {A} (x : A) (l : list A) : list A := removelast (x :: l).
(** [4188-4199, 4232-4251]; Prev: seq/seq.py:174-180; the read port samples before the write
    (types/ram.py:76-84) *)
Definition ring_step (len : Z) (s : rst) (i : rin) : rst :=
  let wenable := r_go i && r_valid i && r_wen i in
  let renable_base := r_go i && last (rs_valid s) false in
  let raddr := ring_raddr len (last (rs_prev s) 0) (r_off i) in
  mkRSt
    (if wenable then if rs_waddr s =? len - 1 then 0 else rs_waddr s + 1 else rs_waddr s)
    (if renable_base then push (rs_waddr s) (rs_prev s) else rs_prev s)
    (if r_go i then push (r_valid i) (rs_valid s) else rs_valid s)
    (if wenable then upd (rs_mem s) (rs_waddr s) (r_data i) else rs_mem s)
    (if renable_base && r_ren i then rs_mem s raddr else rs_rdata s).
Definition ring_run (len : Z) (diff : nat) (mem : Z -> Z) (l : list rin) : rst := fold_left (ring_step len) l (ring_init diff mem).

(** * LineBuffer with a two-dimensional window of shape (A, B) *)
(** One cycle: senable, shift_cond, the rotate condition (if given), data. *)
Record lin := mkLIn { l_go : bool; l_shift : bool; l_rot : bool; l_data : Z }.
(** window registers by index (i, j), head and tail counters, the delayed tail, conditions and
    data [seq.Prev(.., 1, cond=senable)], and per j the shift memory and its read register *)
Record lst := mkLSt { ls_win : nat -> nat -> Z; ls_head : Z; ls_tail : Z; ls_ptail : Z;
                      ls_pshift : bool; ls_prot : bool; ls_pdata : Z;
                      ls_mem : nat -> Z -> Z; ls_rd : nat -> Z }.
Section Line.
  (** shape, memlens[0], width and sign of data (also those of the counters), whether rotate
      conditions are given *)
  Variables (A B : nat) (M w : Z) (sg hasrot : bool).
  (** head_initvals[0], tail_initvals[0] [4664-4668] *)
  Definition line_init (head tail : Z) (mem : nat -> Z -> Z) : lst :=
    mkLSt (fun _ _ => 0) (value w sg head) (value w sg tail) 0 false false 0 mem (fun _ => 0).
  (** next_head, next_tail [4669-4670] *)
  Definition line_next (x : Z) : Z := value w sg (if x =? M - 1 then 0 else x + 1).
  (** input of a window register [4614-4656]; [increment_index] of (A-1, j) is (.., j+1) *)
  Definition line_in (s : lst) (i j : nat) : Z :=
    if (i =? A - 1)%nat then
      let shift_data := if (j =? B - 1)%nat then ls_pdata s else ls_rd s (S j) in
      if hasrot && ls_prot s then ls_rd s j else shift_data
    else ls_win s (S i) j.
  (** [4577-4599, 4658-4713]: the memory write is not gated by senable *)
  Definition line_step (s : lst) (i : lin) : lst :=
    let enable := l_shift i || (hasrot && l_rot i) in
    let delayed := ls_pshift s || (hasrot && ls_prot s) in
    let addr x := x mod 2 ^ addr_width M in
    mkLSt
      (if l_go i && delayed then line_in s else ls_win s)
      (if l_go i && enable then line_next (ls_head s) else ls_head s)
      (if l_go i && enable then line_next (ls_tail s) else ls_tail s)
      (if l_go i then ls_tail s else ls_ptail s)
      (if l_go i then l_shift i else ls_pshift s)
      (if l_go i then l_rot i else ls_prot s)
      (if l_go i then l_data i else ls_pdata s)
      (fun j => if delayed then upd (ls_mem s j) (addr (ls_ptail s)) (ls_win s 0%nat j) else ls_mem s j)
      (fun j => if l_go i then ls_mem s j (addr (ls_head s)) else ls_rd s j).
End Line.
