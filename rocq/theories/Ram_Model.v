(** Models of [types/ram.py], [types/rom.py] and [thread/ram.py] (RAM bursts, MultibankRAM). *)
From Verif Require Import Base.
From Coq Require Import Permutation.
Open Scope Z_scope.

(** ** RAM definition *)

(** [types/ram.py:131-136] signals of one port in one cycle.  With [with_enable=False]
    (types/ram.py:83) the enable is constantly true. *)
Record req := mkReq { r_enable : bool; r_wenable : bool; r_addr : Z; r_wdata : Z }.

(** [types/ram.py:23,31] memory and the per-port [rdata_out] registers. *)
Record ram := mkRam { ram_mem : Z -> Z; ram_rdata : list Z }.

(** [types/ram.py:74,79,83-88] the memory write made by one port, if any. *)
Definition port_write (r : req) : list (Z * Z) :=
  if r_enable r then if r_wenable r then [(r_addr r, r_wdata r)] else [] else [].

(** [types/ram.py:76-84] next value of [rdata_out] of one port (sync RAM): write-first. *)
Definition port_rdata (mem : Z -> Z) (r : req) (old : Z) : Z :=
  if r_enable r then if r_wenable r then r_wdata r else mem (r_addr r) else old.

Definition apply_writes (ws : list (Z * Z)) (m : Z -> Z) : Z -> Z :=
  fold_left (fun m w => upd m (fst w) (snd w)) ws m.

Fixpoint map2 {A B C} (f : A -> B -> C) (a : list A) (b : list B) : list C :=
  match a, b with x :: a', y :: b' => f x y :: map2 f a' b' | _, _ => [] end.

(** One clock edge.  Each port has its own [always] block (types/ram.py:73-88), and Verilog does
    not fix the order in which the blocks run; [order] is the order in which their
    non-blocking writes are applied (a permutation of the writes of the cycle). *)
Definition ram_step (s : ram) (reqs : list req) (order : list (Z * Z)) : ram :=
  mkRam (apply_writes order (ram_mem s))
        (map2 (port_rdata (ram_mem s)) reqs (ram_rdata s)).

Definition cycle_writes (reqs : list req) : list (Z * Z) := flat_map port_write reqs.

(** [types/ram.py:90-91] asynchronous RAM: combinational read. *)
Definition ram_async_rdata (s : ram) (r : req) : Z := ram_mem s (r_addr r).

(** [types/ram.py:33,64-71] initial contents: the given values padded with zeros;
    without initvals the contents are arbitrary ([m0]). *)
Definition ram_initial (initvals : option (list Z)) (m0 : Z -> Z) : Z -> Z :=
  match initvals with
  | None => m0
  | Some vs => fun a => nth (Z.to_nat a) vs 0
  end.

(** ** ROM *)
(** [types/rom.py:28-31] a case statement without default; [None] means no case matches, so
    [val] keeps its old value (sync) / latches (async).  [types/rom.py:33-34] enable. *)
Definition rom_val (values : list Z) (addr : Z) (old : Z) : Z :=
  nth (Z.to_nat addr) values old.
Definition rom_step (values : list Z) (with_enable enable : bool) (addr old : Z) : Z :=
  if with_enable then if enable then rom_val values addr old else old
  else rom_val values addr old.
(** [types/rom.py:51] size = ceil(log2(len(values))) *)
Definition rom_addr_width (values : list Z) : Z := Z.log2_up (Z.of_nat (length values)).

(** ** Burst read [thread/ram.py:200-248] *)
(** fsm state (false = 0, true = 1), [_addr], [_stride], [_length], rvalid, rlast and the
    [rdata_out] register of the port, which nobody else uses during the burst. *)
Record rburst := mkRB { rb_run : bool; rb_addr : Z; rb_stride : Z; rb_length : Z;
                        rb_rvalid : bool; rb_rlast : bool; rb_rdata : Z }.

Definition rb_init : rburst := mkRB false 0 0 0 false false 0.

(** arguments driven by the caller in a cycle *)
Record rb_in := mkRBIn { rbi_cond : bool; rbi_addr : Z; rbi_stride : Z; rbi_length : Z;
                         rbi_rready : bool; rbi_rquit : bool }.

(** [thread/ram.py:224-225] *)
Definition rb_renable (s : rburst) (i : rb_in) : bool :=
  rb_run s && (negb (rb_rvalid s) || rbi_rready i).

(** [thread/ram.py:215-246], statements in emission order; [lw] is the width of the length
    argument (the width of [_length]), [aw] the address width.  The memory is not written
    during the burst (simplification: [mem] is constant). *)
Definition rb_step (aw lw : Z) (mem : Z -> Z) (s : rburst) (i : rb_in) : rburst :=
  let rdata' := if rb_renable s i then mem (rb_addr s) else rb_rdata s in
  if negb (rb_run s) then
    mkRB (rbi_cond i && (0 <? rbi_length i))
         (rbi_addr i mod 2 ^ aw) (rbi_stride i mod 2 ^ aw) (rbi_length i mod 2 ^ lw)
         false false rdata'
  else
    let rr := rbi_rready i in
    let '(a1, l1, v1) := if rr && (0 <? rb_length s)
                         then ((rb_addr s + rb_stride s) mod 2 ^ aw,
                               (rb_length s - 1) mod 2 ^ lw, true)
                         else (rb_addr s, rb_length s, rb_rvalid s) in
    let last2 := if rr && (rb_length s <=? 1) then true else rb_rlast s in
    let fin := rb_rlast s && rb_rvalid s && rr in
    let '(v3, last3) := if fin then (false, false) else (v1, last2) in
    let '(v4, last4) := if rbi_rquit i then (false, false) else (v3, last3) in
    let run5 := if fin then false else true in
    let run6 := if rbi_rquit i then false else run5 in
    mkRB run6 a1 (rb_stride s) l1 v4 last4 rdata'.

(** what the consumer sees *)
Record rb_obs := mkRBO { ro_valid : bool; ro_last : bool; ro_data : Z }.
Definition rb_out (s : rburst) (_ : rb_in) : rb_obs := mkRBO (rb_rvalid s) (rb_rlast s) (rb_rdata s).

(** ** Burst write [thread/ram.py:262-303] *)
Record wburst := mkWB { wb_run : bool; wb_addr : Z; wb_stride : Z; wb_length : Z; wb_done : bool;
                        wb_mem : Z -> Z }.
Definition wb_init (m : Z -> Z) : wburst := mkWB false 0 0 0 false m.
Record wb_in := mkWBIn { wbi_cond : bool; wbi_addr : Z; wbi_stride : Z; wbi_length : Z;
                         wbi_valid : bool; wbi_data : Z; wbi_last : bool; wbi_quit : bool }.

(** [thread/ram.py:285] wready *)
Definition wb_ready (s : wburst) : bool := wb_run s.
(** [thread/ram.py:276-301]; the memory update is the port write of [write_rtl] (284-286). *)
Definition wb_step (aw lw : Z) (s : wburst) (i : wb_in) : wburst :=
  let mem' := if wb_run s && wbi_valid i then upd (wb_mem s) (wb_addr s) (wbi_data i) else wb_mem s in
  if negb (wb_run s) then
    mkWB (wbi_cond i && (0 <? wbi_length i))
         (wbi_addr i mod 2 ^ aw) (wbi_stride i mod 2 ^ aw) (wbi_length i mod 2 ^ lw) false mem'
  else
    let v := wbi_valid i in
    let '(a1, l1, d1) := if v then ((wb_addr s + wb_stride s) mod 2 ^ aw,
                                    (wb_length s - 1) mod 2 ^ lw, false)
                         else (wb_addr s, wb_length s, wb_done s) in
    let d2 := if v && (wb_length s <=? 1) then true else d1 in
    let d3 := if v && wbi_last i then true else d2 in
    let r1 := if v && (wb_length s <=? 1) then false else true in
    let r2 := if v && wbi_last i then false else r1 in
    let r3 := if wbi_quit i then false else r2 in
    mkWB r3 a1 (wb_stride s) l1 d3 mem'.

(** ** Multibank RAM [thread/ram.py:484-536] *)
(** 2^k banks; each bank is a single-port RAM of the shape above; [bank_reg] is the register
    behind [seq.Prev(bank, 1, cond=cond)] (501) and [mb_rvalid] the one behind [Prev(enable,1)]. *)
Record mbram := mkMB { mb_banks : nat -> (Z -> Z); mb_rdata : nat -> Z; mb_bank_reg : Z; mb_rvalid : bool }.
Inductive mb_op := MbRead (a : Z) | MbWrite (a d : Z) | MbNop.

(** [thread/ram.py:497-499,528-530] bank = low k bits, bank address = addr >> k. *)
Definition mb_bank (k a : Z) : Z := a mod 2 ^ k.
Definition mb_addr (k a : Z) : Z := Z.shiftr a k.

Definition mb_step (k : Z) (s : mbram) (o : mb_op) : mbram :=
  match o with
  | MbNop => mkMB (mb_banks s) (mb_rdata s) (mb_bank_reg s) false
  | MbRead a =>                                   (* 503-506: every bank is read *)
      mkMB (mb_banks s) (fun b => mb_banks s b (mb_addr k a)) (mb_bank k a) true
  | MbWrite a d =>                                (* 532-534: only the addressed bank is enabled *)
      let b0 := Z.to_nat (mb_bank k a) in
      mkMB (fun b => if Nat.eqb b b0 then upd (mb_banks s b) (mb_addr k a) d else mb_banks s b)
           (fun b => if Nat.eqb b b0 then d else mb_rdata s b) (mb_bank_reg s) false
  end.

(** [thread/ram.py:512-516] PatternMux over the banks, default 0. *)
Fixpoint pattern_mux (pats : list (bool * Z)) (dflt : Z) : Z :=
  match pats with [] => dflt | (c, v) :: r => if c then v else pattern_mux r dflt end.
Definition mb_out (k : Z) (s : mbram) : Z :=
  pattern_mux (map (fun b => (mb_bank_reg s =? Z.of_nat b, mb_rdata s b)) (seq 0 (Z.to_nat (2 ^ k)))) 0.

Definition mb_init (banks : nat -> Z -> Z) : mbram := mkMB banks (fun _ => 0) 0 false.
