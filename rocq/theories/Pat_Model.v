(** Address generators of sources and sinks of thread streams: [thread/stream.py] set_source, set_sink,
    set_*_pattern, set_*_multidim, set_*_multipattern and the state machines behind them.

    Registers are integers in the range of their width; [aw] is Stream.addrwidth.  All assignments of these
    machines are conditional on [oready]; so is the use of the addresses by the RAM [1944,2674].  The
    signals [start] and [stop] (Stream.source_start with the mode bit, Stream.source_stop, and the same
    for sinks) and the contents of the setting registers are inputs.  Not modelled: the selection of the
    RAM (source_sel), the RAM itself (see Ram_Model), generators, FIFOs. *)
From Verif Require Import Base.
Open Scope Z_scope.

(** ** The settings *)
Definition pattern : Type := list (Z * Z).       (* (size, stride) *)

(** [3769-3780] _to_pattern; Python indices may be negative. *)
Definition py_nth (l : list Z) (p : Z) : option Z :=
  let n := Z.of_nat (length l) in
  let q := if p <? 0 then p + n else p in
  if (0 <=? q) && (q <? n) then nth_error l (Z.to_nat q) else None.
Definition py_from (l : list Z) (p : Z) : list Z :=           (* l[p:] *)
  let n := Z.of_nat (length l) in
  let q := if p <? 0 then Z.max (p + n) 0 else p in
  skipn (Z.to_nat q) l.
Fixpoint to_pattern (shape : list Z) (order : list Z) : option pattern :=
  match order with
  | [] => Some []
  | p :: r =>
      match py_nth shape p, to_pattern shape r with
      | Some size, Some l => Some ((size, fold_left Z.mul (py_from shape (p + 1)) 1) :: l)
      | _, _ => None
      end
  end.
(** [802-808] the default order *)
Definition default_order (shape : list Z) : list Z := rev (map Z.of_nat (seq 0 (length shape))).

(** [758-794] set_source_pattern: checks, padding, the setting registers (sizes have [aw+1] bits, strides
    and the offset [aw]); [1093-1135] the same for sinks.  [None]: an exception. *)
Record setting := mkS { s_off : Z; s_sizes : list Z; s_strides : list Z }.
Definition set_pattern (aw : Z) (maxlen : nat) (off : Z) (pat : pattern) : option setting :=
  match pat with
  | [] => None
  | _ =>
      if (maxlen <? length pat)%nat then None
      else
        let p := pat ++ repeat (1, 0) (maxlen - length pat) in
        Some (mkS (off mod 2 ^ aw) (map (fun x => fst x mod 2 ^ (aw + 1)) p) (map (fun x => snd x mod 2 ^ aw) p))
  end.

(** ** The odometer *)
(** [2188-2205]: the loop over the dimensions; [up] is upcond.  The registers keep [fc], [fk] where no
    assignment is made here. *)
Fixpoint odo (aw : Z) (up : bool) (cur size stride cnt fc fk : list Z) : list Z * list Z * bool :=
  match cur, size, stride, cnt, fc, fk with
  | c :: cur, s :: size, d :: stride, k :: cnt, c0 :: fc, k0 :: fk =>
      let r := k =? 0 in
      let '(cs, ks, f) := odo aw (up && r) cur size stride cnt fc fk in
      ((if up then if r then 0 else (c + d) mod 2 ^ aw else c0) :: cs,
       (if up then if r then (s - 1) mod 2 ^ (aw + 1) else (k - 1) mod 2 ^ (aw + 1) else k0) :: ks, f)
  | _, _, _, _, _, _ => ([], [], up)
  end.
(** [2172-2177] the wire all_offset *)
Definition all_offset (aw off : Z) (cur : list Z) : Z := (fold_left Z.add cur off) mod 2 ^ aw.

(** ** Sources *)
(** FSM state; buffers; the registers seen by the RAM and by the stream's own state machine *)
Record src := mkSrc {
  st : nat; off : Z; cur : list Z; size : list Z; stride : list Z; cnt : list Z;
  addr : Z; en : bool; idle : bool }.
Record sin := mkSin { ordy : bool; start : bool; stop : bool; set : setting }.

(** [2121-2221] _synthesize_set_source_pattern *)
Definition src_step (aw : Z) (x : src) (i : sin) : src :=
  if negb (ordy i) then x
  else
    let ld := start i in
    let off' := if ld then s_off (set i) else off x in                                      (* [2128-2131] *)
    let cur0 := if ld then map (fun _ => 0) (cur x) else cur x in                           (* [2133-2136] *)
    let cnt0 := if ld then map (fun s => (s - 1) mod 2 ^ (aw + 1)) (s_sizes (set i)) else cnt x in   (* [2138-2142] *)
    let size' := if ld then s_sizes (set i) else size x in                                  (* [2144-2148] *)
    let stride' := if ld then s_strides (set i) else stride x in                            (* [2150-2154] *)
    match st x with
    | O => mkSrc (if ld then 1%nat else 0%nat) off' cur0 size' stride' cnt0 (addr x) false (idle x)     (* [2170], [280-283] *)
    | 1%nat =>
        let '(cs, ks, fin) := odo aw true (cur x) (size x) (stride x) (cnt x) cur0 cnt0 in
        mkSrc (if fin then 2%nat else if stop i then 0%nat else 1%nat)                        (* [2211,2214] *)
              off' cs size' stride' ks (all_offset aw (off x) (cur x))
              (negb (stop i)) (stop i)                                                      (* [2179-2183,2207-2210] *)
    | _ => mkSrc 0 off' cur0 size' stride' cnt0 (addr x) false true                         (* [2216-2221] *)
    end.
(** [1944-1946] the read of the RAM in this cycle *)
Definition src_read (x : src) (i : sin) : list Z := if ordy i && en x then [addr x] else [].

(** *** Several patterns: [2271-2418]; [nw] is the width of the register num_patterns [2229-2231] *)
Record msrc := mkM {
  m_st : nat; num : Z; m_offs : list Z; m_cur : list Z; m_sizes : list (list Z); m_strides : list (list Z); m_cnt : list Z;
  m_addr : Z; m_en : bool; m_idle : bool }.
Record min := mkMin { m_ordy : bool; m_start : bool; m_stop : bool;
  m_set : option Z;                    (* set_source_multipattern is executed: len(patterns) *)
  m_settings : list setting }.
(** [835-899] the setting registers; unused lines keep what they held ([junk]) *)
Definition num_width (maxm : nat) : Z := Z.log2_up (Z.of_nat (Nat.max maxm 2)).
Fixpoint set_lines (aw : Z) (maxlen : nat) (junk : list setting) (offs : list Z) (pats : list pattern) : option (list setting) :=
  match pats, offs, junk with
  | [], [], _ => Some (map (fun s => mkS 0 (s_sizes s) (s_strides s)) junk)
  | p :: pats, o :: offs, _ :: junk =>
      if (maxlen <? length p)%nat then None
      else
        let q := p ++ repeat (1, 0) (maxlen - length p) in
        match set_lines aw maxlen junk offs pats with
        | Some l => Some (mkS (o mod 2 ^ aw) (map (fun x => fst x mod 2 ^ (aw + 1)) q) (map (fun x => snd x mod 2 ^ aw) q) :: l)
        | None => None
        end
  | _, _, _ => None
  end.
Definition set_multi (aw : Z) (maxlen : nat) (junk : list setting) (offs : list Z) (pats : list pattern) : option (list setting) :=
  match pats with [] => None | _ => set_lines aw maxlen junk offs pats end.
(** [2374-2396] the buffers move up by one line; the last one gets no assignment here ([fb]) *)
Definition shift {A} (l fb : list A) : list A :=
  match l with
  | [] => []
  | _ :: r => r ++ skipn (length r) fb
  end.
Definition msrc_step (aw nw : Z) (x : msrc) (i : min) : msrc :=
  let num0 := match m_set i with Some n => n mod 2 ^ nw | None => num x end in                    (* [870-875] *)
  if negb (m_ordy i) then mkM (m_st x) num0 (m_offs x) (m_cur x) (m_sizes x) (m_strides x) (m_cnt x) (m_addr x) (m_en x) (m_idle x)
  else
    let ld := m_start i in
    let line0 := nth 0 (m_settings i) (mkS 0 [] []) in
    let num1 := if ld then (num x - 1) mod 2 ^ nw else num0 in                                    (* [2287-2289] *)
    let cur0 := if ld then map (fun _ => 0) (m_cur x) else m_cur x in                             (* [2282-2285] *)
    let cnt0 := if ld then map (fun s => (s - 1) mod 2 ^ (aw + 1)) (s_sizes line0) else m_cnt x in    (* [2291-2295] *)
    let offs' := if ld then map s_off (m_settings i) else m_offs x in
    (* the size buffers are one bit narrower [2261-2264] *)
    let sizes' := if ld then map (fun s => map (fun z => z mod 2 ^ aw) (s_sizes s)) (m_settings i) else m_sizes x in
    let strides' := if ld then map s_strides (m_settings i) else m_strides x in
    match m_st x with
    | O => mkM (if ld then 1%nat else 0%nat) num1 offs' cur0 sizes' strides' cnt0 (m_addr x) false (m_idle x)
    | 1%nat =>
        let '(cs, ks, fin) := odo aw true (m_cur x) (nth 0 (m_sizes x) []) (nth 0 (m_strides x) []) (m_cnt x) cur0 cnt0 in
        mkM (if fin && (num x =? 0) then 2%nat else if m_stop i then 0%nat else 1%nat)            (* [2406-2411] *)
            (if fin then (num x - 1) mod 2 ^ nw else num1)                                        (* [2397-2399] *)
            (if fin then shift (m_offs x) offs' else offs') cs
            (if fin then shift (m_sizes x) sizes' else sizes') (if fin then shift (m_strides x) strides' else strides') ks
            (all_offset aw (nth 0 (m_offs x) 0) (m_cur x)) (negb (m_stop i)) (m_stop i)
    | _ => mkM 0 num1 offs' cur0 sizes' strides' cnt0 (m_addr x) false true
    end.
Definition msrc_read (x : msrc) (i : min) : list Z := if m_ordy i && m_en x then [m_addr x] else [].

(** ** Sinks *)
(** [2842-2927] _synthesize_set_sink_pattern; [wc] is the [when] condition (true without one), [rd] the
    result of the stream *)
Record snk := mkK {
  k_st : nat; k_off : Z; k_cur : list Z; k_size : list Z; k_stride : list Z; k_cnt : list Z;
  k_addr : Z; k_data : Z; k_en : bool }.
Record kin := mkKin { k_ordy : bool; k_start : bool; k_stop : bool; k_set : setting; k_wc : bool; k_rd : Z }.
Definition snk_step (aw : Z) (x : snk) (i : kin) : snk :=
  if negb (k_ordy i) then x
  else
    let ld := k_start i in
    let off' := if ld then s_off (k_set i) else k_off x in
    let size' := if ld then s_sizes (k_set i) else k_size x in
    let stride' := if ld then s_strides (k_set i) else k_stride x in
    match k_st x with
    | O => mkK (if ld then 1%nat else 0%nat) off' (k_cur x) size' stride' (k_cnt x) (k_addr x) (k_data x) false
    | 1%nat => mkK 2 off' (map (fun _ => 0) (k_cur x)) size' stride' (map (fun s => (s - 1) mod 2 ^ (aw + 1)) (k_size x))
                 (k_addr x) (k_data x) false
    | _ =>
        let '(cs, ks, fin) := odo aw (k_wc i) (k_cur x) (k_size x) (k_stride x) (k_cnt x) (k_cur x) (k_cnt x) in
        mkK (if fin || k_stop i then 0%nat else 2%nat) off' cs size' stride' ks
            (if k_wc i then all_offset aw (k_off x) (k_cur x) else k_addr x)
            (if k_wc i then k_rd i else k_data x) (k_wc i)
    end.
(** [2672-2676] the write of the RAM in this cycle *)
Definition snk_write (x : snk) (i : kin) : list (Z * Z) := if k_ordy i && k_en x then [(k_addr x, k_data x)] else [].

(** [2979-3107] _synthesize_set_sink_multipattern *)
Record msnk := mkN {
  n_st : nat; n_num : Z; n_offs : list Z; n_cur : list Z; n_sizes : list (list Z); n_strides : list (list Z); n_cnt : list Z;
  n_addr : Z; n_data : Z; n_en : bool }.
Record nin := mkNin { n_ordy : bool; n_start : bool; n_stop : bool; n_set : option Z; n_settings : list setting; n_wc : bool; n_rd : Z }.
Definition msnk_step (aw nw : Z) (x : msnk) (i : nin) : msnk :=
  let num0 := match n_set i with Some n => n mod 2 ^ nw | None => n_num x end in
  if negb (n_ordy i) then mkN (n_st x) num0 (n_offs x) (n_cur x) (n_sizes x) (n_strides x) (n_cnt x) (n_addr x) (n_data x) (n_en x)
  else
    let ld := n_start i in
    let num1 := if ld then (n_num x - 1) mod 2 ^ nw else num0 in
    let offs' := if ld then map s_off (n_settings i) else n_offs x in
    let sizes' := if ld then map (fun s => map (fun z => z mod 2 ^ aw) (s_sizes s)) (n_settings i) else n_sizes x in
    let strides' := if ld then map s_strides (n_settings i) else n_strides x in
    match n_st x with
    | O => mkN (if ld then 1%nat else 0%nat) num1 offs' (n_cur x) sizes' strides' (n_cnt x) (n_addr x) (n_data x) false
    | 1%nat => mkN 2 num1 offs' (map (fun _ => 0) (n_cur x)) sizes' strides'
                 (map (fun s => (s - 1) mod 2 ^ (aw + 1)) (nth 0 (n_sizes x) [])) (n_addr x) (n_data x) false
    | _ =>
        (* upcond does not contain the when condition [3058-3073] *)
        let '(cs, ks, fin) := odo aw true (n_cur x) (nth 0 (n_sizes x) []) (nth 0 (n_strides x) []) (n_cnt x) (n_cur x) (n_cnt x) in
        mkN (if (fin && (n_num x =? 0)) || n_stop i then 0%nat else 2%nat)
            (if fin then (n_num x - 1) mod 2 ^ nw else num1)
            (if fin then shift (n_offs x) offs' else offs') cs
            (if fin then shift (n_sizes x) sizes' else sizes') (if fin then shift (n_strides x) strides' else strides') ks
            (if n_wc i then all_offset aw (nth 0 (n_offs x) 0) (n_cur x) else n_addr x)
            (if n_wc i then n_rd i else n_data x) (n_wc i)
    end.
Definition msnk_write (x : msnk) (i : nin) : list (Z * Z) := if n_ordy i && n_en x then [(n_addr x, n_data x)] else [].

(** ** One size and stride: [2037-2092] set_source, [2746-2794] set_sink *)
Record lsrc := mkL { l_st : nat; l_off : Z; l_size : Z; l_stride : Z; l_cnt : Z; l_addr : Z; l_en : bool; l_idle : bool }.
Record lin := mkLin { l_ordy : bool; l_start : bool; l_stop : bool; l_soff : Z; l_ssize : Z; l_sstride : Z }.
Definition lsrc_step (aw : Z) (x : lsrc) (i : lin) : lsrc :=
  if negb (l_ordy i) then x
  else
    let ld := l_start i in
    let off' := if ld then l_soff i else l_off x in
    let size' := if ld then l_ssize i else l_size x in
    let stride' := if ld then l_sstride i else l_stride x in
    match l_st x with
    | O => mkL (if ld then 1%nat else 0%nat) off' size' stride' (l_cnt x) (l_addr x) false (l_idle x)
    | 1%nat => mkL 2 off' size' stride' (l_size x) (l_off x) true false
    | _ =>
        let e := (l_cnt x =? 1) || l_stop i in
        mkL (if e then 0%nat else 2%nat) off' size' stride' ((l_cnt x - 1) mod 2 ^ (aw + 1))
            ((l_addr x + l_stride x) mod 2 ^ aw) (negb e) (if e then true else l_idle x)
    end.
Definition lsrc_read (x : lsrc) (i : lin) : list Z := if l_ordy i && l_en x then [l_addr x] else [].

Record lsnk := mkLK { lk_st : nat; lk_off : Z; lk_size : Z; lk_stride : Z; lk_cnt : Z; lk_addr : Z; lk_data : Z; lk_en : bool }.
Record lkin := mkLKin { lk_ordy : bool; lk_start : bool; lk_stop : bool; lk_soff : Z; lk_ssize : Z; lk_sstride : Z; lk_wc : bool; lk_rd : Z }.
Definition lsnk_step (aw : Z) (x : lsnk) (i : lkin) : lsnk :=
  if negb (lk_ordy i) then x
  else
    let ld := lk_start i in
    let off' := if ld then lk_soff i else lk_off x in
    let size' := if ld then lk_ssize i else lk_size x in
    let stride' := if ld then lk_sstride i else lk_stride x in
    match lk_st x with
    | O => mkLK (if ld then 1%nat else 0%nat) off' size' stride' (lk_cnt x) (lk_addr x) (lk_data x) false
    | 1%nat => mkLK 2 off' size' stride' (lk_size x) ((lk_off x - lk_stride x) mod 2 ^ aw) (lk_data x) false
    | _ =>
        mkLK (if (lk_wc i && (lk_cnt x =? 1)) || lk_stop i then 0%nat else 2%nat) off' size' stride'
             (if lk_wc i then (lk_cnt x - 1) mod 2 ^ (aw + 1) else lk_cnt x)
             (if lk_wc i then (lk_addr x + lk_stride x) mod 2 ^ aw else lk_addr x)
             (if lk_wc i then lk_rd i else lk_data x) (lk_wc i)
    end.
Definition lsnk_write (x : lsnk) (i : lkin) : list (Z * Z) := if lk_ordy i && lk_en x then [(lk_addr x, lk_data x)] else [].
