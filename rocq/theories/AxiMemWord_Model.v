(** The thread functions of the simulated AXI memory.
    Modelled code: [types/axi.py:3268-3355] ([read], [write], [read_word], [write_word] of
    [AxiMemoryModel], inherited by [AxiMultiportMemoryModel] and [AxiSerialMemoryModel]).

    Every function takes one state: the value returned and the memory are those after its clock edge.
    Simplified: addresses are integers (sums with byte offsets are assumed not to overflow), except
    for the product of word index and width, which is 32 bits wide and signed; the bus writes nothing
    in the same cycle. *)
From Verif Require Import Base.
Open Scope Z_scope.

Definition wrap_s (w x : Z) : Z := (x + 2 ^ (w - 1)) mod 2 ^ w - 2 ^ (w - 1).

(** a memory of [2 ** mem_addrwidth] bytes [3020-3021]; an index outside reads unknown bytes and
    writes nothing *)
Record bm := mkBm { k_mw : Z; k_x : Z -> Z }.
Definition inside (q : bm) (k : Z) : bool := (0 <=? k) && (k <? 2 ^ k_mw q).
Definition get (q : bm) (m : Z -> Z) (k : Z) : Z := if inside q k then m k else k_x q k.
Definition put (q : bm) (m : Z -> Z) (k v : Z) : Z -> Z := if inside q k then upd m k v else m.

(** [Cat] of the reversed list of [self.mem[addr + i]], [i in range(n)] [3276-3277,3309-3310,3332-3333] *)
Definition cat (q : bm) (m : Z -> Z) (a : Z) (n : nat) : Z :=
  fold_right (fun i v => get q m (a + Z.of_nat i) * 2 ^ (8 * Z.of_nat i) + v) 0 (seq 0 n).
(** [for i in range(n): self.mem[addr + i](v[i * 8:i * 8 + 8])] [3292-3295,3348-3351] *)
Definition spread (q : bm) (m : Z -> Z) (a : Z) (n : nat) (v : Z) : Z -> Z :=
  fold_left (fun m' i => put q m' (a + Z.of_nat i) (v / 2 ^ (8 * Z.of_nat i) mod 2 ^ 8)) (seq 0 n) m.

(** [read] [3268-3281], [write] [3283-3299] with [mem_datawidth = dw] *)
Definition t_read (q : bm) (dw : Z) (m : Z -> Z) (a : Z) : Z := wrap_s dw (cat q m a (Z.to_nat (dw / 8))).
Definition t_write (q : bm) (dw : Z) (m : Z -> Z) (a d : Z) : Z -> Z :=
  spread q m a (Z.to_nat (dw / 8)) (d mod 2 ^ dw).

(** [int(math.ceil(bits / 8))] [3306,3326] *)
Definition num_bytes (bits : Z) : Z := (bits + 7) / 8.
(** [word_index * bits], [addr], [shift] [3307-3309,3327-3329] *)
Definition w_bit (idx bits : Z) : Z := wrap_s 32 (idx * bits).
Definition w_at (off idx bits : Z) : Z := off + Z.quot (w_bit idx bits) 8.
Definition w_shift (idx bits : Z) : Z := Z.rem (w_bit idx bits) 8.

(** [read_word] [3301-3319] *)
Definition t_read_word (q : bm) (m : Z -> Z) (idx off bits : Z) : Z :=
  wrap_s bits (cat q m (w_at off idx bits) (Z.to_nat (num_bytes bits)) / 2 ^ w_shift idx bits).
(** [write_word] [3321-3355] *)
Definition t_write_word (q : bm) (m : Z -> Z) (idx off d bits : Z) : Z -> Z :=
  let w := 8 * num_bytes bits in
  let sh := w_shift idx bits in
  let inv_mask := Z.shiftl (2 ^ bits - 1) sh mod 2 ^ w in
  let mask := Z.lnot inv_mask mod 2 ^ w in
  let raw := Z.lor (Z.shiftl (d mod 2 ^ bits) sh) (Z.land (cat q m (w_at off idx bits) (Z.to_nat (num_bytes bits))) mask)
             mod 2 ^ w in
  spread q m (w_at off idx bits) (Z.to_nat (num_bytes bits)) raw.
