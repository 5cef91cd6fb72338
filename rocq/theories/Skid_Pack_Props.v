(** Property theorem C13 (packing of several values through a skid buffer). *)
From Verif Require Import Base Pack.
Open Scope Z_scope.

(** C13.  [types/skidbuffer.py:26-59]: the values concatenated into the buffer's data word come
    back, each on its own output, truncated to its own width, for any number and widths. *)
Theorem C13_skid_values_roundtrip :
  forall fs, Forall (fun f : Z * Z => 0 <= fst f) fs ->
    unpack_from (cat fs) (total_width fs - 1) (map fst fs) = map (fun f => snd f mod 2 ^ fst f) fs.
Proof. intros fs H. exact (unpack_cat fs H). Qed.
Print Assumptions C13_skid_values_roundtrip.

Example C13_ex_pack : unpack_from (cat [(3, 5); (1, 1); (8, 200)]) 11 [3; 1; 8] = [5; 1; 200].
Proof. vm_compute. reflexivity. Qed.
