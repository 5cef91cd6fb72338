(** What a data mover should do: packets and bursts of the sizes asked for. *)
From Verif Require Import Base Fifo_Model AxiDma_Model AxiDma_Spec Mover_Model.
Open Scope Z_scope.

(** last flags of packets with the given numbers of words *)
Definition flags (ns : list Z) : list bool := flat_map (fun n => repeat false (Z.to_nat (n - 1)) ++ [true]) ns.
Definition sum (ns : list Z) : Z := fold_right Z.add 0 ns.
(** [l] is a beginning of [l'] *)
Definition begins {X} (l l' : list X) : Prop := exists r, l ++ r = l'.

Section Read.
  Variables (aw s fa : Z).
  Definition rmv_run (m : rmv) (ins : list rmv_in) : rmv := final (rmv_step aw s fa) m ins.
  Notation logs f := (fun m ins => concat (outs (rmv_step aw s fa) f m ins)).
  (** requests taken from the thread; bursts asked for on the bus; words taken from the bus; words
      handed to the stream, with the last flag *)
  Definition r_taken : rmv -> list rmv_in -> list (Z * Z) := logs (fun m i => rq_taken (r_rq m) (r_rqin fa m i)).
  Definition r_bursts : rmv -> list rmv_in -> list (Z * Z) := logs (fun m i => rq_burst (r_rq m) (r_rqin fa m i)).
  Definition r_words : rmv -> list rmv_in -> list Z := logs (fun m i => if x_rvalid i && r_rready m i then [x_rdata i] else []).
  Definition r_sent : rmv -> list rmv_in -> list (Z * bool) := logs (fun m i => ch_out (r_ch m) (x_tready i)).
End Read.
Section Write.
  Variables (aw s fa : Z).
  Definition wmv_run (m : wmv) (ins : list wmv_in) : wmv := final (wmv_step aw s fa) m ins.
  Notation logs f := (fun m ins => concat (outs (wmv_step aw s fa) f m ins)).
  Definition w_taken : wmv -> list wmv_in -> list (Z * Z) := logs (fun m i => rq_taken (w_rq m) (w_rqin fa m i)).
  Definition w_bursts : wmv -> list wmv_in -> list (Z * Z) := logs (fun m i => rq_burst (w_rq m) (w_rqin fa m i)).
  Definition w_words : wmv -> list wmv_in -> list Z := logs (fun m i => if y_tvalid i && w_rready m i then [y_tdata i] else []).
  Definition w_sent : wmv -> list wmv_in -> list (Z * bool) := logs (fun m i => ch_out (w_ch m) (y_wready i)).
End Write.
(** the word waiting in a channel *)
Definition waiting (h : chan) : list (Z * bool) := if h_valid h then [(h_data h, h_last h)] else [].
