(** [ReduceDiv] [stream/stypes.py:3342-3508]: the accumulator of Reduce_Model with the pipelined divider
    of Div_Model, which stalls the stream for width + 2 cycles per division.

    Simplifications: as in Reduce_Model. *)
From Verif Require Import Base Bits Stream_Model Mult_Model Reduce_Model Div_Model.
Open Scope Z_scope.

Record dst := mkDSt { v_acc : ast; v_ii : Z; v_div : div }.
Section RedDiv.
  Variables (c : acfg) (rsigned : bool).
  (** initiation_interval: get_latency [3348-3349] *)
  Definition interval : Z := a_width c + 3.
  Definition v_stall (s : dst) : bool := 0 <? v_ii s.                                 (* [3461-3463] *)
  Definition v_senable (s : dst) (y : min) : bool := y_ready y && negb (v_stall s).
  Definition div_cycle (s : dst) (y : min) : dst :=
    let a := v_acc s in
    let i := y_ops y in
    let ec0 := y_valid y && v_senable s y in                                          (* [3437] *)
    let data0 := if ec0 && a_reset c && reset_cond c a i then to_data c (i_initval i) else s_data a in   (* [3439-3441] *)
    let ec1 := ec0 && en1 c i in
    let ec2 := ec1 && (negb (a_interval c) || interval_enable c a i) in               (* [3443-3448] *)
    let fin := v_ii s =? interval - 1 in
    mkDSt (mkASt (if fin then to_data c (d_rslt (v_div s)) else data0)                (* [3505-3507] *)
                 (match a_size c with Some _ => if ec2 then next_count c a i else s_count a | None => s_count a end)
                 (match a_size c with Some _ => if ec2 then count_max c a i else s_pmax a | None => s_pmax a end)
                 (if a_interval c && ec1 then next_icount c a i else s_icount a))
          (if fin then 0 else if v_stall s then v_ii s + 1 else if ec2 then v_ii s + 1 else v_ii s)      (* [3466-3474] *)
          (div_step (a_width c) (a_signed c) rsigned (a_signed c) (v_div s)
             (mkDivIn false (ec2 || v_stall s) true (current_data c a i) (i_right i))).                  (* [3476-3503] *)
  Definition div_init : dst := mkDSt (acc_init c) 0 (mkDiv (repeat stage0 (Z.to_nat (a_width c + 1))) 0 0 false).
End RedDiv.
