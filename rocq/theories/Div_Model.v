(** The pipelined divider: the Verilog text of [stream/div.py:6-166]; [dataflow/div.py] is the same
    text with the three sign parameters set.

    Registers hold bit patterns.  The list of stages is s_depth[0], s_depth[1], ..., s_depth[W_D]. *)
From Verif Require Import Base Bits.
Open Scope Z_scope.

Section Div.
  Variables (W : Z) (sa sb so : bool).        (* W_D, A_SIGNED, B_SIGNED, O_SIGNED *)

  (** functions [29-55] *)
  Definition getsign (x : Z) : bool := Z.testbit x (W - 1).
  Definition is_positive (x : Z) : bool := negb (getsign x).
  Definition complement2 (x : Z) : Z := (Z.lnot x + 1) mod 2 ^ W.
  Definition complement2_2x (x : Z) : Z := (Z.lnot x + 1) mod 2 ^ (W * 2).
  Definition absolute (x : Z) : Z := if getsign x then complement2 x else x.
  Definition abs_a (x : Z) : Z := if sa then absolute x else x.
  Definition abs_b (x : Z) : Z := if sb then absolute x else x.

  Record stage := mkStage { g_valid : bool; g_pa : bool; g_pb : bool; g_dividend : Z; g_divisor : Z; g_rslt : Z }.
  Definition sub_value (g : stage) : Z := (g_dividend g - g_divisor g) mod 2 ^ (W * 2).
  Definition is_large (g : stage) : bool := negb (Z.testbit (sub_value g) (W * 2 - 1)).

  Record div_in := mkDivIn { di_rst : bool; di_update : bool; di_enable : bool; di_a : Z; di_b : Z }.
  (** the parts that are reset [80-101] *)
  Definition flags (i : div_in) (old new : stage) : bool * bool * bool :=
    if di_rst i then (false, false, false)
    else if di_update i then (g_valid new, g_pa new, g_pb new) else (g_valid old, g_pa old, g_pb old).
  Definition combine_stage (i : div_in) (old new : stage) : stage :=
    let '(v, pa, pb) := flags i old new in
    let g := if di_update i then new else old in
    mkStage v pa pb (g_dividend g) (g_divisor g) (g_rslt g).
  (** what stage 0 loads [80-90,103-110] *)
  Definition load (i : div_in) : stage :=
    let a := di_a i mod 2 ^ W in let b := di_b i mod 2 ^ W in
    mkStage (di_enable i) (is_positive a) (is_positive b) (abs_a a) ((abs_b b * 2 ^ (W - 1)) mod 2 ^ (W * 2)) 0.
  (** what the next stage takes [91-101,111-119] *)
  Definition advance (g : stage) : stage :=
    mkStage (g_valid g) (g_pa g) (g_pb g)
            (if is_large g then sub_value g else g_dividend g)
            (Z.shiftr (g_divisor g) 1)
            ((g_rslt g * 2 + b2z (is_large g)) mod 2 ^ (W * 2)).
  (** [new] values of all stages, in order *)
  Fixpoint shift_in (i : div_in) (new : stage) (gs : list stage) : list stage :=
    match gs with
    | [] => []
    | g :: r => combine_stage i g new :: shift_in i (advance g) r
    end.

  Record div := mkDiv { d_stages : list stage; d_rslt : Z; d_mod : Z; d_valid : bool }.
  Definition stage0 : stage := mkStage false false false 0 0 0.
  (** output registers [123-164] *)
  Definition out_rslt (g : stage) : Z :=
    (if so then if Bool.eqb (g_pa g) (g_pb g) then g_rslt g else complement2_2x (g_rslt g) else g_rslt g) mod 2 ^ W.
  Definition out_mod (g : stage) : Z :=
    (if so then if g_pa g then g_dividend g mod 2 ^ W else complement2_2x (g_dividend g mod 2 ^ W) else g_dividend g mod 2 ^ W) mod 2 ^ W.
  Definition div_step (s : div) (i : div_in) : div :=
    let g := last (d_stages s) stage0 in
    mkDiv (shift_in i (load i) (d_stages s))
          (if di_update i then out_rslt g else d_rslt s)
          (if di_update i then out_mod g else d_mod s)
          (if di_rst i then false else if di_update i then g_valid g else d_valid s).
End Div.
