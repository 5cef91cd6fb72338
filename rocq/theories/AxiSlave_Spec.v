(** What the bus master of a register slave may expect. *)
From Verif Require Import Base AxiSlave_Model.
Open Scope Z_scope.

(** ** Reads *)
(** last flags of an answer of [n] beats *)
Definition answer_flags (n : Z) : list bool := repeat false (Z.to_nat n - 1) ++ [true].
(** register read by beat [k] of a burst at address [a] *)
Definition reg_index (mw sh a : Z) (k : nat) : Z := (a / 2 ^ sh + Z.of_nat k) mod 2 ^ mw.
Definition answer (len mw sh xz : Z) (reg : Z -> Z) (a n : Z) : list (Z * bool) :=
  combine (map (fun k => let j := reg_index mw sh a k in if j <? len then reg j else xz) (seq 0 (Z.to_nat n)))
          (answer_flags n).

Section Run.
  Variables (len mw sh xz : Z) (xb : bool).
  Definition slv_run (s : slv) (ins : list slv_in) : slv := final (slv_step len mw sh xz xb) s ins.
  Definition bursts (s : slv) (ins : list slv_in) : list (Z * Z) := concat (outs (slv_step len mw sh xz xb) ar_taken s ins).
  Definition beats (s : slv) (ins : list slv_in) : list (Z * bool) := concat (outs (slv_step len mw sh xz xb) r_beat s ins).
  Definition wevents (s : slv) (ins : list slv_in) : list wevent := concat (outs (slv_step len mw sh xz xb) w_events s ins).
End Run.

Definition burst_len (q : Z * Z) : Z := snd q.
(** arlen is an 8-bit number *)
Definition ar_legal (i : slv_in) : Prop := match vi_ar i with Some (_, l) => 0 <= l < 256 | None => True end.
Definition no_read_request (i : slv_in) : Prop := vi_ar i = None.
Definition no_update (i : slv_in) : Prop := vi_aw i = None /\ vi_top i = None.
Definition no_thread_update (i : slv_in) : Prop := vi_top i = None.
Definition ready_cycles (ins : list slv_in) : Z := fold_right (fun i n => b2z (vi_rready i) + n) 0 ins.
(** no read burst is being served *)
Definition read_idle (s : slv) : Prop := v_fsm s <> 1 /\ v_rd s = false /\ v_rvalid s = false.

(** ** Writes: replay of the bus events *)
Definition wreplay (len mw sh : Z) (es : list wevent) (st : Z * (Z -> Z)) : Z * (Z -> Z) :=
  fold_left (fun st e =>
    match e with
    | WAddr a => (a / 2 ^ sh mod 2 ^ mw, snd st)
    | WBeat d _ => ((fst st + 1) mod 2 ^ mw, if fst st <? len then upd (snd st) (fst st) d else snd st)
    | WResp => st
    end) es st.
(** addresses, bursts of data up to the flagged word, and responses follow one another:
    [0] no burst, [1] inside a burst, [2] response owed *)
Fixpoint worder (p : Z) (es : list wevent) : option Z :=
  match es with
  | [] => Some p
  | WAddr _ :: es => if p =? 0 then worder 1 es else None
  | WBeat _ l :: es => if p =? 1 then worder (if l then 2 else 1) es else None
  | WResp :: es => if p =? 2 then worder 0 es else None
  end.
