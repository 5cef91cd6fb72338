(** What a register bank on an AXI-Lite bus has to do: one transaction at a time on an array of registers. *)
From Verif Require Import Base AxiSlave_Model AxisLite_Model.
Open Scope Z_scope.

(** The register bank: contents, clear-on-read flags and the values to clear to. *)
Record bank := mkBank { b_reg : Z -> Z; b_flag : Z -> bool; b_clear : Z -> Z }.
Definition bank0 : bank := mkBank (fun _ => 0) (fun _ => false) (fun _ => 0).
Definition in_range (len j : Z) : bool := (0 <=? j) && (j <? len).
Definition b_write (len : Z) (b : bank) (j v : Z) : bank :=
  if in_range len j then mkBank (upd (b_reg b) j v) (b_flag b) (b_clear b) else b.
(** reading a flagged register clears it and the flag *)
Definition b_read (len xz : Z) (b : bank) (j : Z) : Z * bank :=
  if in_range len j then
    (b_reg b j, if b_flag b j then mkBank (upd (b_reg b) j (b_clear b j)) (upd (b_flag b) j false) (b_clear b) else b)
  else (xz, b).
Definition b_top (len : Z) (b : bank) (t : ltop) : bank :=
  if in_range len (y_idx t) then
    mkBank (upd (b_reg b) (y_idx t) (y_val t))
           (match y_flag t with Some f => upd (b_flag b) (y_idx t) f | None => b_flag b end)
           (match y_reset t with Some v => upd (b_clear b) (y_idx t) v | None => b_clear b end)
  else b.

(** The transaction going on. *)
Inductive txn :=
  | TNone
  | TRead (j : Z) (k : nat)     (* read of register [j] accepted; it is carried out after [k] more cycles *)
  | TData (d : Z)               (* the word to be delivered *)
  | TWrite (j : Z)              (* write of register [j] accepted, data to come *)
  | TResp.                      (* response owed *)

(** register addressed *)
Definition regno (mw sh a : Z) : Z := a / 2 ^ sh mod 2 ^ mw.

(** One cycle of bus events, allowed only if it follows the rules: a request only when nothing is going
    on and only one at a time, a word only for a read that was carried out, and the right word, write
    data only after a write address, a response only after the data.  A read is carried out in the second
    cycle after its acceptance; updates by threads in that cycle come after it. *)
Definition bus_cycle (len mw sh xz : Z) (st : txn * bank) (e : bus) : option (txn * bank) :=
  let '(t, b) := st in
  let fin t' b' := Some (t', match e_top e with Some x => b_top len b' x | None => b' end) in
  match e_ar e, e_r e, e_aw e, e_w e, e_b e with
  | None, None, None, None, false =>
      match t with
      | TRead j (S k) => fin (TRead j k) b
      | TRead j O => let '(d, b') := b_read len xz b j in fin (TData d) b'
      | _ => fin t b
      end
  | Some a, None, None, None, false => match t with TNone => fin (TRead (regno mw sh a) 1) b | _ => None end
  | None, Some d, None, None, false =>
      match t with TData d' => if d =? d' then fin TNone b else None | _ => None end
  | None, None, Some a, None, false => match t with TNone => fin (TWrite (regno mw sh a)) b | _ => None end
  | None, None, None, Some d, false => match t with TWrite j => fin TResp (b_write len b j d) | _ => None end
  | None, None, None, None, true => match t with TResp => fin TNone b | _ => None end
  | _, _, _, _, _ => None
  end.
Fixpoint bus_run (len mw sh xz : Z) (st : txn * bank) (es : list bus) : option (txn * bank) :=
  match es with
  | [] => Some st
  | e :: r => match bus_cycle len mw sh xz st e with Some st' => bus_run len mw sh xz st' r | None => None end
  end.
