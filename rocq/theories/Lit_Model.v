(** Integer constants: construction from numbers and texts (veriloggen/core/vtypes.py) and the text
    emitted for them (veriloggen/verilog/to_verilog.py).  Texts hold no blanks and no line breaks. *)
From Coq Require Import String Ascii.
From Verif Require Import Base.
Open Scope string_scope.
Open Scope Z_scope.

(** ** Python numbers and texts *)
Definition numeral (d : Z) : ascii := match String.get (Z.to_nat d) "0123456789abcdef" with Some c => c | None => "?"%char end.
(** [str(n)], and [bin], [oct], [hex] without their prefix, for n >= 0 *)
Fixpoint show_ (fuel : nat) (b n : Z) (acc : string) : string :=
  let acc' := String (numeral (n mod b)) acc in
  match fuel with O => acc' | S fuel => if n / b =? 0 then acc' else show_ fuel b (n / b) acc' end.
Definition show (b n : Z) : string := show_ (Z.to_nat (Z.log2 n)) b n "".
Definition pystr (z : Z) : string := if z <? 0 then "-" ++ show 10 (- z) else show 10 z.
Definition digit (c : ascii) : option Z :=
  match index 0 (String c "") "0123456789abcdef" with
  | Some n => Some (Z.of_nat n)
  | None => match index 0 (String c "") "ABCDEF" with Some n => Some (10 + Z.of_nat n) | None => None end
  end.
Fixpoint digits_ (b acc : Z) (s : string) : option Z :=
  match s with
  | "" => Some acc
  | String c r => match digit c with Some d => if d <? b then digits_ b (acc * b + d) r else None | None => None end
  end.
(** [int(s, b)]; [None]: ValueError *)
Definition base_mark (b : Z) (c : ascii) : bool :=
  if b =? 16 then Ascii.eqb c "x" || Ascii.eqb c "X" else if b =? 8 then Ascii.eqb c "o" || Ascii.eqb c "O"
  else if b =? 2 then Ascii.eqb c "b" || Ascii.eqb c "B" else false.
Definition pyint (b : Z) (s : string) : option Z :=
  let '(neg, r) := match s with
                   | String c r => if Ascii.eqb c "-" then (true, r) else if Ascii.eqb c "+" then (false, r) else (false, s)
                   | "" => (false, s)
                   end in
  let r' := match r with String z (String p q) => if Ascii.eqb z "0" && base_mark b p then q else r | _ => r end in
  match r' with
  | "" => None
  | _ => option_map (fun n => if neg then - n else n) (digits_ b 0 r')
  end.
(** [s.replace('_', '')] *)
Fixpoint strip (s : string) : string :=
  match s with "" => "" | String c r => if Ascii.eqb c "_" then strip r else String c (strip r) end.
(** [re.search(r'c(.+)', s)], group 1 *)
Fixpoint after (c : ascii) (s : string) : option string :=
  match s with "" => None | String a r => if Ascii.eqb a c then Some r else after c r end.
Definition search (c : ascii) (s : string) : option string := match after c s with Some "" => None | o => o end.
(** [re.search(r'(.+)\'c.+', s)], group 1: up to the last quote followed by [c] and something else *)
Fixpoint before (c : ascii) (s : string) : option string :=
  match s with
  | "" => None
  | String a r =>
      match before c r with
      | Some p => Some (String a p)
      | None => match r with
                | String a2 (String _ _) => if Ascii.eqb a "'" && Ascii.eqb a2 c then Some "" else None
                | _ => None
                end
      end
  end.
Definition search_width (c : ascii) (s : string) : option string := match before c s with Some "" => None | o => o end.
Fixpoint every (p : ascii -> bool) (s : string) : bool := match s with "" => true | String c r => p c && every p r end.
Definition nonempty (s : string) : bool := match s with "" => false | _ => true end.

(** ** [Int] *)
Inductive pyval := VI (z : Z) | VS (s : string).
Record intc := mkInt { ival : pyval; iwidth : option Z; ibase : option Z; isigned : bool }.

(** [check_int_hex] ... [check_int_dec_pure] [vtypes.py:35-57] *)
Definition xz (c : ascii) : bool := existsb (Ascii.eqb c) ["x"; "z"; "X"; "Z"]%char.
Definition below (b : Z) (c : ascii) : bool := match digit c with Some d => d <? b | None => false end.
Definition check (b : Z) (s : string) : bool := nonempty s && every (fun c => below b c || xz c) s.
Definition check_pure (s : string) : bool := nonempty s && every (below 10) s.
(** [str_to_signed] [vtypes.py:27-32] *)
Definition str_to_signed (s : string) : bool := match search "s" (strip s) with Some _ => true | None => false end.
(** [str_to_value] [vtypes.py:60-104]; [None]: ValueError *)
Definition value_of (b : Z) (v : string) : option (pyval * option Z) :=
  match pyint b v with
  | Some z => Some (VI z, Some b)
  | None => if check b v then Some (VS v, Some b) else None
  end.
Definition str_to_value (s : string) : option (pyval * option Z) :=
  let t := strip s in
  match search "h" t with Some v => value_of 16 v | None =>
  match search "d" t with Some v => value_of 10 v | None =>
  match search "o" t with Some v => value_of 8 v | None =>
  match search "b" t with Some v => value_of 2 v | None =>
  match pyint 10 t with
  | Some z => Some (VI z, None)
  | None => if check_pure t then Some (VS t, None) else None
  end end end end end.
(** [str_to_width] [vtypes.py:107-121]; outer [None]: ValueError *)
Definition str_to_width (s : string) : option (option Z) :=
  let t := strip s in
  match search_width "h" t with Some v => option_map Some (pyint 10 v) | None =>
  match search_width "d" t with Some v => option_map Some (pyint 10 v) | None =>
  match search_width "o" t with Some v => option_map Some (pyint 10 v) | None =>
  match search_width "b" t with Some v => option_map Some (pyint 10 v) | None => Some None
  end end end end.
(** [Int(value)] for a number [vtypes.py:822-826] *)
Definition int_num (v : Z) (w b : option Z) (sg : bool) : intc := mkInt (VI v) w b (if v <? 0 then true else sg).
(** [Int(value)] for a text [vtypes.py:827-847]; a base given beside the text replaces the one read,
    and the value is checked once more if it is not a number *)
Definition int_text (s : string) (w b : option Z) (sg : bool) : option intc :=
  match str_to_value s with
  | None => None
  | Some (v, b0) =>
      let b1 := match b with Some _ => b | None => b0 end in
      let ok := match v, b1 with
                | VI _, _ => true
                | VS t, None => check_pure t
                | VS t, Some k => if (k =? 16) || (k =? 10) || (k =? 8) || (k =? 2) then check k t else false
                end in
      if ok then
        match (match w with Some _ => Some w | None => str_to_width s end) with
        | None => None
        | Some w1 => Some (mkInt v w1 b1 (if sg then true else str_to_signed s))
        end
      else None
  end.

(** ** [visit_Int] [to_verilog.py:58-123]; [None]: ValueError *)
Definition letter (b : Z) : option ascii :=
  if b =? 2 then Some "b"%char else if b =? 8 then Some "o"%char else if b =? 10 then Some "d"%char else if b =? 16 then Some "h"%char else None.
Definition width_text (w : option Z) : string := match w with Some w => if w =? 0 then "" else pystr w | None => "" end.
Definition print_int (c : intc) : option string :=
  let '(minus, v) := match ival c with
                     | VS s => match after "-" s with Some r => ("-", VS r) | None => ("", VS s) end
                     | VI z => if z <? 0 then ("-", VI (Z.abs z)) else ("", VI z)
                     end in
  let body b := match v with VS s => s | VI z => show b z end in
  match ibase c with
  | None => Some (minus ++ width_text (iwidth c) ++
                  (if isigned c then "'sd" else if nonempty (width_text (iwidth c)) then "'d" else "") ++ body 10)
  | Some b => match letter b with
              | Some l => Some (minus ++ width_text (iwidth c) ++ (if isigned c then "'s" else "'") ++ String l (body b))
              | None => None
              end
  end.
(** ** [Int.__str__] [vtypes.py:867-918] *)
Definition str_int (c : intc) : option string :=
  let body b := match ival c with VS s => s | VI z => if z <? 0 then "-" ++ show b (- z) else show b z end in
  match ibase c with
  | None => Some (width_text (iwidth c) ++
                  (if isigned c then "'sd" else if nonempty (width_text (iwidth c)) then "'d" else "") ++ body 10)
  | Some b => match letter b with
              | Some l => Some (width_text (iwidth c) ++ (if isigned c then "'s" else "'") ++ String l (body b))
              | None => None
              end
  end.
