(** Verilog number literals, IEEE 1364-2005 section 3.5.1: [[-] [size] ' [s] base digits] or a plain
    decimal number; the minus sign is an operator. *)
From Coq Require Import String Ascii.
From Verif Require Import Base.
Open Scope string_scope.
Open Scope Z_scope.

Record literal := mkLit { negated : bool; size : option Z; lsigned : bool; magnitude : Z }.

Definition code (c : ascii) : Z := Z.of_nat (nat_of_ascii c).
Definition worth (c : ascii) : option Z :=
  if (48 <=? code c) && (code c <=? 57) then Some (code c - 48)
  else if (97 <=? code c) && (code c <=? 102) then Some (code c - 87)
  else if (65 <=? code c) && (code c <=? 70) then Some (code c - 55)
  else None.
(** the value of the digits from the left; underscores do not count, but must not come first *)
Fixpoint number (b acc : Z) (s : string) : option Z :=
  match s with
  | "" => Some acc
  | String c r =>
      if Ascii.eqb c "_" then number b acc r
      else match worth c with Some d => if d <? b then number b (b * acc + d) r else None | None => None end
  end.
Definition numeric (b : Z) (s : string) : option Z :=
  match s with "" => None | String c _ => if Ascii.eqb c "_" then None else number b 0 s end.
Definition radix (c : ascii) : option Z :=
  if Ascii.eqb c "b" || Ascii.eqb c "B" then Some 2 else if Ascii.eqb c "o" || Ascii.eqb c "O" then Some 8
  else if Ascii.eqb c "d" || Ascii.eqb c "D" then Some 10 else if Ascii.eqb c "h" || Ascii.eqb c "H" then Some 16 else None.
(** what follows the quote *)
Definition based (neg : bool) (sz : option Z) (s : string) : option literal :=
  let '(sg, r) := match s with String c r => if Ascii.eqb c "s" || Ascii.eqb c "S" then (true, r) else (false, s) | "" => (false, s) end in
  match r with
  | String c q => match radix c with
                  | Some b => match numeric b q with Some n => Some (mkLit neg sz sg n) | None => None end
                  | None => None
                  end
  | "" => None
  end.
Fixpoint split (s : string) : string * option string :=
  match s with
  | "" => ("", None)
  | String c r => if Ascii.eqb c "'" then ("", Some r) else let '(p, q) := split r in (String c p, q)
  end.
Definition unsigned_literal (neg : bool) (s : string) : option literal :=
  match split s with
  | (p, None) => match numeric 10 p with Some n => Some (mkLit neg None true n) | None => None end
  | ("", Some q) => based neg None q
  | (p, Some q) => match numeric 10 p with Some n => if 0 <? n then based neg (Some n) q else None | None => None end
  end.
Definition read_literal (s : string) : option literal :=
  match s with
  | String c r => if Ascii.eqb c "-" then unsigned_literal true r else unsigned_literal false s
  | "" => None
  end.
