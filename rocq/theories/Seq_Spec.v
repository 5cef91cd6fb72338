(** What a user of Seq expects, stated without registers for delays or chained ifs: every
    request is an "effect" on the user's registers as a function of the history of the
    signals (newest first; the head is the current cycle). *)
From Verif Require Import Base Vlog Seq_Model.
Open Scope Z_scope.

Definition is_user (v : var) : Prop := match v with User _ => True | _ => False end.
Definition user_expr (e : expr) : Prop := forall v, In v (expr_vars e) -> is_user v.
Definition user_stmt (s : stmt) : Prop :=
  (forall v, In v (writes s) -> is_user v) /\ (forall v, In v (reads s) -> is_user v).

(** A user-level request. *)
Inductive request :=
| RAssign (conds : list expr) (delay keep : option nat) (lazy eager : bool) (ss : list stmt)
    (* seq.If( *conds).Delay(delay).Keep(keep)[.LazyCond()][.EagerVal()]( *ss) *)
| RChain (c : list expr) (ss : list stmt) (elifs : list (list expr * list stmt)) (els : option (list stmt))
    (* seq.If( *c)( *ss); seq.Elif( *c')( *ss'); ... ; seq.Else( *els) *).

(** The method calls it stands for. *)
Definition ops_of (r : request) : list op :=
  match r with
  | RAssign cs d k lz eg ss =>
      [OIf cs] ++ match d with Some n => [ODelay n] | None => [] end
               ++ match k with Some n => [OKeep n] | None => [] end
               ++ (if lz then [OLazy] else []) ++ (if eg then [OEager] else []) ++ [OCall ss]
  | RChain c ss elifs els =>
      [OIf c; OCall ss] ++ flat_map (fun p => [OElif (fst p); OCall (snd p)]) elifs
                        ++ match els with Some e => [OElse; OCall e] | None => [] end
  end.

Section Effects.
  Variable fit : var -> Z -> Z.

  Definition effect := list env -> env -> env.
  Definition all_true (e : env) (cs : list expr) : bool := forallb (fun c => truth (eval e c)) cs.

  (** A plain assignment whose right-hand side is read in [ev] (the request cycle), its index
      in [now]; other statements are executed as they are. *)
  Definition exec_at (ev now nxt : env) (s : stmt) : env :=
    match s with SSub l e => assign fit l (eval ev e) now nxt | _ => exec fit now nxt s end.

  (** "[d] cycles after a cycle in which the conditions held (or, lazily, hold now), run [ss]". *)
  Definition assign_effect (cs : list expr) (lazy eager : bool) (ss : list stmt) (d : nat) : effect :=
    fun h nxt =>
      match h, nth_error h d with
      | now :: _, Some past =>
          if all_true (if lazy then now else past) cs then
            if eager then fold_left (exec_at past now) ss nxt else execs fit now nxt ss
          else nxt
      | _, _ => nxt
      end.

  (** "the first branch whose conditions hold now". *)
  Fixpoint first_branch (now : env) (br : list (list expr * list stmt)) (els : option (list stmt)) : list stmt :=
    match br with
    | [] => match els with Some e => e | None => [] end
    | (c, ss) :: r => if all_true now c then ss else first_branch now r els
    end.
  Definition chain_effect (br : list (list expr * list stmt)) (els : option (list stmt)) : effect :=
    fun h nxt => match h with now :: _ => execs fit now nxt (first_branch now br els) | [] => nxt end.

  (** The effects of a request, each with its delay. *)
  Definition effects_of (r : request) : list (nat * effect) :=
    match r with
    | RAssign cs d k lz eg ss =>
        let d0 := match d with Some n => n | None => O end in
        let n := match k with Some n => n | None => 1%nat end in
        map (fun i => ((d0 + i)%nat, assign_effect cs lz eg ss (d0 + i)%nat)) (seq 0 n)
    | RChain c ss elifs els => [(O, chain_effect ((c, ss) :: elifs) els)]
    end.

  (** In one cycle the effects apply in order of decreasing delay (so that an undelayed
      assignment beats a delayed one), requests with equal delay in program order. *)
  Definition effects_at (fx : list (nat * effect)) (d : nat) : list effect :=
    map snd (filter (fun p => Nat.eqb (fst p) d) fx).
  Definition max_fx (fx : list (nat * effect)) : nat := fold_right (fun p m => Nat.max (fst p) m) O fx.
  Definition spec_step (fx : list (nat * effect)) (h : list env) (nxt : env) : env :=
    fold_left (fun n f => f h n) (flat_map (effects_at fx) (rev (seq 0 (S (max_fx fx))))) nxt.

  (** External inputs of a cycle override the signals they drive. *)
  Definition input := nat -> option Z.
  Definition merge (i : input) (s : env) : env :=
    fun v => match v with User n => match i n with Some z => z | None => s v end | _ => s v end.

  (** Signals seen in each cycle: by the specification, and by the emitted always block. *)
  Fixpoint spec_trace (fx : list (nat * effect)) (past : list env) (s : env) (ins : list input) : list env :=
    match ins with
    | [] => []
    | i :: r => let now := merge i s in
                now :: spec_trace fx (now :: past) (spec_step fx (now :: past) now) r
    end.
  Fixpoint code_trace (code : list stmt) (s : env) (ins : list input) : list env :=
    match ins with
    | [] => []
    | i :: r => let now := merge i s in now :: code_trace code (tick fit code now) r
    end.
End Effects.

Definition user_agree (e1 e2 : env) : Prop := forall v, is_user v -> e1 v = e2 v.

(** Widths: condition registers have one bit, value registers the width of what they delay. *)
Definition fit_ok (fit : var -> Z -> Z) : Prop :=
  (forall k i x, fit (CondR k i) x = x mod 2) /\
  (forall n k i x, fit (SbstR n k i) x = fit (User n) x) /\
  (forall w k i x, fit (SbstG w k i) x = x mod 2 ^ Z.of_nat w) /\
  (forall n x, fit (User n) (fit (User n) x) = fit (User n) x) /\
  (forall n, fit (User n) 0 = 0).

(** Requests covered: they mention only user signals; a condition that must survive in a
    one-bit delay register is 0/1-valued (several conditions always are: they are ANDed). *)
Definition one_bit (c : expr) : Prop := forall e, eval e c = 0 \/ eval e c = 1.
Definition is_delayed (d k : option nat) : Prop :=
  match d, k with None, None | Some O, None => False | _, _ => True end.
Definition request_ok (r : request) : Prop :=
  match r with
  | RAssign cs d k lz eg ss =>
      Forall user_expr cs /\ Forall user_stmt ss /\
      (lz = false -> is_delayed d k -> match cs with [c] => one_bit c | _ => True end) /\
      (eg = true -> Forall (fun s => match s with SSub (LSlice _ m l) _ => 0 <= m - l + 1 | _ => True end) ss)
  | RChain c ss elifs els =>
      c <> [] /\ Forall user_expr c /\ Forall user_stmt ss /\
      Forall (fun p => fst p <> [] /\ Forall user_expr (fst p) /\ Forall user_stmt (snd p)) elifs /\
      match els with Some e => Forall user_stmt e | None => True end
  end.

(** ** Prev: values on a trace *)
Definition val_at (tr : list env) (t : nat) (x : expr) : option Z :=
  match nth_error tr t with Some e => Some (eval e x) | None => None end.
(** The cycles before [t] in which [c] held, newest first. *)
Fixpoint enabled_past (tr : list env) (c : expr) (t : nat) : list env :=
  match t with
  | O => []
  | S t' => match nth_error tr t' with
            | Some e => if truth (eval e c) then e :: enabled_past tr c t' else enabled_past tr c t'
            | None => []
            end
  end.

(** ** Reset: what a block drives *)
Inductive assigns : stmt -> lhs -> Prop :=
| AsSub l e : assigns (SSub l e) l
| AsThen c t f s l : In s t -> assigns s l -> assigns (SIf c t f) l
| AsElse c t f s l : In s f -> assigns s l -> assigns (SIf c t f) l
| AsCase e ws k b s l : In (k, b) ws -> In s b -> assigns s l -> assigns (SCase e ws) l.

(** Bit [j] of its register is among the bits [l] denotes in state [s]. *)
Definition covers (s : env) (l : lhs) (j : Z) : Prop :=
  match l with LVar _ => True | LBit _ p => eval s p = j | LSlice _ m lo => lo <= j <= m end.
Definition lhs_wf (s : env) (l : lhs) : Prop :=
  match l with LVar _ => True | LBit _ p => 0 <= eval s p | LSlice _ m lo => 0 <= lo <= m end.
(** Registers store the low [width v] bits of what is assigned. *)
Definition keeps_bits (width : var -> Z) (fit : var -> Z -> Z) : Prop :=
  forall v x j, 0 <= j < width v -> Z.testbit (fit v x) j = Z.testbit x j.

(** Somewhere in the code there is an assignment to [l]. *)
Definition drives (code : list stmt) (l : lhs) : Prop := exists s, In s code /\ assigns s l.

(** ** Restrictions on arbitrary call sequences: the user's statements assign user registers
    only; all unconditional Prevs of register [n] use initval [iv]. *)
Definition op_user (o : op) : Prop :=
  match o with OCall ss => forall v, In v (flat_map writes ss) -> is_user v | _ => True end.
Definition op_iv (n : nat) (iv : Z) (o : op) : Prop :=
  match o with OPrev n' _ iv' None => n' = n -> iv' = iv | _ => True end.
