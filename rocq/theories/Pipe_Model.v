(** The pipeline generator (veriloggen/pipeline/pipeline.py): construction of the registers and
    handshake wires, and one clock cycle of the generated logic.  Left out: register widths
    (registers hold what is assigned), Verilog variables inside expressions, [prev], [reset] of
    accumulators, [draw_graph]. *)
From Verif Require Import Base.
Open Scope nat_scope.

(** ** Construction *)
(** expressions: pipeline variables, Python ints, unary operators, everything else of [pack]
    (binary operators, Pointer, Slice, Cat, Repeat, Cond) *)
Inductive pe := PVar (v : nat) | PInt (z : Z) | PUn (o : nat) (a : pe) | POp (o : nat) (args : list pe).
(** operators of an accumulator [pipeline.py:101-147] *)
Inductive aop := ABin (o : nat) | AUn (o : nat).
(** a register of [_make_tmp]: data, the valid and ready signals of its sources, initial value, operators *)
Record reg := mkR { rdata : pe; rvalid : list nat; rready : list nat; rinit : Z; racc : list aop }.
(** [_PipelineVariable] [pipeline.py:349-372]; the variables are numbered as in [Pipeline.vars];
    [nreg]: [None] for an input *)
Record node := mkN { nstage : option nat; nvalid : bool; nready : bool; nreg : option reg }.
(** what [_connect_ready] puts on a ready wire [pipeline.py:28-43]: [ordy] of a register, the ready
    of an output; a wire with neither is 1 *)
Inductive cond := COrdy (j : nat) | COut (k : nat).
Record pl := mkP { nodes : list node; links : list (nat * cond); maxst : nat }.
Definition new_pl : pl := mkP [] [] 0.

Definition no_node : node := mkN None false false None.
Definition get (s : pl) (v : nat) : node := nth v (nodes s) no_node.
Definition notnil {A} (l : list A) : bool := match l with [] => false | _ => true end.
(** [Pipeline.input] [pipeline.py:67-74] *)
Definition input (s : pl) (valid ready : bool) : nat * pl :=
  (length (nodes s), mkP (nodes s ++ [mkN (Some 0) valid ready None]) (links s) (maxst s)).

(** stage, data, valid and ready of an expression; no valid: [] *)
Record res := mkRes { sstage : option nat; sdata : pe; svalid : list nat; sready : list nat }.
(** [DataVisitor.visit__PipelineVariable] [pipeline.py:598-602] *)
Definition visit_var (s : pl) (v : nat) : res :=
  let n := get s v in mkRes (nstage n) (PVar v) (if nvalid n then [v] else []) (if nready n then [v] else []).
(** [_make_tmp] [pipeline.py:212-299] and the new variable *)
Definition add_reg (s : pl) (r : res) (init : Z) (acc : list aop) : nat * pl :=
  let id := length (nodes s) in
  let n := mkN (option_map S (sstage r)) (notnil (svalid r)) (notnil (sready r)) (Some (mkR (sdata r) (svalid r) (sready r) init acc)) in
  (id, mkP (nodes s ++ [n]) (links s ++ map (fun i => (i, COrdy id)) (sready r)) (maxst s)).
(** the rest of [Pipeline.stage] [pipeline.py:78-97] *)
Definition stage_res (s : pl) (r : res) (init : Z) : nat * pl :=
  let '(id, s') := add_reg s r init [] in
  (id, mkP (nodes s') (links s') (match sstage r with Some k => Nat.max (S k) (maxst s') | None => maxst s' end)).
(** [stage] of a variable, n times *)
Fixpoint delays (n : nat) (s : pl) (v : nat) : nat * pl :=
  match n with O => (v, s) | S n => let '(v', s') := stage_res s (visit_var s v) 0 in delays n s' v' end.
Definition max_stage (l : list res) : option nat :=
  fold_left (fun x r => match x, sstage r with None, y => y | x, None => x | Some a, Some b => Some (Nat.max a b) end) l None.
(** [pack_valid], [pack_ready] over the arguments [pipeline.py:531-543]; the argument None of the
    first step is the empty list *)
Definition packed (st : option nat) (o : nat) (l : list res) : res :=
  mkRes st (POp o (map sdata l)) (flat_map svalid l) (flat_map sready l).
(** [pack] [pipeline.py:545-586]: the arguments are visited, those of an earlier stage are delayed
    ([new_args]: [Some v]), and all are visited again *)
Section Pack.
  Variable vis : pe -> pl -> res * pl.
  Fixpoint visits (l : list pe) (s : pl) : list res * pl :=
    match l with [] => ([], s) | a :: l => let '(r, s) := vis a s in let '(rs, s) := visits l s in (r :: rs, s) end.
  Definition delay_arg (m : nat) (a : pe) (r : res) (s : pl) : option nat * pl :=
    match sstage r with
    | None => (None, s)
    | Some k => if k =? m then (None, s) else
        let '(r', s) := vis a s in
        let '(v, s) := stage_res s r' 0 in
        let '(v, s) := delays (m - k - 1) s v in (Some v, s)
    end.
  Fixpoint delay_args (m : nat) (l : list pe) (rs : list res) (s : pl) : list (option nat) * pl :=
    match l, rs with
    | a :: l, r :: rs => let '(x, s) := delay_arg m a r s in let '(xs, s) := delay_args m l rs s in (x :: xs, s)
    | _, _ => ([], s)
    end.
  Fixpoint revisits (l : list pe) (xs : list (option nat)) (s : pl) : list res * pl :=
    match l, xs with
    | a :: l, x :: xs =>
        let '(r, s) := match x with Some v => (visit_var s v, s) | None => vis a s end in
        let '(rs, s) := revisits l xs s in (r :: rs, s)
    | _, _ => ([], s)
    end.
  Definition pack (o : nat) (args : list pe) (s : pl) : res * pl :=
    let '(rs, s) := visits args s in
    match max_stage rs with
    | None => (packed None o rs, s)
    | Some m =>
        let '(news, s) := delay_args m args rs s in
        let '(rs, s) := revisits args news s in (packed (Some m) o rs, s)
    end.
End Pack.
(** [DataVisitor.visit] [pipeline.py:462-477, 598-665]; a unary operator is visited as its operand *)
Fixpoint visit (e : pe) (s : pl) {struct e} : res * pl :=
  match e with
  | PVar v => (visit_var s v, s)
  | PInt z => (mkRes None (PInt z) [] [], s)
  | PUn _ a => visit a s
  | POp o args => pack visit o args s
  end.
(** [Pipeline.stage] [pipeline.py:78-97] *)
Definition stage (s : pl) (e : pe) (init : Z) : nat * pl := let '(r, s) := visit e s in stage_res s r init.
(** [Pipeline._accumulate] without [resetcond] [pipeline.py:181-199] *)
Definition accumulate (s : pl) (e : pe) (ops : list aop) (init : Z) : nat * pl := let '(r, s) := visit e s in add_reg s r init ops.
(** [_PipelineVariable.make_output] [pipeline.py:401-435]; [k]: the number of the output's ready, if any *)
Definition make_output (s : pl) (v : nat) (k : option nat) : nat * pl :=
  let '(o, s) := match nstage (get s v) with Some i => delays (maxst s - i) s v | None => (v, s) end in
  (o, mkP (nodes s) (links s ++ match k with Some k => if nready (get s o) then [(o, COut k)] else [] | None => [] end) (maxst s)).

(** A program: its variables are numbered in the order of definition. *)
Inductive cmd := Input (valid ready : bool) | Stage (e : pe) (init : Z) | Acc (e : pe) (ops : list aop) (init : Z).
Fixpoint rename (f : nat -> nat) (e : pe) : pe :=
  match e with PVar v => PVar (f v) | PInt z => PInt z | PUn o a => PUn o (rename f a) | POp o l => POp o (map (rename f) l) end.
(** [ids]: the pipeline variables returned so far *)
Definition exec (c : cmd) (p : list nat * pl) : list nat * pl :=
  let '(ids, s) := p in
  let '(v, s) := match c with
    | Input valid ready => input s valid ready
    | Stage e init => stage s (rename (fun u => nth u ids 0) e) init
    | Acc e ops init => accumulate s (rename (fun u => nth u ids 0) e) ops init
    end in (ids ++ [v], s).
Definition build (cs : list cmd) : list nat * pl := fold_left (fun p c => exec c p) cs ([], new_pl).
(** [make_always] [pipeline.py:150-167]; outputs: variable and number of the ready *)
Definition make_outputs (ids : list nat) (s : pl) (outs : list (nat * option nat)) : list nat * pl :=
  fold_left (fun p o => let '(l, s) := p in let '(v, s) := make_output s (nth (fst o) ids 0) (snd o) in (l ++ [v], s)) outs ([], s).

Definition whole (cs : list cmd) (outs : list (nat * option nat)) : list nat * list nat * pl :=
  let '(ids, s) := build cs in let '(os, s) := make_outputs ids s outs in (ids, os, s).

(** ** One cycle *)
(** contents of the registers; what the environment drives *)
Record st := mkS { dat : nat -> Z; vld : nat -> bool }.
Record drive := mkD { idat : nat -> Z; ivld : nat -> bool; ordy : nat -> bool }.
Section Cycle.
  Variables (sem : nat -> list Z -> Z) (semu : nat -> Z -> Z).
  Fixpoint ev (d : nat -> Z) (e : pe) : Z :=
    match e with PVar v => d v | PInt z => z | PUn o a => semu o (ev d a) | POp o l => sem o (map (ev d) l) end.
  Variable s : pl.
  Definition is_input (i : nat) : bool := match nreg (get s i) with None => true | Some _ => false end.
  Definition data (x : st) (i : drive) (v : nat) : Z := if is_input v then idat i v else dat x v.
  Definition valid (x : st) (i : drive) (v : nat) : bool := if is_input v then ivld i v else vld x v.
  Definition vin (x : st) (i : drive) (r : reg) : bool := forallb (valid x i) (rvalid r).
  (** [tmp_ready | !tmp_valid]; just [tmp_ready] without a valid signal *)
  Definition free (x : st) (rd : nat -> bool) (j : nat) : bool := rd j || (nvalid (get s j) && negb (vld x j)).
  (** the ready wires [pipeline.py:292-297, 430-433] *)
  Definition holds (x : st) (i : drive) (rd : nat -> bool) (c : cond) : bool :=
    match c with
    | COrdy j => free x rd j && match nreg (get s j) with Some r => vin x i r | None => true end
    | COut k => ordy i k
    end.
  Definition conds (v : nat) : list cond := map snd (filter (fun l => fst l =? v) (links s)).
  Definition wires (x : st) (i : drive) (rd : nat -> bool) : Prop := forall v, rd v = forallb (holds x i rd) (conds v).
  (** the accumulator's operators [pipeline.py:257-268] *)
  Definition accum (ops : list aop) (old new : Z) : Z :=
    fold_left (fun d a => match a with ABin o => sem o [old; d] | AUn o => semu o d end) ops new.
  Definition all_ready (rd : nat -> bool) (r : reg) : bool := forallb rd (rready r).
  (** [data_cond], [valid_cond] [pipeline.py:238-255, 270-290]; a later assignment wins *)
  Definition next (x : st) (i : drive) (rd : nat -> bool) : st :=
    mkS (fun j => match nreg (get s j) with
         | None => dat x j
         | Some r =>
             if vin x i r && (if nready (get s j) then all_ready rd r && free x rd j else true)
             then accum (racc r) (dat x j) (ev (data x i) (rdata r)) else dat x j
         end)
        (fun j => match nreg (get s j) with
         | None => vld x j
         | Some r =>
             if nvalid (get s j) then
               if (if nready (get s j) then all_ready rd r && free x rd j else true) then vin x i r
               else if nready (get s j) && (vld x j && rd j) then false else vld x j
             else vld x j
         end).
  Definition start : st := mkS (fun j => match nreg (get s j) with Some r => rinit r | None => 0%Z end) (fun _ => false).
End Cycle.
