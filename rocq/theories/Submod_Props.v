(** C84: the wrapper for submodules. *)
From Verif Require Import Base Submod_Model Submod_Spec Submod_Proofs.
Open Scope Z_scope.

(** The width of every new variable in the parent is the width of the port of the instance it is made
    for, with overridden parameters too.  Only for children whose copied constants speak of copied
    constants: see the refutation. *)
Theorem C84_widths_partial : forall pre up args c ds, legal c -> legal_args pre args c -> complete args c -> new_consts pre args c = Some ds ->
  forall o, In o (c_ports c) -> eval (declare up ds) (rename pre (o_width o)) = eval (instance up args c) (o_width o).
Proof. exact widths_ok. Qed.
Print Assumptions C84_widths_partial.

(** The instance, whose parameters are given through the new constants, has the constants it would have
    with the arguments themselves. *)
Theorem C84_instance : forall pre up args c ds, legal c -> legal_args pre args c -> new_consts pre args c = Some ds ->
  forall n, instance (declare up ds) (inst_params pre args c) c n = instance up args c n.
Proof. intros pre up args c ds LC. exact (instance_ok pre up args c ds (l_consts c LC)). Qed.
Print Assumptions C84_instance.

(** The constants are made unless there is an argument for a parameter the child does not have. *)
Theorem C84_raises : forall pre args c, new_consts pre args c = None <-> exists n, In n (map fst args) /\ ~ In n (map fst (c_params c)).
Proof. exact raises. Qed.
Print Assumptions C84_raises.

(** Every port is connected, once and in order, to its argument or to the variable made for it; that
    variable is declared once, as a port of the same direction, or as what can stand at the other end. *)
Theorem C84_ports : forall pre argp as_io as_wire c, legal c ->
  conns pre argp as_io as_wire c = map (fun o => (o_name o, match look (o_name o) argp with Some a => a | None => EVar (pre ++ o_name o)%string end)) (c_ports c) /\
  (forall o, In o (c_ports c) -> look (o_name o) argp = None -> ~ (In (o_name o) as_io /\ In (o_name o) as_wire) ->
    exists k, filter (fun x => String.eqb (fst (fst x)) (pre ++ o_name o)%string) (new_vars pre argp as_io as_wire c) = [((pre ++ o_name o)%string, k, rename pre (o_width o))] /\
      (In (o_name o) as_io -> k = KIo (o_dir o)) /\
      (~ In (o_name o) as_io -> k = match o_dir o with DIn => if has (o_name o) as_wire then KWire else KReg | _ => KWire end)) /\
  (forall o, In o (c_ports c) -> look (o_name o) argp <> None -> ~ In (o_name o) as_io -> ~ In (o_name o) as_wire ->
    ~ In (pre ++ o_name o)%string (map (fun x => fst (fst x)) (new_vars pre argp as_io as_wire c))) /\
  (forall x, In x (new_vars pre argp as_io as_wire c) -> exists o, In o (c_ports c) /\ fst (fst x) = (pre ++ o_name o)%string).
Proof.
  intros pre argp as_io as_wire c LC. pose proof (l_ports c LC) as ND. split; [exact (conns_ok pre argp as_io as_wire c ND)|]. split.
  - intros o. exact (var_ok pre argp as_io as_wire c o ND).
  - split; [|exact (vars_only pre argp as_io as_wire c)]. intros o. exact (var_none pre argp as_io as_wire c o ND).
Qed.
Print Assumptions C84_ports.

(** For ports it is different: an argument for a port the child does not have is dropped silently. *)
Theorem C84_unknown_port_refuted : forall pre argp as_io as_wire c n a, legal c -> ~ In n (map o_name (c_ports c)) ->
  conns pre ((n, a) :: argp) as_io as_wire c = conns pre argp as_io as_wire c.
Proof.
  intros pre argp as_io as_wire c n a LC N. rewrite !(conns_ok pre _ as_io as_wire c (l_ports c LC)). apply map_ext_in. intros o O. cbn [look].
  destruct (String.eqb (o_name o) n) eqn:E; [|reflexivity]. apply String.eqb_eq in E. exfalso. apply N. rewrite <- E. apply in_map, O.
Qed.
Print Assumptions C84_unknown_port_refuted.

(** The restriction is the right one: where it fails for a constant in the width of a port, and the parent
    has no names that begin with the prefix, the new variable has no width. *)
Theorem C84_incomplete_refuted : forall pre up args c ds, legal c -> legal_args pre args c -> new_consts pre args c = Some ds -> (forall m, up (pre ++ m)%string = None) ->
  forall n e v o, In (n, e) (c_params c ++ c_locals c) -> In o (c_ports c) -> In n (collect (o_width o)) -> ~ In n (map fst args) ->
  In v (collect e) -> ~ In v (used c) -> ~ In v (map fst args) ->
  eval (declare up ds) (rename pre (o_width o)) = None.
Proof. exact incomplete_width. Qed.
Print Assumptions C84_incomplete_refuted.

(** A child with parameter W, local constant W2 = W + W, and a port that is W2 wide: only W2 is copied,
    and its value speaks of a name the parent never declares. *)
Theorem C84_missing_constant_refuted : exists c ds o, legal c /\ new_consts "s_" [] c = Some ds /\ In o (c_ports c) /\
  eval (instance none [] c) (o_width o) = Some 16 /\ eval (declare none ds) (rename "s_" (o_width o)) = None /\
  ds = [("s_W2", EOp Z.add (EVar "s_W") (EVar "s_W"))]%string.
Proof.
  exists (mkChild [("W", ENum 8)]%string [("W2", EOp Z.add (EVar "W") (EVar "W"))]%string [mkPort "d" DIn (EVar "W2")]).
  eexists. exists (mkPort "d" DIn (EVar "W2")). split; [|split; [reflexivity|split; [left; reflexivity|repeat split]]].
  constructor; cbn.
  - repeat split; try tauto; intuition congruence.
  - intros o v [<-|[]]. cbn. intuition.
  - repeat constructor. intros [].
Qed.
Print Assumptions C84_missing_constant_refuted.

(** a child with an overridden parameter, one that is kept, and a local constant of both *)
Definition kid : child := mkChild [("W", ENum 8); ("D", ENum 3)]%string [("S", EOp Z.mul (EVar "W") (EVar "D"))]%string
  [mkPort "clk" DIn (ENum 1); mkPort "a" DIn (EVar "D"); mkPort "b" DOut (EOp Z.sub (EVar "S") (EVar "W")); mkPort "q" DOut (EVar "W")].
Definition kargs : list (string * ex) := [("W", EOp Z.add (EVar "N") (ENum 1))]%string.
Definition kup : env := set none "N" (Some 15).
Example C84_case : legal kid /\ legal_args "s_" kargs kid /\ complete kargs kid /\ exists ds, new_consts "s_" kargs kid = Some ds /\
  map (fun o => eval (declare kup ds) (rename "s_" (o_width o))) (c_ports kid) = [Some 1; Some 3; Some 32; Some 16] /\
  new_vars "s_" [("clk", EVar "CLK")]%string ["q"]%string [] kid = [("s_q"%string, KIo DOut, EVar "s_W"); ("s_a"%string, KReg, EVar "s_D"); ("s_b"%string, KWire, EOp Z.sub (EVar "s_S") (EVar "s_W"))].
Proof.
  split; [|split; [|split]].
  - constructor; cbn.
    + repeat split; try tauto; cbn; intuition (subst; cbn; intuition congruence).
    + intros o v [<-|[<-|[<-|[<-|[]]]]]; cbn; intuition.
    + repeat constructor; cbn; intuition congruence.
  - intros n a [E|[]]. injection E as <- <-. cbn. split; [auto|]. intros m [H|[]]. discriminate H.
  - intros n e v I U NA V. cbn in *. intuition (try congruence); repeat match goal with H : (_, _) = (_, _) |- _ => injection H as <- <- end; cbn in *; intuition (subst; auto).
  - eexists. split; [reflexivity|]. split; reflexivity.
Qed.
