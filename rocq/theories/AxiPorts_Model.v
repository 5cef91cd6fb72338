(** The simulated memory with several AXI ports: [AxiMultiportMemoryModel].
    Modelled code: [types/axi.py:3488-3850].

    The statements that [_make_fsms] adds for a port [3614-3850] are those of [_make_fsm] of the
    memory with one port [3030-3266], with registers of its own; the memory is shared.  A port is
    therefore the machine of AxiMem_Model.v without the memory.  All stores of a cycle are
    statements of one always block, in the order of the ports. *)
From Verif Require Import Base AxiMem_Model.
Open Scope Z_scope.

(** the registers of a port: FIFOs, state machines and counters [3544-3582,3624-3655] *)
Record port := mkPort { q_w : wside; q_r : rside; q_s : slp }.
(** all ports, numbered from 0, and the memory [3609-3610] *)
Record ports := mkPorts { o_port : nat -> port; o_mem : Z -> Z }.
(** a port as a memory with one port *)
Definition view (s : ports) (j : nat) : axim :=
  let q := o_port s j in mkAm (q_w q) (q_r q) (q_s q) (o_mem s).

(** stores of a port in a cycle [3728-3732] *)
Definition port_store (p : mp) (s : ports) (m : Z -> Z) (j : nat) : Z -> Z :=
  w_mem p (q_w (o_port s j)) (awake_w p (q_s (o_port s j))) m.
(** a function whose first values are kept in a table: it is [f], see [tab_ok] *)
Definition tab {A} (n : nat) (f : nat -> A) : nat -> A :=
  let l := map f (seq 0 n) in fun j => match nth_error l j with Some x => x | None => f j end.
(** one clock cycle with [n] ports [3614-3850] *)
Definition ports_step (p : mp) (n : nat) (s : ports) (i : nat -> axi_in) : ports :=
  mkPorts (tab n (fun j => let t := am_step p (view s j) (i j) in mkPort (a_w t) (a_r t) (a_s t)))
          (fold_left (port_store p s) (seq 0 n) (o_mem s)).
Definition ports_init (m1 m2 m3 : nat -> Z -> Z) (m0 : Z -> Z) : ports :=
  mkPorts (fun j => mkPort (w_init (m1 j) (m2 j)) (r_init (m3 j)) (mkSlp 0 0)) m0.
