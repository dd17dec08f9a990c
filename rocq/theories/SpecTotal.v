(** Circuits that can be garbled in release mode. *)
From Coq Require Import List NArith Bool Arith.
From Coq Require Import Permutation.
From Verif Require Import Base MWires MCircuit MGarble MFpake SpecWires SpecCircuit.
Import ListNotations.
Open Scope N_scope.

(** A gate that stands at position k of a circuit with [inputs] inputs: it writes the next wire, reads
    earlier ones, and its moduli exist. *)
Definition gate_fits (inputs k : nat) (g : gate) : Prop :=
  g_output g = (inputs + k)%nat /\ Forall (fun i => (i < inputs + k)%nat) (g_inputs g) /\ g_inputs g <> [] /\ g_domain g < 65535 /\
  match g_kind g with
  | GAdd | GMul _ | GProj (PLess _) => True
  | GProj (PMap m) => 0 < m < 65535
  | GAnd => (2 <= length (g_inputs g))%nat /\ g_domain g = 2
  end.
Definition garblable (c : circuit) : Prop :=
  num_inputs c = length (input_domains c) /\ Forall (fun m => m < 65535) (input_domains c) /\ (num_outputs c <= num_wires c)%nat /\
  forall k g, nth_error (gates c) k = Some g -> gate_fits (num_inputs c) k g.

(** The gates read wires of their modulus; every wire exists; every input is read by a gate.  A table
    for another modulus than 2 has at most 32768 rows, so that the sum of two colours fits 16 bits. *)
Definition matched (c : circuit) : Prop :=
  num_wires c = (num_inputs c + length (gates c))%nat /\
  (forall m, In m (input_domains c) -> 1 <= m /\ exists g, In g (gates c) /\ g_domain g = m) /\
  forall g, In g (gates c) -> 1 <= g_domain g /\ (forall i, In i (g_inputs g) -> modulus c i = g_domain g) /\
    match g_kind g with GProj (PMap m) => g_domain g <= 32768 \/ m = 2 | _ => True end.

(** The arrays drawn at random have 32 bytes, and those of the inputs are labels. *)
Definition drawn (c : circuit) (rd : N -> bytes) (ri : nat -> bytes) : Prop :=
  (forall m, length (rd m) = 32%nat /\ bytes_ok (rd m)) /\ (forall i m, nth_error (input_domains c) i = Some m -> valid_sample m (ri i)).

(** The random choices of one garbling, for whatever moduli: see garbling_ok. *)
Definition any_coins (g : garbling) : Prop :=
  (forall m, length (g_rd g m) = 32%nat /\ bytes_ok (g_rd g m)) /\ (forall i, valid_sample 2 (g_ri g i)) /\
  (forall gc, gc_circuit (g_order g gc) = gc_circuit gc /\
     Permutation (gc_f (g_order g gc)) (gc_f gc) /\ Permutation (gc_half (g_order g gc)) (gc_half gc)).
