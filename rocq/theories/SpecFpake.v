(** Distances between passwords, and what the key exchange is given. *)
From Coq Require Import List NArith Bool Arith Permutation.
From Verif Require Import Base MWires MCircuit MGarble MFpake SpecWires SpecCircuit.
Import ListNotations.
Open Scope N_scope.

(** Number of bits in which two byte strings of the same length differ. *)
Definition weight (b : N) : nat := length (filter (N.testbit b) (map N.of_nat (seq 0 8))).
Fixpoint distance (a b : bytes) : nat :=
  match a, b with
  | x :: a', y :: b' => (weight (N.lxor x y) + distance a' b')%nat
  | _, _ => 0%nat
  end.

(** Password lengths (in bytes) for which the sum of the bits fits the wires: see C47 for the others. *)
Definition good_length (l : nat) : Prop := (1 <= l <= 15)%nat \/ (32 <= l <= 4095)%nat.

(** Randomness [garble] may draw for a circuit with binary inputs, and an arbitrary iteration order
    of the hash maps. *)
Definition garbling_ok (g : garbling) : Prop :=
  (forall m, supported m -> valid_sample m (g_rd g m)) /\
  (forall i, valid_sample 2 (g_ri g i)) /\
  (forall gc, gc_circuit (g_order g gc) = gc_circuit gc /\
     Permutation (gc_f (g_order g gc)) (gc_f gc) /\ Permutation (gc_half (g_order g gc)) (gc_half gc)).
