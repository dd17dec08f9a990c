(** What the key exchange compares for long passwords. *)
From Coq Require Import List NArith Bool Arith.
From Verif Require Import Base SpecWires SpecBincode.
Import ListNotations.
Open Scope N_scope.

(** The modulus of the sum of the bits for passwords of [l] bytes: the number of bits is first cut to
    16 bits. *)
Definition sum_modulus (l : nat) : N := N.of_nat (l * 8) mod 65536 + 1.
(** Lengths at which this modulus is one the wires can add in (and the wires can be numbered). *)
Definition workable_length (l : nat) : Prop :=
  (1 <= l)%nat /\ supported (sum_modulus l) /\ usize_ok (l * 64).
