(** Passwords whose number of bits is a multiple of 65536. *)
From Coq Require Import List NArith Bool Arith.
From Verif Require Import Base MFpake SpecWires SpecBincode SpecFpake.
Import ListNotations.
Open Scope N_scope.

(** Lengths in bytes: one or more blocks of 8192 bytes (and the wires can be numbered). *)
Definition whole_blocks (l : nat) : Prop := (1 <= l)%nat /\ N.of_nat l mod 8192 = 0 /\ usize_ok (l * 64).
(** The garbler's coins, for modulus 1 as well: a draw from the range 0..1 is 0. *)
Definition garbling_ok1 (g : garbling) : Prop := garbling_ok g /\ valid_sample 1 (g_rd g 1).
