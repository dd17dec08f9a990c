(** Independent specification of bit matrices. *)
From Coq Require Import List NArith Bool Arith.
From Verif Require Import Base SpecUtil.
Import ListNotations.
Open Scope N_scope.

(** Bit (i,j) of a matrix given by its rows, and of a row-major flat array of rows of [w] bytes. *)
Definition mbit (m : list bytes) (i j : nat) : bool := bit_of (nth i m []) j.
Definition fbit (w : nat) (v : bytes) (i j : nat) : bool := N.testbit (nth (w * i + j / 8) v 0) (N.of_nat (j mod 8)).

(** [r] rows of [c] bytes each. *)
Definition shaped (r c : nat) (m : list bytes) : Prop :=
  length m = r /\ Forall (fun row => length row = c /\ bytes_ok row) m.
