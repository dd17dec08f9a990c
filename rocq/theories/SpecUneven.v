(** Passwords of different lengths. *)
From Coq Require Import List NArith Arith.
From Verif Require Import Base.
Import ListNotations.
Open Scope N_scope.

(** A list of 2^d passwords, the first of l bytes and the others of at least l. *)
Definition uneven_list (d l : nat) (passwords : list bytes) : Prop :=
  (d <= 31)%nat /\ length passwords = (2 ^ d)%nat /\
  (exists p0 rest, passwords = p0 :: rest /\ length p0 = l) /\ Forall (fun pw : bytes => (l <= length pw)%nat) passwords.
