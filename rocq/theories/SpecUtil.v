(** Independent specification of the helpers of util.rs. *)
From Coq Require Import List NArith Bool Arith.
From Verif Require Import Base.
Import ListNotations.
Open Scope N_scope.

(** Bit j of a byte string, least significant bit of the first byte first. *)
Definition bit_of (b : bytes) (j : nat) : bool := N.testbit (nth (j / 8) b 0) (N.of_nat (j mod 8)).

(** A byte from (at most) eight bits, least significant first. *)
Fixpoint bits_value (l : list bool) : N :=
  match l with
  | [] => 0
  | b :: l' => (if b then 1 else 0) + 2 * bits_value l'
  end.

(** Bytewise exclusive or, positions by positions. *)
Definition is_xor (a b c : bytes) : Prop :=
  length c = length a /\ forall i, (i < length a)%nat -> nth i c 0 = N.lxor (nth i a 0) (nth i b 0).
