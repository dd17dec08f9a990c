(** What the programs are given on their command lines. *)
From Coq Require Import List NArith Bool.
From Verif Require Import Base.
Import ListNotations.
Open Scope N_scope.

(** A bit string typed as text: the characters 0 and 1. *)
Definition typed (bits : list bool) : bytes := map (fun b : bool => if b then 49 else 48) bits.
(** Number of positions in which two bit strings differ. *)
Fixpoint differing (a b : list bool) : nat :=
  match a, b with
  | x :: a', y :: b' => ((if xorb x y then 1 else 0) + differing a' b')%nat
  | _, _ => 0%nat
  end.
(** X25519 as far as the handshake needs it. *)
Definition dh_ok (xpub : bytes -> bytes) (xdh : bytes -> bytes -> bytes) : Prop :=
  (forall a, length (xpub a) = 32%nat) /\ (forall a b, xdh a (xpub b) = xdh b (xpub a)).
