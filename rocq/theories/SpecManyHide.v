(** What the row number [i] of a 1-of-n OT is hidden under. *)
From Coq Require Import List NArith Bool Arith.
From Verif Require Import Base SpecOt MProc.
Import ListNotations.
Open Scope N_scope.

Definition bit (i j : nat) : bool := N.testbit (N.of_nat i) (N.of_nat j).
(** Of the key pair number [j], the key for the value [b] of bit [j] of an index. *)
Definition key_for (keys : list (bytes * bytes)) (j : nat) (b : bool) : bytes := selected b (nth j keys ([], [])).
(** What is hashed for the bit [j] of the row [i]. *)
Definition row_seed (keys : list (bytes * bytes)) (i j : nat) : bytes := be_bytes 4 (N.of_nat i) ++ key_for keys j (bit i j).

(** All keys are different, and the hash function has no collision among the [d * 2^d] inputs. *)
Definition keys_differ (keys : list (bytes * bytes)) : Prop :=
  forall j j' b b', (j < length keys)%nat -> (j' < length keys)%nat -> key_for keys j b = key_for keys j' b' -> j = j' /\ b = b'.
Definition seeds_differ (sha : bytes -> bytes) (keys : list (bytes * bytes)) : Prop :=
  forall i i' j j', (i < 2 ^ length keys)%nat -> (i' < 2 ^ length keys)%nat -> (j < length keys)%nat -> (j' < length keys)%nat ->
    sha (row_seed keys i j) = sha (row_seed keys i' j') -> row_seed keys i j = row_seed keys i' j'.

(** The generator [g'] is [g] except on seeds which need a key that the receiver of the message [c]
    does not get. *)
Definition differs_out_of_sight (sha : bytes -> bytes) (keys : list (bytes * bytes)) (c : nat) (g g' : bytes -> nat -> bytes) : Prop :=
  forall x n, g' x n <> g x n ->
    exists i j, (i < 2 ^ length keys)%nat /\ (j < length keys)%nat /\ bit i j <> bit c j /\ x = sha (row_seed keys i j).
