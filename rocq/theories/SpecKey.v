(** What depends on the hashes that the keys are made of. *)
From Coq Require Import List NArith Bool Arith.
From Verif Require Import Base MProc MFpake SpecProc SpecOt.
Import ListNotations.
Open Scope N_scope.

(** Two hash functions that differ on strings of 42 bytes only.  Half keys are hashes of such strings (8 bytes
    wire number, 2 bytes value, 32 bytes label). *)
Definition off42 (sha sha' : bytes -> bytes) : Prop := forall y, length y <> 42%nat -> sha' y = sha y.
(** Two hash functions that differ at [x] only. *)
Definition off_point (x : bytes) (sha sha' : bytes -> bytes) : Prop := forall y, y <> x -> sha' y = sha y.

(** A protocol that does not depend on the hashes of strings of 42 bytes. *)
Definition ignores42 {A} (P : (bytes -> bytes) -> proc A) : Prop :=
  forall sha sha', hash32 sha -> hash32 sha' -> off42 sha sha' -> peq (P sha') (P sha).

(** The samples of a garbling are arrays of 32 bytes. *)
Definition samples32 (g : garbling) : Prop :=
  (forall m, length (g_rd g m) = 32%nat) /\ (forall i, length (g_ri g i) = 32%nat).

(** Program [P] was fed the frames [ins] and sent [out]: for every K there is a hash function that differs from
    [sha] at [x] only, with which the program sends the same frames and ends with the key K. *)
Definition open_at (P : (bytes -> bytes) -> proc bytes) (sha : bytes -> bytes) (x : bytes) (ins out : list bytes) : Prop :=
  forall K, array_ok 32 K -> exists sha', hash32 sha' /\ off_point x sha sha' /\ feed (P sha') ins = (Ok K, out).
