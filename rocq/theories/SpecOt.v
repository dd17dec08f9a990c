(** What the cryptographic building blocks are assumed to provide, and what oblivious
    transfer should achieve.  These predicates appear as hypotheses of theorems only. *)
From Coq Require Import List NArith Bool.
From Verif Require Import Base MBincode SpecBincode MProc MOt.
Import ListNotations.
Open Scope N_scope.

(** A hash function with 32-byte digests; a byte generator of the requested length. *)
Definition hash32 (sha : bytes -> bytes) : Prop := forall x, length (sha x) = 32%nat /\ bytes_ok (sha x).
Definition generator (g : bytes -> nat -> bytes) : Prop :=
  forall s n, length (g s n) = n /\ bytes_ok (g s n).

(** Two different inputs with the same digest. *)
Definition clash (sha : bytes -> bytes) (a b : bytes) : Prop := a <> b /\ sha a = sha b.

(** An abelian group with an injective 32-byte encoding. *)
Record curve_ok (G : curve) : Prop := {
  co_assoc : forall P Q R, padd G P (padd G Q R) = padd G (padd G P Q) R;
  co_comm : forall P Q, padd G P Q = padd G Q P;
  co_zero : forall P, padd G (pzero G) P = P;
  co_neg : forall P, padd G (pneg G P) P = pzero G;
  co_enc : forall P, decompress G (compress G P) = Some P;
  co_len : forall P, length (compress G P) = 32%nat
}.
(** The base point has order [ord]. *)
Definition base_order (G : curve) (ord : N) : Prop := 0 < ord /\ smul G ord (base G) = pzero G.

(** What the receiver should get: of each pair the selected message. *)
Definition selected (c : bool) (m : bytes * bytes) : bytes := if c then snd m else fst m.
Definition is_selection (msgs : list (bytes * bytes)) (cs : list bool) (out : list bytes) : Prop :=
  length out = length cs /\
  forall i m c, nth_error msgs i = Some m -> nth_error cs i = Some c ->
    nth_error out i = Some (selected c m).

(** A correct 1-out-of-2 OT for the message lists satisfying [ok]. *)
Definition ot_correct (ok : list (bytes * bytes) -> Prop)
  (sender : list (bytes * bytes) -> proc unit) (receiver : list bool -> proc (list bytes)) : Prop :=
  forall msgs cs, length cs = length msgs -> ok msgs ->
    exists out, runs (sender msgs) (receiver cs) (Ok tt) (Ok out) /\ is_selection msgs cs out.

(** An array of [n] bytes. *)
Definition array_ok (n : nat) (b : bytes) : Prop := length b = n /\ bytes_ok b.
