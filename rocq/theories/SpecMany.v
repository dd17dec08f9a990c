(** What the 1-of-n OT is given. *)
From Coq Require Import List NArith Bool Arith.
From Verif Require Import Base SpecOt MProc.
Import ListNotations.
Open Scope N_scope.

(** Up to 32 pairs of 32-byte keys: what the internal OT has to carry. *)
Definition key_pairs (ks : list (bytes * bytes)) : Prop :=
  (length ks <= 32)%nat /\ Forall (fun k => array_ok 32 (fst k) /\ array_ok 32 (snd k)) ks.

(** Messages of the same positive length. *)
Definition same_length (messages : list bytes) : Prop :=
  exists s, (1 <= s)%nat /\ Forall (fun m : bytes => length m = s) messages.

(** How a core count fits a domain: up to 4 rows are computed by one thread; otherwise the rows are
    divided over min(2^d, cores) threads. *)
Definition fits (cores d : nat) : Prop :=
  (d <= 2)%nat \/ (2 ^ d <= cores)%nat \/ ((1 <= cores)%nat /\ (2 ^ d mod cores = 0)%nat).
