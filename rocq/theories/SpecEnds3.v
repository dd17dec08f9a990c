(** Well-formed last frames of the internal OT of the one-out-of-many OT. *)
From Coq Require Import List NArith Arith.
From Verif Require Import Base MBincode SpecEnds.
Import ListNotations.
Open Scope N_scope.

(** The bits of an index, the lowest first. *)
Definition index_bits (choice : N) (d : nat) : list bool := map (fun i => N.testbit choice (N.of_nat i)) (seq 0 d).

(** The ciphertexts that belong to the choices have a whole number of 32-byte keys. *)
Definition whole_keys (cs : list bool) (pay : list (bytes * bytes)) : Prop :=
  Forall2 (fun (c : bool) (e : bytes * bytes) => (length (if c then snd e else fst e) mod 32)%nat = 0%nat) cs pay.

(** The frame holds exactly one pair of ciphertexts for each choice; a debug build also looks at the lengths. *)
Definition complete (p : profile) (cs : list bool) (l : list bytes) : Prop :=
  exists m rest pay, l = m :: rest /\ deserialize dec_payload m = Ok pay /\ length pay = length cs /\
    (p = Debug -> whole_keys cs pay).
(** The frame is a list of pairs, but not such a list. *)
Definition incomplete (p : profile) (cs : list bool) (l : list bytes) : Prop :=
  exists m rest pay, l = m :: rest /\ deserialize dec_payload m = Ok pay /\
    ~ (length pay = length cs /\ (p = Debug -> whole_keys cs pay)).
