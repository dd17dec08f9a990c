(** The attack of SpecSteal on the third version of the one-of-many key exchange (many_fpake.rs:64-421). *)
From Coq Require Import List NArith Bool Arith.
From Verif Require Import Base MUtil MWires MCircuit MGarble MBincode MProc MOt MApricot MPar MMany MFpake SpecSteal.
Import ListNotations.
Open Scope N_scope.

(** many_fpake.rs:176-266 with [steal] in place of [evaluate].  The circuit has 3n inputs and n gates before the
    projections, which are therefore the gates from 4n on. *)
Definition evil_evaluator_client_v3 (sha : bytes -> bytes) (p : profile) (ot1 : list bool -> proc (list bytes))
    (many_ot : nat -> N -> proc bytes) (ot2 : list bool -> proc (list bytes)) (guess : bytes) (d : nat) (index : N) (t : nat)
    : proc (bytes * bytes * nat) :=
  let n := (length guess * 8)%nat in
  let! m := recv in
  let! gc := lift (deserialize dec_garbled m) in
  let! choices := lift (choice_bits guess n) in
  let! client_encoding := ot1 choices in
  let! encoded_mask := recv in
  let! masked_password := many_ot d index in
  let! choices := lift (choice_bits masked_password n) in
  let! masked_encoding := ot2 choices in
  let! client := lift (payload_to_encoding p client_encoding n) in
  let! mask := lift (bytes_to_encoding p encoded_mask n 32) in
  let! server := lift (payload_to_encoding p masked_encoding n) in
  let! (l, dist) := lift (steal sha p gc (4 * n) n t (client ++ mask ++ server)) in
  let! k := lift (evaluator_half_key sha p gc [l]) in
  ret (k, masked_password, dist).

(** many_fpake.rs:358-421 with [steal] in place of [evaluate]. *)
Definition evil_evaluator_server_v3 (sha : bytes -> bytes) (p : profile) (ot : list bool -> proc (list bytes))
    (mask : bytes) (t : nat) : proc (bytes * nat) :=
  let n := (length mask * 8)%nat in
  let! m := recv in
  let! gc := lift (deserialize dec_garbled m) in
  let! m := recv in
  let! client := lift (deserialize dec_wires m) in
  let! choices := lift (choice_bits mask n) in
  let! encoded_mask := ot choices in
  let! server_encoded := recv in
  let! mask_encoding := lift (payload_to_encoding p encoded_mask n) in
  let! server := lift (bytes_to_encoding p server_encoded n 32) in
  let! (l, dist) := lift (steal sha p gc (4 * n) n t (server ++ mask_encoding ++ client)) in
  let! k := lift (evaluator_half_key sha p gc [l]) in
  ret (k, dist).

(** The two roles (many_fpake.rs:611-637).  The attacker's own circuit accepts every password.  As the server it
    pretends that all of its 2^d passwords are its guess. *)
Definition evil_client_v3 (sha : bytes -> bytes) (p : profile) (g : garbling)
    (ot1 : list bool -> proc (list bytes)) (many_ot : nat -> N -> proc bytes) (ot2 : list bool -> proc (list bytes))
    (ot3 : list (bytes * bytes) -> proc unit) (guess : bytes) (d : nat) (index : N) (t : nat) : proc (bytes * nat) :=
  let! (k1, masked_password, dist) := evil_evaluator_client_v3 sha p ot1 many_ot ot2 guess d index t in
  let! k2 := garbler_client_v3 sha p g ot3 guess masked_password (N.of_nat (length guess * 8)) in
  ret (combine_keys k1 k2, dist).
Definition evil_server_v3 (sha : bytes -> bytes) (p : profile) (mask : bytes) (g : garbling)
    (ot1 : list (bytes * bytes) -> proc unit) (many_ot : nat -> list bytes -> proc unit) (ot2 : list (bytes * bytes) -> proc unit)
    (ot3 : list bool -> proc (list bytes)) (guess : bytes) (d t : nat) : proc (bytes * nat) :=
  let! (k1, mask) := garbler_server_v3 sha p mask g ot1 many_ot ot2 (repeat guess (2 ^ d)) (N.of_nat (length guess * 8)) in
  let! (k2, dist) := evil_evaluator_server_v3 sha p ot3 mask t in
  ret (combine_keys k1 k2, dist).

(** The last bits of the zero labels of some three inputs that are added have an even sum. (Fails for one in 2^n
    choices.) *)
Definition leaky3 (n : nat) (ri : nat -> bytes) : Prop :=
  exists i, (i < n)%nat /\ N.even (nth 31 (ri i) 0 + nth 31 (ri (i + n)%nat) 0 + nth 31 (ri (i + 2 * n)%nat) 0) = true.
