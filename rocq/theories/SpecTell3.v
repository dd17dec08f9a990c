(** The attacks of SpecTell and SpecForce on the third version of the one-of-many key exchange
    (many_fpake.rs:64-421).

    The attacker garbles nothing.  It sends a circuit that adds all inputs, labels of its own for the bits of the peer,
    and zeros for all other labels. *)
From Coq Require Import List NArith Bool Arith.
From Verif Require Import Base MUtil MWires MCircuit MGarble MBincode MProc MFpake SpecSteal SpecSteal3 SpecTell SpecForce.
Import ListNotations.
Open Scope N_scope.

Definition zero_label : wire := mkWire Binary (repeat 0 32).
(** In place of garbler_client_v3 (many_fpake.rs:268-357): [zs] are the labels for the bits of the mask. *)
Definition own_garbler_client (ot : list (bytes * bytes) -> proc unit) (zs : list (wire * wire)) (o : nat) : proc unit :=
  let n := length zs in
  let! _ := send (enc_garbled (mkGC (forcing_circuit (2 * n) o) [] [])) in
  let! _ := send (enc_wires []) in
  let! _ := ot (label_messages zs) in
  let! _ := send (repeat 0 (n * 32)) in
  ret tt.
(** In place of garbler_server_v3 (many_fpake.rs:64-175): [zs] are the labels for the bits of the client's password;
    all masked passwords are zero. *)
Definition own_garbler_server (ot1 : list (bytes * bytes) -> proc unit) (many_ot : nat -> list bytes -> proc unit)
    (ot2 : list (bytes * bytes) -> proc unit) (zs : list (wire * wire)) (o d : nat) : proc unit :=
  let n := length zs in
  let! _ := send (enc_garbled (mkGC (forcing_circuit (3 * n) o) [] [])) in
  let! _ := ot1 (label_messages zs) in
  let! _ := send (repeat 0 (n * 32)) in
  let! _ := many_ot d (repeat (repeat 0 (n / 8)) (2 ^ d)) in
  let! _ := ot2 (label_messages (repeat (zero_label, zero_label) n)) in
  ret tt.

(** What the peer hashes when the output is wire o and the label is the string x, padded. *)
Definition told_string_at (o : nat) (x : bytes) : bytes := be_bytes 8 (N.of_nat o) ++ be_bytes 2 1 ++ x ++ repeat 0 (32 - length x).
Definition told_at (sha : bytes -> bytes) (o : nat) (x : bytes) : bytes := sha (told_string_at o x).

(** The two roles of the attacker that lets the peer hash its secret.  It ends with the half key it stole and, as the
    client, with the masked password. *)
Definition telling_client_v3 (sha : bytes -> bytes) (p : profile)
    (ot1 : list bool -> proc (list bytes)) (many_ot : nat -> N -> proc bytes) (ot2 : list bool -> proc (list bytes))
    (ot3 : list (bytes * bytes) -> proc unit) (guess : bytes) (d : nat) (index : N) (t : nat) : proc (bytes * bytes) :=
  let n := (length guess * 8)%nat in
  let! (k, masked, _) := evil_evaluator_client_v3 sha p ot1 many_ot ot2 guess d index t in
  let! _ := own_garbler_client ot3 (telling_labels n) (2 * n) in
  ret (k, masked).
Definition telling_server_v3 (sha : bytes -> bytes) (p : profile)
    (ot1 : list (bytes * bytes) -> proc unit) (many_ot : nat -> list bytes -> proc unit) (ot2 : list (bytes * bytes) -> proc unit)
    (ot3 : list bool -> proc (list bytes)) (l d t : nat) : proc bytes :=
  let n := (l * 8)%nat in
  let! _ := own_garbler_server ot1 many_ot ot2 (telling_labels n) (3 * n) d in
  let! (k, _) := evil_evaluator_server_v3 sha p ot3 (repeat 0 l) t in
  ret k.

(** What the attacker tries once it knows the peer's key: each candidate, with the digest it would lead to. *)
Definition try_digest (k key : bytes) (digest : bytes -> bytes) (dictionary : list bytes) : list bytes :=
  filter (fun pw => bytes_eqb (combine_keys k (digest pw)) key) dictionary.

(** many_fpake.rs:176-266 up to the output label, which is computed by [F]. *)
Definition reading_client_v3 (p : profile) (F : garbled -> list wire -> outcome wire) (ot1 : list bool -> proc (list bytes))
    (many_ot : nat -> N -> proc bytes) (ot2 : list bool -> proc (list bytes)) (guess : bytes) (d : nat) (index : N) : proc wire :=
  let n := (length guess * 8)%nat in
  let! m := recv in
  let! gc := lift (deserialize dec_garbled m) in
  let! choices := lift (choice_bits guess n) in
  let! client_encoding := ot1 choices in
  let! encoded_mask := recv in
  let! masked_password := many_ot d index in
  let! choices := lift (choice_bits masked_password n) in
  let! masked_encoding := ot2 choices in
  let! client := lift (payload_to_encoding p client_encoding n) in
  let! mask := lift (bytes_to_encoding p encoded_mask n 32) in
  let! server := lift (payload_to_encoding p masked_encoding n) in
  lift (F gc (client ++ mask ++ server)).
Definition by_stealing_v3 (sha : bytes -> bytes) (p : profile) (n t : nat) (gc : garbled) (x : list wire) : outcome wire :=
  let* (l, _) := steal sha p gc (4 * n) n t x in Ok l.

(** The client that decides what the server's key is: the server's second half key is made to be its first. *)
Definition forcing_client_v3 (p : profile) (F : garbled -> list wire -> outcome wire)
    (ot1 : list bool -> proc (list bytes)) (many_ot : nat -> N -> proc bytes) (ot2 : list bool -> proc (list bytes))
    (ot3 : list (bytes * bytes) -> proc unit) (guess : bytes) (d : nat) (index : N) : proc unit :=
  let n := (length guess * 8)%nat in
  let! l := reading_client_v3 p F ot1 many_ot ot2 guess d index in
  own_garbler_client ot3 (forcing_labels n l) (5 * n + 1).
