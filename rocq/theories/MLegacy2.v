(** Sessions that mix the first and the second version, as two tests of src/legacy_fpake.rs do. *)
From Coq Require Import List NArith Bool Arith.
From Verif Require Import Base MUtil MCircuit MGarble MProc MFpake MLegacy.
Import ListNotations.

Section Mixed.
Variable sha : bytes -> bytes.
Variable p : profile.
(** legacy_fpake.rs:1046-1066 (test_fpake_one_of_many_v1_v2): the server garbles as in the first version, the client
    as in the second. *)
Definition server_v12 (mask : bytes) (g : garbling) (ot1 : list (bytes * bytes) -> proc unit) (many_ot : nat -> list bytes -> proc unit)
    (ot2 : list bool -> proc (list bytes)) (many_ot' : nat -> list bytes -> proc unit) (passwords : list bytes) (threshold : N) : proc bytes :=
  let! k1 := garbler_server_v1 sha p g ot1 many_ot passwords threshold in
  let! k2 := evaluator_server_v2 sha p mask ot2 many_ot' passwords in
  ret (combine_keys k1 k2).
Definition client_v12 (g : garbling) (ot1 : list bool -> proc (list bytes)) (many_ot : nat -> N -> proc bytes)
    (ot2 : list (bytes * bytes) -> proc unit) (many_ot' : nat -> N -> proc bytes)
    (password : bytes) (number_of_passwords index threshold : N) : proc bytes :=
  let! k1 := evaluator_client_v1 sha p ot1 many_ot password number_of_passwords index in
  let! k2 := garbler_client_v2 sha p g ot2 many_ot' password index number_of_passwords threshold in
  ret (combine_keys k1 k2).
(** legacy_fpake.rs:1091-1112 (test_fpake_one_of_many_v2_v1): the other way round. *)
Definition server_v21 (mask : bytes) (g : garbling) (ot1 : list (bytes * bytes) -> proc unit) (many_ot : nat -> list bytes -> proc unit)
    (ot2 : list (bytes * bytes) -> proc unit) (ot3 : list bool -> proc (list bytes)) (passwords : list bytes) (threshold : N) : proc bytes :=
  let! k1 := garbler_server_v2 sha p mask g ot1 many_ot ot2 passwords threshold in
  let! k2 := evaluator_server_v1 sha p ot3 passwords in
  ret (combine_keys k1 k2).
Definition client_v21 (rand : nat -> nat -> bytes) (g : garbling) (ot1 : list bool -> proc (list bytes)) (many_ot : nat -> N -> proc bytes)
    (ot2 : list bool -> proc (list bytes)) (ot3 : list (bytes * bytes) -> proc unit)
    (password : bytes) (number_of_passwords index threshold : N) : proc bytes :=
  let! k1 := evaluator_client_v2 sha p ot1 many_ot ot2 password number_of_passwords index in
  let! k2 := garbler_client_v1 sha p rand g ot3 password index number_of_passwords threshold in
  ret (combine_keys k1 k2).
End Mixed.
