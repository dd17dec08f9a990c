(** The peers of SpecPicky against the one-of-many exchanges (many_fpake.rs:64-421, 470-512). *)
From Coq Require Import List NArith Bool Arith.
From Verif Require Import Base MUtil MWires MCircuit MGarble MBincode MProc MFpake SpecUtil SpecPicky.
Import ListNotations.
Open Scope N_scope.

(** In place of garbler_client_v3 (many_fpake.rs:268-357): fails for a 1 at bit i of the server's mask of n bits. *)
Definition picky_garbler_client (ot : list (bytes * bytes) -> proc unit) (n i : nat) : proc unit :=
  let! _ := send (enc_garbled (half_table (2 * n) (n + i))) in
  let! _ := send (enc_wires []) in
  let! _ := ot (repeat (plain_label false, plain_label true) n) in
  let! _ := send (repeat 0 (n * 32)) in
  ret tt.
(** In place of garbler_server_v3 (many_fpake.rs:64-175): fails for a 1 at bit i of the client's password. *)
Definition picky_garbler_server (ot1 : list (bytes * bytes) -> proc unit) (many_ot : nat -> list bytes -> proc unit)
    (ot2 : list (bytes * bytes) -> proc unit) (n i d : nat) : proc unit :=
  let! _ := send (enc_garbled (half_table (3 * n) i)) in
  let! _ := ot1 (repeat (plain_label false, plain_label true) n) in
  let! _ := send (repeat 0 (n * 32)) in
  let! _ := many_ot d (repeat (repeat 0 (n / 8)) (2 ^ d)) in
  let! _ := ot2 (repeat (plain_label false, plain_label true) n) in
  ret tt.

(** Clients that play the first half with a guess and are picky in the second.  They end with the masked password. *)
Definition picky_client_v3 (sha : bytes -> bytes) (p : profile)
    (ot1 : list bool -> proc (list bytes)) (many_ot : nat -> N -> proc bytes) (ot2 : list bool -> proc (list bytes))
    (ot3 : list (bytes * bytes) -> proc unit) (guess : bytes) (d : nat) (index : N) (i : nat) : proc bytes :=
  let! (_, masked) := evaluator_client_v3 sha p ot1 many_ot ot2 guess (N.of_nat (2 ^ d)) index in
  let! _ := picky_garbler_client ot3 (length guess * 8) i in
  ret masked.
Definition picky_single (sha : bytes -> bytes) (p : profile) (many_ot : nat -> N -> proc bytes)
    (ot_r : list bool -> proc (list bytes)) (ot_s : list (bytes * bytes) -> proc unit) (guess : bytes) (d : nat) (index : N) (i : nat) : proc bytes :=
  let! masked := many_ot d index in
  let! _ := evaluator sha p ot_r guess in
  let! _ := picky_garbler ot_s (length guess * 8) i in
  ret masked.

(** What sessions tell, one for each bit: the masked password of the session, and whether the session failed. *)
Definition told_bit (seen : list (bytes * bool)) (i : nat) : bool :=
  match nth_error seen i with Some (masked, failed) => xorb (bit_of masked i) failed | None => false end.
