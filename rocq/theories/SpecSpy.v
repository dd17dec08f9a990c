(** A peer that follows the key exchange to the letter and reads the other password off the messages.

    Row 0 of the table of a projection gate tells whether the zero label of the gate's input wire has
    colour 0.  The evaluator also knows the colour of the label it holds on this wire, and so the value. *)
From Coq Require Import List NArith Bool Arith.
From Verif Require Import Base MUtil MWires MCircuit MGarble MBincode MProc MFpake SpecUtil SpecSteal.
Import ListNotations.
Open Scope N_scope.

(** The value of a binary wire from its label [l] and row 0 of a projection of this wire. *)
Definition peek (l r : wire) : bool := Bool.eqb (color l =? 0) (color r =? 0).

(** The values of the wires Q, ..., Q + n - 1, which the gates Q + n, ..., Q + 2 n - 1 project. *)
Definition peek_all (sha : bytes -> bytes) (p : profile) (gc : garbled) (Q n : nat) (x : list wire) : outcome (list bool) :=
  let* ws := all_labels sha p gc x in
  mapM (fun i =>
    let* l := read_init ws (i + Q) in
    let* r := first_row gc (i + (Q + n)) in
    Ok (peek l r)) (seq 0 n).

(** Bytes from bits, least significant bit first. *)
Definition pack (l : list bool) : bytes := map (fun b => bits_value (firstn 8 (skipn (8 * b) l))) (seq 0 (length l / 8)).

(** fpake.rs:61-95 with the reading added.  The bits read are the differences between the two passwords. *)
Definition spying_evaluator (sha : bytes -> bytes) (p : profile) (ot : list bool -> proc (list bytes)) (password : bytes) : proc (bytes * bytes) :=
  let n := (length password * 8)%nat in
  let! enc_password := ot (u8_vec_to_bool_vec password) in
  let! our_password := lift (mapM (fun b => let* b := to_array p b in from_array p b Binary) enc_password) in
  let! m := recv in
  let! gc := lift (deserialize dec_garbled m) in
  let! m := recv in
  let! their_password := lift (deserialize dec_wires m) in
  let! output := lift (evaluate sha p gc (their_password ++ our_password)) in
  let! k := lift (evaluator_half_key sha p gc output) in
  let! bits := lift (peek_all sha p gc (2 * n) n (their_password ++ our_password)) in
  ret (k, xor password (pack bits)).

(** main.rs:31-51 with the reading added. *)
Definition spying_client (sha : bytes -> bytes) (p : profile) (g : garbling) (ot_s : list (bytes * bytes) -> proc unit)
    (ot_r : list bool -> proc (list bytes)) (pw : bytes) (threshold : N) : proc (bytes * bytes) :=
  let! (hk2, read) := spying_evaluator sha p ot_r pw in
  let! hk1 := garbler sha p g ot_s pw threshold in
  ret (combine_keys hk1 hk2, read).
Definition spying_server (sha : bytes -> bytes) (p : profile) (g : garbling) (ot_s : list (bytes * bytes) -> proc unit)
    (ot_r : list bool -> proc (list bytes)) (pw : bytes) (threshold : N) : proc (bytes * bytes) :=
  let! hk1 := garbler sha p g ot_s pw threshold in
  let! (hk2, read) := spying_evaluator sha p ot_r pw in
  ret (combine_keys hk1 hk2, read).

(** many_fpake.rs:434-466: what it reads is the mask, with which it unmasks the entry it was given. *)
Definition spying_single (sha : bytes -> bytes) (p : profile) (g : garbling) (many_ot : nat -> N -> proc bytes)
    (ot_s : list (bytes * bytes) -> proc unit) (ot_r : list bool -> proc (list bytes))
    (password : bytes) (index number_of_passwords threshold : N) : proc (bytes * bytes) :=
  let! domain := lift (log2_ p 32 number_of_passwords) in
  let! entry := many_ot (N.to_nat domain) index in
  let! masked := lift (xor_bytes_inplace p entry password) in
  let! (k1, read) := spying_evaluator sha p ot_r masked in
  let! k2 := garbler sha p g ot_s masked threshold in
  ret (combine_keys k1 k2, xor read entry).

(** many_fpake.rs:470-512: what it reads is the difference between the entry the client asked for and
    the client's password, under the mask. *)
Definition spying_many (sha : bytes -> bytes) (p : profile) (mask : bytes) (g : garbling) (many_ot : nat -> list bytes -> proc unit)
    (ot_s : list (bytes * bytes) -> proc unit) (ot_r : list bool -> proc (list bytes))
    (passwords : list bytes) (threshold : N) : proc (bytes * bytes) :=
  let! p0 := lift (idx passwords 0) in
  let! masked := lift (mask_passwords p mask passwords (length p0)) in
  let! domain := lift (log2_ p 64 (N.of_nat (length passwords))) in
  let! _ := many_ot (N.to_nat domain) masked in
  let! k1 := garbler sha p g ot_s mask threshold in
  let! (k2, read) := spying_evaluator sha p ot_r mask in
  ret (combine_keys k1 k2, xor read mask).

(** many_fpake.rs:176-266 and 358-421 with the reading added. *)
Definition spying_client_v3 (sha : bytes -> bytes) (p : profile) (ot1 : list bool -> proc (list bytes)) (many_ot : nat -> N -> proc bytes)
    (ot2 : list bool -> proc (list bytes)) (password : bytes) (number_of_password index : N) : proc (bytes * bytes * bytes) :=
  let bits := (length password * 8)%nat in
  let! m := recv in
  let! gc := lift (deserialize dec_garbled m) in
  let! choices := lift (choice_bits password bits) in
  let! client_encoding := ot1 choices in
  let! encoded_mask := recv in
  let! domain := lift (log2_ p 32 number_of_password) in
  let! masked_password := many_ot (N.to_nat domain) index in
  let! choices := lift (choice_bits masked_password bits) in
  let! masked_encoding := ot2 choices in
  let! row0 := lift (idx masked_encoding 0) in
  let! client := lift (payload_to_encoding p client_encoding bits) in
  let! mask := lift (bytes_to_encoding p encoded_mask bits (length row0)) in
  let! server := lift (payload_to_encoding p masked_encoding bits) in
  let! output := lift (evaluate sha p gc (client ++ mask ++ server)) in
  let! k := lift (evaluator_half_key sha p gc output) in
  let! read := lift (peek_all sha p gc (3 * bits) bits (client ++ mask ++ server)) in
  ret (k, masked_password, xor password (pack read)).
Definition spying_server_v3 (sha : bytes -> bytes) (p : profile) (ot : list bool -> proc (list bytes)) (passwords : list bytes) (mask : bytes) : proc (bytes * bytes) :=
  let! p0 := lift (idx passwords 0) in
  let bits := (length p0 * 8)%nat in
  let! m := recv in
  let! gc := lift (deserialize dec_garbled m) in
  let! m := recv in
  let! client := lift (deserialize dec_wires m) in
  let! choices := lift (choice_bits mask bits) in
  let! encoded_mask := ot choices in
  let! server_encoded := recv in
  let! row0 := lift (idx encoded_mask 0) in
  let! mask_encoding := lift (payload_to_encoding p encoded_mask bits) in
  let! server := lift (bytes_to_encoding p server_encoded bits (length row0)) in
  let! output := lift (evaluate sha p gc (server ++ mask_encoding ++ client)) in
  let! k := lift (evaluator_half_key sha p gc output) in
  let! read := lift (peek_all sha p gc (3 * bits) bits (server ++ mask_encoding ++ client)) in
  ret (k, pack read).
