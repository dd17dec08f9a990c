(** Sizes of the messages on the wire, as functions of the length of the password in bytes. *)
From Coq Require Import List NArith Arith.
From Verif Require Import Base MProc.
Import ListNotations.
Open Scope nat_scope.

(** The base OT for [k] pairs of messages of [s] bytes: its properties, [k] points and, from the sender, the
    ciphertexts with their lengths. *)
Definition base_sender_sizes (k s : nat) : list nat := 28 :: repeat 32 k ++ [8 + k * (16 + 2 * s)].
Definition base_receiver_sizes (k : nat) : list nat := 28 :: repeat 32 k.
(** The extension for [n] pairs of messages of [s] bytes: properties, coin flip, size, base OT, ciphertexts; and properties,
    coin flip, base OT, matrix, two sums. *)
Definition ext_sender_sizes (n s : nat) : list nat := [23; 32; 2] ++ base_receiver_sizes 128 ++ [n * (2 * s)].
Definition ext_receiver_sizes (n : nat) : list nat := [23; 32; 32] ++ base_sender_sizes 128 32 ++ [128 * ((n + 256) / 8); 16; 16].
(** A label of the wires that count differing bits: tag, modulus in one or two bytes, 32 bytes. *)
Definition count_label (l : nat) : nat := if Nat.leb l 15 then 37 else 38.
(** The garbled circuit for passwords of [l] bytes. *)
Definition garbled_size (l : nat) : nat := 166 + 8 * l * (138 + 2 * count_label l).
(** The two halves of the key exchange. *)
Definition garbler_sizes (l : nat) : list nat := ext_sender_sizes (8 * l) 32 ++ [garbled_size l; 8 + 8 * l * 36].
Definition evaluator_sizes (l : nat) : list nat := ext_receiver_sizes (8 * l).
(** The 1-out-of-2^d OT of passwords of [l] bytes. *)
Definition many_sender_sizes (d l : nat) : list nat := (2 ^ d * l)%nat :: base_sender_sizes d 32.
Definition many_receiver_sizes (d : nat) : list nat := base_receiver_sizes d.
(** On the authenticated channel: a public key, then a code of 32 bytes behind every message. *)
Definition channel_sizes (L : list nat) : list nat := 32 :: flat_map (fun x => [x; 32]) L.

(** Whatever the program is sent, it sends frames of these sizes in this order, all of them when it succeeds. *)
Definition sends_sizes {A} (q : proc A) (L : list nat) (ins : list bytes) : Prop :=
  exists rest, L = map (@length N) (snd (feed q ins)) ++ rest /\ forall a, fst (feed q ins) = Ok a -> rest = [].
