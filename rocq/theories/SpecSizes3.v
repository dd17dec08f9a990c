(** Sizes of the messages of the third version, as functions of the length [l] of the passwords in bytes and
    of the number [d] of index bits. *)
From Coq Require Import List Arith.
From Verif Require Import SpecSizes.
Import ListNotations.
Open Scope nat_scope.

(** The garbled circuit with three inputs per bit. *)
Definition garbled_size3 (l : nat) : nat := 166 + 8 * l * (148 + 2 * count_label l).
(** The server garbles (circuit, its OTs, the labels of the mask), then evaluates. *)
Definition server3_sizes (d l : nat) : list nat :=
  [garbled_size3 l] ++ ext_sender_sizes (8 * l) 32 ++ [8 * l * 32] ++ many_sender_sizes d l ++ ext_sender_sizes (8 * l) 32 ++
  ext_receiver_sizes (8 * l).
(** The client evaluates, then garbles (circuit, labels of its password, OT, labels of the masked password). *)
Definition client3_sizes (d l : nat) : list nat :=
  ext_receiver_sizes (8 * l) ++ many_receiver_sizes d ++ ext_receiver_sizes (8 * l) ++
  [garbled_size3 l; 8 + 8 * l * 36] ++ ext_sender_sizes (8 * l) 32 ++ [8 * l * 32].
