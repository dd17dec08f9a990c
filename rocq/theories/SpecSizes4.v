(** Sizes of the messages of the two older versions, as functions of the length [l] of the passwords in bytes and
    of the number [d] of index bits. *)
From Coq Require Import List Arith.
From Verif Require Import SpecSizes SpecSizes3.
Import ListNotations.
Open Scope nat_scope.

(** First version.  The entries of the one-of-many OT are the labels of whole passwords; the second OT of the
    client has a pair for every bit of every password. *)
Definition server1_sizes (d l : nat) : list nat :=
  [garbled_size l] ++ ext_sender_sizes (8 * l) 32 ++ many_sender_sizes d (8 * l * 32) ++ ext_receiver_sizes (2 ^ d * (8 * l)).
Definition client1_sizes (d l : nat) : list nat :=
  ext_receiver_sizes (8 * l) ++ many_receiver_sizes d ++ [garbled_size l; 8 + 8 * l * 36] ++ ext_sender_sizes (2 ^ d * (8 * l)) 32.
(** Second version. *)
Definition server2_sizes (d l : nat) : list nat :=
  [garbled_size3 l] ++ ext_sender_sizes (8 * l) 32 ++ [8 * l * 32] ++ many_sender_sizes d l ++ ext_sender_sizes (8 * l) 32 ++
  ext_receiver_sizes (8 * l) ++ many_sender_sizes d l.
Definition client2_sizes (d l : nat) : list nat :=
  ext_receiver_sizes (8 * l) ++ many_receiver_sizes d ++ ext_receiver_sizes (8 * l) ++
  [garbled_size3 l; 8 + 8 * l * 36] ++ ext_sender_sizes (8 * l) 32 ++ many_receiver_sizes d ++ [8 * l * 32].
