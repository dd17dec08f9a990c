(** The frames a program gets over the authenticated channel. *)
From Coq Require Import List NArith Arith.
From Verif Require Import Base SpecBounds.
Import ListNotations.

(** After the handshake every message comes as two frames, the data and its code; the data frames. *)
Fixpoint data_frames (l : list bytes) : list bytes :=
  match l with
  | d :: _ :: l' => d :: data_frames l'
  | l => l
  end.
(** What a program gets on the wire: the key of the peer, then messages. *)
Definition messages_of (ins : list bytes) : list bytes := data_frames (tl ins).
