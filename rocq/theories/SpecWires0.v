(** The 16-bit components of a label, for labels of modulus 0. *)
From Coq Require Import List NArith.
From Verif Require Import Base MWires.
Import ListNotations.
Open Scope N_scope.

(** Component [i] of a label: bytes 2i and 2i + 1, the lower one first. *)
Definition word (w : wire) (i : nat) : N := nth (2 * i) (wval w) 0 + 256 * nth (2 * i + 1) (wval w) 0.
(** A label of modulus 0 as the crate makes them. *)
Definition word_label (w : wire) : Prop :=
  wire_domain w = 0 /\ wdom w = U16MAX /\ length (wval w) = 32%nat /\ Forall (fun x => x < 256) (wval w).
(** The label holds the components [f 0 .. f 15]. *)
Definition holds_words (o : outcome wire) (f : nat -> N) : Prop :=
  exists w, o = Ok w /\ word_label w /\ forall i, (i < 16)%nat -> word w i = f i.
