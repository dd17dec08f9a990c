(** The same party on two machines. *)
From Coq Require Import List NArith Bool.
From Verif Require Import Base MProc.
Import ListNotations.

(** Against any peer: the same frames sent and the same end. *)
Definition same_party {A} (q q' : proc A) : Prop := forall ins, feed q ins = feed q' ins.
(** Two parties: the session ends in the same ways. *)
Definition same_session {A B} (s : proc A) (c : proc B) (s' : proc A) (c' : proc B) : Prop :=
  forall oa ob, runs s c oa ob <-> runs s' c' oa ob.
