(** Equality of protocols. *)
From Coq Require Import List NArith Bool.
From Verif Require Import Base MProc.
Import ListNotations.

(** Two protocols that do the same: the same frames sent, the same receives and the same end, whatever is
    received. *)
Inductive peq {A} : proc A -> proc A -> Prop :=
| peq_done o : peq (Done o) (Done o)
| peq_snd m k k' : peq k k' -> peq (Snd m k) (Snd m k')
| peq_rcv k k' : (forall x, peq (k x) (k' x)) -> peq (Rcv k) (Rcv k').
