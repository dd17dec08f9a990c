(** Sides that do not belong together. *)
From Coq Require Import List.
From Verif Require Import Base MProc.
Import ListNotations.

(** Under no schedule, and with the channel closing whenever it may, does a side end with a result. *)
Definition no_result {A B} (p : proc A) (q : proc B) : Prop :=
  forall k c, steps k (initial p q) c -> (forall a, left_ c <> Done (Ok a)) /\ (forall b, right_ c <> Done (Ok b)).

(** A side that gets back its own frames; [None]: it waits for a frame while none is on its way. *)
Fixpoint mirrored {A} (queue : list bytes) (p : proc A) : option (outcome A) :=
  match p with
  | Done o => Some o
  | Snd m k => mirrored (queue ++ [m]) k
  | Rcv k => match queue with [] => None | m :: q => mirrored q (k (Some m)) end
  end.
Definition among_mirrors {A} (p : proc A) : option (outcome A) := mirrored [] p.
