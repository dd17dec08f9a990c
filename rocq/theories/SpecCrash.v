(** A peer that disappears. *)
From Coq Require Import List.
From Verif Require Import Base MProc.
Import ListNotations.

(** The process that behaves like [p] for [n] sends and receives and is then gone (its end of the
    channel is closed). *)
Fixpoint crash {A} (n : nat) (p : proc A) : proc A :=
  match p, n with
  | Done o, _ => Done o
  | _, O => Done (Err EOther)
  | Snd m k, S n' => Snd m (crash n' k)
  | Rcv k, S n' => Rcv (fun x => crash n' (k x))
  end.

(** In the run of [p] with a partner that sends [answers], the crash cuts off at least one message. *)
Definition cut_short {A} (n : nat) (p : proc A) (answers : list bytes) : Prop :=
  (length (snd (feed (crash n p) answers)) < length (snd (feed p answers)))%nat.

(** An error or a panic: neither a result nor undefined behaviour. *)
Definition failed {A} (o : outcome A) : Prop := match o with Err _ | Panic _ => True | _ => False end.

(** Whenever [p] disappears before its last message, [q] fails under every schedule: it never returns a
    result, and when nothing can move any more it has ended with an error or a panic. *)
Definition fails_without {A B} (p : proc A) (q : proc B) : Prop :=
  exists from_p from_q oa ob,
    feed p from_q = (oa, from_p) /\ feed q from_p = (ob, from_q) /\
    forall n, cut_short n p from_q -> forall k c, steps k (initial (crash n p) q) c ->
      (forall o, right_ c = Done o -> failed o) /\
      ((forall c', ~ step c c') -> exists o, right_ c = Done o).
