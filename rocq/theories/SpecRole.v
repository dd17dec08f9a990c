(** Two programs that wait for each other. *)
From Coq Require Import List Arith.
From Verif Require Import Base MProc.
Import ListNotations.

(** Every schedule comes to an end, and the only end is that both sides wait for a frame while none is on its way. *)
Definition waits_forever {A B} (p : proc A) (q : proc B) : Prop :=
  exists n, forall k c, steps k (initial p q) c ->
    k <= n /\ ((forall c', ~ step c c') -> exists kl kr, c = Cfg (Rcv kl) (Rcv kr) [] []).
