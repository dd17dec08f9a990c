(** A process whose incoming frames pass through an attacker. *)
From Coq Require Import List NArith Arith.
From Verif Require Import Base MProc.
Import ListNotations.

(** [behind f log p]: [p], where the attacker hands on [f i m] when frame number [i] is [m].  The log says what arrived
    at the attacker and what [p] got instead. *)
Fixpoint behind {A} (f : nat -> bytes -> bytes) (log : list (bytes * bytes)) (p : proc A) : proc (A * list (bytes * bytes)) :=
  match p with
  | Done (Ok a) => Done (Ok (a, log))
  | Done (Err e) => Done (Err e)
  | Done (Panic r) => Done (Panic r)
  | Done UB => Done UB
  | Snd m k => Snd m (behind f log k)
  | Rcv k => Rcv (fun o => match o with
      | Some m => behind f (log ++ [(m, f (length log) m)]) (k (Some (f (length log) m)))
      | None => behind f log (k None)
      end)
  end.
(** The attacker that appends [x] to frame number [j]. *)
Definition longer (x : bytes) (j : nat) (i : nat) (m : bytes) : bytes := if Nat.eqb i j then m ++ x else m.
(** Some frame got longer by [x] on its way. *)
Definition got_longer (x : bytes) (log : list (bytes * bytes)) : Prop := exists m, In (m, m ++ x) log.
(** No run of [p] that ends well, with whatever peer, is disturbed if some frame gets longer by [x] on its way. *)
Definition undisturbed {A} (x : bytes) (p : proc A) : Prop := forall B (q : proc B) ob a, runs q p ob (Ok a) ->
  exists j log, got_longer x log /\ runs q (behind (longer x j) [] p) ob (Ok (a, log)).
