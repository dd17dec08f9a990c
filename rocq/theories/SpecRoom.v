(** Transports with little room: how many bytes may be on their way. *)
From Coq Require Import List NArith Arith.
From Verif Require Import Base MProc.
Import ListNotations.
Open Scope nat_scope.

(** Room taken by frames on their way, with [h] bytes of framing for each. *)
Definition used (h : nat) (q : list bytes) : nat := list_sum (map (fun m => h + length m) q).
(** A frame can be handed to a transport with room for [b] bytes per direction if there is room for it, or if the peer has
    read everything and is reading: then the bytes pass through. *)
Definition can_put {B} (h b : nat) (m : bytes) (q : list bytes) (peer : proc B) : Prop :=
  used h q + (h + length m) <= b \/ (q = [] /\ exists k, peer = Rcv k).
(** The steps over such a transport.  Otherwise a program that sends waits. *)
Inductive narrow_step {A B} (h b : nat) : cfg A B -> cfg A B -> Prop :=
| narrow_send_left m l r x y : can_put h b m x r -> narrow_step h b (Cfg (Snd m l) r x y) (Cfg l r (x ++ [m]) y)
| narrow_send_right m l r x y : can_put h b m y l -> narrow_step h b (Cfg l (Snd m r) x y) (Cfg l r x (y ++ [m]))
| narrow_recv_left l r x m y : narrow_step h b (Cfg (Rcv l) r x (m :: y)) (Cfg (l (Some m)) r x y)
| narrow_recv_right l r m x y : narrow_step h b (Cfg l (Rcv r) (m :: x) y) (Cfg l (r (Some m)) x y)
| narrow_close_left c c' : closeL c c' -> narrow_step h b c c'
| narrow_close_right c c' : closeR c c' -> narrow_step h b c c'.
Inductive narrow_steps {A B} (h b : nat) : nat -> cfg A B -> cfg A B -> Prop :=
| narrow_refl c : narrow_steps h b 0 c c
| narrow_cons n c c1 c2 : narrow_step h b c c1 -> narrow_steps h b n c1 c2 -> narrow_steps h b (S n) c c2.

(** Over a transport with room for [b] bytes every schedule ends after at most [n] steps, and only when both programs have ended. *)
Definition ends_within {A B} (h b : nat) (p : proc A) (q : proc B) (n : nat) : Prop :=
  forall k c, narrow_steps h b k (initial p q) c ->
    k <= n /\ ((forall c', ~ narrow_step h b c c') -> exists oa ob, left_ c = Done oa /\ right_ c = Done ob).
(** A schedule ends with both programs waiting to send. *)
Definition clogs {A B} (h b : nat) (p : proc A) (q : proc B) : Prop :=
  exists k m l m' r x y, narrow_steps h b k (initial p q) (Cfg (Snd m l) (Snd m' r) x y) /\
    forall c', ~ narrow_step h b (Cfg (Snd m l) (Snd m' r) x y) c'.
