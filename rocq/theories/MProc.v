(** Two-party protocols over the crate's FIFO channels.

    Models the channels of src/common.rs:5-79: [Channel] is a pair of a sender and a
    receiver, here the raw ones (src/common.rs:15-79), which hand each message unchanged to
    the external crate ductile: [send_raw]/[recv_raw] over an in-memory queue per direction
    (local_channel_pair) or over TCP, which delivers whole messages in order as well.

    A Rust function that takes [ch: &Channel] becomes a value of [proc A]: a tree of
    sends and receives ending in an outcome.  Simplifications: a channel is reliable and
    unbounded; time does not exist; both directions of one [Channel] are used by a single
    thread at a time (true of every function modelled here). *)
From Coq Require Import List NArith Bool.
From Verif Require Import Base.
Import ListNotations.

(** [Snd m k]: [s.send(m)] succeeded, go on with [k].
    [Rcv k]: [r.recv()], the answer is [Some m] or [None] when the peer has hung up. *)
Inductive proc (A : Type) :=
| Done (o : outcome A)
| Snd (m : bytes) (k : proc A)
| Rcv (k : option bytes -> proc A).
Arguments Done {A} o.
Arguments Snd {A} m k.
Arguments Rcv {A} k.

(** Sequencing with the [?] operator / unwinding: errors, panics and undefined behaviour end
    the whole function. *)
Fixpoint pbind {A B} (p : proc A) (f : A -> proc B) : proc B :=
  match p with
  | Done (Ok a) => f a
  | Done (Err e) => Done (Err e)
  | Done (Panic r) => Done (Panic r)
  | Done UB => Done UB
  | Snd m k => Snd m (pbind k f)
  | Rcv k => Rcv (fun x => pbind (k x) f)
  end.

Notation "'let!' x ':=' e 'in' k" := (pbind e (fun x => k))
  (at level 200, x pattern, e at level 100, k at level 200, right associativity).

(** A pure computation inside a protocol. *)
Definition lift {A} (o : outcome A) : proc A := Done o.
Definition ret {A} (a : A) : proc A := Done (Ok a).

(** [s.send(m)?] *)
Definition send (m : bytes) : proc unit := Snd m (ret tt).
(** [r.recv()?] *)
Definition recv : proc bytes :=
  Rcv (fun x => match x with Some m => ret m | None => Done (Err EClosed) end).
(** [r.recv().unwrap()] *)
Definition recv_unwrap : proc bytes :=
  Rcv (fun x => match x with Some m => ret m | None => Done (Panic PUnwrap) end).

(** [for m in ms { s.send(m)? }] *)
Fixpoint send_all (ms : list bytes) : proc unit :=
  match ms with
  | [] => ret tt
  | m :: ms' => let! _ := send m in send_all ms'
  end.

(** [for i in 0..n { let m = r.recv()…; v.push(f(m)?) }], [rx] being one of the receives. *)
Fixpoint recv_each {A} (rx : proc bytes) (f : bytes -> outcome A) (n : nat) : proc (list A) :=
  match n with
  | O => ret []
  | S n' =>
      let! m := rx in
      let! a := lift (f m) in
      let! l := recv_each rx f n' in
      ret (a :: l)
  end.

(** Configuration of a run: the two endpoints and the messages in flight, left to right and
    right to left. *)
Record cfg (A B : Type) := Cfg {
  left_ : proc A;
  right_ : proc B;
  lr : list bytes;
  rl : list bytes
}.
Arguments Cfg {A B} left_ right_ lr rl.
Arguments left_ {A B} c.
Arguments right_ {A B} c.
Arguments lr {A B} c.
Arguments rl {A B} c.

(** One step of the left (right) endpoint, if it can move. *)
Definition stepL {A B} (c : cfg A B) : option (cfg A B) :=
  match left_ c with
  | Done _ => None
  | Snd m k => Some (Cfg k (right_ c) (lr c ++ [m]) (rl c))
  | Rcv k =>
      match rl c with
      | [] => None
      | m :: q => Some (Cfg (k (Some m)) (right_ c) (lr c) q)
      end
  end.
Definition stepR {A B} (c : cfg A B) : option (cfg A B) :=
  match right_ c with
  | Done _ => None
  | Snd m k => Some (Cfg (left_ c) k (lr c) (rl c ++ [m]))
  | Rcv k =>
      match lr c with
      | [] => None
      | m :: q => Some (Cfg (left_ c) (k (Some m)) q (rl c))
      end
  end.

(** What a hung-up channel may do: once the peer has ended, a receive on an empty queue may
    return an error, and so may a send (the [?] after ductile's [send_raw] and [recv_raw],
    src/common.rs:25 and 32). *)
Inductive closeL {A B} : cfg A B -> cfg A B -> Prop :=
| closeL_rcv k o q : closeL (Cfg (Rcv k) (Done o) q []) (Cfg (k None) (Done o) q [])
| closeL_snd m k o q q' :
    closeL (Cfg (Snd m k) (Done o) q q') (Cfg (Done (Err EClosed)) (Done o) q q').
Inductive closeR {A B} : cfg A B -> cfg A B -> Prop :=
| closeR_rcv k o q : closeR (Cfg (Done o) (Rcv k) [] q) (Cfg (Done o) (k None) [] q)
| closeR_snd m k o q q' :
    closeR (Cfg (Done o) (Snd m k) q q') (Cfg (Done o) (Done (Err EClosed)) q q').

(** One step of the whole system under any scheduler. *)
Inductive step {A B} : cfg A B -> cfg A B -> Prop :=
| step_left c c' : stepL c = Some c' -> step c c'
| step_right c c' : stepR c = Some c' -> step c c'
| step_closeL c c' : closeL c c' -> step c c'
| step_closeR c c' : closeR c c' -> step c c'.

Inductive steps {A B} : nat -> cfg A B -> cfg A B -> Prop :=
| steps_refl c : steps 0 c c
| steps_cons n c c1 c2 : step c c1 -> steps n c1 c2 -> steps (S n) c c2.

(** The initial configuration and the clean final ones: both ended, nothing in flight. *)
Definition initial {A B} (p : proc A) (q : proc B) : cfg A B := Cfg p q [] [].
Definition final {A B} (oa : outcome A) (ob : outcome B) : cfg A B :=
  Cfg (Done oa) (Done ob) [] [].

(** Some schedule in which no side sees a closed channel ends cleanly with these outcomes. *)
Inductive reach {A B} : cfg A B -> cfg A B -> Prop :=
| reach_refl c : reach c c
| reach_L c c1 c2 : stepL c = Some c1 -> reach c1 c2 -> reach c c2
| reach_R c c1 c2 : stepR c = Some c1 -> reach c1 c2 -> reach c c2.
Definition runs {A B} (p : proc A) (q : proc B) (oa : outcome A) (ob : outcome B) : Prop :=
  reach (initial p q) (final oa ob).

(** One endpoint alone against arbitrary peer messages: outcome and everything it sent.
    When the list is used up the channel is closed.  Since the endpoint is deterministic,
    quantifying over the list covers every (adaptive) peer. *)
Fixpoint feed {A} (p : proc A) (ins : list bytes) : outcome A * list bytes :=
  match p with
  | Done o => (o, [])
  | Snd m k => let (o, out) := feed k ins in (o, m :: out)
  | Rcv k =>
      match ins with
      | [] => feed (k None) []
      | m :: ins' => feed (k (Some m)) ins'
      end
  end.

(** A scheduler to execute examples: left first. *)
Fixpoint drive {A B} (fuel : nat) (c : cfg A B) : cfg A B :=
  match fuel with
  | O => c
  | S n =>
      match stepL c with
      | Some c' => drive n c'
      | None => match stepR c with Some c' => drive n c' | None => c end
      end
  end.
