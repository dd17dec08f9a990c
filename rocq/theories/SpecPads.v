(** What a sender's messages look like from outside: everything it sends is fixed by the sizes of the
    messages it is given, except for the last frames, which carry the messages under pads. *)
From Coq Require Import List NArith Bool Arith.
From Verif Require Import Base MProc.
Import ListNotations.
Open Scope N_scope.

Definition sizes (msgs : list (bytes * bytes)) : list (nat * nat) := map (fun m => (length (fst m), length (snd m))) msgs.
(** Bytewise exclusive or of two byte strings of the same length. *)
Definition xored (a b : bytes) : bytes := map (fun xy => N.lxor (fst xy) (snd xy)) (combine a b).
Definition cover (m k : bytes * bytes) : bytes * bytes := (xored (fst m) (fst k), xored (snd m) (snd k)).
Definition covered (msgs pads : list (bytes * bytes)) : list (bytes * bytes) := map (fun mk => cover (fst mk) (snd mk)) (combine msgs pads).

(** Against the peer messages [ins], a sender of messages of sizes [sz] either fails in the same way
    and after the same frames whatever the messages are, or ends well and sends [pre], which is the
    same for all messages, followed by the messages under pads which are also the same for all
    messages.  [P pre i s k] says what the pads [k] of the pair number [i] of sizes [s] are. *)
Definition sends_padded (sz : list (nat * nat)) (sender : list (bytes * bytes) -> proc unit)
    (frames : list (bytes * bytes) -> list bytes) (ins : list bytes)
    (P : list bytes -> nat -> nat * nat -> bytes * bytes -> Prop) : Prop :=
  exists pre,
    (exists o, o <> Ok tt /\ forall msgs, sizes msgs = sz -> feed (sender msgs) ins = (o, pre)) \/
    (exists pads, length pads = length sz /\
      (forall i s k, nth_error sz i = Some s -> nth_error pads i = Some k -> P pre i s k) /\
      (forall msgs, sizes msgs = sz -> feed (sender msgs) ins = (Ok tt, pre ++ frames (covered msgs pads)))).
