(** Who sends when: dialogues, independent of what is sent. *)
From Coq Require Import List NArith Arith.
From Verif Require Import Base MProc.
Import ListNotations.
Open Scope nat_scope.

(** One action on a channel: a frame goes out, or the program asks for a frame. *)
Inductive act := Out | In.

(** The actions of a program that is sent the frames [ins]; after them its peer has hung up. *)
Fixpoint acts {A} (q : proc A) (ins : list bytes) : list act :=
  match q with
  | Done _ => []
  | Snd _ k => Out :: acts k ins
  | Rcv k => In :: match ins with [] => acts (k None) [] | m :: ins => acts (k (Some m)) ins end
  end.
(** Whatever it is sent, the program acts as [L] says; it stops early only if it fails. *)
Definition takes_turns {A} (q : proc A) (L : list act) : Prop :=
  forall ins, exists rest, L = acts q ins ++ rest /\ forall a, fst (feed q ins) = Ok a -> rest = [].

(** A dialogue: in a round (n, m) the first party sends n frames and the second m, then each receives those. *)
Definition dialogue := list (nat * nat).
Definition first_party (R : dialogue) : list act := flat_map (fun r => repeat Out (fst r) ++ repeat In (snd r)) R.
Definition swap (R : dialogue) : dialogue := map (fun r => (snd r, fst r)) R.
Definition second_party (R : dialogue) : list act := first_party (swap R).
(** Frames of a dialogue, in both directions. *)
Definition frames (R : dialogue) : nat := list_sum (map (fun r => fst r + snd r) R).

(** Two connected programs: every schedule ends after at most [n] steps, and it stops only when both have ended. *)
Definition never_stuck {A B} (p : proc A) (q : proc B) (n : nat) : Prop :=
  forall k c, steps k (initial p q) c ->
    k <= n /\ ((forall c', ~ step c c') -> exists oa ob, left_ c = Done oa /\ right_ c = Done ob).

(** The dialogues of the crate. Base OT for [k] messages, seen from the sender. *)
Definition base_dialogue (k : nat) : dialogue := [(1, 1); (k, 0); (0, k); (1, 0)].
(** OT extension, seen from the receiver: properties, coin flip, message size, base OT, matrix and sums, ciphertexts. *)
Definition ext_dialogue : dialogue := [(1, 1); (1, 0); (0, 1); (1, 0); (0, 1)] ++ base_dialogue 128 ++ [(3, 0); (0, 1)].
(** 1-out-of-2^k OT, seen from the sender. *)
Definition many_dialogue (k : nat) : dialogue := (1, 0) :: base_dialogue k.
(** One half of the key exchange, seen from the garbler. *)
Definition half_dialogue : dialogue := swap ext_dialogue ++ [(2, 0)].
(** Plain fPAKE and the one-of-many exchanges, seen from the server. *)
Definition plain_dialogue : dialogue := half_dialogue ++ swap half_dialogue.
Definition mfpake_dialogue (k : nat) : dialogue := many_dialogue k ++ plain_dialogue.
Definition v3_dialogue (k : nat) : dialogue :=
  [(1, 0)] ++ swap ext_dialogue ++ [(1, 0)] ++ many_dialogue k ++ swap ext_dialogue ++ [(0, 2)] ++ ext_dialogue ++ [(0, 1)].
(** On an authenticated channel: the keys, then a code behind every message. *)
Definition channel_dialogue (R : dialogue) : dialogue := [(1, 0); (0, 1)] ++ map (fun r => (2 * fst r, 2 * snd r)) R.
(** The least number of bits that can number [n] passwords. *)
Definition bits_for (n : N) (d : nat) : Prop := (n <= 2 ^ N.of_nat d)%N /\ forall j : nat, (n <= 2 ^ N.of_nat j)%N -> d <= j.
