(** What it means that the frames of an OT receiver do not tell its choices. *)
From Coq Require Import List NArith Bool Arith.
From Verif Require Import Base MProc SpecPads.
Import ListNotations.
Open Scope N_scope.

(** Exclusive or of the 16-byte rows of [chi] (as little-endian numbers) at the places where [x] is set. *)
Fixpoint weighted (x : list bool) (chi : bytes) : N :=
  match x with
  | [] => 0
  | b :: x' => N.lxor (if b then le_value (firstn 16 chi) else 0) (weighted x' (skipn 16 chi))
  end.
(** Every 128-bit number is such a sum of the first [n] rows of [chi]. *)
Definition spans (n : nat) (chi : bytes) : Prop := forall v, v < 2 ^ 128 -> exists b, length b = n /\ weighted b chi = v.

(** Bitwise exclusive or of two lists of bits. *)
Definition flipped (x d : list bool) : list bool := map (fun bd => xorb (fst bd) (snd bd)) (combine x d).

(** The seeds that base OTs with the choices [w] deliver, and those that they do not deliver. *)
Definition seen (w : list bool) (seed0 seed1 : list bytes) : list bytes :=
  map (fun x => if fst x : bool then snd (snd x) else fst (snd x)) (combine w (combine seed0 seed1)).
Definition unseen (w : list bool) (seed0 seed1 : list bytes) : list bytes := seen (map negb w) seed0 seed1.

(** The generator changed on the seeds [S], for outputs of [n] bytes, by a fixed mask [d]. *)
Definition switch (S : list bytes) (n : nat) (d : bytes) (fill : bytes -> nat -> bytes) : bytes -> nat -> bytes :=
  fun s m => if existsb (bytes_eqb s) S && Nat.eqb m n then xored (fill s m) d else fill s m.
