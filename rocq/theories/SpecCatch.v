(** Catching receivers that do not use the same choices in all columns (C99). *)
From Coq Require Import List NArith Bool Arith.
From Verif Require Import Base MBincode MProc MOt SpecUtil SpecOt SpecHide SpecNothing.
Import ListNotations.
Open Scope N_scope.

(** A receiver of the classic extension that plays the base OT by the rules, sends the matrix [u] of
    its choice, plays the coin flip by the rules, and then sends the sums of its choice, which may
    depend on the coin flip. It returns what the sender sends at the end. Not part of /repo. *)
Definition sly_receiver (sha : bytes -> bytes) (cv : bytes) (seed0 seed1 : list bytes)
    (bootstrap : list (bytes * bytes) -> proc unit) (n : nat) (u : list bytes) (reply : bytes -> bytes * bytes) : proc (bytes * bytes) :=
  let! _ := validate_properties (mkProps n apricot_name) in
  let! _ := (let! _ := bootstrap (combine seed0 seed1) in send (enc_rows u)) in
  let! _ := (let! seed := coinflip_sender sha 32 cv in
             let! _ := send (enc_bytes (fst (reply seed))) in send (enc_bytes (snd (reply seed)))) in
  let! d0 := recv in
  let! d1 := recv in
  ret (d0, d1).

(** The choices that row [j] of [u] stands for, given the seeds of base OT [j]. *)
Definition choices_in (gen : bytes -> nat -> bytes) (seed0 seed1 : list bytes) (l : nat) (u : list bytes) (j : nat) : list bool :=
  let w := (l / 8)%nat in
  map (bit_of (zipWith N.lxor (nth j u []) (zipWith N.lxor (gen (nth j seed0 []) w) (gen (nth j seed1 []) w)))) (seq 0 l).

(** Two 16-byte strings that differ in bit [k] and nowhere else. *)
Definition differ_at (k : nat) (d d' : bytes) : Prop :=
  array_ok 16 d /\ array_ok 16 d' /\ forall j, (j < 128)%nat -> bit_of d' j = xorb (bit_of d j) (Nat.eqb j k).

(** The sender accepts the sums, or ends with the error of the correlation check. *)
Definition accepted {A B} (S : proc A) (R : proc B) : Prop := exists a b, runs S R (Ok a) (Ok b).
Definition caught {A B} (S : proc A) (R : proc B) : Prop := leaves S R (Err ECorrelation) (Err EClosed).
