(** What the server of the first legacy exchange can compute from what it received. *)
From Coq Require Import List NArith Bool Arith.
From Verif Require Import Base SpecWires.
Import ListNotations.
Open Scope N_scope.

(** Rows of n strings each. *)
Definition row_of (n i : nat) (seen : list bytes) : list bytes := firstn n (skipn (i * n) seen).
Definition xor_strings (a b : bytes) : bytes := map (fun xy => N.lxor (fst xy) (snd xy)) (combine a b).
Definition xor_row (a b : list bytes) : list bytes := map (fun xy => xor_strings (fst xy) (snd xy)) (combine a b).
Definition xor_rows (count n : nat) (seen : list bytes) : list bytes :=
  fold_right (fun i acc => xor_row (row_of n i seen) acc) (repeat (repeat 0 32) n) (seq 0 count).

Definition same_row (a b : list bytes) : bool := if list_eq_dec (list_eq_dec N.eq_dec) a b then true else false.
(** The server's guess: the row that equals the XOR of all rows. *)
Definition guess (count n : nat) (seen : list bytes) : option nat :=
  find (fun i => same_row (row_of n i seen) (xor_rows count n seen)) (seq 0 count).

(** The random keys drawn by the client, as in the protocol: 32 bytes each. *)
Definition keys_ok (rand : nat -> nat -> bytes) : Prop := forall r j, length (rand r j) = 32%nat.
