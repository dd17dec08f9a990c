(** Coin flips with one side that cheats. *)
From Coq Require Import List NArith Bool Arith.
From Verif Require Import Base MProc MOt.
Import ListNotations.
Open Scope N_scope.

(** A hash function with the values at two strings exchanged. *)
Definition exchanged (x y : bytes) (sha : bytes -> bytes) (z : bytes) : bytes :=
  if list_eq_dec N.eq_dec z x then sha y else if list_eq_dec N.eq_dec z y then sha x else sha z.

(** A receiver that picks its bytes after it has seen the commitment, and may hash what it likes: [choose] has the hash
    function and the commitment.  It [does not open] the commitments at [x] and [y] if it picks the same bytes whichever of the
    two was committed to. *)
Definition does_not_open (choose : (bytes -> bytes) -> bytes -> bytes) (sha : bytes -> bytes) (x y : bytes) : Prop :=
  choose (exchanged x y sha) (sha x) = choose sha (sha x).
Definition late_receiver (choose : (bytes -> bytes) -> bytes -> bytes) (sha : bytes -> bytes) (n : nat) : proc bytes :=
  let! commit := recv in
  let! _ := send (choose sha commit) in
  let! v := recv in
  ret (xor_arrays (choose sha commit) v).

(** A sender that hangs up instead of opening if it does not like the result. *)
Definition picky_sender (bad : bytes -> bool) (sha : bytes -> bytes) (n : nat) (v : bytes) : proc bytes :=
  let! _ := send (sha v) in
  let! u := recv in
  if bad (xor_arrays v u) then ret (xor_arrays v u) else
  let! _ := send v in
  ret (xor_arrays v u).
