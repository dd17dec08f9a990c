(** Dishonest peers of the OT extension. These programs are not part of /repo. *)
From Coq Require Import List NArith Bool Arith.
From Verif Require Import Base MBincode MProc MOt SpecOt.
Import ListNotations.
Open Scope N_scope.

(** A receiver that plays the first part of Apricot by the rules (negotiation, coin flip, base OT)
    and then sends u, x_sum and t_sum of its choice, which may depend on the coin flip. *)
Definition evil_receiver (sha : bytes -> bytes) (cv : bytes) (seed0 seed1 : list bytes)
    (bootstrap : list (bytes * bytes) -> proc unit) (n : nat) (reply : bytes -> bytes * bytes * bytes) : proc bytes :=
  let! _ := validate_properties (mkProps n apricot_name) in
  let! seed := coinflip_sender sha 32 cv in
  let! _ := recv in
  let! _ := bootstrap (combine seed0 seed1) in
  let '(u, x_sum, t_sum) := reply seed in
  let! _ := send u in
  let! _ := send x_sum in
  let! _ := send t_sum in
  recv.

(** Row [j] of the matrix u encodes the packed choices [x] if it is the exclusive or of x with the
    expansions of the two seeds of base OT [j]; u is consistent if one x explains all rows. *)
Definition u_row_of (fill : bytes -> nat -> bytes) (seed0 seed1 : list bytes) (w : nat) (j : nat) (x : bytes) : bytes :=
  zipWith N.lxor (zipWith N.lxor (fill (nth j seed0 []) w) (fill (nth j seed1 []) w)) x.
Definition consistent_u (fill : bytes -> nat -> bytes) (seed0 seed1 : list bytes) (w : nat) (u : bytes) : Prop :=
  exists x, length x = w /\ forall j, (j < 128)%nat ->
    firstn w (skipn (w * j) u) = u_row_of fill seed0 seed1 w j x.
