(** Frames that are long enough for what an OT sender reads from them through raw pointers. *)
From Coq Require Import List NArith Arith.
From Verif Require Import Base MGarble MBincode MProc SpecHostile.
Import ListNotations.
Open Scope N_scope.

(** If there is a frame at position [i], it has at least [k] bytes. *)
Definition long_frame (i k : nat) (ins : list bytes) : Prop := forall m, nth_error ins i = Some m -> (k <= length m)%nat.
(** If there is a frame at position [i] and it is a list of pairs of ciphertexts, each of them has at least [k] bytes. *)
Definition long_ciphertexts (i k : nat) (ins : list bytes) : Prop := forall m pay,
  nth_error ins i = Some m -> deserialize dec_payload m = Ok pay ->
  forall c0 c1, In (c0, c1) pay -> (k <= length c0 /\ k <= length c1)%nat.
(** If there is a frame at position [i] and it is a byte vector, this has at least [k] bytes. *)
Definition long_vector (i k : nat) (ins : list bytes) : Prop := forall m v,
  nth_error ins i = Some m -> deserialize dec_bytes m = Ok v -> (k <= length v)%nat.

(** The frames an Apricot sender of [n] pairs gets: announcement, coin flip (2), base OT (announcement, 128
    points, ciphertexts), u, x_sum, t_sum. *)
Definition apricot_frames (n : nat) (ins : list bytes) : Prop :=
  long_ciphertexts 132 32 ins /\ long_frame 133 (128 * ((n + 256) / 8))%nat ins /\ long_frame 134 16 ins.
(** The classic sender gets the coin flip after u; only x_sum is read through a raw pointer. *)
Definition classic_frames (ins : list bytes) : Prop := long_vector 134 16 ins.

(** If the frame at position [i] is a garbled circuit, wires are written before they are read. *)
Definition safe_circuit (i : nat) (ins : list bytes) : Prop := forall m gc,
  nth_error ins i = Some m -> deserialize dec_garbled m = Ok gc -> written_first (gc_circuit gc).

(** A v3 client in the second half (many_fpake.rs:268-357) and a v3 server in the first (64-175) that follow the
    protocol, with zeros for labels, but send [short] in place of the [n] labels for the mask. *)
Definition stingy_client (ot : list (bytes * bytes) -> proc unit) (n : nat) (gc : garbled) (short : bytes) : proc unit :=
  let! _ := send (enc_garbled gc) in
  let! _ := send (enc_wires []) in
  let! _ := ot (repeat (repeat 0 32, repeat 0 32) n) in
  send short.
Definition stingy_server (ot1 : list (bytes * bytes) -> proc unit) (many_ot : nat -> list bytes -> proc unit)
    (ot2 : list (bytes * bytes) -> proc unit) (n d : nat) (passwords : list bytes) (gc : garbled) (short : bytes) : proc unit :=
  let! _ := send (enc_garbled gc) in
  let! _ := ot1 (repeat (repeat 0 32, repeat 0 32) n) in
  let! _ := send short in
  let! _ := many_ot d passwords in
  ot2 (repeat (repeat 0 32, repeat 0 32) n).
