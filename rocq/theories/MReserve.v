(** Memory asked for by [evaluate]. MGarble.evaluate starts from a list of unwritten wires as long as the circuit says
    and leaves out what reserving it costs; this file models the reservation alone. *)
From Coq Require Import List NArith.
From Verif Require Import Base MWires MCircuit MGarble MBincode.
Import ListNotations.
Open Scope N_scope.

Section Reserve.
Variable p : profile.
(** [size_of::<Wire>()]. Rust does not fix it; wires.rs:10-22: 32 bytes and a [Domain] that may hold a u16. *)
Variable wire_size : N.

(** [Vec::<Wire>::with_capacity(n)]: the number of bytes asked from the allocator; a request above [isize::MAX] bytes
    panics with "capacity overflow". *)
Definition with_capacity (n : nat) : outcome N :=
  let b := N.of_nat n * wire_size in
  if b <? 2 ^ 63 then Ok b else Panic POverflow.

(** garble.rs:295-301, the first lines of [evaluate]: bytes reserved for the wires. *)
Definition evaluate_reserves (gc : garbled) (x : list wire) : outcome N :=
  let c := gc_circuit gc in
  let* _ := debug_assert p (Nat.eqb (length x) (num_inputs c)) in
  with_capacity (num_wires c).

(** fpake.rs:77-89, in [HalfKey::evaluator]: the two frames of the garbler are decoded and given to [evaluate]; [ours] are
    the labels from the oblivious transfer. *)
Definition evaluator_reserves (circuit_frame input_frame : bytes) (ours : list wire) : outcome N :=
  let* gc := deserialize dec_garbled circuit_frame in
  let* theirs := deserialize dec_wires input_frame in
  evaluate_reserves gc (theirs ++ ours).
End Reserve.
