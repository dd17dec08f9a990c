(** Model of the benchmarks of garbling and of the 1-out-of-2 OTs: see MBench. *)
From Coq Require Import List NArith Bool Arith.
From Verif Require Import Base MUtil MWires MCircuit MGarble MProc MOt MFpake.
Import ListNotations.
Open Scope N_scope.

(** benches/garble.rs:10-26 [bench_garble_eval] for one i in 1..=16: the circuit, its garbling, the encoding of
    ones and the evaluation. *)
Definition garble_bench (sha : bytes -> bytes) (rd : N -> bytes) (ri : nat -> bytes) (i : nat) : outcome (list wire) :=
  let bits := (2 ^ i)%nat in
  let* c := build_circuit Release bits 8 in
  let* (gc, e, _) := garble sha Release rd ri c in
  let* x := encode Release e (repeat 1 (2 * bits)) in
  evaluate sha Release gc x.
(** benches/apricot.rs:47-57, benches/apricot_classic.rs:46-56, benches/chou_orlandi.rs:42-51: the messages of
    the OT benchmarks, the two labels of every input wire of a circuit over n / 2 bits. *)
Definition ot_bench_messages (sha : bytes -> bytes) (g : garbling) (n : nat) : outcome (list (bytes * bytes)) :=
  let* c := build_circuit Release (n / 2) 0 in
  let* (_, z, _) := garble_zipped sha Release g c in
  Ok (label_messages z).
(** The same files, [run_ot] (apricot.rs:13-40, apricot_classic.rs:11-39, chou_orlandi.rs:10-35): the receiver thread on n times false. *)
Definition ot_bench_receiver (ot : list bool -> proc (list bytes)) (n : nat) : proc (list bytes) := ot (repeat false n).
