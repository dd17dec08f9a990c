(** Model of the benchmarks in benches/: what each side runs, and on which inputs.  Cargo builds them in
    release mode.  They end on an error ([unwrap]) but compare no results.  Timing, the names of groups
    and the repetitions of a run are left out. *)
From Coq Require Import List NArith Bool Arith.
From Verif Require Import Base MUtil MWires MCircuit MGarble MPar MProc MOt MApricot MMany MFpake.
Import ListNotations.
Open Scope N_scope.

(** benches/fpake.rs:37-39: the sizes, in bytes, for i in 6..=12. *)
Definition fpake_bench_size (i : nat) : nat := (2 ^ i / 8)%nat.
(** benches/fpake.rs:6-20 [fpake], first thread. *)
Definition fpake_bench_1 (sha : bytes -> bytes) (g : garbling) (ot_s : list (bytes * bytes) -> proc unit)
    (ot_r : list bool -> proc (list bytes)) (password_size : nat) : proc bytes :=
  let! k1 := garbler sha Release g ot_s (repeat 42 password_size) 0 in
  let! k2 := evaluator sha Release ot_r (repeat 42 password_size) in
  ret (combine_keys k1 k2).
(** benches/fpake.rs:6-14 and 22-27 [fpake], second thread. *)
Definition fpake_bench_2 (sha : bytes -> bytes) (g : garbling) (ot_s : list (bytes * bytes) -> proc unit)
    (ot_r : list bool -> proc (list bytes)) (password_size : nat) : proc bytes :=
  let! k2 := evaluator sha Release ot_r (repeat 42 password_size) in
  let! k1 := garbler sha Release g ot_s (repeat 42 password_size) 0 in
  ret (combine_keys k1 k2).

(** benches/one_of_many.rs:5-7 [log2], on u32; release arithmetic wraps. *)
Definition bench_log2 (x : N) : N := wrapping_sub 32 (8 * 4) (leading_zeros 32 (wrapping_sub 32 x 1)).
(** benches/one_of_many.rs:48-51: n messages of 2048 / 8 zero bytes. *)
Definition many_bench_messages (n : N) : list bytes := repeat (repeat 0 (2048 / 8)) (N.to_nat n).
(** benches/one_of_many.rs:9-25, sender thread; [keys] are the pairs the sender draws. *)
Definition many_bench_1 (sha : bytes -> bytes) (fill : bytes -> nat -> bytes) (cores : nat) (keys : list (bytes * bytes))
    (base : list (bytes * bytes) -> proc unit) (n : N) : proc unit :=
  many_sender sha fill Release cores keys base (many_bench_messages n) (N.to_nat (bench_log2 n)).
(** benches/one_of_many.rs:10 and 27-34, receiver thread; the choice is n / 2. *)
Definition many_bench_2 (sha : bytes -> bytes) (fill : bytes -> nat -> bytes)
    (base : list bool -> proc (list bytes)) (n : N) : proc bytes :=
  many_receiver sha fill Release base (n / 2) (N.to_nat (bench_log2 n)).

(** benches/many_fpake.rs:265-267 and 326-327: the passwords of both benchmarks, and the index. *)
Definition list_bench_passwords (n : N) : list bytes := repeat (repeat 0 (2048 / 8)) (N.to_nat n).
Definition list_bench_index : N := 1.
(** benches/many_fpake.rs:268, 328: [passwords[index as usize].clone()]. *)
Definition list_bench_password (n : N) : proc bytes := lift (idx (list_bench_passwords n) (N.to_nat list_bench_index)).
(** benches/many_fpake.rs:278-285, first thread of "mfPAKE". *)
Definition v3_bench_1 (sha : bytes -> bytes) (mask : bytes) (g : garbling)
    (ot1 : list (bytes * bytes) -> proc unit) (many_ot : nat -> list bytes -> proc unit) (ot2 : list (bytes * bytes) -> proc unit)
    (ot3 : list bool -> proc (list bytes)) (n : N) : proc bytes :=
  let! (k1, mask) := garbler_server_v3 sha Release mask g ot1 many_ot ot2 (list_bench_passwords n) 0 in
  let! k2 := evaluator_server_v3 sha Release ot3 (list_bench_passwords n) mask in
  ret (combine_keys k1 k2).
(** benches/many_fpake.rs:287-306, second thread. *)
Definition v3_bench_2 (sha : bytes -> bytes) (g : garbling)
    (ot1 : list bool -> proc (list bytes)) (many_ot : nat -> N -> proc bytes) (ot2 : list bool -> proc (list bytes))
    (ot3 : list (bytes * bytes) -> proc unit) (n : N) : proc bytes :=
  let! password := list_bench_password n in
  let! (k1, masked_password) := evaluator_client_v3 sha Release ot1 many_ot ot2 password n list_bench_index in
  let! k2 := garbler_client_v3 sha Release g ot3 password masked_password 0 in
  ret (combine_keys k1 k2).
(** benches/many_fpake.rs:337-338, first thread of "mfPAKE,hd". *)
Definition mfpake_bench_1 (sha : bytes -> bytes) (mask : bytes) (g : garbling) (many_ot : nat -> list bytes -> proc unit)
    (ot_s : list (bytes * bytes) -> proc unit) (ot_r : list bool -> proc (list bytes)) (n : N) : proc bytes :=
  mfpake_many sha Release mask g many_ot ot_s ot_r (list_bench_passwords n) 0.
(** benches/many_fpake.rs:340-343, second thread. *)
Definition mfpake_bench_2 (sha : bytes -> bytes) (g : garbling) (many_ot : nat -> N -> proc bytes)
    (ot_s : list (bytes * bytes) -> proc unit) (ot_r : list bool -> proc (list bytes)) (n : N) : proc bytes :=
  let! password := list_bench_password n in
  mfpake_single sha Release g many_ot ot_s ot_r password list_bench_index n 0.
