(** C108: memory reserved on a peer's word. *)
From Coq Require Import List NArith Arith Lia.
From Verif Require Import Base MWires MCircuit MGarble MBincode MReserve SpecBincode SpecCircuit PBincode PCircuit PReserve.
Import ListNotations.
Open Scope N_scope.

(** False: that the memory reserved by the evaluator is bounded in terms of what it has received. Whatever the labels from
    the oblivious transfer, for every number n of 64 bits two frames of 56 and 8 bytes make it ask for n wires; if
    that is more than a vector can hold the program panics. [s] is the size of a wire in memory. *)
Theorem C108_bounded_refuted : forall p s ours n,
  usize_ok (length ours) -> usize_ok n ->
  exists circuit_frame input_frame,
    length circuit_frame = 56%nat /\ length input_frame = 8%nat /\
    (N.of_nat n * s < 2 ^ 63 -> evaluator_reserves p s circuit_frame input_frame ours = Ok (N.of_nat n * s)) /\
    (2 ^ 63 <= N.of_nat n * s -> evaluator_reserves p s circuit_frame input_frame ours = Panic POverflow).
Proof.
  intros p s ours n Ho Hn. exists (hollow_frame n (length ours)), (enc_wires []).
  rewrite (hollow_reserves p s n ours Hn Ho). unfold with_capacity.
  split; [apply hollow_length|]. split; [reflexivity|]. split; intros H.
  - now rewrite (proj2 (N.ltb_lt _ _) H).
  - now rewrite (proj2 (N.ltb_ge _ _) H).
Qed.
Print Assumptions C108_bounded_refuted.

(** It is bounded for circuits that pass [verify_circuit], which the evaluator does not call: eight bytes of frame for
    every wire, whatever else the frames hold. *)
Theorem C108_verified : forall p s circuit_frame input_frame ours gc,
  bytes_ok circuit_frame -> deserialize dec_garbled circuit_frame = Ok gc -> verify_circuit (gc_circuit gc) = Ok tt ->
  (forall b, evaluator_reserves p s circuit_frame input_frame ours = Ok b -> 8 * b <= s * N.of_nat (length circuit_frame)) /\
  (s * N.of_nat (length circuit_frame) < 2 ^ 66 -> evaluator_reserves p s circuit_frame input_frame ours <> Panic POverflow).
Proof.
  intros p s m1 m2 ours gc Hm D V. split.
  - intros b. now apply verified_reserves with (gc := gc).
  - intros B. now apply verified_no_overflow with (gc := gc).
Qed.
Print Assumptions C108_verified.

(** The circuits of honest garblers pass, so that the bound holds of their frames: with the labels for as many inputs
    as the circuit has, the evaluator reserves room for exactly its wires. *)
Theorem C108_honest : forall p p' s n t, N.of_nat n <= 65534 -> t <= 65534 ->
  exists c, build_circuit p n t = Ok c /\
  forall f h theirs ours, garbled_ok (mkGC c f h) -> wires_ok theirs -> (length theirs + length ours = num_inputs c)%nat ->
    N.of_nat (num_wires c) * s < 2 ^ 63 ->
    evaluator_reserves p' s (enc_garbled (mkGC c f h)) (enc_wires theirs) ours = Ok (N.of_nat (num_wires c) * s) /\
    8 * N.of_nat (num_wires c) <= N.of_nat (length (enc_garbled (mkGC c f h))).
Proof.
  intros p p' s n t Hn Ht. exists (circ1 n t). split; [now apply build_circuit_eq|].
  intros f h theirs ours G W L B. split.
  - now apply honest_reserves.
  - pose proof (verified_wires _ (circ1_verify n t Hn Ht)) as V.
    unfold enc_garbled. cbn [gc_circuit]. rewrite app_length. lia.
Qed.
Print Assumptions C108_honest.

(** With wires of 36 bytes: 2^20 wires are 36 MiB, 2^60 wires a panic, both from the same 64 bytes of frames. *)
Example C108_case :
  usize_ok (length [wire_empty; wire_empty]) /\ usize_ok (N.to_nat (2 ^ 20)) /\
  evaluator_reserves Debug 36 (hollow_frame 7 2) (enc_wires []) [wire_empty; wire_empty] = Ok 252 /\
  with_capacity 36 (N.to_nat (2 ^ 20)) = Ok (36 * 2 ^ 20) /\ with_capacity 36 (N.to_nat (2 ^ 60)) = Panic POverflow.
Proof.
  unfold with_capacity, usize_ok. rewrite !N2Nat.id. repeat split; vm_compute; reflexivity.
Qed.
Example C108_case_verified : exists gc m, bytes_ok m /\ deserialize dec_garbled m = Ok gc /\
  verify_circuit (gc_circuit gc) = Ok tt /\ 36 * N.of_nat (length m) < 2 ^ 66.
Proof.
  exists (mkGC (circ1 1 0) [] []), (enc_garbled (mkGC (circ1 1 0) [] [])).
  split; [repeat constructor|]. repeat split; vm_compute; reflexivity.
Qed.
