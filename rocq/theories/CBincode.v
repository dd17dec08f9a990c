(** C58: wire format round-trip; C64: hostile bytes only produce decoding errors. *)
From Coq Require Import List NArith Bool Lia Permutation.
From Verif Require Import Base MUtil MWires MCircuit MGarble MBincode SpecBincode PBincode.
Import ListNotations.
Open Scope N_scope.

(** C58 for everything but garbled circuits. *)
Theorem C58_messages_round_trip :
  reads_back props_ok enc_props dec_props /\
  reads_back payload_ok enc_payload dec_payload /\
  reads_back wires_ok enc_wires dec_wires /\
  reads_back rows_ok enc_rows dec_rows /\
  reads_back blob_ok enc_bytes dec_bytes /\
  reads_back circuit_ok enc_circuit dec_circuit.
Proof. exact (conj rt_props (conj rt_payload (conj rt_wires (conj rt_rows (conj rt_bytes rt_circuit))))). Qed.
Print Assumptions C58_messages_round_trip.

(** C58 for garbled circuits: the two hash maps are written in an arbitrary order ([g'] is [g] with
    its maps enumerated differently); the reader gets the same circuit and equal maps. *)
Theorem C58_garbled_circuits_round_trip : forall g g' rest,
  garbled_ok g ->
  gc_circuit g = gc_circuit g' ->
  Permutation (gc_f g) (gc_f g') ->
  Permutation (gc_half g) (gc_half g') ->
  exists g2, dec_garbled (enc_garbled g' ++ rest) = Ok (g2, rest) /\ same_garbled g2 g.
Proof.
  intros g g' rest Hok Hc Hf Hh.
  exact (rt_garbled_any_order g g' rest Hok (conj Hc (conj Hf Hh))).
Qed.
Print Assumptions C58_garbled_circuits_round_trip.

(** C58 for the public keys of the old state-machine API. *)
Theorem C58_public_keys_round_trip : forall ps rest,
  Forall (fun q => length q = 32%nat /\ bytes_ok q) ps ->
  N.of_nat (32 * length ps) < 2 ^ 64 ->
  dec_public (enc_public ps ++ rest) = Ok (ps, rest).
Proof. exact rt_public. Qed.
Print Assumptions C58_public_keys_round_trip.

(** C64: whatever bytes arrive, deserialising them as any of the message types yields a value
    or a decoding error; it neither panics nor reads out of bounds. *)
Theorem C64_hostile_bytes_only_fail_to_decode : forall m : bytes,
  let harmless {A} (d : parser A) := (exists a, deserialize d m = Ok a) \/ deserialize d m = Err EBincode in
  harmless dec_props /\ harmless dec_payload /\ harmless dec_wires /\ harmless dec_rows /\
  harmless dec_bytes /\ harmless dec_garbled.
Proof.
  intros m harmless. unfold harmless.
  exact (conj (deserialize_total _ m tp_props) (conj (deserialize_total _ m tp_payload)
        (conj (deserialize_total _ m tp_wires) (conj (deserialize_total _ m tp_rows)
        (conj (deserialize_total _ m tp_bytes) (deserialize_total _ m tp_garbled)))))).
Qed.
Print Assumptions C64_hostile_bytes_only_fail_to_decode.

(** The bytes of small values, as bincode produces them. *)
Example props_bytes : enc_props (mkProps 258 [65; 112]) =
  [2;1;0;0;0;0;0;0; 2;0;0;0;0;0;0;0; 65;112].
Proof. reflexivity. Qed.
Example payload_bytes : enc_payload [([7], [8; 9])] =
  [1;0;0;0;0;0;0;0; 1;0;0;0;0;0;0;0; 7; 2;0;0;0;0;0;0;0; 8; 9].
Proof. reflexivity. Qed.
Example gate_bytes : enc_gate (mkGate 5 2 [3%nat; 4%nat] (GProj (PLess 1))) =
  [5;0;0;0;0;0;0;0; 2;0; 2;0;0;0;0;0;0;0; 3;0;0;0;0;0;0;0; 4;0;0;0;0;0;0;0; 2;0;0;0; 1;0;0;0; 1;0].
Proof. reflexivity. Qed.
Example wire_bytes : firstn 6 (enc_wire (mkWire (U16 300) (repeat 9 32))) = [2;0;0;0;44;1].
Proof. reflexivity. Qed.

(** The hypotheses are met by ordinary values. *)
Definition demo_gc : garbled :=
  mkGC (mkCircuit 3 2 1 [mkGate 2 2 [0%nat; 1%nat] GAnd] [2; 2])
    [(2%nat, [mkWire Binary (repeat 1 32)]); (7%nat, [])]
    [(0%nat, (mkWire (U8 3) (repeat 2 32), mkWire U8MAX (repeat 3 32)))].
Example demo_gc_ok : garbled_ok demo_gc.
Proof.
  unfold garbled_ok, circuit_ok, map_ok, vec_ok, usize_ok, gate_ok, wires_ok, vec_ok, wire_ok, domain_ok,
    kind_ok, u16_ok, usize_ok, byte_ok, bytes_ok, byte_ok; cbn -[N.lt].
  repeat match goal with
  | |- _ /\ _ => split
  | |- Forall _ _ => constructor
  | |- NoDup _ => constructor
  | |- ~ _ => cbn; intuition discriminate
  | |- True => exact I
  | |- _ = _ => reflexivity
  | |- _ < _ => reflexivity
  | |- _ => progress cbn -[N.lt]
  end.
Qed.
Example demo_gc_swapped :
  exists g2, dec_garbled (enc_garbled (mkGC (gc_circuit demo_gc) (rev (gc_f demo_gc)) (gc_half demo_gc)) ++ [1; 2])
    = Ok (g2, [1; 2]) /\ same_garbled g2 demo_gc.
Proof.
  apply C58_garbled_circuits_round_trip; [exact demo_gc_ok|reflexivity|apply Permutation_rev|apply Permutation_refl].
Qed.
(** Truncated input is an error. *)
Example truncated : deserialize dec_props (firstn 17 (enc_props (mkProps 258 [65; 112]))) = Err EBincode.
Proof. reflexivity. Qed.
Example bad_utf8 : deserialize dec_props (enc_props (mkProps 1 [192; 128])) = Err EBincode.
Proof. reflexivity. Qed.
