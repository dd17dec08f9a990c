(** C106: what the decoders accept. *)
From Coq Require Import List NArith Bool Lia.
From Verif Require Import Base MUtil MWires MCircuit MGarble MBincode SpecBincode SpecCanon PBase PBincode PCanon.
Import ListNotations.
Open Scope N_scope.

(** For every message but garbled circuits: a frame is accepted as a value exactly if it is the encoding of this
    value, possibly followed by more bytes. Integers, lengths, tags and names have no second encoding. *)
Theorem C106_accepted :
  accepts props_ok enc_props dec_props /\
  accepts payload_ok enc_payload dec_payload /\
  accepts wires_ok enc_wires dec_wires /\
  accepts rows_ok enc_rows dec_rows /\
  accepts blob_ok enc_bytes dec_bytes /\
  accepts circuit_ok enc_circuit dec_circuit.
Proof.
  exact (conj (accepts_of _ _ _ cn_props rt_props) (conj (accepts_of _ _ _ cn_payload rt_payload) (conj (accepts_of _ _ _ cn_wires rt_wires)
    (conj (accepts_of _ _ _ cn_rows rt_rows) (conj (accepts_of _ _ _ cn_bytes rt_bytes) (accepts_of _ _ _ cn_circuit rt_circuit)))))).
Qed.
Print Assumptions C106_accepted.

(** Garbled circuits: an accepted frame is a circuit and two lists of entries, each well-formed; of several entries
    of a gate the last one counts. *)
Theorem C106_garbled : forall l g rest, bytes_ok l -> dec_garbled l = Ok (g, rest) ->
  exists f h, circuit_ok (gc_circuit g) /\
    vec_ok (fun kv => usize_ok (fst kv) /\ wires_ok (snd kv)) f /\
    vec_ok (fun kv => usize_ok (fst kv) /\ wire_ok (fst (snd kv)) /\ wire_ok (snd (snd kv))) h /\
    l = enc_circuit (gc_circuit g) ++ enc_map enc_wires f ++ enc_map enc_wire2 h ++ rest /\
    (forall k, alookup Nat.eqb k (gc_f g) = last_entry k f) /\
    (forall k, alookup Nat.eqb k (gc_half g) = last_entry k h).
Proof.
  intros l g rest Hl H. destruct (cn_garbled l g rest Hl H) as (f & h & A & B & C & D & E & F & _). exists f, h.
  exact (conj A (conj B (conj C (conj D (conj E F))))).
Qed.
Print Assumptions C106_garbled.

(** False: that a frame is the only one for its value. Any bytes may be appended to any accepted frame. *)
Theorem C106_whole_frame_refuted :
  ignores_tail dec_props /\ ignores_tail dec_payload /\ ignores_tail dec_wires /\ ignores_tail dec_rows /\
  ignores_tail dec_bytes /\ ignores_tail dec_garbled.
Proof.
  exact (conj (tail_of _ _ _ cn_props rt_props) (conj (tail_of _ _ _ cn_payload rt_payload) (conj (tail_of _ _ _ cn_wires rt_wires)
    (conj (tail_of _ _ _ cn_rows rt_rows) (conj (tail_of _ _ _ cn_bytes rt_bytes) tail_garbled))))).
Qed.
Print Assumptions C106_whole_frame_refuted.

(** False even if frames end with their value: a garbled circuit with a table may carry any other table for the same
    gate before it. *)
Theorem C106_garbled_once_refuted : forall c f h k x y,
  circuit_ok c -> vec_ok (fun kv => usize_ok (fst kv) /\ wires_ok (snd kv)) ((k, x) :: f) -> wires_ok y -> usize_ok (S (S (length f))) ->
  vec_ok (fun kv => usize_ok (fst kv) /\ wire_ok (fst (snd kv)) /\ wire_ok (snd (snd kv))) h ->
  exists g g', dec_garbled (enc_circuit c ++ enc_map enc_wires ((k, x) :: f) ++ enc_map enc_wire2 h) = Ok (g, []) /\
    dec_garbled (enc_circuit c ++ enc_map enc_wires ((k, y) :: (k, x) :: f) ++ enc_map enc_wire2 h) = Ok (g', []) /\ same_garbled g g'.
Proof.
  intros c f h k x y Hc Hf Hy L Hh. pose proof (twice_garbled c f h k x y [] Hc Hf Hy L Hh) as H. rewrite !app_nil_r in H. exact H.
Qed.
Print Assumptions C106_garbled_once_refuted.

(** Frames that are and are not accepted. *)
Example C106_case_props : deserialize dec_props [2;1;0;0;0;0;0;0; 2;0;0;0;0;0;0;0; 65;112; 9;9] = Ok (mkProps 258 [65; 112]).
Proof. reflexivity. Qed.
Example C106_case_tag : dec_domain [5;0;0;0; 1;1;1] = Err EBincode /\ dec_domain [4;0;0;1; 1;1;1] = Err EBincode.
Proof. split; reflexivity. Qed.
Example C106_case_short : deserialize dec_bytes [2;0;0;0;0;0;0;0; 65] = Err EBincode.
Proof. reflexivity. Qed.
Example C106_case_twice : exists c f h k x y,
  circuit_ok c /\ vec_ok (fun kv => usize_ok (fst kv) /\ wires_ok (snd kv)) ((k, x) :: f) /\ wires_ok y /\ usize_ok (S (S (length f))) /\
  vec_ok (fun kv => usize_ok (fst kv) /\ wire_ok (fst (snd kv)) /\ wire_ok (snd (snd kv))) h /\ x <> y.
Proof.
  exists (mkCircuit 3 2 1 [mkGate 2 2 [0; 1]%nat GAdd] [2; 2]), [], [], 2%nat, [], [mkWire Binary (repeat 0 32)].
  assert (Z : wire_ok (mkWire Binary (repeat 0 32))) by (split; [exact I|split; [reflexivity|repeat constructor]]).
  repeat split; try reflexivity; try discriminate; repeat constructor; try reflexivity; apply Z.
Qed.
