(** A garbler that makes the half key of its peer a digest of the peer's password.

    It follows the messages of fpake.rs:26-59, but enters labels and a circuit of its own into them: the label of 0
    is zero for every bit, the label of 1 has only the bit itself set, and the circuit is a single addition of all
    bits of the peer, whose output label therefore is the password. *)
From Coq Require Import List NArith Bool Arith.
From Verif Require Import Base MUtil MWires MCircuit MGarble MBincode MProc MFpake SpecCircuit SpecSteal.
Import ListNotations.
Open Scope N_scope.

Definition telling_labels (n : nat) : list (wire * wire) :=
  map (fun i => (mkWire Binary (repeat 0 32), mkWire Binary (probe 32 i))) (seq 0 n).
Definition telling_circuit (n : nat) : circuit := mkCircuit (n + 1) n 1 [mkGate n 2 (seq 0 n) GAdd] (repeat 2 n).

(** Nothing is garbled, and there are no tables; the attacker has no inputs. *)
Definition telling_garbler (ot : list (bytes * bytes) -> proc unit) (n : nat) : proc unit :=
  let! _ := ot (label_messages (telling_labels n)) in
  let! _ := send (enc_garbled (mkGC (telling_circuit n) [] [])) in
  let! _ := send (enc_wires []) in
  ret tt.

(** What a peer with this password then hashes, and has for its half key. *)
Definition told_string (pw : bytes) : bytes := be_bytes 8 (N.of_nat (length pw * 8)) ++ be_bytes 2 1 ++ pw ++ repeat 0 (32 - length pw).
Definition told (sha : bytes -> bytes) (pw : bytes) : bytes := sha (told_string pw).

(** Both roles: one half key is stolen as in SpecSteal, the other is made a digest of the password.  The attacker
    ends with the stolen half key. *)
Definition telling_client (sha : bytes -> bytes) (p : profile) (ot_s : list (bytes * bytes) -> proc unit)
    (ot_r : list bool -> proc (list bytes)) (guess : bytes) (t : nat) : proc bytes :=
  let! (k, _) := evil_evaluator sha p ot_r guess t in
  let! _ := telling_garbler ot_s (length guess * 8) in
  ret k.
Definition telling_server (sha : bytes -> bytes) (p : profile) (ot_s : list (bytes * bytes) -> proc unit)
    (ot_r : list bool -> proc (list bytes)) (guess : bytes) (t : nat) : proc bytes :=
  let! _ := telling_garbler ot_s (length guess * 8) in
  let! (k, _) := evil_evaluator sha p ot_r guess t in
  ret k.

(** With one key of the honest side at hand, the attacker tries passwords on its own. *)
Definition try_passwords (sha : bytes -> bytes) (k key : bytes) (dictionary : list bytes) : list bytes :=
  filter (fun pw => bytes_eqb (combine_keys k (told sha pw)) key) dictionary.
