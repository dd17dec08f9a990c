(** A client that decides what the server's key is.

    It learns the label of 1 of the server's circuit, as an evaluator with a password within the threshold does or with
    the attack of SpecSteal, and then garbles a circuit that has this label for its output whatever the server's password
    is.  The two half keys of the server are then the same. *)
From Coq Require Import List NArith Bool Arith.
From Verif Require Import Base MUtil MWires MCircuit MGarble MBincode MProc MFpake SpecSteal.
Import ListNotations.
Open Scope N_scope.

(** The peer's n bits are added; both labels of the first bit are l, those of all others are zero. *)
Definition forcing_labels (n : nat) (l : wire) : list (wire * wire) :=
  (l, l) :: repeat (mkWire Binary (repeat 0 32), mkWire Binary (repeat 0 32)) (n - 1).
(** The output is wire o, where the peer's own circuit has it. *)
Definition forcing_circuit (n o : nat) : circuit := mkCircuit (o + 1) n 1 [mkGate o 2 (seq 0 n) GAdd] (repeat 2 n).
Definition forcing_garbler (ot : list (bytes * bytes) -> proc unit) (n o : nat) (l : wire) : proc unit :=
  let! _ := ot (label_messages (forcing_labels n l)) in
  let! _ := send (enc_garbled (mkGC (forcing_circuit n o) [] [])) in
  let! _ := send (enc_wires []) in
  ret tt.

(** fpake.rs:61-95 up to the output label, which is computed by [F]. *)
Definition reading_evaluator (p : profile) (F : garbled -> list wire -> outcome wire) (ot : list bool -> proc (list bytes)) (guess : bytes) : proc wire :=
  let! enc_password := ot (u8_vec_to_bool_vec guess) in
  let! our_password := lift (mapM (fun b => let* b := to_array p b in from_array p b Binary) enc_password) in
  let! m := recv in
  let! gc := lift (deserialize dec_garbled m) in
  let! m := recv in
  let! their_password := lift (deserialize dec_wires m) in
  lift (F gc (their_password ++ our_password)).

(** With a password within the threshold, and without. *)
Definition by_evaluation (sha : bytes -> bytes) (p : profile) (gc : garbled) (x : list wire) : outcome wire :=
  let* out := evaluate sha p gc x in idx out 0.
Definition by_stealing (sha : bytes -> bytes) (p : profile) (n t : nat) (gc : garbled) (x : list wire) : outcome wire :=
  let* (l, _) := steal sha p gc (3 * n) n t x in Ok l.

Definition forcing_client (p : profile) (F : garbled -> list wire -> outcome wire) (ot_s : list (bytes * bytes) -> proc unit)
    (ot_r : list bool -> proc (list bytes)) (guess : bytes) : proc unit :=
  let n := (length guess * 8)%nat in
  let! l := reading_evaluator p F ot_r guess in
  forcing_garbler ot_s n (4 * n + 1) l.
