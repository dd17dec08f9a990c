(** A peer that plays the garbler and sends a circuit of its choice. *)
From Coq Require Import List NArith Bool Arith.
From Verif Require Import Base MWires MCircuit MGarble MBincode MProc.
Import ListNotations.
Open Scope N_scope.

(** It follows the messages of fpake.rs:15-59 for a password of n bits; all labels are zeros, and it sends none for
    its own password. *)
Definition hostile_garbler (ot : list (bytes * bytes) -> proc unit) (n : nat) (gc : garbled) : proc unit :=
  let! _ := ot (repeat (repeat 0 32, repeat 0 32) n) in
  let! _ := send (enc_garbled gc) in
  send (enc_wires []).

(** One gate that reads its own output, and one gate that needs a table. *)
Definition self_reading (n : nat) : garbled := mkGC (mkCircuit (n + 1) n 1 [mkGate n 2 [n] GAdd] (repeat 2 n)) [] [].
Definition without_table (n : nat) : garbled := mkGC (mkCircuit (n + 1) n 1 [mkGate n 2 [0%nat] (GProj (PMap 2))] (repeat 2 n)) [] [].

(** Every gate reads inputs or wires that an earlier gate has written, and all outputs are written. *)
Definition written_first (c : circuit) : Prop :=
  (forall k g, nth_error (gates c) k = Some g -> forall i, In i (g_inputs g) ->
     (i < num_inputs c)%nat \/ exists j h, (j < k)%nat /\ nth_error (gates c) j = Some h /\ g_output h = i) /\
  (forall i, (num_wires c - num_outputs c <= i < num_wires c)%nat ->
     (i < num_inputs c)%nat \/ exists h, In h (gates c) /\ g_output h = i).
