(** A peer that plays the garbler and sends a circuit whose evaluation fails for some passwords only. *)
From Coq Require Import List NArith Bool Arith.
From Verif Require Import Base MWires MCircuit MGarble MBincode MProc.
Import ListNotations.
Open Scope N_scope.

(** Labels for the values 0 and 1, of the colours 0 and 1. *)
Definition plain_label (b : bool) : bytes := repeat 0 31 ++ [if b then 1 else 0].

(** One projection gate that reads wire i; its table has a row for the colour 0 only. *)
Definition half_table (n i : nat) : garbled :=
  mkGC (mkCircuit (n + 1) n 1 [mkGate n 2 [i] (GProj (PMap 2))] (repeat 2 n)) [(n, [mkWire Binary (plain_label false)])] [].

(** The messages of fpake.rs:15-59 for a password of n bits; it sends no labels for a password of its own. *)
Definition picky_garbler (ot : list (bytes * bytes) -> proc unit) (n i : nat) : proc unit :=
  let! _ := ot (repeat (plain_label false, plain_label true) n) in
  let! _ := send (enc_garbled (half_table n i)) in
  send (enc_wires []).
