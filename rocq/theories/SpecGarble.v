(** Independent specification of genuine garbled labels. *)
From Coq Require Import List NArith Bool Arith.
From Verif Require Import Base MWires MCircuit MGarble SpecWires SpecCircuit.
Import ListNotations.
Open Scope N_scope.

(** The label for value k when w0 is the label for 0 and d the offset of the modulus. *)
Definition value_label (m : N) (w0 d : wire) (k : N) (l : wire) : Prop :=
  label m l /\ forall i, (i < ndigits m)%nat -> digit m l i = dplus m (digit m w0 i) (dtimes m (digit m d i) k).

(** The garbler's label for value k on wire o: [zeros] are the labels for 0 the garbler created,
    the offset of modulus m is drawn from the sample [rd m]. *)
Definition genuine (c : circuit) (rd : N -> bytes) (zeros : list wire) (o : nat) (k : N) (l : wire) : Prop :=
  exists d, wire_delta (modulus c o) (rd (modulus c o)) = Ok d /\
    value_label (modulus c o) (nth o zeros wire_empty) d k l.

(** Randomness the generator may produce. *)
Definition good_samples (c : circuit) (rd : N -> bytes) (ri : nat -> bytes) : Prop :=
  (forall m, supported m -> valid_sample m (rd m)) /\
  (forall i m, nth_error (input_domains c) i = Some m -> valid_sample m (ri i)).

(** First output wire. *)
Definition first_output (c : circuit) : nat := num_wires c - num_outputs c.
