(** What hiding the inputs of a garbled circuit means. *)
From Coq Require Import List NArith Bool Arith.
From Verif Require Import Base MWires MCircuit MGarble SpecWires SpecCircuit SpecGarble.
Import ListNotations.
Open Scope N_scope.

(** No gate is a projection. *)
Definition projection_free (c : circuit) : Prop := forall g k, In g (gates c) -> g_kind g <> GProj k.

(** No label of the first input of an AND gate is a label of its second input. *)
Definition apart (c : circuit) (rd : N -> bytes) (zeros : list wire) : Prop :=
  forall g a b l, In g (gates c) -> g_kind g = GAnd -> g_inputs g = a :: b :: l ->
  forall u v x y, u < 2 -> v < 2 -> genuine c rd zeros a u x -> genuine c rd zeros b v y -> wval x <> wval y.

(** A hash function and input samples with which [garble] may run, and whose AND gates have unrelated inputs. *)
Definition fair (p : profile) (rd : N -> bytes) (c : circuit) (world : (bytes -> bytes) * (nat -> bytes)) : Prop :=
  hash32 (fst world) /\ good_samples c rd (snd world) /\
  forall ek st s, garble_run (fst world) p rd (snd world) c = Ok (ek, st, s) -> apart c rd (gs_wires s).

(** What the evaluator holds: garbled circuit, decoding key, labels of the inputs. *)
Definition view (p : profile) (rd : N -> bytes) (c : circuit) (x : list N) (world : (bytes -> bytes) * (nat -> bytes))
  : outcome (garbled * decoding_key * list wire) :=
  let* (gc, ek, dk) := garble (fst world) p rd (snd world) c in
  let* xs := encode p ek x in
  Ok (gc, dk, xs).

(** The same hash function and the same samples. *)
Definition same_world (a b : (bytes -> bytes) * (nat -> bytes)) : Prop :=
  (forall q, fst a q = fst b q) /\ (forall i, snd a i = snd b i).

(** A string an AND gate hashes, made from the label of the value an input wire does not have. *)
Definition unheld (p : profile) (rd : N -> bytes) (c : circuit) (x : list N) (world : (bytes -> bytes) * (nat -> bytes)) (q : bytes) : Prop :=
  exists ek st s g i j l, garble_run (fst world) p rd (snd world) c = Ok (ek, st, s) /\
    In g (gates c) /\ g_kind g = GAnd /\ In i (g_inputs g) /\
    genuine c rd (gs_wires s) i (1 - nth i (circuit_values c x) 0) l /\ q = wval l ++ be_bytes 8 (N.of_nat j).
