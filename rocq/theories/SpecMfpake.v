(** What the one-of-many key exchanges are given. *)
From Coq Require Import List NArith Bool Arith.
From Verif Require Import Base MWires MCircuit MGarble MFpake MProc SpecGarble SpecOt SpecMany.
Import ListNotations.
Open Scope N_scope.

(** A correct 1-out-of-2^d OT for the domains d that satisfy [dom]. *)
Definition many_correct (dom : nat -> Prop) (sender : nat -> list bytes -> proc unit) (receiver : nat -> N -> proc bytes) : Prop :=
  forall d messages choice m, dom d -> length messages = (2 ^ d)%nat -> same_length messages ->
    nth_error messages (N.to_nat choice) = Some m ->
    runs (sender d messages) (receiver d choice) (Ok tt) (Ok m).

(** A list of 2^d passwords (with d at most 31, so that the number fits 32 bits) of l bytes each. *)
Definition password_list (d l : nat) (passwords : list bytes) : Prop :=
  (d <= 31)%nat /\ length passwords = (2 ^ d)%nat /\ Forall (fun pw : bytes => length pw = l) passwords.

(** The labels for 0 and for 1 that the garbling of circuit c with randomness g gives wire o; they
    differ. *)
Definition labels_of (sha : bytes -> bytes) (p : profile) (g : garbling) (c : circuit) (o : nat) (l0 l1 : wire) : Prop :=
  exists ek s, garble_run sha p (g_rd g) (g_ri g) c = Ok (ek, o, s) /\
    genuine c (g_rd g) (gs_wires s) o 0 l0 /\ genuine c (g_rd g) (gs_wires s) o 1 l1 /\ wval l0 <> wval l1.

(** An ideal 1-of-n OT towards a client with index i: it announces the domain, hands over entry i, and the
    session ends there. *)
Definition reveal (i : nat) : nat -> list bytes -> proc unit :=
  fun d ms => let! _ := send (be_bytes 8 (N.of_nat d)) in let! _ := send (nth i ms []) in Done (Err EClosed).
