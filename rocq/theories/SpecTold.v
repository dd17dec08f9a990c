(** What a frame tells a listener about the threshold. *)
From Coq Require Import List NArith Bool Arith.
From Verif Require Import Base MCircuit MBincode MProc.
Import ListNotations.
Open Scope N_scope.

(** The frame is read as a circuit, with whatever follows left alone; the bound of its last gate, less one. *)
Definition told (frame : bytes) : option N :=
  match dec_circuit frame with
  | Ok (c, _) => match rev (gates c) with mkGate _ _ _ (GProj (PLess b)) :: _ => Some (b - 1) | _ => None end
  | _ => None
  end.

(** A frame of at most [n] bytes, or none. *)
Definition short_frame (n : nat) (x : option bytes) : Prop := match x with Some m => (length m <= n)%nat | None => True end.

(** Whatever frames of at most [n] bytes a side reads, it ends with a result only after sending a frame
    that tells [t]. *)
Fixpoint tells {A} (n : nat) (t : N) (said : Prop) (q : proc A) : Prop :=
  match q with
  | Done (Ok _) => said
  | Done _ => True
  | Snd m k => tells n t (said \/ told m = Some t) k
  | Rcv k => forall x, short_frame n x -> tells n t said (k x)
  end.

(** Room for the wires of the circuits for passwords of [n] bytes. *)
Definition room_for (n : nat) : Prop := N.of_nat (n * 8 * 5 + 2) < 2 ^ 64.
