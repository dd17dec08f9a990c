(** Independent specification for moving circuits: what a list of gates computes when the wires are an unbounded
    memory, whatever their numbers are. *)
From Coq Require Import List NArith Bool Arith.
From Verif Require Import Base MCircuit SpecCircuit.
Import ListNotations.
Open Scope N_scope.

(** Running gates on a memory of wires: each gate writes its value to its output wire. *)
Fixpoint run_memory (gs : list gate) (mem : nat -> N) : nat -> N :=
  match gs with
  | [] => mem
  | g :: gs' =>
      let v := gate_value g (map mem (g_inputs g)) in
      run_memory gs' (fun w => if Nat.eqb w (g_output g) then v else mem w)
  end.

(** Two lists of gates compute the same when wire w of the one is wire r w of the other. *)
Definition same_up_to (r : nat -> nat) (gs hs : list gate) : Prop :=
  forall mem mem', (forall w, mem' (r w) = mem w) -> forall w, run_memory hs mem' (r w) = run_memory gs mem w.

(** A circuit can be evaluated on an input. *)
Definition evaluates (o : outcome (list N)) : Prop := exists ws, o = Ok ws.
