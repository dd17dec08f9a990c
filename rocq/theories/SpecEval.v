(** Exactly when [Circuit::eval] is right. *)
From Coq Require Import List NArith Bool Arith.
From Verif Require Import Base MWires MCircuit SpecWires SpecCircuit.
Import ListNotations.
Open Scope N_scope.

(** Exactly when the clear evaluation of a gate is right, for a gate of a well-formed circuit: [v] are the values the
    circuit should give its wires.  A debug build must not overflow 16 bits; a release build may if the wrapped
    result happens to be right. *)
Definition eval_right_gate (p : profile) (c : circuit) (x : list N) (g : gate) : Prop :=
  let v i := nth i (circuit_values c x) 0 in
  match g_kind g with
  | GAdd => let s := fold_right N.add 0 (map v (g_inputs g)) in
      s < 65536 \/ (p = Release /\ (s mod 65536) mod g_domain g = s mod g_domain g)
  | GMul k => let t := v (nth 0 (g_inputs g) 0%nat) * k in
      (t < 65536 /\ t < g_domain g) \/ (p = Release /\ t mod 65536 = t mod g_domain g)
  | GProj _ => True
  | GAnd => v (nth 0 (g_inputs g) 0%nat) = 0 \/ v (nth 1 (g_inputs g) 0%nat) = 1
  end.
