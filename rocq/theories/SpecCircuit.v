(** Independent specification of circuits: what a gate computes, when a circuit is well formed,
    and what garbling must achieve. *)
From Coq Require Import List NArith Bool Arith.
From Verif Require Import Base MWires MCircuit SpecWires.
Import ListNotations.
Open Scope N_scope.

(** The value of a gate from the values of its inputs. *)
Definition gate_value (g : gate) (ins : list N) : N :=
  match g_kind g with
  | GAdd => fold_right N.add 0 ins mod g_domain g
  | GMul c => (nth 0 ins 0 * c) mod g_domain g
  | GProj (PMap m) => nth 0 ins 0 mod m
  | GProj (PLess t) => if nth 0 ins 0 <? t then 1 else 0
  | GAnd => nth 0 ins 0 * nth 1 ins 0
  end.

(** Values of all wires: the inputs followed by the gate outputs in order. *)
Fixpoint run_gates (gs : list gate) (vals : list N) : list N :=
  match gs with
  | [] => vals
  | g :: gs' => run_gates gs' (vals ++ [gate_value g (map (fun i => nth i vals 0) (g_inputs g))])
  end.
Definition circuit_values (c : circuit) (x : list N) : list N := run_gates (gates c) x.
(** The outputs are the last [num_outputs] wires. *)
Definition circuit_outputs (c : circuit) (x : list N) : list N :=
  skipn (num_wires c - num_outputs c) (circuit_values c x).

(** Modulus of every wire. *)
Definition wire_moduli (c : circuit) : list N := input_domains c ++ map output_domain (gates c).
Definition modulus (c : circuit) (i : nat) : N := nth i (wire_moduli c) 0.

(** A gate is used at the moduli its kind expects. *)
Definition gate_typed (c : circuit) (g : gate) : Prop :=
  match g_kind g with
  | GAdd => g_inputs g <> [] /\ forall i, In i (g_inputs g) -> modulus c i = g_domain g
  | GMul k => exists i l, g_inputs g = i :: l /\ modulus c i = g_domain g /\ k < g_domain g
  | GProj k => exists i l, g_inputs g = i :: l /\ modulus c i = g_domain g /\ supported (proj_domain k)
  | GAnd => exists a b l, g_inputs g = a :: b :: l /\ modulus c a = 2 /\ modulus c b = 2 /\ g_domain g = 2
  end.

(** Gates are numbered consecutively after the inputs and only read earlier wires. *)
Record wf_circuit (c : circuit) : Prop := mkWf {
  wf_indoms : length (input_domains c) = num_inputs c;
  wf_wires : num_wires c = (num_inputs c + length (gates c))%nat;
  wf_outs : (num_outputs c <= length (gates c))%nat;
  wf_gates : forall k g, nth_error (gates c) k = Some g ->
      g_output g = (num_inputs c + k)%nat /\
      Forall (fun i => (i < g_output g)%nat) (g_inputs g) /\
      gate_typed c g /\ supported (g_domain g);
  wf_insupp : Forall supported (input_domains c);
  wf_inused : forall m, In m (input_domains c) ->
      exists g, In g (gates c) /\ (g_domain g = m \/ output_domain g = m) }.

(** Inputs below their moduli. *)
Definition wf_inputs (c : circuit) (x : list N) : Prop :=
  length x = num_inputs c /\ forall i, (i < num_inputs c)%nat -> nth i x 0 < modulus c i.

(** A hash function with 32-byte digests. *)
Definition hash32 (h : bytes -> bytes) : Prop := forall x, length (h x) = 32%nat /\ bytes_ok (h x).

(** Two different strings with the same digest. *)
Definition clash (h : bytes -> bytes) (a b : bytes) : Prop := a <> b /\ h a = h b.

(** The string that is hashed for value k on output wire o when the label is l
    (8 bytes wire number, 2 bytes value, 32 bytes label). *)
Definition dec_string (o : nat) (k : N) (l : wire) : bytes :=
  be_bytes 8 (N.of_nat o) ++ be_bytes 2 k ++ wval l.

(** Number of positions at which two bit strings differ. *)
Fixpoint hamming (a b : list bool) : nat :=
  match a, b with
  | x :: a', y :: b' => ((if xorb x y then 1 else 0) + hamming a' b')%nat
  | _, _ => 0%nat
  end.
(** Number of ones in the exclusive or of three bit strings. *)
Fixpoint weight3 (a b c : list bool) : nat :=
  match a, b, c with
  | x :: a', y :: b', z :: c' => ((if xorb x (xorb y z) then 1 else 0) + weight3 a' b' c')%nat
  | _, _, _ => 0%nat
  end.
(** Bits as wire values. *)
Definition bit_values (l : list bool) : list N := map (fun b : bool => if b then 1 else 0) l.

(** Wires mentioned by a list of gates. *)
Definition mentions (gs : list gate) (w : nat) : Prop :=
  exists g, In g gs /\ (In w (g_inputs g) \/ w = g_output g).

(** Conditions under which the clear evaluation of a gate is expected to be right: machine sums and
    products fit into 16 bits, a constant multiple stays below the domain, an AND gate either has
    second input 1 or first input 0. *)
Definition eval_ok_gate (c : circuit) (x : list N) (g : gate) : Prop :=
  let v i := nth i (circuit_values c x) 0 in
  match g_kind g with
  | GAdd => g_domain g <> 0 /\ fold_right N.add 0 (map v (g_inputs g)) < 65536
  | GMul k => exists i l, g_inputs g = i :: l /\ v i * k < g_domain g /\ v i * k < 65536
  | GProj (PMap m) => g_inputs g <> [] /\ m <> 0
  | GProj (PLess _) => g_inputs g <> []
  | GAnd => exists i j l, g_inputs g = i :: j :: l /\ v i < 2 /\ (v j = 1 \/ v i = 0)
  end.
