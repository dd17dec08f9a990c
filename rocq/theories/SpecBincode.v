(** Which values exist in Rust: the ranges of the types that are sent. *)
From Coq Require Import List NArith Bool.
From Verif Require Import Base MWires MCircuit MGarble MBincode.
Import ListNotations.
Open Scope N_scope.

Definition usize_ok (n : nat) : Prop := N.of_nat n < 2 ^ 64.
Definition u16_ok (n : N) : Prop := n < 65536.
Definition vec_ok {A} (P : A -> Prop) (l : list A) : Prop := usize_ok (length l) /\ Forall P l.
Definition blob_ok (b : bytes) : Prop := vec_ok byte_ok b.
Definition rows_ok (m : list bytes) : Prop := vec_ok blob_ok m.
Definition props_ok (p : properties) : Prop :=
  usize_ok (pr_size p) /\ blob_ok (pr_protocol p) /\ utf8 (pr_protocol p) = true.
Definition pair_ok (c : bytes * bytes) : Prop := blob_ok (fst c) /\ blob_ok (snd c).
Definition payload_ok (c : list (bytes * bytes)) : Prop := vec_ok pair_ok c.
Definition domain_ok (d : domain) : Prop :=
  match d with U8 m => byte_ok m | U16 m => u16_ok m | _ => True end.
Definition wire_ok (w : wire) : Prop := domain_ok (wdom w) /\ length (wval w) = 32%nat /\ bytes_ok (wval w).
Definition wires_ok (ws : list wire) : Prop := vec_ok wire_ok ws.
Definition kind_ok (k : gatekind) : Prop :=
  match k with GMul c => u16_ok c | GProj (PMap m) => u16_ok m | GProj (PLess t) => u16_ok t | _ => True end.
Definition gate_ok (g : gate) : Prop :=
  usize_ok (g_output g) /\ u16_ok (g_domain g) /\ vec_ok usize_ok (g_inputs g) /\ kind_ok (g_kind g).
Definition circuit_ok (c : circuit) : Prop :=
  usize_ok (num_wires c) /\ usize_ok (num_inputs c) /\ usize_ok (num_outputs c) /\
  vec_ok gate_ok (gates c) /\ vec_ok u16_ok (input_domains c).
Definition map_ok {V} (P : V -> Prop) (m : list (nat * V)) : Prop :=
  vec_ok (fun kv => usize_ok (fst kv) /\ P (snd kv)) m /\ NoDup (map fst m).
Definition garbled_ok (g : garbled) : Prop :=
  circuit_ok (gc_circuit g) /\ map_ok wires_ok (gc_f g) /\
  map_ok (fun w => wire_ok (fst w) /\ wire_ok (snd w)) (gc_half g).

(** Equality of maps and of garbled circuits: same entries, in whatever order they are stored. *)
Definition same_map {V} (m m' : list (nat * V)) : Prop :=
  forall k, alookup Nat.eqb k m = alookup Nat.eqb k m'.
Definition same_garbled (g g' : garbled) : Prop :=
  gc_circuit g = gc_circuit g' /\ same_map (gc_f g) (gc_f g') /\ same_map (gc_half g) (gc_half g').

(** [dec] reads back what [enc] wrote, and leaves what follows untouched. *)
Definition reads_back {A} (ok : A -> Prop) (enc : A -> bytes) (dec : bytes -> outcome (A * bytes)) : Prop :=
  forall a rest, ok a -> dec (enc a ++ rest) = Ok (a, rest).
