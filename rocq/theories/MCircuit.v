(** Model of src/circuit.rs. *)
From Coq Require Import List NArith Bool Arith.
From Verif Require Import Base.
Import ListNotations.
Open Scope N_scope.

(** circuit.rs:50-54 [ProjKind]. *)
Inductive projkind := PMap (m : N) | PLess (t : N).

(** circuit.rs:27-35 [GateKind]. *)
Inductive gatekind := GAdd | GMul (c : N) | GProj (k : projkind) | GAnd.

(** circuit.rs:19-25 [Gate]. *)
Record gate := mkGate { g_output : nat; g_domain : N; g_inputs : list nat; g_kind : gatekind }.

(** circuit.rs:8-16 [Circuit]. *)
Record circuit := mkCircuit {
  num_wires : nat; num_inputs : nat; num_outputs : nat;
  gates : list gate; input_domains : list N }.

(** circuit.rs:38-47 [Gate::output_domain]. *)
Definition output_domain (g : gate) : N :=
  match g_kind g with
  | GAdd | GMul _ => g_domain g
  | GProj (PMap r) => r
  | GProj (PLess _) => 2
  | GAnd => 2
  end.

(** circuit.rs:58-64 [ProjKind::project]. *)
Definition project (k : projkind) (x : N) : outcome N :=
  match k with
  | PMap m => urem x m
  | PLess t => Ok (if x <? t then 1 else 0)
  end.

(** circuit.rs:67-73 [ProjKind::domain]. *)
Definition proj_domain (k : projkind) : N := match k with PMap m => m | PLess _ => 2 end.

(** circuit.rs:76-81 [CircuitBuilder]; the HashSet is a duplicate-free list. *)
Record builder := mkBuilder {
  b_gates : list gate; b_next : nat; b_inputs : nat; b_unread : list nat }.

(** circuit.rs:84-91 [CircuitBuilder::new]. *)
Definition builder_new (n : nat) : builder := mkBuilder [] 0 n [].

(** circuit.rs:96-106 [CircuitBuilder::offset]. *)
Definition builder_offset (b : builder) (k : nat) : builder :=
  mkBuilder
    (map (fun g => mkGate (g_output g + k) (g_domain g) (map (fun i => i + k)%nat (g_inputs g)) (g_kind g)) (b_gates b))
    (b_next b + k) (b_inputs b) (map (fun x => x + k)%nat (b_unread b)).

Definition nat_mem (x : nat) (l : list nat) : bool := existsb (Nat.eqb x) l.
(** HashSet::insert / remove. *)
Definition set_insert (x : nat) (l : list nat) : list nat := if nat_mem x l then l else x :: l.
Definition set_remove (x : nat) (l : list nat) : list nat := filter (fun y => negb (Nat.eqb x y)) l.

(** circuit.rs:111-119 [CircuitBuilder::add_gate]. *)
Definition add_gate (b : builder) (g : gate) : builder :=
  mkBuilder (b_gates b ++ [g]) (g_output g) (b_inputs b)
    (fold_left (fun s i => set_remove i s) (g_inputs g) (set_insert (g_output g) (b_unread b))).

(** itertools [unique().count()]: number of distinct elements. *)
Fixpoint unique (l : list nat) (seen : list nat) : list nat :=
  match l with
  | [] => []
  | x :: l' => if nat_mem x seen then unique l' seen else x :: unique l' (x :: seen)
  end.
(** circuit.rs:124-130 and 197-203: wires mentioned by the gates, inputs first then outputs. *)
Definition mentioned (gs : list gate) : list nat := flat_map g_inputs gs ++ map g_output gs.
Definition count_wires (gs : list gate) : nat := length (unique (mentioned gs) []).

(** circuit.rs:123-148 [CircuitBuilder::build]. *)
Definition build (b : builder) : circuit :=
  mkCircuit (count_wires (b_gates b)) (b_inputs b) (length (b_unread b)) (b_gates b)
    (flat_map (fun g => map (fun _ => g_domain g) (g_inputs g))
       (filter (fun g => existsb (fun i => Nat.ltb i (b_inputs b)) (g_inputs g)) (b_gates b))).

(** circuit.rs:159-165: one gate of [Circuit::eval]. [inputs] is a lazy iterator: [Add] reads all
    of them, the other kinds only the first ([next().unwrap()]). *)
Definition eval_gate (p : profile) (ws : list N) (g : gate) : outcome N :=
  match g_kind g with
  | GAdd =>
      let* s := foldM (fun acc i => let* x := idx ws i in uadd p 16 acc x) (g_inputs g) 0 in
      urem s (g_domain g)
  | GMul m =>
      let* i := unwrap PUnwrap (hd_error (g_inputs g)) in let* x := idx ws i in umul p 16 x m
  | GProj k =>
      let* i := unwrap PUnwrap (hd_error (g_inputs g)) in let* x := idx ws i in project k x
  | GAnd =>
      let* i := unwrap PUnwrap (hd_error (g_inputs g)) in let* x := idx ws i in Ok (N.land x 1)
  end.

(** circuit.rs:152-169 [Circuit::eval]; returns all wires. *)
Definition eval (p : profile) (c : circuit) (inputs : list N) : outcome (list N) :=
  let* ws := foldM (fun ws ix => set_idx ws (fst ix) (snd ix))
               (combine (seq 0 (length inputs)) inputs) (repeat 0 (num_wires c)) in
  foldM (fun ws g => let* v := eval_gate p ws g in set_idx ws (g_output g) v) (gates c) ws.

(** circuit.rs:208-213: [all(move |i| uniq.insert(i))]. *)
Fixpoint all_insert (l : list nat) (uniq : list nat) : bool :=
  match l with
  | [] => true
  | x :: l' => if nat_mem x uniq then false else all_insert l' (x :: uniq)
  end.

(** circuit.rs:195-218 [verify_circuit]. *)
Definition verify_circuit (c : circuit) : outcome unit :=
  let n := count_wires (gates c) in
  if negb (Nat.eqb n (num_wires c)) then Err (EBadWireCount n (num_wires c))
  else if all_insert (map g_output (gates c)) [] then Ok tt
  else Err EBadOutputCount.

(** circuit.rs:220-271 [build_circuit]. [bitsize as u16 + 1] truncates and may overflow,
    [threshold + 1] may overflow; both panic in debug. Wire numbers are unbounded [nat]
    (usize overflow of 5*bitsize is not modelled). *)
Definition build_circuit (p : profile) (bitsize : nat) (threshold : N) : outcome circuit :=
  let* cd := uadd p 16 (N.of_nat bitsize mod 65536) 1 in
  let xors := map (fun i => mkGate (i + 2 * bitsize) 2 [i; i + bitsize]%nat GAdd) (seq 0 bitsize) in
  let projs := map (fun i => mkGate (i + 3 * bitsize) 2 [i + 2 * bitsize]%nat (GProj (PMap cd))) (seq 0 bitsize) in
  let sum := mkGate (4 * bitsize) cd (seq (3 * bitsize) bitsize) GAdd in
  let* t1 := uadd p 16 threshold 1 in
  let cmp := mkGate (4 * bitsize + 1) cd [4 * bitsize]%nat (GProj (PLess t1)) in
  Ok (mkCircuit (4 * bitsize + 2) (bitsize * 2) 1 (xors ++ projs ++ [sum; cmp]) (repeat 2 (bitsize * 2))).

(** circuit.rs:274-325 [build_circuit_v2]. *)
Definition build_circuit_v2 (p : profile) (bitsize : nat) (threshold : N) : outcome circuit :=
  let* cd := uadd p 16 (N.of_nat bitsize mod 65536) 1 in
  let xors := map (fun i => mkGate (i + 3 * bitsize) 2 [i; i + bitsize; i + 2 * bitsize]%nat GAdd) (seq 0 bitsize) in
  let projs := map (fun i => mkGate (i + 4 * bitsize) 2 [i + 3 * bitsize]%nat (GProj (PMap cd))) (seq 0 bitsize) in
  let sum := mkGate (5 * bitsize) cd (seq (4 * bitsize) bitsize) GAdd in
  let* t1 := uadd p 16 threshold 1 in
  let cmp := mkGate (5 * bitsize + 1) cd [5 * bitsize]%nat (GProj (PLess t1)) in
  Ok (mkCircuit (5 * bitsize + 2) (bitsize * 3) 1 (xors ++ projs ++ [sum; cmp]) (repeat 2 (bitsize * 3))).
