(** An attack on the key exchange by a peer that does not know the password.

    The attacker plays the evaluator.  It follows the messages of fpake.rs:61-95 but reads the offset of
    the counting wires off the first rows of the public tables, computes every label of the counting
    wire, and decrypts every row of the comparison table. *)
From Coq Require Import List NArith Bool Arith.
From Verif Require Import Base MUtil MWires MCircuit MGarble MBincode MProc MFpake.
Import ListNotations.
Open Scope N_scope.

(** Row 0 of the table of gate [o]. *)
Definition first_row (gc : garbled) (o : nat) : outcome wire :=
  let* tbl := unwrap PKey (alookup Nat.eqb o (gc_f gc)) in idx tbl 0.

(** The offset of the counting wires of a circuit over n bits (n even), whose projections to modulus
    n + 1 are the gates P, ..., P + n - 1: the first row with a colour other than 0, times n / 2. *)
Definition stolen_offset (p : profile) (gc : garbled) (P n : nat) : outcome wire :=
  let* rows := mapM (first_row gc) (seq P n) in
  match find (fun r => negb (color r =? 0)) rows with
  | Some r => wmul p r (N.of_nat n / 2)
  | None => Panic PUnwrap
  end.

(** The labels of all wires, as [evaluate] computes them. *)
Definition all_labels (sha : bytes -> bytes) (p : profile) (gc : garbled) (x : list wire) : outcome (list (option wire)) :=
  let c := gc_circuit gc in
  let* ws := foldM (fun ws i => let* xi := idx x i in set_idx ws i (Some xi))
               (seq 0 (num_inputs c)) (repeat None (num_wires c)) in
  let* (ws, _, _) := foldM (eval_garbled_gate sha p gc) (gates c) (ws, 0%nat, 0%nat) in
  Ok ws.

(** What the comparison table decrypts to for all n + 1 labels of the counting wire P + n. *)
Definition stolen_labels (sha : bytes -> bytes) (p : profile) (gc : garbled) (P n : nat) (x : list wire) : outcome (list wire) :=
  let* d := stolen_offset p gc P n in
  let* ws := all_labels sha p gc x in
  let* s := read_init ws (P + n) in
  let* tbl := unwrap PKey (alookup Nat.eqb (P + n + 1)%nat (gc_f gc)) in
  mapM (fun j =>
    let* e := wmul p d (N.of_nat j) in
    let* l := wadd p s e in
    let* cipher := idx tbl (N.to_nat (color l)) in
    let* h := hash_wire sha p (P + n + 1) l cipher in
    wsub p cipher h) (seq 0 (n + 1)).

Definition same_label (a b : wire) : bool := bytes_eqb (wval a) (wval b).
Definition count_label (l : wire) (ls : list wire) : nat := length (filter (same_label l) ls).

(** The label of value 1 occurs t + 1 times, once for each distance up to the threshold t; where its
    occurrences begin tells the distance. *)
Definition steal (sha : bytes -> bytes) (p : profile) (gc : garbled) (P n t : nat) (x : list wire) : outcome (wire * nat) :=
  let* ls := stolen_labels sha p gc P n x in
  let* l := unwrap PUnwrap (find (fun l => Nat.eqb (count_label l ls) (t + 1)) ls) in
  let* j := unwrap PUnwrap (find (fun j =>
      same_label l (nth j ls wire_empty) && negb (same_label l (nth ((j + n) mod (n + 1)) ls wire_empty))) (seq 0 (n + 1))) in
  Ok (l, (n + 1 - j) mod (n + 1))%nat.

(** fpake.rs:61-95 with [steal] in place of [evaluate]: the attacker gets a half key and a distance.
    [guess] is any password of the right length. *)
Definition evil_evaluator (sha : bytes -> bytes) (p : profile) (ot : list bool -> proc (list bytes)) (guess : bytes) (t : nat) : proc (bytes * nat) :=
  let n := (length guess * 8)%nat in
  let! enc_password := ot (u8_vec_to_bool_vec guess) in
  let! our_password := lift (mapM (fun b => let* b := to_array p b in from_array p b Binary) enc_password) in
  let! m := recv in
  let! gc := lift (deserialize dec_garbled m) in
  let! m := recv in
  let! their_password := lift (deserialize dec_wires m) in
  let! (l, dist) := lift (steal sha p gc (3 * n) n t (their_password ++ our_password)) in
  let! k := lift (evaluator_half_key sha p gc [l]) in
  ret (k, dist).

(** The attacker in both roles of main.rs:31-51.  Its own circuit accepts every password. *)
Definition evil_client (sha : bytes -> bytes) (p : profile) (g : garbling) (ot_s : list (bytes * bytes) -> proc unit)
    (ot_r : list bool -> proc (list bytes)) (guess : bytes) (t : nat) : proc (bytes * nat) :=
  let! (k1, dist) := evil_evaluator sha p ot_r guess t in
  let! k2 := garbler sha p g ot_s guess (N.of_nat (length guess * 8)) in
  ret (combine_keys k1 k2, dist).
Definition evil_server (sha : bytes -> bytes) (p : profile) (g : garbling) (ot_s : list (bytes * bytes) -> proc unit)
    (ot_r : list bool -> proc (list bytes)) (guess : bytes) (t : nat) : proc (bytes * nat) :=
  let! k1 := garbler sha p g ot_s guess (N.of_nat (length guess * 8)) in
  let! (k2, dist) := evil_evaluator sha p ot_r guess t in
  ret (combine_keys k1 k2, dist).

(** The attacker in both roles of many_fpake.rs:434-512, with 2^d passwords.  As the client it asks for any
    index with any guess; as the server it gives out zeros for every masked password. *)
Definition evil_single (sha : bytes -> bytes) (p : profile) (g : garbling) (many_ot : nat -> N -> proc bytes)
    (ot_s : list (bytes * bytes) -> proc unit) (ot_r : list bool -> proc (list bytes)) (d : nat) (index : N) (guess : bytes) (t : nat) : proc (bytes * nat) :=
  let! masked := many_ot d index in
  let! x := lift (xor_bytes_inplace p masked guess) in
  evil_client sha p g ot_s ot_r x t.
Definition evil_many (sha : bytes -> bytes) (p : profile) (g : garbling) (many_ot : nat -> list bytes -> proc unit)
    (ot_s : list (bytes * bytes) -> proc unit) (ot_r : list bool -> proc (list bytes)) (d : nat) (guess : bytes) (t : nat) : proc (bytes * nat) :=
  let! _ := many_ot d (repeat (repeat 0 (length guess)) (2 ^ d)) in
  evil_server sha p g ot_s ot_r guess t.

(** The coins the garbler's zero labels are made of let the attack succeed: the labels of some input
    pair have last bits that are equal.  (Fails for one in 2^n choices.) *)
Definition leaky (n : nat) (ri : nat -> bytes) : Prop :=
  exists i, (i < n)%nat /\ N.even (nth 31 (ri i) 0 + nth 31 (ri (i + n)%nat) 0) = true.

(** The password from the distances it has to 8 * len + 1 guesses: the guess of zeros, and for every bit
    the guess with only this bit set. *)
Definition probe (len i : nat) : bytes := map (fun b => if Nat.eqb b (i / 8) then 2 ^ N.of_nat (i mod 8) else 0) (seq 0 len).
Definition recover (len : nat) (dist : bytes -> nat) : bytes :=
  map (fun b => fold_left N.add
    (map (fun j => if Nat.ltb (dist (probe len (8 * b + j))) (dist (repeat 0 len)) then 2 ^ N.of_nat j else 0) (seq 0 8)) 0) (seq 0 len).
