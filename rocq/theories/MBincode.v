(** Model of the wire format: what [bincode::serialize] and [bincode::deserialize] (bincode 1.x,
    default options: little-endian fixed-width integers, u64 lengths, u32 enum tags, no
    length limit, trailing bytes ignored) do on the types the crate sends.

    bincode itself is not in /repo; its format is modelled from its documentation.
    Simplifications: every decoding failure is [Err EBincode]; running out of memory on a huge
    claimed length does not occur (bincode stops at the end of input). *)
From Coq Require Import List NArith Bool Arith.
From Verif Require Import Base MUtil MWires MCircuit MGarble.
Import ListNotations.
Open Scope N_scope.

(** A decoder consumes a prefix of its input. *)
Definition parser A := bytes -> outcome (A * bytes).

(** Split off exactly [n] bytes. *)
Fixpoint take (n : nat) (l : bytes) : outcome (bytes * bytes) :=
  match n with
  | O => Ok ([], l)
  | S n' =>
      match l with
      | [] => Err EBincode
      | b :: l' => let* (h, t) := take n' l' in Ok (b :: h, t)
      end
  end.

(** Unsigned integers of [k] bytes. *)
Definition enc_uint (k : nat) (n : N) : bytes := le_bytes k n.
Definition dec_uint (k : nat) : parser N := fun l =>
  let* (h, t) := take k l in Ok (le_value h, t).

(** usize is sent as u64. *)
Definition enc_usize (n : nat) : bytes := enc_uint 8 (N.of_nat n).
Definition dec_usize : parser nat := fun l =>
  let* (n, t) := dec_uint 8 l in Ok (N.to_nat n, t).

(** [n] values of one type in a row. *)
Fixpoint dec_many {A} (d : parser A) (n : nat) : parser (list A) := fun l =>
  match n with
  | O => Ok ([], l)
  | S n' =>
      let* (a, l1) := d l in
      let* (r, l2) := dec_many d n' l1 in
      Ok (a :: r, l2)
  end.

(** [Vec<T>]: u64 length, then the elements.  Every element takes at least one byte, hence a
    length above the number of remaining bytes always ends in an end-of-input error; it is
    reported at once here. *)
Definition enc_vec {A} (e : A -> bytes) (l : list A) : bytes :=
  enc_usize (length l) ++ flat_map e l.
Definition dec_vec {A} (d : parser A) : parser (list A) := fun l =>
  let* (n, l1) := dec_uint 8 l in
  if N.of_nat (length l1) <? n then Err EBincode else dec_many d (N.to_nat n) l1.

Definition enc_u8 (n : N) : bytes := enc_uint 1 n.
Definition dec_u8 : parser N := dec_uint 1.
Definition enc_u16 (n : N) : bytes := enc_uint 2 n.
Definition dec_u16 : parser N := dec_uint 2.

(** [Vec<u8>], also [BitVector] (bitmatrix.rs:24-25) and [Polynomial] (polynomial.rs:9-10). *)
Definition enc_bytes (b : bytes) : bytes := enc_vec enc_u8 b.
Definition dec_bytes : parser bytes := dec_vec dec_u8.

(** [Vec<Vec<u8>>]; also [BitMatrix] (bitmatrix.rs:171-174). *)
Definition enc_rows (m : list bytes) : bytes := enc_vec enc_bytes m.
Definition dec_rows : parser (list bytes) := dec_vec dec_bytes.

(** UTF-8 validity, as [core::str::from_utf8] (RFC 3629 table). *)
Definition cont (b : N) : bool := (128 <=? b) && (b <=? 191).
Fixpoint utf8 (l : bytes) : bool :=
  match l with
  | [] => true
  | a :: l1 =>
      if a <? 128 then utf8 l1
      else
        match l1 with
        | [] => false
        | b :: l2 =>
            if (194 <=? a) && (a <=? 223) then cont b && utf8 l2
            else
              match l2 with
              | [] => false
              | c :: l3 =>
                  if (a =? 224) then (160 <=? b) && (b <=? 191) && cont c && utf8 l3
                  else if (a =? 237) then (128 <=? b) && (b <=? 159) && cont c && utf8 l3
                  else if (225 <=? a) && (a <=? 239) then cont b && cont c && utf8 l3
                  else
                    match l3 with
                    | [] => false
                    | d :: l4 =>
                        if (a =? 240) then (144 <=? b) && (b <=? 191) && cont c && cont d && utf8 l4
                        else if (a =? 244) then (128 <=? b) && (b <=? 143) && cont c && cont d && utf8 l4
                        else if (241 <=? a) && (a <=? 243) then cont b && cont c && cont d && utf8 l4
                        else false
                    end
              end
        end
  end.

(** [String]: u64 length and the bytes. *)
Definition dec_string : parser bytes := fun l =>
  let* (s, t) := dec_bytes l in if utf8 s then Ok (s, t) else Err EBincode.

(** ot/common.rs:6-10 [TransactionProperties]; the protocol name as its UTF-8 bytes. *)
Record properties := mkProps { pr_size : nat; pr_protocol : bytes }.
Definition enc_props (p : properties) : bytes := enc_usize (pr_size p) ++ enc_bytes (pr_protocol p).
Definition dec_props : parser properties := fun l =>
  let* (n, l1) := dec_usize l in
  let* (s, l2) := dec_string l1 in
  Ok (mkProps n s, l2).

(** ot/chou_orlandi.rs:235-237 [CiphertextPair], [EncryptedPayload]: a fixed-size array has no
    length prefix. *)
Definition enc_pair (c : bytes * bytes) : bytes := enc_bytes (fst c) ++ enc_bytes (snd c).
Definition dec_pair : parser (bytes * bytes) := fun l =>
  let* (a, l1) := dec_bytes l in
  let* (b, l2) := dec_bytes l1 in
  Ok ((a, b), l2).
Definition enc_payload (c : list (bytes * bytes)) : bytes := enc_vec enc_pair c.
Definition dec_payload : parser (list (bytes * bytes)) := dec_vec dec_pair.

(** Enum tags. *)
Definition enc_tag (t : N) : bytes := enc_uint 4 t.
Definition dec_tag : parser N := dec_uint 4.

(** wires.rs:15-22 [Domain]. *)
Definition enc_domain (d : domain) : bytes :=
  match d with
  | Binary => enc_tag 0
  | U8 m => enc_tag 1 ++ enc_u8 m
  | U16 m => enc_tag 2 ++ enc_u16 m
  | U8MAX => enc_tag 3
  | U16MAX => enc_tag 4
  end.
Definition dec_domain : parser domain := fun l =>
  let* (t, l1) := dec_tag l in
  if t =? 0 then Ok (Binary, l1)
  else if t =? 1 then let* (m, l2) := dec_u8 l1 in Ok (U8 m, l2)
  else if t =? 2 then let* (m, l2) := dec_u16 l1 in Ok (U16 m, l2)
  else if t =? 3 then Ok (U8MAX, l1)
  else if t =? 4 then Ok (U16MAX, l1)
  else Err EBincode.

(** wires.rs:9-13 [Wire]. *)
Definition enc_wire (w : wire) : bytes := enc_domain (wdom w) ++ wval w.
Definition dec_wire : parser wire := fun l =>
  let* (d, l1) := dec_domain l in
  let* (v, l2) := take 32 l1 in
  Ok (mkWire d v, l2).
Definition enc_wires (ws : list wire) : bytes := enc_vec enc_wire ws.
Definition dec_wires : parser (list wire) := dec_vec dec_wire.

(** circuit.rs:27-35 [GateKind], :50-54 [ProjKind]. *)
Definition enc_proj (k : projkind) : bytes :=
  match k with
  | PMap m => enc_tag 0 ++ enc_u16 m
  | PLess t => enc_tag 1 ++ enc_u16 t
  end.
Definition dec_proj : parser projkind := fun l =>
  let* (t, l1) := dec_tag l in
  if t =? 0 then let* (m, l2) := dec_u16 l1 in Ok (PMap m, l2)
  else if t =? 1 then let* (m, l2) := dec_u16 l1 in Ok (PLess m, l2)
  else Err EBincode.
Definition enc_kind (k : gatekind) : bytes :=
  match k with
  | GAdd => enc_tag 0
  | GMul c => enc_tag 1 ++ enc_u16 c
  | GProj k => enc_tag 2 ++ enc_proj k
  | GAnd => enc_tag 3
  end.
Definition dec_kind : parser gatekind := fun l =>
  let* (t, l1) := dec_tag l in
  if t =? 0 then Ok (GAdd, l1)
  else if t =? 1 then let* (c, l2) := dec_u16 l1 in Ok (GMul c, l2)
  else if t =? 2 then let* (k, l2) := dec_proj l1 in Ok (GProj k, l2)
  else if t =? 3 then Ok (GAnd, l1)
  else Err EBincode.

(** circuit.rs:19-25 [Gate]. *)
Definition enc_gate (g : gate) : bytes :=
  enc_usize (g_output g) ++ enc_u16 (g_domain g) ++ enc_vec enc_usize (g_inputs g) ++ enc_kind (g_kind g).
Definition dec_gate : parser gate := fun l =>
  let* (o, l) := dec_usize l in
  let* (d, l) := dec_u16 l in
  let* (i, l) := dec_vec dec_usize l in
  let* (k, l) := dec_kind l in
  Ok (mkGate o d i k, l).

(** circuit.rs:8-16 [Circuit]. *)
Definition enc_circuit (c : circuit) : bytes :=
  enc_usize (num_wires c) ++ enc_usize (num_inputs c) ++ enc_usize (num_outputs c) ++
  enc_vec enc_gate (gates c) ++ enc_vec enc_u16 (input_domains c).
Definition dec_circuit : parser circuit := fun l =>
  let* (w, l) := dec_usize l in
  let* (i, l) := dec_usize l in
  let* (o, l) := dec_usize l in
  let* (g, l) := dec_vec dec_gate l in
  let* (d, l) := dec_vec dec_u16 l in
  Ok (mkCircuit w i o g d, l).

(** [HashMap<usize, V>]: u64 length, then the entries in an unspecified order (the order of the
    list given here); decoding inserts them one by one. *)
Definition enc_entry {V} (e : V -> bytes) (kv : nat * V) : bytes := enc_usize (fst kv) ++ e (snd kv).
Definition dec_entry {V} (d : parser V) : parser (nat * V) := fun l =>
  let* (k, l) := dec_usize l in
  let* (v, l) := d l in
  Ok ((k, v), l).
Definition enc_map {V} (e : V -> bytes) (m : list (nat * V)) : bytes := enc_vec (enc_entry e) m.
Definition dec_map {V} (d : parser V) : parser (list (nat * V)) := fun l =>
  let* (es, l) := dec_vec (dec_entry d) l in
  Ok (fold_left (fun m kv => ainsert Nat.eqb (fst kv) (snd kv) m) es [], l).

(** garble.rs:288-293 [GarbledCircuit]. *)
Definition enc_wire2 (w : wire * wire) : bytes := enc_wire (fst w) ++ enc_wire (snd w).
Definition dec_wire2 : parser (wire * wire) := fun l =>
  let* (a, l) := dec_wire l in
  let* (b, l) := dec_wire l in
  Ok ((a, b), l).
Definition enc_garbled (g : garbled) : bytes :=
  enc_circuit (gc_circuit g) ++ enc_map enc_wires (gc_f g) ++ enc_map enc_wire2 (gc_half g).
Definition dec_garbled : parser garbled := fun l =>
  let* (c, l) := dec_circuit l in
  let* (f, l) := dec_map dec_wires l in
  let* (h, l) := dec_map dec_wire2 l in
  Ok (mkGC c f h, l).

(** ot/chou_orlandi.rs:181-231: [Public] is a byte string that is cut into points of 32 bytes; an
    incomplete last point is dropped. *)
Fixpoint split32 (n : nat) (b : bytes) : list bytes :=
  match n with
  | O => []
  | S n' => firstn 32 b :: split32 n' (skipn 32 b)
  end.
Definition enc_public (ps : list bytes) : bytes := enc_bytes (concat ps).
Definition dec_public : parser (list bytes) := fun l =>
  let* (b, l) := dec_bytes l in
  Ok (split32 (length b / 32) b, l).

(** [bincode::deserialize(&m)?]: trailing bytes are accepted. *)
Definition deserialize {A} (d : parser A) (m : bytes) : outcome A :=
  let* (a, _) := d m in Ok a.
