(** Model of src/fpake.rs and src/many_fpake.rs.

    The 1-out-of-2 OTs, which the code hard-wires to the extension of ot/apricot.rs over
    ot/chou_orlandi.rs, are parameters here; CFpake.v instantiates them.  Tracing calls
    ([instrument::…]) are left out. *)
From Coq Require Import List NArith Bool Arith.
From Verif Require Import Base MUtil MWires MCircuit MGarble MPar MBincode MProc MMany.
Import ListNotations.
Open Scope N_scope.

(** [&v[..n]], [&v[n..]]. *)
Definition slice_to {A} (v : list A) (n : nat) : outcome (list A) :=
  if Nat.leb n (length v) then Ok (firstn n v) else Panic PSlice.
Definition slice_from {A} (v : list A) (n : nat) : outcome (list A) :=
  if Nat.leb n (length v) then Ok (skipn n v) else Panic PSlice.

(** What [garble] draws: offsets per modulus, zero labels per input, and the order in which serde
    later iterates over the two hash maps of the garbled circuit. *)
Record garbling := mkGarbling {
  g_rd : N -> bytes;
  g_ri : nat -> bytes;
  g_order : garbled -> garbled
}.

Section Fpake.
Variable sha : bytes -> bytes.
Variable p : profile.

(** fpake.rs:35-38, many_fpake.rs:76-84, 281-290: garble a circuit and zip the encoding key. *)
Definition garble_zipped (g : garbling) (c : circuit) : outcome (garbled * list (wire * wire) * decoding_key) :=
  let* (gc, e, d) := garble sha p (g_rd g) (g_ri g) c in
  let* bk := binary_of_ek p e in
  let* z := zipped bk in
  Ok (gc, z, d).

(** fpake.rs:58, many_fpake.rs:173, 356: [d.hashes[0][1]]. *)
Definition garbler_half_key (d : decoding_key) : outcome bytes :=
  let* hs := idx (dk_hashes d) 0 in idx hs 1.
(** fpake.rs:90-94, many_fpake.rs:259-263, 416-420. *)
Definition evaluator_half_key (gc : garbled) (output : list wire) : outcome bytes :=
  let* o := usub p 64 (N.of_nat (num_wires (gc_circuit gc))) 1 in
  let* w := idx output 0 in
  Ok (sha (be_bytes 8 o ++ u16_be 1 ++ wval w)).

(** [MessagePair::from_zipped] of the bytes of label pairs (ot/common.rs:43-49). *)
Definition label_messages (z : list (wire * wire)) : list (bytes * bytes) :=
  map (fun w => (wval (fst w), wval (snd w))) z.

(** fpake.rs:26-59 [HalfKey::garbler]. *)
Definition garbler (g : garbling) (ot : list (bytes * bytes) -> proc unit) (password : bytes) (threshold : N) : proc bytes :=
  let password := u8_vec_to_bool_vec password in
  let n := length password in
  let! c := lift (build_circuit p n threshold) in
  let! (gc, e, d) := lift (garble_zipped g c) in
  let! e_own := lift (slice_to e n) in
  let! e_theirs := lift (slice_from e n) in
  let! _ := ot (label_messages e_theirs) in
  let! _ := send (enc_garbled (g_order g gc)) in
  let! enc_password := lift (bk_encode (unzipped e_own) password) in
  let! _ := send (enc_wires enc_password) in
  lift (garbler_half_key d).

(** fpake.rs:61-95 [HalfKey::evaluator]. *)
Definition evaluator (ot : list bool -> proc (list bytes)) (password : bytes) : proc bytes :=
  let! enc_password := ot (u8_vec_to_bool_vec password) in
  let! our_password := lift (mapM (fun b => let* b := to_array p b in from_array p b Binary) enc_password) in
  let! m := recv in
  let! gc := lift (deserialize dec_garbled m) in
  let! m := recv in
  let! their_password := lift (deserialize dec_wires m) in
  let! output := lift (evaluate sha p gc (their_password ++ our_password)) in
  lift (evaluator_half_key gc output).

(** fpake.rs:97-99, many_fpake.rs:423-425 [combine]. *)
Definition combine_keys (k k' : bytes) : bytes := xor k k'.

(** many_fpake.rs:484-493: mask every password; a row starts as zeros. *)
Definition mask_passwords (mask : bytes) (passwords : list bytes) (password_bytes : nat) : outcome (list bytes) :=
  mapM (fun pw =>
    let* m := xor_bytes_inplace p (repeat 0 password_bytes) mask in
    xor_bytes_inplace p m pw) passwords.

(** many_fpake.rs:470-512 [mfpake_many]; [mask] is the random mask.  [many_ot domain] is
    [ManyOTSender::exchange], which draws as many key pairs as [domain] says. *)
Definition mfpake_many (mask : bytes) (g : garbling) (many_ot : nat -> list bytes -> proc unit)
    (ot_s : list (bytes * bytes) -> proc unit) (ot_r : list bool -> proc (list bytes))
    (passwords : list bytes) (threshold : N) : proc bytes :=
  let! p0 := lift (idx passwords 0) in
  let! masked := lift (mask_passwords mask passwords (length p0)) in
  let! domain := lift (log2_ p 64 (N.of_nat (length passwords))) in
  let! _ := many_ot (N.to_nat domain) masked in
  let! k1 := garbler g ot_s mask threshold in
  let! k2 := evaluator ot_r mask in
  ret (combine_keys k1 k2).

(** many_fpake.rs:434-466 [mfpake_single]; [many_ot domain] is [ManyOTReceiver::exchange]. *)
Definition mfpake_single (g : garbling) (many_ot : nat -> N -> proc bytes)
    (ot_s : list (bytes * bytes) -> proc unit) (ot_r : list bool -> proc (list bytes))
    (password : bytes) (index number_of_passwords threshold : N) : proc bytes :=
  let! domain := lift (log2_ p 32 number_of_passwords) in
  let! masked := many_ot (N.to_nat domain) index in
  let! masked := lift (xor_bytes_inplace p masked password) in
  let! k1 := evaluator ot_r masked in
  let! k2 := garbler g ot_s masked threshold in
  ret (combine_keys k1 k2).

(** ** Third version *)
(** many_fpake.rs:17-25 [payload_to_encoding]. *)
Definition payload_to_encoding (payload : list bytes) (bit_count : nat) : outcome (list wire) :=
  mapM (fun i => let* b := idx payload i in from_bytes p b Binary) (seq 0 bit_count).
(** many_fpake.rs:28-36 [bytes_to_encoding]. *)
Definition bytes_to_encoding (b : bytes) (bit_count encoded_size : nat) : outcome (list wire) :=
  mapM (fun i => let* r := vector_row b i encoded_size in from_bytes p r Binary) (seq 0 bit_count).

(** many_fpake.rs:92-97, 151-156, 309-315: the label pairs of [n] inputs from input [k] on. *)
Definition label_pairs (z : list (wire * wire)) (k n : nat) : outcome (list (bytes * bytes)) :=
  mapM (fun i => let* w := idx z (k + i) in Ok (wval (fst w), wval (snd w))) (seq 0 n).

(** [(v[i / 8] >> (i % 8)) & 1]; many_fpake.rs:113-116, 197-202, 294-297, 332-334, 383-387. *)
Definition bit_at (v : bytes) (i : nat) : outcome bool :=
  let* b := idx v (i / 8)%nat in
  Ok (N.land (N.shiftr b (N.of_nat (i mod 8))) 1 =? 1).

(** many_fpake.rs:112-124 and 330-341: the labels of the bits of [v] for the inputs from input [k] on,
    one after the other in a flat buffer. *)
Definition encode_flat (z : list (wire * wire)) (k n : nat) (v : bytes) : outcome bytes :=
  update_rows (repeat 0 (n * LENGTH)) n LENGTH (fun i row =>
    let* b := bit_at v i in
    let* w := idx z (k + i) in
    xor_bytes_inplace p row (wval (if b : bool then snd w else fst w))).

(** many_fpake.rs:64-175 [garbler_server_v3]. *)
Definition garbler_server_v3 (mask : bytes) (g : garbling) (ot1 : list (bytes * bytes) -> proc unit)
    (many_ot : nat -> list bytes -> proc unit) (ot2 : list (bytes * bytes) -> proc unit)
    (passwords : list bytes) (threshold : N) : proc (bytes * bytes) :=
  let! p0 := lift (idx passwords 0) in
  let password_bytes := length p0 in
  let bits := (password_bytes * 8)%nat in
  let! c := lift (build_circuit_v2 p bits threshold) in
  let! (gc, z, d) := lift (garble_zipped g c) in
  let! _ := send (enc_garbled (g_order g gc)) in
  let! m := lift (label_pairs z 0 bits) in
  let! _ := ot1 m in
  let! encoded_mask := lift (encode_flat z bits bits mask) in
  let! _ := send encoded_mask in
  let! domain := lift (log2_ p 64 (N.of_nat (length passwords))) in
  let! masked := lift (mask_passwords mask passwords password_bytes) in
  let! _ := many_ot (N.to_nat domain) masked in
  let! m := lift (label_pairs z (bits * 2) bits) in
  let! _ := ot2 m in
  let! k := lift (garbler_half_key d) in
  ret (k, mask).

(** many_fpake.rs:195-202, 219-225, 381-388: the first [n] bits of [v] (panics when v is too short). *)
Definition choice_bits (v : bytes) (n : nat) : outcome (list bool) := mapM (bit_at v) (seq 0 n).

(** many_fpake.rs:176-266 [evaluator_client_v3]. *)
Definition evaluator_client_v3 (ot1 : list bool -> proc (list bytes)) (many_ot : nat -> N -> proc bytes)
    (ot2 : list bool -> proc (list bytes)) (password : bytes) (number_of_password index : N) : proc (bytes * bytes) :=
  let bits := (length password * 8)%nat in
  let! m := recv in
  let! gc := lift (deserialize dec_garbled m) in
  let! choices := lift (choice_bits password bits) in
  let! client_encoding := ot1 choices in
  let! encoded_mask := recv in
  let! domain := lift (log2_ p 32 number_of_password) in
  let! masked_password := many_ot (N.to_nat domain) index in
  let! choices := lift (choice_bits masked_password bits) in
  let! masked_encoding := ot2 choices in
  let! row0 := lift (idx masked_encoding 0) in
  let! client := lift (payload_to_encoding client_encoding bits) in
  let! mask := lift (bytes_to_encoding encoded_mask bits (length row0)) in
  let! server := lift (payload_to_encoding masked_encoding bits) in
  let! output := lift (evaluate sha p gc (client ++ mask ++ server)) in
  let! k := lift (evaluator_half_key gc output) in
  ret (k, masked_password).

(** many_fpake.rs:268-357 [garbler_client_v3]; [index] and [number_of_passwords] are not used. *)
Definition garbler_client_v3 (g : garbling) (ot : list (bytes * bytes) -> proc unit)
    (password masked_password : bytes) (threshold : N) : proc bytes :=
  let bits := (length password * 8)%nat in
  let! c := lift (build_circuit_v2 p bits threshold) in
  let! (gc, z, d) := lift (garble_zipped g c) in
  let! input := lift (mapM (fun i =>
      let* b := bit_at password i in
      let* w := idx z (bits * 2 + i) in
      Ok (if b : bool then snd w else fst w)) (seq 0 bits)) in
  let! _ := send (enc_garbled (g_order g gc)) in
  let! _ := send (enc_wires input) in
  let! m := lift (label_pairs z bits bits) in
  let! _ := ot m in
  let! _ := lift (idx z 0) in
  let! encoded := lift (encode_flat z 0 bits masked_password) in
  let! _ := send encoded in
  lift (garbler_half_key d).

(** many_fpake.rs:358-421 [evaluator_server_v3]. *)
Definition evaluator_server_v3 (ot : list bool -> proc (list bytes)) (passwords : list bytes) (mask : bytes) : proc bytes :=
  let! p0 := lift (idx passwords 0) in
  let bits := (length p0 * 8)%nat in
  let! m := recv in
  let! gc := lift (deserialize dec_garbled m) in
  let! m := recv in
  let! client := lift (deserialize dec_wires m) in
  let! choices := lift (choice_bits mask bits) in
  let! encoded_mask := ot choices in
  let! server_encoded := recv in
  let! row0 := lift (idx encoded_mask 0) in
  let! mask_encoding := lift (payload_to_encoding encoded_mask bits) in
  let! server := lift (bytes_to_encoding server_encoded bits (length row0)) in
  let! output := lift (evaluate sha p gc (server ++ mask_encoding ++ client)) in
  lift (evaluator_half_key gc output).
End Fpake.

(** main.rs:31-51: the two roles of plain fPAKE over one channel. *)
Definition fpake_server (sha : bytes -> bytes) (p : profile) (g : garbling) (ot_s : list (bytes * bytes) -> proc unit)
    (ot_r : list bool -> proc (list bytes)) (pw : bytes) (threshold : N) : proc bytes :=
  let! hk1 := garbler sha p g ot_s pw threshold in
  let! hk2 := evaluator sha p ot_r pw in
  ret (combine_keys hk1 hk2).
Definition fpake_client (sha : bytes -> bytes) (p : profile) (g : garbling) (ot_s : list (bytes * bytes) -> proc unit)
    (ot_r : list bool -> proc (list bytes)) (pw : bytes) (threshold : N) : proc bytes :=
  let! hk2 := evaluator sha p ot_r pw in
  let! hk1 := garbler sha p g ot_s pw threshold in
  ret (combine_keys hk1 hk2).

(** many_fpake.rs:611-637 (the only place where the two halves are put together): the two sides of
    the third version.  The server hands its mask, the client the masked password it received, from
    the first half to the second. *)
Definition server_v3 (sha : bytes -> bytes) (p : profile) (mask : bytes) (g : garbling)
    (ot1 : list (bytes * bytes) -> proc unit) (many_ot : nat -> list bytes -> proc unit) (ot2 : list (bytes * bytes) -> proc unit)
    (ot3 : list bool -> proc (list bytes)) (passwords : list bytes) (threshold : N) : proc bytes :=
  let! (k1, mask) := garbler_server_v3 sha p mask g ot1 many_ot ot2 passwords threshold in
  let! k2 := evaluator_server_v3 sha p ot3 passwords mask in
  ret (combine_keys k1 k2).
Definition client_v3 (sha : bytes -> bytes) (p : profile) (g : garbling)
    (ot1 : list bool -> proc (list bytes)) (many_ot : nat -> N -> proc bytes) (ot2 : list bool -> proc (list bytes))
    (ot3 : list (bytes * bytes) -> proc unit) (password : bytes) (number_of_passwords index threshold : N) : proc bytes :=
  let! (k1, masked_password) := evaluator_client_v3 sha p ot1 many_ot ot2 password number_of_passwords index in
  let! k2 := garbler_client_v3 sha p g ot3 password masked_password threshold in
  ret (combine_keys k1 k2).
