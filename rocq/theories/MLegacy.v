(** Model of src/legacy_fpake.rs: the first and second version of the one-of-many key exchange.
    OTs, randomness and tracing as in MFpake.v. *)
From Coq Require Import List NArith Bool Arith.
From Verif Require Import Base MUtil MWires MCircuit MGarble MPar MBincode MProc MMany MFpake.
Import ListNotations.
Open Scope N_scope.

Section Legacy.
Variable sha : bytes -> bytes.
Variable p : profile.

(** [v.chunks_exact(k)] for k > 0: complete chunks only. *)
Fixpoint chunks_exact_fuel {A} (fuel k : nat) (l : list A) : list (list A) :=
  match fuel with
  | O => []
  | S fuel' => if Nat.leb k (length l) then firstn k l :: chunks_exact_fuel fuel' k (skipn k l) else []
  end.
(** legacy_fpake.rs:50-57 [wires_from_bytes] (for the binary domain). *)
Definition wires_from_bytes (b : bytes) : outcome (list wire) :=
  mapM (fun c => let* c := to_array p c in from_array p c Binary) (chunks_exact_fuel (length b) LENGTH b).

(** legacy_fpake.rs:112-124: the labels of the bits of [v] for the inputs from input [k] on. *)
Definition flat_labels (z : list (wire * wire)) (k n : nat) (v : bytes) : outcome bytes :=
  let* rows := mapM (fun i =>
    let* b := bit_at v i in
    let* w := idx z (k + i) in
    Ok (wval (if b : bool then snd w else fst w))) (seq 0 n) in
  Ok (concat rows).

(** legacy_fpake.rs:66-149 [garbler_server]. *)
Definition garbler_server_v1 (g : garbling) (ot : list (bytes * bytes) -> proc unit) (many_ot : nat -> list bytes -> proc unit)
    (passwords : list bytes) (threshold : N) : proc bytes :=
  let! p0 := lift (idx passwords 0) in
  let bits := (length p0 * 8)%nat in
  let! c := lift (build_circuit p bits threshold) in
  let! (gc, z, d) := lift (garble_zipped sha p g c) in
  let! _ := send (enc_garbled (g_order g gc)) in
  let! m := lift (label_pairs z 0 bits) in
  let! _ := ot m in
  let! domain := lift (log2_ p 64 (N.of_nat (length passwords))) in
  let! _ := lift (slice_from z bits) in
  let! encodings := lift (mapM (flat_labels z bits bits) passwords) in
  let! _ := many_ot (N.to_nat domain) encodings in
  lift (garbler_half_key d).

(** legacy_fpake.rs:150-216 [evaluator_client]: the server's labels come first in the input. *)
Definition evaluator_client_v1 (ot : list bool -> proc (list bytes)) (many_ot : nat -> N -> proc bytes)
    (password : bytes) (number_of_password index : N) : proc bytes :=
  let bits := (length password * 8)%nat in
  let! m := recv in
  let! gc := lift (deserialize dec_garbled m) in
  let! choices := lift (choice_bits password bits) in
  let! client_password := ot choices in
  let! domain := lift (log2_ p 32 number_of_password) in
  let! server_password := many_ot (N.to_nat domain) index in
  let! client := lift (mapM (fun b => let* b := to_array p b in from_array p b Binary) client_password) in
  let! server := lift (wires_from_bytes server_password) in
  let! output := lift (evaluate sha p gc (server ++ client)) in
  lift (evaluator_half_key sha p gc output).

(** legacy_fpake.rs:219-332 [garbler_server_v2] and 333-421 [evaluator_client_v2]: the code of the
    third version without the second component of the result. *)
Definition garbler_server_v2 (mask : bytes) (g : garbling) (ot1 : list (bytes * bytes) -> proc unit)
    (many_ot : nat -> list bytes -> proc unit) (ot2 : list (bytes * bytes) -> proc unit)
    (passwords : list bytes) (threshold : N) : proc bytes :=
  let! (k, _) := garbler_server_v3 sha p mask g ot1 many_ot ot2 passwords threshold in ret k.
Definition evaluator_client_v2 (ot1 : list bool -> proc (list bytes)) (many_ot : nat -> N -> proc bytes)
    (ot2 : list bool -> proc (list bytes)) (password : bytes) (number_of_password index : N) : proc bytes :=
  let! (k, _) := evaluator_client_v3 sha p ot1 many_ot ot2 password number_of_password index in ret k.

(** legacy_fpake.rs:472-491: number - 2 rows of random keys and a last row that cancels them.
    [rand r j] is the j-th key of row r.  With number = 0 computing the capacity overflows
    (release: the capacity is too large, which panics as well). *)
Definition random_rows (rand : nat -> nat -> bytes) (number : N) (bits : nat) : outcome (list (list bytes)) :=
  if number =? 0 then Panic POverflow else
  let* count := usub p 32 number 2 in
  let rows := map (fun r => map (rand r) (seq 0 bits)) (seq 0 (N.to_nat count)) in
  let* cancelling := foldM (fun acc row => zipM (xor_bytes_inplace p) acc row) rows (repeat (repeat 0 LENGTH) bits) in
  Ok (rows ++ [cancelling]).
(** legacy_fpake.rs:493-511: label pairs at the client's index, a random key twice elsewhere. *)
Definition hidden_keys (labels : list (bytes * bytes)) (rows : list (list bytes)) (number index : N) : outcome (list (bytes * bytes)) :=
  let* (ks, _) := foldM (fun st i =>
      let '(ks, rows) := st in
      if N.of_nat i =? index then Ok (ks ++ labels, rows)
      else match rows with
        | [] => Panic PUnwrap
        | r :: rows' => Ok (ks ++ map (fun k => (k, k)) r, rows')
        end) (seq 0 (N.to_nat number)) ([], rows) in
  Ok ks.

(** legacy_fpake.rs:424-537 [garbler_client]. *)
Definition garbler_client_v1 (rand : nat -> nat -> bytes) (g : garbling) (ot : list (bytes * bytes) -> proc unit)
    (password : bytes) (index number_of_passwords threshold : N) : proc bytes :=
  let bits := (length password * 8)%nat in
  let! c := lift (build_circuit p bits threshold) in
  let! (gc, z, d) := lift (garble_zipped sha p g c) in
  let! labels := lift (label_pairs z bits bits) in
  let! encoded := lift (mapM (fun i =>
      let* b := bit_at password i in
      let* w := idx z i in
      Ok (if b : bool then snd w else fst w)) (seq 0 bits)) in
  let! _ := send (enc_garbled (g_order g gc)) in
  let! _ := send (enc_wires encoded) in
  let! rows := lift (random_rows rand number_of_passwords bits) in
  let! ks := lift (hidden_keys labels rows number_of_passwords index) in
  let! _ := ot ks in
  lift (garbler_half_key d).

(** legacy_fpake.rs:565-573: XOR over all passwords of the payloads received. *)
Definition xor_all (result : list bytes) (count bits : nat) : outcome (list bytes) :=
  foldM (fun acc i => mapM (fun jx : nat * bytes =>
      let* r := idx result (i * bits + fst jx) in xor_bytes_inplace p (snd jx) r) (enumerate acc))
    (seq 0 count) (repeat (repeat 0 LENGTH) bits).

(** legacy_fpake.rs:538-605 [evaluator_server]; this definition also returns the payloads the server
    received from the OT. *)
Definition evaluator_server_v1_seen (ot : list bool -> proc (list bytes)) (passwords : list bytes) : proc (bytes * list bytes) :=
  let! p0 := lift (idx passwords 0) in
  let bits := (length p0 * 8)%nat in
  let! m := recv in
  let! gc := lift (deserialize dec_garbled m) in
  let! m := recv in
  let! client := lift (deserialize dec_wires m) in
  let! choices := lift (mapM (fun pw => choice_bits pw bits) passwords) in
  let! result := ot (concat choices) in
  let! encoding := lift (xor_all result (length passwords) bits) in
  let! server := lift (mapM (fun b => from_bytes p b Binary) encoding) in
  let! output := lift (evaluate sha p gc (server ++ client)) in
  let! k := lift (evaluator_half_key sha p gc output) in
  ret (k, result).
Definition evaluator_server_v1 (ot : list bool -> proc (list bytes)) (passwords : list bytes) : proc bytes :=
  let! (k, _) := evaluator_server_v1_seen ot passwords in ret k.

(** legacy_fpake.rs:608-700 [garbler_client_v2]. *)
Definition garbler_client_v2 (g : garbling) (ot : list (bytes * bytes) -> proc unit) (many_ot : nat -> N -> proc bytes)
    (password : bytes) (index number_of_passwords threshold : N) : proc bytes :=
  let bits := (length password * 8)%nat in
  let! c := lift (build_circuit_v2 p bits threshold) in
  let! (gc, z, d) := lift (garble_zipped sha p g c) in
  let! input := lift (mapM (fun i =>
      let* b := bit_at password i in
      let* w := idx z (bits * 2 + i) in
      Ok (if b : bool then snd w else fst w)) (seq 0 bits)) in
  let! _ := send (enc_garbled (g_order g gc)) in
  let! _ := send (enc_wires input) in
  let! m := lift (label_pairs z bits bits) in
  let! _ := ot m in
  let! domain := lift (log2_ p 32 number_of_passwords) in
  let! masked_password := many_ot (N.to_nat domain) index in
  let! _ := lift (idx z 0) in
  let! encoded := lift (encode_flat p z 0 bits masked_password) in
  let! _ := send encoded in
  lift (garbler_half_key d).

(** legacy_fpake.rs:701-787 [evaluator_server_v2]; [mask] is the random mask. *)
Definition evaluator_server_v2 (mask : bytes) (ot : list bool -> proc (list bytes)) (many_ot : nat -> list bytes -> proc unit)
    (passwords : list bytes) : proc bytes :=
  let! p0 := lift (idx passwords 0) in
  let password_bytes := length p0 in
  let bits := (password_bytes * 8)%nat in
  let! m := recv in
  let! gc := lift (deserialize dec_garbled m) in
  let! m := recv in
  let! client := lift (deserialize dec_wires m) in
  let! choices := lift (choice_bits mask bits) in
  let! masked := lift (mask_passwords p mask passwords password_bytes) in
  let! encoded_mask := ot choices in
  let! domain := lift (log2_ p 64 (N.of_nat (length passwords))) in
  let! _ := many_ot (N.to_nat domain) masked in
  let! server_encoded := recv in
  let! row0 := lift (idx encoded_mask 0) in
  let! mask_encoding := lift (payload_to_encoding p encoded_mask bits) in
  let! server := lift (bytes_to_encoding p server_encoded bits (length row0)) in
  let! output := lift (evaluate sha p gc (server ++ mask_encoding ++ client)) in
  lift (evaluator_half_key sha p gc output).

(** legacy_fpake.rs:948-972 and 1138-1162: the two halves of a version put together, as in the tests. *)
Definition server_v1 (g : garbling) (ot1 : list (bytes * bytes) -> proc unit) (many_ot : nat -> list bytes -> proc unit)
    (ot2 : list bool -> proc (list bytes)) (passwords : list bytes) (threshold : N) : proc bytes :=
  let! k1 := garbler_server_v1 g ot1 many_ot passwords threshold in
  let! k2 := evaluator_server_v1 ot2 passwords in
  ret (combine_keys k1 k2).
Definition client_v1 (rand : nat -> nat -> bytes) (g : garbling) (ot1 : list bool -> proc (list bytes)) (many_ot : nat -> N -> proc bytes)
    (ot2 : list (bytes * bytes) -> proc unit) (password : bytes) (number_of_passwords index threshold : N) : proc bytes :=
  let! k1 := evaluator_client_v1 ot1 many_ot password number_of_passwords index in
  let! k2 := garbler_client_v1 rand g ot2 password index number_of_passwords threshold in
  ret (combine_keys k1 k2).
Definition server_v2 (mask mask' : bytes) (g : garbling) (ot1 : list (bytes * bytes) -> proc unit)
    (many_ot : nat -> list bytes -> proc unit) (ot2 : list (bytes * bytes) -> proc unit) (ot3 : list bool -> proc (list bytes))
    (many_ot' : nat -> list bytes -> proc unit) (passwords : list bytes) (threshold : N) : proc bytes :=
  let! k1 := garbler_server_v2 mask g ot1 many_ot ot2 passwords threshold in
  let! k2 := evaluator_server_v2 mask' ot3 many_ot' passwords in
  ret (combine_keys k1 k2).
Definition client_v2 (g : garbling) (ot1 : list bool -> proc (list bytes)) (many_ot : nat -> N -> proc bytes)
    (ot2 : list bool -> proc (list bytes)) (ot3 : list (bytes * bytes) -> proc unit) (many_ot' : nat -> N -> proc bytes)
    (password : bytes) (number_of_passwords index threshold : N) : proc bytes :=
  let! k1 := evaluator_client_v2 ot1 many_ot ot2 password number_of_passwords index in
  let! k2 := garbler_client_v2 g ot3 many_ot' password index number_of_passwords threshold in
  ret (combine_keys k1 k2).
End Legacy.
