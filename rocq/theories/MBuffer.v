(** Helpers of src/ot/apricot.rs that MApricot.v replaces by simpler ones, and the workers as they use them. *)
From Coq Require Import List NArith Bool Arith.
From Verif Require Import Base MUtil MWires MPar MApricot.
Import ListNotations.
Open Scope N_scope.

(** apricot.rs:483-494 [unpack_bits_to_vec]. *)
Definition unpack_bits_to_vec (b : bytes) : list bool :=
  fold_left (fun bits i => fold_left (fun bits j => bits ++ [N.land (N.shiftr (nth i b 0) (N.of_nat j)) 1 =? 1]) (seq 0 8) bits)
    (seq 0 (length b)) [].

(** apricot.rs:536-541 [zero_inplace]: [destination[i] ^= 0]. *)
Definition zero_inplace (destination : bytes) : bytes := map (fun x => N.lxor x 0) destination.

Section Buffer.
Variable sha : bytes -> bytes.
Variable fill : bytes -> nat -> bytes.
Variable p : profile.
Variable cores : nat.

(** apricot.rs:160-185: one iteration of a worker; [q_buffer] is the worker's buffer, handed on to the next one. *)
Definition randomize_row_buf (q_transposed delta : bytes) (w msg_size : nat) (msg : list (bytes * bytes)) (r : nat) (row q_buffer : bytes) : outcome (bytes * bytes) :=
  let* q_row := vector_row q_transposed r w in
  let v0 := sha (usize_be r ++ q_row) in
  let* m := idx msg r in
  let* plain := vector_slice row 0 msg_size in
  let* e0 := xor_inplace p (fill v0 (length plain)) (fst m) in
  let* q_buffer := ap_xor p (zero_inplace q_buffer) q_row delta in
  let v1 := sha (usize_be r ++ q_buffer) in
  let* plain := vector_slice row msg_size msg_size in
  let* e1 := xor_inplace p (fill v1 (length plain)) (snd m) in
  Ok (e0 ++ e1, q_buffer).

(** apricot.rs:156-190: the loop of a worker over its rows of [d]. *)
Definition update_rows_buf (v : bytes) (h w : nat) (f : nat -> bytes -> bytes -> outcome (bytes * bytes)) (buf : bytes) : outcome bytes :=
  let* r := foldM (fun (s : bytes * bytes) i =>
    let* row := vector_row (fst s) i w in
    let* n := f i row (snd s) in
    let* v := vector_row_set (fst s) i w (fst n) in
    Ok (v, snd n)) (seq 0 h) (v, buf) in
  Ok (fst r).

(** apricot.rs:144-191, every worker with a buffer of its own (line 159). *)
Definition randomize_buf (q_transposed delta : bytes) (w msg_size : nat) (msg : list (bytes * bytes)) : outcome bytes :=
  let msg_count := length msg in
  let msg_pair_size := (msg_size * 2)%nat in
  let* thread_count := pick_suitable_thread_count cores msg_count in
  let* rows_in_chunk := udiv msg_count thread_count in
  let* cs := chunks_mut (rows_in_chunk * msg_pair_size) (repeat 0 (msg_count * msg_pair_size)) in
  let* rs := mapM (fun c : nat * bytes =>
      update_rows_buf (snd c) (length (snd c) / msg_pair_size) msg_pair_size
        (fun i row buf => randomize_row_buf q_transposed delta w msg_size msg (fst c * rows_in_chunk + i)%nat row buf) (repeat 0 w))
    (enumerate cs) in
  Ok (concat rs).
End Buffer.
