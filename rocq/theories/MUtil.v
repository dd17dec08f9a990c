(** Model of src/util.rs. *)
From Coq Require Import List NArith Bool Arith.
From Verif Require Import Base.
Import ListNotations.
Open Scope N_scope.

(** util.rs:5-6 SECURITY_PARAM, LENGTH. *)
Definition LENGTH : nat := 32.

(** util.rs:20-22 [log2]: size_of(N)*8 - leading_zeros(x-1), on a w-bit unsigned type.
    [leading_zeros y] of a w-bit value is w minus its bit length. *)
Definition leading_zeros (w y : N) : N := w - N.size y.
Definition log2_ (p : profile) (w x : N) : outcome N :=
  let* y := usub p w x 1 in
  usub p 32 w (leading_zeros w y).

(** util.rs:24-32 [u8_vec_to_bool_vec]: for each byte, bits 0..7. *)
Definition byte_bits (s : N) : list bool :=
  map (fun i => N.land (N.shiftr s (N.of_nat i)) 1 =? 1) (seq 0 8).
Definition u8_vec_to_bool_vec (str : bytes) : list bool := flat_map byte_bits str.

(** util.rs:34-47 [bool_vec_to_u8_vec]: loop with accumulator [byte], most significant bit first;
    an incomplete last byte is dropped. *)
Fixpoint bool_vec_to_u8_vec_loop (str : list bool) (i : nat) (byte : N) : bytes :=
  match str with
  | [] => []
  | bit :: str' =>
      let byte := if bit then N.lor byte (N.shiftl 1 (N.of_nat (7 - i mod 8)%nat)) else byte in
      if Nat.eqb (i mod 8) 7 then byte :: bool_vec_to_u8_vec_loop str' (S i) 0
      else bool_vec_to_u8_vec_loop str' (S i) byte
  end.
Definition bool_vec_to_u8_vec (str : list bool) : bytes := bool_vec_to_u8_vec_loop str 0 0.

(** util.rs:49-54 [to_array]: debug_assert on the length, then [copy_from_slice], which panics
    on a length mismatch in every profile. *)
Definition to_array (p : profile) (b : bytes) : outcome bytes :=
  let* _ := debug_assert p (Nat.eqb (length b) LENGTH) in
  if Nat.eqb (length b) LENGTH then Ok b else Panic PSlice.

(** util.rs:90-96 [xor] on [u8; 32] arrays (the array type guarantees both lengths). *)
Definition xor (a b : bytes) : bytes := zipWith N.lxor a b.

(** util.rs:98-107 [xor_bytes]: debug_assert_eq on lengths, then [right[i]] for i < left.len(). *)
Definition xor_bytes (p : profile) (left right : bytes) : outcome bytes :=
  let* _ := debug_assert p (Nat.eqb (length left) (length right)) in
  if Nat.ltb (length right) (length left) then Panic PIndex
  else Ok (zipWith N.lxor left right).

(** util.rs:109-115 [xor_bytes_inplace]: same loop, result written to [left]. *)
Definition xor_bytes_inplace (p : profile) (left right : bytes) : outcome bytes :=
  let* _ := debug_assert p (Nat.eqb (length left) (length right)) in
  if Nat.ltb (length right) (length left) then Panic PIndex
  else Ok (zipWith N.lxor left right).

(** util.rs:120-122 [index_1d]. *)
Definition index_1d (row column width : nat) : nat := (width * row + column)%nat.

(** util.rs:124-128 [vector_row]: unchecked slice [width*row .. width*row+width]. Out of bounds is UB. *)
Definition vector_row (v : bytes) (row width : nat) : outcome bytes :=
  if Nat.leb (width * row + width) (length v)
  then Ok (firstn width (skipn (width * row) v)) else UB.

(** util.rs:130-134 [vector_row_mut], used to overwrite a row with [new] (same width). *)
Definition vector_row_set (v : bytes) (row width : nat) (new : bytes) : outcome bytes :=
  if Nat.leb (width * row + width) (length v)
  then Ok (firstn (width * row) v ++ new ++ skipn (width * row + width) v) else UB.

(** util.rs:136-140 (and 142-146 for the mutable twin) [vector_slice]: [offset .. offset+length] by raw pointer. *)
Definition vector_slice (v : bytes) (offset len : nat) : outcome bytes :=
  if Nat.leb (offset + len) (length v)
  then Ok (firstn len (skipn offset v)) else UB.
