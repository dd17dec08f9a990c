(** Model of src/ot/bitmatrix.rs and of [transpose_matrix] of src/ot/apricot.rs. A BitVector is its bytes
    ([Block] = u8), a BitMatrix the list of its rows. The transmutes between Vec<Vec<u8>> and Vec<BitVector>
    (lines 224, 248) are the identity. *)
From Coq Require Import List NArith Bool Arith.
From Verif Require Import Base MUtil.
Import ListNotations.
Open Scope N_scope.

Definition BLOCK_SIZE : nat := 8.

(** bitmatrix.rs:29-31, 34-36 [zeros], [ones]; 39-41 [len] (in bits). *)
Definition bv_zeros (size : nat) : bytes := repeat 0 (size / 8).
Definition bv_ones (size : nat) : bytes := repeat 255 (size / 8).
Definition bv_len (v : bytes) : nat := (length v * BLOCK_SIZE)%nat.

(** bitmatrix.rs:95-123 [bitxor], 125-138 [bitand]: zips, so the shorter operand decides the length. *)
Definition bv_xor (a b : bytes) : bytes := zipWith N.lxor a b.
Definition bv_and (a b : bytes) : bytes := zipWith N.land a b.
(** bitmatrix.rs:140-147, 161-168: the assigning forms leave the tail of a longer left operand alone. *)
Definition bv_xor_assign (a b : bytes) : bytes := zipWith N.lxor a b ++ skipn (length b) a.
Definition bv_and_assign (a b : bytes) : bytes := zipWith N.land a b ++ skipn (length b) a.
(** bitmatrix.rs:149-159 [bitxor_assign] by reference indexes the right operand. *)
Definition bv_xor_assign_ref (p : profile) (a b : bytes) : outcome bytes :=
  let* _ := debug_assert p (Nat.eqb (length a) (length b)) in
  if Nat.ltb (length b) (length a) then Panic PIndex else Ok (zipWith N.lxor a b).

(** bitmatrix.rs:183-196 [monochrome]; eight choices per byte, a rest of fewer than eight is dropped. *)
Definition pack8 (choices : list bool) (i : nat) : N :=
  fold_left (fun acc b => N.lor acc (N.shiftl (if nth (i * BLOCK_SIZE + b) choices false then 1 else 0) (N.of_nat b)))
    (seq 0 BLOCK_SIZE) 0.
Definition pack_choices (choices : list bool) : bytes := map (pack8 choices) (seq 0 (length choices / BLOCK_SIZE)).
Definition monochrome (choices : list bool) (size : nat) : list bytes := repeat (pack_choices choices) size.

(** bitmatrix.rs:199-201 [dims]: panics on a matrix without rows. *)
Definition dims (rows : list bytes) : outcome (nat * nat) :=
  let* r0 := idx rows 0 in Ok (length rows, bv_len r0).

(** [raw[r][c] |= v] with checked indices. *)
Definition or_at2 (raw : list bytes) (r c : nat) (v : N) : outcome (list bytes) :=
  let* row := idx raw r in
  let* old := idx row c in
  let* row' := set_idx row c (N.lor old v) in
  set_idx raw r row'.

(** [source_bit << target_shift] on u8. *)
Definition shl8 (x n : N) : N := N.shiftl x n mod 256.

(** bitmatrix.rs:206-226 [transpose]. *)
Definition transpose_byte (row_idx col_idx : nat) (source_byte : N) (raw : list bytes) : outcome (list bytes) :=
  foldM (fun raw b =>
    let source_bit := N.land (N.shiftr source_byte (N.of_nat b)) 1 in
    or_at2 raw (col_idx * BLOCK_SIZE + b) (row_idx / BLOCK_SIZE) (shl8 source_bit (N.of_nat (row_idx mod BLOCK_SIZE))))
    (seq 0 BLOCK_SIZE) raw.
Definition transpose_row (source : list bytes) (cols row_idx : nat) (raw : list bytes) : outcome (list bytes) :=
  foldM (fun raw col_idx =>
    let* srow := idx source row_idx in
    let* source_byte := idx srow col_idx in
    transpose_byte row_idx col_idx source_byte raw) (seq 0 (cols / BLOCK_SIZE)) raw.
Definition transpose (m : list bytes) : outcome (list bytes) :=
  let* (rows, cols) := dims m in
  foldM (fun raw row_idx => transpose_row m cols row_idx raw) (seq 0 rows) (repeat (repeat 0 (rows / BLOCK_SIZE)) cols).

(** [target[i] |= v]. *)
Definition or_at (target : bytes) (i : nat) (v : N) : outcome bytes :=
  let* old := idx target i in set_idx target i (N.lor old v).

(** apricot.rs:554-578 [transpose_matrix]: the same on flat arrays; returns the new target. *)
Definition transpose_flat_byte (row_idx col_idx original_width : nat) (source_byte : N) (target : bytes) : outcome bytes :=
  foldM (fun target b =>
    let source_bit := N.land (N.shiftr source_byte (N.of_nat b)) 1 in
    let i := index_1d (col_idx * 8 + b) (row_idx / 8) original_width in
    or_at target i (shl8 source_bit (N.of_nat (row_idx mod 8)))) (seq 0 8) target.
Definition transpose_matrix (source target : bytes) (transposed_height transposed_width original_width : nat) : outcome bytes :=
  foldM (fun target row_idx =>
    foldM (fun target col_idx =>
      let* source_byte := idx source (index_1d row_idx col_idx transposed_width) in
      transpose_flat_byte row_idx col_idx original_width source_byte target) (seq 0 transposed_width) target)
    (seq 0 transposed_height) target.

(** bitmatrix.rs:229-243 [tranpose_64] on 64 u64 values. [k] and [j] are usize; [!j] is the complement in
    64 bits. The loops get fuel; [None]: out of fuel. *)
Fixpoint tranpose_64_inner (fuel : nat) (m : N) (j k : nat) (matrix : list N) : outcome (list N) :=
  if Nat.ltb k 64 then
    match fuel with
    | O => Panic PTodo
    | S fuel' =>
        let* a := idx matrix k in
        let* b := idx matrix (k + j) in
        let t := N.lxor a (N.land (N.shiftr b (N.of_nat j)) m) in
        let* matrix := set_idx matrix k (N.lxor a t) in
        let* b := idx matrix (k + j) in
        let* matrix := set_idx matrix (k + j) (N.lxor b (N.shiftl t (N.of_nat j) mod 2 ^ 64)) in
        tranpose_64_inner fuel' m j
          (N.to_nat (N.land (N.of_nat (k + j + 1)) (N.lxor (N.ones 64) (N.of_nat j)))) matrix
    end
  else Ok matrix.
Fixpoint tranpose_64_outer (fuel : nat) (m : N) (j : nat) (matrix : list N) : outcome (list N) :=
  match j with
  | O => Ok matrix
  | _ =>
      match fuel with
      | O => Panic PTodo
      | S fuel' =>
          let* matrix := tranpose_64_inner 64 m j 0 matrix in
          tranpose_64_outer fuel' (N.lxor m (N.shiftl m (N.of_nat j) mod 2 ^ 64)) (Nat.div2 j) matrix
      end
  end.
Definition tranpose_64 (matrix : list N) : outcome (list N) := tranpose_64_outer 8 (2 ^ 32 - 1) 16 matrix.
