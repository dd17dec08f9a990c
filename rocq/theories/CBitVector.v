(** Property C97: bit vectors. *)
From Coq Require Import List NArith Bool Arith.
From Verif Require Import Base MBitMatrix SpecUtil SpecBitMatrix PBitVector.
Import ListNotations.
Open Scope N_scope.

(** Vectors of zeros and of ones hold what they should ... *)
Theorem C97_constant_vectors : forall size i, (i < size - size mod 8)%nat ->
  bit_of (bv_zeros size) i = false /\ bit_of (bv_ones size) i = true.
Proof. exact filled. Qed.
Print Assumptions C97_constant_vectors.
(** ... but C97 is false: they are shorter than asked for unless the size is a multiple of 8. *)
Theorem C97_size_refuted : forall size,
  bv_len (bv_zeros size) = (size - size mod 8)%nat /\ bv_len (bv_ones size) = (size - size mod 8)%nat.
Proof. intros size. split; apply filled_len. Qed.
Print Assumptions C97_size_refuted.

(** On vectors of one length all forms of the operators are bitwise. *)
Theorem C97_operators : forall p a b, length a = length b ->
  bv_len (bv_xor a b) = bv_len a /\ bv_len (bv_and a b) = bv_len a /\
  (forall i, bit_of (bv_xor a b) i = xorb (bit_of a i) (bit_of b i) /\ bit_of (bv_and a b) i = bit_of a i && bit_of b i) /\
  bv_xor_assign a b = bv_xor a b /\ bv_xor_assign_ref p a b = Ok (bv_xor a b) /\ bv_and_assign a b = bv_and a b.
Proof. exact operators. Qed.
Print Assumptions C97_operators.
(** On others the three forms of XOR differ: with a shorter right operand [^] cuts the result, [^=] keeps
    the tail of the left operand and [^= &] panics ... *)
Theorem C97_shorter_right_operand_refuted : forall a b, (length b < length a)%nat ->
  bv_len (bv_xor a b) = bv_len b /\ bv_len (bv_xor_assign a b) = bv_len a /\ bv_xor_assign_ref Debug a b = Panic PAssert /\
  bv_xor_assign_ref Release a b = Panic PIndex.
Proof. exact shorter_right. Qed.
Print Assumptions C97_shorter_right_operand_refuted.
(** ... with a longer one all forms ignore its tail, except that [^= &] panics in debug builds. *)
Theorem C97_longer_right_operand : forall a b, (length a < length b)%nat ->
  bv_len (bv_xor a b) = bv_len a /\ bv_xor_assign a b = bv_xor a b /\ bv_xor_assign_ref Debug a b = Panic PAssert /\
  bv_xor_assign_ref Release a b = Ok (bv_xor a b).
Proof. exact longer_right. Qed.
Print Assumptions C97_longer_right_operand.

(** Every row of a monochrome matrix holds the choices, without those beyond the last full byte. *)
Theorem C97_monochrome : forall choices size, length (monochrome choices size) = size /\
  forall i, (i < size)%nat -> bv_len (nth i (monochrome choices size) []) = (length choices - length choices mod 8)%nat /\
  forall j, (j < length choices - length choices mod 8)%nat -> mbit (monochrome choices size) i j = nth j choices false.
Proof. exact mono. Qed.
Print Assumptions C97_monochrome.

Example C97_case : bv_len (bv_ones 15) = 8%nat /\ bv_xor [1; 2] [3] = [2] /\ bv_xor_assign [1; 2] [3] = [2; 2] /\
  monochrome [true; false; true; false; false; false; false; true; true] 2 = [[133]; [133]].
Proof. repeat split. Qed.
