(** Properties C01-C04: helpers of util.rs. *)
From Coq Require Import List NArith Bool Arith Lia.
From Verif Require Import Base MUtil SpecUtil PUtil.
Import ListNotations.
Open Scope N_scope.

(** C01: for every word width and every n >= 1, [log2] is the least k with n <= 2^k. *)
Theorem C01_log2_ceiling : forall p w n, w < 2 ^ 32 -> 1 <= n -> n < 2 ^ w ->
  exists k, log2_ p w n = Ok k /\ n <= 2 ^ k /\ (forall j, n <= 2 ^ j -> k <= j).
Proof. exact log2_correct. Qed.
Theorem C01_log2_zero_panics : forall w, log2_ Debug w 0 = Panic POverflow.
Proof. exact log2_zero_debug. Qed.
Example C01_case : log2_ Release 64 1025 = Ok 11. Proof. reflexivity. Qed.
Print Assumptions C01_log2_ceiling.

(** C02: eight bits per byte, least significant first; packing them back gives the bytes. *)
Theorem C02_unpack_bits : forall b,
  length (u8_vec_to_bool_vec b) = (8 * length b)%nat /\
  (forall j, (j < 8 * length b)%nat -> nth j (u8_vec_to_bool_vec b) false = bit_of b j).
Proof. intros b. split. exact (bits_length b). exact (bits_nth b). Qed.
Theorem C02_repack_lsb_first : forall b, bytes_ok b ->
  map bits_value (chunks8 (length b) (u8_vec_to_bool_vec b)) = b.
Proof. exact repack. Qed.
Example C02_case : u8_vec_to_bool_vec [5; 128] =
  [true; false; true; false; false; false; false; false; false; false; false; false; false; false; false; true].
Proof. reflexivity. Qed.
Print Assumptions C02_unpack_bits.
Print Assumptions C02_repack_lsb_first.

(** C03 is false: repacking reverses the bits of every byte. *)
Theorem C03_repack_inverse_refuted : exists b, bytes_ok b /\
  bool_vec_to_u8_vec (u8_vec_to_bool_vec b) <> b.
Proof. exists [1]. split. repeat constructor. discriminate. Qed.
(** What it does instead: every byte comes back with its bits in reverse order. *)
Theorem C03_repack_reverses_bits : forall b,
  bool_vec_to_u8_vec (u8_vec_to_bool_vec b) = map (fun s => bits_value (rev (u8_vec_to_bool_vec [s]))) b.
Proof.
  intros b. rewrite bool_vec_reverses. apply map_ext. intros s.
  unfold u8_vec_to_bool_vec. cbn [flat_map]. now rewrite app_nil_r.
Qed.
Example C03_case : bool_vec_to_u8_vec (u8_vec_to_bool_vec [3; 129]) = [192; 129]. Proof. reflexivity. Qed.
Print Assumptions C03_repack_inverse_refuted.
Print Assumptions C03_repack_reverses_bits.

(** C04: the three XOR helpers return the bytewise XOR, and masking twice restores the input. *)
Theorem C04_xor_helpers : forall p a b, length a = length b ->
  is_xor a b (xor a b) /\ xor_bytes p a b = Ok (xor a b) /\ xor_bytes_inplace p a b = Ok (xor a b).
Proof.
  intros p a b Hl. split; [exact (zipWith_xor_spec a b Hl)|].
  split; [exact (xor_bytes_ok p a b Hl)|exact (xor_bytes_inplace_ok p a b Hl)].
Qed.
Theorem C04_mask_twice : forall a b, length a = length b -> xor (xor a b) b = a.
Proof. exact zipWith_xor_twice. Qed.
(** C04: on lengths that differ a debug build stops at the assertion; a release build stops when the
    right operand is the shorter one and otherwise ignores its surplus. *)
Theorem C04_length_mismatch : forall a b, length a <> length b ->
  xor_bytes Debug a b = Panic PAssert /\ xor_bytes_inplace Debug a b = Panic PAssert /\
  ((length b < length a)%nat -> xor_bytes Release a b = Panic PIndex /\ xor_bytes_inplace Release a b = Panic PIndex) /\
  ((length a < length b)%nat -> let b' := firstn (length a) b in
     xor_bytes Release a b = Ok (xor a b') /\ xor_bytes_inplace Release a b = Ok (xor a b')).
Proof.
  assert (Hz : forall (a b : bytes), zipWith N.lxor a b = zipWith N.lxor a (firstn (length a) b)).
  { induction a as [|x a IH]; intros [|y b]; cbn; auto. now rewrite <- IH. }
  intros a b Hne. unfold xor_bytes, xor_bytes_inplace, debug_assert. rewrite (proj2 (Nat.eqb_neq _ _) Hne). cbn [obind].
  split; [reflexivity|]. split; [reflexivity|]. split; intros Hlt.
  - rewrite (proj2 (Nat.ltb_lt _ _) Hlt). auto.
  - rewrite (proj2 (Nat.ltb_ge _ _)) by lia. unfold xor. rewrite Hz. auto.
Qed.
Print Assumptions C04_length_mismatch.
Example C04_case : xor_bytes Debug [255; 1] [15; 1] = Ok [240; 0] /\ xor_bytes Debug [1] [1; 2] = Panic PAssert.
Proof. split; reflexivity. Qed.
Print Assumptions C04_xor_helpers.
Print Assumptions C04_mask_twice.
