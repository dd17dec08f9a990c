(** Bit vectors. *)
From Coq Require Import List NArith Bool Arith Lia.
From Verif Require Import Base MUtil MBitMatrix SpecUtil SpecBitMatrix PBase PBitMatrix PApricotA.
Import ListNotations.
Open Scope N_scope.

Lemma nth_repeat_lt {A} (x d : A) k : forall i, (i < k)%nat -> nth i (repeat x k) d = x.
Proof. induction k as [|k IH]; intros i H; [lia|]. destruct i; simpl; [reflexivity|apply IH; lia]. Qed.
Lemma filled_len b size : bv_len (repeat b (size / 8)) = (size - size mod 8)%nat.
Proof.
  unfold bv_len, BLOCK_SIZE. rewrite repeat_length. pose proof (Nat.div_mod size 8). lia.
Qed.
Lemma bit_of_repeat b n i : (i < 8 * n)%nat -> bit_of (repeat b n) i = N.testbit b (N.of_nat (i mod 8)).
Proof.
  intros H. unfold bit_of. f_equal. apply nth_repeat_lt. apply Nat.div_lt_upper_bound; lia.
Qed.
Lemma ones_bit i : N.testbit 255 (N.of_nat (i mod 8)) = true.
Proof.
  change 255 with (N.ones 8). apply N.ones_spec_low. pose proof (Nat.mod_upper_bound i 8). lia.
Qed.
Lemma filled size i : (i < size - size mod 8)%nat -> bit_of (bv_zeros size) i = false /\ bit_of (bv_ones size) i = true.
Proof.
  intros H. pose proof (Nat.div_mod size 8). assert (L : (i < 8 * (size / 8))%nat) by lia.
  unfold bv_zeros, bv_ones. rewrite !bit_of_repeat by exact L. rewrite ones_bit, N.bits_0. auto.
Qed.
Lemma bit_of_and a b j : length a = length b -> bit_of (zipWith N.land a b) j = bit_of a j && bit_of b j.
Proof.
  intros L. unfold bit_of. generalize (j / 8)%nat as k. intros k. revert b L k.
  induction a as [|x a IH]; intros [|y b] L k; simpl in L; try discriminate.
  - destruct k; simpl; rewrite ?N.bits_0; reflexivity.
  - destruct k; simpl; [apply N.land_spec|apply IH; lia].
Qed.
Lemma operators p a b : length a = length b ->
  bv_len (bv_xor a b) = bv_len a /\ bv_len (bv_and a b) = bv_len a /\
  (forall i, bit_of (bv_xor a b) i = xorb (bit_of a i) (bit_of b i) /\ bit_of (bv_and a b) i = bit_of a i && bit_of b i) /\
  bv_xor_assign a b = bv_xor a b /\ bv_xor_assign_ref p a b = Ok (bv_xor a b) /\ bv_and_assign a b = bv_and a b.
Proof.
  intros L. unfold bv_len, bv_xor, bv_and, bv_xor_assign, bv_and_assign, bv_xor_assign_ref, BLOCK_SIZE.
  rewrite !zipWith_length, L, Nat.min_id, Nat.eqb_refl, Nat.ltb_irrefl.
  rewrite (skipn_all2 a) by lia. rewrite !app_nil_r.
  repeat split; [now apply bit_of_zip|now apply bit_of_and|destruct p; reflexivity].
Qed.
Lemma shorter_right a b : (length b < length a)%nat ->
  bv_len (bv_xor a b) = bv_len b /\ bv_len (bv_xor_assign a b) = bv_len a /\ bv_xor_assign_ref Debug a b = Panic PAssert /\
  bv_xor_assign_ref Release a b = Panic PIndex.
Proof.
  intros L. unfold bv_len, bv_xor, bv_xor_assign, bv_xor_assign_ref, debug_assert, assert_.
  rewrite app_length, zipWith_length, skipn_length, Nat.min_r by lia.
  rewrite (proj2 (Nat.eqb_neq _ _)) by lia. rewrite (proj2 (Nat.ltb_lt _ _)) by lia.
  repeat split. lia.
Qed.
Lemma longer_right a b : (length a < length b)%nat ->
  bv_len (bv_xor a b) = bv_len a /\ bv_xor_assign a b = bv_xor a b /\ bv_xor_assign_ref Debug a b = Panic PAssert /\
  bv_xor_assign_ref Release a b = Ok (bv_xor a b).
Proof.
  intros L. unfold bv_len, bv_xor, bv_xor_assign, bv_xor_assign_ref, debug_assert, assert_.
  rewrite zipWith_length, Nat.min_l, skipn_all2, app_nil_r by lia.
  rewrite (proj2 (Nat.eqb_neq _ _)) by lia. rewrite (proj2 (Nat.ltb_ge _ _)) by lia. repeat split.
Qed.
Lemma mono choices size : length (monochrome choices size) = size /\
  forall i, (i < size)%nat -> bv_len (nth i (monochrome choices size) []) = (length choices - length choices mod 8)%nat /\
  forall j, (j < length choices - length choices mod 8)%nat -> mbit (monochrome choices size) i j = nth j choices false.
Proof.
  unfold monochrome. split; [apply repeat_length|]. intros i Hi. pose proof (Nat.div_mod (length choices) 8).
  unfold mbit. rewrite nth_repeat_lt by exact Hi. split.
  - unfold bv_len, BLOCK_SIZE. rewrite pack_choices_length. lia.
  - intros j Hj. apply pack_choices_bit. lia.
Qed.
