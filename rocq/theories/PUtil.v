(** Proofs about MUtil. *)
From Coq Require Import List NArith Bool Arith Lia.
From Verif Require Import Base MUtil SpecUtil PBase.
Import ListNotations.
Open Scope N_scope.

(** ** log2 *)
Lemma size_le_pow n k : n < 2 ^ k <-> N.size n <= k.
Proof.
  destruct (N.eq_dec n 0) as [->|Hn].
  - split; intros. simpl. lia. apply N.neq_0_lt_0, N.pow_nonzero. lia.
  - rewrite N.size_log2 by auto. split; intros H.
    + assert (N.log2 n < k); [|lia]. apply N.log2_lt_pow2; lia.
    + apply N.log2_lt_pow2; lia.
Qed.

Lemma log2_correct p w x : w < 2 ^ 32 -> 1 <= x -> x < 2 ^ w ->
  exists k, log2_ p w x = Ok k /\ x <= 2 ^ k /\ (forall j, x <= 2 ^ j -> k <= j).
Proof.
  intros Hw H1 H2. unfold log2_, usub. destruct (N.leb_spec 1 x); [|lia]. cbn [obind].
  assert (Hs : N.size (x - 1) <= w) by (apply size_le_pow; lia).
  unfold leading_zeros. destruct (N.leb_spec (w - N.size (x - 1)) w); [|lia].
  exists (w - (w - N.size (x - 1))). split; auto.
  replace (w - (w - N.size (x - 1))) with (N.size (x - 1)) by lia. split.
  - assert (x - 1 < 2 ^ N.size (x - 1)) by (apply size_le_pow; lia). lia.
  - intros j Hj. apply size_le_pow. lia.
Qed.
Lemma log2_zero_debug w : log2_ Debug w 0 = Panic POverflow.
Proof. reflexivity. Qed.

(** ** Bits *)
Lemma byte_bits_length s : length (byte_bits s) = 8%nat.
Proof. unfold byte_bits. now rewrite map_length, seq_length. Qed.
Lemma land1_testbit s i : (N.land (N.shiftr s i) 1 =? 1) = N.testbit s i.
Proof.
  change 1 with (N.ones 1). rewrite N.land_ones. rewrite <- (N.add_0_l i) at 2. rewrite <- N.shiftr_spec' .
  rewrite N.bit0_eqb. reflexivity.
Qed.
Lemma byte_bits_nth s j : (j < 8)%nat -> nth j (byte_bits s) false = N.testbit s (N.of_nat j).
Proof.
  intros Hj. unfold byte_bits. rewrite (nth_indep _ false (N.land (N.shiftr s (N.of_nat 0)) 1 =? 1)).
  2:{ rewrite map_length, seq_length; auto. }
  rewrite (map_nth (fun i => N.land (N.shiftr s (N.of_nat i)) 1 =? 1)). rewrite seq_nth by auto. apply land1_testbit.
Qed.
Lemma bits_length b : length (u8_vec_to_bool_vec b) = (8 * length b)%nat.
Proof.
  induction b; [reflexivity|]. change (u8_vec_to_bool_vec (a :: b)) with (byte_bits a ++ u8_vec_to_bool_vec b).
  rewrite app_length, byte_bits_length, IHb. cbn [length]. lia.
Qed.
Lemma bits_nth b j : (j < 8 * length b)%nat -> nth j (u8_vec_to_bool_vec b) false = bit_of b j.
Proof.
  revert j. induction b as [|a b IH]; intros j Hj. { simpl in Hj; lia. }
  change (u8_vec_to_bool_vec (a :: b)) with (byte_bits a ++ u8_vec_to_bool_vec b). unfold bit_of.
  destruct (Nat.lt_ge_cases j 8).
  - rewrite app_nth1 by (rewrite byte_bits_length; auto). rewrite byte_bits_nth by auto.
    rewrite Nat.div_small, Nat.mod_small by auto. reflexivity.
  - rewrite app_nth2 by (rewrite byte_bits_length; auto). rewrite byte_bits_length.
    rewrite IH by (simpl in Hj; lia). unfold bit_of.
    replace j with (j - 8 + 1 * 8)%nat at 3 4 by lia.
    rewrite Nat.div_add, Nat.mod_add by lia. rewrite Nat.add_1_r. reflexivity.
Qed.

Lemma bits_value_testbit l j : N.testbit (bits_value l) (N.of_nat j) = nth j l false.
Proof.
  revert j. induction l as [|b l IH]; intros j; cbn [bits_value].
  - rewrite N.bits_0. now destruct j.
  - destruct j; cbn [nth].
    + destruct b. rewrite N.add_comm. apply N.testbit_odd_0. rewrite N.add_0_l. apply N.testbit_even_0.
    + rewrite <- IH. rewrite Nat2N.inj_succ. destruct b.
      rewrite N.add_comm. apply N.testbit_odd_succ; lia. rewrite N.add_0_l. apply N.testbit_even_succ; lia.
Qed.
Lemma testbit_byte s j : byte_ok s -> 8 <= j -> N.testbit s j = false.
Proof.
  unfold byte_ok. intros Hs Hj. destruct (N.eq_dec s 0) as [->|]. apply N.bits_0. apply N.bits_above_log2.
  assert (N.log2 s < 8); [|lia]. apply N.log2_lt_pow2; lia.
Qed.
Lemma bits_value_byte s : byte_ok s -> bits_value (byte_bits s) = s.
Proof.
  intros Hs. apply N.bits_inj. intros j. rewrite <- (N2Nat.id j). rewrite bits_value_testbit.
  destruct (Nat.lt_ge_cases (N.to_nat j) 8).
  - now apply byte_bits_nth.
  - rewrite nth_overflow by (rewrite byte_bits_length; auto). symmetry. apply testbit_byte; auto. lia.
Qed.
Fixpoint chunks8 (n : nat) (l : list bool) : list (list bool) :=
  match n with O => [] | S n' => firstn 8 l :: chunks8 n' (skipn 8 l) end.
Lemma repack b : bytes_ok b -> map bits_value (chunks8 (length b) (u8_vec_to_bool_vec b)) = b.
Proof.
  induction 1 as [|a b Ha Hb IH]; [reflexivity|].
  change (u8_vec_to_bool_vec (a :: b)) with (byte_bits a ++ u8_vec_to_bool_vec b).
  cbn [length chunks8 map]. pose proof (byte_bits_length a).
  rewrite firstn_app, H, Nat.sub_diag. rewrite firstn_O, app_nil_r, firstn_all2 by lia.
  rewrite skipn_app, H, Nat.sub_diag. rewrite skipn_O, skipn_all2 by lia.
  rewrite app_nil_l, IH, bits_value_byte by auto. reflexivity.
Qed.

(** [bool_vec_to_u8_vec] reverses the bits of each byte. *)
Lemma bool_vec_loop_8 b0 b1 b2 b3 b4 b5 b6 b7 l n :
  bool_vec_to_u8_vec_loop (b0 :: b1 :: b2 :: b3 :: b4 :: b5 :: b6 :: b7 :: l) (8 * n) 0 =
  bits_value [b7; b6; b5; b4; b3; b2; b1; b0] :: bool_vec_to_u8_vec_loop l (8 * S n) 0.
Proof.
  cbn [bool_vec_to_u8_vec_loop].
  assert (E : forall k, (k < 8)%nat -> ((k + 8 * n) mod 8 = k)%nat).
  { intros. rewrite Nat.mul_comm, Nat.mod_add by lia. now apply Nat.mod_small. }
  change (8 * n)%nat with (0 + 8 * n)%nat.
  change (S (0 + 8 * n)) with (1 + 8 * n)%nat. change (S (1 + 8 * n)) with (2 + 8 * n)%nat.
  change (S (2 + 8 * n)) with (3 + 8 * n)%nat. change (S (3 + 8 * n)) with (4 + 8 * n)%nat.
  change (S (4 + 8 * n)) with (5 + 8 * n)%nat. change (S (5 + 8 * n)) with (6 + 8 * n)%nat.
  change (S (6 + 8 * n)) with (7 + 8 * n)%nat. replace (S (7 + 8 * n)) with (8 * S n)%nat by lia.
  rewrite !E by lia. cbn [Nat.eqb Nat.sub]. f_equal.
  destruct b0, b1, b2, b3, b4, b5, b6, b7; reflexivity.
Qed.
Lemma bool_vec_reverses_from b n :
  bool_vec_to_u8_vec_loop (u8_vec_to_bool_vec b) (8 * n) 0 = map (fun s => bits_value (rev (byte_bits s))) b.
Proof.
  revert n. induction b as [|a b IH]; intros n; [reflexivity|].
  change (u8_vec_to_bool_vec (a :: b)) with (byte_bits a ++ u8_vec_to_bool_vec b).
  cbn [map]. rewrite <- (IH (S n)).
  unfold byte_bits at 1 2. cbn [seq map app]. rewrite bool_vec_loop_8. reflexivity.
Qed.
Lemma bool_vec_reverses b :
  bool_vec_to_u8_vec (u8_vec_to_bool_vec b) = map (fun s => bits_value (rev (byte_bits s))) b.
Proof. exact (bool_vec_reverses_from b 0). Qed.

(** ** xor *)
Lemma zipWith_xor_spec a b : length a = length b -> is_xor a b (zipWith N.lxor a b).
Proof.
  intros Hl. split. { rewrite zipWith_length. lia. }
  revert b Hl. induction a as [|x a IH]; intros [|y b] Hl i Hi; try discriminate; [simpl in Hi; lia|].
  destruct i; auto. cbn [zipWith nth]. apply IH. simpl in Hl; lia. simpl in Hi; lia.
Qed.
Lemma zipWith_xor_twice a b : length a = length b -> zipWith N.lxor (zipWith N.lxor a b) b = a.
Proof.
  revert b. induction a as [|x a IH]; intros [|y b] Hl; try discriminate; auto.
  cbn [zipWith]. rewrite IH by (simpl in Hl; lia). f_equal.
  rewrite N.lxor_assoc, N.lxor_nilpotent. apply N.lxor_0_r.
Qed.
Lemma xor_bytes_ok p a b : length a = length b -> xor_bytes p a b = Ok (zipWith N.lxor a b).
Proof.
  intros Hl. unfold xor_bytes. rewrite Hl, Nat.eqb_refl, Nat.ltb_irrefl.
  destruct p; reflexivity.
Qed.
Lemma xor_bytes_inplace_ok p a b : length a = length b -> xor_bytes_inplace p a b = Ok (zipWith N.lxor a b).
Proof.
  intros Hl. unfold xor_bytes_inplace. rewrite Hl, Nat.eqb_refl, Nat.ltb_irrefl.
  destruct p; reflexivity.
Qed.
