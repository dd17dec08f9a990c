(** GF(2)[x] algebra and the multiply-accumulate functions. *)
From Coq Require Import List NArith Bool Arith Lia.
From Verif Require Import Base MPoly SpecPoly PBase.
Import ListNotations.
Open Scope N_scope.

Lemma pm_double a b : pmulx (N.double a) b = N.shiftl (pmulx a b) 1.
Proof. destruct a; reflexivity. Qed.
Lemma pm_sdouble a b : pmulx (N.succ_double a) b = N.lxor b (N.shiftl (pmulx a b) 1).
Proof. destruct a; simpl; auto. now rewrite N.lxor_0_r. Qed.
Lemma N_bin_ind (P : N -> Prop) : P 0 -> (forall a, P a -> P (N.double a)) -> (forall a, P a -> P (N.succ_double a)) -> forall a, P a.
Proof.
  intros H0 H1 H2 [|a]; auto. induction a.
  - apply (H2 (Npos a)); auto.
  - apply (H1 (Npos a)); auto.
  - apply (H2 0); auto.
Qed.

(** Solve equalities between exclusive ors. *)
Ltac xors := apply N.bits_inj; intro; rewrite ?N.lxor_spec, ?N.bits_0;
  repeat match goal with |- context [N.testbit ?a ?n] => destruct (N.testbit a n) end; reflexivity.

Lemma pm_0_r a : pmulx a 0 = 0.
Proof. induction a using N_bin_ind; auto; rewrite ?pm_double, ?pm_sdouble, IHa; reflexivity. Qed.
Lemma pm_1_l b : pmulx 1 b = b. Proof. reflexivity. Qed.
Lemma pm_lxor_r a b c : pmulx a (N.lxor b c) = N.lxor (pmulx a b) (pmulx a c).
Proof.
  induction a using N_bin_ind; auto; rewrite ?pm_double, ?pm_sdouble, IHa, N.shiftl_lxor; auto. xors.
Qed.
Lemma pm_shl_r a b : pmulx a (N.shiftl b 1) = N.shiftl (pmulx a b) 1.
Proof.
  induction a using N_bin_ind; auto; rewrite ?pm_double, ?pm_sdouble, IHa, ?N.shiftl_lxor; auto.
Qed.
Lemma shl1_double a : N.shiftl a 1 = N.double a.
Proof. destruct a; reflexivity. Qed.
Lemma sdouble_lxor a : N.succ_double a = N.lxor 1 (N.double a).
Proof. destruct a; reflexivity. Qed.
Lemma pm_comm a b : pmulx a b = pmulx b a.
Proof.
  revert b. induction a using N_bin_ind; intros b.
  - now rewrite pm_0_r.
  - rewrite pm_double, IHa, <- shl1_double. now rewrite pm_shl_r.
  - rewrite pm_sdouble, IHa, sdouble_lxor, pm_lxor_r, <- shl1_double, pm_shl_r. f_equal.
    clear. induction b using N_bin_ind; auto.
    + now rewrite pm_double, <- IHb, shl1_double.
    + rewrite pm_sdouble, <- IHb, shl1_double. now rewrite sdouble_lxor at 1.
Qed.
Lemma pm_lxor_l a b c : pmulx (N.lxor a b) c = N.lxor (pmulx a c) (pmulx b c).
Proof. rewrite pm_comm, pm_lxor_r, !(pm_comm c). auto. Qed.
Lemma pm_assoc a b c : pmulx (pmulx a b) c = pmulx a (pmulx b c).
Proof.
  induction a using N_bin_ind; auto.
  - rewrite !pm_double, shl1_double, pm_double. now rewrite IHa.
  - rewrite !pm_sdouble, pm_lxor_l, shl1_double, pm_double. now rewrite IHa.
Qed.
Lemma pm_1_r a : pmulx a 1 = a. Proof. now rewrite pm_comm. Qed.
Lemma pm_shl_l a b n : pmulx (N.shiftl a n) b = N.shiftl (pmulx a b) n.
Proof.
  induction n using N.peano_ind.
  - now rewrite !N.shiftl_0_r.
  - rewrite <- N.add_1_r, <- !N.shiftl_shiftl, shl1_double, pm_double. now rewrite IHn.
Qed.

(** Degree. *)
Lemma testbit_top a : a <> 0 -> N.testbit a (N.log2 a) = true.
Proof. intros. now apply N.bit_log2. Qed.
Lemma log2_shl1 a : a <> 0 -> N.log2 (N.shiftl a 1) = N.log2 a + 1.
Proof. intros. apply N.log2_shiftl; auto. Qed.
Lemma log2_lxor_lt a b : N.log2 a < N.log2 b -> N.log2 (N.lxor a b) = N.log2 b /\ N.lxor a b <> 0.
Proof.
  intros H. assert (Hb : b <> 0). { intros ->. simpl in H. lia. }
  assert (Ht : N.testbit (N.lxor a b) (N.log2 b) = true).
  { rewrite N.lxor_spec, (testbit_top b) by auto. rewrite N.bits_above_log2 by auto. reflexivity. }
  assert (Hn : N.lxor a b <> 0). { intros E. rewrite E, N.bits_0 in Ht. discriminate. }
  split; auto. apply N.le_antisymm.
  - destruct (N.le_gt_cases (N.log2 (N.lxor a b)) (N.log2 b)); auto.
    assert (Hx := testbit_top _ Hn). rewrite N.lxor_spec, !N.bits_above_log2 in Hx by lia. discriminate.
  - destruct (N.le_gt_cases (N.log2 b) (N.log2 (N.lxor a b))); auto.
    rewrite N.bits_above_log2 in Ht by auto. discriminate.
Qed.
Lemma pm_degree a b : a <> 0 -> b <> 0 -> N.log2 (pmulx a b) = N.log2 a + N.log2 b /\ pmulx a b <> 0.
Proof.
  intros Ha Hb. induction a using N_bin_ind; try congruence.
  - destruct (N.eq_dec a 0) as [->|Hna]; [destruct Ha; reflexivity|]. destruct (IHa Hna) as [E Hn].
    rewrite pm_double, log2_shl1, E by auto. rewrite <- shl1_double, log2_shl1 by auto. split; [lia|].
    rewrite shl1_double. destruct (pmulx a b); simpl; congruence.
  - destruct (N.eq_dec a 0) as [->|Hna].
    + rewrite pm_sdouble. cbn [pmulx N.shiftl]. rewrite N.lxor_0_r. split; auto.
    + destruct (IHa Hna) as [E Hn]. rewrite pm_sdouble.
      destruct (log2_lxor_lt b (N.shiftl (pmulx a b) 1)) as [El Hl].
      { rewrite log2_shl1, E by auto. lia. }
      split; auto. rewrite El, log2_shl1, E by auto.
      replace (N.log2 (N.succ_double a)) with (N.log2 a + 1). lia.
      rewrite N.succ_double_spec, N.log2_succ_double; lia.
Qed.
Lemma pm_lt a b m n : a < 2 ^ m -> b < 2 ^ n -> pmulx a b < 2 ^ (m + n).
Proof.
  intros Ha Hb. destruct (N.eq_dec a 0) as [->|Hna]. { simpl. pose proof (N.pow_nonzero 2 (m + n)). lia. }
  destruct (N.eq_dec b 0) as [->|Hnb]. { rewrite pm_0_r. pose proof (N.pow_nonzero 2 (m + n)). lia. }
  destruct (pm_degree a b Hna Hnb) as [E Hn]. apply N.log2_lt_pow2; [lia|]. rewrite E.
  apply N.log2_lt_pow2 in Ha; [|lia]. apply N.log2_lt_pow2 in Hb; lia.
Qed.
Lemma lxor_lt2 k a b : a < 2 ^ k -> b < 2 ^ k -> N.lxor a b < 2 ^ k.
Proof.
  intros Ha Hb. destruct (N.eq_dec (N.lxor a b) 0) as [->|Hn]. { lia. }
  apply N.log2_lt_pow2; [lia|]. eapply N.le_lt_trans; [apply N.log2_lxor|].
  destruct (N.eq_dec a 0) as [->|Ha0], (N.eq_dec b 0) as [->|Hb0].
  - simpl in Hn. congruence.
  - rewrite N.max_r by (simpl; lia). apply N.log2_lt_pow2; lia.
  - rewrite N.max_l by (simpl; lia). apply N.log2_lt_pow2; lia.
  - apply N.max_lub_lt; apply N.log2_lt_pow2; lia.
Qed.

(** Remainders are unique. *)
Lemma gfm_pos : gf_modulus <> 0. Proof. vm_compute. discriminate. Qed.
Lemma gfm_log : N.log2 gf_modulus = 128. Proof. reflexivity. Qed.
Lemma rem_unique x r1 r2 : is_rem x r1 -> is_rem x r2 -> r1 = r2.
Proof.
  intros [H1 [q1 E1]] [H2 [q2 E2]].
  assert (E : N.lxor r1 r2 = pmulx (N.lxor q1 q2) gf_modulus).
  { rewrite pm_lxor_l. assert (N.lxor r1 (pmulx q1 gf_modulus) = N.lxor r2 (pmulx q2 gf_modulus)) by congruence.
    apply N.lxor_eq. rewrite <- (N.lxor_nilpotent (N.lxor r1 (pmulx q1 gf_modulus))).
    rewrite H at 2. xors. }
  destruct (N.eq_dec (N.lxor q1 q2) 0) as [Z|Z].
  - rewrite Z in E. cbn [pmulx] in E. now apply N.lxor_eq.
  - destruct (pm_degree _ gf_modulus Z gfm_pos) as [D Dn]. rewrite <- E, gfm_log in D.
    pose proof (lxor_lt2 128 r1 r2 H1 H2) as Hlt.
    assert (N.log2 (N.lxor r1 r2) < 128). { apply N.log2_lt_pow2; [rewrite E; lia|auto]. } lia.
Qed.
Lemma rem_lxor x y r s : is_rem x r -> is_rem y s -> is_rem (N.lxor x y) (N.lxor r s).
Proof.
  intros [H1 [q1 E1]] [H2 [q2 E2]]. split. { now apply lxor_lt2. }
  exists (N.lxor q1 q2). rewrite pm_lxor_l, E1, E2. xors.
Qed.
Lemma rem_small x : x < 2 ^ 128 -> is_rem x x.
Proof. intros. split; auto. exists 0. simpl. now rewrite N.lxor_0_r. Qed.
Lemma rem_multiple q : is_rem (pmulx q gf_modulus) 0.
Proof. split. reflexivity. exists q. now rewrite N.lxor_0_l. Qed.
Lemma rem_pm a x r : is_rem x r -> forall s, is_rem (pmulx a r) s -> is_rem (pmulx a x) s.
Proof.
  intros [H1 [q1 E1]] s [H2 [q2 E2]]. split; auto.
  exists (N.lxor q2 (pmulx a q1)). rewrite E1, pm_lxor_r, E2, pm_lxor_l, pm_assoc. xors.
Qed.

(** ** Carry-less multiplication *)
Lemma testbit_land1 a : (N.land a 1 =? 1) = N.odd a.
Proof. destruct a as [|[p|p|]]; auto. all: destruct p; reflexivity. Qed.
Lemma pm_step a b : pmulx a b = N.lxor (if N.odd a then b else 0) (pmulx (N.shiftr a 1) (N.shiftl b 1)).
Proof.
  rewrite pm_shl_r. destruct a as [|[a|a|]]; cbn [N.odd]; auto.
  - simpl. now rewrite N.lxor_0_r.
Qed.
Lemma shl128_small b n : N.shiftl b n < 2 ^ 128 -> shl128 b n = N.shiftl b n.
Proof. intros. unfold shl128. now apply N.mod_small. Qed.
Lemma clmul_loop_ok fuel a b r c : (fuel <= 128)%nat -> b < 2 ^ 128 -> b = c * 2 ^ (128 - N.of_nat fuel) -> pmulx a b < 2 ^ 128 ->
  clmul_loop fuel a b r = Some (N.lxor r (pmulx a b)).
Proof.
  revert a b r c. induction fuel; intros a b r c Hf Hb Hd Hp.
  - assert (b = 0). { simpl in Hd. change (128 - N.of_nat 0) with 128 in Hd. destruct c; [auto|]. nia. }
    subst b. cbn [clmul_loop]. rewrite H. rewrite pm_0_r, N.lxor_0_r. reflexivity.
  - cbn [clmul_loop]. destruct (N.eqb_spec b 0) as [->|Hb0]. { now rewrite pm_0_r, N.lxor_0_r. }
    rewrite testbit_land1.
    assert (Hd2 : N.shiftl b 1 = c * 2 ^ (128 - N.of_nat fuel)).
    { rewrite N.shiftl_mul_pow2, Hd. replace (128 - N.of_nat fuel) with ((128 - N.of_nat (S fuel)) + 1) by lia.
      rewrite N.pow_add_r. lia. }
    assert (Hd3 : shl128 b 1 = (c mod 2 ^ N.of_nat fuel) * 2 ^ (128 - N.of_nat fuel)).
    { unfold shl128. rewrite Hd2. replace (2 ^ 128) with (2 ^ N.of_nat fuel * 2 ^ (128 - N.of_nat fuel)).
      rewrite N.mul_mod_distr_r; auto; apply N.pow_nonzero; lia.
      rewrite <- N.pow_add_r. f_equal. lia. }
    assert (Hpm : pmulx (N.shiftr a 1) (shl128 b 1) = pmulx (N.shiftr a 1) (N.shiftl b 1)).
    { destruct (N.eq_dec (N.shiftr a 1) 0) as [->|Hs]; auto. f_equal. apply shl128_small.
      assert (Ha : a <> 0) by (intros ->; auto).
      destruct (pm_degree a b Ha Hb0) as [D Dn].
      assert (N.log2 (pmulx a b) < 128) by (apply N.log2_lt_pow2; lia).
      assert (1 <= N.log2 a). { destruct (N.le_gt_cases 1 (N.log2 a)); auto. destruct a as [|[a|a|]]; simpl in *; try lia; congruence. }
      apply N.log2_lt_pow2. rewrite shl1_double. destruct b; simpl; lia. rewrite log2_shl1 by auto. lia. }
    rewrite (IHfuel _ _ _ (c mod 2 ^ N.of_nat fuel)); auto; try lia.
    + rewrite Hpm. f_equal. rewrite (pm_step a b). destruct (N.odd a); [xors|]. now rewrite N.lxor_0_l.
    + unfold shl128. apply N.mod_lt. discriminate.
    + rewrite Hpm. clear - Hp Hb. rewrite (pm_step a b) in Hp.
      replace (pmulx (N.shiftr a 1) (N.shiftl b 1)) with
        (N.lxor (if N.odd a then b else 0) (N.lxor (if N.odd a then b else 0) (pmulx (N.shiftr a 1) (N.shiftl b 1)))) by xors.
      apply lxor_lt2; auto. destruct (N.odd a); auto. reflexivity.
Qed.
Lemma clmul_loop_64 a b : a < 2 ^ 64 -> b < 2 ^ 64 -> clmul_loop 128 a b 0 = Some (pmulx a b).
Proof.
  intros Ha Hb. rewrite (clmul_loop_ok 128 a b 0 b).
  - now rewrite N.lxor_0_l.
  - lia.
  - eapply N.lt_trans; [exact Hb|reflexivity].
  - change (128 - N.of_nat 128) with 0. rewrite N.pow_0_r. lia.
  - change 128 with (64 + 64). now apply pm_lt.
Qed.
Lemma mod_pow2_bits a n k : N.testbit (a mod 2 ^ n) k = (k <? n) && N.testbit a k.
Proof.
  destruct (N.ltb_spec k n).
  - now rewrite N.mod_pow2_bits_low.
  - now rewrite N.mod_pow2_bits_high.
Qed.
Lemma mod_succ_bit a n : a mod 2 ^ (n + 1) = N.lxor (a mod 2 ^ n) (if N.testbit a n then 2 ^ n else 0).
Proof.
  apply N.bits_inj. intros k. rewrite N.lxor_spec, !mod_pow2_bits.
  destruct (N.eq_dec k n) as [->|Hk].
  - replace (n <? n + 1) with true by (symmetry; apply N.ltb_lt; lia). rewrite N.ltb_irrefl.
    destruct (N.testbit a n); simpl; auto. now rewrite N.pow2_bits_true.
  - replace (N.testbit (if N.testbit a n then 2 ^ n else 0) k) with false.
    2:{ destruct (N.testbit a n); rewrite ?N.bits_0; auto. rewrite N.pow2_bits_false; auto. }
    rewrite xorb_false_r. f_equal. destruct (N.ltb_spec k (n + 1)), (N.ltb_spec k n); auto; lia.
Qed.
Lemma pm_pow2 n b : pmulx (2 ^ n) b = N.shiftl b n.
Proof. replace (2 ^ n) with (N.shiftl 1 n) by (rewrite N.shiftl_mul_pow2; lia). now rewrite pm_shl_l. Qed.
Lemma clmul64_prefix a b n :
  fold_left (fun r i => if N.testbit a (N.of_nat i) then N.lxor r (N.shiftl b (N.of_nat i)) else r) (seq 0 n) 0
  = pmulx (a mod 2 ^ N.of_nat n) b.
Proof.
  induction n.
  - simpl. change (2 ^ N.of_nat 0) with 1. now rewrite N.mod_1_r.
  - rewrite seq_S, fold_left_app, IHn. cbn [fold_left Nat.add].
    replace (N.of_nat (S n)) with (N.of_nat n + 1) by lia. rewrite mod_succ_bit, pm_lxor_l.
    destruct (N.testbit a (N.of_nat n)). now rewrite pm_pow2. simpl. now rewrite N.lxor_0_r.
Qed.
Lemma clmul64_ok a b : a < 2 ^ 64 -> clmul64 a b = pmulx a b.
Proof. intros. unfold clmul64. rewrite clmul64_prefix. now rewrite N.mod_small. Qed.

(** Coefficients of the product. *)
Lemma xor_fold_map_seq_shift (f : nat -> bool) n : fold_right xorb false (map f (seq 1 n)) = fold_right xorb false (map (fun i => f (S i)) (seq 0 n)).
Proof. rewrite <- seq_shift, map_map. reflexivity. Qed.
Lemma conv_step a b k : conv a b (S k) = xorb (N.odd a && N.testbit b (N.of_nat (S k))) (conv (N.div2 a) b k).
Proof.
  unfold conv. cbn [seq map fold_right]. rewrite N.bit0_odd, Nat.sub_0_r. f_equal.
  change (fold_right xorb false (map (fun i => N.testbit a (N.of_nat i) && N.testbit b (N.of_nat (S k - i))) (seq 1 (S k))) = 
    fold_right xorb false (map (fun i => N.testbit (N.div2 a) (N.of_nat i) && N.testbit b (N.of_nat (k - i))) (seq 0 (S k)))).
  rewrite xor_fold_map_seq_shift. f_equal. apply map_ext. intros i. f_equal.
  rewrite N.div2_spec, N.shiftr_spec by lia. f_equal. lia.
Qed.
Lemma pm_div2 a b : pmulx a b = N.lxor (if N.odd a then b else 0) (N.double (pmulx (N.div2 a) b)).
Proof. rewrite (pm_step a b), pm_shl_r, shl1_double, <- N.div2_spec. auto. Qed.
Lemma pm_conv a b k : N.testbit (pmulx a b) (N.of_nat k) = conv a b k.
Proof.
  revert a. induction k; intros a.
  - rewrite pm_div2, N.lxor_spec. change (N.of_nat 0) with 0. rewrite !N.bit0_odd.
    replace (N.odd (N.double (pmulx (N.div2 a) b))) with false by (destruct (pmulx (N.div2 a) b); auto).
    unfold conv. cbn [seq map fold_right Nat.sub]. change (N.of_nat 0) with 0. rewrite !N.bit0_odd. destruct (N.odd a); auto.
  - rewrite conv_step, <- IHk, pm_div2, N.lxor_spec. f_equal.
    + destruct (N.odd a); auto. 
    + rewrite N.double_spec. replace (N.of_nat (S k)) with (N.succ (N.of_nat k)) by lia. apply N.testbit_even_succ. lia.
Qed.

(** ** Reduction *)
Lemma mod_lxor a b n : (N.lxor a b) mod 2 ^ n = N.lxor (a mod 2 ^ n) (b mod 2 ^ n).
Proof.
  apply N.bits_inj. intros k. rewrite N.lxor_spec, !mod_pow2_bits, N.lxor_spec. destruct (k <? n); auto.
Qed.
Lemma split_pow2 x n : x = N.lxor (N.shiftl (N.shiftr x n) n) (x mod 2 ^ n).
Proof.
  apply N.bits_inj. intros k. rewrite N.lxor_spec, mod_pow2_bits. destruct (N.ltb_spec k n).
  - rewrite N.shiftl_spec_low by auto. destruct (N.testbit x k); auto.
  - rewrite N.shiftl_spec_high, N.shiftr_spec by lia. replace (k - n + n) with k by lia. now rewrite xorb_false_r.
Qed.
Lemma join64_lxor hi lo : lo < 2 ^ 64 -> join64 hi lo = N.lxor (N.shiftl hi 64) lo.
Proof.
  intros. unfold join64. apply N.add_nocarry_lxor. apply N.bits_inj. intros k. rewrite N.land_spec, N.bits_0.
  destruct (N.ltb_spec k 64).
  - rewrite N.shiftl_spec_low by auto. auto.
  - rewrite <- (N.mod_small lo (2 ^ 64)), mod_pow2_bits by auto.
    replace (k <? 64) with false by (symmetry; now apply N.ltb_ge). apply andb_false_r.
Qed.
Lemma lor_shl hi lo : lo < 2 ^ 64 -> N.lor (N.shiftl hi 64) lo = N.lxor (N.shiftl hi 64) lo.
Proof.
  intros. apply N.bits_inj. intros k. rewrite N.lor_spec, N.lxor_spec. destruct (N.ltb_spec k 64).
  - rewrite N.shiftl_spec_low by auto. destruct (N.testbit lo k); auto.
  - rewrite <- (N.mod_small lo (2 ^ 64)), mod_pow2_bits by auto.
    replace (k <? 64) with false by (symmetry; now apply N.ltb_ge). simpl. now rewrite orb_false_r, xorb_false_r.
Qed.
Lemma shiftr_lt x m n : x < 2 ^ (m + n) -> N.shiftr x n < 2 ^ m.
Proof.
  intros. rewrite N.shiftr_div_pow2. apply N.div_lt_upper_bound. apply N.pow_nonzero; lia.
  now rewrite <- N.pow_add_r, N.add_comm.
Qed.
Lemma shiftl_lt x m n : x < 2 ^ m -> N.shiftl x n < 2 ^ (m + n).
Proof. intros. rewrite N.shiftl_mul_pow2, N.pow_add_r. apply N.mul_lt_mono_pos_r; auto. pose proof (N.pow_nonzero 2 n). lia. Qed.
Lemma lt_pow_le a m n : a < 2 ^ m -> m <= n -> a < 2 ^ n.
Proof. intros. eapply N.lt_le_trans; eauto. apply N.pow_le_mono_r; lia. Qed.

Definition fold_top (h : N) : N := N.lxor (N.lxor (N.shiftr h 127) (N.shiftr h 126)) (N.shiftr h 121).
Definition mul135 (x : N) : N := N.lxor (N.lxor (N.lxor x (shl128 x 1)) (shl128 x 2)) (shl128 x 7).

Lemma fold_top_lt h : h < 2 ^ 128 -> fold_top h < 2 ^ 7.
Proof.
  intros. unfold fold_top. apply lxor_lt2; [apply lxor_lt2|].
  - eapply lt_pow_le; [apply (shiftr_lt h 1 127); exact H|lia].
  - eapply lt_pow_le; [apply (shiftr_lt h 2 126); exact H|lia].
  - apply (shiftr_lt h 7 121); exact H.
Qed.
Lemma reduce_shape h x : h < 2 ^ 128 -> gf128_reduce h x = N.lxor (mul135 (N.lxor h (fold_top h))) x.
Proof.
  intros Hh. unfold gf128_reduce. assert (E3 : lo64 (N.shiftr h 64) = N.shiftr h 64).
  { unfold lo64. apply N.mod_small. apply (shiftr_lt h 64 64). exact Hh. }
  rewrite !E3, !N.shiftr_shiftr. change (64 + 63) with 127. change (64 + 62) with 126. change (64 + 57) with 121.
  set (d := N.lxor (N.lxor (N.lxor (lo64 h) (N.shiftr h 127)) (N.shiftr h 126)) (N.shiftr h 121)).
  assert (Ed : d = N.lxor (lo64 h) (fold_top h)) by (unfold d, fold_top; xors).
  assert (Hd : d < 2 ^ 64).
  { rewrite Ed. apply lxor_lt2. apply N.mod_lt; discriminate. eapply lt_pow_le; [now apply fold_top_lt|lia]. }
  rewrite shl128_small by (apply (shiftl_lt _ 64 64), (shiftr_lt h 64 64); exact Hh).
  rewrite lor_shl by auto. rewrite Ed, <- N.lxor_assoc. unfold lo64. rewrite <- (split_pow2 h 64). reflexivity.
Qed.
Lemma mul135_pm x : mul135 x = pmulx x 135 mod 2 ^ 128 \/ 2 ^ 128 <= x.
Proof.
  destruct (N.lt_ge_cases x (2 ^ 128)); [left|auto]. unfold mul135, shl128. rewrite pm_comm.
  change 135 with (N.lxor (N.lxor (N.lxor (2 ^ 0) (2 ^ 1)) (2 ^ 2)) (2 ^ 7)).
  rewrite !pm_lxor_l, !pm_pow2, !mod_lxor, N.shiftl_0_r. rewrite (N.mod_small x) by auto. reflexivity.
Qed.
Lemma top135 h : h < 2 ^ 128 -> N.shiftr (pmulx h 135) 128 = fold_top h.
Proof.
  intros. rewrite pm_comm. change 135 with (N.lxor (N.lxor (N.lxor (2 ^ 0) (2 ^ 1)) (2 ^ 2)) (2 ^ 7)).
  rewrite !pm_lxor_l, !pm_pow2, !N.shiftr_lxor.
  rewrite !N.shiftr_shiftl_r by lia. unfold fold_top.
  replace (N.shiftr h (128 - 0)) with 0. 2:{ symmetry. rewrite N.shiftr_div_pow2. now apply N.div_small. }
  rewrite N.lxor_0_l. reflexivity.
Qed.
Lemma reduce_ok h x : h < 2 ^ 128 -> x < 2 ^ 128 -> is_rem (N.lxor (N.shiftl h 128) x) (gf128_reduce h x).
Proof.
  intros Hh Hx. rewrite reduce_shape by auto. apply rem_lxor; [|now apply rem_small].
  pose proof (fold_top_lt h Hh) as Ht.
  assert (Hy : N.lxor h (fold_top h) < 2 ^ 128) by (apply lxor_lt2; auto; eapply lt_pow_le; eauto; lia).
  destruct (mul135_pm (N.lxor h (fold_top h))) as [E|]; [|lia]. split.
  { rewrite E. apply N.mod_lt. discriminate. }
  exists (N.lxor h (fold_top h)). rewrite E, pm_lxor_l, mod_lxor.
  set (t := fold_top h) in *.
  assert (E2 : pmulx h 135 = N.lxor (N.shiftl t 128) (pmulx h 135 mod 2 ^ 128)).
  { rewrite (split_pow2 (pmulx h 135) 128) at 1. now rewrite top135. }
  assert (Eg : forall y, pmulx y gf_modulus = N.lxor (N.shiftl y 128) (pmulx y 135)).
  { intros y. change gf_modulus with (N.lxor (2 ^ 128) 135). rewrite pm_lxor_r. now rewrite (pm_comm y (2 ^ 128)), pm_pow2. }
  rewrite Eg, N.shiftl_lxor, pm_lxor_l, E2.
  assert (Et : pmulx t 135 mod 2 ^ 128 = pmulx t 135).
  { apply N.mod_small. eapply lt_pow_le; [apply (pm_lt t 135 7 8)|]; auto; try reflexivity. lia. }
  rewrite Et, mod_lxor. rewrite (N.mod_mod (pmulx h 135)) by discriminate.
  replace (N.shiftl t 128 mod 2 ^ 128) with 0. 2:{ rewrite N.shiftl_mul_pow2, N.mod_mul; auto. discriminate. }
  rewrite N.lxor_0_l. xors.
Qed.

(** ** The shifts of the x86 code *)
Lemma join64_bits hi lo k : lo < 2 ^ 64 -> N.testbit (join64 hi lo) k = if k <? 64 then N.testbit lo k else N.testbit hi (k - 64).
Proof.
  intros H. rewrite join64_lxor by auto. rewrite N.lxor_spec. destruct (N.ltb_spec k 64).
  - rewrite N.shiftl_spec_low by auto. destruct (N.testbit lo k); auto.
  - rewrite N.shiftl_spec_high by lia. rewrite <- (N.mod_small lo (2 ^ 64)), mod_pow2_bits by auto.
    replace (k <? 64) with false by (symmetry; now apply N.ltb_ge). now rewrite xorb_false_r.
Qed.
Lemma shl_bits x n k : N.testbit (N.shiftl x n) k = (n <=? k) && N.testbit x (k - n).
Proof.
  destruct (N.leb_spec n k).
  - now rewrite N.shiftl_spec_high by lia.
  - now rewrite N.shiftl_spec_low by lia.
Qed.
Lemma shl128_bits x n k : N.testbit (shl128 x n) k = (k <? 128) && (n <=? k) && N.testbit x (k - n).
Proof. unfold shl128. rewrite mod_pow2_bits, shl_bits. now rewrite andb_assoc. Qed.
Lemma lo64_bits x k : N.testbit (lo64 x) k = (k <? 64) && N.testbit x k.
Proof. apply mod_pow2_bits. Qed.
Lemma hi64_bits x k : N.testbit (hi64 x) k = N.testbit x (k + 64).
Proof. unfold hi64. rewrite N.shiftr_spec by lia. auto. Qed.
Lemma shr_bits x n k : N.testbit (N.shiftr x n) k = N.testbit x (k + n).
Proof. apply N.shiftr_spec. lia. Qed.
Lemma lo64_lt x : lo64 x < 2 ^ 64. Proof. apply N.mod_lt. discriminate. Qed.
Lemma shl128_lt x n : shl128 x n < 2 ^ 128. Proof. apply N.mod_lt. discriminate. Qed.
Lemma high_bits x n k : x < 2 ^ n -> n <= k -> N.testbit x k = false.
Proof. intros. rewrite <- (N.mod_small x (2 ^ n)), mod_pow2_bits by auto. replace (k <? n) with false; auto. symmetry. now apply N.ltb_ge. Qed.

Ltac cmps := repeat match goal with
  | |- context [?a <? ?b] => destruct (N.ltb_spec a b); try lia
  | |- context [?a <=? ?b] => destruct (N.leb_spec a b); try lia
  end; cbn [andb orb xorb].

Lemma slli_si128_ok k v : 0 < k -> k < 64 -> v < 2 ^ 128 -> mm_slli_si128_k k v = shl128 v k.
Proof.
  intros H0 H1 Hv. apply N.bits_inj. intros j. unfold mm_slli_si128_k, mm_or, mm_slli_epi64, mm_srli_epi64, mm_bslli_8.
  rewrite N.lor_spec, !join64_bits, shl128_bits.
  2:{ eapply N.le_lt_trans; [|apply (lo64_lt (shl128 v 64))]. rewrite N.shiftr_div_pow2.
      apply N.div_le_upper_bound. apply N.pow_nonzero; lia. pose proof (N.pow_nonzero 2 (64 - k)). nia. }
  2:{ apply N.mod_lt. discriminate. }
  rewrite !mod_pow2_bits, !shl_bits, !shr_bits, !lo64_bits, !hi64_bits, !shl128_bits.
  cmps; rewrite ?orb_false_r; auto; try (f_equal; lia).
Qed.
Lemma reduce_x86_ok h x : h < 2 ^ 128 -> reduce_x86 h x = gf128_reduce h x.
Proof.
  intros Hh. rewrite reduce_shape by auto. unfold reduce_x86, mm_extract_epi64, mm_set_epi64x, mm_xor, hi64.
  rewrite !N.shiftr_shiftr. change (64 + 63) with 127. change (64 + 62) with 126. change (64 + 57) with 121.
  set (d := N.lxor (N.lxor (N.lxor (lo64 h) (N.shiftr h 127)) (N.shiftr h 126)) (N.shiftr h 121)).
  pose proof (fold_top_lt h Hh) as Ht.
  assert (Ed : d = N.lxor (lo64 h) (fold_top h)) by (unfold d, fold_top; xors).
  assert (Hd : d < 2 ^ 64).
  { rewrite Ed. apply lxor_lt2. apply N.mod_lt; discriminate. eapply lt_pow_le; [exact Ht|lia]. }
  rewrite join64_lxor by auto. rewrite Ed, <- N.lxor_assoc. unfold lo64. rewrite <- (split_pow2 h 64).
  assert (Hy : N.lxor h (fold_top h) < 2 ^ 128) by (apply lxor_lt2; auto; eapply lt_pow_le; eauto; lia).
  rewrite !slli_si128_ok by (try reflexivity; auto). reflexivity.
Qed.

(** ** Bytes and 128-bit values *)
Lemma le_value_app a b : le_value (a ++ b) = le_value a + 2 ^ (8 * N.of_nat (length a)) * le_value b.
Proof.
  induction a; cbn [app le_value length].
  - change (2 ^ (8 * N.of_nat 0)) with 1. lia.
  - rewrite IHa. replace (8 * N.of_nat (S (length a0))) with (8 + 8 * N.of_nat (length a0)) by lia.
    rewrite N.pow_add_r. change (2 ^ 8) with 256. lia.
Qed.
Lemma le_value16_lt v : length v = 16%nat -> bytes_ok v -> le_value v < 2 ^ 128.
Proof. intros L H. pose proof (le_value_lt v H) as Hv. rewrite L in Hv. exact Hv. Qed.
Lemma split16 v : length v = 16%nat -> bytes_ok v ->
  le_value (firstn 8 v) = lo64 (le_value v) /\ le_value (skipn 8 v) = hi64 (le_value v).
Proof.
  intros L H. pose proof (firstn_skipn 8 v) as E.
  assert (H1 : le_value (firstn 8 v) < 2 ^ 64).
  { pose proof (le_value_lt (firstn 8 v) (Forall_firstn _ 8 v H)) as Hx. rewrite firstn_length, L in Hx. exact Hx. }
  assert (Ev : le_value v = le_value (firstn 8 v) + 2 ^ 64 * le_value (skipn 8 v)).
  { rewrite <- E at 1. rewrite le_value_app, firstn_length, L. reflexivity. }
  unfold lo64, hi64. rewrite Ev, N.shiftr_div_pow2. split.
  - rewrite (N.mul_comm (2 ^ 64)), N.mod_add by discriminate. now rewrite N.mod_small.
  - rewrite (N.mul_comm (2 ^ 64)), N.div_add by discriminate. rewrite N.div_small by auto. lia.
Qed.
Lemma read64_0 v : length v = 16%nat -> bytes_ok v -> read64 v 0 = Ok (lo64 (le_value v)).
Proof. intros L H. unfold read64. rewrite L. simpl Nat.leb. cbn iota. simpl skipn. now rewrite (proj1 (split16 v L H)). Qed.
Lemma read64_1 v : length v = 16%nat -> bytes_ok v -> read64 v 1 = Ok (hi64 (le_value v)).
Proof.
  intros L H. unfold read64. rewrite L. simpl Nat.leb. cbn iota. simpl Nat.mul.
  rewrite firstn_all2 by (rewrite skipn_length, L; lia). now rewrite (proj2 (split16 v L H)).
Qed.
Lemma read128_ok v : length v = 16%nat -> read128 v = Ok (le_value v).
Proof. intros L. unfold read128. rewrite L. cbn [Nat.leb]. now rewrite firstn_all2 by lia. Qed.

(** The value computed by each of the three functions. *)
Definition cross (a b : N) : N := N.lxor (pmulx (lo64 a) (hi64 b)) (pmulx (hi64 a) (lo64 b)).
Definition gmul (a b : N) : N :=
  gf128_reduce (N.lxor (pmulx (hi64 a) (hi64 b)) (N.shiftr (cross a b) 64)) (N.lxor (pmulx (lo64 a) (lo64 b)) (shl128 (cross a b) 64)).

Lemma hi64_lt x : x < 2 ^ 128 -> hi64 x < 2 ^ 64.
Proof. intros. apply (shiftr_lt x 64 64). exact H. Qed.
Lemma cross_lt a b : a < 2 ^ 128 -> b < 2 ^ 128 -> cross a b < 2 ^ 128.
Proof.
  intros. unfold cross. apply lxor_lt2; apply (pm_lt _ _ 64 64); auto using lo64_lt, hi64_lt.
Qed.
Lemma gmul_high_lt a b : a < 2 ^ 128 -> b < 2 ^ 128 -> N.lxor (pmulx (hi64 a) (hi64 b)) (N.shiftr (cross a b) 64) < 2 ^ 128.
Proof.
  intros Ha Hb. apply lxor_lt2. apply (pm_lt _ _ 64 64); auto using hi64_lt.
  eapply lt_pow_le; [apply (shiftr_lt (cross a b) 64 64); now apply cross_lt|lia].
Qed.
Lemma gmul_rem a b : a < 2 ^ 128 -> b < 2 ^ 128 -> is_rem (pmulx a b) (gmul a b).
Proof.
  intros Ha Hb.
  assert (Hc := cross_lt a b Ha Hb).
  unfold gmul. set (hi := N.lxor (pmulx (hi64 a) (hi64 b)) (N.shiftr (cross a b) 64)).
  set (lo := N.lxor (pmulx (lo64 a) (lo64 b)) (shl128 (cross a b) 64)).
  replace (pmulx a b) with (N.lxor (N.shiftl hi 128) lo).
  { apply reduce_ok. now apply gmul_high_lt.
    apply lxor_lt2. apply (pm_lt _ _ 64 64); auto using lo64_lt. apply shl128_lt. }
  assert (E : forall x, x = N.lxor (N.shiftl (hi64 x) 64) (lo64 x)) by (intros; apply split_pow2).
  rewrite (E a) at 1. rewrite (E b) at 1.
  rewrite pm_lxor_l, !pm_lxor_r, !pm_shl_l, !(pm_comm _ (N.shiftl (hi64 b) 64)), !pm_shl_l, !(pm_comm (hi64 b)).
  rewrite N.shiftl_shiftl. change (64 + 64) with 128.
  assert (Ec : N.shiftl (cross a b) 64 = N.lxor (N.shiftl (N.shiftr (cross a b) 64) 128) (shl128 (cross a b) 64)).
  { rewrite (split_pow2 (N.shiftl (cross a b) 64) 128) at 1. f_equal.
    rewrite N.shiftr_shiftl_r by lia. reflexivity. }
  unfold hi, lo. rewrite N.shiftl_lxor. 
  transitivity (N.lxor (N.lxor (N.shiftl (pmulx (hi64 a) (hi64 b)) 128) (pmulx (lo64 a) (lo64 b))) (N.shiftl (cross a b) 64)).
  { rewrite Ec. xors. }
  unfold cross. rewrite N.shiftl_lxor. xors.
Qed.
Lemma gmul_lt a b : a < 2 ^ 128 -> b < 2 ^ 128 -> gmul a b < 2 ^ 128.
Proof. intros Ha Hb. apply (gmul_rem a b Ha Hb). Qed.

Lemma xor128_ok v x : length v = 16%nat -> xor128 v x = Ok (le_bytes 16 (N.lxor (le_value v) x)).
Proof.
  intros L. unfold xor128. rewrite read128_ok by auto. cbn [obind]. unfold write128. rewrite L. cbn [Nat.leb].
  rewrite skipn_all2 by lia. now rewrite app_nil_r.
Qed.
Lemma clmul_generic_ok la lb a b x y : read64 a la = Ok x -> read64 b lb = Ok y -> x < 2 ^ 64 -> y < 2 ^ 64 ->
  clmul_generic la lb a b = Ok (pmulx x y).
Proof. intros Ha Hb Hx Hy. unfold clmul_generic. rewrite Ha, Hb. cbn [obind]. now rewrite clmul_loop_64. Qed.
Lemma mul_acc_generic_ok p acc a b : length acc = 16%nat -> length a = 16%nat -> length b = 16%nat -> bytes_ok a -> bytes_ok b ->
  mul_acc_generic p acc a b = Ok (le_bytes 16 (N.lxor (le_value acc) (gmul (le_value a) (le_value b)))).
Proof.
  intros L La Lb Ha Hb. unfold mul_acc_generic, debug_assert. rewrite La, Lb. cbn [Nat.mul Nat.add Nat.eqb assert_].
  replace (if is_debug p then Ok tt else Ok tt) with (Ok tt : outcome unit) by (destruct (is_debug p); auto). cbn [obind].
  pose proof (le_value16_lt a La Ha) as Hva. pose proof (le_value16_lt b Lb Hb) as Hvb.
  rewrite !(clmul_generic_ok _ _ _ _ _ _ (read64_0 a La Ha) (read64_0 b Lb Hb)) by auto using lo64_lt.
  rewrite !(clmul_generic_ok _ _ _ _ _ _ (read64_1 a La Ha) (read64_1 b Lb Hb)) by auto using hi64_lt.
  rewrite !(clmul_generic_ok _ _ _ _ _ _ (read64_0 a La Ha) (read64_1 b Lb Hb)) by auto using lo64_lt, hi64_lt.
  rewrite !(clmul_generic_ok _ _ _ _ _ _ (read64_1 a La Ha) (read64_0 b Lb Hb)) by auto using lo64_lt, hi64_lt.
  cbn [obind]. now rewrite xor128_ok.
Qed.
Lemma mul_acc_x86_ok acc a b : length acc = 16%nat -> length a = 16%nat -> length b = 16%nat -> bytes_ok a -> bytes_ok b ->
  mul_acc_x86 acc a b = Ok (le_bytes 16 (N.lxor (le_value acc) (gmul (le_value a) (le_value b)))).
Proof.
  intros L La Lb Ha Hb. unfold mul_acc_x86. rewrite !read128_ok by auto. cbn [obind].
  pose proof (le_value16_lt a La Ha) as Hva. pose proof (le_value16_lt b Lb Hb) as Hvb.
  unfold mm_clmulepi64. change (N.testbit 0 0) with false. change (N.testbit 0 4) with false.
  change (N.testbit 17 0) with true. change (N.testbit 17 4) with true. change (N.testbit 1 0) with true.
  change (N.testbit 1 4) with false. change (N.testbit 16 0) with false. change (N.testbit 16 4) with true. cbn iota.
  rewrite !clmul64_ok by auto using lo64_lt, hi64_lt. unfold mm_xor, mm_bslli_8, mm_bsrli_8.
  rewrite (N.lxor_comm (pmulx (hi64 (le_value a)) (lo64 (le_value b)))).
  change (N.lxor (pmulx (lo64 (le_value a)) (hi64 (le_value b))) (pmulx (hi64 (le_value a)) (lo64 (le_value b)))) with (cross (le_value a) (le_value b)).
  rewrite reduce_x86_ok by (now apply gmul_high_lt).
  change (gf128_reduce (N.lxor (pmulx (hi64 (le_value a)) (hi64 (le_value b))) (N.shiftr (cross (le_value a) (le_value b)) 64))
    (N.lxor (pmulx (lo64 (le_value a)) (lo64 (le_value b))) (shl128 (cross (le_value a) (le_value b)) 64)))
   with (gmul (le_value a) (le_value b)).
  set (g := gmul (le_value a) (le_value b)). assert (Hg : g < 2 ^ 128) by (now apply gmul_lt).
  unfold mm_extract_epi64. rewrite shl128_small by (apply (shiftl_lt _ 64 64); now apply hi64_lt).
  rewrite lor_shl by apply lo64_lt. unfold hi64, lo64. rewrite <- split_pow2. now rewrite xor128_ok.
Qed.
Lemma mul_acc_arm64_ok p acc a b : length acc = 16%nat -> length a = 16%nat -> length b = 16%nat -> bytes_ok a -> bytes_ok b ->
  mul_acc_arm64 p acc a b = Ok (le_bytes 16 (N.lxor (le_value acc) (gmul (le_value a) (le_value b)))).
Proof.
  intros L La Lb Ha Hb. unfold mul_acc_arm64, debug_assert. rewrite La, Lb. cbn [Nat.mul Nat.add Nat.eqb assert_].
  replace (if is_debug p then Ok tt else Ok tt) with (Ok tt : outcome unit) by (destruct (is_debug p); auto). cbn [obind].
  rewrite !read128_ok by auto. cbn [obind].
  pose proof (le_value16_lt a La Ha) as Hva. pose proof (le_value16_lt b Lb Hb) as Hvb.
  unfold lane, p64x2_of, p128_of, vextq1. cbn [fst snd].
  rewrite !clmul64_ok by auto using lo64_lt, hi64_lt.
  change (N.lxor (pmulx (lo64 (le_value a)) (hi64 (le_value b))) (pmulx (hi64 (le_value a)) (lo64 (le_value b)))) with (cross (le_value a) (le_value b)).
  rewrite xor128_ok by auto. unfold gmul.
  replace (join64 0 (hi64 (cross (le_value a) (le_value b)))) with (N.shiftr (cross (le_value a) (le_value b)) 64) by reflexivity.
  replace (join64 (lo64 (cross (le_value a) (le_value b))) 0) with (shl128 (cross (le_value a) (le_value b)) 64); auto.
  rewrite join64_lxor by reflexivity. rewrite N.lxor_0_r. apply N.bits_inj. intros k.
  rewrite shl_bits, shl128_bits, lo64_bits. cmps; auto.
Qed.

Lemma ap_mul_acc_x86_ok acc a b : length acc = 16%nat -> length a = 16%nat -> length b = 16%nat -> bytes_ok a -> bytes_ok b ->
  ap_mul_acc_x86 acc a b = Ok (le_bytes 16 (N.lxor (le_value acc) (gmul (le_value a) (le_value b)))).
Proof.
  intros L La Lb Ha Hb. unfold ap_mul_acc_x86. rewrite !read128_ok by auto. cbn [obind].
  pose proof (le_value16_lt a La Ha) as Hva. pose proof (le_value16_lt b Lb Hb) as Hvb.
  unfold mm_clmulepi64. change (N.testbit 0 0) with false. change (N.testbit 0 4) with false.
  change (N.testbit 17 0) with true. change (N.testbit 17 4) with true. change (N.testbit 1 0) with true.
  change (N.testbit 1 4) with false. change (N.testbit 16 0) with false. change (N.testbit 16 4) with true. cbn iota.
  rewrite !clmul64_ok by auto using lo64_lt, hi64_lt. unfold mm_xor, mm_bslli_8, mm_bsrli_8.
  rewrite (N.lxor_comm (pmulx (hi64 (le_value a)) (lo64 (le_value b)))).
  change (N.lxor (pmulx (lo64 (le_value a)) (hi64 (le_value b))) (pmulx (hi64 (le_value a)) (lo64 (le_value b)))) with (cross (le_value a) (le_value b)).
  rewrite reduce_x86_ok by (now apply gmul_high_lt). now rewrite xor128_ok.
Qed.
Lemma ap_mul_acc_arm64_ok acc a b : length acc = 16%nat -> length a = 16%nat -> length b = 16%nat -> bytes_ok a -> bytes_ok b ->
  ap_mul_acc_arm64 acc a b = Ok (le_bytes 16 (N.lxor (le_value acc) (gmul (le_value a) (le_value b)))).
Proof.
  intros L La Lb Ha Hb. rewrite <- (mul_acc_arm64_ok Release) by auto. reflexivity.
Qed.

(** ** The quotient ring *)
Lemma gmul_unique a b r : a < 2 ^ 128 -> b < 2 ^ 128 -> is_rem (pmulx a b) r -> gmul a b = r.
Proof. intros Ha Hb H. eapply rem_unique; [|exact H]. now apply gmul_rem. Qed.
Lemma gmul_comm a b : a < 2 ^ 128 -> b < 2 ^ 128 -> gmul a b = gmul b a.
Proof. intros. apply gmul_unique; auto. rewrite pm_comm. now apply gmul_rem. Qed.
Lemma gmul_lxor_l a b c : a < 2 ^ 128 -> b < 2 ^ 128 -> c < 2 ^ 128 -> gmul (N.lxor a b) c = N.lxor (gmul a c) (gmul b c).
Proof.
  intros. apply gmul_unique; auto using lxor_lt2. rewrite pm_lxor_l. apply rem_lxor; now apply gmul_rem.
Qed.
Lemma gmul_lxor_r a b c : a < 2 ^ 128 -> b < 2 ^ 128 -> c < 2 ^ 128 -> gmul a (N.lxor b c) = N.lxor (gmul a b) (gmul a c).
Proof.
  intros. apply gmul_unique; auto using lxor_lt2. rewrite pm_lxor_r. apply rem_lxor; now apply gmul_rem.
Qed.
Lemma gmul_assoc a b c : a < 2 ^ 128 -> b < 2 ^ 128 -> c < 2 ^ 128 -> gmul (gmul a b) c = gmul a (gmul b c).
Proof.
  intros Ha Hb Hc. apply gmul_unique; auto using gmul_lt.
  assert (H1 : is_rem (pmulx c (pmulx a b)) (gmul a (gmul b c))).
  { rewrite pm_comm, pm_assoc. apply (rem_pm a _ (gmul b c)). now apply gmul_rem. apply gmul_rem; auto using gmul_lt. }
  eapply eq_ind with (P := fun z => is_rem (pmulx (gmul a b) c) z).
  { rewrite pm_comm. apply gmul_rem; auto using gmul_lt. }
  eapply rem_unique; [|exact H1]. apply (rem_pm c _ (gmul a b)). now apply gmul_rem. apply gmul_rem; auto using gmul_lt.
Qed.
Lemma gmul_1 a : a < 2 ^ 128 -> gmul a 1 = a.
Proof. intros. apply gmul_unique; auto. reflexivity. rewrite pm_1_r. now apply rem_small. Qed.
Lemma gmul_0_l a : a < 2 ^ 128 -> gmul 0 a = 0.
Proof. intros. apply gmul_unique; auto. reflexivity. apply rem_small. reflexivity. Qed.
Lemma gmul_0_r a : a < 2 ^ 128 -> gmul a 0 = 0.
Proof. intros. rewrite gmul_comm; auto; reflexivity. Qed.

(** ** Field elements as byte strings *)
Definition elem (a : bytes) : Prop := length a = 16%nat /\ bytes_ok a.

Lemma elem_lt a : elem a -> le_value a < 2 ^ 128.
Proof. intros []. now apply le_value16_lt. Qed.
Lemma elem_bytes x : elem (le_bytes 16 x).
Proof. split. apply le_bytes_length. apply le_bytes_ok. Qed.
Lemma le_value16 x : x < 2 ^ 128 -> le_value (le_bytes 16 x) = x.
Proof. intros. apply le_value_bytes. exact H. Qed.
Lemma elem_eta a : elem a -> le_bytes 16 (le_value a) = a.
Proof. intros [L H]. rewrite <- L. now apply le_bytes_value. Qed.
Lemma le_value_xor a b : length a = length b -> bytes_ok a -> bytes_ok b ->
  le_value (zipWith N.lxor a b) = N.lxor (le_value a) (le_value b) /\ bytes_ok (zipWith N.lxor a b).
Proof.
  revert b. induction a as [|x a IH]; intros [|y b] L Ha Hb; try discriminate. { split; auto. }
  inversion Ha; inversion Hb; subst. destruct (IH b) as [E Hx]; [now injection L|auto..]. cbn [zipWith le_value]. rewrite E.
  assert (S : forall u v, u < 256 -> u + 256 * v = N.lxor (N.shiftl v 8) u).
  { intros u v Hu. rewrite N.add_comm, N.mul_comm. change 256 with (2 ^ 8). rewrite <- N.shiftl_mul_pow2.
    apply N.add_nocarry_lxor. apply N.bits_inj. intros k. rewrite N.land_spec, N.bits_0, shl_bits.
    destruct (N.leb_spec 8 k); auto. rewrite (high_bits u 8) by auto. now rewrite andb_false_r. }
  assert (Hxy : N.lxor x y < 256) by (apply (lxor_lt2 8); auto).
  split; [|constructor; auto]. rewrite !S by auto. rewrite N.shiftl_lxor. xors.
Qed.
