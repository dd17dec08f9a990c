(** Apricot: the computations of both parties. *)
From Coq Require Import List NArith Bool Lia Arith.
From Verif Require Import Base MUtil MWires MBitMatrix MPoly MPar MBincode MProc MOt MApricot.
From Verif Require Import SpecUtil SpecBitMatrix SpecPoly SpecOt PBase PUtil PBitMatrix PPoly PPar POt.
Import ListNotations.
Open Scope N_scope.

(** ** Helpers *)
Lemma debug_ok p b : b = true -> debug_assert p b = Ok tt.
Proof. intros ->. now destruct p. Qed.
Lemma xor_inplace_ok p d r : length d = length r -> xor_inplace p d r = Ok (zipWith N.lxor d r).
Proof.
  intros L. unfold xor_inplace. rewrite debug_ok by (apply Nat.eqb_eq; lia). cbn [obind].
  rewrite (proj2 (Nat.ltb_ge _ _)) by lia. rewrite skipn_all2 by lia. now rewrite app_nil_r.
Qed.
Lemma ap_xor_ok p d l r : length l = length r -> length l = length d -> ap_xor p d l r = Ok (zipWith N.lxor l r).
Proof.
  intros L M. unfold ap_xor. rewrite !debug_ok by (apply Nat.eqb_eq; lia). cbn [obind].
  rewrite !(proj2 (Nat.ltb_ge _ _)) by lia. cbn [orb]. rewrite skipn_all2 by lia. now rewrite app_nil_r.
Qed.
Lemma zip_length a b : length a = length b -> length (zipWith N.lxor a b) = length a.
Proof. intros H. rewrite zipWith_length. lia. Qed.
Lemma zip_zeros_l b : zipWith N.lxor (repeat 0 (length b)) b = b.
Proof. induction b as [|x b IH]; cbn; auto. now rewrite IH. Qed.
Lemma bit_of_zip a b j : length a = length b -> bit_of (zipWith N.lxor a b) j = xorb (bit_of a j) (bit_of b j).
Proof.
  intros L. unfold bit_of. destruct (Nat.lt_ge_cases (j / 8) (length a)).
  - rewrite (zipWith_nth _ _ _ _ 0 0 0) by lia. apply N.lxor_spec.
  - rewrite !nth_overflow by (rewrite ?zipWith_length; lia). now rewrite N.bits_0.
Qed.
Lemma zeros_ok n : bytes_ok (repeat 0 n).
Proof. apply Forall_repeat. red. lia. Qed.
Lemma fbit_frow w v i j : (j < 8 * w)%nat -> fbit w v i j = bit_of (frow w v i) j.
Proof.
  intros H. unfold fbit, bit_of, frow. assert (j / 8 < w)%nat by (apply Nat.div_lt_upper_bound; lia).
  rewrite nth_firstn, nth_skipn by lia. reflexivity.
Qed.
Lemma array_from_slice_ok v : length v = 32%nat -> array_from_slice v = Ok v.
Proof. intros L. unfold array_from_slice. rewrite L. cbn [Nat.leb]. now rewrite firstn_all2 by lia. Qed.

Lemma foldM_preserve {A S} (f : S -> A -> outcome S) (I : S -> Prop) l : forall s s',
  (forall s a s', In a l -> I s -> f s a = Ok s' -> I s') -> foldM f l s = Ok s' -> I s -> I s'.
Proof.
  induction l as [|a l IH]; intros s s' H E Hs; cbn in E.
  - congruence.
  - destruct (f s a) as [s1| | |] eqn:E1; try discriminate. cbn in E.
    eapply IH; [|exact E|]. { intros; eapply H; eauto. now right. } eapply H; eauto. now left.
Qed.

(** Rows beyond the transposed part keep the initial value. *)
Lemma transpose_matrix_rest source target w c t k : transpose_matrix source target (8 * w) c w = Ok t ->
  (w * (8 * c) <= k)%nat -> nth k t 0 = nth k target 0.
Proof.
  intros E Hk. revert E. unfold transpose_matrix. intros E.
  apply (foldM_preserve _ (fun t => nth k t 0 = nth k target 0) _ _ _ ) in E; auto.
  clear E. intros s r s' Hr Hs E. apply in_seq in Hr.
  refine (foldM_preserve _ (fun t => nth k t 0 = nth k target 0) _ _ _ _ E Hs).
  clear - Hr Hk. intros s col s' Hc Hs E. apply in_seq in Hc.
  destruct (idx source (index_1d r col c)) as [b| | |]; try discriminate. cbn [obind] in E.
  refine (foldM_preserve _ (fun t => nth k t 0 = nth k target 0) _ _ _ _ E Hs).
  clear - Hr Hc Hk. intros s bit s' Hb Hs E. apply in_seq in Hb. cbv zeta in E.
  unfold or_at in E. destruct (idx s _) as [o| | |]; try discriminate. cbn [obind] in E.
  unfold set_idx in E. destruct (Nat.ltb _ _); try discriminate. injection E as <-.
  rewrite nth_set_nth_other; auto. unfold index_1d.
  assert (r / 8 < w)%nat by (apply Nat.div_lt_upper_bound; lia).
  assert (w * (col * 8 + bit) + w <= w * (8 * c))%nat by (rewrite <- Nat.mul_succ_r; apply Nat.mul_le_mono_l; lia).
  change (fst (Nat.divmod r 7 0 7)) with (r / 8)%nat. lia.
Qed.

Lemma ap_mul_acc_ok a acc x y : length acc = 16%nat -> elem x -> elem y ->
  ap_mul_acc a acc x y = Ok (le_bytes 16 (N.lxor (le_value acc) (gmul (le_value x) (le_value y)))).
Proof.
  intros L [Lx Hx] [Ly Hy]. destruct a; [now apply ap_mul_acc_x86_ok|now apply ap_mul_acc_arm64_ok].
Qed.

(** Exclusive-or sums. *)
Fixpoint xsum (f : nat -> N) (n : nat) : N := match n with O => 0 | S n => N.lxor (xsum f n) (f n) end.
Lemma xsum_lt f n : (forall i, (i < n)%nat -> f i < 2 ^ 128) -> xsum f n < 2 ^ 128.
Proof.
  induction n as [|n IH]; intros H; cbn [xsum]; [lia|]. apply lxor_lt2; [apply IH; auto|apply H; lia].
Qed.
Lemma xsum_ext f g n : (forall i, (i < n)%nat -> f i = g i) -> xsum f n = xsum g n.
Proof. induction n as [|n IH]; intros H; cbn; auto. rewrite IH by auto. now rewrite H by lia. Qed.
Lemma xsum_lxor f g n : xsum (fun i => N.lxor (f i) (g i)) n = N.lxor (xsum f n) (xsum g n).
Proof.
  induction n as [|n IH]; cbn; auto. rewrite IH.
  rewrite !N.lxor_assoc. f_equal. rewrite <- !N.lxor_assoc. f_equal. apply N.lxor_comm.
Qed.
Lemma xsum_gmul f d n : d < 2 ^ 128 -> (forall i, (i < n)%nat -> f i < 2 ^ 128) ->
  xsum (fun i => gmul (f i) d) n = gmul (xsum f n) d.
Proof.
  intros Hd. induction n as [|n IH]; intros H; cbn [xsum].
  - now rewrite gmul_0_l.
  - rewrite IH by auto. rewrite gmul_lxor_l; auto. apply xsum_lt; auto.
Qed.
Lemma xsum_0 n : xsum (fun _ => 0) n = 0.
Proof. induction n as [|n IH]; cbn; auto. now rewrite IH. Qed.

Definition rowv (v : bytes) (i : nat) : N := le_value (frow 16 v i).
Lemma frow_elem v i h : length v = (16 * h)%nat -> bytes_ok v -> (i < h)%nat -> elem (frow 16 v i).
Proof. intros L H Hi. split; [apply frow_length; lia|now apply frow_ok]. Qed.
Lemma rowv_lt v i h : length v = (16 * h)%nat -> bytes_ok v -> (i < h)%nat -> rowv v i < 2 ^ 128.
Proof. intros L H Hi. destruct (frow_elem v i h L H Hi). now apply le_value16_lt. Qed.
Lemma zeros16 : le_bytes 16 0 = repeat 0 16.
Proof. reflexivity. Qed.

Lemma row_sum_ok a m chi h : length m = (16 * h)%nat -> bytes_ok m -> length chi = (16 * h)%nat -> bytes_ok chi ->
  row_sum a m chi 16 h = Ok (le_bytes 16 (xsum (fun i => gmul (rowv m i) (rowv chi i)) h)).
Proof.
  intros Lm Hm Lc Hc. unfold row_sum.
  assert (K : forall k, (k <= h)%nat -> foldM (fun acc i => let* row := vector_row m i 16 in
    let* chi_row := vector_row chi i 16 in ap_mul_acc a acc row chi_row) (seq 0 k) (repeat 0 16) =
    Ok (le_bytes 16 (xsum (fun i => gmul (rowv m i) (rowv chi i)) k))).
  { induction k as [|k IH]; intros Hk. { reflexivity. }
    rewrite seq_S, foldM_app, IH by lia. cbn [obind foldM Nat.add].
    rewrite !vector_row_ok by lia. cbn [obind].
    rewrite ap_mul_acc_ok by (try apply le_bytes_length; eapply frow_elem; eauto). cbn [obind].
    do 2 f_equal. cbn [xsum]. rewrite le_value16. { reflexivity. }
    apply xsum_lt. intros i Hi. apply gmul_lt; eapply rowv_lt; eauto; lia. }
  now apply K.
Qed.

Lemma receiver_sums_ok p a t chi x h : length t = (16 * h)%nat -> bytes_ok t -> length chi = (16 * h)%nat -> bytes_ok chi ->
  length x = h ->
  receiver_sums p a t chi x 16 h = Ok (le_bytes 16 (xsum (fun i => if nth i x false then rowv chi i else 0) h),
    le_bytes 16 (xsum (fun i => gmul (rowv t i) (rowv chi i)) h)).
Proof.
  intros Lt Ht Lc Hc Lx. unfold receiver_sums.
  match goal with |- foldM ?f _ _ = _ => assert (K : forall k, (k <= h)%nat -> foldM f (seq 0 k) (repeat 0 16, repeat 0 16) =
    Ok (le_bytes 16 (xsum (fun i => if nth i x false then rowv chi i else 0) k),
    le_bytes 16 (xsum (fun i => gmul (rowv t i) (rowv chi i)) k))) end.
  { induction k as [|k IH]; intros Hk. { reflexivity. }
    rewrite seq_S, foldM_app, IH by lia. cbn [obind foldM Nat.add].
    rewrite !vector_row_ok by lia. rewrite (idx_lt x k false) by lia. cbn [obind].
    assert (E : (if nth k x false then xor_inplace p (le_bytes 16 (xsum (fun i => if nth i x false then rowv chi i else 0) k)) (frow 16 chi k)
      else Ok (le_bytes 16 (xsum (fun i => if nth i x false then rowv chi i else 0) k))) =
      Ok (le_bytes 16 (xsum (fun i => if nth i x false then rowv chi i else 0) (S k)))).
    { cbn [xsum]. assert (X : xsum (fun i => if nth i x false then rowv chi i else 0) k < 2 ^ 128).
      { apply xsum_lt. intros i Hi. destruct (nth i x false); [eapply rowv_lt; eauto; lia|lia]. }
      destruct (nth k x false); [|now rewrite N.lxor_0_r].
      destruct (frow_elem chi k h Lc Hc ltac:(lia)) as [L1 H1].
      rewrite xor_inplace_ok by (rewrite le_bytes_length; auto). f_equal.
      destruct (le_value_xor (le_bytes 16 (xsum (fun i => if nth i x false then rowv chi i else 0) k)) (frow 16 chi k)) as [V B].
      { now rewrite le_bytes_length, L1. } { apply le_bytes_ok. } { exact H1. }
      rewrite le_value16 in V by exact X. change (rowv chi k) with (le_value (frow 16 chi k)). rewrite <- V.
      rewrite elem_eta; auto. split; auto. rewrite zip_length; rewrite le_bytes_length; auto. }
    rewrite E. cbn [obind].
    rewrite ap_mul_acc_ok by (try apply le_bytes_length; eapply frow_elem; eauto). cbn [obind].
    do 3 f_equal. cbn [xsum]. rewrite le_value16. { reflexivity. }
    apply xsum_lt. intros i Hi. apply gmul_lt; eapply rowv_lt; eauto; lia. }
  now apply K.
Qed.

Lemma eq_loop_eq a : forall b, length a = length b -> eq_loop a b = Ok (bytes_eqb a b).
Proof.
  induction a as [|x a IH]; intros [|y b] L; cbn in L; try discriminate; auto.
  cbn [eq_loop]. destruct (N.eqb_spec x y) as [->|N].
  - rewrite IH by lia. cbn. now rewrite N.eqb_refl.
  - cbn. now rewrite (proj2 (N.eqb_neq _ _) N).
Qed.
Lemma sender_check_ok p a q delta x t : q < 2 ^ 128 -> x < 2 ^ 128 -> t < 2 ^ 128 -> elem delta ->
  sender_check p a (le_bytes 16 q) delta (le_bytes 16 x) (le_bytes 16 t) 16 =
  if t =? N.lxor q (gmul x (le_value delta)) then Ok tt else Err ECorrelation.
Proof.
  intros Hq Hx Ht Hd. unfold sender_check. rewrite !le_bytes_length, !debug_ok by reflexivity. cbn [obind].
  rewrite ap_mul_acc_ok; [|apply le_bytes_length|split; [apply le_bytes_length|apply le_bytes_ok]|exact Hd].
  cbn [obind]. unfold ap_eq. rewrite !le_bytes_length, debug_ok by reflexivity. cbn [obind].
  rewrite eq_loop_eq by now rewrite !le_bytes_length. cbn [obind]. rewrite !le_value16 by auto.
  assert (Hd' : le_value delta < 2 ^ 128) by (destruct Hd; now apply le_value16_lt).
  destruct (N.eqb_spec t (N.lxor q (gmul x (le_value delta)))) as [->|N].
  - now rewrite bytes_eqb_refl.
  - rewrite (proj2 (bytes_eqb_neq _ _)); auto. intros E. apply N. apply (f_equal le_value) in E.
    rewrite !le_value16 in E; auto. apply lxor_lt2; auto. now apply gmul_lt.
Qed.
