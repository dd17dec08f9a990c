(** Proofs about bit matrices. *)
From Coq Require Import List NArith Bool Arith Lia.
From Verif Require Import Base MUtil MBitMatrix SpecUtil SpecBitMatrix PBase PUtil.
Import ListNotations.
Open Scope N_scope.

Lemma land1_bit s i : N.land (N.shiftr s i) 1 = if N.testbit s i then 1 else 0.
Proof.
  apply N.bits_inj. intros k. rewrite N.land_spec, N.shiftr_spec by lia.
  destruct (N.eq_dec k 0) as [->|Hk].
  - rewrite N.add_0_l. change (N.testbit 1 0) with true. destruct (N.testbit s i); reflexivity.
  - replace (N.testbit 1 k) with false by (destruct k as [|[]]; auto; congruence).
    rewrite andb_false_r. destruct (N.testbit s i); rewrite ?N.bits_0; auto. destruct k as [|[]]; auto; congruence.
Qed.
Lemma shl8_bit (b : bool) s k : (s < 8)%nat ->
  N.testbit (shl8 (if b then 1 else 0) (N.of_nat s)) k = b && (k =? N.of_nat s).
Proof.
  intros Hs. unfold shl8. change 256 with (2 ^ 8). destruct b; cbn [andb].
  - rewrite N.shiftl_1_l, N.mod_small.
    + rewrite N.pow2_bits_eqb. apply N.eqb_sym.
    + apply N.pow_lt_mono_r; lia.
  - rewrite N.shiftl_0_l. apply N.bits_0.
Qed.
Lemma shl8_lt x s : shl8 x s < 256.
Proof. apply N.mod_lt. discriminate. Qed.
Lemma lor_byte a b : byte_ok a -> byte_ok b -> byte_ok (N.lor a b).
Proof.
  unfold byte_ok. intros Ha Hb. destruct (N.eq_dec (N.lor a b) 0) as [->|Hn]; [lia|].
  change 256 with (2 ^ 8). apply N.log2_lt_pow2; [lia|]. rewrite N.log2_lor.
  destruct (N.eq_dec a 0) as [->|Ha0], (N.eq_dec b 0) as [->|Hb0].
  - simpl in Hn. congruence.
  - rewrite N.max_r by (simpl; lia). apply N.log2_lt_pow2; auto; lia.
  - rewrite N.max_l by (simpl; lia). apply N.log2_lt_pow2; auto; lia.
  - apply N.max_lub_lt; apply N.log2_lt_pow2; auto; lia.
Qed.

(** Generic double loop: every (row, byte column) step adds eight bits of the transposed matrix. *)
Section Gen.
Context {S : Type} (valid : S -> Prop) (get : S -> nat -> nat -> bool) (src : nat -> nat -> bool) (R C W : nat).
Variable f2 : nat -> nat -> S -> outcome S.
Hypothesis f2_ok : forall row col s, (row < R)%nat -> (col < C)%nat -> valid s -> exists s', f2 row col s = Ok s' /\ valid s' /\
  forall i j, (i < 8 * C)%nat -> (j < W)%nat -> get s' i j = get s i j || ((i / 8 =? col)%nat && (j =? row)%nat && src row i).

Lemma rows_loop s0 : valid s0 -> (forall i j, (i < 8 * C)%nat -> (j < W)%nat -> get s0 i j = false) ->
  exists s', foldM (fun s row => foldM (fun s col => f2 row col s) (seq 0 C) s) (seq 0 R) s0 = Ok s' /\ valid s' /\
    forall i j, (i < 8 * C)%nat -> (j < W)%nat -> get s' i j = (j <? R)%nat && src j i.
Proof.
  intros Hv H0.
  destruct (foldM_inv (fun s row => foldM (fun s col => f2 row col s) (seq 0 C) s)
    (fun k s => valid s /\ forall i j, (i < 8 * C)%nat -> (j < W)%nat -> get s i j = (j <? k)%nat && src j i) (seq 0 R) s0) as (s' & E & I).
  - split; auto.
  - intros row a s Ha [Hs HI].
    assert (Hrow : (row < R)%nat). { rewrite <- (seq_length R 0). apply nth_error_Some. congruence. }
    assert (a = row) as ->. { apply (nth_error_nth _ _ 0%nat) in Ha. rewrite seq_nth in Ha; auto. }
    destruct (foldM_inv (fun s col => f2 row col s)
      (fun c s => valid s /\ forall i j, (i < 8 * C)%nat -> (j < W)%nat ->
         get s i j = ((j <? row)%nat || ((j =? row)%nat && (i / 8 <? c)%nat)) && src j i) (seq 0 C) s) as (s' & E & I).
    + split; auto. intros. rewrite HI by auto. rewrite andb_false_r, orb_false_r. auto.
    + intros col a t Hc [Ht HJ].
      assert (Hcol : (col < C)%nat). { rewrite <- (seq_length C 0). apply nth_error_Some. congruence. }
      assert (a = col) as ->. { apply (nth_error_nth _ _ 0%nat) in Hc. rewrite seq_nth in Hc; auto. }
      destruct (f2_ok row col t Hrow Hcol Ht) as (t' & E & Ht' & HK). exists t'. split; auto. split; auto.
      intros i j Hi Hj. rewrite HK, HJ by auto.
      destruct (Nat.eqb_spec j row) as [->|Hjr].
      * rewrite Nat.ltb_irrefl. cbn [orb andb]. destruct (src row i); rewrite ?andb_false_r, ?andb_true_r; auto.
        destruct (Nat.ltb_spec (i / 8) col), (Nat.ltb_spec (i / 8) (Datatypes.S col)), (Nat.eqb_spec (i / 8) col); auto; lia.
      * rewrite andb_false_r. cbn [andb]. now rewrite !orb_false_r.
    + rewrite seq_length in I. exists s'. split; auto. destruct I as [Hv' I]. split; auto.
      intros i j Hi Hj. rewrite I by auto. f_equal.
      assert (Hd : (i / 8 < C)%nat) by (apply Nat.div_lt_upper_bound; lia).
      replace (i / 8 <? C)%nat with true by (symmetry; now apply Nat.ltb_lt). rewrite andb_true_r.
      destruct (Nat.ltb_spec j row), (Nat.eqb_spec j row), (Nat.ltb_spec j (Datatypes.S row)); auto; lia.
  - rewrite seq_length in I. exists s'. tauto.
Qed.
End Gen.

Section Bits.
Context {S : Type} (valid : S -> Prop) (get : S -> nat -> nat -> bool) (H W : nat) (row col : nat) (byte : N).
Variable f3 : nat -> S -> outcome S.
Hypothesis f3_ok : forall b s, (b < 8)%nat -> valid s -> exists s', f3 b s = Ok s' /\ valid s' /\
  forall i j, (i < H)%nat -> (j < W)%nat -> get s' i j = get s i j || ((i =? col * 8 + b)%nat && (j =? row)%nat && N.testbit byte (N.of_nat b)).
Lemma bits_loop s : valid s -> exists s', foldM (fun s b => f3 b s) (seq 0 8) s = Ok s' /\ valid s' /\
  forall i j, (i < H)%nat -> (j < W)%nat -> get s' i j = get s i j || ((i / 8 =? col)%nat && (j =? row)%nat && N.testbit byte (N.of_nat (i mod 8))).
Proof.
  intros Hv.
  destruct (foldM_inv (fun s b => f3 b s) (fun k t => valid t /\ forall i j, (i < H)%nat -> (j < W)%nat ->
     get t i j = get s i j || ((i / 8 =? col)%nat && (i mod 8 <? k)%nat && (j =? row)%nat && N.testbit byte (N.of_nat (i mod 8)))) (seq 0 8) s) as (s' & E & Hv' & I).
  - split; auto. intros. rewrite andb_false_r. now rewrite orb_false_r.
  - intros b a t Ha [Ht HI]. assert (Hb : (b < 8)%nat). { change 8%nat with (length (seq 0 8)). apply nth_error_Some. congruence. }
    assert (a = b) as ->. { apply (nth_error_nth _ _ 0%nat) in Ha. rewrite seq_nth in Ha; auto. }
    destruct (f3_ok b t Hb Ht) as (t' & E & Ht' & HK). exists t'. split; auto. split; auto.
    intros i j Hi Hj. rewrite HK, HI by auto. rewrite <- orb_assoc. f_equal.
    assert (Hdm := Nat.div_mod_eq i 8). assert (Hm := Nat.mod_upper_bound i 8 ltac:(lia)).
    destruct (Nat.eqb_spec i (col * 8 + b)) as [Hib|Hib].
    + assert (i / 8 = col)%nat by (symmetry; apply Nat.div_unique with b; lia). assert (i mod 8 = b)%nat by lia.
      rewrite H0, H1, Nat.eqb_refl, Nat.ltb_irrefl. replace (b <? Datatypes.S b)%nat with true by (symmetry; apply Nat.ltb_lt; lia). reflexivity.
    + cbn [andb]. rewrite orb_false_r. destruct (Nat.eqb_spec (i / 8) col); auto.
      replace (i mod 8 <? Datatypes.S b)%nat with (i mod 8 <? b)%nat; auto.
      destruct (Nat.ltb_spec (i mod 8) b), (Nat.ltb_spec (i mod 8) (Datatypes.S b)); auto; lia.
  - exists s'. split; auto. split; auto. intros i j Hi Hj. rewrite I by auto. f_equal.
    replace (i mod 8 <? length (seq 0 8))%nat with true. 2:{ symmetry. apply Nat.ltb_lt. rewrite seq_length. apply Nat.mod_upper_bound. lia. }
    now rewrite andb_true_r.
Qed.
End Bits.

(** ** Rows of bytes *)
Definition shape2 (r c : nat) (m : list bytes) : Prop := shaped r c m.
Lemma shaped_nth r c m i : shaped r c m -> (i < r)%nat -> length (nth i m []) = c /\ bytes_ok (nth i m []).
Proof. intros [L F] Hi. apply (Forall_nth_in (fun row : bytes => length row = c /\ bytes_ok row)); auto. rewrite L. auto. Qed.
Lemma or_at2_ok r c m i k v : shaped r c m -> (i < r)%nat -> (k < c)%nat -> byte_ok v ->
  exists m', or_at2 m i k v = Ok m' /\ shaped r c m' /\
    forall i' j, mbit m' i' j = mbit m i' j || ((i' =? i)%nat && (j / 8 =? k)%nat && N.testbit v (N.of_nat (j mod 8))).
Proof.
  intros Hm Hi Hk Hv. destruct (shaped_nth r c m i Hm Hi) as [Lr Br]. pose proof Hm as [L F]. unfold or_at2.
  rewrite (idx_lt m i []) by lia. cbn [obind]. rewrite (idx_lt _ k 0) by lia. cbn [obind].
  rewrite set_idx_lt by lia. cbn [obind]. rewrite set_idx_lt by lia. eexists. split; [reflexivity|]. split.
  - split. { now rewrite set_nth_length. } apply Forall_set_nth; auto. split. { now rewrite set_nth_length. }
    apply Forall_set_nth; auto. apply lor_byte; auto. now apply Forall_nth_in; [|lia].
  - intros i' j. unfold mbit, bit_of. destruct (Nat.eqb_spec i' i) as [->|Hi'].
    + rewrite nth_set_nth_same by lia. cbn [andb]. destruct (Nat.eqb_spec (j / 8) k) as [Hjk|Hjk].
      * rewrite Hjk, nth_set_nth_same by lia. cbn [andb]. apply N.lor_spec.
      * rewrite nth_set_nth_other by auto. cbn [andb]. now rewrite orb_false_r.
    + rewrite nth_set_nth_other by auto. cbn [andb]. now rewrite orb_false_r.
Qed.
Lemma divmod_eqb j row : ((j / 8 =? row / 8)%nat && (j mod 8 =? row mod 8)%nat) = (j =? row)%nat.
Proof.
  assert (H1 := Nat.div_mod_eq j 8). assert (H2 := Nat.div_mod_eq row 8).
  destruct (Nat.eqb_spec (j / 8) (row / 8)), (Nat.eqb_spec (j mod 8) (row mod 8)), (Nat.eqb_spec j row); cbn [andb]; auto; try lia; subst; congruence.
Qed.
Lemma of_nat_eqb a b : (N.of_nat a =? N.of_nat b) = (a =? b)%nat.
Proof. destruct (Nat.eqb_spec a b). subst; apply N.eqb_refl. apply N.eqb_neq. lia. Qed.

Section Transpose.
Variables (m : list bytes) (rows c8 : nat).
Hypothesis Hm : shaped rows c8 m.
Let T := (8 * c8)%nat.
Lemma tb_step row col raw : (row < 8 * (rows / 8))%nat -> (col < c8)%nat -> shaped T (rows / 8) raw ->
  exists raw', (let* srow := idx m row in let* byte := idx srow col in transpose_byte row col byte raw) = Ok raw' /\
    shaped T (rows / 8) raw' /\
    forall i j, (i < 8 * c8)%nat -> (j < 8 * (rows / 8))%nat ->
      mbit raw' i j = mbit raw i j || ((i / 8 =? col)%nat && (j =? row)%nat && mbit m row i).
Proof.
  intros Hr Hc Hraw. assert (Hd := Nat.div_mod_eq rows 8).
  destruct (shaped_nth rows c8 m row Hm ltac:(lia)) as [Lr Br]. pose proof Hm as [Lm _].
  rewrite (idx_lt m row []) by lia. cbn [obind]. rewrite (idx_lt _ col 0) by lia. cbn [obind].
  set (byte := nth col (nth row m []) 0).
  destruct (bits_loop (shaped T (rows / 8)) mbit T (8 * (rows / 8)) row col byte
    (fun b raw => or_at2 raw (col * 8 + b) (row / 8) (shl8 (N.land (N.shiftr byte (N.of_nat b)) 1) (N.of_nat (row mod 8))))) with (s := raw) as (raw' & E & Hs & Hg); auto.
  - intros b s Hb Hs. assert (Hm8 := Nat.mod_upper_bound row 8 ltac:(lia)).
    destruct (or_at2_ok T (rows / 8) s (col * 8 + b) (row / 8) (shl8 (N.land (N.shiftr byte (N.of_nat b)) 1) (N.of_nat (row mod 8)))) as (s' & E & Hs' & Hg); auto.
    { unfold T. lia. } { apply Nat.div_lt_upper_bound; lia. } { apply shl8_lt. }
    exists s'. split; auto. split; auto. intros i j Hi Hj. rewrite Hg. f_equal.
    rewrite land1_bit, shl8_bit by auto. rewrite of_nat_eqb, <- (divmod_eqb j row).
    destruct (i =? col * 8 + b)%nat, (j / 8 =? row / 8)%nat, (j mod 8 =? row mod 8)%nat, (N.testbit byte (N.of_nat b)); reflexivity.
  - exists raw'. split. { exact E. } split; auto. intros i j Hi Hj. rewrite Hg by auto.
    unfold mbit at 3. unfold bit_of. destruct (Nat.eqb_spec (i / 8) col) as [->|]; auto.
Qed.

Lemma shaped_zeros r c : shaped r c (repeat (repeat 0 c) r).
Proof. split. apply repeat_length. apply Forall_repeat. split. apply repeat_length. apply Forall_repeat. reflexivity. Qed.
Lemma mbit_zeros r c i j : mbit (repeat (repeat 0 c) r) i j = false.
Proof.
  unfold mbit, bit_of. destruct (Nat.ltb_spec i r).
  - rewrite (nth_indep _ [] (repeat 0 c)) by (now rewrite repeat_length). rewrite nth_repeat.
    rewrite nth_repeat. apply N.bits_0.
  - rewrite (nth_overflow (repeat _ _)) by (rewrite repeat_length; lia). destruct (j / 8)%nat; apply N.bits_0.
Qed.

Lemma transpose_prefix n : (n <= 8 * (rows / 8))%nat -> exists m',
  foldM (fun raw row => transpose_row m (c8 * 8) row raw) (seq 0 n) (repeat (repeat 0 (rows / 8)) (8 * c8)) = Ok m' /\
  shaped (8 * c8) (rows / 8) m' /\
  forall i j, (i < 8 * c8)%nat -> (j < 8 * (rows / 8))%nat -> mbit m' i j = (j <? n)%nat && mbit m j i.
Proof.
  intros Hn. unfold transpose_row. replace (c8 * 8 / BLOCK_SIZE)%nat with c8 by (symmetry; apply Nat.div_mul; discriminate).
  apply (rows_loop (shaped T (rows / 8)) mbit (mbit m) n c8 (8 * (rows / 8)) (fun row col raw => let* srow := idx m row in let* byte := idx srow col in transpose_byte row col byte raw)).
  - intros row col s Hr Hc Hs. apply tb_step; auto. lia.
  - apply shaped_zeros.
  - intros. apply mbit_zeros.
Qed.
End Transpose.

Lemma dims_ok r c m : shaped r c m -> (1 <= r)%nat -> dims m = Ok (r, (c * 8)%nat).
Proof.
  intros Hm Hr. destruct (shaped_nth r c m 0 Hm ltac:(lia)) as [L _]. destruct Hm as [Lm _].
  unfold dims. rewrite (idx_lt m 0 []) by lia. cbn [obind]. unfold bv_len, BLOCK_SIZE. now rewrite Lm, L.
Qed.
Lemma transpose_ok m r c : shaped (8 * r) c m -> (1 <= r)%nat -> exists m', transpose m = Ok m' /\ shaped (8 * c) r m' /\
  forall i j, (i < 8 * c)%nat -> (j < 8 * r)%nat -> mbit m' i j = mbit m j i.
Proof.
  intros Hm Hr. unfold transpose. rewrite (dims_ok (8 * r) c m) by (auto; lia). cbn [obind].
  assert (Ed : (8 * r / 8 = r)%nat) by (rewrite Nat.mul_comm; apply Nat.div_mul; discriminate).
  destruct (transpose_prefix m (8 * r) c Hm (8 * r)) as (m' & E & Hs & Hg). { rewrite Ed. lia. }
  exists m'. split. { rewrite (Nat.mul_comm 8 c) in E. exact E. } rewrite Ed in Hs, Hg. split; auto.
  intros i j Hi Hj. rewrite Hg by auto. replace (j <? 8 * r)%nat with true; auto. symmetry. now apply Nat.ltb_lt.
Qed.
Lemma transpose_panics m r c : shaped r c m -> (1 <= c)%nat -> (r mod 8 <> 0)%nat -> transpose m = Panic PIndex.
Proof.
  intros Hm Hc Hr. assert (Hd := Nat.div_mod_eq r 8). assert (Hm8 := Nat.mod_upper_bound r 8 ltac:(lia)).
  unfold transpose. rewrite (dims_ok r c m) by (auto; lia). cbn [obind].
  destruct (transpose_prefix m r c Hm (8 * (r / 8))) as (m' & E & Hs & Hg); auto.
  replace (seq 0 r) with (seq 0 (8 * (r / 8)) ++ seq (8 * (r / 8)) (r mod 8)).
  2:{ rewrite <- seq_app. f_equal. lia. }
  rewrite foldM_app. replace (repeat (repeat 0 (r / BLOCK_SIZE)) (c * 8)) with (repeat (repeat 0 (r / 8)) (8 * c)) by (f_equal; lia).
  rewrite E. cbn [obind]. destruct (r mod 8)%nat eqn:Er; [congruence|]. cbn [seq foldM].
  unfold transpose_row at 1. replace (c * 8 / BLOCK_SIZE)%nat with c by (symmetry; apply Nat.div_mul; discriminate).
  destruct c as [|c]; [lia|]. cbn [seq foldM].
  destruct (shaped_nth r (S c) m (8 * (r / 8)) Hm ltac:(lia)) as [Lr Br]. destruct Hm as [Lm _].
  rewrite (idx_lt m _ []) by lia. cbn [obind]. rewrite (idx_lt _ 0 0) by lia. cbn [obind].
  unfold transpose_byte, BLOCK_SIZE. cbn [seq foldM]. unfold or_at2.
  destruct (shaped_nth _ _ m' (0 * 8 + 0) Hs ltac:(lia)) as [L0 _]. destruct Hs as [Ls _].
  rewrite (idx_lt m' _ []) by lia. cbn [obind]. rewrite idx_ge. reflexivity.
  rewrite L0. rewrite (Nat.mul_comm 8), Nat.div_mul by lia. lia.
Qed.

(** ** Flat arrays *)
Lemma flat_inj w a b k l : (k < w)%nat -> (l < w)%nat -> (w * a + k = w * b + l)%nat -> a = b /\ k = l.
Proof.
  intros Hk Hl E. assert (a = b).
  { assert (H1 : ((w * a + k) / w = a)%nat) by (symmetry; apply Nat.div_unique with k; lia).
    assert (H2 : ((w * b + l) / w = b)%nat) by (symmetry; apply Nat.div_unique with l; lia).
    rewrite E in H1. congruence. }
  subst. split; auto. lia.
Qed.
Lemma or_at_ok w h v i k x : (w * h <= length v)%nat -> bytes_ok v -> (i < h)%nat -> (k < w)%nat -> byte_ok x ->
  exists v', or_at v (w * i + k) x = Ok v' /\ length v' = length v /\ bytes_ok v' /\
    forall i' j, (j < 8 * w)%nat -> fbit w v' i' j = fbit w v i' j || ((i' =? i)%nat && (j / 8 =? k)%nat && N.testbit x (N.of_nat (j mod 8))).
Proof.
  intros Hw Hv Hi Hk Hx. assert (Hin : (w * i + k < length v)%nat) by nia. unfold or_at. rewrite (idx_lt v _ 0) by auto. cbn [obind].
  rewrite set_idx_lt by auto. eexists. split; [reflexivity|]. split. { apply set_nth_length. } split.
  { apply Forall_set_nth; auto. apply lor_byte; auto. now apply Forall_nth_in. }
  intros i' j Hj. assert (Hj8 : (j / 8 < w)%nat) by (apply Nat.div_lt_upper_bound; lia). unfold fbit.
  destruct (Nat.eq_dec (w * i' + j / 8) (w * i + k)) as [E|E].
  - rewrite E, nth_set_nth_same by auto. apply flat_inj in E; auto. destruct E as [-> ->]. rewrite !Nat.eqb_refl. cbn [andb]. apply N.lor_spec.
  - rewrite nth_set_nth_other by auto. destruct (Nat.eqb_spec i' i), (Nat.eqb_spec (j / 8) k); cbn [andb]; rewrite ?orb_false_r; auto; subst; congruence.
Qed.
Lemma transpose_matrix_ok source target w c : (8 * w * c <= length source)%nat -> (w * (8 * c) <= length target)%nat ->
  bytes_ok target -> (forall i j, (i < 8 * c)%nat -> (j < 8 * w)%nat -> fbit w target i j = false) ->
  exists t, transpose_matrix source target (8 * w) c w = Ok t /\ length t = length target /\ bytes_ok t /\
    forall i j, (i < 8 * c)%nat -> (j < 8 * w)%nat -> fbit w t i j = fbit c source j i.
Proof.
  intros Hs Ht Hb H0. unfold transpose_matrix.
  destruct (rows_loop (fun t => length t = length target /\ bytes_ok t) (fbit w) (fbit c source) (8 * w) c (8 * w)
    (fun row_idx col_idx t => let* source_byte := idx source (index_1d row_idx col_idx c) in
      transpose_flat_byte row_idx col_idx w source_byte t)) with (s0 := target) as (t & E & [L B] & G); auto.
  - intros row col s Hr Hc [Ls Bs]. unfold index_1d. rewrite (idx_lt source _ 0) by nia. cbn [obind].
    set (byte := nth (c * row + col) source 0).
    destruct (bits_loop (fun t => length t = length target /\ bytes_ok t) (fbit w) (8 * c) (8 * w) row col byte
      (fun b t => or_at t (w * (col * 8 + b) + row / 8) (shl8 (N.land (N.shiftr byte (N.of_nat b)) 1) (N.of_nat (row mod 8))))) with (s := s) as (t & E & Ht' & G); auto.
    + intros b u Hb8 [Lu Bu]. assert (Hm8 := Nat.mod_upper_bound row 8 ltac:(lia)).
      destruct (or_at_ok w (8 * c) u (col * 8 + b) (row / 8) (shl8 (N.land (N.shiftr byte (N.of_nat b)) 1) (N.of_nat (row mod 8)))) as (u' & E & Lu' & Bu' & G); auto.
      { lia. } { lia. } { apply Nat.div_lt_upper_bound; lia. } { apply shl8_lt. }
      exists u'. split; auto. split. { split; auto. congruence. } intros i j Hi Hj. rewrite G by auto. f_equal.
      rewrite land1_bit, shl8_bit by auto. rewrite of_nat_eqb, <- (divmod_eqb j row).
      destruct (i =? col * 8 + b)%nat, (j / 8 =? row / 8)%nat, (j mod 8 =? row mod 8)%nat, (N.testbit byte (N.of_nat b)); reflexivity.
    + exists t. split. { exact E. } split; auto. intros i j Hi Hj. rewrite G by auto. unfold fbit at 3.
      destruct (Nat.eqb_spec (i / 8) col) as [->|]; auto.
  - exists t. split; auto. split; auto. split; auto. intros i j Hi Hj. rewrite G by auto.
    replace (j <? 8 * w)%nat with true; auto. symmetry. now apply Nat.ltb_lt.
Qed.
Lemma fbit_zeros w n i j : fbit w (repeat 0 n) i j = false.
Proof. unfold fbit. rewrite nth_repeat. apply N.bits_0. Qed.

(** Matrices with the same bits are equal. *)
Lemma byte_ext a b : byte_ok a -> byte_ok b -> (forall k, (k < 8)%nat -> N.testbit a (N.of_nat k) = N.testbit b (N.of_nat k)) -> a = b.
Proof.
  intros Ha Hb H. apply N.bits_inj. intros k. destruct (N.lt_ge_cases k 8).
  - specialize (H (N.to_nat k) ltac:(lia)). now rewrite N2Nat.id in H.
  - now rewrite !testbit_byte.
Qed.
Lemma bytes_bit_ext a b : length a = length b -> bytes_ok a -> bytes_ok b ->
  (forall j, (j < 8 * length a)%nat -> bit_of a j = bit_of b j) -> a = b.
Proof.
  intros L Ha Hb H. apply (nth_ext_eq a b 0); auto. intros i Hi. apply byte_ext.
  - now apply Forall_nth_in. - apply Forall_nth_in; auto. lia.
  - intros k Hk. specialize (H (8 * i + k)%nat ltac:(lia)). unfold bit_of in H.
    replace ((8 * i + k) / 8)%nat with i in H by (apply Nat.div_unique with k; lia).
    replace ((8 * i + k) mod 8)%nat with k in H by (apply Nat.mod_unique with i; lia). auto.
Qed.
Lemma matrix_ext r c a b : shaped r c a -> shaped r c b -> (forall i j, (i < r)%nat -> (j < 8 * c)%nat -> mbit a i j = mbit b i j) -> a = b.
Proof.
  intros Ha Hb H. pose proof Ha as [La _]. pose proof Hb as [Lb _]. apply (nth_ext_eq a b []). congruence. intros i Hi. rewrite La in Hi.
  destruct (shaped_nth r c a i Ha Hi), (shaped_nth r c b i Hb Hi). apply bytes_bit_ext; auto. congruence.
  intros j Hj. apply H; auto. lia.
Qed.
Lemma transpose_involutive m r c m' : shaped (8 * r) (c) m -> (exists c', c = c' /\ (1 <= c')%nat) -> (1 <= r)%nat -> transpose m = Ok m' -> transpose m' = Ok m.
Proof.
  intros Hm (c' & <- & Hc) Hr E. destruct (transpose_ok m r c Hm Hr) as (n & En & Hn & Gn). assert (n = m') as -> by congruence.
  destruct (transpose_ok m' c r Hn Hc) as (m2 & E2 & H2 & G2). rewrite E2. f_equal.
  apply (matrix_ext (8 * r) c); auto. intros i j Hi Hj. now rewrite G2, Gn.
Qed.

(** ** Packing choices *)
Lemma pack8_bit choices i k : (k < 8)%nat -> N.testbit (pack8 choices i) (N.of_nat k) = nth (i * 8 + k) choices false.
Proof.
  intros Hk. unfold pack8, BLOCK_SIZE. cbn [seq fold_left]. rewrite !N.lor_spec, N.bits_0.
  assert (X : forall (b : bool) s, N.testbit (N.shiftl (if b then 1 else 0) (N.of_nat s)) (N.of_nat k) = b && (s =? k)%nat).
  { intros b s. destruct b. rewrite N.shiftl_1_l, N.pow2_bits_eqb. apply of_nat_eqb. rewrite N.shiftl_0_l. apply N.bits_0. }
  rewrite !X. do 8 (destruct k as [|k]; [cbn [Nat.eqb]; rewrite ?andb_false_r, ?andb_true_r, ?orb_false_r; cbn [orb]; auto|]). lia.
Qed.
Lemma pack8_lt choices i : byte_ok (pack8 choices i).
Proof.
  unfold pack8, BLOCK_SIZE. cbn [seq fold_left].
  assert (X : forall (b : bool) s, (s < 8)%nat -> byte_ok (N.shiftl (if b then 1 else 0) (N.of_nat s))).
  { intros b s Hs. unfold byte_ok. destruct b; [|rewrite N.shiftl_0_l; lia]. rewrite N.shiftl_1_l. change 256 with (2 ^ 8). apply N.pow_lt_mono_r; lia. }
  repeat apply lor_byte; try (apply X; lia). reflexivity.
Qed.
Lemma pack_choices_length choices : length (pack_choices choices) = (length choices / 8)%nat.
Proof. unfold pack_choices. now rewrite map_length, seq_length. Qed.
Lemma pack_choices_ok choices : bytes_ok (pack_choices choices).
Proof. apply Forall_forall. intros x Hx. apply in_map_iff in Hx. destruct Hx as (i & <- & _). apply pack8_lt. Qed.
Lemma pack_choices_bit choices j : (j < 8 * (length choices / 8))%nat -> bit_of (pack_choices choices) j = nth j choices false.
Proof.
  intros Hj. unfold bit_of, pack_choices. assert (Hd : (j / 8 < length choices / 8)%nat) by (apply Nat.div_lt_upper_bound; lia).
  rewrite (nth_indep _ 0 (pack8 choices 0)) by (now rewrite map_length, seq_length). rewrite map_nth, seq_nth by auto.
  rewrite pack8_bit by (apply Nat.mod_upper_bound; lia). f_equal. pose proof (Nat.div_mod_eq j 8). lia.
Qed.
