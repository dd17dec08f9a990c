(** Apricot: an honest run, and a run in which the receiver uses different choices per column. *)
From Coq Require Import List NArith Bool Lia Arith.
From Verif Require Import Base MUtil MWires MBitMatrix MPoly MPar MBincode MProc MOt MApricot.
From Verif Require Import SpecUtil SpecBitMatrix SpecPoly SpecBincode SpecOt SpecApricot PBase PUtil PBitMatrix PPoly PPar PBincode PProc POt PApricotA.
Import ListNotations.
Open Scope N_scope.

(** Bits of a little-endian value. *)
Lemma le_value_bit v : bytes_ok v -> forall j, N.testbit (le_value v) (N.of_nat j) = bit_of v j.
Proof.
  induction v as [|x v IH]; intros H j.
  - cbn. unfold bit_of. rewrite nth_overflow by (cbn; lia). now rewrite !N.bits_0.
  - inversion H as [|? ? Hx Hv]; subst. change (x :: v) with ([x] ++ v). rewrite le_value_app. cbn [length].
    change (8 * N.of_nat 1) with 8. replace (le_value [x]) with x by (cbn [le_value]; lia).
    destruct (Nat.lt_ge_cases j 8) as [L|L].
    + unfold bit_of. rewrite Nat.div_small, Nat.mod_small by lia. cbn [nth app].
      rewrite <- (N.mod_pow2_bits_low _ 8) by lia.
      rewrite N.mul_comm, N.mod_add by (cbn; lia). rewrite N.mod_small; [reflexivity|exact Hx].
    + replace (N.of_nat j) with (N.of_nat (j - 8) + 8) by lia.
      rewrite <- N.div_pow2_bits. rewrite N.mul_comm, N.div_add by (cbn; lia).
      rewrite (N.div_small x) by exact Hx. rewrite N.add_0_l, IH by auto. unfold bit_of. cbn [app].
      replace (j / 8)%nat with (S ((j - 8) / 8)) by (replace j with (j - 8 + 1 * 8)%nat at 2 by lia; rewrite Nat.div_add by lia; lia).
      replace (j mod 8)%nat with ((j - 8) mod 8)%nat by (replace j with (j - 8 + 1 * 8)%nat at 2 by lia; rewrite Nat.mod_add by lia; lia).
      reflexivity.
Qed.
Lemma elem_inj x y : elem x -> elem y -> le_value x = le_value y -> x = y.
Proof. intros Hx Hy E. rewrite <- (elem_eta x Hx), <- (elem_eta y Hy). now rewrite E. Qed.
Lemma bits128_ext x y : x < 2 ^ 128 -> y < 2 ^ 128 ->
  (forall j, (j < 128)%nat -> N.testbit x (N.of_nat j) = N.testbit y (N.of_nat j)) -> x = y.
Proof.
  intros Hx Hy H. apply N.bits_inj. intros k. destruct (N.lt_ge_cases k 128).
  - specialize (H (N.to_nat k) ltac:(lia)). now rewrite N2Nat.id in H.
  - rewrite !(high_bits _ 128); auto.
Qed.

Section Matrices.
Variable fill : bytes -> nat -> bytes.
Hypothesis fill_ok : generator fill.
Variables (p : profile) (seed0 seed1 : list bytes) (delta : bytes).
Hypothesis seed0_ok : seeds_ok seed0.
Hypothesis seed1_ok : seeds_ok seed1.
Hypothesis delta_ok : array_ok 16 delta.
(** [l] rows, [tw] = l / 8. *)
Variable l : nat.
Let tw : nat := (l / 8)%nat.

Lemma tw_l : (8 * tw <= l)%nat.
Proof. apply Nat.mul_div_le. lia. Qed.

Definition T (seeds : list bytes) (i : nat) : bytes := fill (nth i seeds []) (l / 8).
Definition TM (seeds : list bytes) : bytes := concat (map (T seeds) (seq 0 128)).
Lemma T_len s i : length (T s i) = tw.
Proof. apply fill_ok. Qed.
Lemma T_ok s i : bytes_ok (T s i).
Proof. apply fill_ok. Qed.
Lemma TM_len s : length (TM s) = (tw * 128)%nat.
Proof. apply concat_length_w. intros; apply T_len. Qed.
Lemma TM_row s i : (i < 128)%nat -> frow tw (TM s) i = T s i.
Proof. intros. apply frow_concat; auto. intros; apply T_len. Qed.

Lemma expand_seeds_ok s : length s = 128%nat -> expand_seeds fill s 128 tw = Ok (TM s).
Proof.
  intros L. apply update_rows_ok. { apply repeat_length. }
  intros i Hi. rewrite (idx_lt s i []) by lia. cbn [obind].
  rewrite frow_length by (rewrite repeat_length; nia). split; [reflexivity|apply T_len].
Qed.
Lemma expand_payloads_ok s : seeds_ok s -> expand_payloads fill s 128 tw = Ok (TM s).
Proof.
  intros [L H]. apply update_rows_ok. { apply repeat_length. }
  intros i Hi. rewrite (idx_lt s i []) by lia. cbn [obind].
  rewrite array_from_slice_ok. 2: { apply (Forall_nth_in _ s i [] H). lia. } cbn [obind].
  rewrite frow_length by (rewrite repeat_length; nia). split; [reflexivity|apply T_len].
Qed.

(** Column [i] of the receiver's matrix u when it uses the packed choices [X i] there. *)
Variable X : nat -> bytes.
Hypothesis X_ok : forall i, (i < 128)%nat -> array_ok tw (X i).
Definition U (i : nat) : bytes := zipWith N.lxor (zipWith N.lxor (T seed0 i) (T seed1 i)) (X i).
Definition UM : bytes := concat (map U (seq 0 128)).
Lemma U_len i : (i < 128)%nat -> length (U i) = tw.
Proof. intros Hi. destruct (X_ok i Hi). unfold U. rewrite !zipWith_length, !T_len. lia. Qed.
Lemma UM_len : length UM = (tw * 128)%nat.
Proof. apply concat_length_w. intros; apply U_len. lia. Qed.
Lemma UM_row i : (i < 128)%nat -> frow tw UM i = U i.
Proof. intros. apply frow_concat; auto. intros; now apply U_len. Qed.

Definition Q (i : nat) : bytes := if bit_of delta i then zipWith N.lxor (T seed0 i) (X i) else T seed0 i.
Definition QM : bytes := concat (map Q (seq 0 128)).
Lemma Q_len i : (i < 128)%nat -> length (Q i) = tw.
Proof. intros Hi. destruct (X_ok i Hi). unfold Q. destruct (bit_of delta i); rewrite ?zipWith_length, T_len; lia. Qed.
Lemma QM_len : length QM = (tw * 128)%nat.
Proof. apply concat_length_w. intros; apply Q_len. lia. Qed.
Lemma Q_ok i : (i < 128)%nat -> bytes_ok (Q i).
Proof.
  intros Hi. destruct (X_ok i Hi). unfold Q. destruct (bit_of delta i); auto using T_ok. apply xor_bytes_okay; auto using T_ok.
Qed.

Lemma zip_move t0 t1 x : length t0 = length t1 -> length t0 = length x ->
  zipWith N.lxor (zipWith N.lxor (zipWith N.lxor t0 t1) x) t1 = zipWith N.lxor t0 x.
Proof.
  revert t1 x. induction t0 as [|a t0 IH]; intros [|b t1] [|c x] L M; cbn in *; try discriminate; auto.
  f_equal; [|apply IH; lia].
  rewrite !N.lxor_assoc. f_equal. rewrite (N.lxor_comm c b), <- N.lxor_assoc, N.lxor_nilpotent. apply N.lxor_0_l.
Qed.

(** The two transposed matrices. *)
Lemma transposed s m : length m = (tw * 128)%nat -> (forall i, (i < 128)%nat -> frow tw m i = s i) ->
  exists t, transpose_matrix m (repeat 0 (16 * l)) 128 tw 16 = Ok t /\ length t = (16 * l)%nat /\ bytes_ok t /\
    (forall r j, (r < 8 * tw)%nat -> (j < 128)%nat -> bit_of (frow 16 t r) j = bit_of (s j) r) /\
    (forall r, (8 * tw <= r < l)%nat -> frow 16 t r = repeat 0 16).
Proof.
  intros Lm Hm. pose proof tw_l as Htw.
  destruct (transpose_matrix_ok m (repeat 0 (16 * l)) 16 tw) as (t & E & L & B & G).
  - nia. - rewrite repeat_length. nia. - apply zeros_ok. - intros. apply fbit_zeros.
  - change (8 * 16)%nat with 128%nat in E, G. rewrite repeat_length in L.
    exists t. split; [exact E|]. split; [exact L|]. split; [exact B|]. split.
    + intros r j Hr Hj. rewrite <- fbit_frow by lia. rewrite G by lia. rewrite fbit_frow by lia. now rewrite Hm.
    + intros r Hr. apply (nth_ext_eq _ _ 0). { rewrite frow_length, repeat_length; lia. }
      intros k Hk. rewrite frow_length in Hk by lia. rewrite nth_repeat. unfold frow. rewrite nth_firstn, nth_skipn by lia.
      rewrite (transpose_matrix_rest m (repeat 0 (16 * l)) 16 tw t) by (try exact E; nia). apply nth_repeat.
Qed.

Lemma q_rows : exists t qt,
  transpose_matrix (TM seed0) (repeat 0 (16 * l)) 128 tw 16 = Ok t /\ length t = (16 * l)%nat /\ bytes_ok t /\
  transpose_matrix QM (repeat 0 (16 * l)) 128 tw 16 = Ok qt /\ length qt = (16 * l)%nat /\ bytes_ok qt /\
  (forall r j, (r < 8 * tw)%nat -> (j < 128)%nat -> N.testbit (rowv qt r) (N.of_nat j) =
     xorb (N.testbit (rowv t r) (N.of_nat j)) (bit_of delta j && bit_of (X j) r)) /\
  (forall r, (8 * tw <= r < l)%nat -> frow 16 qt r = frow 16 t r).
Proof.
  destruct (transposed (T seed0) (TM seed0)) as (t & E & L & B & G & Z). { apply TM_len. } { intros; now apply TM_row. }
  destruct (transposed Q QM) as (qt & E' & L' & B' & G' & Z'). { apply QM_len. }
  { intros. apply frow_concat; auto. intros; now apply Q_len. }
  exists t, qt. split; [exact E|]. split; [exact L|]. split; [exact B|]. split; [exact E'|]. split; [exact L'|]. split; [exact B'|]. split.
  - intros r j Hr Hj. unfold rowv. rewrite !le_value_bit by now apply frow_ok. rewrite G, G' by auto.
    unfold Q. destruct (X_ok j Hj) as [Lx _]. destruct (bit_of delta j); cbn [andb].
    + apply bit_of_zip. rewrite T_len. auto.
    + now rewrite xorb_false_r.
  - intros r Hr. now rewrite Z, Z'.
Qed.
(** What the sender gets from the base OT and computes from it. *)
Variable payloads : list bytes.
Hypothesis payloads_ok : length payloads = 128%nat.
Hypothesis payloads_sel : forall i, (i < 128)%nat -> nth i payloads [] = if bit_of delta i then nth i seed1 [] else nth i seed0 [].
Lemma payloads_seeds : seeds_ok payloads.
Proof.
  split; auto. apply Forall_forall. intros x Hx. destruct (In_nth _ _ [] Hx) as (i & Hi & <-).
  assert (Hi' : (i < 128)%nat) by (rewrite <- payloads_ok; exact Hi). rewrite payloads_sel by auto. destruct seed0_ok as [L0 H0], seed1_ok as [L1 H1].
  destruct (bit_of delta i); apply Forall_nth_in; auto; lia.
Qed.

Lemma compute_q_ok : compute_q p delta (TM payloads) UM 128 tw = Ok QM.
Proof.
  destruct delta_ok as [Ld Hd].
  apply update_rows_ok. { apply repeat_length. }
  intros i Hi. assert (i / 8 < 16)%nat by (apply Nat.div_lt_upper_bound; lia).
  rewrite (idx_lt delta (i / 8) 0) by lia. cbn [obind]. rewrite land1_testbit.
  change (N.testbit (nth (i / 8) delta 0) (N.of_nat (i mod 8))) with (bit_of delta i).
  rewrite !vector_row_ok by (rewrite ?UM_len, ?TM_len; nia).
  rewrite TM_row, UM_row by auto. rewrite frow_zeros by nia.
  unfold T at 1. rewrite payloads_sel by auto.
  pose proof (U_len i Hi) as Lu. pose proof (T_len seed1 i) as L1. pose proof (T_len seed0 i) as L0. destruct (X_ok i Hi) as [Lx _].
  unfold Q. destruct (bit_of delta i); cbn [obind].
  - rewrite xor_inplace_ok by (rewrite repeat_length; lia). cbn [obind].
    rewrite <- Lu at 1. rewrite zip_zeros_l. fold (T seed1 i).
    rewrite xor_inplace_ok by lia. unfold U. rewrite zip_move by lia. split; [reflexivity|]. rewrite zip_length; lia.
  - fold (T seed0 i). rewrite xor_inplace_ok by (rewrite repeat_length; lia).
    rewrite <- L0 at 1. rewrite zip_zeros_l. split; [reflexivity|exact L0].
Qed.

End Matrices.

(** ** Honest choices *)
Section Honest.
Variable fill : bytes -> nat -> bytes.
Hypothesis fill_ok : generator fill.
Variables (p : profile) (a : arch) (seed0 seed1 : list bytes) (delta : bytes).
Hypothesis seed0_ok : seeds_ok seed0.
Hypothesis seed1_ok : seeds_ok seed1.
Hypothesis delta_ok : array_ok 16 delta.
Variable x : list bool.
Let l : nat := length x.
Let tw : nat := (length x / 8)%nat.
Let Xh (_ : nat) : bytes := pack_choices x.

Lemma Xh_ok i : (i < 128)%nat -> array_ok tw (Xh i).
Proof. intros _. split; [apply pack_choices_length|apply pack_choices_ok]. Qed.

Lemma compute_u_ok :
  compute_u p (TM fill l seed0) (TM fill l seed1) (pack_choices x) 128 tw = Ok (UM fill seed0 seed1 l Xh).
Proof.
  apply update_rows_ok. { apply repeat_length. }
  intros i Hi. fold tw. rewrite !vector_row_ok by (rewrite TM_len; auto; fold tw; unfold l; fold tw; nia).
  rewrite !(TM_row fill fill_ok l) by auto. cbn [obind]. fold tw.
  pose proof (T_len fill fill_ok l seed0 i) as L0. pose proof (T_len fill fill_ok l seed1 i) as L1. fold tw in L0, L1.
  unfold l in L0, L1. fold tw in L0, L1. fold l in L0, L1.
  rewrite ap_xor_ok by (rewrite ?frow_length; rewrite ?repeat_length; try nia; congruence). cbn [obind].
  rewrite xor_inplace_ok. 2: { rewrite zip_length by congruence. rewrite L0, pack_choices_length. reflexivity. }
  split; [reflexivity|]. unfold U. rewrite !zipWith_length, L0, L1. unfold Xh. rewrite pack_choices_length. unfold tw. lia.
Qed.

Definition dv : N := le_value delta.
Lemma dv_lt : dv < 2 ^ 128.
Proof. destruct delta_ok. now apply le_value16_lt. Qed.

Lemma honest_rows : exists t qt,
  transpose_matrix (TM fill l seed0) (repeat 0 (16 * l)) 128 tw 16 = Ok t /\ length t = (16 * l)%nat /\ bytes_ok t /\
  transpose_matrix (QM fill seed0 delta l Xh) (repeat 0 (16 * l)) 128 tw 16 = Ok qt /\ length qt = (16 * l)%nat /\ bytes_ok qt /\
  forall r, (r < l)%nat -> frow 16 qt r =
    if nth r x false && Nat.ltb r (8 * tw) then zipWith N.lxor (frow 16 t r) delta else frow 16 t r.
Proof.
  destruct (q_rows fill fill_ok seed0 delta l Xh Xh_ok) as (t & qt & E & L & B & E' & L' & B' & G & Z).
  exists t, qt. split; [exact E|]. split; [exact L|]. split; [exact B|]. split; [exact E'|]. split; [exact L'|]. split; [exact B'|].
  intros r Hr. destruct delta_ok as [Ld Hd].
  destruct (frow_elem t r l L B Hr) as [Lt Bt]. destruct (frow_elem qt r l L' B' Hr) as [Lq Bq].
  destruct (Nat.ltb_spec r (8 * tw)) as [Hr8|Hr8].
  - rewrite andb_true_r. destruct (nth r x false) eqn:Ex.
    + destruct (le_value_xor (frow 16 t r) delta) as [V Bv]; auto. { congruence. }
      apply elem_inj. { split; auto. } { split; auto. rewrite zip_length; congruence. }
      rewrite V. apply bits128_ext. { now apply le_value16_lt. } { apply lxor_lt2; now apply le_value16_lt. }
      intros j Hj. rewrite N.lxor_spec. change (le_value (frow 16 qt r)) with (rowv qt r). rewrite (G r j Hr8 Hj). unfold rowv. f_equal.
      unfold Xh. rewrite pack_choices_bit by exact Hr8. rewrite Ex, andb_true_r. symmetry. now apply le_value_bit.
    + apply elem_inj; try (split; auto; fail).
      apply bits128_ext; try now apply le_value16_lt.
      intros j Hj. change (le_value (frow 16 qt r)) with (rowv qt r). rewrite (G r j Hr8 Hj). unfold Xh. rewrite pack_choices_bit by exact Hr8.
      rewrite Ex, andb_false_r, xorb_false_r. reflexivity.
  - rewrite andb_false_r. apply Z. split; auto.
Qed.

(** The sums, and the result of the check in terms of the rows that packing drops. *)
Variable chi : bytes.
Hypothesis chi_ok : array_ok (16 * l) chi.
Definition xs (f : nat -> bool) : N := xsum (fun i => if nth i x false && f i then rowv chi i else 0) l.
Lemma xs_lt f : xs f < 2 ^ 128.
Proof.
  destruct chi_ok. apply xsum_lt. intros i Hi. destruct (nth i x false && f i); [eapply rowv_lt; eauto|lia].
Qed.

Lemma q_sum_value t qt : length t = (16 * l)%nat -> bytes_ok t -> length qt = (16 * l)%nat -> bytes_ok qt ->
  (forall r, (r < l)%nat -> frow 16 qt r =
    if nth r x false && Nat.ltb r (8 * tw) then zipWith N.lxor (frow 16 t r) delta else frow 16 t r) ->
  xsum (fun i => gmul (rowv qt i) (rowv chi i)) l =
  N.lxor (xsum (fun i => gmul (rowv t i) (rowv chi i)) l) (gmul (xs (fun i => Nat.ltb i (8 * tw))) dv).
Proof.
  intros L B L' B' H. destruct chi_ok as [Lc Hc]. destruct delta_ok as [Ld Hd]. pose proof dv_lt as Hdv.
  unfold xs. rewrite <- xsum_gmul; auto.
  - rewrite <- xsum_lxor. apply xsum_ext. intros i Hi. unfold rowv at 1. rewrite (H i Hi).
    pose proof (rowv_lt t i l L B Hi) as Ht. pose proof (rowv_lt chi i l Lc Hc Hi) as Hch.
    destruct (nth i x false && (i <? 8 * tw)%nat).
    + destruct (frow_elem t i l L B Hi) as [Lt Bt].
      destruct (le_value_xor (frow 16 t i) delta) as [V _]; auto; [congruence|]. rewrite V.
      fold dv. change (le_value (frow 16 t i)) with (rowv t i). rewrite gmul_lxor_l by auto. f_equal. now apply gmul_comm.
    + rewrite gmul_0_l by auto. now rewrite N.lxor_0_r.
  - intros i Hi. destruct (nth i x false && (i <? 8 * tw)%nat); [eapply rowv_lt; eauto|lia].
Qed.

Lemma xs_split : xs (fun _ => true) = N.lxor (xs (fun i => Nat.ltb i (8 * tw))) (xs (fun i => Nat.leb (8 * tw) i)).
Proof.
  unfold xs. rewrite <- xsum_lxor. apply xsum_ext. intros i Hi. rewrite andb_true_r.
  destruct (nth i x false); cbn [andb]; [|reflexivity].
  destruct (Nat.ltb_spec i (8 * tw)) as [Hl|Hl].
  - rewrite (proj2 (Nat.leb_gt _ _) Hl). now rewrite N.lxor_0_r.
  - rewrite (proj2 (Nat.leb_le _ _) Hl). now rewrite N.lxor_0_l.
Qed.

Lemma check_value p' a' t qt : length t = (16 * l)%nat -> bytes_ok t -> length qt = (16 * l)%nat -> bytes_ok qt ->
  (forall r, (r < l)%nat -> frow 16 qt r =
    if nth r x false && Nat.ltb r (8 * tw) then zipWith N.lxor (frow 16 t r) delta else frow 16 t r) ->
  exists q_sum x_sum t_sum,
    row_sum a qt chi 16 l = Ok q_sum /\
    receiver_sums p' a' t chi x 16 l = Ok (x_sum, t_sum) /\
    sender_check p a q_sum delta x_sum t_sum 16 =
      if gmul (xs (fun i => Nat.leb (8 * tw) i)) dv =? 0 then Ok tt else Err ECorrelation.
Proof.
  intros L B L' B' H. destruct chi_ok as [Lc Hc].
  rewrite row_sum_ok by auto. rewrite receiver_sums_ok by auto.
  eexists _, _, _. split; [reflexivity|]. split; [reflexivity|].
  assert (Hq : xsum (fun i => gmul (rowv qt i) (rowv chi i)) l < 2 ^ 128).
  { apply xsum_lt. intros i Hi. apply gmul_lt; eapply rowv_lt; eauto. }
  assert (Ht : xsum (fun i => gmul (rowv t i) (rowv chi i)) l < 2 ^ 128).
  { apply xsum_lt. intros i Hi. apply gmul_lt; eapply rowv_lt; eauto. }
  assert (Ex : xsum (fun i => if nth i x false then rowv chi i else 0) l = xs (fun _ => true)).
  { apply xsum_ext. intros. now rewrite andb_true_r. }
  rewrite Ex. pose proof (xs_lt (fun _ => true)) as Hx. pose proof dv_lt as Hdv.
  rewrite sender_check_ok; auto. rewrite (q_sum_value t qt) by auto. rewrite xs_split.
  set (tsum := xsum (fun i => gmul (rowv t i) (rowv chi i)) l) in *.
  pose proof (xs_lt (fun i => Nat.ltb i (8 * tw))) as H1. pose proof (xs_lt (fun i => Nat.leb (8 * tw) i)) as H2.
  fold dv. rewrite gmul_lxor_l by auto.
  set (g1 := gmul (xs (fun i => Nat.ltb i (8 * tw))) dv). set (g2 := gmul (xs (fun i => Nat.leb (8 * tw) i)) dv).
  rewrite N.lxor_assoc, <- (N.lxor_assoc g1), N.lxor_nilpotent, N.lxor_0_l.
  destruct (N.eqb_spec g2 0) as [->|Hn].
  - now rewrite N.lxor_0_r, N.eqb_refl.
  - rewrite (proj2 (N.eqb_neq _ _)); auto. intros E. apply Hn.
    apply (f_equal (N.lxor tsum)) in E. rewrite N.lxor_nilpotent, <- N.lxor_assoc, N.lxor_nilpotent, N.lxor_0_l in E. auto.
Qed.
End Honest.
