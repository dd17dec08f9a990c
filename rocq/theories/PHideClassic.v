(** The frames of the receiver of the classic OT extension fit every choice. *)
From Coq Require Import List NArith Bool Arith Lia.
From Verif Require Import Base MUtil MWires MBitMatrix MPoly MPar MBincode MProc MOt MApricot MClassic.
From Verif Require Import SpecUtil SpecBitMatrix SpecPoly SpecBincode SpecOt SpecApricot SpecPads SpecHide.
From Verif Require Import PBase PUtil PBitMatrix PPoly PPar PBincode PProc POt PApricotA PApricot PClassic PHide PBounds PEnds2.
Import ListNotations.
Open Scope N_scope.

Section Receiver.
Variable gen20 : bytes -> nat -> bytes.
Hypothesis gen20_ok : generator gen20.
Variables (p : profile) (a : option arch) (seed0 seed1 : list bytes).
Hypothesis seed0_ok : seeds_ok seed0.
Hypothesis seed1_ok : seeds_ok seed1.
Variable w : list bool.
Hypothesis w_len : length w = 128%nat.
Hypothesis apart : forall s, In s (seen w seed0 seed1) -> In s (unseen w seed0 seed1) -> False.
Variables x x' : list bool.
Hypothesis same_len : length x' = length x.
Hypothesis l8 : length x = (8 * (length x / 8))%nat.
Hypothesis lpos : (0 < length x)%nat.
Let l : nat := length x.
Let dx : list bool := flipped x x'.
Let delta : bytes := pack_choices w.
Let gen' : bytes -> nat -> bytes := switch (unseen w seed0 seed1) (l / 8) (pack_choices dx) gen20.

Lemma u_same : classic_u p (monochrome x' COMP_SEC) (expand_rows gen' l seed0) (expand_rows gen' l seed1) =
  classic_u p (monochrome x COMP_SEC) (expand_rows gen20 l seed0) (expand_rows gen20 l seed1).
Proof.
  assert (Hg' : generator gen') by (now apply fill'_ok).
  unfold l. rewrite (classic_u_ok gen20 gen20_ok seed0 seed1 seed0_ok seed1_ok x p).
  pose proof (classic_u_ok gen' Hg' seed0 seed1 seed0_ok seed1_ok x' p) as E. rewrite same_len in E. rewrite E. clear E.
  f_equal. apply map_ext_in. intros i Hi. apply in_seq in Hi.
  pose proof (T0' gen20 seed0 seed1 seed0_ok seed1_ok w w_len apart x x' same_len i ltac:(lia)) as E0.
  pose proof (T1' gen20 seed0 seed1 seed0_ok seed1_ok w w_len apart x x' same_len i ltac:(lia)) as E1.
  unfold T in E0, E1. fold dx l gen' in E0, E1. fold l. rewrite E0, E1. unfold Q. rewrite (delta_bit w w_len i) by lia. unfold T.
  unfold dx. rewrite pack_flipped by exact same_len. fold l.
  destruct (gen20_ok (nth i seed0 []) (l / 8)%nat) as [A0 _]. destruct (gen20_ok (nth i seed1 []) (l / 8)%nat) as [A1 _].
  assert (P1 : length (pack_choices x) = (l / 8)%nat) by apply pack_choices_length.
  assert (P2 : length (pack_choices x') = (l / 8)%nat) by (rewrite pack_choices_length; now rewrite same_len).
  assert (Z : forall t0 t1 y z : bytes, length t0 = length t1 -> length t0 = length y -> length t0 = length z ->
    zipWith N.lxor (zipWith N.lxor z (zipWith N.lxor t0 (zipWith N.lxor y z))) t1 = zipWith N.lxor (zipWith N.lxor y t0) t1 /\
    zipWith N.lxor (zipWith N.lxor z t0) (zipWith N.lxor t1 (zipWith N.lxor y z)) = zipWith N.lxor (zipWith N.lxor y t0) t1).
  { clear. induction t0 as [|b t0 IH]; intros [|c t1] [|d y] [|e z] L M K; cbn in *; try discriminate; auto.
    destruct (IH t1 y z) as [I1 I2]; try lia. split; f_equal; auto;
      apply N.bits_inj; intro; rewrite ?N.lxor_spec;
      repeat match goal with |- context [N.testbit ?a ?n] => destruct (N.testbit a n) end; reflexivity. }
  destruct (Z (gen20 (nth i seed0 []) (l / 8)%nat) (gen20 (nth i seed1 []) (l / 8)%nat) (pack_choices x) (pack_choices x')) as [G1 G2];
    [congruence|congruence|congruence|]. destruct (nth i w false); [exact G1|exact G2].
Qed.

(** The rows of the two receivers and their sums. *)
Lemma sums_same seed : weighted x (gen20 seed (16 * l)) = weighted x' (gen20 seed (16 * l)) ->
  exists t t', transpose (expand_rows gen20 l seed0) = Ok t /\ transpose (expand_rows gen' l seed0) = Ok t' /\
  classic_receiver_sums p a x' t' (classic_chi gen' seed l) = classic_receiver_sums p a x t (classic_chi gen20 seed l).
Proof.
  intros Hw. assert (Hg' : generator gen') by (now apply fill'_ok).
  assert (Hd : array_ok 16 delta) by (now apply delta_ok).
  assert (Ldx : length dx = l) by (unfold dx; now apply flipped_length).
  assert (Hdl8 : length dx = (8 * (length dx / 8))%nat) by (rewrite Ldx; exact l8).
  destruct (classic_rows gen20 gen20_ok delta seed0 seed1 Hd seed0_ok dx Hdl8) as (t & q & Et & Lt & Ht & Eq & Lq & Hq & Rows).
  rewrite Ldx in *.
  assert (Ee : expand_rows gen' l seed0 = map (fun i => if bit_of delta i then zipWith N.lxor (pack_choices dx) (gen20 (nth i seed0 []) (l / 8)%nat) else gen20 (nth i seed0 []) (l / 8)%nat) (seq 0 128)).
  { unfold l. rewrite (expand_rows_eq gen' x seed0) by apply seed0_ok. apply map_ext_in. intros i Hi. apply in_seq in Hi.
    pose proof (T0' gen20 seed0 seed1 seed0_ok seed1_ok w w_len apart x x' same_len i ltac:(lia)) as E0.
    unfold T in E0. fold dx l gen' in E0. fold l. rewrite E0. unfold Q, T. fold delta.
    destruct (bit_of delta i); [|reflexivity]. apply zipWith_comm. apply N.lxor_comm. }
  exists t, q. split; [exact Et|]. split; [rewrite Ee; exact Eq|].
  assert (Ec : classic_chi gen' seed l = classic_chi gen20 seed l).
  { unfold classic_chi. replace (gen' seed (16 * l)%nat) with (gen20 seed (16 * l)%nat); [reflexivity|]. symmetry. unfold gen'. destruct (Nat.eq_dec l 0) as [Z|Z].
    - exfalso. unfold l in Z. lia.
    - apply fill'_len. unfold l in Z |- *. lia. }
  rewrite Ec. unfold classic_chi. change (list N) with bytes. set (C := fun i => firstn 16 (skipn (16 * i) (gen20 seed (16 * l))) : bytes).
  assert (HC : forall i, (i < l)%nat -> elem (C i)).
  { intros i Hi. destruct (gen20_ok seed (16 * l)%nat) as [L B]. apply (frow_elem _ i l); auto. }
  rewrite (tabulate q [] l Lq), (tabulate t [] l Lt).
  rewrite (classic_sums_ok a p x' (fun i => nth i q []) C l same_len Hq HC), (classic_sums_ok a p x (fun i => nth i t []) C l eq_refl Ht HC).
  assert (LC : forall i, (i < l)%nat -> le_value (C i) < 2 ^ 128) by (intros i Hi; destruct (HC i Hi); now apply le_value16_lt).
  assert (Lv : forall i, (i < l)%nat -> le_value (nth i t []) < 2 ^ 128) by (intros i Hi; destruct (Ht i Hi); now apply le_value16_lt).
  assert (Hdv : le_value delta < 2 ^ 128) by (destruct Hd; now apply le_value16_lt).
  assert (W : forall y, length y = l -> weighted y (gen20 seed (16 * l)) = xsum (fun i => if nth i y false then le_value (C i) else 0) l).
  { intros y Ly. rewrite weighted_xsum, Ly. reflexivity. }
  apply (f_equal (@Ok _)). apply f_equal2; apply (f_equal (le_bytes 16)).
  - rewrite <- (W x' same_len), <- (W x eq_refl). now symmetry.
  - assert (Z : xsum (fun i => if nth i dx false then le_value (C i) else 0) l = 0).
    { rewrite <- (W dx Ldx). unfold dx. rewrite weighted_flipped by exact same_len. rewrite Hw. apply N.lxor_nilpotent. }
    transitivity (N.lxor (xsum (fun i => gmul (le_value (nth i t [])) (le_value (C i))) l) (gmul (xsum (fun i => if nth i dx false then le_value (C i) else 0) l) (le_value delta))).
    2:{ rewrite Z, gmul_0_l by exact Hdv. apply N.lxor_0_r. }
    rewrite <- xsum_gmul; auto.
    + rewrite <- xsum_lxor. apply xsum_ext. intros i Hi. rewrite (Rows i Hi). destruct (nth i dx false).
      * destruct (Ht i Hi) as [L1 B1]. destruct Hd as [Ld Bd].
        destruct (le_value_xor (nth i t []) delta) as [V _]; auto; [congruence|]. rewrite V.
        rewrite gmul_lxor_l by auto. f_equal. apply gmul_comm; [exact Hdv|exact (LC i Hi)].
      * rewrite gmul_0_l by auto. now rewrite N.lxor_0_r.
    + intros i Hi. destruct (nth i dx false); [auto|lia].
Qed.
End Receiver.

Lemma classic_hides sha gen20 gen8 p a cv bonus bonus' seed0 seed1 boot k w choices choices' ins :
  generator gen20 -> seeds_ok seed0 -> seeds_ok seed1 -> length w = 128%nat ->
  (forall s, In s (seen w seed0 seed1) -> In s (unseen w seed0 seed1) -> False) ->
  (forall j out r, feedr (boot (combine seed0 seed1)) j = (Ok tt, out, r) -> r = skipn k j) ->
  length choices' = length choices -> length bonus = 192%nat -> length bonus' = 192%nat -> (length choices mod 8 = 0)%nat ->
  weighted (choices ++ bonus) (gen20 (xored cv (nth (S k) ins [])) (16 * (length choices + 192))%nat) =
  weighted (choices' ++ bonus') (gen20 (xored cv (nth (S k) ins [])) (16 * (length choices + 192))%nat) ->
  snd (feed (classic_receiver sha (switch (unseen w seed0 seed1) ((length choices + 192) / 8)%nat
         (pack_choices (flipped (choices ++ bonus) (choices' ++ bonus'))) gen20) gen8 p a cv bonus' seed0 seed1 boot choices') ins) =
  snd (feed (classic_receiver sha gen20 gen8 p a cv bonus seed0 seed1 boot choices) ins).
Proof.
  intros Hg S0 S1 Lw Hap Hk Lc Lb Lb' H8 Hw. set (x := choices ++ bonus). set (x' := choices' ++ bonus').
  assert (Lx : length x = (length choices + 192)%nat) by (unfold x; rewrite app_length; lia).
  assert (Lx' : length x' = length x) by (unfold x, x'; rewrite !app_length; lia).
  rewrite <- Lx in Hw |- *. fold x x' in Hw. set (gen' := switch _ _ _ gen20).
  assert (E8 : length x = (8 * (length x / 8))%nat).
  { rewrite Lx. assert (((length choices + 192) mod 8 = 0)%nat) by (rewrite Nat.add_mod, H8 by lia; reflexivity).
    pose proof (Nat.div_mod (length choices + 192) 8). lia. }
  unfold classic_receiver. rewrite Lc. fold x x'. cbv zeta.
  apply frames_bind. intros [] o1 r1 E1. apply validate_feedr in E1. destruct E1 as (m1 & ->).
  apply frames_bind. intros [] o2 r2 E2. assert (r2 = r1) as -> by (destruct (assert_ _); inversion E2; auto). clear E2 o2.
  apply frames_bind. intros [] o3 r3 E3. assert (r3 = r1) as -> by (destruct (assert_ _); inversion E3; auto). clear E3 o3.
  unfold receiver_cote. rewrite Lx'. cbv zeta.
  pose proof (u_same gen20 Hg p seed0 seed1 S0 S1 w Lw Hap x x' Lx' E8 ltac:(lia)) as Eu. fold gen' in Eu. rewrite Eu. clear Eu.
  rewrite (classic_u_ok gen20 Hg seed0 seed1 S0 S1 x p). set (u := map _ (seq 0 128)).
  rewrite !(feed_peq _ _ (pbind_assoc _ _ _)).
  apply frames_bind. intros [] o4 r4 E4. apply Hk in E4. subst r4.
  rewrite !lift_ok. rewrite !(feed_peq _ _ (pbind_assoc _ _ _)).
  apply frames_bind. intros [] o5 r5 E5. assert (r5 = skipn k r1) as -> by (now inversion E5). clear E5 o5.
  cbn [nth] in Hw.
  destruct (sums_same gen20 Hg p a seed0 seed1 S0 S1 w Lw Hap x x' Lx' E8 ltac:(lia) (xored cv (@nth bytes k r1 [])) Hw) as (t & t' & Et & Et' & Es).
  fold gen' in Et', Es. rewrite Et, Et', !lift_ok.
  unfold receiver_correlation. rewrite Lx'. rewrite !(feed_peq _ _ (pbind_assoc _ _ _)).
  apply frames_bind. intros seed o6 r6 E6. apply coinflip_feedr in E6. destruct E6 as (v & E6 & ->).
  assert (Ev : @nth bytes k r1 [] = v) by (clear - E6; revert r1 E6; induction k; intros [|? ?] E6; cbn in *; try discriminate; [congruence|auto]).
  rewrite Ev in Es. cbv zeta. rewrite Es.
  rewrite !(feed_peq _ _ (pbind_assoc _ _ _)).
  apply frames_bind. intros [xs ts] o7 r7 _. rewrite !(feed_peq _ _ (pbind_assoc _ _ _)).
  apply frames_bind. intros [] o8 r8 _. apply frames_bind. intros [] o9 r9 _.
  assert (Q : forall g y t ins, snd (feed (receiver_de_rot sha g p y t) ins) = []).
  { clear. intros g y t ins. unfold receiver_de_rot. destruct ins as [|m ins]; [reflexivity|]. cbn. destruct (deserialize dec_rows m); try reflexivity.
    destruct ins as [|m' ins]; [reflexivity|]. cbn. destruct (deserialize dec_rows m'); reflexivity. }
  rewrite !Q. reflexivity.
Qed.

Lemma classic_hides_all sha gen8 p a cv seed0 seed1 boot k w choices choices' ins chi :
  seeds_ok seed0 -> seeds_ok seed1 -> length w = 128%nat ->
  (forall s, In s (seen w seed0 seed1) -> In s (unseen w seed0 seed1) -> False) ->
  (forall j out r, feedr (boot (combine seed0 seed1)) j = (Ok tt, out, r) -> r = skipn k j) ->
  length choices' = length choices -> (length choices mod 8 = 0)%nat ->
  bytes_ok chi -> spans 192 (skipn (16 * length choices) chi) ->
  exists b0 d, length b0 = 192%nat /\ array_ok ((length choices + 192) / 8) d /\
  forall gen20 bonus, generator gen20 -> gen20 (xored cv (nth (S k) ins [])) (16 * (length choices + 192))%nat = chi -> length bonus = 192%nat ->
  snd (feed (classic_receiver sha (switch (unseen w seed0 seed1) ((length choices + 192) / 8)%nat d gen20) gen8 p a cv (flipped bonus b0) seed0 seed1 boot choices') ins) =
  snd (feed (classic_receiver sha gen20 gen8 p a cv bonus seed0 seed1 boot choices) ins).
Proof.
  intros S0 S1 Lw Hap Hk Lc H8 Hc Hs.
  destruct (Hs (N.lxor (weighted choices chi) (weighted choices' chi))) as (b0 & L0 & E0).
  { apply lxor_lt2; now apply weighted_lt. }
  exists b0, (pack_choices (flipped choices choices' ++ b0)). split; [exact L0|]. split.
  { split; [|apply pack_choices_ok]. rewrite pack_choices_length, app_length, flipped_length by exact Lc. now rewrite L0. }
  intros gen20 bonus Hf Ec Lb.
  assert (Lf : length (flipped bonus b0) = 192%nat) by (rewrite flipped_length; congruence).
  rewrite <- (flipped_flipped bonus b0) at 1 by congruence.
  rewrite <- flipped_app by (symmetry; exact Lc).
  apply (classic_hides sha gen20 gen8 p a cv bonus (flipped bonus b0) seed0 seed1 boot k); try assumption. rewrite Ec, !weighted_app, Lc.
  rewrite weighted_flipped by congruence. rewrite E0.
  generalize (weighted choices chi) (weighted choices' chi) (weighted bonus (skipn (16 * length choices) chi)). clear.
  intros x y z. apply N.bits_inj. intro b. rewrite !N.lxor_spec.
  destruct (N.testbit x b), (N.testbit y b), (N.testbit z b); reflexivity.
Qed.

Lemma classic_hides_same sha gen20 gen8 p a cv bonus bonus' seed0 seed1 boot k w choices choices' ins :
  generator gen20 -> seeds_ok seed0 -> seeds_ok seed1 -> length w = 128%nat ->
  (forall s, In s (seen w seed0 seed1) -> In s (unseen w seed0 seed1) -> False) ->
  (forall j out r, feedr (boot (combine seed0 seed1)) j = (Ok tt, out, r) -> r = skipn k j) ->
  length choices' = length choices -> length bonus = 192%nat -> length bonus' = 192%nat -> (length choices mod 8 = 0)%nat ->
  weighted (choices ++ bonus) (gen20 (xored cv (nth (S k) ins [])) (16 * (length choices + 192))%nat) =
  weighted (choices' ++ bonus') (gen20 (xored cv (nth (S k) ins [])) (16 * (length choices + 192))%nat) ->
  exists d, array_ok ((length choices + 192) / 8) d /\
  snd (feed (classic_receiver sha (switch (unseen w seed0 seed1) ((length choices + 192) / 8)%nat d gen20) gen8 p a cv bonus' seed0 seed1 boot choices') ins) =
  snd (feed (classic_receiver sha gen20 gen8 p a cv bonus seed0 seed1 boot choices) ins).
Proof.
  intros Hg S0 S1 Lw Hap Hk Lc Lb Lb' H8 Hw. eexists. split; [|exact (classic_hides sha gen20 gen8 p a cv bonus bonus' seed0 seed1 boot k w choices choices' ins Hg S0 S1 Lw Hap Hk Lc Lb Lb' H8 Hw)].
  split; [|apply pack_choices_ok]. rewrite pack_choices_length, flipped_length by (rewrite !app_length; congruence). now rewrite app_length, Lb.
Qed.

(** The base OT that the code runs reads its greeting and one point for each of the 128 pairs. *)
Lemma base_reads sha gen G p rs seed0 seed1 : seeds_ok seed0 -> seeds_ok seed1 ->
  forall j out r, feedr (co_sender sha gen G p rs (combine seed0 seed1)) j = (Ok tt, out, r) -> r = skipn 129 j.
Proof.
  intros [L0 _] [L1 _] j out r F.
  pose proof (holds_rest _ _ 0 _ _ _ _ (holds_co_sender sha gen G p (fun _ _ => True) rs (combine seed0 seed1) 0) F) as [_ R].
  rewrite combine_length, L0, L1 in R. exact R.
Qed.
