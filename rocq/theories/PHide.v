(** The frames of the Apricot receiver fit every choice. *)
From Coq Require Import List NArith Bool Arith Lia.
From Verif Require Import Base MUtil MWires MBitMatrix MPoly MPar MBincode MProc MOt MApricot.
From Verif Require Import SpecUtil SpecBitMatrix SpecPoly SpecBincode SpecOt SpecApricot SpecPads SpecHide.
From Verif Require Import PBase PUtil PBitMatrix PPoly PPar PBincode PProc POt PApricotA PApricot.
Import ListNotations.
Open Scope N_scope.

Lemma xored_zip a : forall b, xored a b = zipWith N.lxor a b.
Proof. unfold xored. induction a as [|x a IH]; intros [|y b]; cbn; auto. now rewrite IH. Qed.
Lemma switch_twice S n d fill : (forall s, length (fill s n) = n) -> length d = n ->
  forall s m, switch S n d (switch S n d fill) s m = fill s m.
Proof.
  intros Hf Hd s m. unfold switch. destruct (existsb (bytes_eqb s) S && Nat.eqb m n) eqn:E; [|reflexivity].
  apply andb_true_iff in E. destruct E as [_ E]. apply Nat.eqb_eq in E. subst m. specialize (Hf s).
  revert Hf Hd. generalize (fill s n) as y. clear. intros y. revert d n. unfold xored.
  induction y as [|b y IH]; intros [|c d] n L M; cbn in *; subst; try discriminate; auto.
  f_equal; [|apply (IH d (length d)); lia].
  now rewrite N.lxor_assoc, N.lxor_nilpotent, N.lxor_0_r.
Qed.

Lemma switch_ok S n d fill : generator fill -> array_ok n d -> generator (switch S n d fill).
Proof.
  intros Hf [Ld Hd] s m. unfold switch. destruct (existsb (bytes_eqb s) S && Nat.eqb m n) eqn:E; [|apply Hf].
  apply andb_true_iff in E. destruct E as [_ E]. apply Nat.eqb_eq in E. subst m. rewrite xored_zip. destruct (Hf s n) as [L B].
  rewrite zipWith_length, L, Ld. split; [lia|now apply xor_bytes_okay].
Qed.

(** ** Sums *)
Lemma xsum_shift f n : xsum f (S n) = N.lxor (f 0%nat) (xsum (fun i => f (S i)) n).
Proof.
  induction n as [|n IH]; [cbn [xsum]; apply N.lxor_comm|].
  change (xsum f (S (S n))) with (N.lxor (xsum f (S n)) (f (S n))). rewrite IH. cbn [xsum]. now rewrite N.lxor_assoc.
Qed.
Lemma weighted_xsum x : forall chi, weighted x chi = xsum (fun i => if nth i x false then rowv chi i else 0) (length x).
Proof.
  induction x as [|b x IH]; intros chi; [reflexivity|]. cbn [weighted length]. rewrite xsum_shift. cbn [nth]. f_equal.
  rewrite IH. apply xsum_ext. intros i Hi. destruct (nth i x false); [|reflexivity]. unfold rowv, frow. do 2 f_equal.
  rewrite skipn_skipn'. f_equal. lia.
Qed.
Lemma weighted_app x y : forall chi, weighted (x ++ y) chi = N.lxor (weighted x chi) (weighted y (skipn (16 * length x) chi)).
Proof.
  induction x as [|b x IH]; intros chi; [cbn; reflexivity|]. cbn [weighted app length]. rewrite IH, N.lxor_assoc.
  rewrite skipn_skipn'. do 3 f_equal. f_equal. lia.
Qed.
Lemma weighted_flipped x : forall d chi, length d = length x -> weighted (flipped x d) chi = N.lxor (weighted x chi) (weighted d chi).
Proof.
  induction x as [|b x IH]; intros [|c d] chi L; cbn in L; try discriminate; [reflexivity|].
  unfold flipped in *. cbn [combine map fst snd weighted]. rewrite IH by lia.
  set (v := le_value (firstn 16 chi)). set (p := weighted x _). set (q := weighted d _).
  assert (E : (if xorb b c then v else 0) = N.lxor (if b then v else 0) (if c then v else 0)).
  { destruct b, c; cbn; rewrite ?N.lxor_nilpotent, ?N.lxor_0_r, ?N.lxor_0_l; reflexivity. }
  rewrite E. set (r := if b then v else 0). set (s := if c then v else 0).
  rewrite !N.lxor_assoc. f_equal. rewrite <- !N.lxor_assoc. f_equal. apply N.lxor_comm.
Qed.
Lemma weighted_lt x : forall chi, bytes_ok chi -> weighted x chi < 2 ^ 128.
Proof.
  induction x as [|b x IH]; intros chi H; cbn [weighted]; [lia|]. apply lxor_lt2.
  - destruct b; [|lia].
    assert (Hb : bytes_ok (firstn 16 chi)) by (apply Forall_firstn; exact H).
    eapply N.lt_le_trans; [apply le_value_lt; exact Hb|]. rewrite firstn_length.
    apply N.pow_le_mono_r; lia.
  - apply IH. apply Forall_skipn. exact H.
Qed.
Lemma flipped_length x d : length d = length x -> length (flipped x d) = length x.
Proof. intros L. unfold flipped. rewrite map_length, combine_length. lia. Qed.
Lemma flipped_nth x : forall d i, length d = length x -> nth i (flipped x d) false = xorb (nth i x false) (nth i d false).
Proof. induction x as [|b x IH]; intros [|c d] [|i] L; cbn in L; try discriminate; try reflexivity. unfold flipped in *. cbn [combine map nth]. apply IH. lia. Qed.
Lemma flipped_flipped x : forall d, length d = length x -> flipped x (flipped x d) = d.
Proof.
  induction x as [|b x IH]; intros [|c d] L; cbn in L; try discriminate; try reflexivity. unfold flipped in *. cbn [combine map fst snd]. rewrite IH by lia. f_equal. now destruct b, c.
Qed.
Lemma flipped_comm x : forall d, length d = length x -> flipped x d = flipped d x.
Proof. induction x as [|b x IH]; intros [|c d] L; cbn in L; try discriminate; try reflexivity. unfold flipped in *. cbn [combine map fst snd]. rewrite IH by lia. f_equal. apply xorb_comm. Qed.

Lemma byte_ext a b : byte_ok a -> byte_ok b -> (forall k, (k < 8)%nat -> N.testbit a (N.of_nat k) = N.testbit b (N.of_nat k)) -> a = b.
Proof.
  intros Ha Hb H. apply N.bits_inj. intros k. destruct (N.lt_ge_cases k 8).
  - specialize (H (N.to_nat k) ltac:(lia)). now rewrite N2Nat.id in H.
  - rewrite !(high_bits _ 8); auto.
Qed.
Lemma pack_flipped x d : length d = length x -> pack_choices (flipped x d) = zipWith N.lxor (pack_choices x) (pack_choices d).
Proof.
  intros L. unfold pack_choices. rewrite flipped_length, L by exact L.
  generalize (seq 0 (length x / BLOCK_SIZE)) as js. induction js as [|j js IH]; [reflexivity|]. cbn [map zipWith]. f_equal; [|exact IH].
  apply byte_ext; [apply pack8_lt|apply (lxor_lt2 8); apply pack8_lt|].
  intros k Hk. rewrite N.lxor_spec, !pack8_bit by exact Hk. now apply flipped_nth.
Qed.

(** ** Frames *)
Lemma frames_bind {A B} (q : proc A) (f g : A -> proc B) ins :
  (forall a out rest, feedr q ins = (Ok a, out, rest) -> snd (feed (f a) rest) = snd (feed (g a) rest)) ->
  snd (feed (pbind q f) ins) = snd (feed (pbind q g) ins).
Proof.
  intros H. rewrite !feed_bind. destruct (feedr q ins) as [[o out] rest] eqn:E. destruct o as [a|e|r|]; try reflexivity.
  specialize (H a out rest eq_refl). cbn [after]. destruct (feed (f a) rest), (feed (g a) rest). cbn in *. now rewrite H.
Qed.
Lemma lift_ok {A B} (a : A) (f : A -> proc B) : pbind (lift (Ok a)) f = f a.
Proof. reflexivity. Qed.
Lemma validate_feedr pb ins u out rest : feedr (validate_properties pb) ins = (Ok u, out, rest) -> exists m, ins = m :: rest.
Proof.
  unfold validate_properties, send, recv, lift, ret. cbn. destruct ins as [|m ins]; cbn; [discriminate|].
  destruct (deserialize dec_props m) as [pb2|e|r|]; cbn; try discriminate. destruct (props_eqb pb2 pb); cbn; [|discriminate].
  intros [= _ _ <-]. now exists m.
Qed.
Lemma coinflip_feedr sha v ins s out rest : feedr (coinflip_sender sha 32 v) ins = (Ok s, out, rest) ->
  exists u, ins = u :: rest /\ s = xored v u.
Proof.
  unfold coinflip_sender, send, recv, ret. cbn -[Nat.eqb]. destruct ins as [|m ins]; cbn -[Nat.eqb]; [discriminate|].
  destruct (negb (Nat.eqb (length m) 32)); cbn; [discriminate|]. intros [= <- _ <-]. exists m. split; [reflexivity|]. unfold xor_arrays. now rewrite xored_zip.
Qed.

Lemma existsb_In s S : existsb (bytes_eqb s) S = true <-> In s S.
Proof.
  rewrite existsb_exists. split.
  - intros (y & Hy & E). apply bytes_eqb_eq in E. now subst.
  - intros H. exists s. split; [exact H|now apply bytes_eqb_eq].
Qed.

Lemma seen_length w s0 s1 : length w = 128%nat -> length s0 = 128%nat -> length s1 = 128%nat -> length (seen w s0 s1) = 128%nat.
Proof. intros. unfold seen. rewrite map_length, !combine_length. lia. Qed.
Lemma seen_nth w : forall s0 s1 i, length s0 = length w -> length s1 = length w -> (i < length w)%nat ->
  nth i (seen w s0 s1) [] = if nth i w false then nth i s1 [] else nth i s0 [].
Proof.
  unfold seen. induction w as [|b w IH]; intros [|x s0] [|y s1] [|i] L0 L1 Hi; cbn in L0, L1, Hi; try discriminate; try lia; [reflexivity|].
  cbn [combine map nth]. apply IH; lia.
Qed.

(** ** The receiver *)
Section Receiver.
Variable fill : bytes -> nat -> bytes.
Hypothesis fill_ok : generator fill.
Variables (p : profile) (a : arch) (seed0 seed1 : list bytes).
Hypothesis seed0_ok : seeds_ok seed0.
Hypothesis seed1_ok : seeds_ok seed1.
Variable w : list bool.
Hypothesis w_len : length w = 128%nat.
Hypothesis apart : forall s, In s (seen w seed0 seed1) -> In s (unseen w seed0 seed1) -> False.
Variables x x' : list bool.
Hypothesis same_len : length x' = length x.
Let l : nat := length x.
Let dx : list bool := flipped x x'.
Let delta : bytes := pack_choices w.
Let fill' : bytes -> nat -> bytes := switch (unseen w seed0 seed1) (l / 8) (pack_choices dx) fill.

Lemma dx_len : length dx = l.
Proof. unfold dx. now apply flipped_length. Qed.
Lemma fill'_ok : generator fill'.
Proof. apply switch_ok; [exact fill_ok|]. split; [|apply pack_choices_ok]. rewrite pack_choices_length. now rewrite dx_len. Qed.
Lemma delta_ok : array_ok 16 delta.
Proof. split; [|apply pack_choices_ok]. unfold delta. rewrite pack_choices_length, w_len. reflexivity. Qed.
Lemma delta_bit i : (i < 128)%nat -> bit_of delta i = nth i w false.
Proof. intros Hi. unfold delta. apply pack_choices_bit. rewrite w_len. exact Hi. Qed.

Lemma fill'_in i s : (i < 128)%nat -> nth i (unseen w seed0 seed1) [] = s ->
  fill' s (l / 8)%nat = zipWith N.lxor (fill s (l / 8)%nat) (pack_choices dx).
Proof.
  intros Hi E. unfold fill', switch. rewrite (proj2 (existsb_In _ _)), Nat.eqb_refl. { cbn [andb]. apply xored_zip. }
  rewrite <- E. apply nth_In. unfold unseen. rewrite seen_length; rewrite ?map_length; try lia; [apply seed0_ok|apply seed1_ok].
Qed.
Lemma fill'_out i s m : (i < 128)%nat -> nth i (seen w seed0 seed1) [] = s -> fill' s m = fill s m.
Proof.
  intros Hi E. unfold fill', switch. destruct (existsb _ _) eqn:X; [|reflexivity]. exfalso. apply existsb_In in X.
  apply (apart s); [|exact X]. rewrite <- E. apply nth_In. rewrite seen_length; try lia; [apply seed0_ok|apply seed1_ok].
Qed.
Lemma fill'_len s m : m <> (l / 8)%nat -> fill' s m = fill s m.
Proof. intros H. unfold fill', switch. apply Nat.eqb_neq in H. now rewrite H, andb_false_r. Qed.

Lemma T0' i : (i < 128)%nat -> T fill' l seed0 i = Q fill seed0 delta l (fun _ => pack_choices dx) i.
Proof.
  intros Hi. destruct seed0_ok as [L0 _], seed1_ok as [L1 _]. unfold Q. rewrite delta_bit by exact Hi. unfold T.
  destruct (nth i w false) eqn:Ew.
  - apply (fill'_in i); [exact Hi|]. unfold unseen. rewrite seen_nth; rewrite ?map_length; try lia.
    rewrite (nth_indep _ false (negb false)) by (rewrite map_length; lia). now rewrite map_nth, Ew.
  - apply (fill'_out i); [exact Hi|]. rewrite seen_nth by lia. now rewrite Ew.
Qed.
Lemma T1' i : (i < 128)%nat -> T fill' l seed1 i = if nth i w false then T fill l seed1 i else zipWith N.lxor (T fill l seed1 i) (pack_choices dx).
Proof.
  intros Hi. destruct seed0_ok as [L0 _], seed1_ok as [L1 _]. unfold T.
  destruct (nth i w false) eqn:Ew.
  - apply (fill'_out i); [exact Hi|]. rewrite seen_nth by lia. now rewrite Ew.
  - apply (fill'_in i); [exact Hi|]. unfold unseen. rewrite seen_nth; rewrite ?map_length; try lia.
    rewrite (nth_indep _ false (negb false)) by (rewrite map_length; lia). now rewrite map_nth, Ew.
Qed.
Lemma TM0' : TM fill' l seed0 = QM fill seed0 delta l (fun _ => pack_choices dx).
Proof. unfold TM, QM. f_equal. apply map_ext_in. intros i Hi. apply in_seq in Hi. apply T0'. lia. Qed.

Lemma U' : UM fill' seed0 seed1 l (fun _ => pack_choices x') = UM fill seed0 seed1 l (fun _ => pack_choices x).
Proof.
  unfold UM. f_equal. apply map_ext_in. intros i Hi. apply in_seq in Hi. unfold U. rewrite T0' by lia. rewrite T1' by lia.
  unfold Q. rewrite delta_bit by lia. unfold dx. rewrite pack_flipped by exact same_len.
  pose proof (T_len fill fill_ok l seed0 i) as A0. pose proof (T_len fill fill_ok l seed1 i) as A1.
  assert (P1 : length (pack_choices x) = (l / 8)%nat) by apply pack_choices_length.
  assert (P2 : length (pack_choices x') = (l / 8)%nat) by (rewrite pack_choices_length; now rewrite same_len).
  revert A0 A1 P1 P2. generalize (T fill l seed0 i) as t0, (T fill l seed1 i) as t1, (pack_choices x) as y, (pack_choices x') as z, (l / 8)%nat as n.
  intros t0 t1 y z n A0 A1 P1 P2.
  assert (G : forall t0 t1 y z : bytes, length t0 = length t1 -> length t0 = length y -> length t0 = length z ->
    zipWith N.lxor (zipWith N.lxor (zipWith N.lxor t0 (zipWith N.lxor y z)) t1) z = zipWith N.lxor (zipWith N.lxor t0 t1) y /\
    zipWith N.lxor (zipWith N.lxor t0 (zipWith N.lxor t1 (zipWith N.lxor y z))) z = zipWith N.lxor (zipWith N.lxor t0 t1) y).
  { clear. induction t0 as [|b t0 IH]; intros [|c t1] [|d y] [|e z] L M K; cbn in *; try discriminate; auto.
    destruct (IH t1 y z) as [I1 I2]; try lia. split; f_equal; auto;
      apply N.bits_inj; intro; rewrite ?N.lxor_spec;
      repeat match goal with |- context [N.testbit ?a ?n] => destruct (N.testbit a n) end; reflexivity. }
  destruct (G t0 t1 y z) as [G1 G2]; try lia. destruct (nth i w false); auto.
Qed.

Lemma sums' chi t t' : array_ok (16 * l) chi -> (8 * (l / 8) = l)%nat -> weighted x chi = weighted x' chi ->
  transpose_matrix (TM fill l seed0) (repeat 0 (16 * l)) 128 (l / 8) 16 = Ok t ->
  transpose_matrix (TM fill' l seed0) (repeat 0 (16 * l)) 128 (l / 8) 16 = Ok t' ->
  receiver_sums p a t' chi x' 16 l = receiver_sums p a t chi x 16 l.
Proof.
  intros [Lc Hc] H8 Hw Et Et'.
  pose proof (honest_rows fill fill_ok seed0 delta delta_ok dx) as H. rewrite dx_len in H.
  destruct H as (t0 & qt & E & L & B & E' & L' & B' & G).
  rewrite TM0' in Et'. rewrite Et in E. rewrite Et' in E'. inversion E; inversion E'; subst t0 qt. clear E E'.
  rewrite (receiver_sums_ok p a t' chi x' l L' B' Lc Hc same_len), (receiver_sums_ok p a t chi x l L B Lc Hc eq_refl).
  apply (f_equal (@Ok _)). apply f_equal2; apply (f_equal (le_bytes 16)).
  - rewrite weighted_xsum in Hw. rewrite (weighted_xsum x'), same_len in Hw. symmetry. exact Hw.
  - pose proof (q_sum_value delta delta_ok dx chi) as V. rewrite dx_len in V.
    rewrite (V (conj Lc Hc) t t' L B L' B' G). clear V G.
    replace (xs dx chi _) with 0; [rewrite gmul_0_l by (unfold dv; apply le_value16_lt; apply delta_ok); apply N.lxor_0_r|].
    unfold xs. rewrite dx_len. symmetry. transitivity (weighted dx chi).
    + rewrite weighted_xsum, dx_len. apply xsum_ext. intros i Hi. rewrite (proj2 (Nat.ltb_lt _ _)) by lia. now rewrite andb_true_r.
    + unfold dx. rewrite weighted_flipped by exact same_len. rewrite Hw. apply N.lxor_nilpotent.
Qed.
End Receiver.

Lemma receiver_hides sha fill p a cores cv bonus bonus' seed0 seed1 boot w choices choices' ins :
  generator fill -> seeds_ok seed0 -> seeds_ok seed1 -> length w = 128%nat ->
  (forall s, In s (seen w seed0 seed1) -> In s (unseen w seed0 seed1) -> False) ->
  length choices' = length choices -> length bonus = 256%nat -> length bonus' = 256%nat -> (length choices mod 8 = 0)%nat ->
  weighted (choices ++ bonus) (fill (xored cv (nth 1 ins [])) (16 * (length choices + 256))%nat) =
  weighted (choices' ++ bonus') (fill (xored cv (nth 1 ins [])) (16 * (length choices + 256))%nat) ->
  snd (feed (ap_receiver sha (switch (unseen w seed0 seed1) ((length choices + 256) / 8)%nat
         (pack_choices (flipped (choices ++ bonus) (choices' ++ bonus'))) fill) p a cores cv bonus' seed0 seed1 boot choices') ins) =
  snd (feed (ap_receiver sha fill p a cores cv bonus seed0 seed1 boot choices) ins).
Proof.
  intros Hf S0 S1 Lw Hap Lc Lb Lb' H8 Hw. set (x := choices ++ bonus). set (x' := choices' ++ bonus').
  assert (Lx : length x = (length choices + 256)%nat) by (unfold x; rewrite app_length; lia).
  assert (Lx' : length x' = length x) by (unfold x, x'; rewrite !app_length; lia).
  rewrite <- Lx in Hw |- *. fold x x' in Hw. set (fill' := switch _ _ _ fill).
  assert (Hf' : generator fill') by (unfold fill'; now apply fill'_ok).
  assert (E8 : (8 * (length x / 8) = length x)%nat).
  { rewrite Lx. assert (((length choices + 256) mod 8 = 0)%nat) by (rewrite Nat.add_mod, H8 by lia; reflexivity).
    pose proof (Nat.div_mod (length choices + 256) 8). lia. }
  unfold ap_receiver. rewrite Lc. cbv zeta. unfold K, S_, K_BYTES. rewrite <- Nat.add_assoc. change (128 + 128)%nat with 256%nat.
  apply frames_bind. intros [] o0 r0 E0. assert (r0 = ins) as -> by (destruct (debug_assert _ _); inversion E0; auto). clear E0 o0.
  apply frames_bind. intros [] o1 r1 E1. apply validate_feedr in E1. destruct E1 as (m1 & ->).
  apply frames_bind. intros seed o2 r2 E2. apply coinflip_feedr in E2. destruct E2 as (u & -> & ->).
  cbn [nth] in Hw.
  apply frames_bind. intros m3 o3 r3 _.
  apply frames_bind. intros msg_size o4 r4 _.
  apply frames_bind. intros [] o5 r5 _.
  rewrite <- Lx. change (16 * 8)%nat with 128%nat.
  fold x x'.
  rewrite (expand_seeds_ok fill Hf (length x) seed0 (proj1 S0)), (expand_seeds_ok fill' Hf' (length x) seed0 (proj1 S0)), !lift_ok.
  rewrite (expand_seeds_ok fill Hf (length x) seed1 (proj1 S1)), (expand_seeds_ok fill' Hf' (length x) seed1 (proj1 S1)), !lift_ok.
  rewrite (compute_u_ok fill Hf p seed0 seed1 x), lift_ok.
  pose proof (compute_u_ok fill' Hf' p seed0 seed1 x') as Eu. rewrite Lx' in Eu. rewrite Eu, lift_ok. clear Eu.
  pose proof (U' fill Hf seed0 seed1 S0 S1 w Lw Hap x x' Lx') as EU. fold fill' in EU. rewrite EU. clear EU.
  apply frames_bind. intros [] o6 r6 _.
  assert (Et : exists t, transpose_matrix (TM fill (length x) seed0) (repeat 0 (16 * length x)) 128 (length x / 8) 16 = Ok t).
  { destruct (honest_rows fill Hf seed0 (pack_choices w) (delta_ok w Lw) x) as (t & _ & Et & _). now exists t. }
  assert (Et' : exists t, transpose_matrix (TM fill' (length x) seed0) (repeat 0 (16 * length x)) 128 (length x / 8) 16 = Ok t).
  { destruct (honest_rows fill' Hf' seed0 (pack_choices w) (delta_ok w Lw) x) as (t & _ & Et' & _). now exists t. }
  destruct Et as (t & Et), Et' as (t' & Et').
  rewrite Et, Et', !lift_ok.
  assert (Ec : fill' (xored cv u) (16 * length x)%nat = fill (xored cv u) (16 * length x)%nat).
  { unfold fill'. apply fill'_len. lia. }
  rewrite Ec.
  pose proof (sums' fill Hf p a seed0 seed1 S0 S1 w Lw Hap x x' Lx' _ t t' (Hf _ _) E8 Hw Et Et') as Es. rewrite Es.
  apply frames_bind. intros [xs ts] o7 r7 _.
  apply frames_bind. intros [] o8 r8 _. apply frames_bind. intros [] o9 r9 _.
  assert (Q : forall f t y ins, snd (feed (let! v := lift (compute_v sha p cores t 16 (length x)) in let! d := recv in lift (derandomize f p cores v y d msg_size (length choices))) ins) = []).
  { clear. intros f t y ins. destruct (compute_v _ _ _ _ _ _); try reflexivity. destruct ins; reflexivity. }
  rewrite !Q. reflexivity.
Qed.

Lemma flipped_app x : forall d y e, length x = length d -> flipped (x ++ y) (d ++ e) = flipped x d ++ flipped y e.
Proof. unfold flipped. induction x as [|b x IH]; intros [|c d] y e L; try discriminate; [reflexivity|]. cbn. f_equal. apply IH. cbn in L. lia. Qed.

Lemma receiver_hides_all sha p a cores cv seed0 seed1 boot w choices choices' ins chi :
  seeds_ok seed0 -> seeds_ok seed1 -> length w = 128%nat ->
  (forall s, In s (seen w seed0 seed1) -> In s (unseen w seed0 seed1) -> False) ->
  length choices' = length choices -> (length choices mod 8 = 0)%nat ->
  bytes_ok chi -> spans 256 (skipn (16 * length choices) chi) ->
  exists b0 d, length b0 = 256%nat /\ array_ok ((length choices + 256) / 8) d /\
  forall fill bonus, generator fill -> fill (xored cv (nth 1 ins [])) (16 * (length choices + 256))%nat = chi -> length bonus = 256%nat ->
  snd (feed (ap_receiver sha (switch (unseen w seed0 seed1) ((length choices + 256) / 8)%nat d fill) p a cores cv (flipped bonus b0) seed0 seed1 boot choices') ins) =
  snd (feed (ap_receiver sha fill p a cores cv bonus seed0 seed1 boot choices) ins).
Proof.
  intros S0 S1 Lw Hap Lc H8 Hc Hs.
  destruct (Hs (N.lxor (weighted choices chi) (weighted choices' chi))) as (b0 & L0 & E0).
  { apply lxor_lt2; now apply weighted_lt. }
  exists b0, (pack_choices (flipped choices choices' ++ b0)). split; [exact L0|]. split.
  { split; [|apply pack_choices_ok]. rewrite pack_choices_length, app_length, flipped_length by exact Lc. now rewrite L0. }
  intros fill bonus Hf Ec Lb.
  assert (Lf : length (flipped bonus b0) = 256%nat) by (rewrite flipped_length; congruence).
  rewrite <- (flipped_flipped bonus b0) at 1 by congruence.
  rewrite <- flipped_app by (symmetry; exact Lc).
  apply receiver_hides; try assumption. rewrite Ec, !weighted_app, Lc.
  rewrite weighted_flipped by congruence. rewrite E0.
  generalize (weighted choices chi) (weighted choices' chi) (weighted bonus (skipn (16 * length choices) chi)). clear.
  intros x y z. apply N.bits_inj. intro k. rewrite !N.lxor_spec.
  destruct (N.testbit x k), (N.testbit y k), (N.testbit z k); reflexivity.
Qed.

(** ** Spanning from powers of two *)
Lemma below_bits u k : (forall j, k <= j -> N.testbit u j = false) -> u < 2 ^ k.
Proof.
  intros H. destruct (N.eq_dec u 0) as [->|Nz]; [apply N.neq_0_lt_0, N.pow_nonzero; lia|]. apply N.log2_lt_pow2; [lia|].
  apply N.nle_gt. intros C. specialize (H _ C). now rewrite N.bit_log2 in H.
Qed.
Lemma spans_powers n chi : (forall i, i < 128 -> exists b, length b = n /\ weighted b chi = 2 ^ i) -> spans n chi.
Proof.
  intros H v.
  assert (G : forall k : nat, (k <= 128)%nat -> forall v, v < 2 ^ N.of_nat k -> exists b, length b = n /\ weighted b chi = v).
  { induction k as [|k IH]; intros Hk u Hu.
    - assert (u = 0) as -> by (cbn in Hu; lia). destruct (H 0 eq_refl) as (b & L & E). exists (flipped b b). split.
      + now rewrite flipped_length.
      + rewrite weighted_flipped by reflexivity. apply N.lxor_nilpotent.
    - destruct (N.testbit u (N.of_nat k)) eqn:Eb.
      + destruct (IH ltac:(lia) (N.lxor u (2 ^ N.of_nat k))) as (b & L & E).
        { apply below_bits. intros j Hj. rewrite N.lxor_spec, N.pow2_bits_eqb. destruct (N.eqb_spec (N.of_nat k) j) as [<-|Ne].
          - now rewrite Eb.
          - rewrite xorb_false_r. apply (high_bits u (N.of_nat (S k))); [exact Hu|lia]. }
        destruct (H (N.of_nat k) ltac:(lia)) as (c & Lc & Ec). exists (flipped b c). split; [rewrite flipped_length; congruence|].
        rewrite weighted_flipped by congruence. rewrite E, Ec, N.lxor_assoc, N.lxor_nilpotent. apply N.lxor_0_r.
      + apply IH; [lia|]. apply below_bits. intros j Hj. destruct (N.eq_dec j (N.of_nat k)) as [->|Ne]; [exact Eb|].
        apply (high_bits u (N.of_nat (S k))); [exact Hu|lia]. }
  exact (G 128%nat (le_n _) v).
Qed.

Lemma receiver_hides_sum sha fill p a cores cv bonus bonus' seed0 seed1 boot w choices choices' ins :
  generator fill -> seeds_ok seed0 -> seeds_ok seed1 -> length w = 128%nat ->
  (forall s, In s (seen w seed0 seed1) -> In s (unseen w seed0 seed1) -> False) ->
  length choices' = length choices -> length bonus = 256%nat -> length bonus' = 256%nat -> (length choices mod 8 = 0)%nat ->
  weighted (choices ++ bonus) (fill (xored cv (nth 1 ins [])) (16 * (length choices + 256))%nat) =
  weighted (choices' ++ bonus') (fill (xored cv (nth 1 ins [])) (16 * (length choices + 256))%nat) ->
  exists d, array_ok ((length choices + 256) / 8) d /\
  snd (feed (ap_receiver sha (switch (unseen w seed0 seed1) ((length choices + 256) / 8) d fill) p a cores cv bonus' seed0 seed1 boot choices') ins) =
  snd (feed (ap_receiver sha fill p a cores cv bonus seed0 seed1 boot choices) ins).
Proof.
  intros Hf S0 S1 Lw Hap Lc Lb Lb' H8 Hw. eexists. split; [|now apply receiver_hides].
  split; [|apply pack_choices_ok]. rewrite pack_choices_length, flipped_length by (rewrite !app_length; lia). rewrite app_length. now rewrite Lb.
Qed.

Lemma switch_facts S n d fill bonus b0 : generator fill -> array_ok n d -> length b0 = length bonus ->
  generator (switch S n d fill) /\
  (forall s m, ~ In s S -> switch S n d fill s m = fill s m) /\
  (forall s m, m <> n -> switch S n d fill s m = fill s m) /\
  (forall s m, switch S n d (switch S n d fill) s m = fill s m) /\
  length (flipped bonus b0) = length bonus /\ flipped (flipped bonus b0) b0 = bonus.
Proof.
  intros Hf Hd Lb. split; [now apply switch_ok|]. split.
  { intros s m Hs. unfold switch. destruct (existsb (bytes_eqb s) S) eqn:E; [|reflexivity]. now apply existsb_In in E. }
  split. { intros s m Hm. unfold switch. apply Nat.eqb_neq in Hm. now rewrite Hm, andb_false_r. }
  split. { apply switch_twice; [intro; apply Hf|apply Hd]. }
  split; [now apply flipped_length|]. rewrite flipped_comm by (rewrite flipped_length; congruence).
  rewrite (flipped_comm bonus b0) by exact Lb. apply flipped_flipped. symmetry. exact Lb.
Qed.
