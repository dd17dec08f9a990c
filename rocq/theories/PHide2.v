(** The evaluators of the key exchanges send nothing but the frames of their OTs. *)
From Coq Require Import List NArith Bool Lia Arith.
From Verif Require Import Base MUtil MWires MCircuit MGarble MBitMatrix MPoly MPar MBincode MProc MOt MApricot MMany MFpake.
From Verif Require Import SpecUtil SpecBincode SpecOt SpecApricot SpecPads SpecHide.
From Verif Require Import PBase PUtil PProc POt PFpake PFpake3 POtHide PHide.
Import ListNotations.
Open Scope N_scope.

Lemma quiet_after {A B} (q : proc A) (f : A -> proc B) ins : (forall a, silent (f a)) -> snd (feed (pbind q f) ins) = snd (feed q ins).
Proof.
  intros Hf. rewrite feed_bind, (feed_feedr q). destruct (feedr q ins) as [[o out] rest] eqn:E.
  destruct o as [a|e|r|]; cbn; try apply app_nil_r. specialize (Hf a rest). destruct (feed (f a) rest). cbn in *. rewrite Hf. apply app_nil_r.
Qed.
Ltac quiet := repeat first [apply silent_bind; intros | apply silent_lift | apply silent_recv].

Lemma evaluator_frames sha p ot pw ins : snd (feed (evaluator sha p ot pw) ins) = snd (feed (ot (u8_vec_to_bool_vec pw)) ins).
Proof. unfold evaluator. apply quiet_after. intros. quiet. Qed.

Lemma spans_any n chi k k' : k = k' -> spans n (skipn k chi) -> spans n (skipn k' chi).
Proof. now intros ->. Qed.

Section Hides.
Variables (sha : bytes -> bytes) (p : profile) (a : arch) (cores : nat) (cv : bytes) (seed0 seed1 : list bytes) (boot : list (bytes * bytes) -> proc unit) (w : list bool).
Hypothesis seed0_ok : seeds_ok seed0.
Hypothesis seed1_ok : seeds_ok seed1.
Hypothesis w_len : length w = 128%nat.
Hypothesis apart : forall s, In s (seen w seed0 seed1) -> In s (unseen w seed0 seed1) -> False.

Lemma evaluator_hides (pw pw' : bytes) (ins : list bytes) chi : length pw' = length pw -> bytes_ok chi -> spans 256 (skipn (16 * (8 * length pw)) chi) ->
  exists b0 d, length b0 = 256%nat /\ array_ok ((8 * length pw + 256) / 8) d /\
  forall fill bonus, generator fill -> fill (xored cv (nth 1 ins [])) (16 * (8 * length pw + 256))%nat = chi -> length bonus = 256%nat ->
  snd (feed (evaluator sha p (ap_receiver sha (switch (unseen w seed0 seed1) ((8 * length pw + 256) / 8) d fill) p a cores cv (flipped bonus b0) seed0 seed1 boot) pw') ins) =
  snd (feed (evaluator sha p (ap_receiver sha fill p a cores cv bonus seed0 seed1 boot) pw) ins).
Proof.
  intros L Hc Hs.
  destruct (receiver_hides_all sha p a cores cv seed0 seed1 boot w (u8_vec_to_bool_vec pw) (u8_vec_to_bool_vec pw') ins chi seed0_ok seed1_ok w_len apart)
    as (b0 & d & L0 & Hd & H); rewrite ?bits_length in *; auto.
  { rewrite Nat.mul_comm. apply Nat.mod_mul. lia. }
  exists b0, d. split; [exact L0|]. split; [exact Hd|]. intros fill bonus Hf Ec Lb. rewrite !evaluator_frames. now apply H.
Qed.

Lemma server_v3_hides (passwords : list bytes) (pw mask mask' : bytes) (ins : list bytes) chi : nth_error passwords 0 = Some pw ->
  length mask = length pw -> length mask' = length pw -> bytes_ok chi -> spans 256 (skipn (16 * (8 * length pw)) chi) ->
  exists b0 d, length b0 = 256%nat /\ array_ok ((8 * length pw + 256) / 8) d /\
  forall fill bonus, generator fill -> fill (xored cv (nth 3 ins [])) (16 * (8 * length pw + 256))%nat = chi -> length bonus = 256%nat ->
  snd (feed (evaluator_server_v3 sha p (ap_receiver sha (switch (unseen w seed0 seed1) ((8 * length pw + 256) / 8) d fill) p a cores cv (flipped bonus b0) seed0 seed1 boot) passwords mask') ins) =
  snd (feed (evaluator_server_v3 sha p (ap_receiver sha fill p a cores cv bonus seed0 seed1 boot) passwords mask) ins).
Proof.
  intros E0 L L' Hc Hs.
  destruct (receiver_hides_all sha p a cores cv seed0 seed1 boot w (u8_vec_to_bool_vec mask) (u8_vec_to_bool_vec mask') (skipn 2 ins) chi seed0_ok seed1_ok w_len apart)
    as (b0 & d & L0 & Hd & H); rewrite ?bits_length, ?L, ?L' in *; auto.
  { rewrite Nat.mul_comm. apply Nat.mod_mul. lia. }
  exists b0, d. split; [exact L0|]. split; [exact Hd|]. intros fill bonus Hf Ec Lb. unfold evaluator_server_v3.
  replace (idx passwords 0) with (Ok pw) by (unfold idx; now rewrite E0). rewrite !lift_ok.
  apply frames_bind. intros x o r Ex. destruct ins as [|m1 ins]; cbn in Ex; [discriminate|]. injection Ex as <- <- <-.
  apply frames_bind. intros gc o r Eg. destruct (deserialize dec_garbled m1) in Eg; cbn in Eg; try discriminate. injection Eg as _ <- <-.
  apply frames_bind. intros x o r Ex. destruct ins as [|m2 ins]; cbn in Ex; [discriminate|]. injection Ex as <- <- <-.
  apply frames_bind. intros cl o r Eg. destruct (deserialize dec_wires m2) in Eg; cbn in Eg; try discriminate. injection Eg as _ <- <-.
  pose proof (choice_bits_ok mask) as C1. pose proof (choice_bits_ok mask') as C2. rewrite L in C1. rewrite L' in C2. rewrite C1, C2, !lift_ok.
  rewrite !quiet_after by (intros; quiet). apply H; auto.
Qed.
End Hides.
