(** C118: sides that count the passwords differently. *)
From Coq Require Import List NArith Bool Lia Arith Permutation.
From Verif Require Import Base MUtil MWires MCircuit MGarble MPar MBincode MProc MOt MApricot MMany MFpake.
From Verif Require Import SpecUtil SpecWires SpecCircuit SpecGarble SpecBincode SpecOt SpecApricot SpecFpake SpecMany SpecMfpake SpecTurns.
From Verif Require Import PBase PUtil PWires PGarble PCircuit PCircuit2 PHalf PProc POt PMany PIndex PFpake PFpake3.
From Verif Require Import CCircuit CGarble COt CApricot CMany CUtil CFpake CMfpake CFpake3 CRelease.
Import ListNotations.
Open Scope N_scope.

(** ** The number of index bits *)
Lemma log2_bits p n d : n < 2 ^ 32 -> 1 <= n -> bits_for n d -> log2_ p 32 n = Ok (N.of_nat d).
Proof.
  intros H32 H1 [Hd Hmin]. destruct (C01_log2_ceiling p 32 n eq_refl H1 H32) as (k & E & Hk & Hk').
  rewrite E. f_equal. pose proof (Hk' (N.of_nat d) Hd). specialize (Hmin (N.to_nat k)). rewrite N2Nat.id in Hmin. specialize (Hmin Hk). lia.
Qed.
Lemma bits_exist n : n < 2 ^ 32 -> 1 <= n -> exists d, bits_for n d /\ (d <= 32)%nat.
Proof.
  intros H32 H1. destruct (C01_log2_ceiling Release 32 n eq_refl H1 H32) as (k & _ & Hk & Hk').
  exists (N.to_nat k). split; [split|].
  - now rewrite N2Nat.id.
  - intros j Hj. specialize (Hk' _ Hj). lia.
  - assert (k <= 32) by (apply Hk'; lia). lia.
Qed.
Lemma bits_le32 n d : n < 2 ^ 32 -> bits_for n d -> (d <= 32)%nat.
Proof. intros H [_ Hmin]. apply Hmin. change (2 ^ N.of_nat 32) with (2 ^ 32). lia. Qed.

(** ** The 1-out-of-n OT over different numbers of bits *)
Lemma many_mismatch sha fill gen G sha' fill' gen' G' p p' cores keys rs rr messages d d' s choice :
  generator fill -> length keys = d -> (d <= 32)%nat -> (d' <= 32)%nat -> d <> d' -> (1 <= s)%nat ->
  length messages = (2 ^ d)%nat -> Forall (fun m : bytes => length m = s) messages -> fits cores d ->
  runs (many_sender sha fill p cores keys (co_sender sha gen G p rs) messages d)
       (many_receiver sha' fill' p' (co_receiver sha' gen' G' p' rr) choice d') (Err EBadProperties) (Err EBadProperties).
Proof.
  intros Hf Lk Hd Hd' Hne Hs Lm Sm Hfit. unfold many_sender, many_receiver.
  pose proof (pow2_pos d) as P.
  destruct messages as [|m0 rest] eqn:Em; [cbn in Lm; lia|].
  assert (L0 : length m0 = s) by (inversion Sm; auto). rewrite <- Em in *.
  eapply runs_lift_l. { rewrite Em. reflexivity. }
  eapply runs_lift_l. { rewrite L0. apply (y_ok sha fill Hf p cores keys messages d s); auto; [lia|]. now apply fits_guard. }
  eapply runs_lift_r; [apply many_choices_small; exact Hd'|].
  apply runs_send_recv.
  eapply runs_peq_l; [apply pbind_ret|]. apply runs_bind_err.
  unfold co_sender, co_receiver. apply runs_bind_err.
  assert (Hu : forall n, (n <= 32)%nat -> usize_ok n) by (intros n Hn; unfold usize_ok; apply N.le_lt_trans with 32; [lia|reflexivity]).
  apply C30_negotiation; [apply name_ok, Hu; lia|apply name_ok, Hu; rewrite index_bits_length; lia|].
  cbn [pr_size]. rewrite index_bits_length, Lk. intros [E _]. contradiction.
Qed.

(** *** C118 *)
(** C118, different numbers of index bits: over the OTs of the crate both sides end with the same error, before the
    passwords are compared. *)
Theorem C118_mfpake : forall sha fill gen G sha' fill' gen' G' p p' cores keys rm rm' g g' (otS otS' : list (bytes * bytes) -> proc unit)
    (otR otR' : list bool -> proc (list bytes)) d d' l passwords mask index password number t t',
  generator fill -> length keys = d -> fits cores d -> password_list d l passwords -> (1 <= l)%nat -> length mask = l ->
  1 <= number -> number < 2 ^ 32 -> bits_for number d' -> d' <> d ->
  runs (mfpake_many sha p mask g (fun d ms => many_sender sha fill p cores keys (co_sender sha gen G p rm) ms d) otS otR passwords t)
       (mfpake_single sha' p' g' (fun d i => many_receiver sha' fill' p' (co_receiver sha' gen' G' p' rm') i d) otS' otR' password index number t')
    (Err EBadProperties) (Err EBadProperties).
Proof.
  intros sha fill gen G sha' fill' gen' G' p p' cores keys rm rm' g g' otS otS' otR otR' d d' l passwords mask index password number t t'
    Hf Lk Hfit (Hd31 & Lp & Fp) Hl Lm H1 H32 Hb Hne.
  assert (Hpow : 2 ^ N.of_nat d = N.of_nat (2 ^ d)) by (now rewrite Nat2N.inj_pow).
  pose proof (pow2_pos d) as P.
  unfold mfpake_many, mfpake_single.
  destruct passwords as [|p0 rest] eqn:Epw; [cbn in Lp; lia|].
  assert (L0 : length p0 = l) by (inversion Fp; auto). rewrite <- Epw in *.
  eapply runs_lift_l. { rewrite Epw. reflexivity. }
  eapply runs_lift_l. { rewrite L0. apply mask_passwords_ok; auto. }
  eapply runs_lift_l. { rewrite Lp, <- Hpow. apply log2_pow2; [reflexivity|lia]. }
  eapply runs_lift_r. { apply log2_bits; eauto. }
  rewrite !Nat2N.id. apply runs_bind_err.
  eapply many_mismatch with (s := l); auto; try lia.
  - eapply bits_le32; eauto.
  - now rewrite map_length.
  - apply Forall_map. eapply Forall_impl; [|exact Fp]. intros y Hy. cbn beta. rewrite xor_length; congruence.
Qed.
Print Assumptions C118_mfpake.

(** C118: the same in the third version. *)
Theorem C118_v3 : forall sha fill gen G fill' gen' G' p p' cores keys rm rm' g g' ot1S ot1R (ot2S ot3S : list (bytes * bytes) -> proc unit)
    (ot2R ot3R : list bool -> proc (list bytes)) d d' l passwords mask index password number t t',
  hash32 sha -> garbling_ok g -> ot_correct extension_ok ot1S ot1R ->
  generator fill -> length keys = d -> fits cores d -> password_list d l passwords -> good_length l -> length mask = l -> length password = l -> t <= 65534 ->
  1 <= number -> number < 2 ^ 32 -> bits_for number d' -> d' <> d ->
  runs (server_v3 sha p mask g ot1S (fun d ms => many_sender sha fill p cores keys (co_sender sha gen G p rm) ms d) ot2S ot3R passwords t)
       (client_v3 sha p' g' ot1R (fun d i => many_receiver sha fill' p' (co_receiver sha gen' G' p' rm') i d) ot2R ot3S password number index t')
    (Err EBadProperties) (Err EBadProperties).
Proof.
  intros sha fill gen G fill' gen' G' p p' cores keys rm rm' g g' ot1S ot1R ot2S ot3S ot2R ot3R d d' l passwords mask index password number t t'
    Hs Hg Hot1 Hf Lk Hfit (Hd31 & Lp & Fp) Hgl Lm Lpass Ht H1 H32 Hb Hne.
  assert (Hpow : 2 ^ N.of_nat d = N.of_nat (2 ^ d)) by (now rewrite Nat2N.inj_pow).
  pose proof (pow2_pos d) as P.
  destruct passwords as [|p0 rest] eqn:Epw; [cbn in Lp; lia|].
  assert (L0 : length p0 = l) by (inversion Fp; auto). rewrite <- Epw in *.
  destruct (good_supported _ Hgl) as (Hsup & Hn & Hn1).
  destruct (circ2_half sha p g (l * 8) t Hs Hg Hn Ht Hn1 Hsup) as (gc & ek & dk & zs & l0 & l1 & H).
  pose proof (hk_length _ _ _ _ _ _ _ _ _ _ _ H) as Lz. cbn [circ2 num_inputs] in Lz.
  pose proof (zs_binary _ _ _ _ _ _ _ _ _ _ H) as Hz.
  assert (Hun : usize_ok (l * 8)) by (apply usize_small; apply N.le_lt_trans with 65534; [lia|reflexivity]).
  assert (Hbits : forall v : bytes, length v = l -> length (u8_vec_to_bool_vec v) = (l * 8)%nat) by (intros v Lv; rewrite bits_length8, Lv; reflexivity).
  unfold server_v3, client_v3. apply runs_bind_err. unfold garbler_server_v3, evaluator_client_v3. rewrite Lpass.
  eapply runs_lift_l. { rewrite Epw. reflexivity. } cbv beta zeta. rewrite L0.
  eapply runs_lift_l; [apply build_circuit_v2_eq; assumption|].
  eapply runs_lift_l; [exact (garble_zipped_ok _ _ _ _ _ _ _ _ _ _ H)|]. cbv beta iota.
  apply runs_send_recv.
  destruct (sent_garbled _ _ _ _ _ _ _ _ _ _ Hg H) as (gc2 & Egc & Same).
  eapply runs_lift_r; [exact Egc|].
  eapply runs_lift_l; [apply label_pairs_ok; lia|].
  eapply runs_lift_r. { rewrite <- Lpass. apply choice_bits_ok. }
  destruct (Hot1 (label_messages (seg zs 0 (l * 8))) (u8_vec_to_bool_vec password)) as (out1 & R1 & Sel1).
  { unfold label_messages. rewrite map_length, seg_length, Hbits; auto; lia. }
  { apply seg_extension; auto; try lia. }
  eapply runs_bind; [exact R1|].
  eapply runs_lift_l. { rewrite <- Lm. apply encode_flat_ok; [|exact Hz]. rewrite Lm. lia. }
  apply runs_send_recv.
  eapply runs_lift_l. { rewrite Lp, <- Hpow. apply log2_pow2; [reflexivity|lia]. }
  eapply runs_lift_r. { apply log2_bits; eauto. }
  eapply runs_lift_l. { apply mask_passwords_ok; auto. }
  rewrite !Nat2N.id. apply runs_bind_err.
  eapply many_mismatch with (s := l); auto; try lia.
  - eapply bits_le32; eauto.
  - now rewrite map_length.
  - apply Forall_map. eapply Forall_impl; [|exact Fp]. intros y Hy. cbn beta. rewrite xor_length; congruence.
Qed.
Print Assumptions C118_v3.

(** C118 is false when the numbers differ but not their numbers of bits: the client may count fewer passwords, and
    ask for one beyond those it knows of. *)
Theorem C118_mfpake_refuted : forall sha p p' g g' dom manyS manyR otS otR otS' otR' d l passwords mask index pw password number t t',
  hash32 sha -> garbling_ok g -> garbling_ok g' ->
  many_correct dom manyS manyR -> ot_correct extension_ok otS otR -> ot_correct extension_ok otS' otR' ->
  dom d -> password_list d l passwords -> good_length l -> length mask = l ->
  nth_error passwords (N.to_nat index) = Some pw -> length password = l -> t <= 65534 -> t' <= 65534 ->
  N.of_nat (distance pw password) <= t -> N.of_nat (distance pw password) <= t' ->
  1 <= number -> bits_for number d ->
  exists key, length key = 32%nat /\
    runs (mfpake_many sha p mask g manyS otS otR' passwords t)
         (mfpake_single sha p' g' manyR otS' otR password index number t') (Ok key) (Ok key).
Proof.
  intros sha p p' g g' dom manyS manyR otS otR otS' otR' d l passwords mask index pw password number t t'
    Hs Hg Hg' Hm Hot Hot' Hd Hpl Hgl Lm Hi Lp Ht Ht' He He' H1 Hb.
  destruct (C48_keys_agree sha p p' g g' dom manyS manyR otS otR otS' otR' d l passwords mask index pw password t t') as (key & Lk & R); auto.
  exists key. split; [exact Lk|]. destruct Hpl as (Hd31 & _).
  assert (H31 : 2 ^ N.of_nat d < 2 ^ 32) by (apply N.pow_lt_mono_r; lia).
  assert (E : log2_ p' 32 number = log2_ p' 32 (N.of_nat (2 ^ d))).
  { rewrite (log2_bits p' number d); auto; [|destruct Hb; lia]. symmetry. rewrite Nat2N.inj_pow. apply log2_pow2; [reflexivity|lia]. }
  unfold mfpake_single in *. now rewrite E.
Qed.
Print Assumptions C118_mfpake_refuted.
Theorem C118_v3_refuted : forall sha p p' g g' dom manyS manyR ot1S ot1R ot2S ot2R ot3S ot3R d l passwords mask index pw password number t t',
  hash32 sha -> garbling_ok g -> garbling_ok g' -> many_correct dom manyS manyR ->
  ot_correct extension_ok ot1S ot1R -> ot_correct extension_ok ot2S ot2R -> ot_correct extension_ok ot3S ot3R ->
  dom d -> password_list d l passwords -> good_length l -> length mask = l ->
  nth_error passwords (N.to_nat index) = Some pw -> length password = l -> t <= 65534 -> t' <= 65534 ->
  N.of_nat (distance pw password) <= t -> N.of_nat (distance pw password) <= t' ->
  1 <= number -> bits_for number d ->
  exists key, length key = 32%nat /\
    runs (server_v3 sha p mask g ot1S manyS ot2S ot3R passwords t)
         (client_v3 sha p' g' ot1R manyR ot2R ot3S password number index t') (Ok key) (Ok key).
Proof.
  intros sha p p' g g' dom manyS manyR ot1S ot1R ot2S ot2R ot3S ot3R d l passwords mask index pw password number t t'
    Hs Hg Hg' Hm Ho1 Ho2 Ho3 Hd Hpl Hgl Lm Hi Lp Ht Ht' He He' H1 Hb.
  destruct (C51_keys_agree sha p p' g g' dom manyS manyR ot1S ot1R ot2S ot2R ot3S ot3R d l passwords mask index pw password t t') as (key & Lk & R); auto.
  exists key. split; [exact Lk|]. destruct Hpl as (Hd31 & _).
  assert (H31 : 2 ^ N.of_nat d < 2 ^ 32) by (apply N.pow_lt_mono_r; lia).
  assert (E : log2_ p' 32 number = log2_ p' 32 (N.of_nat (2 ^ d))).
  { rewrite (log2_bits p' number d); auto; [|destruct Hb; lia]. symmetry. rewrite Nat2N.inj_pow. apply log2_pow2; [reflexivity|lia]. }
  unfold client_v3, evaluator_client_v3 in *. now rewrite E.
Qed.
Print Assumptions C118_v3_refuted.

(** ** Examples *)
Lemma three_bits : bits_for 3 2.
Proof. split; [discriminate|]. intros [|[|j]] H; try lia. Qed.
Lemma five_bits : bits_for 5 3.
Proof. split; [discriminate|]. intros [|[|[|j]]] H; try lia. Qed.
(** Four passwords: a client that counts five fails, one that counts three gets the fourth. *)
Example C118_five :
  runs (mfpake_many toy Debug [200; 3] demo_garbling (demo_many Debug) (demo_sender Debug) (demo_receiver Debug) [[1; 2]; [3; 4]; [5; 6]; [7; 8]] 1)
       (mfpake_single toy Release demo_garbling (demo_one Release) (demo_sender Release) (demo_receiver Release) [1; 2] 0 5 1)
    (Err EBadProperties) (Err EBadProperties).
Proof.
  apply C118_mfpake with (d := 2%nat) (d' := 3%nat) (l := 2%nat); auto using toy_gen_ok, five_bits; try reflexivity; try discriminate.
  - left. lia.
  - split; [lia|]. split; [reflexivity|]. repeat constructor.
Qed.
Example C118_three : exists key, length key = 32%nat /\
  runs (mfpake_many toy Debug [200; 3] demo_garbling (demo_many Debug) (demo_sender Debug) (demo_receiver Debug) [[1; 2]; [3; 4]; [5; 6]; [7; 8]] 1)
       (mfpake_single toy Release demo_garbling (demo_one Release) (demo_sender Release) (demo_receiver Release) [7; 8] 3 3 1)
    (Ok key) (Ok key).
Proof.
  apply (C118_mfpake_refuted toy Debug Release demo_garbling demo_garbling (fun d => d = 2%nat) (demo_many Debug) (demo_one Release)
    (demo_sender Debug) (demo_receiver Release) (demo_sender Release) (demo_receiver Debug)
    2 2 [[1; 2]; [3; 4]; [5; 6]; [7; 8]] [200; 3] 3 [7; 8] [7; 8] 3 1 1);
    [exact toy_hash32|exact demo_garbling_ok|exact demo_garbling_ok|apply demo_many_ok|apply demo_OT|apply demo_OT|reflexivity|
    |unfold good_length; lia|reflexivity|reflexivity|reflexivity|discriminate|discriminate|vm_compute; discriminate|vm_compute; discriminate|discriminate|exact three_bits].
  split; [lia|]. split; [reflexivity|]. repeat constructor.
Qed.
Example C118_five_v3 :
  runs (server_v3 toy Debug [200; 3] demo_garbling (demo_sender Debug) (demo_many Debug) (demo_sender Debug) (demo_receiver Debug) [[1; 2]; [3; 4]; [5; 6]; [7; 8]] 1)
       (client_v3 toy Release demo_garbling (demo_receiver Release) (demo_one Release) (demo_receiver Release) (demo_sender Release) [5; 7] 5 2 1)
    (Err EBadProperties) (Err EBadProperties).
Proof.
  apply C118_v3 with (d := 2%nat) (d' := 3%nat) (l := 2%nat); auto using toy_gen_ok, five_bits; try reflexivity; try discriminate.
  - exact toy_hash32.
  - exact demo_garbling_ok.
  - apply demo_OT.
  - left. lia.
  - split; [lia|]. split; [reflexivity|]. repeat constructor.
  - unfold good_length. lia.
Qed.
Example C118_three_v3 : exists key, length key = 32%nat /\
  runs (server_v3 toy Debug [200; 3] demo_garbling (demo_sender Debug) (demo_many Debug) (demo_sender Debug) (demo_receiver Debug) [[1; 2]; [3; 4]; [5; 6]; [7; 8]] 1)
       (client_v3 toy Release demo_garbling (demo_receiver Release) (demo_one Release) (demo_receiver Release) (demo_sender Release) [5; 7] 3 2 1)
    (Ok key) (Ok key).
Proof.
  apply (C118_v3_refuted toy Debug Release demo_garbling demo_garbling (fun d => d = 2%nat) (demo_many Debug) (demo_one Release)
    (demo_sender Debug) (demo_receiver Release) (demo_sender Debug) (demo_receiver Release) (demo_sender Release) (demo_receiver Debug)
    2 2 [[1; 2]; [3; 4]; [5; 6]; [7; 8]] [200; 3] 2 [5; 6] [5; 7] 3 1 1);
    [exact toy_hash32|exact demo_garbling_ok|exact demo_garbling_ok|apply demo_many_ok|apply demo_OT|apply demo_OT|apply demo_OT|reflexivity|
    |unfold good_length; lia|reflexivity|reflexivity|reflexivity|discriminate|discriminate|vm_compute; discriminate|vm_compute; discriminate|discriminate|exact three_bits].
  split; [lia|]. split; [reflexivity|]. repeat constructor.
Qed.
