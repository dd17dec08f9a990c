(** C134: when two honest sides get the same key. *)
From Coq Require Import List NArith Bool Lia Arith.
From Verif Require Import Base MUtil MWires MCircuit MGarble MPar MBincode MProc MOt MApricot MMany MFpake MLegacy MLegacy2.
From Verif Require Import SpecUtil SpecWires SpecCircuit SpecGarble SpecBincode SpecOt SpecApricot SpecFpake SpecMany SpecMfpake SpecLegacy SpecAgree.
From Verif Require Import PBase PUtil PProc PFpake PLegacy PAgree.
From Verif Require Import CCircuit CGarble COt CApricot CMany CFpake CMfpake CFpake3 CLegacy CLegacy2.
Import ListNotations.
Open Scope N_scope.

Lemma sha_len sha x : hash32 sha -> length (sha x) = 32%nat.
Proof. intros H. apply H. Qed.

(** C134: fpake.rs, server and client. *)
Theorem C134_plain : forall sha p p' g g' otS otR otS' otR' l pw pw' t t',
  hash32 sha -> garbling_ok g -> garbling_ok g' -> ot_correct extension_ok otS otR -> ot_correct extension_ok otS' otR' ->
  length pw = l -> length pw' = l -> good_length l -> t <= 65534 -> t' <= 65534 ->
  exists l0 l1 m0 m1 key key', labels_of sha p g (fpake_circuit l t) (fpake_output l) l0 l1 /\ labels_of sha p' g' (fpake_circuit l t') (fpake_output l) m0 m1 /\
    runs (fpake_server sha p g otS otR' pw t) (fpake_client sha p' g' otS' otR pw' t') (Ok key) (Ok key') /\
    (key = key' <-> agreement (N.of_nat (distance pw pw')) t t'
      (sha (dec_string (fpake_output l) 1 l0)) (sha (dec_string (fpake_output l) 1 l1)) (sha (dec_string (fpake_output l) 1 m0)) (sha (dec_string (fpake_output l) 1 m1))).
Proof.
  intros sha p p' g g' otS otR otS' otR' l pw pw' t t' Hs Hg Hg' Ho Ho' <- Lp Hgl Ht Ht'.
  destruct (fpake_run sha Hs p p' g Hg otS otR Ho pw pw' t Lp Hgl Ht) as (ek & s & l0 & l1 & Er & G0 & G1 & Hne & R).
  assert (Hgl' : good_length (length pw')) by now rewrite Lp.
  destruct (fpake_run sha Hs p' p g' Hg' otS' otR' Ho' pw' pw t' (eq_sym Lp) Hgl' Ht') as (ek' & s' & m0 & m1 & Er' & G0' & G1' & Hne' & R').
  rewrite Lp in *. rewrite (distance_comm pw' pw) in R'.
  exists l0, l1, m0, m1. do 2 eexists. split; [exists ek, s; auto|]. split; [exists ek', s'; auto|].
  split; [unfold fpake_server, fpake_client; eapply runs_bind; [exact R|]; eapply runs_bind; [apply runs_flip; exact R'|]; apply runs_ret|].
  rewrite (C46_combine_commutes _ (sha (dec_string _ 1 (if _ <=? t then _ else _)))). unfold combine_keys.
  rewrite <- agreement_ok by (apply sha_len; exact Hs).
  destruct (_ <=? t), (_ <=? t'); apply iff_refl.
Qed.
Print Assumptions C134_plain.
(** C134: many_fpake.rs, mfpake_many and mfpake_single. *)
Theorem C134_mfpake : forall sha p p' g g' dom manyS manyR otS otR otS' otR' d l passwords mask index pw password t t',
  hash32 sha -> garbling_ok g -> garbling_ok g' ->
  many_correct dom manyS manyR -> ot_correct extension_ok otS otR -> ot_correct extension_ok otS' otR' ->
  dom d -> password_list d l passwords -> good_length l -> length mask = l ->
  nth_error passwords (N.to_nat index) = Some pw -> length password = l -> t <= 65534 -> t' <= 65534 ->
  exists l0 l1 m0 m1 key key', labels_of sha p g (fpake_circuit l t) (fpake_output l) l0 l1 /\ labels_of sha p' g' (fpake_circuit l t') (fpake_output l) m0 m1 /\
    runs (mfpake_many sha p mask g manyS otS otR' passwords t)
         (mfpake_single sha p' g' manyR otS' otR password index (N.of_nat (2 ^ d)) t') (Ok key) (Ok key') /\
    (key = key' <-> agreement (N.of_nat (distance pw password)) t t'
      (sha (dec_string (fpake_output l) 1 l0)) (sha (dec_string (fpake_output l) 1 l1)) (sha (dec_string (fpake_output l) 1 m0)) (sha (dec_string (fpake_output l) 1 m1))).
Proof.
  intros sha p p' g g' dom manyS manyR otS otR otS' otR' d l passwords mask index pw password t t' Hs Hg Hg' Hm Ho Ho' Hd Hp Hgl Lm Hi Lp Ht Ht'.
  destruct (C49_half_keys sha p p' g g' dom manyS manyR otS otR otS' otR' d l passwords mask index pw password t t' Hs Hg Hg' Hm Ho Ho' Hd Hp Hgl Lm Hi Lp Ht Ht')
    as (ek & s & l0 & l1 & ek' & s' & m0 & m1 & Er & G0 & G1 & Er' & G0' & G1' & Hne & Hne' & R).
  exists l0, l1, m0, m1. do 2 eexists. split; [exists ek, s; auto|]. split; [exists ek', s'; auto|]. split; [exact R|].
  rewrite <- agreement_ok by (apply sha_len; exact Hs).
  destruct (_ <=? t), (_ <=? t'); apply iff_refl.
Qed.
Print Assumptions C134_mfpake.
(** C134: many_fpake.rs, version 3. *)
Theorem C134_v3 : forall sha p p' g g' dom manyS manyR ot1S ot1R ot2S ot2R ot3S ot3R d l passwords mask index pw password t t',
  hash32 sha -> garbling_ok g -> garbling_ok g' -> many_correct dom manyS manyR ->
  ot_correct extension_ok ot1S ot1R -> ot_correct extension_ok ot2S ot2R -> ot_correct extension_ok ot3S ot3R ->
  dom d -> password_list d l passwords -> good_length l -> length mask = l ->
  nth_error passwords (N.to_nat index) = Some pw -> length password = l -> t <= 65534 -> t' <= 65534 ->
  exists l0 l1 m0 m1 key key', labels_of sha p g (v3_circuit l t) (v3_output l) l0 l1 /\ labels_of sha p' g' (v3_circuit l t') (v3_output l) m0 m1 /\
    runs (server_v3 sha p mask g ot1S manyS ot2S ot3R passwords t)
         (client_v3 sha p' g' ot1R manyR ot2R ot3S password (N.of_nat (2 ^ d)) index t') (Ok key) (Ok key') /\
    (key = key' <-> agreement (N.of_nat (distance pw password)) t t'
      (sha (dec_string (v3_output l) 1 l0)) (sha (dec_string (v3_output l) 1 l1)) (sha (dec_string (v3_output l) 1 m0)) (sha (dec_string (v3_output l) 1 m1))).
Proof.
  intros sha p p' g g' dom manyS manyR ot1S ot1R ot2S ot2R ot3S ot3R d l passwords mask index pw password t t' Hs Hg Hg' Hm H1 H2 H3 Hd Hp Hgl Lm Hi Lp Ht Ht'.
  destruct (C51_both_halves sha p p' g g' dom manyS manyR ot1S ot1R ot2S ot2R ot3S ot3R d l passwords mask index pw password t t' Hs Hg Hg' Hm H1 H2 H3 Hd Hp Hgl Lm Hi Lp Ht Ht')
    as (l0 & l1 & m0 & m1 & HL & HL' & R).
  exists l0, l1, m0, m1. do 2 eexists. split; [exact HL|]. split; [exact HL'|]. split; [exact R|].
  rewrite <- agreement_ok by (apply sha_len; exact Hs).
  destruct (_ <=? t), (_ <=? t'); apply iff_refl.
Qed.
Print Assumptions C134_v3.
(** C134: legacy_fpake.rs, version 1. *)
Theorem C134_v1 : forall sha p p' g g' dom manyS manyR ot1S ot1R ot2S ot2R rand d l passwords index pw password t t',
  hash32 sha -> garbling_ok g -> garbling_ok g' -> many_correct dom manyS manyR ->
  ot_correct extension_ok ot1S ot1R -> ot_correct extension_ok ot2S ot2R -> keys_ok rand ->
  dom d -> (1 <= d)%nat -> password_list d l passwords -> good_length l ->
  nth_error passwords index = Some pw -> length password = l -> t <= 65534 -> t' <= 65534 ->
  exists l0 l1 m0 m1 key key', labels_of sha p g (fpake_circuit l t) (fpake_output l) l0 l1 /\ labels_of sha p' g' (fpake_circuit l t') (fpake_output l) m0 m1 /\
    runs (server_v1 sha p g ot1S manyS ot2R passwords t)
         (client_v1 sha p' rand g' ot1R manyR ot2S password (N.of_nat (2 ^ d)) (N.of_nat index) t') (Ok key) (Ok key') /\
    (key = key' <-> agreement (N.of_nat (distance password pw)) t t'
      (sha (dec_string (fpake_output l) 1 l0)) (sha (dec_string (fpake_output l) 1 l1)) (sha (dec_string (fpake_output l) 1 m0)) (sha (dec_string (fpake_output l) 1 m1))).
Proof.
  intros sha p p' g g' dom manyS manyR ot1S ot1R ot2S ot2R rand d l passwords index pw password t t' Hs Hg Hg' Hm H1 H2 Hk Hd Hd1 Hp Hgl Hi Lp Ht Ht'.
  destruct (C52_v1_server_garbles sha p p' g dom manyS manyR ot1S ot1R d l passwords index pw password t Hs Hg Hm H1 Hd Hp Hgl Hi Lp Ht) as (l0 & l1 & HL & R).
  destruct Hp as (H31 & Ll & F).
  assert (B1 : (2 ^ 1 <= 2 ^ d)%nat) by (apply Nat.pow_le_mono_r; lia). cbn [Nat.pow Nat.mul Nat.add] in B1.
  assert (B2 : N.of_nat (2 ^ d) < 2 ^ 32). { rewrite Nnat.Nat2N.inj_pow. apply N.pow_lt_mono_r; [reflexivity|apply N.le_lt_trans with 31; [lia|reflexivity]]. }
  destruct (C52_v1_client_garbles sha p' p g' ot2S ot2R rand l passwords index pw password t') as (m0 & m1 & HL' & R'); auto; rewrite ?Ll; auto.
  rewrite Ll in R'.
  exists l0, l1, m0, m1. do 2 eexists. split; [exact HL|]. split; [exact HL'|].
  split; [unfold server_v1, client_v1; eapply runs_bind; [exact R|]; cbv beta; eapply runs_bind; [apply runs_flip; exact R'|]; apply runs_ret|]. unfold combine_keys.
  rewrite <- agreement_ok by (apply sha_len; exact Hs).
  destruct (_ <=? t), (_ <=? t'); apply iff_refl.
Qed.
Print Assumptions C134_v1.
(** C134: legacy_fpake.rs, version 2. *)
Theorem C134_v2 : forall sha p p' g g' dom manyS manyR ot1S ot1R ot2S ot2R ot3S ot3R d l passwords mask mask' index pw password t t',
  hash32 sha -> garbling_ok g -> garbling_ok g' -> many_correct dom manyS manyR ->
  ot_correct extension_ok ot1S ot1R -> ot_correct extension_ok ot2S ot2R -> ot_correct extension_ok ot3S ot3R ->
  dom d -> password_list d l passwords -> good_length l -> length mask = l -> length mask' = l ->
  nth_error passwords (N.to_nat index) = Some pw -> length password = l -> t <= 65534 -> t' <= 65534 ->
  exists l0 l1 m0 m1 key key', labels_of sha p g (v3_circuit l t) (v3_output l) l0 l1 /\ labels_of sha p' g' (v3_circuit l t') (v3_output l) m0 m1 /\
    runs (server_v2 sha p mask mask' g ot1S manyS ot2S ot3R manyS passwords t)
         (client_v2 sha p' g' ot1R manyR ot2R ot3S manyR password (N.of_nat (2 ^ d)) index t') (Ok key) (Ok key') /\
    (key = key' <-> agreement (N.of_nat (distance password pw)) t t'
      (sha (dec_string (v3_output l) 1 l0)) (sha (dec_string (v3_output l) 1 l1)) (sha (dec_string (v3_output l) 1 m0)) (sha (dec_string (v3_output l) 1 m1))).
Proof.
  intros sha p p' g g' dom manyS manyR ot1S ot1R ot2S ot2R ot3S ot3R d l passwords mask mask' index pw password t t' Hs Hg Hg' Hm H1 H2 H3 Hd Hp Hgl Lm Lm' Hi Lp Ht Ht'.
  destruct (C52_v2_server_garbles sha p p' g dom manyS manyR ot1S ot1R ot2S ot2R d l passwords mask index pw password t Hs Hg Hm H1 H2 Hd Hp Hgl Lm Hi Lp Ht) as (l0 & l1 & HL & R).
  destruct (C52_v2_client_garbles sha p' p g' dom manyS manyR ot3S ot3R d l passwords mask' index pw password t' Hs Hg' Hm H3 Hd Hp Hgl Lm' Hi Lp Ht') as (m0 & m1 & HL' & R').
  rewrite (distance_comm pw password) in R'.
  exists l0, l1, m0, m1. do 2 eexists. split; [exact HL|]. split; [exact HL'|].
  split; [unfold server_v2, client_v2; eapply runs_bind; [exact R|]; cbv beta; eapply runs_bind; [apply runs_flip; exact R'|]; apply runs_ret|]. unfold combine_keys.
  rewrite <- agreement_ok by (apply sha_len; exact Hs).
  destruct (_ <=? t), (_ <=? t'); apply iff_refl.
Qed.
Print Assumptions C134_v2.
(** C134: legacy_fpake.rs, version 1 one way and version 2 the other. *)
Theorem C134_v12 : forall sha p p' g g' dom manyS manyR ot1S ot1R ot2S ot2R d l passwords mask index pw password t t',
  hash32 sha -> garbling_ok g -> garbling_ok g' -> many_correct dom manyS manyR ->
  ot_correct extension_ok ot1S ot1R -> ot_correct extension_ok ot2S ot2R ->
  dom d -> password_list d l passwords -> good_length l -> length mask = l ->
  nth_error passwords index = Some pw -> length password = l -> t <= 65534 -> t' <= 65534 ->
  exists l0 l1 m0 m1 key key', labels_of sha p g (fpake_circuit l t) (fpake_output l) l0 l1 /\ labels_of sha p' g' (v3_circuit l t') (v3_output l) m0 m1 /\
    runs (server_v12 sha p mask g ot1S manyS ot2R manyS passwords t)
         (client_v12 sha p' g' ot1R manyR ot2S manyR password (N.of_nat (2 ^ d)) (N.of_nat index) t') (Ok key) (Ok key') /\
    (key = key' <-> agreement (N.of_nat (distance password pw)) t t'
      (sha (dec_string (fpake_output l) 1 l0)) (sha (dec_string (fpake_output l) 1 l1)) (sha (dec_string (v3_output l) 1 m0)) (sha (dec_string (v3_output l) 1 m1))).
Proof.
  intros sha p p' g g' dom manyS manyR ot1S ot1R ot2S ot2R d l passwords mask index pw password t t' Hs Hg Hg' Hm H1 H2 Hd Hp Hgl Lm Hi Lp Ht Ht'.
  destruct (C52_v1_v2_keys sha p p' g g' dom manyS manyR ot1S ot1R ot2S ot2R d l passwords mask index pw password t t' Hs Hg Hg' Hm H1 H2 Hd Hp Hgl Lm Hi Lp Ht Ht')
    as (l0 & l1 & m0 & m1 & HL & HL' & R). cbv zeta in R.
  exists l0, l1, m0, m1. do 2 eexists. split; [exact HL|]. split; [exact HL'|]. split; [exact R|].
  rewrite <- agreement_ok by (apply sha_len; exact Hs).
  destruct (_ <=? t), (_ <=? t'); apply iff_refl.
Qed.
Print Assumptions C134_v12.
(** C134: legacy_fpake.rs, version 2 one way and version 1 the other. *)
Theorem C134_v21 : forall sha p p' g g' dom manyS manyR ot1S ot1R ot2S ot2R ot3S ot3R rand d l passwords mask index pw password t t',
  hash32 sha -> garbling_ok g -> garbling_ok g' -> many_correct dom manyS manyR ->
  ot_correct extension_ok ot1S ot1R -> ot_correct extension_ok ot2S ot2R -> ot_correct extension_ok ot3S ot3R -> keys_ok rand ->
  dom d -> (1 <= d)%nat -> password_list d l passwords -> good_length l -> length mask = l ->
  nth_error passwords index = Some pw -> length password = l -> t <= 65534 -> t' <= 65534 ->
  exists l0 l1 m0 m1 key key', labels_of sha p g (v3_circuit l t) (v3_output l) l0 l1 /\ labels_of sha p' g' (fpake_circuit l t') (fpake_output l) m0 m1 /\
    runs (server_v21 sha p mask g ot1S manyS ot2S ot3R passwords t)
         (client_v21 sha p' rand g' ot1R manyR ot2R ot3S password (N.of_nat (2 ^ d)) (N.of_nat index) t') (Ok key) (Ok key') /\
    (key = key' <-> agreement (N.of_nat (distance password pw)) t t'
      (sha (dec_string (v3_output l) 1 l0)) (sha (dec_string (v3_output l) 1 l1)) (sha (dec_string (fpake_output l) 1 m0)) (sha (dec_string (fpake_output l) 1 m1))).
Proof.
  intros sha p p' g g' dom manyS manyR ot1S ot1R ot2S ot2R ot3S ot3R rand d l passwords mask index pw password t t' Hs Hg Hg' Hm H1 H2 H3 Hk Hd Hd1 Hp Hgl Lm Hi Lp Ht Ht'.
  destruct (C52_v2_v1_keys sha p p' g g' dom manyS manyR ot1S ot1R ot2S ot2R ot3S ot3R rand d l passwords mask index pw password t t' Hs Hg Hg' Hm H1 H2 H3 Hk Hd Hd1 Hp Hgl Lm Hi Lp Ht Ht')
    as (l0 & l1 & m0 & m1 & HL & HL' & R). cbv zeta in R.
  exists l0, l1, m0, m1. do 2 eexists. split; [exact HL|]. split; [exact HL'|]. split; [exact R|].
  rewrite <- agreement_ok by (apply sha_len; exact Hs).
  destruct (_ <=? t), (_ <=? t'); apply iff_refl.
Qed.
Print Assumptions C134_v21.

(** C134: with the same garbling on both sides and the password too far for both, the keys agree all the same. *)
Theorem C134_plain_same_coins_refuted : forall sha p p' g otS otR otS' otR' l pw pw' t,
  hash32 sha -> garbling_ok g -> ot_correct extension_ok otS otR -> ot_correct extension_ok otS' otR' ->
  length pw = l -> length pw' = l -> good_length l -> t <= 65534 ->
  t < N.of_nat (distance pw pw') ->
  exists key, runs (fpake_server sha p g otS otR' pw t) (fpake_client sha p' g otS' otR pw' t) (Ok key) (Ok key).
Proof.
  intros sha p p' g otS otR otS' otR' l pw pw' t Hs Hg Ho Ho' <- Lp Hgl Ht He.
  destruct (C134_plain sha p p' g g otS otR otS' otR' (length pw) pw pw' t t Hs Hg Hg Ho Ho' eq_refl Lp Hgl Ht Ht)
    as (l0 & l1 & m0 & m1 & key & key' & HL & HL' & R & A).
  destruct (labels_of_unique _ _ _ _ _ _ _ _ _ _ (sup_fpake _ t Hgl Ht) HL HL') as (-> & ->).
  assert (E : key = key'). { apply A. right. right. right. repeat split; auto. }
  subst key'. exists key. exact R.
Qed.
Print Assumptions C134_plain_same_coins_refuted.

(** C134: with the same garbling on both sides and the password too far for both, the keys agree all the same. *)
Theorem C134_mfpake_same_coins_refuted : forall sha p p' g dom manyS manyR otS otR otS' otR' d l passwords mask index pw password t,
  hash32 sha -> garbling_ok g ->
  many_correct dom manyS manyR -> ot_correct extension_ok otS otR -> ot_correct extension_ok otS' otR' ->
  dom d -> password_list d l passwords -> good_length l -> length mask = l ->
  nth_error passwords (N.to_nat index) = Some pw -> length password = l -> t <= 65534 ->
  t < N.of_nat (distance pw password) ->
  exists key, runs (mfpake_many sha p mask g manyS otS otR' passwords t)
         (mfpake_single sha p' g manyR otS' otR password index (N.of_nat (2 ^ d)) t) (Ok key) (Ok key).
Proof.
  intros sha p p' g dom manyS manyR otS otR otS' otR' d l passwords mask index pw password t Hs Hg Hm Ho Ho' Hd Hp Hgl Lm Hi Lp Ht He.
  destruct (C134_mfpake sha p p' g g dom manyS manyR otS otR otS' otR' d l passwords mask index pw password t t Hs Hg Hg Hm Ho Ho' Hd Hp Hgl Lm Hi Lp Ht Ht)
    as (l0 & l1 & m0 & m1 & key & key' & HL & HL' & R & A).
  destruct (labels_of_unique _ _ _ _ _ _ _ _ _ _ (sup_fpake _ t Hgl Ht) HL HL') as (-> & ->).
  assert (E : key = key'). { apply A. right. right. right. repeat split; auto. }
  subst key'. exists key. exact R.
Qed.
Print Assumptions C134_mfpake_same_coins_refuted.

(** C134: with the same garbling on both sides and the password too far for both, the keys agree all the same. *)
Theorem C134_v3_same_coins_refuted : forall sha p p' g dom manyS manyR ot1S ot1R ot2S ot2R ot3S ot3R d l passwords mask index pw password t,
  hash32 sha -> garbling_ok g -> many_correct dom manyS manyR ->
  ot_correct extension_ok ot1S ot1R -> ot_correct extension_ok ot2S ot2R -> ot_correct extension_ok ot3S ot3R ->
  dom d -> password_list d l passwords -> good_length l -> length mask = l ->
  nth_error passwords (N.to_nat index) = Some pw -> length password = l -> t <= 65534 ->
  t < N.of_nat (distance pw password) ->
  exists key, runs (server_v3 sha p mask g ot1S manyS ot2S ot3R passwords t)
         (client_v3 sha p' g ot1R manyR ot2R ot3S password (N.of_nat (2 ^ d)) index t) (Ok key) (Ok key).
Proof.
  intros sha p p' g dom manyS manyR ot1S ot1R ot2S ot2R ot3S ot3R d l passwords mask index pw password t Hs Hg Hm H1 H2 H3 Hd Hp Hgl Lm Hi Lp Ht He.
  destruct (C134_v3 sha p p' g g dom manyS manyR ot1S ot1R ot2S ot2R ot3S ot3R d l passwords mask index pw password t t Hs Hg Hg Hm H1 H2 H3 Hd Hp Hgl Lm Hi Lp Ht Ht)
    as (l0 & l1 & m0 & m1 & key & key' & HL & HL' & R & A).
  destruct (labels_of_unique _ _ _ _ _ _ _ _ _ _ (sup_v3 _ t Hgl Ht) HL HL') as (-> & ->).
  assert (E : key = key'). { apply A. right. right. right. repeat split; auto. }
  subst key'. exists key. exact R.
Qed.
Print Assumptions C134_v3_same_coins_refuted.

(** C134: with the same garbling on both sides and the password too far for both, the keys agree all the same. *)
Theorem C134_v1_same_coins_refuted : forall sha p p' g dom manyS manyR ot1S ot1R ot2S ot2R rand d l passwords index pw password t,
  hash32 sha -> garbling_ok g -> many_correct dom manyS manyR ->
  ot_correct extension_ok ot1S ot1R -> ot_correct extension_ok ot2S ot2R -> keys_ok rand ->
  dom d -> (1 <= d)%nat -> password_list d l passwords -> good_length l ->
  nth_error passwords index = Some pw -> length password = l -> t <= 65534 ->
  t < N.of_nat (distance password pw) ->
  exists key, runs (server_v1 sha p g ot1S manyS ot2R passwords t)
         (client_v1 sha p' rand g ot1R manyR ot2S password (N.of_nat (2 ^ d)) (N.of_nat index) t) (Ok key) (Ok key).
Proof.
  intros sha p p' g dom manyS manyR ot1S ot1R ot2S ot2R rand d l passwords index pw password t Hs Hg Hm H1 H2 Hk Hd Hd1 Hp Hgl Hi Lp Ht He.
  destruct (C134_v1 sha p p' g g dom manyS manyR ot1S ot1R ot2S ot2R rand d l passwords index pw password t t Hs Hg Hg Hm H1 H2 Hk Hd Hd1 Hp Hgl Hi Lp Ht Ht)
    as (l0 & l1 & m0 & m1 & key & key' & HL & HL' & R & A).
  destruct (labels_of_unique _ _ _ _ _ _ _ _ _ _ (sup_fpake _ t Hgl Ht) HL HL') as (-> & ->).
  assert (E : key = key'). { apply A. right. right. right. repeat split; auto. }
  subst key'. exists key. exact R.
Qed.
Print Assumptions C134_v1_same_coins_refuted.

(** C134: with the same garbling on both sides and the password too far for both, the keys agree all the same. *)
Theorem C134_v2_same_coins_refuted : forall sha p p' g dom manyS manyR ot1S ot1R ot2S ot2R ot3S ot3R d l passwords mask mask' index pw password t,
  hash32 sha -> garbling_ok g -> many_correct dom manyS manyR ->
  ot_correct extension_ok ot1S ot1R -> ot_correct extension_ok ot2S ot2R -> ot_correct extension_ok ot3S ot3R ->
  dom d -> password_list d l passwords -> good_length l -> length mask = l -> length mask' = l ->
  nth_error passwords (N.to_nat index) = Some pw -> length password = l -> t <= 65534 ->
  t < N.of_nat (distance password pw) ->
  exists key, runs (server_v2 sha p mask mask' g ot1S manyS ot2S ot3R manyS passwords t)
         (client_v2 sha p' g ot1R manyR ot2R ot3S manyR password (N.of_nat (2 ^ d)) index t) (Ok key) (Ok key).
Proof.
  intros sha p p' g dom manyS manyR ot1S ot1R ot2S ot2R ot3S ot3R d l passwords mask mask' index pw password t Hs Hg Hm H1 H2 H3 Hd Hp Hgl Lm Lm' Hi Lp Ht He.
  destruct (C134_v2 sha p p' g g dom manyS manyR ot1S ot1R ot2S ot2R ot3S ot3R d l passwords mask mask' index pw password t t Hs Hg Hg Hm H1 H2 H3 Hd Hp Hgl Lm Lm' Hi Lp Ht Ht)
    as (l0 & l1 & m0 & m1 & key & key' & HL & HL' & R & A).
  destruct (labels_of_unique _ _ _ _ _ _ _ _ _ _ (sup_v3 _ t Hgl Ht) HL HL') as (-> & ->).
  assert (E : key = key'). { apply A. right. right. right. repeat split; auto. }
  subst key'. exists key. exact R.
Qed.
Print Assumptions C134_v2_same_coins_refuted.

(** *** Examples: the password [5; 7] is one bit off entry 2, and the thresholds are 0. *)
Lemma demo_list : password_list 2 2 [[1; 2]; [3; 4]; [5; 6]; [7; 8]].
Proof. split; [lia|]. split; [reflexivity|]. repeat constructor. Qed.
Ltac demo := first [exact toy_hash32|exact demo_garbling_ok|apply demo_many_ok|apply demo_OT|exact demo_keys_ok|exact demo_list|unfold good_length; cbn [length]; lia|reflexivity|discriminate|vm_compute; reflexivity|lia].
Example plain_same_example : exists key,
  runs (fpake_server toy Debug demo_garbling (demo_sender Debug) (demo_receiver Debug) [1; 2] 0)
       (fpake_client toy Release demo_garbling (demo_sender Release) (demo_receiver Release) [1; 3] 0) (Ok key) (Ok key).
Proof. apply (C134_plain_same_coins_refuted toy Debug Release demo_garbling (demo_sender Debug) (demo_receiver Release) (demo_sender Release) (demo_receiver Debug) 2 [1; 2] [1; 3] 0); demo. Qed.
Example mfpake_same_example : exists key,
  runs (mfpake_many toy Debug [200; 3] demo_garbling (demo_many Debug) (demo_sender Debug) (demo_receiver Debug) [[1; 2]; [3; 4]; [5; 6]; [7; 8]] 0)
       (mfpake_single toy Release demo_garbling (demo_one Release) (demo_sender Release) (demo_receiver Release) [5; 7] 2 (N.of_nat (2 ^ 2)) 0) (Ok key) (Ok key).
Proof.
  apply (C134_mfpake_same_coins_refuted toy Debug Release demo_garbling (fun d => d = 2%nat) (demo_many Debug) (demo_one Release)
    (demo_sender Debug) (demo_receiver Release) (demo_sender Release) (demo_receiver Debug) 2 2 [[1; 2]; [3; 4]; [5; 6]; [7; 8]] [200; 3] 2 [5; 6] [5; 7] 0); demo.
Qed.
Example v3_same_example : exists key,
  runs (server_v3 toy Debug [200; 3] demo_garbling (demo_sender Debug) (demo_many Debug) (demo_sender Debug) (demo_receiver Debug) [[1; 2]; [3; 4]; [5; 6]; [7; 8]] 0)
       (client_v3 toy Release demo_garbling (demo_receiver Release) (demo_one Release) (demo_receiver Release) (demo_sender Release) [5; 7] (N.of_nat (2 ^ 2)) 2 0) (Ok key) (Ok key).
Proof.
  apply (C134_v3_same_coins_refuted toy Debug Release demo_garbling (fun d => d = 2%nat) (demo_many Debug) (demo_one Release)
    (demo_sender Debug) (demo_receiver Release) (demo_sender Debug) (demo_receiver Release) (demo_sender Release) (demo_receiver Debug)
    2 2 [[1; 2]; [3; 4]; [5; 6]; [7; 8]] [200; 3] 2 [5; 6] [5; 7] 0); demo.
Qed.
Example v1_same_example : exists key,
  runs (server_v1 toy Debug demo_garbling (demo_sender Debug) (demo_many Debug) (demo_receiver Debug) [[1; 2]; [3; 4]; [5; 6]; [7; 8]] 0)
       (client_v1 toy Release demo_keys demo_garbling (demo_receiver Release) (demo_one Release) (demo_sender Release) [5; 7] (N.of_nat (2 ^ 2)) (N.of_nat 2) 0) (Ok key) (Ok key).
Proof.
  apply (C134_v1_same_coins_refuted toy Debug Release demo_garbling (fun d => d = 2%nat) (demo_many Debug) (demo_one Release)
    (demo_sender Debug) (demo_receiver Release) (demo_sender Release) (demo_receiver Debug) demo_keys
    2 2 [[1; 2]; [3; 4]; [5; 6]; [7; 8]] 2 [5; 6] [5; 7] 0); demo.
Qed.
Example v2_same_example : exists key,
  runs (server_v2 toy Debug [200; 3] [17; 4] demo_garbling (demo_sender Debug) (demo_many Debug) (demo_sender Debug) (demo_receiver Debug) (demo_many Debug)
         [[1; 2]; [3; 4]; [5; 6]; [7; 8]] 0)
       (client_v2 toy Release demo_garbling (demo_receiver Release) (demo_one Release) (demo_receiver Release) (demo_sender Release) (demo_one Release) [5; 7] (N.of_nat (2 ^ 2)) 2 0)
    (Ok key) (Ok key).
Proof.
  apply (C134_v2_same_coins_refuted toy Debug Release demo_garbling (fun d => d = 2%nat) (demo_many Debug) (demo_one Release)
    (demo_sender Debug) (demo_receiver Release) (demo_sender Debug) (demo_receiver Release) (demo_sender Release) (demo_receiver Debug)
    2 2 [[1; 2]; [3; 4]; [5; 6]; [7; 8]] [200; 3] [17; 4] 2 [5; 6] [5; 7] 0); demo.
Qed.
Example v12_meets : exists l0 l1, labels_of toy Debug demo_garbling (fpake_circuit 2 0) (fpake_output 2) l0 l1.
Proof.
  destruct (C134_v12 toy Debug Release demo_garbling demo_garbling (fun d => d = 2%nat) (demo_many Debug) (demo_one Release)
    (demo_sender Debug) (demo_receiver Release) (demo_sender Release) (demo_receiver Debug)
    2 2 [[1; 2]; [3; 4]; [5; 6]; [7; 8]] [17; 4] 2 [5; 6] [5; 7] 0 1) as (l0 & l1 & m0 & m1 & k & k' & HL & _); try demo.
  exists l0, l1. exact HL.
Qed.
Example v21_meets : exists l0 l1, labels_of toy Debug demo_garbling (v3_circuit 2 0) (v3_output 2) l0 l1.
Proof.
  destruct (C134_v21 toy Debug Release demo_garbling demo_garbling (fun d => d = 2%nat) (demo_many Debug) (demo_one Release)
    (demo_sender Debug) (demo_receiver Release) (demo_sender Debug) (demo_receiver Release) (demo_sender Release) (demo_receiver Debug) demo_keys
    2 2 [[1; 2]; [3; 4]; [5; 6]; [7; 8]] [17; 4] 2 [5; 6] [5; 7] 0 1) as (l0 & l1 & m0 & m1 & k & k' & HL & _); try demo.
  exists l0, l1. exact HL.
Qed.
