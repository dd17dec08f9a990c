(** C59 for the older versions of the one-of-many exchange and for sessions that mix them, in both directions. *)
From Coq Require Import List NArith Bool Lia Arith.
From Verif Require Import Base MUtil MWires MCircuit MGarble MPar MBincode MProc MOt MApricot MMany MFpake MLegacy MLegacy2.
From Verif Require Import SpecUtil SpecWires SpecCircuit SpecGarble SpecBincode SpecOt SpecApricot SpecFpake SpecMany SpecMfpake SpecLegacy SpecCrash.
From Verif Require Import PBase PProc PHang PHangOt PCrash POt PFpake COt CApricot CMany CFpake CMfpake CFpake3 CLegacy CLegacy2 CCircuit CCrash CWhole.
Import ListNotations.
Open Scope N_scope.

Ltac hang_ots := cbv zeta; hang; match goal with H : forall _, hangup _ |- _ => solve [apply H] | H : forall _ _, hangup _ |- _ => solve [apply H] end.
Section Hang.
Variable sha : bytes -> bytes.
Variable p : profile.
Lemma hang_gs_v1 g ot many pws t : (forall ms, hangup (ot ms)) -> (forall d ms, hangup (many d ms)) -> hangup (garbler_server_v1 sha p g ot many pws t).
Proof. intros. unfold garbler_server_v1. hang_ots. Qed.
Lemma hang_ec_v1 ot many pw n i : (forall cs, hangup (ot cs)) -> (forall d i, hangup (many d i)) -> hangup (evaluator_client_v1 sha p ot many pw n i).
Proof. intros. unfold evaluator_client_v1. hang_ots. Qed.
Lemma hang_gc_v1 rand g ot pw i n t : (forall ms, hangup (ot ms)) -> hangup (garbler_client_v1 sha p rand g ot pw i n t).
Proof. intros. unfold garbler_client_v1. hang_ots. Qed.
Lemma hang_es_v1 ot pws : (forall cs, hangup (ot cs)) -> hangup (evaluator_server_v1 sha p ot pws).
Proof. intros. unfold evaluator_server_v1, evaluator_server_v1_seen. hang_ots. Qed.
Lemma hang_gs_v2 mask g ot1 many ot2 pws t : (forall ms, hangup (ot1 ms)) -> (forall d ms, hangup (many d ms)) -> (forall ms, hangup (ot2 ms)) ->
  hangup (garbler_server_v2 sha p mask g ot1 many ot2 pws t).
Proof. intros. unfold garbler_server_v2, garbler_server_v3. hang_ots. Qed.
Lemma hang_ec_v2 ot1 many ot2 pw n i : (forall cs, hangup (ot1 cs)) -> (forall d i, hangup (many d i)) -> (forall cs, hangup (ot2 cs)) ->
  hangup (evaluator_client_v2 sha p ot1 many ot2 pw n i).
Proof. intros. unfold evaluator_client_v2, evaluator_client_v3. hang_ots. Qed.
Lemma hang_gc_v2 g ot many pw i n t : (forall ms, hangup (ot ms)) -> (forall d i, hangup (many d i)) -> hangup (garbler_client_v2 sha p g ot many pw i n t).
Proof. intros. unfold garbler_client_v2. hang_ots. Qed.
Lemma hang_es_v2 mask ot many pws : (forall cs, hangup (ot cs)) -> (forall d ms, hangup (many d ms)) -> hangup (evaluator_server_v2 sha p mask ot many pws).
Proof. intros. unfold evaluator_server_v2. hang_ots. Qed.
End Hang.
Lemma hang_two {A B C} (p : proc A) (q : A -> proc B) (f : A -> B -> C) : hangup p -> (forall a, hangup (q a)) -> hangup (let! a := p in let! b := q a in ret (f a b)).
Proof. intros H1 H2. hang. apply H2. Qed.

(** The first version. *)
Theorem C59_first_version : forall sha p p' g g' dom manyS manyR ot1S ot1R ot2S ot2R rand d l passwords index pw password t t',
  hash32 sha -> garbling_ok g -> garbling_ok g' -> many_correct dom manyS manyR ->
  ot_correct extension_ok ot1S ot1R -> ot_correct extension_ok ot2S ot2R -> keys_ok rand ->
  (forall d ms, hangup (manyS d ms)) -> (forall d i, hangup (manyR d i)) -> (forall ms, hangup (ot1S ms)) -> (forall cs, hangup (ot1R cs)) ->
  (forall ms, hangup (ot2S ms)) -> (forall cs, hangup (ot2R cs)) ->
  dom d -> (1 <= d)%nat -> password_list d l passwords -> good_length l ->
  nth_error passwords index = Some pw -> length password = l -> t <= 65534 -> t' <= 65534 ->
  let server := server_v1 sha p g ot1S manyS ot2R passwords t in
  let client := client_v1 sha p' rand g' ot1R manyR ot2S password (N.of_nat (2 ^ d)) (N.of_nat index) t' in
  fails_without server client /\ fails_without client server.
Proof.
  intros sha p p' g g' dom manyS manyR ot1S ot1R ot2S ot2R rand d l passwords index pw password t t'
    Hs Hg Hg' Hm O1 O2 Hk A1 A2 A3 A4 A5 A6 Hd Hd1 Hpl Hgl Hi Lp Ht Ht' server client.
  destruct (C52_v1_server_garbles sha p p' g dom manyS manyR ot1S ot1R d l passwords index pw password t) as (l0 & l1 & _ & R); auto.
  destruct Hpl as (H31 & Ll & F).
  assert (B1 : (2 ^ 1 <= 2 ^ d)%nat) by (apply Nat.pow_le_mono_r; lia). cbn [Nat.pow Nat.mul Nat.add] in B1.
  assert (B2 : N.of_nat (2 ^ d) < 2 ^ 32). { rewrite Nnat.Nat2N.inj_pow. apply N.pow_lt_mono_r; [reflexivity|apply N.le_lt_trans with 31; [lia|reflexivity]]. }
  destruct (C52_v1_client_garbles sha p' p g' ot2S ot2R rand l passwords index pw password t') as (m0 & m1 & _ & R'); auto; rewrite ?Ll; auto.
  rewrite Ll in R'.
  assert (W : exists k k', runs server client (Ok k) (Ok k')).
  { eexists. eexists. unfold server, client, server_v1, client_v1. eapply runs_bind; [exact R|]. cbv beta. eapply runs_bind; [apply runs_flip; exact R'|]. apply runs_ret. }
  destruct W as (k & k' & W). split; eapply crash_fails; [|exact W| |exact (runs_flip _ _ _ _ W)]; apply hang_two; intros.
  - now apply hang_ec_v1.
  - now apply hang_gc_v1.
  - now apply hang_gs_v1.
  - now apply hang_es_v1.
Qed.
Print Assumptions C59_first_version.

(** The second version. *)
Theorem C59_second_version : forall sha p p' g g' dom manyS manyR ot1S ot1R ot2S ot2R ot3S ot3R d l passwords mask mask' index pw password t t',
  hash32 sha -> garbling_ok g -> garbling_ok g' -> many_correct dom manyS manyR ->
  ot_correct extension_ok ot1S ot1R -> ot_correct extension_ok ot2S ot2R -> ot_correct extension_ok ot3S ot3R ->
  (forall d ms, hangup (manyS d ms)) -> (forall d i, hangup (manyR d i)) -> (forall ms, hangup (ot1S ms)) -> (forall cs, hangup (ot1R cs)) ->
  (forall ms, hangup (ot2S ms)) -> (forall cs, hangup (ot2R cs)) -> (forall ms, hangup (ot3S ms)) -> (forall cs, hangup (ot3R cs)) ->
  dom d -> password_list d l passwords -> good_length l -> length mask = l -> length mask' = l ->
  nth_error passwords (N.to_nat index) = Some pw -> length password = l -> t <= 65534 -> t' <= 65534 ->
  let server := server_v2 sha p mask mask' g ot1S manyS ot2S ot3R manyS passwords t in
  let client := client_v2 sha p' g' ot1R manyR ot2R ot3S manyR password (N.of_nat (2 ^ d)) index t' in
  fails_without server client /\ fails_without client server.
Proof.
  intros sha p p' g g' dom manyS manyR ot1S ot1R ot2S ot2R ot3S ot3R d l passwords mask mask' index pw password t t'
    Hs Hg Hg' Hm O1 O2 O3 A1 A2 A3 A4 A5 A6 A7 A8 Hd Hpl Hgl Lm Lm' Hi Lp Ht Ht' server client.
  destruct (C52_v2_server_garbles sha p p' g dom manyS manyR ot1S ot1R ot2S ot2R d l passwords mask index pw password t) as (l0 & l1 & _ & R); auto.
  destruct (C52_v2_client_garbles sha p' p g' dom manyS manyR ot3S ot3R d l passwords mask' index pw password t') as (m0 & m1 & _ & R'); auto.
  assert (W : exists k k', runs server client (Ok k) (Ok k')).
  { eexists. eexists. unfold server, client, server_v2, client_v2. eapply runs_bind; [exact R|]. cbv beta. eapply runs_bind; [apply runs_flip; exact R'|]. apply runs_ret. }
  destruct W as (k & k' & W). split; eapply crash_fails; [|exact W| |exact (runs_flip _ _ _ _ W)]; apply hang_two; intros.
  - now apply hang_ec_v2.
  - now apply hang_gc_v2.
  - now apply hang_gs_v2.
  - now apply hang_es_v2.
Qed.
Print Assumptions C59_second_version.

(** Sessions that mix them. *)
Theorem C59_mixed_versions : forall sha p p' g g' dom manyS manyR ot1S ot1R ot2S ot2R ot3S ot3R rand d l passwords mask index pw password t t',
  hash32 sha -> garbling_ok g -> garbling_ok g' -> many_correct dom manyS manyR ->
  ot_correct extension_ok ot1S ot1R -> ot_correct extension_ok ot2S ot2R -> ot_correct extension_ok ot3S ot3R -> keys_ok rand ->
  (forall d ms, hangup (manyS d ms)) -> (forall d i, hangup (manyR d i)) -> (forall ms, hangup (ot1S ms)) -> (forall cs, hangup (ot1R cs)) ->
  (forall ms, hangup (ot2S ms)) -> (forall cs, hangup (ot2R cs)) -> (forall ms, hangup (ot3S ms)) -> (forall cs, hangup (ot3R cs)) ->
  dom d -> (1 <= d)%nat -> password_list d l passwords -> good_length l -> length mask = l ->
  nth_error passwords index = Some pw -> length password = l -> t <= 65534 -> t' <= 65534 ->
  let server12 := server_v12 sha p mask g ot1S manyS ot3R manyS passwords t in
  let client12 := client_v12 sha p' g' ot1R manyR ot3S manyR password (N.of_nat (2 ^ d)) (N.of_nat index) t' in
  let server21 := server_v21 sha p mask g ot1S manyS ot2S ot3R passwords t in
  let client21 := client_v21 sha p' rand g' ot1R manyR ot2R ot3S password (N.of_nat (2 ^ d)) (N.of_nat index) t' in
  (fails_without server12 client12 /\ fails_without client12 server12) /\ (fails_without server21 client21 /\ fails_without client21 server21).
Proof.
  intros sha p p' g g' dom manyS manyR ot1S ot1R ot2S ot2R ot3S ot3R rand d l passwords mask index pw password t t'
    Hs Hg Hg' Hm O1 O2 O3 Hk A1 A2 A3 A4 A5 A6 A7 A8 Hd Hd1 Hpl Hgl Lm Hi Lp Ht Ht' server12 client12 server21 client21.
  split.
  - destruct (C52_v1_v2_keys sha p p' g g' dom manyS manyR ot1S ot1R ot3S ot3R d l passwords mask index pw password t t') as (l0 & l1 & m0 & m1 & _ & _ & R); auto.
    split; eapply crash_fails; [|exact R| |exact (runs_flip _ _ _ _ R)]; apply hang_two; intros.
    + now apply hang_ec_v1.
    + now apply hang_gc_v2.
    + now apply hang_gs_v1.
    + now apply hang_es_v2.
  - destruct (C52_v2_v1_keys sha p p' g g' dom manyS manyR ot1S ot1R ot2S ot2R ot3S ot3R rand d l passwords mask index pw password t t') as (l0 & l1 & m0 & m1 & _ & _ & R); auto.
    split; eapply crash_fails; [|exact R| |exact (runs_flip _ _ _ _ R)]; apply hang_two; intros.
    + now apply hang_ec_v2.
    + now apply hang_gc_v1.
    + now apply hang_gs_v2.
    + now apply hang_es_v1.
Qed.
Print Assumptions C59_mixed_versions.

(** The premises hold with the toy primitives. *)
Definition C59_list : list bytes := [[1; 2]; [3; 4]; [5; 6]; [7; 8]].
Lemma C59_list_ok : password_list 2 2 C59_list.
Proof. split; [lia|]. split; [reflexivity|]. repeat constructor. Qed.
Example crash_legacy_example :
  fails_without (server_v1 toy Debug demo_garbling (demo_sender Debug) (demo_many Debug) (demo_receiver Debug) C59_list 1)
                (client_v1 toy Release demo_keys demo_garbling (demo_receiver Release) (demo_one Release) (demo_sender Release) [5; 7] (N.of_nat (2 ^ 2)) (N.of_nat 2) 1) /\
  fails_without (client_v2 toy Release demo_garbling (demo_receiver Release) (demo_one Release) (demo_receiver Release) (demo_sender Release) (demo_one Release) [5; 7] (N.of_nat (2 ^ 2)) 2 1)
                (server_v2 toy Debug [17; 4] [3; 200] demo_garbling (demo_sender Debug) (demo_many Debug) (demo_sender Debug) (demo_receiver Debug) (demo_many Debug) C59_list 1).
Proof.
  assert (M : forall p d ms, hangup (demo_many p d ms)) by (intros; apply hang_many_sender; intros; apply hang_co_sender).
  assert (O : forall p d i, hangup (demo_one p d i)) by (intros; apply hang_many_receiver; intros; apply hang_co_receiver).
  assert (S1 : forall p ms, hangup (demo_sender p ms)) by (intros; apply hang_sender_with).
  assert (R1 : forall p cs, hangup (demo_receiver p cs)) by (intros; apply hang_receiver_with).
  split.
  - apply (C59_first_version toy Debug Release demo_garbling demo_garbling (fun d => d = 2%nat) (demo_many Debug) (demo_one Release)
      (demo_sender Debug) (demo_receiver Release) (demo_sender Release) (demo_receiver Debug) demo_keys 2 2 C59_list 2 [5; 6] [5; 7] 1 1);
      auto; [exact toy_hash32|exact demo_garbling_ok|exact demo_garbling_ok|apply demo_many_ok|apply demo_OT|apply demo_OT|exact demo_keys_ok|
      exact C59_list_ok|unfold good_length; lia|discriminate|discriminate].
  - apply (C59_second_version toy Debug Release demo_garbling demo_garbling (fun d => d = 2%nat) (demo_many Debug) (demo_one Release)
      (demo_sender Debug) (demo_receiver Release) (demo_sender Debug) (demo_receiver Release) (demo_sender Release) (demo_receiver Debug)
      2 2 C59_list [17; 4] [3; 200] 2 [5; 6] [5; 7] 1 1);
      auto; [exact toy_hash32|exact demo_garbling_ok|exact demo_garbling_ok|apply demo_many_ok|apply demo_OT|apply demo_OT|apply demo_OT|
      exact C59_list_ok|unfold good_length; lia|discriminate|discriminate].
Qed.
