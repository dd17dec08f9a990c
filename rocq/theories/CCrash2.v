(** C59 for the 1-out-of-n OT and the one-of-many exchanges, in both directions. *)
From Coq Require Import List NArith Bool Lia Arith.
From Verif Require Import Base MUtil MWires MCircuit MGarble MPar MBincode MProc MOt MApricot MMany MFpake MLegacy MChannel MMain.
From Verif Require Import SpecUtil SpecWires SpecCircuit SpecGarble SpecBincode SpecOt SpecApricot SpecFpake SpecMany SpecMfpake SpecMain SpecLegacy SpecCrash.
From Verif Require Import PBase PProc PHang PHangOt PCrash POt PChannel PFpake COt CApricot CMany CFpake CMfpake CFpake3 CLegacy CChannel CMain CCircuit CCrash CWhole.
Import ListNotations.
Open Scope N_scope.

Lemma hang_server_v3 sha p mask g ot1 many ot2 ot3 pws t : (forall ms, hangup (ot1 ms)) -> (forall d ms, hangup (many d ms)) ->
  (forall ms, hangup (ot2 ms)) -> (forall cs, hangup (ot3 cs)) -> hangup (server_v3 sha p mask g ot1 many ot2 ot3 pws t).
Proof. intros H1 Hm H2 H3. unfold server_v3, garbler_server_v3, evaluator_server_v3. cbv zeta. hang; first [apply H1|apply Hm|apply H2|apply H3]. Qed.
Lemma hang_client_v3 sha p g ot1 many ot2 ot3 pw n i t : (forall cs, hangup (ot1 cs)) -> (forall d i, hangup (many d i)) ->
  (forall cs, hangup (ot2 cs)) -> (forall ms, hangup (ot3 ms)) -> hangup (client_v3 sha p g ot1 many ot2 ot3 pw n i t).
Proof. intros H1 Hm H2 H3. unfold client_v3, evaluator_client_v3, garbler_client_v3. cbv zeta. hang; first [apply H1|apply Hm|apply H2|apply H3]. Qed.

(** C59: 1-out-of-n OT, in both directions. *)
Theorem C59_one_of_many_receiver : forall sha fill gen G p p' cores keys rs rr messages d choice,
  generator fill -> generator gen -> curve_ok G -> key_pairs keys -> length keys = d ->
  length messages = (2 ^ d)%nat -> same_length messages -> choice < N.of_nat (2 ^ d)%nat -> fits cores d ->
  let sender := many_sender sha fill p cores keys (co_sender sha gen G p rs) messages d in
  let receiver := many_receiver sha fill p' (co_receiver sha gen G p' rr) choice d in
  fails_without sender receiver /\ fails_without receiver sender.
Proof.
  intros sha fill gen G p p' cores keys rs rr messages d choice Hf Hg HG Hk Lk Lm Hs Hc Hfit sender receiver.
  destruct (C42_one_of_many_over_base_OT sha fill gen G p p' cores keys rs rr messages d choice) as (m & _ & R); auto.
  split; eapply crash_fails; [|exact R| |exact (runs_flip _ _ _ _ R)].
  - apply hang_many_receiver. intros. apply hang_co_receiver.
  - apply hang_many_sender. intros. apply hang_co_sender.
Qed.
Print Assumptions C59_one_of_many_receiver.

(** C59: the one-of-many exchange, in both directions and whatever the distance of the passwords, over any correct OTs
    that fail when their channel closes. *)
Theorem C59_one_of_many : forall sha p p' g g' dom manyS manyR otS otR otS' otR' d l passwords mask index pw password t t',
  hash32 sha -> garbling_ok g -> garbling_ok g' ->
  many_correct dom manyS manyR -> ot_correct extension_ok otS otR -> ot_correct extension_ok otS' otR' ->
  (forall d ms, hangup (manyS d ms)) -> (forall d i, hangup (manyR d i)) -> (forall ms, hangup (otS ms)) -> (forall cs, hangup (otR cs)) ->
  (forall ms, hangup (otS' ms)) -> (forall cs, hangup (otR' cs)) ->
  dom d -> password_list d l passwords -> good_length l -> length mask = l ->
  nth_error passwords (N.to_nat index) = Some pw -> length password = l -> t <= 65534 -> t' <= 65534 ->
  let server := mfpake_many sha p mask g manyS otS otR' passwords t in
  let client := mfpake_single sha p' g' manyR otS' otR password index (N.of_nat (2 ^ d)) t' in
  fails_without server client /\ fails_without client server.
Proof.
  intros sha p p' g g' dom manyS manyR otS otR otS' otR' d l passwords mask index pw password t t' Hs Hg Hg' Hm Ho Ho' A1 A2 A3 A4 A5 A6 Hd Hp Hl Lm Hi Lp Ht Ht' server client.
  pose proof (C49_half_keys sha p p' g g' dom manyS manyR otS otR otS' otR' d l passwords mask index pw password t t' Hs Hg Hg' Hm Ho Ho' Hd Hp Hl Lm Hi Lp Ht Ht') as H.
  cbv zeta in H. destruct H as (ek & s & l0 & l1 & ek' & s' & m0 & m1 & _ & _ & _ & _ & _ & _ & _ & _ & R).
  split; eapply crash_fails; [|exact R| |exact (runs_flip _ _ _ _ R)].
  - now apply hang_mfpake_single.
  - now apply hang_mfpake_many.
Qed.
Print Assumptions C59_one_of_many.

(** C59: the third version, likewise. *)
Theorem C59_third_version : forall sha p p' g g' dom manyS manyR ot1S ot1R ot2S ot2R ot3S ot3R d l passwords mask index pw password t t',
  hash32 sha -> garbling_ok g -> garbling_ok g' -> many_correct dom manyS manyR ->
  ot_correct extension_ok ot1S ot1R -> ot_correct extension_ok ot2S ot2R -> ot_correct extension_ok ot3S ot3R ->
  (forall d ms, hangup (manyS d ms)) -> (forall d i, hangup (manyR d i)) -> (forall ms, hangup (ot1S ms)) -> (forall cs, hangup (ot1R cs)) ->
  (forall ms, hangup (ot2S ms)) -> (forall cs, hangup (ot2R cs)) -> (forall ms, hangup (ot3S ms)) -> (forall cs, hangup (ot3R cs)) ->
  dom d -> password_list d l passwords -> good_length l -> length mask = l ->
  nth_error passwords (N.to_nat index) = Some pw -> length password = l -> t <= 65534 -> t' <= 65534 ->
  let server := server_v3 sha p mask g ot1S manyS ot2S ot3R passwords t in
  let client := client_v3 sha p' g' ot1R manyR ot2R ot3S password (N.of_nat (2 ^ d)) index t' in
  fails_without server client /\ fails_without client server.
Proof.
  intros sha p p' g g' dom manyS manyR ot1S ot1R ot2S ot2R ot3S ot3R d l passwords mask index pw password t t' Hs Hg Hg' Hm O1 O2 O3 A1 A2 A3 A4 A5 A6 A7 A8 Hd Hp Hl Lm Hi Lp Ht Ht' server client.
  pose proof (C51_both_halves sha p p' g g' dom manyS manyR ot1S ot1R ot2S ot2R ot3S ot3R d l passwords mask index pw password t t' Hs Hg Hg' Hm O1 O2 O3 Hd Hp Hl Lm Hi Lp Ht Ht') as H.
  cbv zeta in H. destruct H as (l0 & l1 & m0 & m1 & _ & _ & R).
  split; eapply crash_fails; [|exact R| |exact (runs_flip _ _ _ _ R)].
  - now apply hang_client_v3.
  - now apply hang_server_v3.
Qed.
Print Assumptions C59_third_version.

(** The premises hold with the toy primitives. *)
Example crash_many_example :
  fails_without (many_sender toy toy_gen Debug 4 (toy_keys 2) (co_sender toy toy_gen toy_curve Debug (fun _ => 1)) [[1]; [2]; [3]; [4]] 2)
                (many_receiver toy toy_gen Release (co_receiver toy toy_gen toy_curve Release (fun _ => 1)) 2 2) /\
  fails_without (client_v3 toy Release demo_garbling (demo_receiver Release) (demo_one Release) (demo_receiver Release) (demo_sender Release) [5; 7] (N.of_nat (2 ^ 2)) 2 1)
                (server_v3 toy Debug [200; 3] demo_garbling (demo_sender Debug) (demo_many Debug) (demo_sender Debug) (demo_receiver Debug) [[1; 2]; [3; 4]; [5; 6]; [7; 8]] 1).
Proof.
  assert (M : forall p d ms, hangup (demo_many p d ms)) by (intros; apply hang_many_sender; intros; apply hang_co_sender).
  assert (O : forall p d i, hangup (demo_one p d i)) by (intros; apply hang_many_receiver; intros; apply hang_co_receiver).
  assert (S1 : forall p ms, hangup (demo_sender p ms)) by (intros; apply hang_sender_with).
  assert (R1 : forall p cs, hangup (demo_receiver p cs)) by (intros; apply hang_receiver_with).
  split.
  - apply (C59_one_of_many_receiver toy toy_gen toy_gen toy_curve Debug Release 4 (toy_keys 2) (fun _ => 1) (fun _ => 1) [[1]; [2]; [3]; [4]] 2 2);
      [exact toy_gen_ok|exact toy_gen_ok|exact toy_curve_ok|apply toy_keys_ok; lia|reflexivity|reflexivity| |reflexivity|left; lia].
    exists 1%nat. split; [lia|]. repeat constructor.
  - apply (C59_third_version toy Debug Release demo_garbling demo_garbling (fun d => d = 2%nat) (demo_many Debug) (demo_one Release)
    (demo_sender Debug) (demo_receiver Release) (demo_sender Debug) (demo_receiver Release) (demo_sender Release) (demo_receiver Debug)
    2 2 [[1; 2]; [3; 4]; [5; 6]; [7; 8]] [200; 3] 2 [5; 6] [5; 7] 1 1);
    auto; [exact toy_hash32|exact demo_garbling_ok|exact demo_garbling_ok|apply demo_many_ok|apply demo_OT|apply demo_OT|apply demo_OT|
    |unfold good_length; lia|discriminate|discriminate].
    split; [lia|]. split; [reflexivity|]. repeat constructor.
Qed.
