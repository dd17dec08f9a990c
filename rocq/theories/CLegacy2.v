(** C52 for sessions that mix the two older versions. *)
From Coq Require Import List NArith Bool Lia Arith.
From Verif Require Import Base MUtil MWires MCircuit MGarble MPar MBincode MProc MOt MApricot MMany MFpake MLegacy MLegacy2.
From Verif Require Import SpecUtil SpecWires SpecCircuit SpecGarble SpecBincode SpecOt SpecApricot SpecFpake SpecMany SpecMfpake SpecLegacy.
From Verif Require Import PBase PUtil PProc PFpake PLegacy.
From Verif Require Import CCircuit CGarble COt CApricot CMany CFpake CMfpake CFpake3 CLegacy.
Import ListNotations.
Open Scope N_scope.

(** What the two sides of a half hold at the end of it, for a garbler with key string [k1]: the evaluator has it
    exactly if the passwords are near. *)
Theorem C52_v1_v2_keys : forall sha p p' g g' dom manyS manyR ot1S ot1R ot2S ot2R d l passwords mask index pw password t t',
  hash32 sha -> garbling_ok g -> garbling_ok g' -> many_correct dom manyS manyR ->
  ot_correct extension_ok ot1S ot1R -> ot_correct extension_ok ot2S ot2R ->
  dom d -> password_list d l passwords -> good_length l -> length mask = l ->
  nth_error passwords index = Some pw -> length password = l -> t <= 65534 -> t' <= 65534 ->
  exists l0 l1 m0 m1, labels_of sha p g (fpake_circuit l t) (fpake_output l) l0 l1 /\
    labels_of sha p' g' (v3_circuit l t') (v3_output l) m0 m1 /\
    let near := N.of_nat (distance password pw) in
    let key b := sha (dec_string (fpake_output l) 1 (if b : bool then l1 else l0)) in
    let key' b := sha (dec_string (v3_output l) 1 (if b : bool then m1 else m0)) in
    runs (server_v12 sha p mask g ot1S manyS ot2R manyS passwords t)
         (client_v12 sha p' g' ot1R manyR ot2S manyR password (N.of_nat (2 ^ d)) (N.of_nat index) t')
      (Ok (xor (key true) (key' (near <=? t')))) (Ok (xor (key (near <=? t)) (key' true))).
Proof.
  intros sha p p' g g' dom manyS manyR ot1S ot1R ot2S ot2R d l passwords mask index pw password t t'
    Hs Hg Hg' Hm H1 H2 Hd Hpl Hgl Lm Hi Lp Ht Ht'.
  destruct (C52_v1_server_garbles sha p p' g dom manyS manyR ot1S ot1R d l passwords index pw password t) as (l0 & l1 & HL & R); auto.
  destruct (C52_v2_client_garbles sha p' p g' dom manyS manyR ot2S ot2R d l passwords mask (N.of_nat index) pw password t') as (m0 & m1 & HL' & R'); auto.
  { now rewrite Nnat.Nat2N.id. }
  rewrite distance_comm in R'.
  exists l0, l1, m0, m1. split; [exact HL|]. split; [exact HL'|]. cbv zeta.
  unfold server_v12, client_v12. eapply runs_bind; [exact R|]. cbv beta. eapply runs_bind; [apply runs_flip; exact R'|]. apply runs_ret.
Qed.
Print Assumptions C52_v1_v2_keys.
Theorem C52_v2_v1_keys : forall sha p p' g g' dom manyS manyR ot1S ot1R ot2S ot2R ot3S ot3R rand d l passwords mask index pw password t t',
  hash32 sha -> garbling_ok g -> garbling_ok g' -> many_correct dom manyS manyR ->
  ot_correct extension_ok ot1S ot1R -> ot_correct extension_ok ot2S ot2R -> ot_correct extension_ok ot3S ot3R -> keys_ok rand ->
  dom d -> (1 <= d)%nat -> password_list d l passwords -> good_length l -> length mask = l ->
  nth_error passwords index = Some pw -> length password = l -> t <= 65534 -> t' <= 65534 ->
  exists l0 l1 m0 m1, labels_of sha p g (v3_circuit l t) (v3_output l) l0 l1 /\
    labels_of sha p' g' (fpake_circuit l t') (fpake_output l) m0 m1 /\
    let near := N.of_nat (distance password pw) in
    let key b := sha (dec_string (v3_output l) 1 (if b : bool then l1 else l0)) in
    let key' b := sha (dec_string (fpake_output l) 1 (if b : bool then m1 else m0)) in
    runs (server_v21 sha p mask g ot1S manyS ot2S ot3R passwords t)
         (client_v21 sha p' rand g' ot1R manyR ot2R ot3S password (N.of_nat (2 ^ d)) (N.of_nat index) t')
      (Ok (xor (key true) (key' (near <=? t')))) (Ok (xor (key (near <=? t)) (key' true))).
Proof.
  intros sha p p' g g' dom manyS manyR ot1S ot1R ot2S ot2R ot3S ot3R rand d l passwords mask index pw password t t'
    Hs Hg Hg' Hm H1 H2 H3 Hk Hd Hd1 Hpl Hgl Lm Hi Lp Ht Ht'.
  destruct (C52_v2_server_garbles sha p p' g dom manyS manyR ot1S ot1R ot2S ot2R d l passwords mask (N.of_nat index) pw password t) as (l0 & l1 & HL & R); auto.
  { now rewrite Nnat.Nat2N.id. }
  destruct Hpl as (H31 & Ll & F).
  assert (B1 : (2 ^ 1 <= 2 ^ d)%nat) by (apply Nat.pow_le_mono_r; lia). cbn [Nat.pow Nat.mul Nat.add] in B1.
  assert (B2 : N.of_nat (2 ^ d) < 2 ^ 32). { rewrite Nnat.Nat2N.inj_pow. apply N.pow_lt_mono_r; [reflexivity|apply N.le_lt_trans with 31; [lia|reflexivity]]. }
  destruct (C52_v1_client_garbles sha p' p g' ot3S ot3R rand l passwords index pw password t') as (m0 & m1 & HL' & R'); auto; rewrite ?Ll; auto.
  rewrite Ll in R'.
  exists l0, l1, m0, m1. split; [exact HL|]. split; [exact HL'|]. cbv zeta.
  unfold server_v21, client_v21. eapply runs_bind; [exact R|]. cbv beta. eapply runs_bind; [apply runs_flip; exact R'|]. apply runs_ret.
Qed.
Print Assumptions C52_v2_v1_keys.
(** Near passwords: one key. *)
Theorem C52_v1_v2_keys_agree : forall sha p p' g g' dom manyS manyR ot1S ot1R ot2S ot2R d l passwords mask index pw password t t',
  hash32 sha -> garbling_ok g -> garbling_ok g' -> many_correct dom manyS manyR ->
  ot_correct extension_ok ot1S ot1R -> ot_correct extension_ok ot2S ot2R ->
  dom d -> password_list d l passwords -> good_length l -> length mask = l ->
  nth_error passwords index = Some pw -> length password = l -> t <= 65534 -> t' <= 65534 ->
  N.of_nat (distance password pw) <= t -> N.of_nat (distance password pw) <= t' ->
  exists key, length key = 32%nat /\
    runs (server_v12 sha p mask g ot1S manyS ot2R manyS passwords t)
         (client_v12 sha p' g' ot1R manyR ot2S manyR password (N.of_nat (2 ^ d)) (N.of_nat index) t') (Ok key) (Ok key).
Proof.
  intros sha p p' g g' dom manyS manyR ot1S ot1R ot2S ot2R d l passwords mask index pw password t t'
    Hs Hg Hg' Hm H1 H2 Hd Hpl Hgl Lm Hi Lp Ht Ht' He He'.
  destruct (C52_v1_v2_keys sha p p' g g' dom manyS manyR ot1S ot1R ot2S ot2R d l passwords mask index pw password t t') as (l0 & l1 & m0 & m1 & _ & _ & R); auto.
  cbv zeta in R. rewrite (proj2 (N.leb_le _ _) He), (proj2 (N.leb_le _ _) He') in R.
  eexists. split; [|exact R]. rewrite xor_length; [apply Hs|]. now rewrite !(proj1 (Hs _)).
Qed.
Print Assumptions C52_v1_v2_keys_agree.
Theorem C52_v2_v1_keys_agree : forall sha p p' g g' dom manyS manyR ot1S ot1R ot2S ot2R ot3S ot3R rand d l passwords mask index pw password t t',
  hash32 sha -> garbling_ok g -> garbling_ok g' -> many_correct dom manyS manyR ->
  ot_correct extension_ok ot1S ot1R -> ot_correct extension_ok ot2S ot2R -> ot_correct extension_ok ot3S ot3R -> keys_ok rand ->
  dom d -> (1 <= d)%nat -> password_list d l passwords -> good_length l -> length mask = l ->
  nth_error passwords index = Some pw -> length password = l -> t <= 65534 -> t' <= 65534 ->
  N.of_nat (distance password pw) <= t -> N.of_nat (distance password pw) <= t' ->
  exists key, length key = 32%nat /\
    runs (server_v21 sha p mask g ot1S manyS ot2S ot3R passwords t)
         (client_v21 sha p' rand g' ot1R manyR ot2R ot3S password (N.of_nat (2 ^ d)) (N.of_nat index) t') (Ok key) (Ok key).
Proof.
  intros sha p p' g g' dom manyS manyR ot1S ot1R ot2S ot2R ot3S ot3R rand d l passwords mask index pw password t t'
    Hs Hg Hg' Hm H1 H2 H3 Hk Hd Hd1 Hpl Hgl Lm Hi Lp Ht Ht' He He'.
  destruct (C52_v2_v1_keys sha p p' g g' dom manyS manyR ot1S ot1R ot2S ot2R ot3S ot3R rand d l passwords mask index pw password t t') as (l0 & l1 & m0 & m1 & _ & _ & R); auto.
  cbv zeta in R. rewrite (proj2 (N.leb_le _ _) He), (proj2 (N.leb_le _ _) He') in R.
  eexists. split; [|exact R]. rewrite xor_length; [apply Hs|]. now rewrite !(proj1 (Hs _)).
Qed.
Print Assumptions C52_v2_v1_keys_agree.

Example v12_example : exists key, length key = 32%nat /\
  runs (server_v12 toy Debug [17; 4] demo_garbling (demo_sender Debug) (demo_many Debug) (demo_receiver Debug) (demo_many Debug) [[1; 2]; [3; 4]; [5; 6]; [7; 8]] 1)
       (client_v12 toy Release demo_garbling (demo_receiver Release) (demo_one Release) (demo_sender Release) (demo_one Release) [5; 7] (N.of_nat (2 ^ 2)) (N.of_nat 2) 1)
    (Ok key) (Ok key).
Proof.
  apply (C52_v1_v2_keys_agree toy Debug Release demo_garbling demo_garbling (fun d => d = 2%nat) (demo_many Debug) (demo_one Release)
    (demo_sender Debug) (demo_receiver Release) (demo_sender Release) (demo_receiver Debug)
    2 2 [[1; 2]; [3; 4]; [5; 6]; [7; 8]] [17; 4] 2 [5; 6] [5; 7] 1 1);
    [exact toy_hash32|exact demo_garbling_ok|exact demo_garbling_ok|apply demo_many_ok|apply demo_OT|apply demo_OT|reflexivity|
    |unfold good_length; lia|reflexivity|reflexivity|reflexivity|discriminate|discriminate|vm_compute; discriminate|vm_compute; discriminate].
  split; [lia|]. split; [reflexivity|]. repeat constructor.
Qed.
Example v21_example : exists key, length key = 32%nat /\
  runs (server_v21 toy Debug [17; 4] demo_garbling (demo_sender Debug) (demo_many Debug) (demo_sender Debug) (demo_receiver Debug) [[1; 2]; [3; 4]; [5; 6]; [7; 8]] 1)
       (client_v21 toy Release demo_keys demo_garbling (demo_receiver Release) (demo_one Release) (demo_receiver Release) (demo_sender Release) [5; 7] (N.of_nat (2 ^ 2)) (N.of_nat 2) 1)
    (Ok key) (Ok key).
Proof.
  apply (C52_v2_v1_keys_agree toy Debug Release demo_garbling demo_garbling (fun d => d = 2%nat) (demo_many Debug) (demo_one Release)
    (demo_sender Debug) (demo_receiver Release) (demo_sender Debug) (demo_receiver Release) (demo_sender Release) (demo_receiver Debug) demo_keys
    2 2 [[1; 2]; [3; 4]; [5; 6]; [7; 8]] [17; 4] 2 [5; 6] [5; 7] 1 1);
    [exact toy_hash32|exact demo_garbling_ok|exact demo_garbling_ok|apply demo_many_ok|apply demo_OT|apply demo_OT|apply demo_OT|exact demo_keys_ok|reflexivity|lia|
    |unfold good_length; lia|reflexivity|reflexivity|reflexivity|discriminate|discriminate|vm_compute; discriminate|vm_compute; discriminate].
  split; [lia|]. split; [reflexivity|]. repeat constructor.
Qed.
