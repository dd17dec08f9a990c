(** C114: whether two sides with the same key have seen the same frames. *)
From Coq Require Import List NArith Bool Lia Arith.
From Verif Require Import Base MUtil MWires MCircuit MGarble MPar MBincode MProc MOt MApricot MMany MFpake MLegacy.
From Verif Require Import SpecUtil SpecWires SpecCircuit SpecGarble SpecBincode SpecOt SpecApricot SpecFpake SpecMatch.
From Verif Require Import PBase PProc PMatch CCircuit CGarble COt CApricot CFpake.
Import ListNotations.
Open Scope N_scope.

Lemma garbled_tail : forall l v, deserialize dec_garbled l = Ok v -> forall y, deserialize dec_garbled (l ++ y) = Ok v.
Proof. apply open_deserialize, open_garbled. Qed.
Lemma evaluator_tolerant x sha p ot pw : tolerant x (evaluator sha p ot pw).
Proof. unfold evaluator. apply tolerant_after. intros e. apply tolerant_after. intros o. apply tolerant_decoded, garbled_tail. Qed.
Lemma evaluator_client_tolerant x sha p ot1 many ot2 pw n i : tolerant x (evaluator_client_v3 sha p ot1 many ot2 pw n i).
Proof. unfold evaluator_client_v3. apply tolerant_decoded, garbled_tail. Qed.
Lemma evaluator_server_tolerant x sha p ot pws mask : tolerant x (evaluator_server_v3 sha p ot pws mask).
Proof. unfold evaluator_server_v3. apply tolerant_after. intros p0. apply tolerant_decoded, garbled_tail. Qed.

(** C114 is false: no run of the key exchange that ends with a key, with whatever peer, is disturbed by an attacker who
    appends any bytes to the frame with the garbled circuit: both sides end as without it. *)
Theorem C114_fpake_refuted : forall x sha p g otS otR pw t,
  undisturbed x (fpake_server sha p g otS otR pw t) /\ undisturbed x (fpake_client sha p g otS otR pw t).
Proof.
  intros. split; apply tolerant_undisturbed.
  - unfold fpake_server. apply tolerant_after. intros hk. apply tolerant_before, evaluator_tolerant.
  - unfold fpake_client. apply tolerant_before, evaluator_tolerant.
Qed.
Print Assumptions C114_fpake_refuted.

(** C114: nor of the one-of-many exchange. *)
Theorem C114_mfpake_refuted : forall x sha p mask g manyS manyR otS otR passwords password index number t,
  undisturbed x (mfpake_many sha p mask g manyS otS otR passwords t) /\
  undisturbed x (mfpake_single sha p g manyR otS otR password index number t).
Proof.
  intros. split; apply tolerant_undisturbed.
  - unfold mfpake_many. do 5 (apply tolerant_after; intros ?). apply tolerant_before, evaluator_tolerant.
  - unfold mfpake_single. do 3 (apply tolerant_after; intros ?). apply tolerant_before, evaluator_tolerant.
Qed.
Print Assumptions C114_mfpake_refuted.

(** C114: nor of the third version. *)
Theorem C114_v3_refuted : forall x sha p mask g ot1 many ot2 ot3 ot1' many' ot2' ot3' passwords password number index t,
  undisturbed x (server_v3 sha p mask g ot1 many ot2 ot3 passwords t) /\
  undisturbed x (client_v3 sha p g ot1' many' ot2' ot3' password number index t).
Proof.
  intros. split; apply tolerant_undisturbed.
  - unfold server_v3. apply tolerant_after. intros [k m]. apply tolerant_before, evaluator_server_tolerant.
  - unfold client_v3. apply tolerant_before, evaluator_client_tolerant.
Qed.
Print Assumptions C114_v3_refuted.

(** C114: nor of the evaluators of the first and second versions. *)
Theorem C114_legacy_refuted : forall x sha p ot1 many ot2 ot passwords password number index,
  undisturbed x (evaluator_client_v1 sha p ot1 many password number index) /\
  undisturbed x (evaluator_server_v1 sha p ot passwords) /\
  undisturbed x (evaluator_client_v2 sha p ot1 many ot2 password number index).
Proof.
  intros. split; [|split]; apply tolerant_undisturbed.
  - unfold evaluator_client_v1. apply tolerant_decoded, garbled_tail.
  - unfold evaluator_server_v1. apply tolerant_before. unfold evaluator_server_v1_seen. apply tolerant_after. intros p0.
    apply tolerant_decoded, garbled_tail.
  - unfold evaluator_client_v2. apply tolerant_before, evaluator_client_tolerant.
Qed.
Print Assumptions C114_legacy_refuted.

(** C114: in particular two sides with close passwords end with the same key, though one of them has got a frame the
    other never sent. *)
Theorem C114_same_key_refuted : forall (x : bytes) sha p p' g g' otS otR otS' otR' pw pw' t t',
  x <> [] -> hash32 sha -> garbling_ok g -> garbling_ok g' -> ot_correct extension_ok otS otR -> ot_correct extension_ok otS' otR' ->
  length pw' = length pw -> good_length (length pw) -> t <= 65534 -> t' <= 65534 ->
  N.of_nat (distance pw pw') <= t -> N.of_nat (distance pw' pw) <= t' ->
  exists key f log sent got, In (sent, got) log /\ sent <> got /\
    runs (fpake_server sha p g otS otR' pw t) (fpake_client sha p' g' otS' otR pw' t') (Ok key) (Ok key) /\
    runs (fpake_server sha p g otS otR' pw t) (behind f [] (fpake_client sha p' g' otS' otR pw' t')) (Ok key) (Ok (key, log)).
Proof.
  intros x sha p p' g g' otS otR otS' otR' pw pw' t t' Hx Hs Hg Hg' Ho Ho' Hl Hgl Ht Ht' Hd Hd'.
  destruct (C46_keys_agree sha p p' g g' otS otR otS' otR' pw pw' t t') as (key & _ & R); auto.
  destruct (C114_fpake_refuted x sha p' g' otS' otR pw' t') as [_ H].
  destruct (H _ _ _ _ R) as (j & log & (m & Hm) & Q).
  exists key, (longer x j), log, m, (m ++ x). split; [exact Hm|]. split; [|now split].
  intros E. apply Hx. rewrite <- (app_nil_r m) in E at 1. now apply app_inv_head in E.
Qed.
Print Assumptions C114_same_key_refuted.
Example C114_case : exists key f log sent got, In (sent, got) log /\ sent <> got /\
  runs (fpake_server toy Debug demo_garbling (demo_sender Debug) (demo_receiver Debug) [5; 9] 2)
       (fpake_client toy Release demo_garbling (demo_sender Release) (demo_receiver Release) [5; 10] 2) (Ok key) (Ok key) /\
  runs (fpake_server toy Debug demo_garbling (demo_sender Debug) (demo_receiver Debug) [5; 9] 2)
       (behind f [] (fpake_client toy Release demo_garbling (demo_sender Release) (demo_receiver Release) [5; 10] 2)) (Ok key) (Ok (key, log)).
Proof.
  apply (C114_same_key_refuted [0] toy Debug Release demo_garbling demo_garbling _ _ _ _ [5; 9] [5; 10] 2 2 ltac:(discriminate) toy_hash32
    demo_garbling_ok demo_garbling_ok (demo_OT Debug Release) (demo_OT Release Debug) eq_refl ltac:(unfold good_length; cbn [length]; lia));
    vm_compute; discriminate.
Qed.
