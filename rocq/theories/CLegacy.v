(** C52 and C53: the deprecated versions of the one-of-many key exchange, src/legacy_fpake.rs. *)
From Coq Require Import List NArith Bool Lia Arith Permutation.
From Verif Require Import Base MUtil MWires MCircuit MGarble MPar MBincode MProc MOt MApricot MMany MFpake MLegacy.
From Verif Require Import SpecUtil SpecWires SpecCircuit SpecGarble SpecBincode SpecOt SpecApricot SpecFpake SpecMany SpecMfpake SpecLegacy.
From Verif Require Import PBase PUtil PWires PGarble PCircuit PCircuit2 PHalf PProc POt PApricotRun PFpake PFpake3 PLegacy.
From Verif Require Import CCircuit CGarble COt CApricot CMany CFpake CMfpake CFpake3.
Import ListNotations.
Open Scope N_scope.

Lemma indexed_length (l : nat) (passwords : list bytes) i pw :
  Forall (fun q : bytes => length q = l) passwords -> nth_error passwords i = Some pw -> length pw = l.
Proof. intros F H. rewrite Forall_forall in F. apply F. eapply nth_error_In; eauto. Qed.

(** C52, version 1, the server garbles (the evaluator feeds the labels in the opposite order). *)
Theorem C52_v1_server_garbles : forall sha p p' g dom manyS manyR otS otR d l passwords index pw password t,
  hash32 sha -> garbling_ok g -> many_correct dom manyS manyR -> ot_correct extension_ok otS otR ->
  dom d -> password_list d l passwords -> good_length l ->
  nth_error passwords index = Some pw -> length password = l -> t <= 65534 ->
  exists l0 l1, labels_of sha p g (fpake_circuit l t) (fpake_output l) l0 l1 /\
  runs (garbler_server_v1 sha p g otS manyS passwords t)
       (evaluator_client_v1 sha p' otR manyR password (N.of_nat (2 ^ d)) (N.of_nat index))
    (Ok (sha (dec_string (fpake_output l) 1 l1)))
    (Ok (sha (dec_string (fpake_output l) 1 (if N.of_nat (distance password pw) <=? t then l1 else l0)))).
Proof.
  intros sha p p' g dom manyS manyR otS otR d l passwords index pw password t Hs Hg Hm Ho Hd (H31 & Lp & F) Hgl Hi Lpw Ht.
  eapply v1_server_garbles; eauto.
Qed.
Print Assumptions C52_v1_server_garbles.

(** C52, version 1, the client garbles, for any number of passwords from two on. *)
Theorem C52_v1_client_garbles : forall sha p p' g otS otR rand l passwords index pw password t,
  hash32 sha -> garbling_ok g -> ot_correct extension_ok otS otR -> keys_ok rand ->
  (2 <= length passwords)%nat -> N.of_nat (length passwords) < 2 ^ 32 -> Forall (fun q : bytes => length q = l) passwords -> good_length l ->
  nth_error passwords index = Some pw -> length password = l -> t <= 65534 ->
  exists l0 l1, labels_of sha p g (fpake_circuit l t) (fpake_output l) l0 l1 /\
  runs (garbler_client_v1 sha p rand g otS password (N.of_nat index) (N.of_nat (length passwords)) t)
       (evaluator_server_v1 sha p' otR passwords)
    (Ok (sha (dec_string (fpake_output l) 1 l1)))
    (Ok (sha (dec_string (fpake_output l) 1 (if N.of_nat (distance password pw) <=? t then l1 else l0)))).
Proof.
  intros sha p p' g otS otR rand l passwords index pw password t Hs Hg Ho Hk H2 H32 F Hgl Hi Lpw Ht.
  assert (E : length passwords = (length passwords - 2 + 2)%nat) by lia.
  destruct (v1_client_garbles sha Hs p p' g Hg l Hgl passwords pw password t F Lpw Ht index Hi otS otR rand (length passwords - 2) Ho Hk E)
    as (l0 & l1 & labels & HL & _ & _ & R). { now rewrite <- E. }
  rewrite <- E in R. exists l0, l1. split; [exact HL|]. unfold evaluator_server_v1.
  eapply runs_then_r; [exact R|reflexivity].
Qed.
Print Assumptions C52_v1_client_garbles.

(** C52, version 1: both halves. *)
Theorem C52_v1_keys_agree : forall sha p p' g g' dom manyS manyR ot1S ot1R ot2S ot2R rand d l passwords index pw password t t',
  hash32 sha -> garbling_ok g -> garbling_ok g' -> many_correct dom manyS manyR ->
  ot_correct extension_ok ot1S ot1R -> ot_correct extension_ok ot2S ot2R -> keys_ok rand ->
  dom d -> (1 <= d)%nat -> password_list d l passwords -> good_length l ->
  nth_error passwords index = Some pw -> length password = l -> t <= 65534 -> t' <= 65534 ->
  N.of_nat (distance password pw) <= t -> N.of_nat (distance password pw) <= t' ->
  exists key, length key = 32%nat /\
    runs (server_v1 sha p g ot1S manyS ot2R passwords t)
         (client_v1 sha p' rand g' ot1R manyR ot2S password (N.of_nat (2 ^ d)) (N.of_nat index) t') (Ok key) (Ok key).
Proof.
  intros sha p p' g g' dom manyS manyR ot1S ot1R ot2S ot2R rand d l passwords index pw password t t'
    Hs Hg Hg' Hm H1 H2 Hk Hd Hd1 Hpl Hgl Hi Lp Ht Ht' He He'.
  destruct (C52_v1_server_garbles sha p p' g dom manyS manyR ot1S ot1R d l passwords index pw password t) as (l0 & l1 & _ & R); auto.
  destruct Hpl as (H31 & Ll & F).
  assert (B1 : (2 ^ 1 <= 2 ^ d)%nat) by (apply Nat.pow_le_mono_r; lia). cbn [Nat.pow Nat.mul Nat.add] in B1.
  assert (B2 : N.of_nat (2 ^ d) < 2 ^ 32). { rewrite Nat2N.inj_pow. apply N.pow_lt_mono_r; [reflexivity|apply N.le_lt_trans with 31; [lia|reflexivity]]. }
  destruct (C52_v1_client_garbles sha p' p g' ot2S ot2R rand l passwords index pw password t') as (m0 & m1 & _ & R'); auto; rewrite ?Ll; auto.
  rewrite (proj2 (N.leb_le _ _) He) in R. rewrite (proj2 (N.leb_le _ _) He'), Ll in R'.
  eexists. split; [|unfold server_v1, client_v1; eapply runs_bind; [exact R|]; cbv beta; eapply runs_bind; [apply runs_flip; exact R'|]; apply runs_ret].
  unfold combine_keys. rewrite xor_length; [apply Hs|]. now rewrite !(proj1 (Hs _)).
Qed.
Print Assumptions C52_v1_keys_agree.

(** C52, version 2, each half and both. *)
Theorem C52_v2_server_garbles : forall sha p p' g dom manyS manyR ot1S ot1R ot2S ot2R d l passwords mask index pw password t,
  hash32 sha -> garbling_ok g -> many_correct dom manyS manyR -> ot_correct extension_ok ot1S ot1R -> ot_correct extension_ok ot2S ot2R ->
  dom d -> password_list d l passwords -> good_length l -> length mask = l ->
  nth_error passwords (N.to_nat index) = Some pw -> length password = l -> t <= 65534 ->
  exists l0 l1, labels_of sha p g (v3_circuit l t) (v3_output l) l0 l1 /\
  runs (garbler_server_v2 sha p mask g ot1S manyS ot2S passwords t)
       (evaluator_client_v2 sha p' ot1R manyR ot2R password (N.of_nat (2 ^ d)) index)
    (Ok (sha (dec_string (v3_output l) 1 l1)))
    (Ok (sha (dec_string (v3_output l) 1 (if N.of_nat (distance password pw) <=? t then l1 else l0)))).
Proof. intros. eapply v2_server_garbles; eauto. Qed.
Print Assumptions C52_v2_server_garbles.
Theorem C52_v2_client_garbles : forall sha p p' g dom manyS manyR otS otR d l passwords mask index pw password t,
  hash32 sha -> garbling_ok g -> many_correct dom manyS manyR -> ot_correct extension_ok otS otR ->
  dom d -> password_list d l passwords -> good_length l -> length mask = l ->
  nth_error passwords (N.to_nat index) = Some pw -> length password = l -> t <= 65534 ->
  exists l0 l1, labels_of sha p g (v3_circuit l t) (v3_output l) l0 l1 /\
  runs (garbler_client_v2 sha p g otS manyR password index (N.of_nat (2 ^ d)) t)
       (evaluator_server_v2 sha p' mask otR manyS passwords)
    (Ok (sha (dec_string (v3_output l) 1 l1)))
    (Ok (sha (dec_string (v3_output l) 1 (if N.of_nat (distance pw password) <=? t then l1 else l0)))).
Proof. intros. eapply v2_client_garbles; eauto. Qed.
Print Assumptions C52_v2_client_garbles.
Theorem C52_v2_keys_agree : forall sha p p' g g' dom manyS manyR ot1S ot1R ot2S ot2R ot3S ot3R d l passwords mask mask' index pw password t t',
  hash32 sha -> garbling_ok g -> garbling_ok g' -> many_correct dom manyS manyR ->
  ot_correct extension_ok ot1S ot1R -> ot_correct extension_ok ot2S ot2R -> ot_correct extension_ok ot3S ot3R ->
  dom d -> password_list d l passwords -> good_length l -> length mask = l -> length mask' = l ->
  nth_error passwords (N.to_nat index) = Some pw -> length password = l -> t <= 65534 -> t' <= 65534 ->
  N.of_nat (distance password pw) <= t -> N.of_nat (distance password pw) <= t' ->
  exists key, length key = 32%nat /\
    runs (server_v2 sha p mask mask' g ot1S manyS ot2S ot3R manyS passwords t)
         (client_v2 sha p' g' ot1R manyR ot2R ot3S manyR password (N.of_nat (2 ^ d)) index t') (Ok key) (Ok key).
Proof.
  intros sha p p' g g' dom manyS manyR ot1S ot1R ot2S ot2R ot3S ot3R d l passwords mask mask' index pw password t t'
    Hs Hg Hg' Hm H1 H2 H3 Hd Hpl Hgl Lm Lm' Hi Lp Ht Ht' He He'.
  destruct (C52_v2_server_garbles sha p p' g dom manyS manyR ot1S ot1R ot2S ot2R d l passwords mask index pw password t) as (l0 & l1 & _ & R); auto.
  destruct (C52_v2_client_garbles sha p' p g' dom manyS manyR ot3S ot3R d l passwords mask' index pw password t') as (m0 & m1 & _ & R'); auto.
  rewrite (proj2 (N.leb_le _ _) He) in R. rewrite distance_comm in He'. rewrite (proj2 (N.leb_le _ _) He') in R'.
  eexists. split; [|unfold server_v2, client_v2; eapply runs_bind; [exact R|]; cbv beta; eapply runs_bind; [apply runs_flip; exact R'|]; apply runs_ret].
  unfold combine_keys. rewrite xor_length; [apply Hs|]. now rewrite !(proj1 (Hs _)).
Qed.
Print Assumptions C52_v2_keys_agree.

(** C52 is false for a list of one password: with number_of_passwords = 1 the client of the first
    version panics (debug) after having sent the circuit and its own labels. *)
Theorem C52_single_password_refuted : forall sha g otS rand l password t, hash32 sha -> garbling_ok g -> good_length l -> length password = l -> t <= 65534 ->
  exists m1 m2, garbler_client_v1 sha Debug rand g otS password 0 1 t = Snd m1 (Snd m2 (Done (Panic POverflow))).
Proof.
  intros sha g otS rand l password t Hs Hg Hgl Lp Ht.
  destruct (v1_common sha Hs Debug Debug g Hg l Hgl password t Lp Ht) as (gc & ek & dk & zs & l0 & l1 & H & _ & Lz & _).
  destruct (good_supported _ Hgl) as (Hsu & Hn & H1).
  unfold garbler_client_v1. rewrite Lp. set (n := (l * 8)%nat) in *.
  rewrite (build_circuit_eq n t Debug) by assumption. cbn [lift pbind].
  rewrite (garble_zipped_ok _ _ _ _ _ _ _ _ _ _ H). cbn [pbind].
  rewrite label_pairs_ok by lia. cbn [pbind].
  pose proof (seg_pick_ok zs 0 password) as Q. cbv zeta in Q. rewrite Lp in Q. fold n in Q. cbn [Nat.add] in Q. rewrite Q by lia. cbn [pbind send].
  eexists. eexists. reflexivity.
Qed.
Print Assumptions C52_single_password_refuted.

(** C53 is false: in every honest run of the first version the server can compute the client's index
    from the payloads of its OT: it is the row that equals the XOR of all rows.  The only exception is
    randomness of the client for which one of its rows of 32-byte keys coincides with the row of labels. *)
Theorem C53_index_hidden_refuted : forall sha p p' g otS otR rand l passwords index pw password t,
  hash32 sha -> garbling_ok g -> ot_correct extension_ok otS otR -> keys_ok rand ->
  (2 <= length passwords)%nat -> N.of_nat (length passwords) < 2 ^ 32 -> Forall (fun q : bytes => length q = l) passwords -> good_length l ->
  nth_error passwords index = Some pw -> length password = l -> t <= 65534 ->
  let n := (l * 8)%nat in
  exists key key' seen,
  runs (garbler_client_v1 sha p rand g otS password (N.of_nat index) (N.of_nat (length passwords)) t)
       (evaluator_server_v1_seen sha p' otR passwords) (Ok key) (Ok (key', seen)) /\
  (guess (length passwords) n seen = Some index \/
   (exists r, (r < length passwords - 2)%nat /\ row_of n index seen = map (rand r) (seq 0 n)) \/
   row_of n index seen = fold_left xor_row (map (fun r => map (rand r) (seq 0 n)) (seq 0 (length passwords - 2))) (repeat (repeat 0 32) n)).
Proof.
  intros sha p p' g otS otR rand l passwords index pw password t Hs Hg Ho Hk H2 H32 F Hgl Hi Lpw Ht n.
  assert (E : length passwords = (length passwords - 2 + 2)%nat) by lia.
  destruct (v1_client_garbles sha Hs p p' g Hg l Hgl passwords pw password t F Lpw Ht index Hi otS otR rand (length passwords - 2) Ho Hk E)
    as (l0 & l1 & labels & HL & Sl & Fr & R). { now rewrite <- E. }
  fold n in R, Sl, Fr. rewrite <- E in R. set (rs := map (fun r => map (rand r) (seq 0 n)) (seq 0 (length passwords - 2))) in *.
  assert (Lrs : length rs = (length passwords - 2)%nat) by (unfold rs; now rewrite map_length, seq_length).
  assert (Hlt : (index < length passwords)%nat) by (apply nth_error_Some; congruence).
  destruct (guess_ok n rs labels index Fr Sl ltac:(lia)) as [Erow Hgs]. cbv zeta in *.
  eexists. eexists. eexists. split; [exact R|]. rewrite Lrs, <- E in Hgs. destruct Hgs as [Hgs|Hin]; [left; exact Hgs|right].
  rewrite Erow. apply in_app_iff in Hin as [Hin|[Hin|[]]].
  - left. unfold rs in Hin. apply in_map_iff in Hin as (r & Er & Hr). apply in_seq in Hr. exists r. split; [lia|now symmetry].
  - right. rewrite <- Hin. unfold total. change (zeros n) with (repeat (repeat 0 32) n). generalize (repeat (repeat 0 32) n). clear.
    induction rs as [|r rs IH]; intros acc; cbn [fold_left]; auto. now rewrite xor_row_eq.
Qed.
Print Assumptions C53_index_hidden_refuted.

Definition demo_keys : nat -> nat -> bytes := fun r j => map (fun k => (N.of_nat (r * 7 + j * 3 + k * 5 + 1)) mod 256) (seq 0 32).
Lemma demo_keys_ok : keys_ok demo_keys.
Proof. intros r j. reflexivity. Qed.
Example v1_example : exists key, length key = 32%nat /\
  runs (server_v1 toy Debug demo_garbling (demo_sender Debug) (demo_many Debug) (demo_receiver Debug) [[1; 2]; [3; 4]; [5; 6]; [7; 8]] 1)
       (client_v1 toy Release demo_keys demo_garbling (demo_receiver Release) (demo_one Release) (demo_sender Release) [5; 7] 4 2 1)
    (Ok key) (Ok key).
Proof.
  apply (C52_v1_keys_agree toy Debug Release demo_garbling demo_garbling (fun d => d = 2%nat) (demo_many Debug) (demo_one Release)
    (demo_sender Debug) (demo_receiver Release) (demo_sender Release) (demo_receiver Debug) demo_keys
    2 2 [[1; 2]; [3; 4]; [5; 6]; [7; 8]] 2 [5; 6] [5; 7] 1 1);
    [exact toy_hash32|exact demo_garbling_ok|exact demo_garbling_ok|apply demo_many_ok|apply demo_OT|apply demo_OT|exact demo_keys_ok|reflexivity|lia|
    |unfold good_length; lia|reflexivity|reflexivity|discriminate|discriminate|vm_compute; discriminate|vm_compute; discriminate].
  split; [lia|]. split; [reflexivity|]. repeat constructor.
Qed.
Example v2_example : exists key, length key = 32%nat /\
  runs (server_v2 toy Debug [200; 3] [17; 4] demo_garbling (demo_sender Debug) (demo_many Debug) (demo_sender Debug) (demo_receiver Debug) (demo_many Debug)
         [[1; 2]; [3; 4]; [5; 6]; [7; 8]] 1)
       (client_v2 toy Release demo_garbling (demo_receiver Release) (demo_one Release) (demo_receiver Release) (demo_sender Release) (demo_one Release) [5; 7] 4 2 1)
    (Ok key) (Ok key).
Proof.
  apply (C52_v2_keys_agree toy Debug Release demo_garbling demo_garbling (fun d => d = 2%nat) (demo_many Debug) (demo_one Release)
    (demo_sender Debug) (demo_receiver Release) (demo_sender Debug) (demo_receiver Release) (demo_sender Release) (demo_receiver Debug)
    2 2 [[1; 2]; [3; 4]; [5; 6]; [7; 8]] [200; 3] [17; 4] 2 [5; 6] [5; 7] 1 1);
    [exact toy_hash32|exact demo_garbling_ok|exact demo_garbling_ok|apply demo_many_ok|apply demo_OT|apply demo_OT|apply demo_OT|reflexivity|
    |unfold good_length; lia|reflexivity|reflexivity|reflexivity|reflexivity|discriminate|discriminate|vm_compute; discriminate|vm_compute; discriminate].
  split; [lia|]. split; [reflexivity|]. repeat constructor.
Qed.
(** The guess on three rows of two keys each (here written with 32 equal bytes): row 1 holds the
    labels, rows 0 and 2 cancel. *)
Example guess_example :
  let k x := repeat x 32 in guess 3 2 [k 7; k 9;  k 100; k 23;  k 7; k 9] = Some 1%nat.
Proof. vm_compute. reflexivity. Qed.
