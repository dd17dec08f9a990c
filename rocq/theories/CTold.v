(** C126: the threshold can be read from the frames. *)
From Coq Require Import List NArith Bool Lia Arith.
From Verif Require Import Base MUtil MWires MCircuit MGarble MBincode MProc MOt MMany MFpake MLegacy MChannel MMain.
From Verif Require Import SpecUtil SpecWires SpecBincode SpecOt SpecFpake SpecTold.
From Verif Require Import PProc PTold.
From Verif Require Import CUtil CCircuit COt CFpake CMain.
Import ListNotations.
Open Scope N_scope.

(** C126: whoever the peer is and whatever the OT does, the last but one frame of [HalfKey::garbler] tells
    the threshold; "a listener does not learn the threshold" is false. *)
Theorem C126_half_key_refuted : forall sha p g ot pw t ins k out,
  garbling_ok g -> t <= 65534 -> room_for (length pw) ->
  feed (garbler sha p g ot pw t) ins = (Ok k, out) ->
  exists ot_frames circuit labels, out = ot_frames ++ [circuit; labels] /\ told circuit = Some t.
Proof.
  intros sha p g ot pw t ins k out Hg Ht R E.
  destruct (garbler_frames sha p g t Hg Ht ot pw ins k out R E) as (ms & pre & rest & f & l & _ & Eo & Ef).
  exists pre, f, l. auto.
Qed.
Print Assumptions C126_half_key_refuted.

(** C126: the two versions of the exchange, either side of each. *)
Theorem C126_exchanges_refuted : forall sha p g t n, garbling_ok g -> t <= 65534 -> room_for n ->
  (forall otS otR pw, (length pw <= n)%nat -> tells n t False (fpake_server sha p g otS otR pw t)) /\
  (forall otS otR pw, (length pw <= n)%nat -> tells n t False (fpake_client sha p g otS otR pw t)) /\
  (forall mask many otS otR pws, (length mask <= n)%nat -> tells n t False (mfpake_many sha p mask g many otS otR pws t)) /\
  (forall fill internal otS otR pw index number,
     tells n t False (mfpake_single sha p g (fun d i => many_receiver sha fill p internal i d) otS otR pw index number t)) /\
  (forall mask ot1 many ot2 ot3 pws, (length (nth 0 pws []) <= n)%nat -> tells n t False (server_v3 sha p mask g ot1 many ot2 ot3 pws t)) /\
  (forall ot1 many ot2 ot3 pw number index, (length pw <= n)%nat -> tells n t False (client_v3 sha p g ot1 many ot2 ot3 pw number index t)).
Proof.
  intros sha p g t n Hg Ht R.
  assert (RL : forall m, (m <= n)%nat -> room_for m) by (intros m Hm; eapply room_le; eauto).
  repeat split; intros.
  - apply fpake_server_tells; auto.
  - apply fpake_client_tells; auto.
  - apply mfpake_many_tells; auto.
  - apply mfpake_single_tells; auto.
  - apply server_v3_tells; auto.
  - apply client_v3_tells; auto.
Qed.
Print Assumptions C126_exchanges_refuted.

(** C126: the two older versions. *)
Theorem C126_legacy_refuted : forall sha p g t n, garbling_ok g -> t <= 65534 -> room_for n ->
  (forall ot many pws, (length (nth 0 pws []) <= n)%nat -> tells n t False (garbler_server_v1 sha p g ot many pws t)) /\
  (forall mask ot1 many ot2 pws, (length (nth 0 pws []) <= n)%nat -> tells n t False (garbler_server_v2 sha p mask g ot1 many ot2 pws t)) /\
  (forall rand ot pw index number, (length pw <= n)%nat -> tells n t False (garbler_client_v1 sha p rand g ot pw index number t)) /\
  (forall ot many pw index number, (length pw <= n)%nat -> tells n t False (garbler_client_v2 sha p g ot many pw index number t)).
Proof.
  intros sha p g t n Hg Ht R.
  assert (RL : forall m, (m <= n)%nat -> room_for m) by (intros m Hm; eapply room_le; eauto).
  repeat split; intros.
  - apply garbler_server_v1_tells; auto.
  - unfold garbler_server_v2. apply tells_bind. apply garbler_server_v3_tells; auto.
  - apply garbler_client_v1_tells; auto.
  - apply garbler_client_v2_tells; auto.
Qed.
Print Assumptions C126_legacy_refuted.

(** C126: the programs; the authenticated channel hides nothing.  Whatever frames of at most [n] bytes a
    program reads, when it prints a key it has sent its threshold. *)
Theorem C126_programs_refuted : forall hmac xpub xdh sec sha p g t n ins, garbling_ok g -> t <= 65534 -> room_for n ->
  Forall (fun m => (length m <= n)%nat) ins ->
  let sent {A} (q : proc A) := forall k out, feed q ins = (Ok k, out) -> exists f, In f out /\ told f = Some t in
  (forall otS otR pw, (length pw <= n)%nat -> sent (main_server hmac xpub xdh sha p sec g otS otR pw t)) /\
  (forall otS otR pw, (length pw <= n)%nat -> sent (main_client hmac xpub xdh sha p sec g otS otR pw t)) /\
  (forall mask many otS otR file size, (length mask <= n)%nat -> sent (many_server_main hmac xpub xdh sha p sec mask g many otS otR file size t)) /\
  (forall fill internal otS otR pw index number,
     sent (many_client_main hmac xpub xdh sha p sec g (fun d i => many_receiver sha fill p internal i d) otS otR pw index number t)).
Proof.
  intros hmac xpub xdh sec sha p g t n ins Hg Ht R HF.
  assert (RL : forall m, (m <= n)%nat -> room_for m) by (intros m Hm; eapply room_le; eauto).
  assert (G : forall (q : proc bytes), tells n t False q -> forall k out, feed q ins = (Ok k, out) -> exists f, In f out /\ told f = Some t).
  { intros q Hq k out E. destruct (tells_feed n t q False ins k out HF Hq E) as [[]|H]. exact H. }
  cbv beta zeta. repeat split; intros; eapply G; eauto.
  - unfold main_server. apply serve_tells, fpake_server_tells; auto.
  - unfold main_client. apply connect_tells, fpake_client_tells; auto.
  - unfold many_server_main. apply tells_lift. intros pws _. apply serve_tells, mfpake_many_tells; auto.
  - unfold many_client_main. apply connect_tells, mfpake_single_tells; auto.
Qed.
Print Assumptions C126_programs_refuted.

(** ** Examples *)
(** A session of the two halves: the frames of the garbler end with the frame that tells 3. *)
Example told_half : exists ins k frames circuit labels,
  feed (garbler toy Debug demo_garbling (demo_sender Debug) [97; 98; 99] 3) ins = (Ok k, frames ++ [circuit; labels]) /\ told circuit = Some 3.
Proof.
  destruct near_passwords as (k & _ & H). destruct (runs_feed _ _ _ _ H) as (la & lb & E & _).
  destruct (C126_half_key_refuted toy Debug demo_garbling (demo_sender Debug) [97; 98; 99] 3 lb k la) as (fs & c & l & Eo & Ec);
    [exact demo_garbling_ok|discriminate|reflexivity|exact E|].
  exists lb, k, fs, c, l. rewrite <- Eo. auto.
Qed.
(** Not every frame tells something, and two thresholds are told apart. *)
Example told_nothing : told [] = None /\ told (enc_circuit (mkCircuit 3 2 1 [mkGate 2 2 [0; 1]%nat GAdd] [2; 2])) = None.
Proof. split; reflexivity. Qed.
Example told_apart : forall c c', build_circuit Debug 8 1 = Ok c -> build_circuit Debug 8 2 = Ok c' -> told (enc_circuit c) = Some 1 /\ told (enc_circuit c') = Some 2.
Proof. intros c c' E E'. injection E as <-. injection E' as <-. split; vm_compute; reflexivity. Qed.
Example told_exchange : tells 3 4 False (fpake_client toy Release demo_garbling (demo_sender Release) (demo_receiver Release) [97; 98; 99] 4).
Proof. apply C126_exchanges_refuted; [exact demo_garbling_ok|discriminate|reflexivity|cbn; lia]. Qed.
