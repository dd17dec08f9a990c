(** C86: the index of the 1-of-n OT. *)
From Coq Require Import List NArith Bool Lia Arith.
From Verif Require Import Base MUtil MWires MCircuit MGarble MPar MBincode MProc MOt MMany MFpake.
From Verif Require Import SpecBincode SpecOt PBase PUtil PProc POt POtHide PIndex CCircuit COt.
Import ListNotations.
Open Scope N_scope.

(** The frames of [ManyOTReceiver::exchange] over the base OT fit every index, as long as the points that the sender
    sends are multiples of the base point: a change of the secret scalars (a permutation of the values below the order)
    turns a receiver with one index into one with another, on any frames of the sender. *)
Theorem C86_index_hidden : forall sha gen fill G ord p d choice choice' (ins : list bytes),
  curve_ok G -> base_order G ord -> (d <= 32)%nat ->
  (forall i m P, (i < d)%nat -> nth_error ins (S (S i)) = Some m -> decompress G m = Some P -> exists a, P = smul G a (base G)) ->
  exists f g : nat -> N -> N,
    (forall i x, x < ord -> f i x < ord /\ g i x < ord /\ g i (f i x) = x /\ f i (g i x) = x) /\
    forall rs, snd (feed (many_receiver sha fill p (co_receiver sha gen G p rs) choice d) ins) =
               snd (feed (many_receiver sha fill p (co_receiver sha gen G p (fun i => f i (rs i))) choice' d) ins).
Proof. intros sha gen fill G ord p d choice choice' ins HG Ho. exact (many_hides sha gen fill G HG ord Ho p d choice choice' ins). Qed.
Print Assumptions C86_index_hidden.

(** Nothing checks that they are.  With a point outside that subgroup (curve25519 has some) one and the same
    sequence of frames makes the replies for any two indices different, whatever the secrets: the sender reads off the
    whole index. *)
Theorem C86_index_hidden_from_any_points_refuted : forall sha gen fill G ord p T d,
  curve_ok G -> base_order G ord -> (forall k, T <> smul G k (base G)) -> (d <= 32)%nat ->
  exists ins, forall choice choice' rs rs', choice < 2 ^ N.of_nat d -> choice' < 2 ^ N.of_nat d -> choice <> choice' ->
    snd (feed (many_receiver sha fill p (co_receiver sha gen G p rs) choice d) ins) <>
    snd (feed (many_receiver sha fill p (co_receiver sha gen G p rs') choice' d) ins).
Proof.
  intros sha gen fill G ord p T d HG Ho HT Hd. exists ([] :: probes G T d). intros choice choice' rs rs' H H' Ne E. apply Ne.
  exact (many_open sha gen fill G HG ord Ho p T HT d [] choice choice' rs rs' Hd H H' E).
Qed.
Print Assumptions C86_index_hidden_from_any_points_refuted.

(** So the server of the one-of-many exchange ([mfpake_many]) learns which of its passwords the client uses, whatever
    the client's password, coins and other OTs are. *)
Theorem C86_client_index_refuted : forall sha gen fill G ord p T d number,
  curve_ok G -> base_order G ord -> (forall k, T <> smul G k (base G)) -> (d <= 32)%nat -> log2_ p 32 number = Ok (N.of_nat d) ->
  exists ins, forall index index' rs rs' g g' ots ots' otr otr' pw pw' t t',
    index < 2 ^ N.of_nat d -> index' < 2 ^ N.of_nat d -> index <> index' ->
    snd (feed (mfpake_single sha p g (fun d c => many_receiver sha fill p (co_receiver sha gen G p rs) c d) ots otr pw index number t) ins) <>
    snd (feed (mfpake_single sha p g' (fun d c => many_receiver sha fill p (co_receiver sha gen G p rs') c d) ots' otr' pw' index' number t') ins).
Proof.
  intros sha gen fill G ord p T d number HG Ho HT Hd El. exists ([] :: probes G T d).
  intros index index' rs rs' g g' ots ots' otr otr' pw pw' t t' H H' Ne E. apply Ne.
  exact (single_open sha gen fill G HG ord Ho p T HT d Hd number [] index index' rs rs' g g' ots ots' otr otr' pw pw' t t' El H H' E).
Qed.
Print Assumptions C86_client_index_refuted.

(** The toy curve has such a point; with four passwords the index 1 is told from the index 2. *)
Example C86_example : exists ins, forall rs rs' g ots otr pw t,
  snd (feed (mfpake_single toy Debug g (fun d c => many_receiver toy toy_gen Debug (co_receiver toy toy_gen toy_curve Debug rs) c d) ots otr pw 1 4 t) ins) <>
  snd (feed (mfpake_single toy Debug g (fun d c => many_receiver toy toy_gen Debug (co_receiver toy toy_gen toy_curve Debug rs') c d) ots otr pw 2 4 t) ins).
Proof.
  destruct (C86_client_index_refuted toy toy_gen toy_gen toy_curve _ Debug (false, true) 2 4 toy_curve_ok toy_order toy_has_torsion ltac:(lia) eq_refl) as (ins & H).
  exists ins. intros rs rs' g ots otr pw t. apply H; reflexivity || discriminate.
Qed.
(** An honest sender's point is a multiple of the base point, and the receiver answers it. *)
Example C86_hidden_example : forall sha,
  snd (feed (many_receiver sha toy_gen Debug (co_receiver sha toy_gen toy_curve Debug (fun _ => 1)) 1 1)
         [[7; 8]; enc_props (mkProps 1 chou_orlandi); compress toy_curve (smul toy_curve 1 (base toy_curve))]) =
  [enc_props (mkProps 1 chou_orlandi); compress toy_curve (false, false)].
Proof. intros sha. vm_compute. reflexivity. Qed.
