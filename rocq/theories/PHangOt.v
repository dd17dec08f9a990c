(** The OT functions end with an error or a panic when the peer hangs up. *)
From Coq Require Import List NArith Bool.
From Verif Require Import Base MUtil MBincode MProc MOt MApricot PHang.
Import ListNotations.

(** Process trees that end with an error when the channel is closed. *)
Lemma hang_co_sender sha gen G p rs msgs : hangup (co_sender sha gen G p rs msgs).
Proof. unfold co_sender, validate_properties. hang. Qed.
Lemma hang_co_receiver sha gen G p rs cs : hangup (co_receiver sha gen G p rs cs).
Proof. unfold co_receiver, validate_properties. hang. Qed.
Lemma hang_ap_sender sha fill p a cores cu delta bootR msgs : (forall cs, hangup (bootR cs)) ->
  hangup (ap_sender sha fill p a cores cu delta bootR msgs).
Proof. intros H. unfold ap_sender, validate_properties, coinflip_receiver. hang; apply H. Qed.
Lemma hang_ap_receiver sha fill p a cores cv bonus seed0 seed1 bootS cs : (forall ms, hangup (bootS ms)) ->
  hangup (ap_receiver sha fill p a cores cv bonus seed0 seed1 bootS cs).
Proof. intros H. unfold ap_receiver, validate_properties, coinflip_sender. hang; apply H. Qed.

