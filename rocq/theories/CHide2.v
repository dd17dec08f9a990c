(** C85: what the evaluators of the key exchanges send does not tell their secrets. *)
From Coq Require Import List NArith Bool Lia Arith.
From Verif Require Import Base MUtil MWires MCircuit MGarble MBitMatrix MPoly MPar MBincode MProc MOt MApricot MMany MFpake.
From Verif Require Import SpecUtil SpecBincode SpecOt SpecApricot SpecPads SpecHide.
From Verif Require Import PBase PProc POt PHide PHide2 CCircuit COt CApricot CHide.
Import ListNotations.
Open Scope N_scope.

(** [HalfKey::evaluator]: for any two passwords of one length there is a change of the extra bits and of the generator
    on the seeds that the garbler has not received (the changes of C84, see C84_changes_undo) under which the evaluator
    with the second password sends the frames that it sends with the first. *)
Theorem C85_evaluator_hides_password : forall sha p a cores cv seed0 seed1 boot w,
  seeds_ok seed0 -> seeds_ok seed1 -> length w = 128%nat ->
  (forall s, In s (seen w seed0 seed1) -> In s (unseen w seed0 seed1) -> False) ->
  forall (pw pw' : bytes) (ins : list bytes) chi,
  length pw' = length pw -> bytes_ok chi -> spans 256 (skipn (16 * (8 * length pw)) chi) ->
  exists b0 d, length b0 = 256%nat /\ array_ok ((8 * length pw + 256) / 8) d /\
  forall fill bonus, generator fill -> fill (xored cv (nth 1 ins [])) (16 * (8 * length pw + 256))%nat = chi -> length bonus = 256%nat ->
  snd (feed (evaluator sha p (ap_receiver sha (switch (unseen w seed0 seed1) ((8 * length pw + 256) / 8) d fill) p a cores cv (flipped bonus b0) seed0 seed1 boot) pw') ins) =
  snd (feed (evaluator sha p (ap_receiver sha fill p a cores cv bonus seed0 seed1 boot) pw) ins).
Proof. exact evaluator_hides. Qed.
Print Assumptions C85_evaluator_hides_password.

(** [evaluator_server_v3]: the same for the mask of the server, with which its passwords went to the client. *)
Theorem C85_server_hides_mask : forall sha p a cores cv seed0 seed1 boot w,
  seeds_ok seed0 -> seeds_ok seed1 -> length w = 128%nat ->
  (forall s, In s (seen w seed0 seed1) -> In s (unseen w seed0 seed1) -> False) ->
  forall (passwords : list bytes) (pw mask mask' : bytes) (ins : list bytes) chi, nth_error passwords 0 = Some pw ->
  length mask = length pw -> length mask' = length pw -> bytes_ok chi -> spans 256 (skipn (16 * (8 * length pw)) chi) ->
  exists b0 d, length b0 = 256%nat /\ array_ok ((8 * length pw + 256) / 8) d /\
  forall fill bonus, generator fill -> fill (xored cv (nth 3 ins [])) (16 * (8 * length pw + 256))%nat = chi -> length bonus = 256%nat ->
  snd (feed (evaluator_server_v3 sha p (ap_receiver sha (switch (unseen w seed0 seed1) ((8 * length pw + 256) / 8) d fill) p a cores cv (flipped bonus b0) seed0 seed1 boot) passwords mask') ins) =
  snd (feed (evaluator_server_v3 sha p (ap_receiver sha fill p a cores cv bonus seed0 seed1 boot) passwords mask) ins).
Proof. exact server_v3_hides. Qed.
Print Assumptions C85_server_hides_mask.

(** With the data of C84_example the two hold for passwords and masks of one byte. *)
Example C85_example : forall bonus boot ins, length bonus = 256%nat -> exists d bonus', array_ok 33 d /\ length bonus' = 256%nat /\
  snd (feed (evaluator toy Release (ap_receiver toy (switch (unseen turns (own_seeds 0) (own_seeds 128)) 33 d unit_gen) Release X86 4 (repeat 7 32) bonus'
        (own_seeds 0) (own_seeds 128) boot) [98]) ins) =
  snd (feed (evaluator toy Release (ap_receiver toy unit_gen Release X86 4 (repeat 7 32) bonus (own_seeds 0) (own_seeds 128) boot) [97]) ins).
Proof.
  intros bonus boot ins L.
  destruct (C85_evaluator_hides_password toy Release X86 4 (repeat 7 32) (own_seeds 0) (own_seeds 128) boot turns
    (own_seeds_ok 0 ltac:(lia)) (own_seeds_ok 128 ltac:(lia)) eq_refl turns_apart [97] [98] ins
    (unit_gen [] (16 * (8 + 256))) eq_refl (proj2 (unit_gen_ok _ _)) (unit_spans [])) as (b0 & d & L0 & Hd & H).
  exists d, (flipped bonus b0). split; [exact Hd|]. split; [rewrite flipped_length; congruence|].
  exact (H unit_gen bonus unit_gen_ok eq_refl L).
Qed.
Example C85_server_example : forall bonus boot ins, length bonus = 256%nat -> exists d bonus', array_ok 33 d /\ length bonus' = 256%nat /\
  snd (feed (evaluator_server_v3 toy Release (ap_receiver toy (switch (unseen turns (own_seeds 0) (own_seeds 128)) 33 d unit_gen) Release X86 4 (repeat 7 32) bonus'
        (own_seeds 0) (own_seeds 128) boot) [[97]; [98]] [1]) ins) =
  snd (feed (evaluator_server_v3 toy Release (ap_receiver toy unit_gen Release X86 4 (repeat 7 32) bonus (own_seeds 0) (own_seeds 128) boot) [[97]; [98]] [2]) ins).
Proof.
  intros bonus boot ins L.
  destruct (C85_server_hides_mask toy Release X86 4 (repeat 7 32) (own_seeds 0) (own_seeds 128) boot turns
    (own_seeds_ok 0 ltac:(lia)) (own_seeds_ok 128 ltac:(lia)) eq_refl turns_apart [[97]; [98]] [97] [2] [1] ins
    (unit_gen [] (16 * (8 + 256))) eq_refl eq_refl eq_refl (proj2 (unit_gen_ok _ _)) (unit_spans [])) as (b0 & d & L0 & Hd & H).
  exists d, (flipped bonus b0). split; [exact Hd|]. split; [rewrite flipped_length; congruence|].
  exact (H unit_gen bonus unit_gen_ok eq_refl L).
Qed.
