(** C36, C71, C72: the first version of the OT extension (ot/apricot_classic.rs), and how many
    messages the OT receivers return. *)
From Coq Require Import List NArith Bool Lia Arith.
From Verif Require Import Base MUtil MBitMatrix MPoly MPar MBincode MProc MOt MApricot MClassic.
From Verif Require Import SpecUtil SpecBitMatrix SpecPoly SpecBincode SpecOt SpecApricot SpecCrash SpecClassic PBase PPoly PBitMatrix PBincode PProc PHang PCrash POt PHangOt.
From Verif Require Import PClassic PReturns CCircuit COt CApricot.
Import ListNotations.
Open Scope N_scope.

(** The two ends of a run with the coins [r] over a base OT. *)
Definition classic_sender_with sha gen20 gen8 p a (r : coins) bootR :=
  classic_sender sha gen20 gen8 p a (coin_s r) (coin_delta r) bootR.
Definition classic_receiver_with sha gen20 gen8 p a (r : coins) bootS :=
  classic_receiver sha gen20 gen8 p a (coin_r r) (coin_bonus r) (coin_seed0 r) (coin_seed1 r) bootS.

(** C36: for every correct base OT, whatever the coins, the build profiles and the architectures (with
    or without a special multiplication), the classic extension is a correct OT for a positive
    multiple of 8 pairs of messages of any sizes. *)
Theorem C36_classic_correct : forall sha gen20 gen8 p p' a a' r bootS bootR,
  generator gen20 -> generator gen8 -> classic_coins_ok r -> ot_correct seed_pairs bootS bootR ->
  ot_correct classic_ok (classic_sender_with sha gen20 gen8 p a r bootR) (classic_receiver_with sha gen20 gen8 p' a' r bootS).
Proof.
  intros sha gen20 gen8 p p' a a' [cu cv delta bonus seed0 seed1] bootS bootR Hg Hg8 (H1 & H2 & H3 & H4 & H5 & H6) Hb.
  exact (classic_correct sha gen20 gen8 Hg Hg8 p p' a a' cu cv delta bonus seed0 seed1 H1 H2 H3 H4 H5 H6 bootS bootR Hb).
Qed.
Print Assumptions C36_classic_correct.

(** C36: in particular over the base OT of the crate. *)
Theorem C36_classic_over_base_OT : forall sha gen20 gen8 G p p' a a' r rs rr,
  generator gen20 -> generator gen8 -> curve_ok G -> classic_coins_ok r ->
  ot_correct classic_ok
    (classic_sender_with sha gen20 gen8 p a r (co_receiver sha gen20 G p rs))
    (classic_receiver_with sha gen20 gen8 p' a' r (co_sender sha gen20 G p' rr)).
Proof.
  intros sha gen20 gen8 G p p' a a' r rs rr Hg Hg8 HG Hr.
  apply C36_classic_correct; auto. intros msgs cs L H.
  exact (co_runs sha gen20 G Hg HG p' p rr rs msgs cs L (seed_pairs_payload msgs H)).
Qed.
Print Assumptions C36_classic_over_base_OT.

Definition classic_toy : coins := mkCoins (repeat 0 32) (repeat 0 32) (1 :: repeat 0 15) (repeat true 192)
  (repeat (repeat 7 32) 128) (repeat (repeat 9 32) 128).
Lemma classic_toy_ok : classic_coins_ok classic_toy.
Proof.
  repeat split; try reflexivity; cbn [classic_toy coin_s coin_r coin_delta coin_seed0 coin_seed1].
  - now apply repeat_ok.
  - now apply repeat_ok.
  - constructor; [reflexivity|now apply repeat_ok].
  - apply Forall_forall. intros y Hy. apply repeat_spec in Hy. subst. split; [reflexivity|now apply repeat_ok].
  - apply Forall_forall. intros y Hy. apply repeat_spec in Hy. subst. split; [reflexivity|now apply repeat_ok].
Qed.
Lemma toy_boot p p' : ot_correct seed_pairs (co_sender toy toy_gen toy_curve p (fun _ => 1)) (co_receiver toy toy_gen toy_curve p' (fun _ => 1)).
Proof.
  intros msgs cs L H. exact (co_runs toy toy_gen toy_curve toy_gen_ok toy_curve_ok p p' (fun _ => 1) (fun _ => 1) msgs cs L (seed_pairs_payload msgs H)).
Qed.
(** The messages may have different sizes here. *)
Example C36_example :
  let msgs := [([1], [2; 3]); ([4; 5; 6], []); ([], [7]); ([8], [9]); ([1], [2]); ([1], [2]); ([1], [2]); ([1], [2])] in
  let cs := [true; false; true; false; true; false; true; false] in
  classic_ok msgs /\
  exists out, runs (classic_sender_with toy toy_gen toy_gen Release (Some X86) classic_toy (co_receiver toy toy_gen toy_curve Release (fun _ => 1)) msgs)
                   (classic_receiver_with toy toy_gen toy_gen Debug None classic_toy (co_sender toy toy_gen toy_curve Debug (fun _ => 1)) cs)
                   (Ok tt) (Ok out) /\ nth 0 out [] = [2; 3] /\ nth 1 out [] = [4; 5; 6].
Proof.
  intros msgs cs.
  assert (Hm : classic_ok msgs).
  { split; [|split; [cbn; lia|reflexivity]]. split; [reflexivity|]. repeat constructor. }
  split; [exact Hm|].
  destruct (C36_classic_over_base_OT toy toy_gen toy_gen toy_curve Release Debug (Some X86) None classic_toy (fun _ => 1) (fun _ => 1)
    toy_gen_ok toy_gen_ok toy_curve_ok classic_toy_ok msgs cs eq_refl Hm) as (out & R & L & S).
  exists out. split; [exact R|]. split; apply nth_error_nth.
  - exact (S 0%nat _ _ eq_refl eq_refl).
  - exact (S 1%nat _ _ eq_refl eq_refl).
Qed.

(** C59: a classic sender that disappears makes the receiver fail. *)
Lemma hang_classic_receiver sha gen20 gen8 p a cv bonus seed0 seed1 bootS cs : (forall ms, hangup (bootS ms)) ->
  hangup (classic_receiver sha gen20 gen8 p a cv bonus seed0 seed1 bootS cs).
Proof.
  intros H. unfold classic_receiver, receiver_cote, receiver_correlation, receiver_de_rot, validate_properties, coinflip_sender.
  hang; apply H.
Qed.
Theorem C59_classic_receiver : forall sha gen20 gen8 G p p' a a' r rs rr msgs cs,
  generator gen20 -> generator gen8 -> curve_ok G -> classic_coins_ok r -> length cs = length msgs -> classic_ok msgs ->
  fails_without (classic_sender_with sha gen20 gen8 p a r (co_receiver sha gen20 G p rs) msgs)
                (classic_receiver_with sha gen20 gen8 p' a' r (co_sender sha gen20 G p' rr) cs).
Proof.
  intros sha gen20 gen8 G p p' a a' r rs rr msgs cs Hg Hg8 HG Hr L H.
  destruct (C36_classic_over_base_OT sha gen20 gen8 G p p' a a' r rs rr Hg Hg8 HG Hr msgs cs) as (out & R & _); auto.
  eapply crash_fails; [|exact R]. apply hang_classic_receiver. intros. apply hang_co_sender.
Qed.
Print Assumptions C59_classic_receiver.

(** ** C71 *)
(** C71 is false: a receiver that sends an x_sum of fewer than 16 bytes makes the sender read past
    the end of it, in release builds on every architecture and on x86 even in debug builds. *)
Theorem C71_short_x_sum_is_read_out_of_bounds_refuted : forall sha gen20 gen8 p a r bootS bootR msgs u x_sum t_sum,
  generator gen20 -> classic_coins_ok r -> ot_correct seed_pairs bootS bootR ->
  classic_ok msgs -> shaped 128 ((length msgs + 192) / 8) u -> bytes_ok x_sum -> (length x_sum < 16)%nat -> blob_ok t_sum ->
  p = Release \/ a = Some X86 ->
  runs (classic_sender_with sha gen20 gen8 p a r bootR msgs)
       (evil_classic sha (coin_r r) (coin_seed0 r) (coin_seed1 r) bootS (length msgs) u x_sum t_sum) UB (Ok tt).
Proof.
  intros sha gen20 gen8 p a [cu cv delta bonus seed0 seed1] bootS bootR msgs u x_sum t_sum Hg (H1 & H2 & H3 & H4 & H5 & H6) Hb Hm Su Bx Lx Ht Hc.
  exact (classic_short_x_sum sha gen20 gen8 Hg p a cu cv delta bonus seed0 seed1 H1 H2 H3 H4 H5 H6 bootS bootR Hb msgs u x_sum t_sum Hm Su Bx Lx Ht Hc).
Qed.
Print Assumptions C71_short_x_sum_is_read_out_of_bounds_refuted.

Example C71_example :
  runs (classic_sender_with toy toy_gen toy_gen Debug (Some X86) classic_toy (co_receiver toy toy_gen toy_curve Debug (fun _ => 1)) (repeat ([1], [2]) 8))
    (evil_classic toy (coin_r classic_toy) (coin_seed0 classic_toy) (coin_seed1 classic_toy) (co_sender toy toy_gen toy_curve Debug (fun _ => 1)) 8
       (repeat (repeat 77 25) 128) [] []) UB (Ok tt).
Proof.
  apply (C71_short_x_sum_is_read_out_of_bounds_refuted toy toy_gen toy_gen Debug (Some X86) classic_toy _ _ (repeat ([1], [2]) 8));
    auto using toy_gen_ok, classic_toy_ok, toy_boot.
  - split; [|split; [cbn; lia|reflexivity]]. split; [reflexivity|]. repeat constructor.
  - split; [reflexivity|]. apply Forall_forall. intros y Hy. apply repeat_spec in Hy. subst. split; [reflexivity|now apply repeat_ok].
  - constructor.
  - cbn. lia.
  - split; [reflexivity|constructor].
Qed.

(** ** C72 *)
(** C72 holds for Apricot: whatever a peer sends, a receiver that ends without an error returns one
    message for each of its choices. *)
Theorem C72_apricot_returns_one_message_per_choice : forall sha fill p a cores r bootS cs,
  always_returns (length cs) (receiver_with sha fill p a cores r bootS cs).
Proof. intros. apply ap_receiver_returns. Qed.
Print Assumptions C72_apricot_returns_one_message_per_choice.

(** C72 is false for the base OT: a peer that ends with an empty list of ciphertexts makes the
    receiver return no messages, and no error. *)
Theorem C72_base_OT_refuted : forall sha gen G p rs cs, curve_ok G -> usize_ok (length cs) -> cs <> [] ->
  ~ always_returns (length cs) (co_receiver sha gen G p rs cs).
Proof.
  intros sha gen G p rs cs HG U Ne H. specialize (H _ _ (co_receiver_short sha gen G p rs cs HG U)). cbn in H.
  destruct cs; [congruence|discriminate].
Qed.
Print Assumptions C72_base_OT_refuted.

(** C72 is false for the classic extension: with a sender that follows the protocol but leaves out
    the ciphertexts at the end the receiver returns no messages, and no error. *)
Theorem C72_classic_refuted : forall sha gen20 gen8 p p' a a' r bootS bootR cs,
  generator gen20 -> classic_coins_ok r -> ot_correct seed_pairs bootS bootR ->
  usize_ok (length cs) -> (0 < length cs)%nat -> (length cs mod 8 = 0)%nat ->
  runs (short_sender sha gen20 gen8 p a (coin_s r) (coin_delta r) bootR (length cs)) (classic_receiver_with sha gen20 gen8 p' a' r bootS cs) (Ok tt) (Ok []) /\
  ~ always_returns (length cs) (classic_receiver_with sha gen20 gen8 p' a' r bootS cs).
Proof.
  intros sha gen20 gen8 p p' a a' [cu cv delta bonus seed0 seed1] bootS bootR cs Hg (H1 & H2 & H3 & H4 & H5 & H6) Hb U Hpos H8.
  pose proof (classic_short sha gen20 gen8 Hg p p' a a' cu cv delta bonus seed0 seed1 H1 H2 H3 H4 H5 H6 bootS bootR Hb cs U Hpos H8) as R.
  split; [exact R|]. intros H. destruct (runs_feed _ _ _ _ R) as (la & lb & _ & F).
  specialize (H la []). unfold classic_receiver_with in H. cbn [coin_r coin_bonus coin_seed0 coin_seed1] in H. rewrite F in H. cbn in H. specialize (H eq_refl). lia.
Qed.
Print Assumptions C72_classic_refuted.

Example C72_example :
  ~ always_returns 8 (co_receiver toy toy_gen toy_curve Release (fun _ => 1) (repeat true 8)) /\
  ~ always_returns 8 (classic_receiver_with toy toy_gen toy_gen Release None classic_toy (co_sender toy toy_gen toy_curve Debug (fun _ => 1)) (repeat true 8)).
Proof.
  split.
  - apply (C72_base_OT_refuted toy toy_gen toy_curve Release (fun _ => 1) (repeat true 8)); [exact toy_curve_ok|reflexivity|discriminate].
  - eapply (C72_classic_refuted toy toy_gen toy_gen Release Release None None classic_toy _ _ (repeat true 8));
      [exact toy_gen_ok|exact classic_toy_ok|apply toy_boot|reflexivity|cbn; lia|reflexivity].
  Unshelve. exact Release.
Qed.
