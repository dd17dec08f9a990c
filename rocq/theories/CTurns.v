(** Property C109: who sends when is fixed, and no two parties ever wait for each other. *)
From Coq Require Import List NArith Bool Arith Lia.
From Verif Require Import Base MUtil MWires MCircuit MGarble MPar MBincode MProc MOt MApricot MMany MFpake MChannel MMain.
From Verif Require Import SpecOt SpecApricot SpecTurns.
From Verif Require Import PBase PProc PHang PHangOt PUtil PSizes PTurns PTurns2 CUtil CCircuit COt CApricot CFpake CChannel CMain CCrash CWhole.
Import ListNotations.
Open Scope N_scope.

(** ** Over the crate's OT *)
Section Side.
Variables sha : bytes -> bytes.
Variable fill gen : bytes -> nat -> bytes.
Variable G : curve.
Variable p : profile.
Variable a : arch.
Variable cores : nat.
Lemma fol_sender_with r rs ms M : coins_ok r -> follows (second_party ext_dialogue ++ M) (sender_with sha fill p a cores r (co_receiver sha gen G p rs) ms) (left_over M).
Proof. intros (_ & _ & [Ld _] & _). apply fol_ap_sender; [exact Ld|]. intros. apply fol_co_receiver. Qed.
Lemma fol_receiver_with r rs cs M : coins_ok r -> follows (first_party ext_dialogue ++ M) (receiver_with sha fill p a cores r (co_sender sha gen G p rs) cs) (left_over M).
Proof. intros (_ & _ & _ & _ & S0 & S1). apply fol_ap_receiver; [exact S0|exact S1|]. intros. apply fol_co_sender. Qed.
Lemma fol_many_s keys rm d ms M : (forall d, length (keys d) = d) ->
  follows (first_party (many_dialogue d) ++ M) (many_sender sha fill p cores (keys d) (co_sender sha gen G p rm) ms d) (left_over M).
Proof. intros Hk. rewrite <- (Hk d) at 1. apply fol_many_sender. intros. apply fol_co_sender. Qed.
Lemma fol_many_r rm d i M : follows (second_party (many_dialogue d) ++ M) (many_receiver sha fill p (co_receiver sha gen G p rm) i d) (left_over M).
Proof. apply fol_many_receiver. intros. apply fol_co_receiver. Qed.
Lemma log_bits w n d : w < 2 ^ 32 -> n < 2 ^ w -> bits_for n d -> n <> 0 -> oks (fun x => N.to_nat x = d) (log2_ p w n).
Proof.
  intros Hw Hn [H1 H2] H0. destruct (C01_log2_ceiling p w n Hw ltac:(lia) Hn) as (k & -> & K1 & K2). cbn.
  pose proof (K2 _ H1). pose proof (H2 (N.to_nat k)) as H3. rewrite Nnat.N2Nat.id in H3. specialize (H3 K1). lia.
Qed.
Lemma fol_plain_server r rs r' rs' g pw t : coins_ok r -> coins_ok r' ->
  follows (first_party plain_dialogue) (fpake_server sha p g (sender_with sha fill p a cores r (co_receiver sha gen G p rs))
     (receiver_with sha fill p a cores r' (co_sender sha gen G p rs')) pw t) (left_over []).
Proof.
  intros H H'. rewrite <- (app_nil_r (first_party plain_dialogue)). apply fol_server; intros; [now apply fol_sender_with|now apply fol_receiver_with].
Qed.
Lemma fol_plain_client r rs r' rs' g pw t : coins_ok r -> coins_ok r' ->
  follows (second_party plain_dialogue) (fpake_client sha p g (sender_with sha fill p a cores r (co_receiver sha gen G p rs))
     (receiver_with sha fill p a cores r' (co_sender sha gen G p rs')) pw t) (left_over []).
Proof.
  intros H H'. rewrite <- (app_nil_r (second_party plain_dialogue)). apply fol_client; intros; [now apply fol_sender_with|now apply fol_receiver_with].
Qed.
Lemma fol_main_server hmac xpub xdh sec r rs r' rs' g pw t : coins_ok r -> coins_ok r' ->
  follows (first_party (channel_dialogue plain_dialogue)) (main_server hmac xpub xdh sha p sec g (sender_with sha fill p a cores r (co_receiver sha gen G p rs))
     (receiver_with sha fill p a cores r' (co_sender sha gen G p rs')) pw t) (left_over []).
Proof.
  intros H H'. apply fol_serve; [|now apply fol_plain_server].
  apply hang_fpake_server; intros; [apply hang_sender_with|apply hang_receiver_with].
Qed.
Lemma fol_main_client hmac xpub xdh sec r rs r' rs' g pw t : coins_ok r -> coins_ok r' ->
  follows (second_party (channel_dialogue plain_dialogue)) (main_client hmac xpub xdh sha p sec g (sender_with sha fill p a cores r (co_receiver sha gen G p rs))
     (receiver_with sha fill p a cores r' (co_sender sha gen G p rs')) pw t) (left_over []).
Proof.
  intros H H'. apply fol_connect; [|now apply fol_plain_client].
  apply hang_fpake_client; intros; [apply hang_sender_with|apply hang_receiver_with].
Qed.
Lemma fol_many_server_main hmac xpub xdh sec keys rm r rs r' rs' mask g file l t d : coins_ok r -> coins_ok r' -> (forall d, length (keys d) = d) ->
  N.of_nat (length file / l) < 2 ^ 64 -> bits_for (N.of_nat (length file / l)) d ->
  follows (first_party (channel_dialogue (mfpake_dialogue d))) (many_server_main hmac xpub xdh sha p sec mask g
     (fun d ms => many_sender sha fill p cores (keys d) (co_sender sha gen G p rm) ms d)
     (sender_with sha fill p a cores r (co_receiver sha gen G p rs)) (receiver_with sha fill p a cores r' (co_sender sha gen G p rs')) file l t) (left_over []).
Proof.
  intros H H' Hk Hn Hd. unfold many_server_main.
  apply (fol_first _ (fun pws => length pws = (length file / l)%nat)).
  { unfold chunks_exact. destruct (Nat.eqb l 0); cbn; auto. now rewrite map_length, seq_length. }
  intros pws Lp. apply fol_serve.
  { apply hang_mfpake_many; intros; [apply hang_many_sender; intros; apply hang_co_sender|apply hang_sender_with|apply hang_receiver_with]. }
  destruct pws as [|w pws]; [exact I|].
  rewrite <- (app_nil_r (first_party (mfpake_dialogue d))). apply fol_mfpake_many; intros; [now apply fol_sender_with|now apply fol_receiver_with|now apply fol_many_s|].
  rewrite Lp. apply log_bits; auto; [reflexivity|]. rewrite <- Lp. cbn [length]. lia.
Qed.
Lemma fol_many_client_main hmac xpub xdh sec rm r rs r' rs' g pw i n t d : coins_ok r -> coins_ok r' -> n <> 0 -> n < 2 ^ 32 -> bits_for n d ->
  follows (second_party (channel_dialogue (mfpake_dialogue d))) (many_client_main hmac xpub xdh sha p sec g
     (fun d i => many_receiver sha fill p (co_receiver sha gen G p rm) i d)
     (sender_with sha fill p a cores r (co_receiver sha gen G p rs)) (receiver_with sha fill p a cores r' (co_sender sha gen G p rs')) pw i n t) (left_over []).
Proof.
  intros H H' H0 Hn Hd. unfold many_client_main. apply fol_connect.
  { apply hang_mfpake_single; intros; [apply hang_many_receiver; intros; apply hang_co_receiver|apply hang_sender_with|apply hang_receiver_with]. }
  rewrite <- (app_nil_r (second_party (mfpake_dialogue d))). apply fol_mfpake_single; intros; [now apply fol_sender_with|now apply fol_receiver_with|apply fol_many_r|].
  apply log_bits; auto; reflexivity.
Qed.
Lemma fol_v3_server keys rm r1 rs1 r2 rs2 r3 rs3 mask g pws t d : coins_ok r1 -> coins_ok r2 -> coins_ok r3 -> (forall d, length (keys d) = d) ->
  N.of_nat (length pws) < 2 ^ 64 -> bits_for (N.of_nat (length pws)) d ->
  follows (first_party (v3_dialogue d)) (server_v3 sha p mask g (sender_with sha fill p a cores r1 (co_receiver sha gen G p rs1))
     (fun d ms => many_sender sha fill p cores (keys d) (co_sender sha gen G p rm) ms d) (sender_with sha fill p a cores r2 (co_receiver sha gen G p rs2))
     (receiver_with sha fill p a cores r3 (co_sender sha gen G p rs3)) pws t) (left_over []).
Proof.
  intros H1 H2 H3 Hk Hn Hd. destruct pws as [|w pws]; [exact I|].
  rewrite <- (app_nil_r (first_party (v3_dialogue d))). apply fol_server_v3; intros; try (now apply fol_sender_with); [now apply fol_many_s|now apply fol_receiver_with|].
  apply log_bits; auto; [reflexivity|]. cbn [length]. lia.
Qed.
Lemma fol_v3_client rm r1 rs1 r2 rs2 r3 rs3 g pw n i t d : coins_ok r1 -> coins_ok r2 -> coins_ok r3 -> n <> 0 -> n < 2 ^ 32 -> bits_for n d ->
  follows (second_party (v3_dialogue d)) (client_v3 sha p g (receiver_with sha fill p a cores r1 (co_sender sha gen G p rs1))
     (fun d i => many_receiver sha fill p (co_receiver sha gen G p rm) i d) (receiver_with sha fill p a cores r2 (co_sender sha gen G p rs2))
     (sender_with sha fill p a cores r3 (co_receiver sha gen G p rs3)) pw n i t) (left_over []).
Proof.
  intros H1 H2 H3 H0 Hn Hd.
  rewrite <- (app_nil_r (second_party (v3_dialogue d))). apply fol_client_v3; intros; try (now apply fol_receiver_with); [apply fol_many_r|now apply fol_sender_with|].
  apply log_bits; auto; reflexivity.
Qed.
End Side.

(** Whatever it is sent, main.rs sends and receives in one fixed order, which depends on nothing: not on the password, its
    length or the threshold, not on the randomness, not on what it receives.  It stops early only when it fails. *)
Theorem C109_server : forall hmac xpub xdh sha fill gen G p a cores sec r rs r' rs' g pw t, coins_ok r -> coins_ok r' ->
  takes_turns (main_server hmac xpub xdh sha p sec g (sender_with sha fill p a cores r (co_receiver sha gen G p rs))
     (receiver_with sha fill p a cores r' (co_sender sha gen G p rs')) pw t) (first_party (channel_dialogue plain_dialogue)).
Proof. intros. apply fol_turns. now apply fol_main_server. Qed.
Print Assumptions C109_server.
Theorem C109_client : forall hmac xpub xdh sha fill gen G p a cores sec r rs r' rs' g pw t, coins_ok r -> coins_ok r' ->
  takes_turns (main_client hmac xpub xdh sha p sec g (sender_with sha fill p a cores r (co_receiver sha gen G p rs))
     (receiver_with sha fill p a cores r' (co_sender sha gen G p rs')) pw t) (second_party (channel_dialogue plain_dialogue)).
Proof. intros. apply fol_turns. now apply fol_main_client. Qed.
Print Assumptions C109_client.
(** The one-of-many programs and the third version: an order that depends only on the number of bits of an index. *)
Theorem C109_many_server : forall hmac xpub xdh sha fill gen G p a cores sec keys rm r rs r' rs' mask g file l t d,
  coins_ok r -> coins_ok r' -> (forall d, length (keys d) = d) -> N.of_nat (length file / l) < 2 ^ 64 -> bits_for (N.of_nat (length file / l)) d ->
  takes_turns (many_server_main hmac xpub xdh sha p sec mask g (fun d ms => many_sender sha fill p cores (keys d) (co_sender sha gen G p rm) ms d)
     (sender_with sha fill p a cores r (co_receiver sha gen G p rs)) (receiver_with sha fill p a cores r' (co_sender sha gen G p rs')) file l t)
    (first_party (channel_dialogue (mfpake_dialogue d))).
Proof. intros. apply fol_turns. now apply fol_many_server_main. Qed.
Print Assumptions C109_many_server.
Theorem C109_many_client : forall hmac xpub xdh sha fill gen G p a cores sec rm r rs r' rs' g pw i n t d,
  coins_ok r -> coins_ok r' -> n <> 0 -> n < 2 ^ 32 -> bits_for n d ->
  takes_turns (many_client_main hmac xpub xdh sha p sec g (fun d i => many_receiver sha fill p (co_receiver sha gen G p rm) i d)
     (sender_with sha fill p a cores r (co_receiver sha gen G p rs)) (receiver_with sha fill p a cores r' (co_sender sha gen G p rs')) pw i n t)
    (second_party (channel_dialogue (mfpake_dialogue d))).
Proof. intros. apply fol_turns. now apply fol_many_client_main. Qed.
Print Assumptions C109_many_client.
Theorem C109_v3 : forall sha fill gen G p a cores keys rm r1 rs1 r2 rs2 r3 rs3 mask g pws t d pw n i,
  coins_ok r1 -> coins_ok r2 -> coins_ok r3 -> (forall d, length (keys d) = d) ->
  N.of_nat (length pws) < 2 ^ 64 -> bits_for (N.of_nat (length pws)) d -> n <> 0 -> n < 2 ^ 32 -> bits_for n d ->
  takes_turns (server_v3 sha p mask g (sender_with sha fill p a cores r1 (co_receiver sha gen G p rs1))
     (fun d ms => many_sender sha fill p cores (keys d) (co_sender sha gen G p rm) ms d) (sender_with sha fill p a cores r2 (co_receiver sha gen G p rs2))
     (receiver_with sha fill p a cores r3 (co_sender sha gen G p rs3)) pws t) (first_party (v3_dialogue d)) /\
  takes_turns (client_v3 sha p g (receiver_with sha fill p a cores r1 (co_sender sha gen G p rs1))
     (fun d i => many_receiver sha fill p (co_receiver sha gen G p rm) i d) (receiver_with sha fill p a cores r2 (co_sender sha gen G p rs2))
     (sender_with sha fill p a cores r3 (co_receiver sha gen G p rs3)) pw n i t) (second_party (v3_dialogue d)).
Proof. intros. split; apply fol_turns; [now apply fol_v3_server|now apply fol_v3_client]. Qed.
Print Assumptions C109_v3.

(** Two parties never wait for each other: whatever their passwords (also of different lengths), thresholds, randomness,
    builds and machines, and even when their hash functions or curves differ, every schedule ends after at most so many
    steps, and stops only when both parties have ended. *)
Theorem C109_plain_ends : forall hmac xpub xdh sha fill gen G p a cores sec r rs r' rs' g pw t
    hmac' xpub' xdh' sha' fill' gen' G' p' a' cores' sec' s ss s' ss' g' pw' t',
  coins_ok r -> coins_ok r' -> coins_ok s -> coins_ok s' ->
  never_stuck (main_server hmac xpub xdh sha p sec g (sender_with sha fill p a cores r (co_receiver sha gen G p rs))
     (receiver_with sha fill p a cores r' (co_sender sha gen G p rs')) pw t)
   (main_client hmac' xpub' xdh' sha' p' sec' g' (sender_with sha' fill' p' a' cores' s (co_receiver sha' gen' G' p' ss))
     (receiver_with sha' fill' p' a' cores' s' (co_sender sha' gen' G' p' ss')) pw' t')
   (2 * frames (channel_dialogue plain_dialogue)).
Proof. intros. apply dialogue_never_stuck; [now apply fol_main_server|now apply fol_main_client]. Qed.
Print Assumptions C109_plain_ends.
Theorem C109_many_ends : forall hmac xpub xdh sha fill gen G p a cores sec keys rm r rs r' rs' mask g file l t
    hmac' xpub' xdh' sha' fill' gen' G' p' a' cores' sec' sm s ss s' ss' g' pw i n t' d,
  coins_ok r -> coins_ok r' -> coins_ok s -> coins_ok s' -> (forall d, length (keys d) = d) ->
  N.of_nat (length file / l) < 2 ^ 64 -> bits_for (N.of_nat (length file / l)) d -> n <> 0 -> n < 2 ^ 32 -> bits_for n d ->
  never_stuck (many_server_main hmac xpub xdh sha p sec mask g (fun d ms => many_sender sha fill p cores (keys d) (co_sender sha gen G p rm) ms d)
     (sender_with sha fill p a cores r (co_receiver sha gen G p rs)) (receiver_with sha fill p a cores r' (co_sender sha gen G p rs')) file l t)
   (many_client_main hmac' xpub' xdh' sha' p' sec' g' (fun d i => many_receiver sha' fill' p' (co_receiver sha' gen' G' p' sm) i d)
     (sender_with sha' fill' p' a' cores' s (co_receiver sha' gen' G' p' ss)) (receiver_with sha' fill' p' a' cores' s' (co_sender sha' gen' G' p' ss')) pw i n t')
   (2 * frames (channel_dialogue (mfpake_dialogue d))).
Proof. intros. apply dialogue_never_stuck; [now apply fol_many_server_main|now apply fol_many_client_main]. Qed.
Print Assumptions C109_many_ends.
Theorem C109_v3_ends : forall sha fill gen G p a cores keys rm r1 rs1 r2 rs2 r3 rs3 mask g pws t
    sha' fill' gen' G' p' a' cores' sm s1 ss1 s2 ss2 s3 ss3 g' pw n i t' d,
  coins_ok r1 -> coins_ok r2 -> coins_ok r3 -> coins_ok s1 -> coins_ok s2 -> coins_ok s3 -> (forall d, length (keys d) = d) ->
  N.of_nat (length pws) < 2 ^ 64 -> bits_for (N.of_nat (length pws)) d -> n <> 0 -> n < 2 ^ 32 -> bits_for n d ->
  never_stuck (server_v3 sha p mask g (sender_with sha fill p a cores r1 (co_receiver sha gen G p rs1))
     (fun d ms => many_sender sha fill p cores (keys d) (co_sender sha gen G p rm) ms d) (sender_with sha fill p a cores r2 (co_receiver sha gen G p rs2))
     (receiver_with sha fill p a cores r3 (co_sender sha gen G p rs3)) pws t)
   (client_v3 sha' p' g' (receiver_with sha' fill' p' a' cores' s1 (co_sender sha' gen' G' p' ss1))
     (fun d i => many_receiver sha' fill' p' (co_receiver sha' gen' G' p' sm) i d) (receiver_with sha' fill' p' a' cores' s2 (co_sender sha' gen' G' p' ss2))
     (sender_with sha' fill' p' a' cores' s3 (co_receiver sha' gen' G' p' ss3)) pw n i t')
   (2 * frames (v3_dialogue d)).
Proof. intros. apply dialogue_never_stuck; [now apply fol_v3_server|now apply fol_v3_client]. Qed.
Print Assumptions C109_v3_ends.

(** Two programs that both ask first do wait for each other, and the numbers of frames. *)
Example C109_case :
  ~ never_stuck recv recv 5 /\
  length (filter (fun x => match x with Out => true | In => false end) (first_party (channel_dialogue plain_dialogue))) = 543%nat /\
  frames (channel_dialogue plain_dialogue) = 1086%nat /\ frames (channel_dialogue (mfpake_dialogue 3)) = 1106%nat /\ frames (v3_dialogue 3) = 822%nat /\
  bits_for 5 3 /\ coins_ok toy_coins.
Proof.
  split; [|split; [vm_compute; reflexivity|split; [vm_compute; reflexivity|split; [vm_compute; reflexivity|split; [vm_compute; reflexivity|split; [|exact toy_coins_ok]]]]]].
  - intros H. destruct (H 0%nat (initial recv recv) (steps_refl _)) as [_ H1]. destruct H1 as (oa & ob & E & _); [|discriminate].
    intros c' St. inversion St as [? ? E|? ? E|? ? E|? ? E]; subst; try discriminate; inversion E.
  - split; [vm_compute; discriminate|]. intros j Hj. destruct (le_lt_dec 3 j) as [|L]; [assumption|].
    assert (N.of_nat j <= 2) by lia. assert (2 ^ N.of_nat j <= 2 ^ 2) by (apply N.pow_le_mono_r; lia). change (2 ^ 2) with 4 in *. lia.
Qed.
