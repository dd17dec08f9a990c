(** C91: the channels of common.rs against somebody who sits between the two programs. *)
From Coq Require Import List NArith Bool Lia Arith.
From Verif Require Import Base MUtil MWires MCircuit MGarble MPar MBincode MProc MOt MApricot MMany MFpake MChannel MMain.
From Verif Require Import SpecUtil SpecWires SpecCircuit SpecGarble SpecBincode SpecOt SpecApricot SpecFpake SpecMany SpecMfpake SpecMain SpecSteal SpecMiddle.
From Verif Require Import PBase PProc POt PChannel PFpake PMiddle COt CApricot CFpake CMfpake CChannel CMain CSteal CCircuit.
Import ListNotations.
Open Scope N_scope.

(** C91 is false: whatever a man in the middle can do to two programs on plain channels, he can do to them on authenticated
    channels, with two key pairs of his own and without being noticed. *)
Theorem C91_auth_channel_stops_the_man_refuted : forall hmac xpub xdh a b xs xc A M B (p : proc A) (m : man M) (q : proc B) oa x ob,
  dh_ok xpub xdh -> between p m q oa x ob ->
  between (serve hmac xpub xdh a p) (split_auth hmac xpub xdh xs xc m) (connect hmac xpub xdh b q) oa x ob.
Proof. intros. now apply split_auth_between. Qed.
Print Assumptions C91_auth_channel_stops_the_man_refuted.

(** C91: and on signed channels. *)
Theorem C91_signed_channel_stops_the_man_refuted : forall edpub edsign pk_valid sig_valid edverify sa sb xs xc A M B (p : proc A) (m : man M) (q : proc B) oa x ob,
  (forall s m, sig_valid (edsign s m) = true /\ edverify (edpub s) m (edsign s m) = true) -> (forall s, pk_valid (edpub s) = true) ->
  between p m q oa x ob ->
  between (let! pk := signed_server edpub pk_valid sa in over_signed edsign sig_valid edverify sa pk p) (split_signed edpub edsign xs xc m)
          (let! pk := signed_client edpub pk_valid sb in over_signed edsign sig_valid edverify sb pk q) oa x ob.
Proof. intros. now apply split_signed_between. Qed.
Print Assumptions C91_signed_channel_stops_the_man_refuted.

(** For example he replaces the first message and reads the second. *)
Example C91_replaced : forall hmac xpub xdh a b xs xc, dh_ok xpub xdh ->
  between (serve hmac xpub xdh a (send_all [[1]; [2]])) (split_auth hmac xpub xdh xs xc (From L (fun _ => To R [7; 7] (From L (fun m => To R m (Gone m))))))
    (connect hmac xpub xdh b (recv_each recv (fun m => Ok m) 2)) (Ok tt) [2] (Ok [[7; 7]; [2]]).
Proof.
  intros. apply C91_auth_channel_stops_the_man_refuted; auto. unfold between.
  cbn [send_all recv_each send recv pbind ret lift].
  eapply moves_cons; [apply l_snd|]. eapply moves_cons; [apply l_snd|]. cbn [app].
  eapply moves_cons; [apply m_from_l|]. eapply moves_cons; [apply m_to_r|]. cbn [app].
  eapply moves_cons; [apply m_from_l|]. eapply moves_cons; [apply m_to_r|]. cbn [app].
  eapply moves_cons; [apply r_rcv|]. cbn [pbind]. eapply moves_cons; [apply r_rcv|]. cbn [pbind]. apply moves_refl.
Qed.

(** C91: on plain channels he may always run one session with each side. *)
Theorem C91_two_sessions : forall A B C D (p : proc A) (c : proc C) (s : proc D) (q : proc B) oa oc od ob,
  runs p c oa oc -> runs s q od ob ->
  between p (talk L c (fun x => talk R s (fun y => Gone (x, y)))) q oa (oc, od) ob.
Proof. intros. now apply two_sessions. Qed.
Print Assumptions C91_two_sessions.

(** C91: so somebody between main.rs as server and main.rs as client, who knows neither password, ends with the keys of both
    and with the distances of his guesses to their passwords (see C78 for [leaky]). *)
Theorem C91_man_between_the_programs_refuted : forall hmac xpub xdh sha fill gen G p p' p'' a a' a'' cores cores' cores''
    sec sec' xs xc r1 r2 r3 r4 rs rr rs' rr' rs'' rr'' rt'' ru'' g g' h h' pw pw' guess guess' t t',
  dh_ok xpub xdh -> hash32 sha -> generator fill -> generator gen -> curve_ok G ->
  (1 <= cores)%nat -> (1 <= cores')%nat -> (1 <= cores'')%nat -> coins_ok r1 -> coins_ok r2 -> coins_ok r3 -> coins_ok r4 ->
  garbling_ok g -> garbling_ok g' -> garbling_ok h -> garbling_ok h' ->
  length guess = length pw -> good_length (length pw) -> (t < length pw * 8)%nat -> leaky (length pw * 8) (g_ri g) ->
  length guess' = length pw' -> good_length (length pw') -> (t' < length pw' * 8)%nat -> leaky (length pw' * 8) (g_ri g') ->
  let S q b c r boot := sender_with sha fill q b c r (co_receiver sha gen G q boot) in
  let R q b c r boot := receiver_with sha fill q b c r (co_sender sha gen G q boot) in
  exists key key', length key = 32%nat /\ length key' = 32%nat /\
  between (main_server hmac xpub xdh sha p sec g (S p a cores r1 rs) (R p a cores r2 rr) pw (N.of_nat t))
    (talk L (connect hmac xpub xdh xs (evil_client sha p'' h (S p'' a'' cores'' r2 rs'') (R p'' a'' cores'' r1 rr'') guess t)) (fun x =>
     talk SpecMiddle.R (serve hmac xpub xdh xc (evil_server sha p'' h' (S p'' a'' cores'' r4 rt'') (R p'' a'' cores'' r3 ru'') guess' t')) (fun y =>
       Gone (x, y))))
    (main_client hmac xpub xdh sha p' sec' g' (S p' a' cores' r3 rs') (R p' a' cores' r4 rr') pw' (N.of_nat t'))
    (Ok key) (Ok (key, distance pw guess), Ok (key', distance pw' guess')) (Ok key').
Proof.
  intros hmac xpub xdh sha fill gen G p p' p'' a a' a'' cores cores' cores'' sec sec' xs xc r1 r2 r3 r4 rs rr rs' rr' rs'' rr'' rt'' ru''
    g g' h h' pw pw' guess guess' t t' Hdh Hs Hf Hge HG Hc Hc' Hc'' H1 H2 H3 H4 Hg Hg' Hh Hh' Lg Gg Ht Lk Lg' Gg' Ht' Lk' S R.
  assert (O1 : ot_correct extension_ok (S p a cores r1 rs) (R p'' a'' cores'' r1 rr'')) by (unfold S, R; now apply C35_extension_over_base_OT).
  assert (O2 : ot_correct extension_ok (S p'' a'' cores'' r2 rs'') (R p a cores r2 rr)) by (unfold S, R; now apply C35_extension_over_base_OT).
  assert (O3 : ot_correct extension_ok (S p' a' cores' r3 rs') (R p'' a'' cores'' r3 ru'')) by (unfold S, R; now apply C35_extension_over_base_OT).
  assert (O4 : ot_correct extension_ok (S p'' a'' cores'' r4 rt'') (R p' a' cores' r4 rr')) by (unfold S, R; now apply C35_extension_over_base_OT).
  destruct (C78_wrong_client_gets_key_refuted sha p p'' g h (S p a cores r1 rs) (R p'' a'' cores'' r1 rr'') (S p'' a'' cores'' r2 rs'') (R p a cores r2 rr) pw guess t
    Hs Hg Hh O1 O2 Lg Gg Ht Lk) as (key & K & E).
  destruct (C78_wrong_server_gets_key_refuted sha p' p'' g' h' (S p' a' cores' r3 rs') (R p'' a'' cores'' r3 ru'') (S p'' a'' cores'' r4 rt'') (R p' a' cores' r4 rr') pw' guess' t'
    Hs Hg' Hh' O3 O4 Lg' Gg' Ht' Lk') as (key' & K' & E').
  exists key, key'. split; [exact K|]. split; [exact K'|]. clear O1 O2 O3 O4. clearbody S R.
  exact (two_sessions _ _ _ _ _ _ _ _ (serve_runs hmac xpub xdh sec xs _ _ _ _ _ _ Hdh E) (serve_runs hmac xpub xdh xc sec' _ _ _ _ _ _ Hdh E')).
Qed.
Print Assumptions C91_man_between_the_programs_refuted.

(** An instance: both sides know [97; 98; 99], the man guesses [122; 122; 122] and is 9 bits off. *)
Example C91_example : exists key key', length key = 32%nat /\ length key' = 32%nat /\
  between (main_server toy_mac toy_pub toy_dh toy Debug [3] demo_garbling (demo_sender Debug) (demo_receiver Debug) [97; 98; 99] 1)
    (talk L (connect toy_mac toy_pub toy_dh [5] (evil_client toy Release demo_garbling (demo_sender Release) (demo_receiver Release) [122; 122; 122] 1)) (fun x =>
     talk R (serve toy_mac toy_pub toy_dh [6] (evil_server toy Release demo_garbling (demo_sender Release) (demo_receiver Release) [122; 122; 122] 1)) (fun y =>
       Gone (x, y))))
    (main_client toy_mac toy_pub toy_dh toy Debug [4] demo_garbling (demo_sender Debug) (demo_receiver Debug) [97; 98; 99] 1)
    (Ok key) (Ok (key, 9%nat), Ok (key', 9%nat)) (Ok key').
Proof.
  destruct steal_example as (key & K & E).
  destruct (C78_wrong_server_gets_key_refuted toy Debug Release demo_garbling demo_garbling (demo_sender Debug) (demo_receiver Release)
    (demo_sender Release) (demo_receiver Debug) [97; 98; 99] [122; 122; 122] 1 toy_hash32 demo_garbling_ok demo_garbling_ok
    (demo_OT Debug Release) (demo_OT Release Debug) eq_refl ltac:(unfold good_length; cbn [length]; lia) ltac:(cbn [length]; lia) demo_leaky) as (key' & K' & E').
  exists key, key'. split; [exact K|]. split; [exact K'|].
  exact (two_sessions _ _ _ _ _ _ _ _ (serve_runs toy_mac toy_pub toy_dh [3] [5] _ _ _ _ _ _ toy_dh_ok E) (serve_runs toy_mac toy_pub toy_dh [6] [4] _ _ _ _ _ _ toy_dh_ok E')).
Qed.
