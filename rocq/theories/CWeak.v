(** C122: what the key of an authenticated channel depends on (common.rs:156-190). *)
From Coq Require Import List NArith Bool Lia Arith.
From Verif Require Import Base MUtil MWires MCircuit MGarble MPar MBincode MProc MOt MApricot MMany MFpake MChannel MMain.
From Verif Require Import SpecUtil SpecWires SpecCircuit SpecGarble SpecBincode SpecOt SpecApricot SpecFpake SpecMain SpecChannel SpecMiddle SpecWeak.
From Verif Require Import PBase PProc PChannel PMiddle COt CApricot CFpake CChannel CMain CCircuit.
Import ListNotations.
Open Scope N_scope.

(** ** Proofs *)
Lemma forwarder {A B} (c c' : cfg A B) : reach c c' -> exists b : man unit, forwards b /\
  moves (Net (left_ c) b (right_ c) [] (rl c) [] (lr c)) (Net (left_ c') (Gone tt) (right_ c') [] (rl c') [] (lr c')).
Proof.
  induction 1 as [c|c c1 c2 S _ (b & Fb & Mb)|c c1 c2 S _ (b & Fb & Mb)].
  - exists (Gone tt). split; [constructor|apply moves_refl].
  - destruct c as [l r q1 q2]. unfold stepL in S. cbn [left_ right_ lr rl] in *. destruct l as [o|m l|l]; [discriminate| |].
    + injection S as <-. cbn [left_ right_ lr rl] in Mb. exists (From L (fun m => To (other L) m b)). split; [constructor; auto|].
      eapply moves_cons; [apply l_snd|]. cbn [app]. eapply moves_cons; [apply m_from_l|]. eapply moves_cons; [apply m_to_r|]. exact Mb.
    + destruct q2 as [|m q2]; [discriminate|]. injection S as <-. exists b. split; [exact Fb|]. eapply moves_cons; [apply l_rcv|]. exact Mb.
  - destruct c as [l r q1 q2]. unfold stepR in S. cbn [left_ right_ lr rl] in *. destruct r as [o|m r|r]; [discriminate| |].
    + injection S as <-. cbn [left_ right_ lr rl] in Mb. exists (From R (fun m => To (other R) m b)). split; [constructor; auto|].
      eapply moves_cons; [apply r_snd|]. cbn [app]. eapply moves_cons; [apply m_from_r|]. eapply moves_cons; [apply m_to_l|]. exact Mb.
    + destruct q1 as [|m q1]; [discriminate|]. injection S as <-. exists b. split; [exact Fb|]. eapply moves_cons; [apply r_rcv|]. exact Mb.
Qed.
Lemma forwarded {A B} (p : proc A) (q : proc B) oa ob : runs p q oa ob -> exists b : man unit, forwards b /\ between p b q oa tt ob.
Proof. intros H. exact (forwarder _ _ H). Qed.
Lemma weaken_between hmac xpub xdh w z a b {A M B} (p : proc A) (m : man M) (q : proc B) oa x ob : weak_key xdh w z ->
  between (over_auth hmac z z p) m (over_auth hmac z z q) oa x ob ->
  between (serve hmac xpub xdh a p) (weaken w m) (connect hmac xpub xdh b q) oa x ob.
Proof.
  intros [Len W] H. unfold between in *. unfold serve, connect, auth_server, auth_client, weaken, send, recv_unwrap, lift, ret, x_public. cbn [pbind].
  eapply moves_cons; [apply l_snd|]. cbn [app]. eapply moves_cons; [apply m_from_l|]. eapply moves_cons; [apply m_to_r|]. cbn [app].
  eapply moves_cons; [apply r_rcv|]. cbn [pbind]. rewrite Len. cbn [Nat.eqb pbind].
  eapply moves_cons; [apply r_snd|]. cbn [app]. eapply moves_cons; [apply m_from_r|]. cbv beta.
  eapply moves_cons; [apply m_to_l|]. cbn [app].
  eapply moves_cons; [apply l_rcv|]. cbn [pbind]. rewrite Len. cbn [Nat.eqb pbind]. rewrite !W. exact H.
Qed.

(** *** C122 *)
(** C122 is false: with a weak key either peer alone decides what the channel key of the honest side is. *)
Theorem C122_key_fixed_refuted : forall xpub xdh w z s, weak_key xdh w z -> length (xpub s) = 32%nat ->
  runs (auth_server xpub xdh s) (let! _ := recv in send w) (Ok z) (Ok tt) /\
  runs (let! _ := send w in let! _ := recv in ret tt) (auth_client xpub xdh s) (Ok tt) (Ok z).
Proof.
  intros xpub xdh w z s [Len W] Lp. split.
  - unfold auth_server. apply runs_send_recv. unfold recv_unwrap, send, lift, ret, x_public. cbn [pbind].
    eapply reach_R; [reflexivity|]. eapply reach_L; [reflexivity|]. cbn [pbind left_ right_ lr rl app]. rewrite Len. cbn [Nat.eqb pbind]. rewrite W. apply reach_refl.
  - unfold auth_client, recv_unwrap, send, recv, lift, ret, x_public. cbn [pbind].
    eapply reach_L; [reflexivity|]. eapply reach_R; [reflexivity|]. cbn [pbind left_ right_ lr rl app]. rewrite Len. cbn [Nat.eqb pbind].
    eapply reach_R; [reflexivity|]. eapply reach_L; [reflexivity|]. cbn [pbind left_ right_ lr rl app]. rewrite W. apply reach_refl.
Qed.
Print Assumptions C122_key_fixed_refuted.

(** C122: somebody between them who replaces the two public keys and passes on all other frames goes unnoticed: the
    programs end as they do without him, and both have the channel key he knows. *)
Theorem C122_unnoticed_refuted : forall hmac xpub xdh w z a b A B (p : proc A) (q : proc B) oa ob,
  weak_key xdh w z -> runs p q oa ob ->
  exists m : man unit, forwards m /\ between (over_auth hmac z z p) m (over_auth hmac z z q) oa tt ob /\
    between (serve hmac xpub xdh a p) (weaken w m) (connect hmac xpub xdh b q) oa tt ob.
Proof.
  intros hmac xpub xdh w z a b A B p q oa ob Hw H. apply (over_auth_runs hmac z z) in H.
  destruct (forwarded _ _ _ _ H) as (m & Fm & Bm). exists m. split; [exact Fm|]. split; [exact Bm|]. eapply weaken_between; eauto.
Qed.
Print Assumptions C122_unnoticed_refuted.

(** C122: from then on the codes keep him from nothing; he needs no key pair for it. *)
Theorem C122_codes_refuted : forall hmac xpub xdh w z a b A M B (p : proc A) (m : man M) (q : proc B) oa x ob,
  weak_key xdh w z -> between p m q oa x ob ->
  between (serve hmac xpub xdh a p) (weaken w (coded (fun s => match s with L | R => hmac z end) m)) (connect hmac xpub xdh b q) oa x ob.
Proof.
  intros hmac xpub xdh w z a b A M B p m q oa x ob Hw H. eapply weaken_between; [exact Hw|].
  exact (coded_between hmac z z p m q oa x ob H).
Qed.
Print Assumptions C122_codes_refuted.

(** C122: so main.rs as server and main.rs as client agree on a key over a channel whose key somebody else knows. *)
Theorem C122_programs_refuted : forall hmac xpub xdh w z sha fill gen G p p' sec sec' a a' cores cores' r rs rr r' rs' rr' g g' pw pw' t t',
  weak_key xdh w z -> hash32 sha -> generator fill -> generator gen -> curve_ok G ->
  (1 <= cores)%nat -> (1 <= cores')%nat -> coins_ok r -> coins_ok r' -> garbling_ok g -> garbling_ok g' ->
  length pw' = length pw -> good_length (length pw) -> t <= 65534 -> t' <= 65534 ->
  N.of_nat (distance pw pw') <= t -> N.of_nat (distance pw pw') <= t' ->
  exists key (m : man unit), length key = 32%nat /\ forwards m /\
    between (main_server hmac xpub xdh sha p sec g (sender_with sha fill p a cores r (co_receiver sha gen G p rs))
               (receiver_with sha fill p a cores r' (co_sender sha gen G p rr)) pw t)
            (weaken w m)
            (main_client hmac xpub xdh sha p' sec' g' (sender_with sha fill p' a' cores' r' (co_receiver sha gen G p' rr'))
               (receiver_with sha fill p' a' cores' r (co_sender sha gen G p' rs')) pw' t') (Ok key) tt (Ok key).
Proof.
  intros hmac xpub xdh w z sha fill gen G p p' sec sec' a a' cores cores' r rs rr r' rs' rr' g g' pw pw' t t'
    Hw Hs Hf Hge HG Hc Hc' Hr Hr' Hg Hg' Hl Hgl Ht Ht' Hd Hd'.
  destruct (C46_keys_agree sha p p' g g'
    (sender_with sha fill p a cores r (co_receiver sha gen G p rs)) (receiver_with sha fill p' a' cores' r (co_sender sha gen G p' rs'))
    (sender_with sha fill p' a' cores' r' (co_receiver sha gen G p' rr')) (receiver_with sha fill p a cores r' (co_sender sha gen G p rr))
    pw pw' t t') as (key & Lk & R); auto.
  1, 2: now apply C35_extension_over_base_OT.
  1: now rewrite distance_comm.
  destruct (C122_unnoticed_refuted hmac xpub xdh w z sec sec' _ _ _ _ _ _ Hw R) as (m & Fm & _ & Bm).
  exists key, m. split; [exact Lk|]. split; [exact Fm|]. exact Bm.
Qed.
Print Assumptions C122_programs_refuted.

(** ** Examples *)
(** The stand-in for X25519 multiplies, so zero is a weak key. *)
Example zero_is_weak : weak_key toy_dh (repeat 0 32) (repeat 0 32) /\ dh_ok toy_pub toy_dh.
Proof. split; [|exact toy_dh_ok]. split; [reflexivity|]. intros s. unfold toy_dh. cbn [hd repeat]. now rewrite N.mul_0_r. Qed.
Example weak_example : exists key (m : man unit), length key = 32%nat /\ forwards m /\
  between (main_server toy_mac toy_pub toy_dh toy Debug [7] demo_garbling (demo_sender Debug)
            (receiver_with toy toy_gen Debug X86 4 toy_coins (co_sender toy toy_gen toy_curve Debug (fun _ => 1))) [97; 98; 99] 3)
          (weaken (repeat 0 32) m)
         (main_client toy_mac toy_pub toy_dh toy Release [8] demo_garbling
            (sender_with toy toy_gen Release ARM64 2 toy_coins (co_receiver toy toy_gen toy_curve Release (fun _ => 1)))
            (demo_receiver Release) [97; 106; 98] 5) (Ok key) tt (Ok key).
Proof.
  apply (C122_programs_refuted toy_mac toy_pub toy_dh (repeat 0 32) (repeat 0 32) toy toy_gen toy_gen toy_curve Debug Release [7] [8] X86 ARM64 4 2 toy_coins
    (fun _ => 1) (fun _ => 1) toy_coins (fun _ => 1) (fun _ => 1));
    [exact (proj1 zero_is_weak)|exact toy_hash32|exact toy_gen_ok|exact toy_gen_ok|exact toy_curve_ok|lia|lia|exact toy_coins_ok|exact toy_coins_ok
    |exact demo_garbling_ok|exact demo_garbling_ok|reflexivity|unfold good_length; cbn; lia|discriminate|discriminate|vm_compute; discriminate|vm_compute; discriminate].
Qed.
