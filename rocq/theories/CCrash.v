(** C59: a peer that disappears before its last message makes the other side fail. *)
From Coq Require Import List NArith Bool Lia Arith.
From Verif Require Import Base MUtil MWires MCircuit MGarble MPar MBincode MProc MOt MApricot MMany MFpake MChannel MMain.
From Verif Require Import SpecUtil SpecWires SpecCircuit SpecGarble SpecBincode SpecOt SpecApricot SpecFpake SpecMany SpecMfpake SpecMain SpecCrash.
From Verif Require Import PBase PProc PHang PHangOt PCrash POt PChannel PFpake COt CApricot CMany CFpake CMfpake CChannel CMain CCircuit.
Import ListNotations.
Open Scope N_scope.

(** ** The functions fail when the channel closes *)
Lemma hang_garbler sha p g ot pw t : (forall ms, hangup (ot ms)) -> hangup (garbler sha p g ot pw t).
Proof. intros H. unfold garbler. hang; apply H. Qed.
Lemma hang_evaluator sha p ot pw : (forall cs, hangup (ot cs)) -> hangup (evaluator sha p ot pw).
Proof. intros H. unfold evaluator. hang; apply H. Qed.
Lemma hang_many_sender sha fill p cores keys ot ms d : (forall ms, hangup (ot ms)) -> hangup (many_sender sha fill p cores keys ot ms d).
Proof. intros H. unfold many_sender. hang; apply H. Qed.
Lemma hang_many_receiver sha fill p ot i d : (forall cs, hangup (ot cs)) -> hangup (many_receiver sha fill p ot i d).
Proof. intros H. unfold many_receiver. hang; apply H. Qed.
Lemma hang_fpake_server sha p g ots otr pw t : (forall ms, hangup (ots ms)) -> (forall cs, hangup (otr cs)) ->
  hangup (fpake_server sha p g ots otr pw t).
Proof. intros H H'. unfold fpake_server. hang; first [apply H|apply H']. Qed.
Lemma hang_fpake_client sha p g ots otr pw t : (forall ms, hangup (ots ms)) -> (forall cs, hangup (otr cs)) ->
  hangup (fpake_client sha p g ots otr pw t).
Proof. intros H H'. unfold fpake_client. hang; first [apply H|apply H']. Qed.
Lemma hang_mfpake_many sha p mask g many ots otr pws t : (forall d ms, hangup (many d ms)) -> (forall ms, hangup (ots ms)) -> (forall cs, hangup (otr cs)) ->
  hangup (mfpake_many sha p mask g many ots otr pws t).
Proof. intros Hm H H'. unfold mfpake_many. hang; first [apply Hm|apply H|apply H']. Qed.
Lemma hang_mfpake_single sha p g many ots otr pw i n t : (forall d i, hangup (many d i)) -> (forall ms, hangup (ots ms)) -> (forall cs, hangup (otr cs)) ->
  hangup (mfpake_single sha p g many ots otr pw i n t).
Proof. intros Hm H H'. unfold mfpake_single. hang; first [apply Hm|apply H|apply H']. Qed.
Lemma hang_over_auth hmac ks kr A (p : proc A) : hangup p -> hangup (over_auth hmac ks kr p).
Proof.
  induction 1 as [o|m k H IH|k o E Bo H IH]; cbn [over_auth].
  - constructor.
  - now do 2 constructor.
  - apply hang_rcv with (o := o); [now rewrite E|exact Bo|]. intros d.
    apply hang_rcv with (o := o); [now rewrite E|exact Bo|]. intros c.
    destruct (bytes_eqb c (hmac kr d)); [apply IH|]. rewrite E. constructor.
Qed.
Lemma hang_serve hmac xpub xdh s A (p : proc A) : hangup p -> hangup (serve hmac xpub xdh s p).
Proof. intros H. unfold serve, auth_server. hang. now apply hang_over_auth. Qed.
Lemma hang_connect hmac xpub xdh s A (p : proc A) : hangup p -> hangup (connect hmac xpub xdh s p).
Proof. intros H. unfold connect, auth_client. hang. now apply hang_over_auth. Qed.

(** C59: base OT. *)
Theorem C59_base_OT_receiver : forall sha gen G p p' ra rb msgs cs,
  generator gen -> curve_ok G -> length cs = length msgs -> payload_ok msgs ->
  fails_without (co_sender sha gen G p ra msgs) (co_receiver sha gen G p' rb cs).
Proof.
  intros sha gen G p p' ra rb msgs cs Hg HG L H. destruct (C33_base_OT_correct sha gen G p p' ra rb Hg HG msgs cs) as (out & R & _); auto.
  eapply crash_fails; [apply hang_co_receiver|exact R].
Qed.
Print Assumptions C59_base_OT_receiver.

(** C59: OT extension over base OT. *)
Theorem C59_extension_receiver : forall sha fill gen G p p' a a' cores cores' r rs rr msgs cs,
  hash32 sha -> generator fill -> generator gen -> curve_ok G -> (1 <= cores)%nat -> (1 <= cores')%nat -> coins_ok r ->
  length cs = length msgs -> extension_ok msgs ->
  fails_without (sender_with sha fill p a cores r (co_receiver sha gen G p rs) msgs)
                (receiver_with sha fill p' a' cores' r (co_sender sha gen G p' rr) cs).
Proof.
  intros sha fill gen G p p' a a' cores cores' r rs rr msgs cs Hs Hf Hg HG Hc Hc' Hr L H.
  destruct (C35_extension_over_base_OT sha fill gen G p p' a a' cores cores' r rs rr Hs Hf Hg HG Hc Hc' Hr msgs cs) as (out & R & _); auto.
  eapply crash_fails; [|exact R]. apply hang_ap_receiver. intros. apply hang_co_sender.
Qed.
Print Assumptions C59_extension_receiver.

(** C59: [HalfKey::evaluator], whatever the distance of the passwords. *)
Theorem C59_evaluator : forall sha fill gen G p p' a a' cores cores' r rs rr g pw pw' t,
  hash32 sha -> generator fill -> generator gen -> curve_ok G -> (1 <= cores)%nat -> (1 <= cores')%nat -> coins_ok r ->
  garbling_ok g -> length pw' = length pw -> good_length (length pw) -> t <= 65534 ->
  fails_without (garbler sha p g (sender_with sha fill p a cores r (co_receiver sha gen G p rs)) pw t)
                (evaluator sha p' (receiver_with sha fill p' a' cores' r (co_sender sha gen G p' rr)) pw').
Proof.
  intros sha fill gen G p p' a a' cores cores' r rs rr g pw pw' t Hs Hf Hge HG Hc Hc' Hr Hg Hl Hgl Ht.
  edestruct (fpake_run sha Hs p p' g Hg) as (ek & s & l0 & l1 & _ & _ & _ & _ & R);
    [apply (C35_extension_over_base_OT sha fill gen G p p' a a' cores cores' r rs rr); auto|exact Hl|exact Hgl|exact Ht|].
  eapply crash_fails; [|exact R]. apply hang_evaluator. intros. apply hang_ap_receiver. intros. apply hang_co_sender.
Qed.
Print Assumptions C59_evaluator.

(** C59: the programs, in both directions: no key is printed when the other side disappears during the handshake or later. *)
Theorem C59_programs : forall hmac xpub xdh sha fill gen G p p' sec sec' a a' cores cores' r rs rr r' rs' rr' g g' pw pw' t t',
  dh_ok xpub xdh -> hash32 sha -> generator fill -> generator gen -> curve_ok G ->
  (1 <= cores)%nat -> (1 <= cores')%nat -> coins_ok r -> coins_ok r' -> garbling_ok g -> garbling_ok g' ->
  length pw' = length pw -> good_length (length pw) -> t <= 65534 -> t' <= 65534 ->
  let server := main_server hmac xpub xdh sha p sec g (sender_with sha fill p a cores r (co_receiver sha gen G p rs))
              (receiver_with sha fill p a cores r' (co_sender sha gen G p rr)) pw t in
  let client := main_client hmac xpub xdh sha p' sec' g' (sender_with sha fill p' a' cores' r' (co_receiver sha gen G p' rr'))
              (receiver_with sha fill p' a' cores' r (co_sender sha gen G p' rs')) pw' t' in
  fails_without server client /\ fails_without client server.
Proof.
  intros hmac xpub xdh sha fill gen G p p' sec sec' a a' cores cores' r rs rr r' rs' rr' g g' pw pw' t t'
    Hdh Hs Hf Hge HG Hc Hc' Hr Hr' Hg Hg' Hl Hgl Ht Ht' server client.
  edestruct (fpake_run sha Hs p p' g Hg) as (ek & s & l0 & l1 & _ & _ & _ & _ & R1);
    [apply (C35_extension_over_base_OT sha fill gen G p p' a a' cores cores' r rs rs'); auto|exact Hl|exact Hgl|exact Ht|].
  edestruct (fpake_run sha Hs p' p g' Hg') as (ek' & s' & l0' & l1' & _ & _ & _ & _ & R2);
    [apply (C35_extension_over_base_OT sha fill gen G p' p a' a cores' cores r' rr' rr); auto|symmetry; exact Hl|rewrite Hl; exact Hgl|exact Ht'|].
  assert (R : exists oa ob, runs server client oa ob).
  { do 2 eexists. apply serve_runs; [exact Hdh|]. unfold fpake_server, fpake_client.
    eapply runs_bind; [exact R1|]. eapply runs_bind; [apply runs_flip; exact R2|]. apply runs_ret. }
  destruct R as (oa & ob & R). split; (eapply crash_fails; [|first [exact R|apply runs_flip; exact R]]).
  - apply hang_connect, hang_fpake_client; intros; [apply hang_ap_sender; intros; apply hang_co_receiver|apply hang_ap_receiver; intros; apply hang_co_sender].
  - apply hang_serve, hang_fpake_server; intros; [apply hang_ap_sender; intros; apply hang_co_receiver|apply hang_ap_receiver; intros; apply hang_co_sender].
Qed.
Print Assumptions C59_programs.

(** C59: the one-of-many exchange. *)
Theorem C59_one_of_many_client : forall sha fill gen G p p' g g' a a' cores cores' r r' rs rr rs' rr' rm rm' keys
    d l passwords mask index pw password t t',
  hash32 sha -> generator fill -> generator gen -> curve_ok G -> (1 <= cores)%nat -> (1 <= cores')%nat -> coins_ok r -> coins_ok r' ->
  garbling_ok g -> garbling_ok g' -> key_pairs keys -> length keys = d -> fits cores d ->
  password_list d l passwords -> good_length l -> length mask = l ->
  nth_error passwords (N.to_nat index) = Some pw -> length password = l -> t <= 65534 -> t' <= 65534 ->
  N.of_nat (distance pw password) <= t -> N.of_nat (distance pw password) <= t' ->
  fails_without
    (mfpake_many sha p mask g (fun d ms => many_sender sha fill p cores keys (co_sender sha gen G p rm) ms d)
            (sender_with sha fill p a cores r (co_receiver sha gen G p rs))
            (receiver_with sha fill p a cores r' (co_sender sha gen G p rr)) passwords t)
    (mfpake_single sha p' g' (fun d i => many_receiver sha fill p' (co_receiver sha gen G p' rm') i d)
            (sender_with sha fill p' a' cores' r' (co_receiver sha gen G p' rr'))
            (receiver_with sha fill p' a' cores' r (co_sender sha gen G p' rs')) password index (N.of_nat (2 ^ d)) t').
Proof.
  intros sha fill gen G p p' g g' a a' cores cores' r r' rs rr rs' rr' rm rm' keys
    d l passwords mask index pw password t t' Hs Hf Hge HG Hc Hc' Hr Hr' Hg Hg' Hk Lk Hfit Hpl Hgl Lm Hi Lpw Ht Ht' H1 H2.
  destruct (C48_keys_agree_over_crate_OT sha fill gen G p p' g g' a a' cores cores' r r' rs rr rs' rr' rm rm' keys
    d l passwords mask index pw password t t') as (key & L & R); auto.
  eapply crash_fails; [|exact R].
  apply hang_mfpake_single; intros; [apply hang_many_receiver; intros; apply hang_co_receiver|
    apply hang_ap_sender; intros; apply hang_co_receiver|apply hang_ap_receiver; intros; apply hang_co_sender].
Qed.
Print Assumptions C59_one_of_many_client.

(** The premises hold for a run with the toy primitives, and some crash cuts it short. *)
Example crash_example :
  fails_without (garbler toy Debug demo_garbling (demo_sender Debug) [97; 98; 99] 1)
                (evaluator toy Release (demo_receiver Release) [97; 106; 98]) /\
  (forall answers, cut_short 0 (send [1]) answers) /\ (forall answers, ~ cut_short 1 (send [1]) answers).
Proof.
  split.
  - apply (C59_evaluator toy toy_gen toy_gen toy_curve Debug Release X86 ARM64 4 2 toy_coins);
    [exact toy_hash32|exact toy_gen_ok|exact toy_gen_ok|exact toy_curve_ok|lia|lia|exact toy_coins_ok
    |exact demo_garbling_ok|reflexivity|unfold good_length; cbn; lia|discriminate].
  - split; intros answers; unfold cut_short; cbn; lia.
Qed.
