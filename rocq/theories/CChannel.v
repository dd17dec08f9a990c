(** C54-C57, C67: the authenticated and the signed channels of src/common.rs. *)
From Coq Require Import List NArith Bool Lia.
From Verif Require Import Base PBase MProc PProc MChannel SpecChannel PChannel.
Import ListNotations.
Open Scope N_scope.

(** A toy code and a toy signature scheme to instantiate hypotheses. *)
Definition toy_mac (key data : bytes) : bytes := [N.of_nat (length data); hd 0 key].
Definition toy_sign (secret data : bytes) : bytes := 7 :: secret ++ data.
Definition toy_verify (pk data sg : bytes) : bool := bytes_eqb sg (7 :: pk ++ data).
Definition toy_len (l : bytes) : bool := negb (Nat.eqb (length l) 0).

(** ** C54 *)
(** One message, as the code sends and receives it. *)
Theorem C54_one_message : forall hmac key d,
  runs (auth_send hmac key d) (auth_recv hmac key) (Ok tt) (Ok d).
Proof.
  intros hmac key d. apply runs_snd_rcv. apply runs_snd_rcv. cbn. rewrite bytes_eqb_refl. apply runs_ret.
Qed.
Print Assumptions C54_one_message.

(** Any number of messages, under every schedule: no schedule runs longer than some bound,
    every one can be completed, and one that cannot go on has delivered everything in order. *)
Theorem C54_in_order : forall hmac ks kr ms, exists n, forall k c,
  steps k (initial (over_auth hmac ks kr (send_all ms))
                   (over_auth hmac kr ks (recv_each recv (fun m => Ok m) (length ms)))) c ->
  (k <= n)%nat /\ steps (n - k) c (final (Ok tt) (Ok ms)) /\
  ((forall c', ~ step c c') -> c = final (Ok tt) (Ok ms)).
Proof.
  intros hmac ks kr ms. apply schedule_independent, over_auth_runs.
  apply runs_batch; [now left|]. induction ms; constructor; auto.
Qed.
Print Assumptions C54_in_order.

(** Every protocol that works on plain channels works on these. *)
Theorem C54_auth_transparent : forall hmac ka kb A B (p : proc A) (q : proc B) oa ob,
  runs p q oa ob -> runs (over_auth hmac ka kb p) (over_auth hmac kb ka q) oa ob.
Proof. intros. now apply over_auth_runs. Qed.
Print Assumptions C54_auth_transparent.
Theorem C54_signed_transparent : forall edpub edsign sig_valid edverify sa sb A B (p : proc A) (q : proc B) oa ob,
  (forall s m, sig_valid (edsign s m) = true /\ edverify (edpub s) m (edsign s m) = true) ->
  runs p q oa ob ->
  runs (over_signed edsign sig_valid edverify sa (edpub sb) p)
       (over_signed edsign sig_valid edverify sb (edpub sa) q) oa ob.
Proof. intros. now apply over_signed_runs. Qed.
Print Assumptions C54_signed_transparent.
Example C54_example :
  runs (over_auth toy_mac [1] [2] (send_all [[5]; [6; 7]]))
       (over_auth toy_mac [2] [1] (recv_each recv (fun m => Ok m) 2)) (Ok tt) (Ok [[5]; [6; 7]]) /\
  (forall s m, toy_len (toy_sign s m) = true /\ toy_verify s m (toy_sign s m) = true).
Proof.
  split.
  - apply C54_auth_transparent. apply (runs_batch recv (fun m => Ok m) [[5]; [6; 7]]); [now left|]. repeat constructor.
  - intros s m. split; [reflexivity|]. apply bytes_eqb_refl.
Qed.

(** ** C55 *)
Theorem C55_recv_checks_the_code : forall hmac key frames d,
  fst (feed (auth_recv hmac key) frames) = Ok d <-> exists rest, frames = d :: hmac key d :: rest.
Proof.
  intros hmac key frames d. split.
  - destruct frames as [|x [|c rest]]; cbn; try discriminate.
    destruct (bytes_eqb c (hmac key x)) eqn:E; cbn; [|discriminate]. intros [= ->].
    apply bytes_eqb_eq in E. subst. eauto.
  - intros [rest ->]. cbn. rewrite bytes_eqb_refl. reflexivity.
Qed.
Print Assumptions C55_recv_checks_the_code.

(** Against any attacker a protocol on the channel behaves as if each pair of frames were
    checked and an ill-coded one answered by an error. *)
Theorem C55_protocol_sees_checked_messages : forall hmac ks kr A (p : proc A) frames,
  feed (over_auth hmac ks kr p) frames =
  let (o, out) := answered p (checked (fun d c => bytes_eqb c (hmac kr d)) frames) in
  (o, wire (hmac ks) out).
Proof. intros. apply over_auth_feed. Qed.
Print Assumptions C55_protocol_sees_checked_messages.

(** Every message delivered arrived together with its code. *)
Theorem C55_delivered_was_coded : forall hmac ks kr n frames got,
  fst (feed (over_auth hmac ks kr (recv_each recv (fun m => Ok m) n)) frames) = Ok got ->
  length got = n /\ forall d, In d got -> exists pre post, frames = pre ++ d :: hmac kr d :: post.
Proof. intros. eapply auth_recv_delivers; eauto. Qed.
Print Assumptions C55_delivered_was_coded.

(** An attacker who can only re-send what holders of the key have put on the wire delivers
    nothing they did not send, unless codes collide with codes or with messages. *)
Theorem C55_nothing_new_from_recorded_frames : forall hmac ks kr n sent frames got,
  resent (wire (hmac kr) sent) frames ->
  fst (feed (over_auth hmac ks kr (recv_each recv (fun m => Ok m) n)) frames) = Ok got ->
  forall d, In d got -> In d sent \/ code_accident (hmac kr) sent d.
Proof. intros. eapply auth_resent; eauto. Qed.
Print Assumptions C55_nothing_new_from_recorded_frames.

Theorem C55_signed_recv_checks_the_signature : forall sig_valid edverify pk frames d,
  fst (feed (signed_recv sig_valid edverify pk) frames) = Ok d <->
  exists sg rest, frames = d :: sg :: rest /\ sig_valid sg = true /\ edverify pk d sg = true.
Proof.
  intros sig_valid edverify pk frames d. split.
  - destruct frames as [|x [|c rest]]; cbn; try discriminate.
    destruct (sig_valid c) eqn:V; cbn; [|discriminate]. destruct (edverify pk x c) eqn:E; cbn; [|discriminate].
    intros [= ->]. eauto 6.
  - intros (sg & rest & -> & V & E). cbn. rewrite V. cbn. rewrite E. reflexivity.
Qed.
Print Assumptions C55_signed_recv_checks_the_signature.
Example C55_example :
  fst (feed (over_auth toy_mac [1] [2] (recv_each recv (fun m => Ok m) 1)) [[9]; [1; 2]; [0]]) = Ok [[9]] /\
  fst (feed (over_auth toy_mac [1] [2] (recv_each recv (fun m => Ok m) 1)) [[9; 9]; [1; 2]]) = Err EClosed /\
  resent (wire (toy_mac [2]) [[9]; [7]]) [[9]; [1; 2]].
Proof.
  split; [reflexivity|]. split; [reflexivity|]. intros f [<-|[<-|[]]]; cbn; auto.
Qed.

(** ** C56 *)
(** The property for one direction: what a receiver accepts from an attacker who only
    re-sends frames is a prefix of what was sent. *)
Definition no_replay (hmac : bytes -> bytes -> bytes) : Prop :=
  forall key sent frames got,
    resent (wire (hmac key) sent) frames ->
    fst (feed (over_auth hmac key key (recv_each recv (fun m => Ok m) (length got))) frames) = Ok got ->
    exists rest, sent = got ++ rest.
Theorem C56_replay_refuted : forall hmac key d,
  exists frames, resent (wire (hmac key) [d]) frames /\
    feed (over_auth hmac key key (recv_each recv (fun m => Ok m) 2)) frames = (Ok [d; d], []).
Proof.
  intros hmac key d. exists [d; hmac key d; d; hmac key d]. split.
  - intros f [<-|[<-|[<-|[<-|[]]]]]; cbn; auto.
  - rewrite over_auth_feed. change [d; hmac key d; d; hmac key d] with (wire (hmac key) [d; d]).
    rewrite <- (app_nil_r (wire _ _)), checked_wire. reflexivity.
Qed.
Print Assumptions C56_replay_refuted.
Theorem C56_reorder_refuted : forall hmac key d1 d2,
  exists frames, resent (wire (hmac key) [d1; d2]) frames /\ length frames = 4%nat /\
    feed (over_auth hmac key key (recv_each recv (fun m => Ok m) 2)) frames = (Ok [d2; d1], []).
Proof.
  intros hmac key d1 d2. exists (wire (hmac key) [d2; d1]). split; [|split; [reflexivity|]].
  - intros f [<-|[<-|[<-|[<-|[]]]]]; cbn; auto.
  - rewrite over_auth_feed, <- (app_nil_r (wire _ _)), checked_wire. reflexivity.
Qed.
Print Assumptions C56_reorder_refuted.
Theorem C56_no_replay_refuted : forall hmac, ~ no_replay hmac.
Proof.
  intros hmac H. destruct (C56_replay_refuted hmac [] [1]) as (frames & R & E).
  destruct (H [] [[1]] frames [[1]; [1]] R) as [rest E']; [cbn [length]; now rewrite E|]. discriminate.
Qed.
Print Assumptions C56_no_replay_refuted.

(** Reflection: after the handshake both directions use one key, so a party takes its own
    frames for the peer's.  [chat d] sends one message and waits for the answer. *)
Definition chat (d : bytes) : proc bytes := let! _ := send d in recv.
Theorem C56_reflection_refuted : forall hmac xpub xdh secret theirs d,
  length theirs = 32%nat ->
  let frames := [d; hmac (xdh secret theirs) d] in
  feed (let! key := auth_client xpub xdh secret in over_auth hmac key key (chat d)) (theirs :: frames) =
  (Ok d, xpub secret :: frames).
Proof.
  intros hmac xpub xdh secret theirs d L frames. subst frames. unfold auth_client, x_public. cbn. rewrite L. cbn.
  rewrite bytes_eqb_refl. reflexivity.
Qed.
Print Assumptions C56_reflection_refuted.
(** Replay works on signed channels too. *)
Theorem C56_signed_replay_refuted : forall edpub edsign sig_valid edverify sa sb d,
  (forall s m, sig_valid (edsign s m) = true /\ edverify (edpub s) m (edsign s m) = true) ->
  exists frames, resent (wire (edsign sb) [d]) frames /\
    feed (over_signed edsign sig_valid edverify sa (edpub sb) (recv_each recv (fun m => Ok m) 2)) frames = (Ok [d; d], []).
Proof.
  intros edpub edsign sig_valid edverify sa sb d H. exists (wire (edsign sb) [d; d]). split.
  - intros f [<-|[<-|[<-|[<-|[]]]]]; cbn; auto.
  - destruct (H sb d) as [V E]. cbn. repeat (rewrite V, E; cbn). reflexivity.
Qed.
Print Assumptions C56_signed_replay_refuted.

(** ** C57 *)
Theorem C57_auth_handshake_agrees : forall xpub xdh a b,
  length (xpub a) = 32%nat -> length (xpub b) = 32%nat -> xdh a (xpub b) = xdh b (xpub a) ->
  runs (auth_server xpub xdh a) (auth_client xpub xdh b) (Ok (xdh a (xpub b))) (Ok (xdh b (xpub a))).
Proof. intros xpub xdh a b La Lb E. rewrite <- E. now apply auth_handshake. Qed.
Print Assumptions C57_auth_handshake_agrees.
Theorem C57_signed_handshake_agrees : forall edpub pk_valid sa sb,
  pk_valid (edpub sa) = true -> pk_valid (edpub sb) = true ->
  runs (signed_server edpub pk_valid sa) (signed_client edpub pk_valid sb) (Ok (edpub sb)) (Ok (edpub sa)).
Proof. intros. now apply signed_handshake. Qed.
Print Assumptions C57_signed_handshake_agrees.
(** A whole session: handshake, then a protocol on the channel it set up. *)
Theorem C57_session : forall hmac xpub xdh a b A B (p : proc A) (q : proc B) oa ob,
  length (xpub a) = 32%nat -> length (xpub b) = 32%nat -> xdh a (xpub b) = xdh b (xpub a) ->
  runs p q oa ob ->
  runs (let! key := auth_server xpub xdh a in over_auth hmac key key p)
       (let! key := auth_client xpub xdh b in over_auth hmac key key q) oa ob.
Proof.
  intros hmac xpub xdh a b A B p q oa ob La Lb E H. eapply runs_bind; [now apply auth_handshake|].
  now apply over_auth_runs.
Qed.
Print Assumptions C57_session.
Definition toy_pub (a : bytes) : bytes := repeat (hd 0 a) 32.
Definition toy_dh (a p : bytes) : bytes := repeat (hd 0 a * hd 0 p) 32.
Example C57_example : length (toy_pub [3]) = 32%nat /\ toy_dh [3] (toy_pub [5]) = toy_dh [5] (toy_pub [3]) /\
  runs (let! key := auth_server toy_pub toy_dh [3] in over_auth toy_mac key key (send [1]))
       (let! key := auth_client toy_pub toy_dh [5] in over_auth toy_mac key key recv) (Ok tt) (Ok [1]).
Proof.
  split; [reflexivity|]. split; [reflexivity|]. apply C57_session; try reflexivity. apply runs_snd_rcv, runs_ret.
Qed.

(** ** C67 *)
(** A connection that sends a public key of the wrong length ends the server process. *)
Theorem C67_server_survives_bad_key_refuted : forall xpub xdh a m,
  length m <> 32%nat -> fst (feed (auth_server xpub xdh a) [m]) = Panic PUnwrap.
Proof.
  intros xpub xdh a m L. cbn. unfold x_public. apply PeanoNat.Nat.eqb_neq in L. rewrite L. reflexivity.
Qed.
Print Assumptions C67_server_survives_bad_key_refuted.
Theorem C67_server_survives_disconnect_refuted : forall xpub xdh a,
  fst (feed (auth_server xpub xdh a) []) = Panic PUnwrap.
Proof. reflexivity. Qed.
Print Assumptions C67_server_survives_disconnect_refuted.
(** A frame that is no signature at all panics where a wrong signature is an error: in [recv] itself, and so in any
    protocol that waits for a message on a signed channel, even one that goes on after an error of [recv]. *)
Theorem C67_malformed_signature_refuted : forall sig_valid edverify pk d sg rest,
  sig_valid sg = false -> fst (feed (signed_recv sig_valid edverify pk) (d :: sg :: rest)) = Panic PUnwrap /\
    forall edsign secret A (k : option bytes -> proc A),
      fst (feed (over_signed edsign sig_valid edverify secret pk (Rcv k)) (d :: sg :: rest)) = Panic PUnwrap.
Proof. intros sig_valid edverify pk d sg rest V. split; [|intros edsign secret A k]; cbn; rewrite V; reflexivity. Qed.
Print Assumptions C67_malformed_signature_refuted.
(** The signed server unwraps the peer's key: a peer that sends no key, or one that is no curve point, ends it.  The
    signed client returns an error in both cases. *)
Theorem C67_signed_server_survives_bad_key_refuted : forall edpub pk_valid a m,
  pk_valid m = false -> fst (feed (signed_server edpub pk_valid a) [m]) = Panic PUnwrap /\
    fst (feed (signed_server edpub pk_valid a) []) = Panic PUnwrap.
Proof. intros edpub pk_valid a m V. cbn. rewrite V. auto. Qed.
Print Assumptions C67_signed_server_survives_bad_key_refuted.
Theorem C67_signed_client_never_panics : forall edpub pk_valid a frames,
  match fst (feed (signed_client edpub pk_valid a) frames) with Ok m => hd_error frames = Some m /\ pk_valid m = true | Err _ => True | _ => False end.
Proof. intros edpub pk_valid a [|m frames]; cbn; [exact I|]. destruct (pk_valid m) eqn:V; cbn; auto. Qed.
Print Assumptions C67_signed_client_never_panics.
(** On an authenticated channel an ill-coded frame is an error and never a panic. *)
Theorem C67_auth_recv_never_panics : forall hmac key frames,
  exists o, fst (feed (auth_recv hmac key) frames) = o /\ (match o with Ok _ | Err _ => True | _ => False end).
Proof.
  intros hmac key frames. eexists. split; [reflexivity|].
  destruct frames as [|d [|c rest]]; cbn; auto. destruct (bytes_eqb c (hmac key d)); exact I.
Qed.
Print Assumptions C67_auth_recv_never_panics.
Example C67_example : fst (feed (auth_server toy_pub toy_dh [3]) [[1; 2]]) = Panic PUnwrap /\
  fst (feed (signed_recv toy_len toy_verify [3]) [[1]; []]) = Panic PUnwrap /\
  fst (feed (signed_server toy_pub toy_len [3]) [[]]) = Panic PUnwrap /\ fst (feed (signed_client toy_pub toy_len [3]) [[]]) = Err EOther.
Proof. repeat split; reflexivity. Qed.
