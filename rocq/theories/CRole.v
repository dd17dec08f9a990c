(** C119: two programs in the same role. *)
From Coq Require Import List NArith Bool Lia Arith.
From Verif Require Import Base MUtil MWires MCircuit MGarble MPar MBincode MProc MOt MApricot MMany MFpake MChannel MMain.
From Verif Require Import SpecUtil SpecWires SpecCircuit SpecGarble SpecBincode SpecOt SpecApricot SpecFpake SpecLong SpecMany SpecMfpake SpecMain SpecRole.
From Verif Require Import PBase PUtil PWires PGarble PCircuit PHalf PProc POt PChannel PFpake PLong.
From Verif Require Import CCircuit COt CApricot CMany CUtil CFpake CMfpake CChannel CMain CLong CUneven.
Import ListNotations.
Open Scope N_scope.

(** ** Waiting is the same under every schedule *)
Section Wait.
Context {A B : Type}.
Implicit Types c : cfg A B.
Definition both_wait c := exists kl kr, c = Cfg (Rcv kl) (Rcv kr) [] [].
Lemma wait_descend n : forall c f, both_wait f -> core n c f ->
  (forall c1, stepL c = Some c1 -> exists m, n = S m /\ core m c1 f) /\
  (forall c1, stepR c = Some c1 -> exists m, n = S m /\ core m c1 f).
Proof.
  induction n as [|n IH]; intros c f F H.
  - inversion H; subst. destruct F as (kl & kr & ->). split; intros c1 S; discriminate.
  - inversion H as [|n' c0 d c2 Hs Hc|n' c0 d c2 Hs Hc]; subst.
    + split; intros c1 S1.
      * rewrite Hs in S1. injection S1 as <-. eauto.
      * destruct (diamond _ _ _ Hs S1) as (c3 & R3 & L3). destruct (IH _ _ F Hc) as [_ HR].
        destruct (HR _ R3) as (m & -> & Hm). exists (S m); split; auto. eapply core_L; eauto.
    + split; intros c1 S1.
      * destruct (diamond _ _ _ S1 Hs) as (c3 & R3 & L3). destruct (IH _ _ F Hc) as [HL _].
        destruct (HL _ L3) as (m & -> & Hm). exists (S m); split; auto. eapply core_R; eauto.
      * rewrite Hs in S1. injection S1 as <-. eauto.
Qed.
Lemma core_done_r n c f : core n c f -> forall o, right_ c = Done o -> right_ f = Done o.
Proof.
  induction 1 as [c|n c c1 c2 Hs _ IH|n c c1 c2 Hs _ IH]; intros o E; auto.
  - apply IH. unfold stepL in Hs. destruct (left_ c) as [|m k|k]; [discriminate| |]; [|destruct (rl c); [discriminate|]]; injection Hs as <-; exact E.
  - unfold stepR in Hs. rewrite E in Hs. discriminate.
Qed.
Lemma core_done_l n c f : core n c f -> forall o, left_ c = Done o -> left_ f = Done o.
Proof.
  induction 1 as [c|n c c1 c2 Hs _ IH|n c c1 c2 Hs _ IH]; intros o E; auto.
  - unfold stepL in Hs. rewrite E in Hs. discriminate.
  - apply IH. unfold stepR in Hs. destruct (right_ c) as [|m k|k]; [discriminate| |]; [|destruct (lr c); [discriminate|]]; injection Hs as <-; exact E.
Qed.
Lemma wait_steps k : forall n c c1 f, both_wait f -> core n c f -> steps k c c1 -> exists m, n = (k + m)%nat /\ core m c1 f.
Proof.
  induction k as [|k IH]; intros n c c1 f F H S; inversion S; subst.
  - exists n; split; [reflexivity|assumption].
  - match goal with Hs : step _ _, Hk : steps _ _ _ |- _ =>
      assert (D : exists m, n = (1 + m)%nat /\ core m c2 f);
      [destruct (wait_descend _ _ _ F H) as [HL HR]; destruct Hs as [c c' T|c c' T|c c' T|c c' T]; [now apply HL|now apply HR| |]|
       destruct D as (m & -> & Hm); destruct (IH _ _ _ _ F Hm Hk) as (m' & -> & Hm'); exists m'; split; [reflexivity|assumption]] end.
    + exfalso. destruct F as (kl & kr & ->). destruct T; pose proof (core_done_r _ _ _ H o eq_refl); discriminate.
    + exfalso. destruct F as (kl & kr & ->). destruct T; pose proof (core_done_l _ _ _ H o eq_refl); discriminate.
Qed.
End Wait.
Definition dead {A B} (p : proc A) (q : proc B) : Prop := exists kl kr, reach (initial p q) (Cfg (Rcv kl) (Rcv kr) [] []).
Lemma dead_waits {A B} (p : proc A) (q : proc B) : dead p q -> waits_forever p q.
Proof.
  intros (kl & kr & H). apply reach_core in H. destruct H as [n H]. exists n. intros k c S.
  assert (F : both_wait (Cfg (Rcv kl) (Rcv kr) [] [])) by (eexists _, _; reflexivity).
  destruct (wait_steps _ _ _ _ _ F H S) as (m & -> & Hm). split; [lia|].
  intros St. rewrite (core_stuck _ _ _ Hm St). eauto.
Qed.
Lemma dead_bind {A B C D} (p : proc A) (q : proc B) (f : A -> proc C) (g : B -> proc D) : dead p q -> dead (pbind p f) (pbind q g).
Proof. intros (kl & kr & H). pose proof (reach_map f g _ _ H) as R. eexists _, _. exact R. Qed.
Lemma dead_after {A B C D} (p : proc A) (q : proc B) (f : A -> proc C) (g : B -> proc D) a b :
  runs p q (Ok a) (Ok b) -> dead (f a) (g b) -> dead (pbind p f) (pbind q g).
Proof. intros H (kl & kr & R). exists kl, kr. eapply reach_trans; [exact (reach_map f g _ _ H)|exact R]. Qed.
Lemma dead_lift {A B C D} oa ob a b (f : A -> proc C) (g : B -> proc D) : oa = Ok a -> ob = Ok b ->
  dead (f a) (g b) -> dead (pbind (lift oa) f) (pbind (lift ob) g).
Proof. intros -> -> H. exact H. Qed.
Lemma dead_recv {A B} (f : bytes -> proc A) (g : bytes -> proc B) : dead (pbind recv f) (pbind recv g).
Proof. eexists _, _. constructor. Qed.
Lemma dead_unwrap {A B} (f : bytes -> proc A) (g : bytes -> proc B) : dead (pbind recv_unwrap f) (pbind recv_unwrap g).
Proof. eexists _, _. constructor. Qed.
Lemma dead_auth {A B} hmac k (p : proc A) (q : proc B) : dead p q -> dead (over_auth hmac k k p) (over_auth hmac k k q).
Proof.
  intros (kl & kr & H). assert (G : reach (lift_auth hmac k k (initial p q)) (lift_auth hmac k k (Cfg (Rcv kl) (Rcv kr) [] []))).
  { induction H as [c|c c1 c2 S _ IH|c c1 c2 S _ IH]; [apply reach_refl| |].
    - eapply reach_trans; [apply lift_auth_L; exact S|exact IH].
    - eapply reach_trans; [apply lift_auth_R; exact S|exact IH]. }
  eexists _, _. exact G.
Qed.

(** ** The handshake of two servers *)
Lemma two_servers_handshake xpub xdh s s' : dh_ok xpub xdh -> exists key,
  runs (auth_server xpub xdh s) (auth_server xpub xdh s') (Ok key) (Ok key).
Proof.
  intros [L E]. exists (xdh s (xpub s')).
  assert (X : forall x, x_public (xpub x) = Ok (xpub x)) by (intros x; unfold x_public; rewrite L; reflexivity).
  unfold auth_server. cbn [send recv_unwrap pbind ret]. apply runs_exchange. cbn [pbind ret].
  eapply runs_lift_l; [apply X|]. eapply runs_lift_r; [apply X|]. rewrite (E s s'). apply runs_ret.
Qed.

(** ** Both sides as senders of the OT extension *)
Lemma two_senders sha fill p p' a a' cores cores' r r' bootR bootR' msg msg' :
  usize_ok (length msg) -> (length msg mod 8 = 0)%nat -> length msg' = length msg ->
  dead (sender_with sha fill p a cores r bootR msg) (sender_with sha fill p' a' cores' r' bootR' msg').
Proof.
  intros Hu H8 E. unfold sender_with, ap_sender. rewrite E, H8. change (Nat.eqb 0 0) with true.
  eapply dead_lift; [apply debug_assert_true|apply debug_assert_true|].
  eapply dead_after.
  { apply C30_negotiation; [now apply apricot_props|now apply apricot_props|]. split; reflexivity. }
  apply dead_bind. unfold coinflip_receiver. apply dead_recv.
Qed.
Lemma two_garblers sha fill p p' a a' cores cores' r r' bootR bootR' g g' pw pw' t t' :
  hash32 sha -> garbling_ok g -> garbling_ok g' -> workable_length (length pw) -> length pw' = length pw -> t <= 65534 -> t' <= 65534 ->
  dead (garbler sha p g (sender_with sha fill p a cores r bootR) pw t) (garbler sha p' g' (sender_with sha fill p' a' cores' r' bootR') pw' t').
Proof.
  intros Hs Hg Hg' Hw Hl Ht Ht'.
  destruct (workable _ Hw) as (H1 & Hsup & H2 & Hlt & Hun & Hnw).
  destruct (circL_half sha p g (length pw * 8) (sum_modulus (length pw)) t Hs Hg Ht H1 Hsup Hnw) as (gc & ek & dk & zs & l0 & l1 & H).
  destruct (circL_half sha p' g' (length pw * 8) (sum_modulus (length pw)) t' Hs Hg' Ht' H1 Hsup Hnw) as (gc' & ek' & dk' & zs' & l0' & l1' & H').
  pose proof (hk_length _ _ _ _ _ _ _ _ _ _ _ H) as Lz. pose proof (hk_length _ _ _ _ _ _ _ _ _ _ _ H') as Lz'. cbn [circL num_inputs] in Lz, Lz'.
  unfold garbler. rewrite !bits_length8, Hl.
  eapply dead_lift; [exact (build_circuit_long p (length pw * 8) t Hlt Ht)|exact (build_circuit_long p' (length pw * 8) t' Hlt Ht')|].
  change (N.of_nat (length pw * 8) mod 65536 + 1) with (sum_modulus (length pw)).
  eapply dead_lift; [exact (garble_zipped_ok _ _ _ _ _ _ _ _ _ _ H)|exact (garble_zipped_ok _ _ _ _ _ _ _ _ _ _ H')|]. cbv beta iota.
  eapply dead_lift; [unfold slice_to; rewrite (proj2 (Nat.leb_le _ _)) by lia; reflexivity|unfold slice_to; rewrite (proj2 (Nat.leb_le _ _)) by lia; reflexivity|].
  eapply dead_lift; [unfold slice_from; rewrite (proj2 (Nat.leb_le _ _)) by lia; reflexivity|unfold slice_from; rewrite (proj2 (Nat.leb_le _ _)) by lia; reflexivity|].
  apply dead_bind.
  assert (Lt : forall z : list (wire * wire), length z = (length pw * 8 * 2)%nat -> length (label_messages (skipn (length pw * 8) z)) = (length pw * 8)%nat)
    by (intros z E; unfold label_messages; rewrite map_length, skipn_length; lia).
  apply two_senders; rewrite ?(Lt zs Lz), ?(Lt zs' Lz'); auto. apply Nat.mod_mul. lia.
Qed.

(** *** C119 *)
(** C119 is false: two servers of main.rs with passwords of the same length agree on the key of the channel, and then
    each waits for the other to start the coin flip. *)
Theorem C119_two_servers_refuted : forall hmac xpub xdh sha fill p p' sec sec' a a' cores cores' r r' bootR bootR' (otR otR' : list bool -> proc (list bytes)) g g' pw pw' t t',
  dh_ok xpub xdh -> hash32 sha -> garbling_ok g -> garbling_ok g' ->
  workable_length (length pw) -> length pw' = length pw -> t <= 65534 -> t' <= 65534 ->
  waits_forever (main_server hmac xpub xdh sha p sec g (sender_with sha fill p a cores r bootR) otR pw t)
                (main_server hmac xpub xdh sha p' sec' g' (sender_with sha fill p' a' cores' r' bootR') otR' pw' t').
Proof.
  intros hmac xpub xdh sha fill p p' sec sec' a a' cores cores' r r' bootR bootR' otR otR' g g' pw pw' t t' Hdh Hs Hg Hg' Hw Hl Ht Ht'.
  apply dead_waits. unfold main_server, serve. destruct (two_servers_handshake xpub xdh sec sec' Hdh) as (key & R).
  eapply dead_after; [exact R|]. apply dead_auth. unfold fpake_server. apply dead_bind. now apply two_garblers.
Qed.
Print Assumptions C119_two_servers_refuted.

(** C119: without the channels around them as well. *)
Theorem C119_two_plain_servers_refuted : forall sha fill p p' a a' cores cores' r r' bootR bootR' (otR otR' : list bool -> proc (list bytes)) g g' pw pw' t t',
  hash32 sha -> garbling_ok g -> garbling_ok g' ->
  workable_length (length pw) -> length pw' = length pw -> t <= 65534 -> t' <= 65534 ->
  waits_forever (fpake_server sha p g (sender_with sha fill p a cores r bootR) otR pw t)
                (fpake_server sha p' g' (sender_with sha fill p' a' cores' r' bootR') otR' pw' t').
Proof. intros. apply dead_waits. unfold fpake_server. apply dead_bind. now apply two_garblers. Qed.
Print Assumptions C119_two_plain_servers_refuted.

(** C119: two clients wait for each other's public key, whatever they were given. *)
Theorem C119_two_clients_refuted : forall hmac xpub xdh sha p p' sec sec' otS otS' otR otR' g g' pw pw' t t',
  waits_forever (main_client hmac xpub xdh sha p sec g otS otR pw t) (main_client hmac xpub xdh sha p' sec' g' otS' otR' pw' t').
Proof. intros. apply dead_waits. unfold main_client, connect. apply dead_bind. unfold auth_client. apply dead_unwrap. Qed.
Print Assumptions C119_two_clients_refuted.
Theorem C119_two_many_clients_refuted : forall hmac xpub xdh sha p p' sec sec' manyR manyR' otS otS' otR otR' g g' pw pw' i i' n n' t t',
  waits_forever (many_client_main hmac xpub xdh sha p sec g manyR otS otR pw i n t)
                (many_client_main hmac xpub xdh sha p' sec' g' manyR' otS' otR' pw' i' n' t').
Proof. intros. apply dead_waits. unfold many_client_main, connect. apply dead_bind. unfold auth_client. apply dead_unwrap. Qed.
Print Assumptions C119_two_many_clients_refuted.
Theorem C119_two_v3_clients_refuted : forall sha p p' g g' ot1 ot1' manyR manyR' ot2 ot2' ot3 ot3' pw pw' n n' i i' t t',
  waits_forever (client_v3 sha p g ot1 manyR ot2 ot3 pw n i t) (client_v3 sha p' g' ot1' manyR' ot2' ot3' pw' n' i' t').
Proof. intros. apply dead_waits. unfold client_v3. apply dead_bind. unfold evaluator_client_v3. apply dead_recv. Qed.
Print Assumptions C119_two_v3_clients_refuted.

(** ** Examples *)
Example two_servers_example :
  waits_forever (main_server toy_mac toy_pub toy_dh toy Debug [7] demo_garbling (demo_sender Debug) (demo_receiver Debug) [97; 98; 99] 1)
                (main_server toy_mac toy_pub toy_dh toy Release [9] demo_garbling (demo_sender Release) (demo_receiver Release) [97; 98; 99] 1).
Proof.
  apply C119_two_servers_refuted; [exact toy_dh_ok|exact toy_hash32|exact demo_garbling_ok|exact demo_garbling_ok| |reflexivity|discriminate|discriminate].
  apply good_workable. unfold good_length. cbn [length]. lia.
Qed.
(** A session of a server with a client does not wait forever. *)
Example C119_not_always : ~ waits_forever (send []) (let! _ := recv in ret tt).
Proof.
  intros (n & H).
  destruct (H 2%nat (final (Ok tt) (Ok tt))) as [_ F].
  - eapply steps_cons; [apply step_left; reflexivity|]. eapply steps_cons; [apply step_right; reflexivity|]. apply steps_refl.
  - destruct F as (kl & kr & E); [|discriminate]. apply final_stuck. eexists _, _. reflexivity.
Qed.
