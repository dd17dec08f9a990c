(** C120: how much room the transport needs. *)
From Coq Require Import List NArith Bool Lia Arith.
From Verif Require Import Base MUtil MWires MCircuit MGarble MPar MBincode MProc MOt MApricot MMany MFpake MChannel MMain.
From Verif Require Import SpecUtil SpecWires SpecCircuit SpecGarble SpecBincode SpecOt SpecApricot SpecFpake SpecLong SpecMany SpecMfpake SpecMain SpecTurns SpecRoom.
From Verif Require Import PBase PUtil PWires PGarble PCircuit PHalf PProc PHang PHangOt POt PChannel PFpake PLong PSizes PTurns PRoom PRoom2.
From Verif Require Import CCircuit COt CApricot CMany CUtil CFpake CMfpake CChannel CMain CCrash CWhole CLong CTurns.
Import ListNotations.
Open Scope N_scope.

(** ** Over the crate's OT *)
Section Side.
Variables sha : bytes -> bytes.
Variable fill gen : bytes -> nat -> bytes.
Variable G : curve.
Variable p : profile.
Variable a : arch.
Variable cores : nat.
Lemma wf_sender_with r rs ms M : coins_ok r -> wfollows (wsecond ext_rounds ++ M) (sender_with sha fill p a cores r (co_receiver sha gen G p rs) ms) (rest_is M).
Proof. intros (_ & _ & [Ld _] & _). apply wf_ap_sender; [exact Ld|]. intros. apply wf_co_receiver. Qed.
Lemma wf_receiver_with r rs cs M : coins_ok r -> wfollows (wfirst ext_rounds ++ M) (receiver_with sha fill p a cores r (co_sender sha gen G p rs) cs) (rest_is M).
Proof. intros (_ & _ & _ & _ & S0 & S1). apply wf_ap_receiver; [exact S0|exact S1|]. intros. apply wf_co_sender. Qed.
Lemma wf_many_s keys rm d ms M : (forall d, length (keys d) = d) ->
  wfollows (wfirst (many_rounds d) ++ M) (many_sender sha fill p cores (keys d) (co_sender sha gen G p rm) ms d) (rest_is M).
Proof. intros Hk. rewrite <- (Hk d) at 1. apply wf_many_sender. intros. apply wf_co_sender. Qed.
Lemma wf_many_r rm d i M : wfollows (wsecond (many_rounds d) ++ M) (many_receiver sha fill p (co_receiver sha gen G p rm) i d) (rest_is M).
Proof. apply wf_many_receiver. intros. apply wf_co_receiver. Qed.
Section Main.
Variable hmac : bytes -> bytes -> bytes.
Variables xpub : bytes -> bytes.
Variables xdh : bytes -> bytes -> bytes.
Variable sec : bytes.
Hypothesis Hc : forall k m, length (hmac k m) = 32%nat.
Lemma wf_main_server r rs r' rs' g pw t : coins_ok r -> coins_ok r' ->
  wfollows (wfirst (channel_rounds plain_rounds)) (main_server hmac xpub xdh sha p sec g (sender_with sha fill p a cores r (co_receiver sha gen G p rs))
     (receiver_with sha fill p a cores r' (co_sender sha gen G p rs')) pw t) (rest_is []).
Proof.
  intros H H'. apply wf_serve; [exact Hc| |].
  - apply hang_fpake_server; intros; [apply hang_sender_with|apply hang_receiver_with].
  - rewrite <- (app_nil_r (wfirst plain_rounds)). apply wf_server; intros; [now apply wf_sender_with|now apply wf_receiver_with].
Qed.
Lemma wf_main_client r rs r' rs' g pw t : coins_ok r -> coins_ok r' ->
  wfollows (wsecond (channel_rounds plain_rounds)) (main_client hmac xpub xdh sha p sec g (sender_with sha fill p a cores r (co_receiver sha gen G p rs))
     (receiver_with sha fill p a cores r' (co_sender sha gen G p rs')) pw t) (rest_is []).
Proof.
  intros H H'. apply wf_connect; [exact Hc| |].
  - apply hang_fpake_client; intros; [apply hang_sender_with|apply hang_receiver_with].
  - rewrite <- (app_nil_r (wsecond plain_rounds)). apply wf_client; intros; [now apply wf_sender_with|now apply wf_receiver_with].
Qed.
Lemma wf_many_server_main keys rm r rs r' rs' mask g file l t d : coins_ok r -> coins_ok r' -> (forall d, length (keys d) = d) ->
  N.of_nat (length file / l) < 2 ^ 64 -> bits_for (N.of_nat (length file / l)) d ->
  wfollows (wfirst (channel_rounds (mfpake_rounds d))) (many_server_main hmac xpub xdh sha p sec mask g
     (fun d ms => many_sender sha fill p cores (keys d) (co_sender sha gen G p rm) ms d)
     (sender_with sha fill p a cores r (co_receiver sha gen G p rs)) (receiver_with sha fill p a cores r' (co_sender sha gen G p rs')) file l t) (rest_is []).
Proof.
  intros H H' Hk Hn Hd. unfold many_server_main.
  apply (wf_first _ (fun pws => length pws = (length file / l)%nat)).
  { unfold chunks_exact. destruct (Nat.eqb l 0); cbn; auto. now rewrite map_length, seq_length. }
  intros pws Lp. apply wf_serve; [exact Hc| |].
  { apply hang_mfpake_many; intros; [apply hang_many_sender; intros; apply hang_co_sender|apply hang_sender_with|apply hang_receiver_with]. }
  destruct pws as [|w pws]; [exact I|].
  rewrite <- (app_nil_r (wfirst (mfpake_rounds d))). apply wf_mfpake_many; intros; [now apply wf_sender_with|now apply wf_receiver_with|now apply wf_many_s|].
  rewrite Lp. apply log_bits; auto; [reflexivity|]. rewrite <- Lp. cbn [length]. lia.
Qed.
Lemma wf_many_client_main rm r rs r' rs' g pw i n t d : coins_ok r -> coins_ok r' -> n <> 0 -> n < 2 ^ 32 -> bits_for n d ->
  wfollows (wsecond (channel_rounds (mfpake_rounds d))) (many_client_main hmac xpub xdh sha p sec g
     (fun d i => many_receiver sha fill p (co_receiver sha gen G p rm) i d)
     (sender_with sha fill p a cores r (co_receiver sha gen G p rs)) (receiver_with sha fill p a cores r' (co_sender sha gen G p rs')) pw i n t) (rest_is []).
Proof.
  intros H H' H0 Hn Hd. unfold many_client_main. apply wf_connect; [exact Hc| |].
  { apply hang_mfpake_single; intros; [apply hang_many_receiver; intros; apply hang_co_receiver|apply hang_sender_with|apply hang_receiver_with]. }
  rewrite <- (app_nil_r (wsecond (mfpake_rounds d))). apply wf_mfpake_single; intros; [now apply wf_sender_with|now apply wf_receiver_with|apply wf_many_r|].
  apply log_bits; auto; reflexivity.
Qed.
End Main.
Lemma wf_v3_server keys rm r1 rs1 r2 rs2 r3 rs3 mask g pws t d : coins_ok r1 -> coins_ok r2 -> coins_ok r3 -> (forall d, length (keys d) = d) ->
  N.of_nat (length pws) < 2 ^ 64 -> bits_for (N.of_nat (length pws)) d ->
  wfollows (wfirst (v3_rounds d)) (server_v3 sha p mask g (sender_with sha fill p a cores r1 (co_receiver sha gen G p rs1))
     (fun d ms => many_sender sha fill p cores (keys d) (co_sender sha gen G p rm) ms d) (sender_with sha fill p a cores r2 (co_receiver sha gen G p rs2))
     (receiver_with sha fill p a cores r3 (co_sender sha gen G p rs3)) pws t) (rest_is []).
Proof.
  intros H1 H2 H3 Hk Hn Hd. destruct pws as [|w pws]; [exact I|].
  rewrite <- (app_nil_r (wfirst (v3_rounds d))). apply wf_server_v3; intros; try (now apply wf_sender_with); [now apply wf_many_s|now apply wf_receiver_with|].
  apply log_bits; auto; [reflexivity|]. cbn [length]. lia.
Qed.
Lemma wf_v3_client rm r1 rs1 r2 rs2 r3 rs3 g pw n i t d : coins_ok r1 -> coins_ok r2 -> coins_ok r3 -> n <> 0 -> n < 2 ^ 32 -> bits_for n d ->
  wfollows (wsecond (v3_rounds d)) (client_v3 sha p g (receiver_with sha fill p a cores r1 (co_sender sha gen G p rs1))
     (fun d i => many_receiver sha fill p (co_receiver sha gen G p rm) i d) (receiver_with sha fill p a cores r2 (co_sender sha gen G p rs2))
     (sender_with sha fill p a cores r3 (co_receiver sha gen G p rs3)) pw n i t) (rest_is []).
Proof.
  intros H1 H2 H3 H0 Hn Hd.
  rewrite <- (app_nil_r (wsecond (v3_rounds d))). apply wf_client_v3; intros; try (now apply wf_receiver_with); [apply wf_many_r|now apply wf_sender_with|].
  apply log_bits; auto; reflexivity.
Qed.
End Side.

(** ** Rooms *)
Open Scope nat_scope.
Definition lean (b : nat) (r : list (option nat) * list (option nat)) : Prop := fst r = [] \/ snd r = [] \/ exists n, fst r = [Some n] /\ snd r = [Some n] /\ n <= b.
Ltac leans := repeat first [apply Forall_nil|apply Forall_cons]; try (unfold lean; cbn; auto; fail).
Lemma lean_swap b R : Forall (lean b) R -> Forall (lean b) (wswap R).
Proof.
  intros H. unfold wswap. apply Forall_map. eapply Forall_impl; [|exact H]. intros [xs ys] [E|[E|(n & E & F & L)]]; cbn in *; [right; left|left|right; right; exists n]; auto.
Qed.
Lemma lean_base k : Forall (lean 28) (base_rounds k).
Proof. unfold base_rounds. leans. right; right. exists 28. auto. Qed.
Lemma lean_ext : Forall (lean 28) ext_rounds.
Proof.
  unfold ext_rounds. apply Forall_app. split; [leans; right; right; exists 23; repeat split; lia|].
  apply Forall_app. split; [apply lean_base|]. leans.
Qed.
Lemma lean_half : Forall (lean 28) half_rounds.
Proof. unfold half_rounds. apply Forall_app. split; [apply lean_swap, lean_ext|]. leans. Qed.
Lemma lean_plain : Forall (lean 28) plain_rounds.
Proof. unfold plain_rounds. apply Forall_app. split; [|apply lean_swap]; apply lean_half. Qed.
Lemma lean_many k : Forall (lean 28) (many_rounds k).
Proof. unfold many_rounds. constructor; [unfold lean; cbn; auto|apply lean_base]. Qed.
Lemma lean_mfpake k : Forall (lean 28) (mfpake_rounds k).
Proof. unfold mfpake_rounds. apply Forall_app. split; [apply lean_many|apply lean_plain]. Qed.
Lemma lean_v3 k : Forall (lean 28) (v3_rounds k).
Proof.
  unfold v3_rounds. apply Forall_app; split; [leans|]. apply Forall_app; split; [apply lean_swap, lean_ext|]. apply Forall_app; split; [leans|].
  apply Forall_app; split; [apply lean_many|]. apply Forall_app; split; [apply lean_swap, lean_ext|]. apply Forall_app; split; [leans|].
  apply Forall_app; split; [apply lean_ext|]. leans.
Qed.
Lemma lean_roomy h b R : 28 + h <= b -> Forall (lean 28) R -> roomy h b R.
Proof.
  intros Hb H. eapply Forall_impl; [|exact H]. intros [xs ys] [E|[E|(n & E & F & L)]]; cbn [fst snd] in *; auto.
  right; right; left. exists [n]. split; [exact E|]. cbn. lia.
Qed.
Lemma lean_channel h b R : 60 + 2 * h <= b -> Forall (lean 28) R -> roomy h b (channel_rounds R).
Proof.
  intros Hb H. unfold channel_rounds. apply Forall_app. split; [repeat first [apply Forall_nil|apply Forall_cons]; cbn; auto|]. unfold wdouble. apply Forall_map.
  eapply Forall_impl; [|exact H]. intros [xs ys] [E|[E|(n & E & F & L)]]; cbn [fst snd] in *.
  - left. now rewrite E.
  - right; left. now rewrite E.
  - right; right; left. rewrite E. exists [n; 32]. split; [reflexivity|]. cbn. lia.
Qed.
Open Scope N_scope.

(** *** C120 *)
(** C120: 60 bytes of room per direction, and twice the framing of the transport, are enough for main.rs, whatever the two
    sides are given and although some of its messages are far longer. *)
Theorem C120_plain : forall h b hmac xpub xdh sha fill gen G p a cores sec r rs r' rs' g pw t
    hmac' xpub' xdh' sha' fill' gen' G' p' a' cores' sec' s ss s' ss' g' pw' t',
  (60 + 2 * h <= b)%nat -> (forall k m, length (hmac k m) = 32%nat) -> (forall k m, length (hmac' k m) = 32%nat) ->
  coins_ok r -> coins_ok r' -> coins_ok s -> coins_ok s' ->
  ends_within h b (main_server hmac xpub xdh sha p sec g (sender_with sha fill p a cores r (co_receiver sha gen G p rs))
     (receiver_with sha fill p a cores r' (co_sender sha gen G p rs')) pw t)
   (main_client hmac' xpub' xdh' sha' p' sec' g' (sender_with sha' fill' p' a' cores' s (co_receiver sha' gen' G' p' ss))
     (receiver_with sha' fill' p' a' cores' s' (co_sender sha' gen' G' p' ss')) pw' t')
   (2 * frames (channel_dialogue plain_dialogue)).
Proof.
  intros. eapply room_ends; [now apply wf_main_server|now apply wf_main_client|now apply C109_plain_ends|]. apply lean_channel; [assumption|apply lean_plain].
Qed.
Print Assumptions C120_plain.
(** C120: and for the one-of-many programs. *)
Theorem C120_many : forall h b hmac xpub xdh sha fill gen G p a cores sec keys rm r rs r' rs' mask g file l t
    hmac' xpub' xdh' sha' fill' gen' G' p' a' cores' sec' sm s ss s' ss' g' pw i n t' d,
  (60 + 2 * h <= b)%nat -> (forall k m, length (hmac k m) = 32%nat) -> (forall k m, length (hmac' k m) = 32%nat) ->
  coins_ok r -> coins_ok r' -> coins_ok s -> coins_ok s' -> (forall d, length (keys d) = d) ->
  N.of_nat (length file / l) < 2 ^ 64 -> bits_for (N.of_nat (length file / l)) d -> n <> 0 -> n < 2 ^ 32 -> bits_for n d ->
  ends_within h b (many_server_main hmac xpub xdh sha p sec mask g (fun d ms => many_sender sha fill p cores (keys d) (co_sender sha gen G p rm) ms d)
     (sender_with sha fill p a cores r (co_receiver sha gen G p rs)) (receiver_with sha fill p a cores r' (co_sender sha gen G p rs')) file l t)
   (many_client_main hmac' xpub' xdh' sha' p' sec' g' (fun d i => many_receiver sha' fill' p' (co_receiver sha' gen' G' p' sm) i d)
     (sender_with sha' fill' p' a' cores' s (co_receiver sha' gen' G' p' ss)) (receiver_with sha' fill' p' a' cores' s' (co_sender sha' gen' G' p' ss')) pw i n t')
   (2 * frames (channel_dialogue (mfpake_dialogue d))).
Proof.
  intros. eapply (room_ends _ _ (channel_rounds (mfpake_rounds d))); [now apply wf_many_server_main|now apply wf_many_client_main|now apply C109_many_ends|]. apply lean_channel; [assumption|apply lean_mfpake].
Qed.
Print Assumptions C120_many.
(** C120: the third version on a raw channel makes do with 28 bytes. *)
Theorem C120_v3 : forall h b sha fill gen G p a cores keys rm r1 rs1 r2 rs2 r3 rs3 mask g pws t
    sha' fill' gen' G' p' a' cores' sm s1 ss1 s2 ss2 s3 ss3 g' pw n i t' d,
  (28 + h <= b)%nat ->
  coins_ok r1 -> coins_ok r2 -> coins_ok r3 -> coins_ok s1 -> coins_ok s2 -> coins_ok s3 -> (forall d, length (keys d) = d) ->
  N.of_nat (length pws) < 2 ^ 64 -> bits_for (N.of_nat (length pws)) d -> n <> 0 -> n < 2 ^ 32 -> bits_for n d ->
  ends_within h b (server_v3 sha p mask g (sender_with sha fill p a cores r1 (co_receiver sha gen G p rs1))
     (fun d ms => many_sender sha fill p cores (keys d) (co_sender sha gen G p rm) ms d) (sender_with sha fill p a cores r2 (co_receiver sha gen G p rs2))
     (receiver_with sha fill p a cores r3 (co_sender sha gen G p rs3)) pws t)
   (client_v3 sha' p' g' (receiver_with sha' fill' p' a' cores' s1 (co_sender sha' gen' G' p' ss1))
     (fun d i => many_receiver sha' fill' p' (co_receiver sha' gen' G' p' sm) i d) (receiver_with sha' fill' p' a' cores' s2 (co_sender sha' gen' G' p' ss2))
     (sender_with sha' fill' p' a' cores' s3 (co_receiver sha' gen' G' p' ss3)) pw n i t')
   (2 * frames (v3_dialogue d)).
Proof.
  intros. eapply (room_ends _ _ (v3_rounds d)); [now apply wf_v3_server|now apply wf_v3_client|now apply C109_v3_ends|]. apply lean_roomy; [assumption|apply lean_v3].
Qed.
Print Assumptions C120_v3.
(** C120: what two programs end with does not depend on the room. *)
Theorem C120_same_end : forall A B h b n (p : proc A) (q : proc B) oa ob k c,
  ends_within h b p q n -> runs p q oa ob -> narrow_steps h b k (initial p q) c -> (forall c', ~ narrow_step h b c c') -> c = final oa ob.
Proof.
  intros A B h b n p q oa ob k c He Hr St Stuck. destruct (He k c St) as [_ D]. destruct (D Stuck) as (xa & xb & E1 & E2).
  destruct (schedule_independent p q oa ob Hr) as (m & I). apply (I k c (narrow_are_steps _ _ _ _ _ St)).
  intros c' S. destruct c as [l r x y]. cbn in E1, E2. subst l r. inversion S as [? ? E|? ? E|? ? E|? ? E]; subst; try discriminate; inversion E.
Qed.
Print Assumptions C120_same_end.

(** ** Less room *)
Definition starts {A} (m : bytes) (p : proc A) : Prop := exists k, p = Snd m k.
Lemma starts_bind {A B} m (p : proc A) (f : A -> proc B) : starts m p -> starts m (pbind p f).
Proof. intros (k & ->). eexists. reflexivity. Qed.
Lemma starts_lift {A B} m (o : outcome A) a (f : A -> proc B) : o = Ok a -> starts m (f a) -> starts m (pbind (lift o) f).
Proof. intros -> H. exact H. Qed.
Lemma starts_validate n s : starts (enc_props (mkProps n s)) (validate_properties (mkProps n s)).
Proof. eexists. reflexivity. Qed.
Lemma clog_start {A B} h b m m' (p : proc A) (q : proc B) : starts m p -> starts m' q -> (b < h + length m)%nat -> (b < h + length m')%nat -> clogs h b p q.
Proof.
  intros (l & ->) (r & ->) H H'. exists 0%nat, m, l, m', r, [], []. split; [constructor|]. intros c' S.
  inversion S as [? ? ? ? ? C|? ? ? ? ? C| | |? ? C|? ? C]; subst; try (now inversion C); destruct C as [C|[_ (k & C)]]; try discriminate; cbn in C; lia.
Qed.
(** C120 is false for less room: the base OT needs 28 bytes of it, since both sides send their properties first. *)
Theorem C120_base_refuted : forall h b sha gen G p rs msgs sha' gen' G' p' rs' cs, (b < 28 + h)%nat ->
  clogs h b (co_sender sha gen G p rs msgs) (co_receiver sha' gen' G' p' rs' cs).
Proof.
  intros. eapply clog_start; [apply starts_bind, starts_validate|apply starts_bind, starts_validate|..]; rewrite props_size; cbn; lia.
Qed.
Print Assumptions C120_base_refuted.

(** C120: and main.rs needs 55 bytes of it, a message of 23 bytes and its code, or no session gets beyond the first
    properties. *)
Lemma garbler_starts sha fill p a cores r bootR g pw t :
  hash32 sha -> garbling_ok g -> workable_length (length pw) -> t <= 65534 ->
  starts (enc_props (mkProps (length pw * 8) apricot_name)) (garbler sha p g (sender_with sha fill p a cores r bootR) pw t).
Proof.
  intros Hs Hg Hw Ht. destruct (workable _ Hw) as (H1 & Hsup & H2 & Hlt & Hun & Hnw).
  destruct (circL_half sha p g (length pw * 8) (sum_modulus (length pw)) t Hs Hg Ht H1 Hsup Hnw) as (gc & ek & dk & zs & l0 & l1 & H).
  pose proof (hk_length _ _ _ _ _ _ _ _ _ _ _ H) as Lz. cbn [circL num_inputs] in Lz.
  unfold garbler. rewrite !bits_length8.
  eapply starts_lift; [exact (build_circuit_long p (length pw * 8) t Hlt Ht)|].
  change (N.of_nat (length pw * 8) mod 65536 + 1) with (sum_modulus (length pw)).
  eapply starts_lift; [exact (garble_zipped_ok _ _ _ _ _ _ _ _ _ _ H)|]. cbv beta iota.
  eapply starts_lift; [unfold slice_to; rewrite (proj2 (Nat.leb_le _ _)) by lia; reflexivity|].
  eapply starts_lift; [unfold slice_from; rewrite (proj2 (Nat.leb_le _ _)) by lia; reflexivity|].
  apply starts_bind.
  assert (Lt : length (label_messages (skipn (length pw * 8) zs)) = (length pw * 8)%nat) by (unfold label_messages; rewrite map_length, skipn_length; lia).
  unfold sender_with, ap_sender. rewrite Lt, Nat.mod_mul by lia. eapply starts_lift; [apply debug_assert_true|]. apply starts_bind, starts_validate.
Qed.
Lemma evaluator_starts sha fill p a cores r bootS pw :
  starts (enc_props (mkProps (length pw * 8) apricot_name)) (evaluator sha p (receiver_with sha fill p a cores r bootS) pw).
Proof.
  unfold evaluator. apply starts_bind. unfold receiver_with, ap_receiver. rewrite bits_length8, Nat.mod_mul by lia.
  eapply starts_lift; [apply debug_assert_true|]. apply starts_bind, starts_validate.
Qed.
Lemma narrow_trans {A B} h b n m (c c1 c2 : cfg A B) : narrow_steps h b n c c1 -> narrow_steps h b m c1 c2 -> exists k, narrow_steps h b k c c2.
Proof. intros H. revert m c2. induction H as [c|n c d e S _ IH]; intros m c2 H2; [eauto|]. destruct (IH _ _ H2) as (k & K). exists (Datatypes.S k). econstructor; eassumption. Qed.
Lemma clog_auth {A B} h b hmac k k' m m' (p : proc A) (q : proc B) : (forall k m, length (hmac k m) = 32%nat) ->
  starts m p -> starts m' q -> length m' = length m -> (b < 32 + 2 * h + length m)%nat ->
  clogs h b (over_auth hmac k k p) (over_auth hmac k' k' q).
Proof.
  intros Hc (l & ->) (r & ->) E Hb. cbn [over_auth]. destruct (le_lt_dec (h + length m) b) as [Hf|Hf].
  - eexists 2%nat, _, _, _, _, [m], [m']. split.
    + eapply narrow_cons; [apply narrow_send_left; left; cbn; lia|]. eapply narrow_cons; [apply narrow_send_right; left; cbn; lia|]. apply narrow_refl.
    + intros c' S. inversion S as [? ? ? ? ? C|? ? ? ? ? C| | |? ? C|? ? C]; subst; try (now inversion C);
        destruct C as [C|[C _]]; try discriminate; cbn in C; rewrite Hc in C; lia.
  - eapply clog_start; [eexists; reflexivity|eexists; reflexivity|lia|lia].
Qed.
Theorem C120_plain_refuted : forall h b hmac xpub xdh sha sha' fill fill' p p' a a' cores cores' sec sec' r r' s s' bootR bootS bootR' bootS' g g' pw pw' t t',
  (b < 55 + 2 * h)%nat -> (forall k m, length (hmac k m) = 32%nat) -> dh_ok xpub xdh -> hash32 sha -> garbling_ok g ->
  workable_length (length pw) -> t <= 65534 ->
  clogs h b (main_server hmac xpub xdh sha p sec g (sender_with sha fill p a cores r bootR) (receiver_with sha fill p a cores r' bootS) pw t)
            (main_client hmac xpub xdh sha' p' sec' g' (sender_with sha' fill' p' a' cores' s bootR') (receiver_with sha' fill' p' a' cores' s' bootS') pw' t').
Proof.
  intros h b hmac xpub xdh sha sha' fill fill' p p' a a' cores cores' sec sec' r r' s s' bootR bootS bootR' bootS' g g' pw pw' t t' Hb Hc [L E] Hs Hg Hw Ht.
  assert (X : forall x, x_public (xpub x) = Ok (xpub x)) by (intros x; unfold x_public; rewrite L; reflexivity).
  unfold main_server, main_client, serve, connect, auth_server, auth_client, fpake_server, fpake_client. cbn [send recv_unwrap ret pbind].
  match goal with |- clogs _ _ (Snd _ (Rcv ?l)) (Rcv ?r) => set (left := l); set (right := r) end.
  pose proof (clog_auth h b hmac (xdh sec (xpub sec')) (xdh sec' (xpub sec)) _ _ _ _ Hc
    (starts_bind _ _ (fun k => let! k2 := evaluator sha p (receiver_with sha fill p a cores r' bootS) pw in ret (combine_keys k k2)) (garbler_starts sha fill p a cores r bootR g pw t Hs Hg Hw Ht))
    (starts_bind _ _ (fun k => let! k1 := garbler sha' p' g' (sender_with sha' fill' p' a' cores' s bootR') pw' t' in ret (combine_keys k1 k)) (evaluator_starts sha' fill' p' a' cores' s' bootS' pw'))) as H.
  rewrite !props_size in H. specialize (H eq_refl ltac:(cbn; lia)). destruct H as (n & m & l & m' & q & x & y & St & Stuck).
  match type of St with narrow_steps _ _ _ ?c _ => assert (H4 : narrow_steps h b 4 (initial (Snd (xpub sec) (Rcv left)) (Rcv right)) c) end;
    [|destruct (narrow_trans _ _ _ _ _ _ _ H4 St) as (k & K); exists k, m, l, m', q, x, y; auto].
  eapply narrow_cons; [apply narrow_send_left; right; eauto|]. eapply narrow_cons; [apply narrow_recv_right|].
  unfold right at 1. cbn [app ret pbind]. rewrite X. cbn [lift ret pbind].
  eapply narrow_cons; [apply narrow_send_right; right; eauto|]. eapply narrow_cons; [apply narrow_recv_left|].
  unfold left. cbn [app ret pbind]. rewrite X. cbn [lift ret pbind]. apply narrow_refl.
Qed.
Print Assumptions C120_plain_refuted.

(** ** Examples *)
Definition long_mac (k m : bytes) : bytes := toy (k ++ m).
Lemma long_mac_length : forall k m, length (long_mac k m) = 32%nat.
Proof. intros. apply toy_hash32. Qed.
Notation small_receiver p := (receiver_with toy toy_gen p X86 4 toy_coins (co_sender toy toy_gen toy_curve p (fun _ => 1))).
(** Room for 76 bytes with a frame of 8 bytes of framing for each message is enough, and 70 bytes is not. *)
Example room_example :
  ends_within 8 76 (main_server long_mac toy_pub toy_dh toy Debug [7] demo_garbling (demo_sender Debug) (small_receiver Debug) [97; 98; 99] 1)
                   (main_client long_mac toy_pub toy_dh toy Release [9] demo_garbling (demo_sender Release) (small_receiver Release) [97; 98; 99; 100] 1) 2172 /\
  clogs 8 70 (main_server long_mac toy_pub toy_dh toy Debug [7] demo_garbling (demo_sender Debug) (small_receiver Debug) [97; 98; 99] 1)
             (main_client long_mac toy_pub toy_dh toy Release [9] demo_garbling (demo_sender Release) (small_receiver Release) [97; 98; 99; 100] 1) /\
  clogs 8 35 (co_sender toy toy_gen toy_curve Debug (fun _ => 3) []) (co_receiver toy toy_gen toy_curve Release (fun _ => 4) []).
Proof.
  split; [|split].
  - replace 2172%nat with (2 * frames (channel_dialogue plain_dialogue))%nat by (vm_compute; reflexivity).
    apply C120_plain; try exact toy_coins_ok; try exact long_mac_length. lia.
  - apply C120_plain_refuted; [lia|exact long_mac_length|exact toy_dh_ok|exact toy_hash32|exact demo_garbling_ok| |discriminate].
    apply good_workable. unfold good_length. cbn [length]. lia.
  - apply C120_base_refuted. lia.
Qed.
