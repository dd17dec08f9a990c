(** No undefined behaviour in the programs as a whole (C105). *)
From Coq Require Import List NArith Bool Arith Lia.
From Verif Require Import Base MUtil MWires MCircuit MGarble MPar MBincode MProc MOt MApricot MMany MFpake MChannel MMain.
From Verif Require Import SpecOt SpecApricot SpecMany SpecMfpake SpecHostile SpecBounds SpecEnds SpecWhole.
From Verif Require Import PBase PPar PProc PEnds PHang PHangOt PUtil PHostile PBounds PBounds2.
Import ListNotations.
Open Scope N_scope.

(** ** Frames at other positions *)
Lemma holds_cond {A} (C C' : nat -> bytes -> Prop) (q : proc A) Q : (forall i m, C' i m -> C i m) -> forall i, holds C i q Q -> holds C' i q Q.
Proof.
  intros H. induction q as [o|m k IH|k IH]; intros i Hq; cbn in *; auto.
  destruct Hq as [H1 H2]. split; auto.
Qed.
Lemma holds_shift {A} (C C' : nat -> bytes -> Prop) (q : proc A) Q k : (forall j m, C' (k + j)%nat m -> C j m) ->
  forall i, holds C i q Q -> holds C' (k + i)%nat q (fun j a => exists i', j = (k + i')%nat /\ Q i' a).
Proof.
  intros H. induction q as [o|m f IH|f IH]; intros i Hq; cbn in *; auto.
  - eapply keeps_weak; [exact Hq|]. intros a Ha. exists i. auto.
  - destruct Hq as [H1 H2]. split; [intros m Hm|now apply IH]. rewrite plus_n_Sm. apply IH. auto.
Qed.

(** ** Channels *)
Definition auth_cond (b : nat) (C : nat -> bytes -> Prop) (r : nat) (m : bytes) : Prop := forall j, r = (b + 2 * j)%nat -> C j m.
Lemma holds_over_auth {A} hmac ks kr b (C : nat -> bytes -> Prop) (q : proc A) Q : hangup q -> forall i, holds C i q Q ->
  holds (auth_cond b C) (b + 2 * i)%nat (over_auth hmac ks kr q) (fun _ _ => True).
Proof.
  induction 1 as [o|m k H IH|k o E Bo H IH]; intros i Hq; cbn [over_auth holds] in *.
  - eapply keeps_weak; [exact Hq|]. intros; exact I.
  - now apply IH.
  - assert (N : forall j, holds (auth_cond b C) j (over_auth hmac ks kr (k None)) (fun _ _ => True)).
    { intros j. rewrite E. cbn. destruct o; cbn; auto. }
    split; [|apply N]. intros m Cm. split; [|apply N]. intros code _.
    destruct (bytes_eqb code (hmac kr m)); [|apply N].
    replace (S (S (b + 2 * i))) with (b + 2 * S i)%nat by lia. apply IH. apply Hq. now apply Cm.
Qed.
Lemma data_nth l : forall j m, nth_error l (2 * j) = Some m -> nth_error (data_frames l) j = Some m.
Proof.
  assert (X : forall n l j m, (length l <= n)%nat -> nth_error l (2 * j) = Some m -> nth_error (data_frames l) j = Some m).
  { clear l. induction n as [|n IH]; intros l j m Ln Hj.
    - destruct l; [destruct j; discriminate|cbn in Ln; lia].
    - destruct l as [|d [|c l]]; [destruct j; discriminate| |].
      + destruct j; [exact Hj|]. replace (2 * S j)%nat with (S (S (2 * j))) in Hj by lia. discriminate.
      + destruct j; [exact Hj|]. replace (2 * S j)%nat with (S (S (2 * j))) in Hj by lia. cbn [nth_error data_frames] in *.
        apply IH; [cbn in Ln; lia|exact Hj]. }
  intros j m. now apply (X (length l)).
Qed.
Lemma keeps_public m : keeps (fun _ => True) (x_public m).
Proof. unfold x_public. destruct (Nat.eqb _ _); exact I. Qed.
Lemma messages_cond (C : nat -> bytes -> Prop) ins : (forall j m, nth_error (messages_of ins) j = Some m -> C j m) ->
  forall j m, nth_error ins j = Some m -> auth_cond 1 C (0 + j) m.
Proof.
  intros H j m Hj i Ei. apply H. unfold messages_of. apply data_nth. cbn in Ei. subst j. destruct ins; [discriminate|]. cbn [tl]. exact Hj.
Qed.
Lemma connect_bounds {A} hmac xpub xdh sec (C : nat -> bytes -> Prop) (q : proc A) Q ins : hangup q -> holds C 0 q Q ->
  (forall j m, nth_error (messages_of ins) j = Some m -> C j m) ->
  fst (feed (connect hmac xpub xdh sec q) ins) <> UB.
Proof.
  intros Hh Hq Hi. apply (holds_feed (auth_cond 1 C) _ (fun _ _ => True) 0); [|now apply messages_cond].
  unfold connect, auth_client. eapply (holds_bind _ _ _ (fun j _ => j = 1%nat)).
  - eapply holds_bind; [apply holds_recv_unwrap|]. intros ? m [-> _].
    eapply holds_bind; [apply holds_lift, keeps_public|]. intros ? th [-> _].
    eapply holds_bind; [apply holds_send|]. intros ? _ ->. reflexivity.
  - intros ? key ->. change 1%nat with (1 + 2 * 0)%nat. eapply holds_over_auth; [exact Hh|exact Hq].
Qed.
Lemma serve_bounds {A} hmac xpub xdh sec (C : nat -> bytes -> Prop) (q : proc A) Q ins : hangup q -> holds C 0 q Q ->
  (forall j m, nth_error (messages_of ins) j = Some m -> C j m) ->
  fst (feed (serve hmac xpub xdh sec q) ins) <> UB.
Proof.
  intros Hh Hq Hi. apply (holds_feed (auth_cond 1 C) _ (fun _ _ => True) 0); [|now apply messages_cond].
  unfold serve, auth_server. eapply (holds_bind _ _ _ (fun j _ => j = 1%nat)).
  - eapply holds_bind; [apply holds_send|]. intros ? _ ->. eapply holds_bind; [apply holds_recv_unwrap|]. intros ? m [-> _].
    eapply holds_bind; [apply holds_lift, keeps_public|]. intros ? th [-> _]. reflexivity.
  - intros ? key ->. change 1%nat with (1 + 2 * 0)%nat. eapply holds_over_auth; [exact Hh|exact Hq].
Qed.

(** ** Garbling *)
Ltac one := match goal with |- safe _ (obind _ _) => step end.
Lemma safe_domain_new m : safe any (domain_new m).
Proof. unfold domain_new. repeat match goal with |- context [if ?b then _ else _] => destruct b end; exact I. Qed.
Lemma safe_wire_new m r : safe any (wire_new m r).
Proof. unfold wire_new. step; [apply safe_domain_new|exact I]. Qed.
Lemma safe_wire_delta m r : safe any (wire_delta m r).
Proof.
  unfold wire_delta. step; [apply safe_wire_new|]. match goal with |- context [wdom ?w] => destruct (wdom w) end;
    repeat (one; [first [eapply safe_any, safe_idx|eapply safe_any, safe_set_idx]|]); exact I.
Qed.
Lemma safe_wneg p a : safe any (wneg p a).
Proof.
  unfold wneg. destruct (wdom a); first [apply safe_wmap|apply safe_wmap16]; intros; try exact I; (step; [apply safe_usub|apply safe_urem]).
Qed.
Lemma safe_ensure rd dl m : safe any (ensure_delta rd dl m).
Proof. unfold ensure_delta. destruct (alookup N.eqb m dl); [exact I|]. step; [apply safe_wire_delta|exact I]. Qed.
Lemma safe_deltas rd gs : safe any (garble_deltas rd gs).
Proof.
  unfold garble_deltas. apply safe_foldM. intros dl g. step; [apply safe_ensure|]. destruct (g_kind g) as [|?|[?|?]|]; try exact I; apply safe_ensure.
Qed.
Lemma safe_dlookup k dl : safe any (dlookup k dl).
Proof. unfold dlookup, unwrap. destruct (alookup N.eqb k dl); exact I. Qed.
Lemma safe_project k x : safe any (project k x).
Proof. destruct k; cbn; [apply safe_urem|exact I]. Qed.
Ltac sg := first [exact I|apply safe_wmul|apply safe_wadd|apply safe_wsub|apply safe_wneg|apply safe_hash_wire|apply safe_hash_half|apply safe_dlookup|apply safe_usub|apply safe_uadd|apply safe_urem
  |apply safe_project|eapply safe_any, safe_idx|eapply safe_any, safe_set_idx|apply safe_wsum|exact I].
Lemma safe_proj sha p dl ws g k : safe any (garble_proj sha p dl ws g k).
Proof.
  unfold garble_proj. do 12 (one; [sg|]). step; [|exact I]. apply safe_foldM. intros tbl xn. cbv zeta. repeat (one; [sg|]). sg.
Qed.
Lemma safe_and sha p dl ws g j0 j1 : safe any (garble_and sha p dl ws g j0 j1).
Proof.
  unfold garble_and. do 5 (one; [sg|]). cbv zeta.
  repeat (one; [try (match goal with |- context [if ?b then _ else _] => destruct b end); repeat (one; [sg|]); sg|]). exact I.
Qed.
Lemma safe_label sha p dl s g : safe any (garble_label sha p dl s g).
Proof.
  unfold garble_label. destruct (g_kind g).
  - step; [apply (safe_mapM any); intros; eapply safe_any, safe_idx|]. step; [sg|exact I].
  - repeat (one; [sg|]). exact I.
  - apply (safe_bind any); [apply safe_proj|]. intros [w t] _. exact I.
  - apply (safe_bind any); [apply safe_and|]. intros [w t] _. exact I.
Qed.
Lemma safe_dec sha p dl ws g : safe any (garble_dec sha p dl ws g).
Proof. unfold garble_dec. cbv zeta. apply (safe_mapM any). intros x _. repeat (one; [sg|]). exact I. Qed.
Lemma safe_garble_gate sha p dl start s g : safe any (garble_gate sha p dl start s g).
Proof. unfold garble_gate. step; [apply safe_label|]. destruct (Nat.leb _ _); [|exact I]. step; [apply safe_dec|exact I]. Qed.
Lemma keeps_garble_run sha p rd ri c : keeps (fun r => length (ek_wires (fst (fst r))) = num_inputs c) (garble_run sha p rd ri c).
Proof.
  unfold garble_run. apply (keeps_bind any); [apply safe_deltas|]. intros dl _.
  apply (keeps_bind any); [apply (safe_mapM any); intros; apply safe_wire_new|]. intros ws _.
  apply (keeps_bind (fun ins => length ins = num_inputs c)).
  { destruct (Nat.leb_spec (num_inputs c) (length ws)); cbn; [rewrite firstn_length; lia|exact I]. }
  intros ins Li. apply (keeps_bind any); [destruct (Nat.leb _ _); exact I|]. intros start _.
  apply (keeps_bind any); [apply safe_foldM; intros; apply safe_garble_gate|]. intros s _. exact Li.
Qed.
Lemma keeps_zipped k : keeps (fun z => length z = length (bk_zeros k)) (zipped k).
Proof.
  unfold zipped. eapply keeps_weak; [apply (keeps_mapM _ (fun _ _ => True))|].
  - intros i _. eapply keeps_bind; [apply keeps_idx|]. intros z _. eapply keeps_bind; [apply keeps_idx|]. intros o _. exact I.
  - intros z F. apply Forall2_length in F. now rewrite seq_length in F.
Qed.
Lemma keeps_garble_zipped sha p g c : keeps (fun r => length (snd (fst r)) = num_inputs c) (garble_zipped sha p g c).
Proof.
  unfold garble_zipped, garble. apply (keeps_bind (fun r => length (ek_wires (snd (fst r))) = num_inputs c)).
  - eapply keeps_bind; [apply keeps_garble_run|]. intros [[ek st] s] L. exact L.
  - intros [[gc e] d] L. cbn in L. apply (keeps_bind (fun bk => length (bk_zeros bk) = num_inputs c)).
    + unfold binary_of_ek. eapply keeps_bind; [apply keeps_assert_|]. intros _ _.
      apply (keeps_bind any); [apply safe_dlookup|]. intros dl _.
      apply (keeps_bind any); [apply (safe_mapM any); intros; apply safe_wadd|]. intros ones _. exact L.
    + intros bk Lb. eapply keeps_bind; [apply keeps_zipped|]. intros z Lz. cbn. congruence.
Qed.
Lemma keeps_build p n t : keeps (fun c => num_inputs c = (2 * n)%nat) (build_circuit p n t).
Proof.
  unfold build_circuit. apply (keeps_bind any); [apply safe_uadd|]. intros cd _. cbv zeta.
  apply (keeps_bind any); [apply safe_uadd|]. intros t1 _. cbn. lia.
Qed.
Lemma keeps_bk_encode k bits : keeps any (bk_encode k bits).
Proof.
  unfold bk_encode. eapply keeps_bind; [apply keeps_assert_|]. intros _ _. apply (safe_mapM any).
  intros [i b] _. destruct b; eapply safe_any, safe_idx.
Qed.

(** The offer, the coin flip, the base OT, u, x_sum and t_sum: 136 frames. *)
Lemma ap_cond_le n n' i m : (n' <= n)%nat -> ap_cond n i m -> ap_cond n' i m.
Proof.
  intros L (H1 & H2 & H3). split; [exact H1|]. split; [|exact H3]. intros E. etransitivity; [|apply H2, E].
  apply Nat.mul_le_mono_l. apply Nat.div_le_mono; lia.
Qed.
Lemma holds_garbler C sha p g ot pw t k :
  (forall ms, length ms = (length pw * 8)%nat -> holds C 0 (ot ms) (fun j _ => j = k)) ->
  holds C 0 (garbler sha p g ot pw t) (fun j _ => j = k).
Proof.
  intros Hot. unfold garbler. cbv zeta. rewrite bits_length.
  eapply holds_bind; [apply holds_lift, keeps_build|]. intros ? c [-> Lc].
  eapply holds_bind; [apply holds_lift, keeps_garble_zipped|]. intros ? [[gc e] d] [-> Le]. cbn [fst snd] in Le. rewrite Lc in Le.
  eapply holds_bind; [apply holds_lift|].
  { instantiate (1 := any). unfold slice_to. destruct (Nat.leb _ _); exact I. }
  intros ? own [-> _].
  eapply holds_bind; [apply holds_lift|].
  { instantiate (1 := fun th => length th = (length pw * 8)%nat). unfold slice_from. destruct (Nat.leb _ _); cbn; [rewrite skipn_length; lia|exact I]. }
  intros ? th [-> Lt].
  eapply holds_bind; [apply Hot; unfold label_messages; now rewrite map_length|]. intros ? _ ->.
  eapply holds_bind; [apply holds_send|]. intros ? _ ->.
  eapply holds_bind; [apply holds_lift, keeps_bk_encode|]. intros ? enc [-> _].
  eapply holds_bind; [apply holds_send|]. intros ? _ ->.
  eapply holds_weak; [apply holds_lift; instantiate (1 := any)|cbn beta; tauto].
  unfold garbler_half_key. eapply keeps_bind; [apply keeps_idx|]. intros hs _. eapply safe_any, safe_idx.
Qed.
