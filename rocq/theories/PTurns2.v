(** The programs of the crate follow their dialogues (C109). *)
From Coq Require Import List NArith Bool Arith Lia.
From Verif Require Import Base MUtil MWires MCircuit MGarble MBitMatrix MPoly MPar MBincode MProc MOt MApricot MMany MFpake MChannel MMain.
From Verif Require Import SpecApricot SpecTurns PBase PUtil PProc PHang PBounds PSizes PTurns.
Import ListNotations.
Open Scope N_scope.

Notation left_over M := (fun N _ => N = M).
Ltac fol := repeat first
  [ apply fol_any
  | eapply fol_bind; [first [apply fol_any|apply fol_send|apply fol_recv]|]; intros ? ? ->
  | match goal with |- follows _ (pbind (lift _) _) _ => fail 1 end ].

(** ** Properties and coin flips *)
Lemma fol_validate L a : follows (Out :: In :: L) (validate_properties a) (left_over L).
Proof.
  unfold validate_properties. fol. destruct (props_eqb _ _); cbn; auto.
Qed.
Lemma fol_coin_sender L sha n v : follows (Out :: In :: Out :: L) (coinflip_sender sha n v) (left_over L).
Proof.
  unfold coinflip_sender. fol. destruct (negb _); [exact I|]. fol.
Qed.
Lemma fol_coin_receiver L sha n v : follows (In :: Out :: In :: L) (coinflip_receiver sha n v) (left_over L).
Proof.
  unfold coinflip_receiver. fol. destruct (negb _); [exact I|]. destruct (negb _); [exact I|]. reflexivity.
Qed.

(** ** Base OT *)
Lemma base_first k L : first_party (base_dialogue k) ++ L = Out :: In :: repeat Out k ++ repeat In k ++ Out :: L.
Proof. unfold base_dialogue, first_party. cbn [flat_map fst snd repeat app]. rewrite !app_nil_r, <- !app_assoc. reflexivity. Qed.
Lemma base_second k L : second_party (base_dialogue k) ++ L = Out :: In :: repeat In k ++ repeat Out k ++ In :: L.
Proof. unfold base_dialogue, second_party, first_party. cbn [swap map flat_map fst snd repeat app]. rewrite !app_nil_r, <- !app_assoc. reflexivity. Qed.
Lemma fol_co_sender sha gen G p rs msgs L : follows (first_party (base_dialogue (length msgs)) ++ L) (co_sender sha gen G p rs msgs) (left_over L).
Proof.
  rewrite base_first. unfold co_sender. cbv zeta. eapply fol_bind; [apply fol_validate|]. intros ? ? ->.
  eapply fol_bind.
  { replace (length msgs) with (length (map (fun i => compress G (smul G (rs i) (base G))) (seq 0 (length msgs)))) at 1 by now rewrite map_length, seq_length.
    apply fol_send_all. }
  intros ? ? ->. eapply fol_bind; [apply fol_recv_each|]. intros ? ? [-> _]. fol. apply fol_send.
Qed.
Lemma fol_co_receiver sha gen G p rs cs L : follows (second_party (base_dialogue (length cs)) ++ L) (co_receiver sha gen G p rs cs) (left_over L).
Proof.
  rewrite base_second. unfold co_receiver. cbv zeta. eapply fol_bind; [apply fol_validate|]. intros ? ? ->.
  eapply fol_bind; [apply fol_recv_each|]. intros ? theirs [-> Lt]. eapply fol_bind; [apply fol_any|]; intros ? ? ->.
  eapply fol_bind.
  { apply fol_lift, (oks_mapM (fun _ _ => True)). intros [i P] _. apply oks_any. }
  intros ? ans [-> La]. pose proof (Forall2_length _ _ _ La) as E. rewrite combine_length, seq_length, Nat.min_id, Lt in E.
  eapply fol_bind.
  { replace (length cs) with (length (map fst ans)) by (rewrite map_length; symmetry; exact E). apply fol_send_all. }
  intros ? ? ->. fol.
Qed.

(** ** The extension *)
Lemma ext_first L : first_party ext_dialogue ++ L = Out :: In :: Out :: In :: Out :: In :: first_party (base_dialogue 128) ++ Out :: Out :: Out :: In :: L.
Proof. unfold ext_dialogue. rewrite !first_app, <- !app_assoc. reflexivity. Qed.
Lemma ext_second L : second_party ext_dialogue ++ L = Out :: In :: In :: Out :: In :: Out :: second_party (base_dialogue 128) ++ In :: In :: In :: Out :: L.
Proof. unfold ext_dialogue. rewrite !second_app, <- !app_assoc. reflexivity. Qed.
Section Ext.
Variable sha : bytes -> bytes.
Variable fill : bytes -> nat -> bytes.
Variable p : profile.
Variable a : arch.
Variable cores : nat.
Lemma fol_ap_sender cu delta ot msgs L : length delta = 16%nat ->
  (forall cs M, follows (second_party (base_dialogue (length cs)) ++ M) (ot cs) (left_over M)) ->
  follows (second_party ext_dialogue ++ L) (ap_sender sha fill p a cores cu delta ot msgs) (left_over L).
Proof.
  intros Ld Hot. rewrite ext_second. unfold ap_sender. eapply fol_bind; [apply fol_any|]. intros ? ? ->.
  eapply fol_bind; [apply fol_validate|]. intros ? ? ->. cbv zeta. eapply fol_bind; [apply fol_coin_receiver|]. intros ? ? ->. fol.
  eapply fol_bind.
  { replace 128%nat with (length (u8_vec_to_bool_vec delta)) at 1 by (rewrite bits_length; lia). apply Hot. }
  intros ? ? ->. fol. apply fol_send.
Qed.
Lemma fol_ap_receiver cv bonus seed0 seed1 ot cs L : seeds_ok seed0 -> seeds_ok seed1 ->
  (forall ms M, follows (first_party (base_dialogue (length ms)) ++ M) (ot ms) (left_over M)) ->
  follows (first_party ext_dialogue ++ L) (ap_receiver sha fill p a cores cv bonus seed0 seed1 ot cs) (left_over L).
Proof.
  intros [L0 _] [L1 _] Hot. rewrite ext_first. unfold ap_receiver. eapply fol_bind; [apply fol_any|]. intros ? ? ->.
  eapply fol_bind; [apply fol_validate|]. intros ? ? ->. cbv zeta. eapply fol_bind; [apply fol_coin_sender|]. intros ? ? ->. fol.
  eapply fol_bind.
  { replace 128%nat with (length (combine seed0 seed1)) at 1 by (rewrite combine_length; lia). apply Hot. }
  intros ? ? ->. fol. match goal with |- context [let (_, _) := ?x in _] => destruct x end. fol.
Qed.
End Ext.

(** ** One of many *)
Lemma fol_first {A B} L (P : A -> Prop) (o : outcome A) (f : A -> proc B) Q : oks P o -> (forall a, P a -> follows L (f a) Q) -> follows L (pbind (lift o) f) Q.
Proof. destruct o; cbn; auto. Qed.
Lemma many_first k L : first_party (many_dialogue k) ++ L = Out :: first_party (base_dialogue k) ++ L.
Proof. reflexivity. Qed.
Lemma many_second k L : second_party (many_dialogue k) ++ L = In :: second_party (base_dialogue k) ++ L.
Proof. reflexivity. Qed.
Section Many.
Variable sha : bytes -> bytes.
Variable fill : bytes -> nat -> bytes.
Variable p : profile.
Lemma fol_many_sender cores keys ot ms d L :
  (forall ms M, follows (first_party (base_dialogue (length ms)) ++ M) (ot ms) (left_over M)) ->
  follows (first_party (many_dialogue (length keys)) ++ L) (many_sender sha fill p cores keys ot ms d) (left_over L).
Proof.
  intros Hot. rewrite many_first. unfold many_sender. fol. apply Hot.
Qed.
Lemma fol_many_receiver ot i d L :
  (forall cs M, follows (second_party (base_dialogue (length cs)) ++ M) (ot cs) (left_over M)) ->
  follows (second_party (many_dialogue d) ++ L) (many_receiver sha fill p ot i d) (left_over L).
Proof.
  intros Hot. rewrite many_second. unfold many_receiver.
  apply (fol_first _ (fun cs => length cs = d)).
  { unfold many_choices. match goal with |- oks _ (mapM ?f _) => pose proof (oks_mapM (fun _ _ => True) f (seq 0 d) (fun _ _ => oks_any _)) as H end.
    destruct (mapM _ _) as [cs| | |]; try exact I. cbn [oks] in *. now rewrite <- (Forall2_length _ _ _ H), seq_length. }
  intros cs Lc. fol. rewrite <- Lc. eapply fol_bind; [apply Hot|]. intros ? ? ->. fol.
Qed.
End Many.

(** ** The halves and the exchanges *)
Section Halves.
Variable sha : bytes -> bytes.
Variable p : profile.
Variable ots : list (bytes * bytes) -> proc unit.
Variable otr : list bool -> proc (list bytes).
Hypothesis Hs : forall ms M, follows (second_party ext_dialogue ++ M) (ots ms) (left_over M).
Hypothesis Hr : forall cs M, follows (first_party ext_dialogue ++ M) (otr cs) (left_over M).
Lemma half_first L : first_party half_dialogue ++ L = second_party ext_dialogue ++ Out :: Out :: L.
Proof. unfold half_dialogue. rewrite first_app, <- app_assoc. reflexivity. Qed.
Lemma half_second L : second_party half_dialogue ++ L = first_party ext_dialogue ++ In :: In :: L.
Proof. unfold half_dialogue. rewrite second_app, second_swap, <- app_assoc. reflexivity. Qed.
Lemma fol_garbler g pw t L : follows (first_party half_dialogue ++ L) (garbler sha p g ots pw t) (left_over L).
Proof.
  rewrite half_first. unfold garbler. cbv zeta. eapply fol_bind; [apply fol_any|]. intros ? ? ->.
  eapply fol_bind; [apply fol_any|]. intros ? [[gc e] d] ->. fol. eapply fol_bind; [apply Hs|]. intros ? ? ->. fol.
Qed.
Lemma fol_evaluator pw L : follows (second_party half_dialogue ++ L) (evaluator sha p otr pw) (left_over L).
Proof.
  rewrite half_second. unfold evaluator. eapply fol_bind; [apply Hr|]. intros ? ? ->. fol.
Qed.
Lemma plain_first L : first_party plain_dialogue ++ L = first_party half_dialogue ++ second_party half_dialogue ++ L.
Proof. unfold plain_dialogue. rewrite first_app, first_swap, <- app_assoc. reflexivity. Qed.
Lemma plain_second L : second_party plain_dialogue ++ L = second_party half_dialogue ++ first_party half_dialogue ++ L.
Proof. unfold plain_dialogue. rewrite second_app, second_swap, <- app_assoc. reflexivity. Qed.
Lemma fol_server g pw t L : follows (first_party plain_dialogue ++ L) (fpake_server sha p g ots otr pw t) (left_over L).
Proof.
  rewrite plain_first. unfold fpake_server. eapply fol_bind; [apply fol_garbler|]. intros ? ? ->.
  eapply fol_bind; [apply fol_evaluator|]. intros ? ? ->. reflexivity.
Qed.
Lemma fol_client g pw t L : follows (second_party plain_dialogue ++ L) (fpake_client sha p g ots otr pw t) (left_over L).
Proof.
  rewrite plain_second. unfold fpake_client. eapply fol_bind; [apply fol_evaluator|]. intros ? ? ->.
  eapply fol_bind; [apply fol_garbler|]. intros ? ? ->. reflexivity.
Qed.

Variable many_s : nat -> list bytes -> proc unit.
Variable many_r : nat -> N -> proc bytes.
Hypothesis Hms : forall d ms M, follows (first_party (many_dialogue d) ++ M) (many_s d ms) (left_over M).
Hypothesis Hmr : forall d i M, follows (second_party (many_dialogue d) ++ M) (many_r d i) (left_over M).
Lemma fol_mfpake_many mask g pws t d L : oks (fun x => N.to_nat x = d) (log2_ p 64 (N.of_nat (length pws))) ->
  follows (first_party (mfpake_dialogue d) ++ L) (mfpake_many sha p mask g many_s ots otr pws t) (left_over L).
Proof.
  intros Hd. unfold mfpake_dialogue. rewrite first_app, <- app_assoc, plain_first. unfold mfpake_many.
  eapply fol_bind; [apply fol_any|]. intros ? ? ->. eapply fol_bind; [apply fol_any|]. intros ? ? ->.
  apply (fol_first _ _ _ _ _ Hd). intros x ->. eapply fol_bind; [apply Hms|]. intros ? ? ->.
  eapply fol_bind; [apply fol_garbler|]. intros ? ? ->. eapply fol_bind; [apply fol_evaluator|]. intros ? ? ->. reflexivity.
Qed.
Lemma fol_mfpake_single g pw i n t d L : oks (fun x => N.to_nat x = d) (log2_ p 32 n) ->
  follows (second_party (mfpake_dialogue d) ++ L) (mfpake_single sha p g many_r ots otr pw i n t) (left_over L).
Proof.
  intros Hd. unfold mfpake_dialogue. rewrite second_app, <- app_assoc, plain_second. unfold mfpake_single.
  apply (fol_first _ _ _ _ _ Hd). intros x ->. eapply fol_bind; [apply Hmr|]. intros ? ? ->. eapply fol_bind; [apply fol_any|]. intros ? ? ->.
  eapply fol_bind; [apply fol_evaluator|]. intros ? ? ->. eapply fol_bind; [apply fol_garbler|]. intros ? ? ->. reflexivity.
Qed.

(** ** Third version *)
Variable ots2 ots3 : list (bytes * bytes) -> proc unit.
Variable otr2 otr3 : list bool -> proc (list bytes).
Hypothesis Hs2 : forall ms M, follows (second_party ext_dialogue ++ M) (ots2 ms) (left_over M).
Hypothesis Hs3 : forall ms M, follows (second_party ext_dialogue ++ M) (ots3 ms) (left_over M).
Hypothesis Hr2 : forall ms M, follows (first_party ext_dialogue ++ M) (otr2 ms) (left_over M).
Hypothesis Hr3 : forall ms M, follows (first_party ext_dialogue ++ M) (otr3 ms) (left_over M).
Lemma v3_first d L : first_party (v3_dialogue d) ++ L =
  Out :: second_party ext_dialogue ++ Out :: first_party (many_dialogue d) ++ second_party ext_dialogue ++ In :: In :: first_party ext_dialogue ++ In :: L.
Proof. unfold v3_dialogue. rewrite !first_app, !first_swap, <- !app_assoc. reflexivity. Qed.
Lemma v3_second d L : second_party (v3_dialogue d) ++ L =
  In :: first_party ext_dialogue ++ In :: second_party (many_dialogue d) ++ first_party ext_dialogue ++ Out :: Out :: second_party ext_dialogue ++ Out :: L.
Proof. unfold v3_dialogue. rewrite !second_app, !second_swap, <- !app_assoc. reflexivity. Qed.
Lemma fol_server_v3 mask g pws t d L : oks (fun x => N.to_nat x = d) (log2_ p 64 (N.of_nat (length pws))) ->
  follows (first_party (v3_dialogue d) ++ L) (server_v3 sha p mask g ots many_s ots2 otr3 pws t) (left_over L).
Proof.
  intros Hd. rewrite v3_first. unfold server_v3.
  eapply (fol_bind _ _ (left_over (In :: In :: first_party ext_dialogue ++ In :: L))).
  - unfold garbler_server_v3. cbv zeta. eapply fol_bind; [apply fol_any|]. intros ? ? ->. eapply fol_bind; [apply fol_any|]. intros ? ? ->.
    eapply fol_bind; [apply fol_any|]. intros ? [[gc z] dk] ->. eapply fol_bind; [apply fol_send|]. intros ? ? ->.
    eapply fol_bind; [apply fol_any|]. intros ? ? ->. eapply fol_bind; [apply Hs|]. intros ? ? ->.
    eapply fol_bind; [apply fol_any|]. intros ? ? ->. eapply fol_bind; [apply fol_send|]. intros ? ? ->.
    apply (fol_first _ _ _ _ _ Hd). intros x ->. eapply fol_bind; [apply fol_any|]. intros ? ? ->.
    eapply fol_bind; [apply Hms|]. intros ? ? ->. eapply fol_bind; [apply fol_any|]. intros ? ? ->.
    eapply fol_bind; [apply Hs2|]. intros ? ? ->. eapply fol_bind; [apply fol_any|]. intros ? ? ->. reflexivity.
  - intros ? [k1 m] ->. apply (fol_bind _ _ (left_over L)); [|intros ? ? ->; reflexivity].
    unfold evaluator_server_v3. fol. eapply fol_bind; [apply Hr3|]. intros ? ? ->. fol.
Qed.
Lemma fol_client_v3 g pw n i t d L : oks (fun x => N.to_nat x = d) (log2_ p 32 n) ->
  follows (second_party (v3_dialogue d) ++ L) (client_v3 sha p g otr many_r otr2 ots3 pw n i t) (left_over L).
Proof.
  intros Hd. rewrite v3_second. unfold client_v3.
  eapply (fol_bind _ _ (left_over (Out :: Out :: second_party ext_dialogue ++ Out :: L))).
  - unfold evaluator_client_v3. cbv zeta. eapply fol_bind; [apply fol_recv|]. intros ? ? ->. eapply fol_bind; [apply fol_any|]. intros ? ? ->.
    eapply fol_bind; [apply fol_any|]. intros ? ? ->. eapply fol_bind; [apply Hr|]. intros ? ? ->. eapply fol_bind; [apply fol_recv|]. intros ? ? ->.
    apply (fol_first _ _ _ _ _ Hd). intros x ->. eapply fol_bind; [apply Hmr|]. intros ? ? ->. eapply fol_bind; [apply fol_any|]. intros ? ? ->.
    eapply fol_bind; [apply Hr2|]. intros ? ? ->. fol.
  - intros ? [k1 m] ->. apply (fol_bind _ _ (left_over L)); [|intros ? ? ->; reflexivity].
    unfold garbler_client_v3. cbv zeta. eapply fol_bind; [apply fol_any|]. intros ? ? ->. eapply fol_bind; [apply fol_any|]. intros ? [[gc z] dk] ->.
    fol. eapply fol_bind; [apply Hs3|]. intros ? ? ->. fol.
Qed.
End Halves.

(** ** Channels *)
Definition twice (L : list act) : list act := flat_map (fun x => [x; x]) L.
Lemma twice_app L M : twice (L ++ M) = twice L ++ twice M.
Proof. apply flat_map_app. Qed.
Lemma twice_repeat x n : twice (repeat x n) = repeat x (2 * n).
Proof.
  induction n as [|n IH]; [reflexivity|]. replace (2 * S n)%nat with (S (S (2 * n))) by lia. cbn [repeat twice flat_map app]. now rewrite <- IH.
Qed.
Definition double (R : dialogue) : dialogue := map (fun r => (2 * fst r, 2 * snd r)%nat) R.
Lemma first_double R : first_party (double R) = twice (first_party R).
Proof.
  induction R as [|[n m] R IH]; [reflexivity|]. unfold double, first_party in *. cbn [map flat_map fst snd]. rewrite IH, twice_app, twice_app, !twice_repeat. reflexivity.
Qed.
Lemma second_double R : second_party (double R) = twice (second_party R).
Proof. unfold second_party. rewrite <- first_double. f_equal. unfold double, swap. now rewrite !map_map. Qed.
Lemma fol_over_auth {A} hmac ks kr (q : proc A) : hangup q -> forall L, follows L q (left_over []) -> follows (twice L) (over_auth hmac ks kr q) (left_over []).
Proof.
  induction 1 as [o|m k H IH|k o E Bo H IH]; intros L Hq; cbn [over_auth follows] in *.
  - destruct o; cbn in *; auto. now subst L.
  - destruct Hq as (L' & -> & Hq). cbn [twice flat_map app]. eexists. split; [reflexivity|]. eexists. split; [reflexivity|]. now apply IH.
  - destruct Hq as (L' & -> & Hq). cbn [twice flat_map app]. eexists. split; [reflexivity|].
    assert (N : forall M, follows M (over_auth hmac ks kr (k None)) (left_over [])).
    { intros M. rewrite E. cbn. destruct o; cbn in *; auto; contradiction. }
    intros [m|]; [|apply N]. cbn [follows]. eexists. split; [reflexivity|]. intros [code|]; [|apply N]. destruct (bytes_eqb _ _); [|apply N]. apply IH, Hq.
Qed.
Lemma fol_serve {A} hmac xpub xdh sec (q : proc A) R : hangup q -> follows (first_party R) q (left_over []) ->
  follows (first_party (channel_dialogue R)) (serve hmac xpub xdh sec q) (left_over []).
Proof.
  intros Hh Hq. unfold channel_dialogue. fold (double R). rewrite first_app, first_double. unfold serve, auth_server.
  change (first_party [(1%nat, 0%nat); (0%nat, 1%nat)] ++ twice (first_party R)) with (Out :: In :: twice (first_party R)).
  eapply (fol_bind _ _ (left_over (twice (first_party R)))).
  - eapply fol_bind; [apply fol_send|]. intros ? ? ->. eapply fol_bind; [apply fol_recv_unwrap|]. intros ? ? ->. eapply fol_bind; [apply fol_any|]. intros ? ? ->. reflexivity.
  - intros ? ? ->. now apply fol_over_auth.
Qed.
Lemma fol_connect {A} hmac xpub xdh sec (q : proc A) R : hangup q -> follows (second_party R) q (left_over []) ->
  follows (second_party (channel_dialogue R)) (connect hmac xpub xdh sec q) (left_over []).
Proof.
  intros Hh Hq. unfold channel_dialogue. fold (double R). rewrite second_app, second_double. unfold connect, auth_client.
  change (second_party [(1%nat, 0%nat); (0%nat, 1%nat)] ++ twice (second_party R)) with (In :: Out :: twice (second_party R)).
  eapply (fol_bind _ _ (left_over (twice (second_party R)))).
  - eapply fol_bind; [apply fol_recv_unwrap|]. intros ? ? ->. eapply fol_bind; [apply fol_any|]. intros ? ? ->. eapply fol_bind; [apply fol_send|]. intros ? ? ->. reflexivity.
  - intros ? ? ->. now apply fol_over_auth.
Qed.
