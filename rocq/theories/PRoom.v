(** How much is on its way between two programs (C120). *)
From Coq Require Import List NArith Bool Arith Lia.
From Verif Require Import Base MUtil MWires MCircuit MGarble MBitMatrix MPoly MPar MBincode MProc MOt MApricot MMany MFpake MChannel MMain.
From Verif Require Import SpecApricot SpecTurns SpecRoom PBase PUtil PProc PHang PBounds PSizes.
Import ListNotations.
Open Scope N_scope.

(** ** Programs that follow a list of actions and sizes *)
(** A frame of at most so many bytes, or of any size, goes out; or a frame is asked for. *)
Inductive wact := Put (s : option nat) | Get.
Notation Big := (Put None).
Notation rest_is M := (fun N _ => N = M).
Definition within (m : bytes) (s : option nat) : Prop := match s with Some n => (length m <= n)%nat | None => True end.
Fixpoint wfollows {A} (L : list wact) (p : proc A) (Q : list wact -> A -> Prop) : Prop :=
  match p with
  | Done o => oks (Q L) o
  | Snd m k => exists s L', L = Put s :: L' /\ within m s /\ wfollows L' k Q
  | Rcv k => exists L', L = Get :: L' /\ forall m, wfollows L' (k m) Q
  end.
Lemma wf_bind {A B} (p : proc A) (f : A -> proc B) R Q : forall L, wfollows L p R ->
  (forall M a, R M a -> wfollows M (f a) Q) -> wfollows L (pbind p f) Q.
Proof.
  induction p as [o|m k IH|k IH]; intros L H Hf; cbn in *.
  - destruct o; cbn in *; auto.
  - destruct H as (s & L' & -> & Hm & H). exists s, L'. split; auto.
  - destruct H as (L' & -> & H). exists L'. split; auto.
Qed.
Lemma wf_weak {A} (p : proc A) (R Q : list wact -> A -> Prop) : forall L, wfollows L p R -> (forall M a, R M a -> Q M a) -> wfollows L p Q.
Proof.
  induction p as [o|m k IH|k IH]; intros L H Hf; cbn in *.
  - destruct o; cbn in *; auto.
  - destruct H as (s & L' & -> & Hm & H). exists s, L'. split; auto.
  - destruct H as (L' & -> & H). exists L'. split; auto.
Qed.
Lemma wf_lift {A} L (o : outcome A) (P : A -> Prop) : oks P o -> wfollows L (lift o) (fun M a => M = L /\ P a).
Proof. destruct o; cbn; auto. Qed.
Lemma wf_any {A} L (o : outcome A) : wfollows L (lift o) (fun M _ => M = L).
Proof. destruct o; cbn; auto. Qed.
Lemma wf_small L m n : (length m <= n)%nat -> wfollows (Put (Some n) :: L) (send m) (fun M _ => M = L).
Proof. intros H. exists (Some n), L. repeat split. exact H. Qed.
Lemma wf_send L m : wfollows (Big :: L) (send m) (fun M _ => M = L).
Proof. exists None, L. repeat split. Qed.
Lemma wf_recv L : wfollows (Get :: L) recv (fun M _ => M = L).
Proof. exists L. split; [reflexivity|]. intros []; cbn; auto. Qed.
Lemma wf_recv_unwrap L : wfollows (Get :: L) recv_unwrap (fun M _ => M = L).
Proof. exists L. split; [reflexivity|]. intros []; cbn; auto. Qed.
Lemma wf_send_all ms : forall L, wfollows (repeat Big (length ms) ++ L) (send_all ms) (fun M _ => M = L).
Proof. induction ms as [|m ms IH]; intros L; [reflexivity|]. cbn. exists None. eexists. split; [reflexivity|]. split; [exact I|]. apply IH. Qed.
Lemma wf_recv_each {A} (f : bytes -> outcome A) n : forall L,
  wfollows (repeat Get n ++ L) (recv_each recv_unwrap f n) (fun M l => M = L /\ length l = n).
Proof.
  induction n as [|n IH]; intros L; [cbn; auto|]. cbn [recv_each repeat app].
  eapply wf_bind; [apply wf_recv_unwrap|]. intros M m ->. eapply wf_bind; [apply wf_any|]. intros M a ->.
  eapply wf_bind; [apply IH|]. intros M l [-> Hl]. cbn. auto.
Qed.

(** ** Dialogues with sizes *)
Definition rounds := list (list (option nat) * list (option nat)).
Definition wfirst (R : rounds) : list wact := flat_map (fun r => map Put (fst r) ++ repeat Get (length (snd r))) R.
Definition wswap (R : rounds) : rounds := map (fun r => (snd r, fst r)) R.
Definition wsecond (R : rounds) : list wact := wfirst (wswap R).
Lemma wfirst_app R S : wfirst (R ++ S) = wfirst R ++ wfirst S.
Proof. apply flat_map_app. Qed.
Lemma wswap_app R S : wswap (R ++ S) = wswap R ++ wswap S.
Proof. apply map_app. Qed.
Lemma wsecond_app R S : wsecond (R ++ S) = wsecond R ++ wsecond S.
Proof. unfold wsecond. now rewrite wswap_app, wfirst_app. Qed.
Lemma wswap_wswap R : wswap (wswap R) = R.
Proof. unfold wswap. rewrite map_map. cbn. induction R as [|[n m] R IH]; cbn; [reflexivity|]. now rewrite IH. Qed.
Lemma wfirst_wswap R : wfirst (wswap R) = wsecond R.
Proof. reflexivity. Qed.
Lemma wsecond_wswap R : wsecond (wswap R) = wfirst R.
Proof. unfold wsecond. now rewrite wswap_wswap. Qed.
Lemma map_repeat {A B} (f : A -> B) x n : map f (repeat x n) = repeat (f x) n.
Proof. induction n as [|n IH]; [reflexivity|]. cbn. now rewrite IH. Qed.
(** The dialogues of SpecTurns; only the frames of rounds in which both sides send have a size. *)
Definition base_rounds (k : nat) : rounds := [([Some 28%nat], [Some 28%nat]); (repeat None k, []); ([], repeat None k); ([None], [])].
Definition ext_rounds : rounds := [([Some 23%nat], [Some 23%nat]); ([None], []); ([], [None]); ([None], []); ([], [None])] ++ base_rounds 128 ++ [(repeat None 3, []); ([], [None])].
Definition many_rounds (k : nat) : rounds := ([None], []) :: base_rounds k.
Definition half_rounds : rounds := wswap ext_rounds ++ [([None; None], [])].
Definition plain_rounds : rounds := half_rounds ++ wswap half_rounds.
Definition mfpake_rounds (k : nat) : rounds := many_rounds k ++ plain_rounds.
Definition v3_rounds (k : nat) : rounds :=
  [([None], [])] ++ wswap ext_rounds ++ [([None], [])] ++ many_rounds k ++ wswap ext_rounds ++ [([], [None; None])] ++ ext_rounds ++ [([], [None])].
(** On a channel: a code of 32 bytes behind every message. *)
Definition code_for (s : option nat) : option nat := match s with Some _ => Some 32%nat | None => None end.
Definition coded (l : list (option nat)) : list (option nat) := flat_map (fun s => [s; code_for s]) l.
Definition wdouble (R : rounds) : rounds := map (fun r => (coded (fst r), coded (snd r))) R.
Definition channel_rounds (R : rounds) : rounds := [([None], []); ([], [None])] ++ wdouble R.

Ltac wfol := repeat first
  [ apply wf_any
  | eapply wf_bind; [first [apply wf_any|apply wf_send|apply wf_recv]|]; intros ? ? ->
  | match goal with |- wfollows _ (pbind (lift _) _) _ => fail 1 end ].

(** ** Properties and coin flips *)
Lemma wf_validate L n s b : (16 + length s <= b)%nat -> wfollows (Put (Some b) :: Get :: L) (validate_properties (mkProps n s)) (rest_is L).
Proof.
  intros H. unfold validate_properties. eapply wf_bind; [apply wf_small; rewrite props_size; exact H|]. intros ? ? ->. wfol. destruct (props_eqb _ _); cbn; auto.
Qed.
Lemma wf_coin_sender L sha n v : wfollows (Big :: Get :: Big :: L) (coinflip_sender sha n v) (rest_is L).
Proof.
  unfold coinflip_sender. wfol. destruct (negb _); [exact I|]. wfol.
Qed.
Lemma wf_coin_receiver L sha n v : wfollows (Get :: Big :: Get :: L) (coinflip_receiver sha n v) (rest_is L).
Proof.
  unfold coinflip_receiver. wfol. destruct (negb _); [exact I|]. destruct (negb _); [exact I|]. reflexivity.
Qed.

(** ** Base OT *)
Lemma wbase_first k L : wfirst (base_rounds k) ++ L = Put (Some 28%nat) :: Get :: repeat Big k ++ repeat Get k ++ Big :: L.
Proof. unfold base_rounds, wfirst. cbn [flat_map fst snd map repeat app length]. rewrite ?map_repeat, ?repeat_length, !app_nil_r, <- !app_assoc. reflexivity. Qed.
Lemma wbase_second k L : wsecond (base_rounds k) ++ L = Put (Some 28%nat) :: Get :: repeat Get k ++ repeat Big k ++ Get :: L.
Proof. unfold base_rounds, wsecond, wfirst. cbn [wswap map flat_map fst snd repeat app length]. rewrite ?map_repeat, ?repeat_length, !app_nil_r, <- !app_assoc. reflexivity. Qed.
Lemma wf_co_sender sha gen G p rs msgs L : wfollows (wfirst (base_rounds (length msgs)) ++ L) (co_sender sha gen G p rs msgs) (rest_is L).
Proof.
  rewrite wbase_first. unfold co_sender. cbv zeta. eapply wf_bind; [apply wf_validate; cbn; lia|]. intros ? ? ->.
  eapply wf_bind.
  { replace (length msgs) with (length (map (fun i => compress G (smul G (rs i) (base G))) (seq 0 (length msgs)))) at 1 by now rewrite map_length, seq_length.
    apply wf_send_all. }
  intros ? ? ->. eapply wf_bind; [apply wf_recv_each|]. intros ? ? [-> _]. wfol. apply wf_send.
Qed.
Lemma wf_co_receiver sha gen G p rs cs L : wfollows (wsecond (base_rounds (length cs)) ++ L) (co_receiver sha gen G p rs cs) (rest_is L).
Proof.
  rewrite wbase_second. unfold co_receiver. cbv zeta. eapply wf_bind; [apply wf_validate; cbn; lia|]. intros ? ? ->.
  eapply wf_bind; [apply wf_recv_each|]. intros ? theirs [-> Lt]. eapply wf_bind; [apply wf_any|]; intros ? ? ->.
  eapply wf_bind.
  { apply wf_lift, (oks_mapM (fun _ _ => True)). intros [i P] _. apply oks_any. }
  intros ? ans [-> La]. pose proof (Forall2_length _ _ _ La) as E. rewrite combine_length, seq_length, Nat.min_id, Lt in E.
  eapply wf_bind.
  { replace (length cs) with (length (map fst ans)) by (rewrite map_length; symmetry; exact E). apply wf_send_all. }
  intros ? ? ->. wfol.
Qed.

(** ** The extension *)
Lemma wext_first L : wfirst ext_rounds ++ L = Put (Some 23%nat) :: Get :: Big :: Get :: Big :: Get :: wfirst (base_rounds 128) ++ Big :: Big :: Big :: Get :: L.
Proof. unfold ext_rounds. rewrite !wfirst_app, <- !app_assoc. reflexivity. Qed.
Lemma wext_second L : wsecond ext_rounds ++ L = Put (Some 23%nat) :: Get :: Get :: Big :: Get :: Big :: wsecond (base_rounds 128) ++ Get :: Get :: Get :: Big :: L.
Proof. unfold ext_rounds. rewrite !wsecond_app, <- !app_assoc. reflexivity. Qed.
Section Ext.
Variable sha : bytes -> bytes.
Variable fill : bytes -> nat -> bytes.
Variable p : profile.
Variable a : arch.
Variable cores : nat.
Lemma wf_ap_sender cu delta ot msgs L : length delta = 16%nat ->
  (forall cs M, wfollows (wsecond (base_rounds (length cs)) ++ M) (ot cs) (rest_is M)) ->
  wfollows (wsecond ext_rounds ++ L) (ap_sender sha fill p a cores cu delta ot msgs) (rest_is L).
Proof.
  intros Ld Hot. rewrite wext_second. unfold ap_sender. eapply wf_bind; [apply wf_any|]. intros ? ? ->.
  eapply wf_bind; [apply wf_validate; cbn; lia|]. intros ? ? ->. cbv zeta. eapply wf_bind; [apply wf_coin_receiver|]. intros ? ? ->. wfol.
  eapply wf_bind.
  { replace 128%nat with (length (u8_vec_to_bool_vec delta)) at 1 by (rewrite bits_length; lia). apply Hot. }
  intros ? ? ->. wfol. apply wf_send.
Qed.
Lemma wf_ap_receiver cv bonus seed0 seed1 ot cs L : seeds_ok seed0 -> seeds_ok seed1 ->
  (forall ms M, wfollows (wfirst (base_rounds (length ms)) ++ M) (ot ms) (rest_is M)) ->
  wfollows (wfirst ext_rounds ++ L) (ap_receiver sha fill p a cores cv bonus seed0 seed1 ot cs) (rest_is L).
Proof.
  intros [L0 _] [L1 _] Hot. rewrite wext_first. unfold ap_receiver. eapply wf_bind; [apply wf_any|]. intros ? ? ->.
  eapply wf_bind; [apply wf_validate; cbn; lia|]. intros ? ? ->. cbv zeta. eapply wf_bind; [apply wf_coin_sender|]. intros ? ? ->. wfol.
  eapply wf_bind.
  { replace 128%nat with (length (combine seed0 seed1)) at 1 by (rewrite combine_length; lia). apply Hot. }
  intros ? ? ->. wfol. match goal with |- context [let (_, _) := ?x in _] => destruct x end. wfol.
Qed.
End Ext.

(** ** One of many *)
Lemma wf_first {A B} L (P : A -> Prop) (o : outcome A) (f : A -> proc B) Q : oks P o -> (forall a, P a -> wfollows L (f a) Q) -> wfollows L (pbind (lift o) f) Q.
Proof. destruct o; cbn; auto. Qed.
Lemma wmany_first k L : wfirst (many_rounds k) ++ L = Big :: wfirst (base_rounds k) ++ L.
Proof. reflexivity. Qed.
Lemma wmany_second k L : wsecond (many_rounds k) ++ L = Get :: wsecond (base_rounds k) ++ L.
Proof. reflexivity. Qed.
Section Many.
Variable sha : bytes -> bytes.
Variable fill : bytes -> nat -> bytes.
Variable p : profile.
Lemma wf_many_sender cores keys ot ms d L :
  (forall ms M, wfollows (wfirst (base_rounds (length ms)) ++ M) (ot ms) (rest_is M)) ->
  wfollows (wfirst (many_rounds (length keys)) ++ L) (many_sender sha fill p cores keys ot ms d) (rest_is L).
Proof.
  intros Hot. rewrite wmany_first. unfold many_sender. wfol. apply Hot.
Qed.
Lemma wf_many_receiver ot i d L :
  (forall cs M, wfollows (wsecond (base_rounds (length cs)) ++ M) (ot cs) (rest_is M)) ->
  wfollows (wsecond (many_rounds d) ++ L) (many_receiver sha fill p ot i d) (rest_is L).
Proof.
  intros Hot. rewrite wmany_second. unfold many_receiver.
  apply (wf_first _ (fun cs => length cs = d)).
  { unfold many_choices. match goal with |- oks _ (mapM ?f _) => pose proof (oks_mapM (fun _ _ => True) f (seq 0 d) (fun _ _ => oks_any _)) as H end.
    destruct (mapM _ _) as [cs| | |]; try exact I. cbn [oks] in *. now rewrite <- (Forall2_length _ _ _ H), seq_length. }
  intros cs Lc. wfol. rewrite <- Lc. eapply wf_bind; [apply Hot|]. intros ? ? ->. wfol.
Qed.
End Many.

(** ** The halves and the exchanges *)
Section Halves.
Variable sha : bytes -> bytes.
Variable p : profile.
Variable ots : list (bytes * bytes) -> proc unit.
Variable otr : list bool -> proc (list bytes).
Hypothesis Hs : forall ms M, wfollows (wsecond ext_rounds ++ M) (ots ms) (rest_is M).
Hypothesis Hr : forall cs M, wfollows (wfirst ext_rounds ++ M) (otr cs) (rest_is M).
Lemma whalf_first L : wfirst half_rounds ++ L = wsecond ext_rounds ++ Big :: Big :: L.
Proof. unfold half_rounds. rewrite wfirst_app, <- app_assoc. reflexivity. Qed.
Lemma whalf_second L : wsecond half_rounds ++ L = wfirst ext_rounds ++ Get :: Get :: L.
Proof. unfold half_rounds. rewrite wsecond_app, wsecond_wswap, <- app_assoc. reflexivity. Qed.
Lemma wf_garbler g pw t L : wfollows (wfirst half_rounds ++ L) (garbler sha p g ots pw t) (rest_is L).
Proof.
  rewrite whalf_first. unfold garbler. cbv zeta. eapply wf_bind; [apply wf_any|]. intros ? ? ->.
  eapply wf_bind; [apply wf_any|]. intros ? [[gc e] d] ->. wfol. eapply wf_bind; [apply Hs|]. intros ? ? ->. wfol.
Qed.
Lemma wf_evaluator pw L : wfollows (wsecond half_rounds ++ L) (evaluator sha p otr pw) (rest_is L).
Proof.
  rewrite whalf_second. unfold evaluator. eapply wf_bind; [apply Hr|]. intros ? ? ->. wfol.
Qed.
Lemma wplain_first L : wfirst plain_rounds ++ L = wfirst half_rounds ++ wsecond half_rounds ++ L.
Proof. unfold plain_rounds. rewrite wfirst_app, wfirst_wswap, <- app_assoc. reflexivity. Qed.
Lemma wplain_second L : wsecond plain_rounds ++ L = wsecond half_rounds ++ wfirst half_rounds ++ L.
Proof. unfold plain_rounds. rewrite wsecond_app, wsecond_wswap, <- app_assoc. reflexivity. Qed.
Lemma wf_server g pw t L : wfollows (wfirst plain_rounds ++ L) (fpake_server sha p g ots otr pw t) (rest_is L).
Proof.
  rewrite wplain_first. unfold fpake_server. eapply wf_bind; [apply wf_garbler|]. intros ? ? ->.
  eapply wf_bind; [apply wf_evaluator|]. intros ? ? ->. reflexivity.
Qed.
Lemma wf_client g pw t L : wfollows (wsecond plain_rounds ++ L) (fpake_client sha p g ots otr pw t) (rest_is L).
Proof.
  rewrite wplain_second. unfold fpake_client. eapply wf_bind; [apply wf_evaluator|]. intros ? ? ->.
  eapply wf_bind; [apply wf_garbler|]. intros ? ? ->. reflexivity.
Qed.

Variable many_s : nat -> list bytes -> proc unit.
Variable many_r : nat -> N -> proc bytes.
Hypothesis Hms : forall d ms M, wfollows (wfirst (many_rounds d) ++ M) (many_s d ms) (rest_is M).
Hypothesis Hmr : forall d i M, wfollows (wsecond (many_rounds d) ++ M) (many_r d i) (rest_is M).
Lemma wf_mfpake_many mask g pws t d L : oks (fun x => N.to_nat x = d) (log2_ p 64 (N.of_nat (length pws))) ->
  wfollows (wfirst (mfpake_rounds d) ++ L) (mfpake_many sha p mask g many_s ots otr pws t) (rest_is L).
Proof.
  intros Hd. unfold mfpake_rounds. rewrite wfirst_app, <- app_assoc, wplain_first. unfold mfpake_many.
  eapply wf_bind; [apply wf_any|]. intros ? ? ->. eapply wf_bind; [apply wf_any|]. intros ? ? ->.
  apply (wf_first _ _ _ _ _ Hd). intros x ->. eapply wf_bind; [apply Hms|]. intros ? ? ->.
  eapply wf_bind; [apply wf_garbler|]. intros ? ? ->. eapply wf_bind; [apply wf_evaluator|]. intros ? ? ->. reflexivity.
Qed.
Lemma wf_mfpake_single g pw i n t d L : oks (fun x => N.to_nat x = d) (log2_ p 32 n) ->
  wfollows (wsecond (mfpake_rounds d) ++ L) (mfpake_single sha p g many_r ots otr pw i n t) (rest_is L).
Proof.
  intros Hd. unfold mfpake_rounds. rewrite wsecond_app, <- app_assoc, wplain_second. unfold mfpake_single.
  apply (wf_first _ _ _ _ _ Hd). intros x ->. eapply wf_bind; [apply Hmr|]. intros ? ? ->. eapply wf_bind; [apply wf_any|]. intros ? ? ->.
  eapply wf_bind; [apply wf_evaluator|]. intros ? ? ->. eapply wf_bind; [apply wf_garbler|]. intros ? ? ->. reflexivity.
Qed.

(** ** Third version *)
Variable ots2 ots3 : list (bytes * bytes) -> proc unit.
Variable otr2 otr3 : list bool -> proc (list bytes).
Hypothesis Hs2 : forall ms M, wfollows (wsecond ext_rounds ++ M) (ots2 ms) (rest_is M).
Hypothesis Hs3 : forall ms M, wfollows (wsecond ext_rounds ++ M) (ots3 ms) (rest_is M).
Hypothesis Hr2 : forall ms M, wfollows (wfirst ext_rounds ++ M) (otr2 ms) (rest_is M).
Hypothesis Hr3 : forall ms M, wfollows (wfirst ext_rounds ++ M) (otr3 ms) (rest_is M).
Lemma wv3_first d L : wfirst (v3_rounds d) ++ L =
  Big :: wsecond ext_rounds ++ Big :: wfirst (many_rounds d) ++ wsecond ext_rounds ++ Get :: Get :: wfirst ext_rounds ++ Get :: L.
Proof. unfold v3_rounds. rewrite !wfirst_app, !wfirst_wswap, <- !app_assoc. reflexivity. Qed.
Lemma wv3_second d L : wsecond (v3_rounds d) ++ L =
  Get :: wfirst ext_rounds ++ Get :: wsecond (many_rounds d) ++ wfirst ext_rounds ++ Big :: Big :: wsecond ext_rounds ++ Big :: L.
Proof. unfold v3_rounds. rewrite !wsecond_app, !wsecond_wswap, <- !app_assoc. reflexivity. Qed.
Lemma wf_server_v3 mask g pws t d L : oks (fun x => N.to_nat x = d) (log2_ p 64 (N.of_nat (length pws))) ->
  wfollows (wfirst (v3_rounds d) ++ L) (server_v3 sha p mask g ots many_s ots2 otr3 pws t) (rest_is L).
Proof.
  intros Hd. rewrite wv3_first. unfold server_v3.
  eapply (wf_bind _ _ (rest_is (Get :: Get :: wfirst ext_rounds ++ Get :: L))).
  - unfold garbler_server_v3. cbv zeta. eapply wf_bind; [apply wf_any|]. intros ? ? ->. eapply wf_bind; [apply wf_any|]. intros ? ? ->.
    eapply wf_bind; [apply wf_any|]. intros ? [[gc z] dk] ->. eapply wf_bind; [apply wf_send|]. intros ? ? ->.
    eapply wf_bind; [apply wf_any|]. intros ? ? ->. eapply wf_bind; [apply Hs|]. intros ? ? ->.
    eapply wf_bind; [apply wf_any|]. intros ? ? ->. eapply wf_bind; [apply wf_send|]. intros ? ? ->.
    apply (wf_first _ _ _ _ _ Hd). intros x ->. eapply wf_bind; [apply wf_any|]. intros ? ? ->.
    eapply wf_bind; [apply Hms|]. intros ? ? ->. eapply wf_bind; [apply wf_any|]. intros ? ? ->.
    eapply wf_bind; [apply Hs2|]. intros ? ? ->. eapply wf_bind; [apply wf_any|]. intros ? ? ->. reflexivity.
  - intros ? [k1 m] ->. apply (wf_bind _ _ (rest_is L)); [|intros ? ? ->; reflexivity].
    unfold evaluator_server_v3. wfol. eapply wf_bind; [apply Hr3|]. intros ? ? ->. wfol.
Qed.
Lemma wf_client_v3 g pw n i t d L : oks (fun x => N.to_nat x = d) (log2_ p 32 n) ->
  wfollows (wsecond (v3_rounds d) ++ L) (client_v3 sha p g otr many_r otr2 ots3 pw n i t) (rest_is L).
Proof.
  intros Hd. rewrite wv3_second. unfold client_v3.
  eapply (wf_bind _ _ (rest_is (Big :: Big :: wsecond ext_rounds ++ Big :: L))).
  - unfold evaluator_client_v3. cbv zeta. eapply wf_bind; [apply wf_recv|]. intros ? ? ->. eapply wf_bind; [apply wf_any|]. intros ? ? ->.
    eapply wf_bind; [apply wf_any|]. intros ? ? ->. eapply wf_bind; [apply Hr|]. intros ? ? ->. eapply wf_bind; [apply wf_recv|]. intros ? ? ->.
    apply (wf_first _ _ _ _ _ Hd). intros x ->. eapply wf_bind; [apply Hmr|]. intros ? ? ->. eapply wf_bind; [apply wf_any|]. intros ? ? ->.
    eapply wf_bind; [apply Hr2|]. intros ? ? ->. wfol.
  - intros ? [k1 m] ->. apply (wf_bind _ _ (rest_is L)); [|intros ? ? ->; reflexivity].
    unfold garbler_client_v3. cbv zeta. eapply wf_bind; [apply wf_any|]. intros ? ? ->. eapply wf_bind; [apply wf_any|]. intros ? [[gc z] dk] ->.
    wfol. eapply wf_bind; [apply Hs3|]. intros ? ? ->. wfol.
Qed.
End Halves.

(** ** Channels *)
Definition wtwice (L : list wact) : list wact := flat_map (fun x => match x with Put s => [Put s; Put (code_for s)] | Get => [Get; Get] end) L.
Lemma wtwice_app L M : wtwice (L ++ M) = wtwice L ++ wtwice M.
Proof. apply flat_map_app. Qed.
Lemma wtwice_put l : wtwice (map Put l) = map Put (coded l).
Proof. induction l as [|s l IH]; [reflexivity|]. change (Put s :: Put (code_for s) :: wtwice (map Put l) = Put s :: Put (code_for s) :: map Put (coded l)). now rewrite IH. Qed.
Lemma wtwice_get {A} (l : list A) n : length l = n -> wtwice (repeat Get n) = repeat Get (2 * n).
Proof.
  intros _. induction n as [|n IH]; [reflexivity|]. replace (2 * S n)%nat with (S (S (2 * n))) by lia. cbn [repeat wtwice flat_map app]. now rewrite <- IH.
Qed.
Lemma coded_length l : length (coded l) = (2 * length l)%nat.
Proof. induction l as [|s l IH]; [reflexivity|]. change (S (S (length (coded l))) = 2 * S (length l))%nat. rewrite IH. lia. Qed.
Lemma wfirst_wdouble R : wfirst (wdouble R) = wtwice (wfirst R).
Proof.
  induction R as [|[n m] R IH]; [reflexivity|]. unfold wdouble, wfirst in *. cbn [map flat_map fst snd].
  rewrite IH, !wtwice_app, wtwice_put, coded_length, (wtwice_get m) by reflexivity. reflexivity.
Qed.
Lemma wsecond_wdouble R : wsecond (wdouble R) = wtwice (wsecond R).
Proof. unfold wsecond. rewrite <- wfirst_wdouble. f_equal. unfold wdouble, wswap. now rewrite !map_map. Qed.
Lemma wf_over_auth {A} hmac ks kr (q : proc A) : (forall k m, length (hmac k m) = 32%nat) -> hangup q -> forall L, wfollows L q (rest_is []) -> wfollows (wtwice L) (over_auth hmac ks kr q) (rest_is []).
Proof.
  intros Hc. induction 1 as [o|m k H IH|k o E Bo H IH]; intros L Hq; cbn [over_auth wfollows] in *.
  - destruct o; cbn in *; auto. now subst L.
  - destruct Hq as (s & L' & -> & Hm & Hq). cbn [wtwice flat_map app]. do 2 eexists. split; [reflexivity|]. split; [exact Hm|].
    do 2 eexists. split; [reflexivity|]. split; [|now apply IH]. destruct s; cbn; [rewrite Hc; lia|exact I].
  - destruct Hq as (L' & -> & Hq). cbn [wtwice flat_map app]. eexists. split; [reflexivity|].
    assert (N : forall M, wfollows M (over_auth hmac ks kr (k None)) (rest_is [])).
    { intros M. rewrite E. cbn. destruct o; cbn in *; auto; contradiction. }
    intros [m|]; [|apply N]. cbn [wfollows]. eexists. split; [reflexivity|]. intros [code|]; [|apply N]. destruct (bytes_eqb _ _); [|apply N]. apply IH, Hq.
Qed.
Lemma wf_serve {A} hmac xpub xdh sec (q : proc A) R : (forall k m, length (hmac k m) = 32%nat) -> hangup q -> wfollows (wfirst R) q (rest_is []) ->
  wfollows (wfirst (channel_rounds R)) (serve hmac xpub xdh sec q) (rest_is []).
Proof.
  intros Hc Hh Hq. unfold channel_rounds. rewrite wfirst_app, wfirst_wdouble. unfold serve, auth_server.
  change (wfirst [([None], []); ([], [None])] ++ wtwice (wfirst R)) with (Big :: Get :: wtwice (wfirst R)).
  eapply (wf_bind _ _ (rest_is (wtwice (wfirst R)))).
  - eapply wf_bind; [apply wf_send|]. intros ? ? ->. eapply wf_bind; [apply wf_recv_unwrap|]. intros ? ? ->. eapply wf_bind; [apply wf_any|]. intros ? ? ->. reflexivity.
  - intros ? ? ->. now apply wf_over_auth.
Qed.
Lemma wf_connect {A} hmac xpub xdh sec (q : proc A) R : (forall k m, length (hmac k m) = 32%nat) -> hangup q -> wfollows (wsecond R) q (rest_is []) ->
  wfollows (wsecond (channel_rounds R)) (connect hmac xpub xdh sec q) (rest_is []).
Proof.
  intros Hc Hh Hq. unfold channel_rounds. rewrite wsecond_app, wsecond_wdouble. unfold connect, auth_client.
  change (wsecond [([None], []); ([], [None])] ++ wtwice (wsecond R)) with (Get :: Big :: wtwice (wsecond R)).
  eapply (wf_bind _ _ (rest_is (wtwice (wsecond R)))).
  - eapply wf_bind; [apply wf_recv_unwrap|]. intros ? ? ->. eapply wf_bind; [apply wf_any|]. intros ? ? ->. eapply wf_bind; [apply wf_send|]. intros ? ? ->. reflexivity.
  - intros ? ? ->. now apply wf_over_auth.
Qed.
