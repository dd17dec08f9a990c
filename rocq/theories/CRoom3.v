(** C120 for the older versions of the one-of-many exchange. *)
From Coq Require Import List NArith Bool Lia Arith.
From Verif Require Import Base MUtil MWires MCircuit MGarble MPar MBincode MProc MOt MApricot MMany MFpake MLegacy MLegacy2.
From Verif Require Import SpecOt SpecApricot SpecTurns SpecTurns2 SpecRoom.
From Verif Require Import PBase PProc PUtil PSizes PTurns PRoom PRoom2 CUtil COt CApricot CFpake CTurns CTurns2 CRoom.
Import ListNotations.
Open Scope N_scope.

(** The dialogues of SpecTurns2 with sizes, as in PRoom. *)
Definition server_rounds_v1 (k : nat) : rounds := [([None], [])] ++ wswap ext_rounds ++ many_rounds k.
Definition server_rounds_v2 (k : nat) : rounds := [([None], [])] ++ wswap ext_rounds ++ [([None], [])] ++ many_rounds k ++ wswap ext_rounds.
Definition client_rounds_v1 : rounds := [([], [None; None])] ++ ext_rounds.
Definition client_rounds_v2 (k : nat) : rounds := [([], [None; None])] ++ ext_rounds ++ many_rounds k ++ [([], [None])].
Definition v1_rounds (k : nat) : rounds := server_rounds_v1 k ++ client_rounds_v1.
Definition v2_rounds (k : nat) : rounds := server_rounds_v2 k ++ client_rounds_v2 k.
Definition v12_rounds (k : nat) : rounds := server_rounds_v1 k ++ client_rounds_v2 k.
Definition v21_rounds (k : nat) : rounds := server_rounds_v2 k ++ client_rounds_v1.
Section Halves.
Variable sha : bytes -> bytes.
Variable p : profile.
Section S1.
Variable ots : list (bytes * bytes) -> proc unit.
Hypothesis Hs : forall ms M, wfollows (wsecond ext_rounds ++ M) (ots ms) (rest_is M).
Lemma wf_gc_v1 rand g pw i n t L : wfollows (wsecond client_rounds_v1 ++ L) (garbler_client_v1 sha p rand g ots pw i n t) (rest_is L).
Proof.
  change (wsecond client_rounds_v1 ++ L) with (Big :: Big :: wsecond ext_rounds ++ L).
  unfold garbler_client_v1. cbv zeta. eapply wf_bind; [apply wf_any|]. intros ? ? ->. eapply wf_bind; [apply wf_any|]. intros ? [[gc z] dk] ->.
  wfol. eapply wf_bind; [apply Hs|]. intros ? ? ->. wfol.
Qed.
Section M.
Variable many_s : nat -> list bytes -> proc unit.
Hypothesis Hms : forall d ms M, wfollows (wfirst (many_rounds d) ++ M) (many_s d ms) (rest_is M).
Lemma wf_gs_v1 g pws t d L : oks (fun x => N.to_nat x = d) (log2_ p 64 (N.of_nat (length pws))) ->
  wfollows (wfirst (server_rounds_v1 d) ++ L) (garbler_server_v1 sha p g ots many_s pws t) (rest_is L).
Proof.
  intros Hd. unfold server_rounds_v1. rewrite !wfirst_app, wfirst_wswap, <- !app_assoc.
  change (wfirst [([None], [])]) with [Big]. cbn [app].
  unfold garbler_server_v1. cbv zeta. eapply wf_bind; [apply wf_any|]. intros ? ? ->. eapply wf_bind; [apply wf_any|]. intros ? ? ->.
  eapply wf_bind; [apply wf_any|]. intros ? [[gc z] dk] ->. wfol. eapply wf_bind; [apply Hs|]. intros ? ? ->.
  apply (wf_first _ _ _ _ _ Hd). intros x ->. wfol. eapply wf_bind; [apply Hms|]. intros ? ? ->. wfol.
Qed.
Variable ots2 : list (bytes * bytes) -> proc unit.
Hypothesis Hs2 : forall ms M, wfollows (wsecond ext_rounds ++ M) (ots2 ms) (rest_is M).
Lemma wf_gs_v2 mask g pws t d L : oks (fun x => N.to_nat x = d) (log2_ p 64 (N.of_nat (length pws))) ->
  wfollows (wfirst (server_rounds_v2 d) ++ L) (garbler_server_v2 sha p mask g ots many_s ots2 pws t) (rest_is L).
Proof.
  intros Hd. unfold server_rounds_v2. rewrite !wfirst_app, !wfirst_wswap, <- !app_assoc.
  change (wfirst [([None], [])]) with [Big]. cbn [app].
  unfold garbler_server_v2. apply (wf_bind _ _ (rest_is L)); [|intros ? [k m] ->; reflexivity].
  unfold garbler_server_v3. cbv zeta. eapply wf_bind; [apply wf_any|]. intros ? ? ->. eapply wf_bind; [apply wf_any|]. intros ? ? ->.
  eapply wf_bind; [apply wf_any|]. intros ? [[gc z] dk] ->. wfol. eapply wf_bind; [apply Hs|]. intros ? ? ->.
  eapply wf_bind; [apply wf_any|]. intros ? ? ->. eapply wf_bind; [apply wf_send|]. intros ? ? ->.
  apply (wf_first _ _ _ _ _ Hd). intros x ->. wfol. eapply wf_bind; [apply Hms|]. intros ? ? ->. wfol.
  eapply wf_bind; [apply Hs2|]. intros ? ? ->. wfol.
Qed.
End M.
Section MR.
Variable many_r : nat -> N -> proc bytes.
Hypothesis Hmr : forall d i M, wfollows (wsecond (many_rounds d) ++ M) (many_r d i) (rest_is M).
Lemma wf_gc_v2 g pw i n t d L : oks (fun x => N.to_nat x = d) (log2_ p 32 n) ->
  wfollows (wsecond (client_rounds_v2 d) ++ L) (garbler_client_v2 sha p g ots many_r pw i n t) (rest_is L).
Proof.
  intros Hd. unfold client_rounds_v2. rewrite !wsecond_app, <- !app_assoc.
  change (wsecond [([], [None; None])]) with [Big; Big]. change (wsecond [([], [None])]) with [Big]. cbn [app].
  unfold garbler_client_v2. cbv zeta. eapply wf_bind; [apply wf_any|]. intros ? ? ->. eapply wf_bind; [apply wf_any|]. intros ? [[gc z] dk] ->.
  wfol. eapply wf_bind; [apply Hs|]. intros ? ? ->. apply (wf_first _ _ _ _ _ Hd). intros x ->. wfol. eapply wf_bind; [apply Hmr|]. intros ? ? ->. wfol.
Qed.
End MR.
End S1.
Section R1.
Variable otr : list bool -> proc (list bytes).
Hypothesis Hr : forall cs M, wfollows (wfirst ext_rounds ++ M) (otr cs) (rest_is M).
Lemma wf_es_v1 pws L : wfollows (wfirst client_rounds_v1 ++ L) (evaluator_server_v1 sha p otr pws) (rest_is L).
Proof.
  change (wfirst client_rounds_v1 ++ L) with (Get :: Get :: wfirst ext_rounds ++ L).
  unfold evaluator_server_v1. apply (wf_bind _ _ (rest_is L)); [|intros ? [k m] ->; reflexivity].
  unfold evaluator_server_v1_seen. wfol. eapply wf_bind; [apply Hr|]. intros ? ? ->. wfol.
Qed.
Section MS.
Variable many_s : nat -> list bytes -> proc unit.
Hypothesis Hms : forall d ms M, wfollows (wfirst (many_rounds d) ++ M) (many_s d ms) (rest_is M).
Lemma wf_es_v2 mask pws d L : oks (fun x => N.to_nat x = d) (log2_ p 64 (N.of_nat (length pws))) ->
  wfollows (wfirst (client_rounds_v2 d) ++ L) (evaluator_server_v2 sha p mask otr many_s pws) (rest_is L).
Proof.
  intros Hd. unfold client_rounds_v2. rewrite !wfirst_app, <- !app_assoc.
  change (wfirst [([], [None; None])]) with [Get; Get]. change (wfirst [([], [None])]) with [Get]. cbn [app].
  unfold evaluator_server_v2. wfol. eapply wf_bind; [apply Hr|]. intros ? ? ->.
  apply (wf_first _ _ _ _ _ Hd). intros x ->. eapply wf_bind; [apply Hms|]. intros ? ? ->. wfol.
Qed.
End MS.
Section MR.
Variable many_r : nat -> N -> proc bytes.
Hypothesis Hmr : forall d i M, wfollows (wsecond (many_rounds d) ++ M) (many_r d i) (rest_is M).
Lemma wf_ec_v1 pw n i d L : oks (fun x => N.to_nat x = d) (log2_ p 32 n) ->
  wfollows (wsecond (server_rounds_v1 d) ++ L) (evaluator_client_v1 sha p otr many_r pw n i) (rest_is L).
Proof.
  intros Hd. unfold server_rounds_v1. rewrite !wsecond_app, wsecond_wswap, <- !app_assoc.
  change (wsecond [([None], [])]) with [Get]. cbn [app].
  unfold evaluator_client_v1. wfol. eapply wf_bind; [apply Hr|]. intros ? ? ->.
  apply (wf_first _ _ _ _ _ Hd). intros x ->. eapply wf_bind; [apply Hmr|]. intros ? ? ->. wfol.
Qed.
Variable otr2 : list bool -> proc (list bytes).
Hypothesis Hr2 : forall cs M, wfollows (wfirst ext_rounds ++ M) (otr2 cs) (rest_is M).
Lemma wf_ec_v2 pw n i d L : oks (fun x => N.to_nat x = d) (log2_ p 32 n) ->
  wfollows (wsecond (server_rounds_v2 d) ++ L) (evaluator_client_v2 sha p otr many_r otr2 pw n i) (rest_is L).
Proof.
  intros Hd. unfold server_rounds_v2. rewrite !wsecond_app, !wsecond_wswap, <- !app_assoc.
  change (wsecond [([None], [])]) with [Get]. cbn [app].
  unfold evaluator_client_v2. apply (wf_bind _ _ (rest_is L)); [|intros ? [k m] ->; reflexivity].
  unfold evaluator_client_v3. cbv zeta. wfol. eapply wf_bind; [apply Hr|]. intros ? ? ->. eapply wf_bind; [apply wf_recv|]. intros ? ? ->.
  apply (wf_first _ _ _ _ _ Hd). intros x ->. eapply wf_bind; [apply Hmr|]. intros ? ? ->. wfol.
  eapply wf_bind; [apply Hr2|]. intros ? ? ->. wfol. 
Qed.
End MR.
End R1.
End Halves.

(** ** Over the crate's OT *)
Section Side.
Variable sha : bytes -> bytes.
Variables fill gen : bytes -> nat -> bytes.
Variable G : curve.
Variable p : profile.
Variable a : arch.
Variable cores : nat.
Notation ext_s r rs := (sender_with sha fill p a cores r (co_receiver sha gen G p rs)).
Notation ext_r r rs := (receiver_with sha fill p a cores r (co_sender sha gen G p rs)).
Notation many_s keys rm := (fun d ms => many_sender sha fill p cores (keys d) (co_sender sha gen G p rm) ms d).
Notation many_r rm := (fun d i => many_receiver sha fill p (co_receiver sha gen G p rm) i d).
Lemma wtwo_first {X Y Z} (A B : rounds) (q : proc X) (q' : X -> proc Y) (f : X -> Y -> Z) :
  wfollows (wfirst A ++ wfirst B) q (rest_is (wfirst B)) -> (forall x, wfollows (wfirst B ++ []) (q' x) (rest_is [])) ->
  wfollows (wfirst (A ++ B)) (let! x := q in let! y := q' x in ret (f x y)) (rest_is []).
Proof.
  intros H1 H2. rewrite wfirst_app. eapply wf_bind; [exact H1|]. intros ? x ->. specialize (H2 x). rewrite app_nil_r in H2.
  eapply wf_bind; [exact H2|]. intros ? ? ->. reflexivity.
Qed.
Lemma wtwo_second {X Y Z} (A B : rounds) (q : proc X) (q' : X -> proc Y) (f : X -> Y -> Z) :
  wfollows (wsecond A ++ wsecond B) q (rest_is (wsecond B)) -> (forall x, wfollows (wsecond B ++ []) (q' x) (rest_is [])) ->
  wfollows (wsecond (A ++ B)) (let! x := q in let! y := q' x in ret (f x y)) (rest_is []).
Proof.
  intros H1 H2. rewrite wsecond_app. eapply wf_bind; [exact H1|]. intros ? x ->. specialize (H2 x). rewrite app_nil_r in H2.
  eapply wf_bind; [exact H2|]. intros ? ? ->. reflexivity.
Qed.
Lemma wf_server_v1 keys rm r1 rs1 r2 rs2 g pws t d : coins_ok r1 -> coins_ok r2 -> (forall d, length (keys d) = d) ->
  N.of_nat (length pws) < 2 ^ 64 -> bits_for (N.of_nat (length pws)) d ->
  wfollows (wfirst (v1_rounds d)) (server_v1 sha p g (ext_s r1 rs1) (many_s keys rm) (ext_r r2 rs2) pws t) (rest_is []).
Proof.
  intros H1 H2 Hk Hn Hd. destruct (list_eq_dec (list_eq_dec N.eq_dec) pws []) as [->|Hp]; [exact I|].
  apply wtwo_first; [apply wf_gs_v1|intros; apply wf_es_v1]; intros; [now apply wf_sender_with|now apply wf_many_s|now apply list_bits|now apply wf_receiver_with].
Qed.
Lemma wf_client_v1 rand rm r1 rs1 r2 rs2 g pw n i t d : coins_ok r1 -> coins_ok r2 -> n <> 0 -> n < 2 ^ 32 -> bits_for n d ->
  wfollows (wsecond (v1_rounds d)) (client_v1 sha p rand g (ext_r r1 rs1) (many_r rm) (ext_s r2 rs2) pw n i t) (rest_is []).
Proof.
  intros H1 H2 H0 Hn Hd.
  apply wtwo_second; [apply wf_ec_v1|intros; apply wf_gc_v1]; intros; [now apply wf_receiver_with|now apply wf_many_r|now apply number_bits|now apply wf_sender_with].
Qed.
Lemma wf_server_v2 keys rm r1 rs1 r2 rs2 r3 rs3 keys' rm' mask mask' g pws t d : coins_ok r1 -> coins_ok r2 -> coins_ok r3 ->
  (forall d, length (keys d) = d) -> (forall d, length (keys' d) = d) -> N.of_nat (length pws) < 2 ^ 64 -> bits_for (N.of_nat (length pws)) d ->
  wfollows (wfirst (v2_rounds d)) (server_v2 sha p mask mask' g (ext_s r1 rs1) (many_s keys rm) (ext_s r2 rs2) (ext_r r3 rs3) (many_s keys' rm') pws t) (rest_is []).
Proof.
  intros H1 H2 H3 Hk Hk' Hn Hd. destruct (list_eq_dec (list_eq_dec N.eq_dec) pws []) as [->|Hp]; [exact I|].
  apply wtwo_first; [apply wf_gs_v2|intros; apply wf_es_v2]; intros;
    first [now apply wf_sender_with|now apply wf_many_s|now apply list_bits|now apply wf_receiver_with].
Qed.
Lemma wf_client_v2 rm r1 rs1 r2 rs2 r3 rs3 rm' g pw n i t d : coins_ok r1 -> coins_ok r2 -> coins_ok r3 -> n <> 0 -> n < 2 ^ 32 -> bits_for n d ->
  wfollows (wsecond (v2_rounds d)) (client_v2 sha p g (ext_r r1 rs1) (many_r rm) (ext_r r2 rs2) (ext_s r3 rs3) (many_r rm') pw n i t) (rest_is []).
Proof.
  intros H1 H2 H3 H0 Hn Hd.
  apply wtwo_second; [apply wf_ec_v2|intros; apply wf_gc_v2]; intros;
    first [now apply wf_sender_with|now apply wf_many_r|now apply number_bits|now apply wf_receiver_with].
Qed.
Lemma wf_server_v12 keys rm r1 rs1 r3 rs3 keys' rm' mask g pws t d : coins_ok r1 -> coins_ok r3 ->
  (forall d, length (keys d) = d) -> (forall d, length (keys' d) = d) -> N.of_nat (length pws) < 2 ^ 64 -> bits_for (N.of_nat (length pws)) d ->
  wfollows (wfirst (v12_rounds d)) (server_v12 sha p mask g (ext_s r1 rs1) (many_s keys rm) (ext_r r3 rs3) (many_s keys' rm') pws t) (rest_is []).
Proof.
  intros H1 H3 Hk Hk' Hn Hd. destruct (list_eq_dec (list_eq_dec N.eq_dec) pws []) as [->|Hp]; [exact I|].
  apply wtwo_first; [apply wf_gs_v1|intros; apply wf_es_v2]; intros;
    first [now apply wf_sender_with|now apply wf_many_s|now apply list_bits|now apply wf_receiver_with].
Qed.
Lemma wf_client_v12 rm r1 rs1 r3 rs3 rm' g pw n i t d : coins_ok r1 -> coins_ok r3 -> n <> 0 -> n < 2 ^ 32 -> bits_for n d ->
  wfollows (wsecond (v12_rounds d)) (client_v12 sha p g (ext_r r1 rs1) (many_r rm) (ext_s r3 rs3) (many_r rm') pw n i t) (rest_is []).
Proof.
  intros H1 H3 H0 Hn Hd.
  apply wtwo_second; [apply wf_ec_v1|intros; apply wf_gc_v2]; intros;
    first [now apply wf_sender_with|now apply wf_many_r|now apply number_bits|now apply wf_receiver_with].
Qed.
Lemma wf_server_v21 keys rm r1 rs1 r2 rs2 r3 rs3 mask g pws t d : coins_ok r1 -> coins_ok r2 -> coins_ok r3 ->
  (forall d, length (keys d) = d) -> N.of_nat (length pws) < 2 ^ 64 -> bits_for (N.of_nat (length pws)) d ->
  wfollows (wfirst (v21_rounds d)) (server_v21 sha p mask g (ext_s r1 rs1) (many_s keys rm) (ext_s r2 rs2) (ext_r r3 rs3) pws t) (rest_is []).
Proof.
  intros H1 H2 H3 Hk Hn Hd. destruct (list_eq_dec (list_eq_dec N.eq_dec) pws []) as [->|Hp]; [exact I|].
  apply wtwo_first; [apply wf_gs_v2|intros; apply wf_es_v1]; intros;
    first [now apply wf_sender_with|now apply wf_many_s|now apply list_bits|now apply wf_receiver_with].
Qed.
Lemma wf_client_v21 rand rm r1 rs1 r2 rs2 r3 rs3 g pw n i t d : coins_ok r1 -> coins_ok r2 -> coins_ok r3 -> n <> 0 -> n < 2 ^ 32 -> bits_for n d ->
  wfollows (wsecond (v21_rounds d)) (client_v21 sha p rand g (ext_r r1 rs1) (many_r rm) (ext_r r2 rs2) (ext_s r3 rs3) pw n i t) (rest_is []).
Proof.
  intros H1 H2 H3 H0 Hn Hd.
  apply wtwo_second; [apply wf_ec_v2|intros; apply wf_gc_v1]; intros;
    first [now apply wf_sender_with|now apply wf_many_r|now apply number_bits|now apply wf_receiver_with].
Qed.
End Side.
Notation ext_s sha fill gen G p a cores r rs := (sender_with sha fill p a cores r (co_receiver sha gen G p rs)).
Notation ext_r sha fill gen G p a cores r rs := (receiver_with sha fill p a cores r (co_sender sha gen G p rs)).
Notation many_s sha fill gen G p cores keys rm := (fun d ms => many_sender sha fill p cores (keys d) (co_sender sha gen G p rm) ms d).
Notation many_r sha fill gen G p rm := (fun d i => many_receiver sha fill p (co_receiver sha gen G p rm) i d).


(** ** Rooms *)
Lemma lean_s1 k : Forall (lean 28) (server_rounds_v1 k).
Proof. unfold server_rounds_v1. apply Forall_app; split; [leans|]. apply Forall_app; split; [apply lean_swap, lean_ext|apply lean_many]. Qed.
Lemma lean_s2 k : Forall (lean 28) (server_rounds_v2 k).
Proof.
  unfold server_rounds_v2. apply Forall_app; split; [leans|]. apply Forall_app; split; [apply lean_swap, lean_ext|]. apply Forall_app; split; [leans|].
  apply Forall_app; split; [apply lean_many|apply lean_swap, lean_ext].
Qed.
Lemma lean_c1 : Forall (lean 28) client_rounds_v1.
Proof. unfold client_rounds_v1. apply Forall_app; split; [leans|apply lean_ext]. Qed.
Lemma lean_c2 k : Forall (lean 28) (client_rounds_v2 k).
Proof. unfold client_rounds_v2. apply Forall_app; split; [leans|]. apply Forall_app; split; [apply lean_ext|]. apply Forall_app; split; [apply lean_many|leans]. Qed.

(** With room for 28 bytes and the framing of one frame, sides of the older versions end, as without a bound on the room. *)
Theorem C120_older_versions : forall h b sha fill gen G p a cores keys rm keys' rm' r1 rs1 r2 rs2 r3 rs3 mask mask' g pws t
    sha' fill' gen' G' p' a' cores' sm sm' s1 ss1 s2 ss2 s3 ss3 rand g' pw n i t' d,
  (28 + h <= b)%nat -> coins_ok r1 -> coins_ok r2 -> coins_ok r3 -> coins_ok s1 -> coins_ok s2 -> coins_ok s3 -> (forall d, length (keys d) = d) -> (forall d, length (keys' d) = d) ->
  N.of_nat (length pws) < 2 ^ 64 -> bits_for (N.of_nat (length pws)) d -> n <> 0 -> n < 2 ^ 32 -> bits_for n d ->
  ends_within h b
    (server_v1 sha p g (ext_s sha fill gen G p a cores r1 rs1) (many_s sha fill gen G p cores keys rm) (ext_r sha fill gen G p a cores r3 rs3) pws t)
    (client_v1 sha' p' rand g' (ext_r sha' fill' gen' G' p' a' cores' s1 ss1) (many_r sha' fill' gen' G' p' sm) (ext_s sha' fill' gen' G' p' a' cores' s3 ss3) pw n i t')
    (2 * frames (v1_dialogue d)) /\
  ends_within h b
    (server_v2 sha p mask mask' g (ext_s sha fill gen G p a cores r1 rs1) (many_s sha fill gen G p cores keys rm) (ext_s sha fill gen G p a cores r2 rs2)
       (ext_r sha fill gen G p a cores r3 rs3) (many_s sha fill gen G p cores keys' rm') pws t)
    (client_v2 sha' p' g' (ext_r sha' fill' gen' G' p' a' cores' s1 ss1) (many_r sha' fill' gen' G' p' sm) (ext_r sha' fill' gen' G' p' a' cores' s2 ss2)
       (ext_s sha' fill' gen' G' p' a' cores' s3 ss3) (many_r sha' fill' gen' G' p' sm') pw n i t')
    (2 * frames (v2_dialogue d)) /\
  ends_within h b
    (server_v12 sha p mask g (ext_s sha fill gen G p a cores r1 rs1) (many_s sha fill gen G p cores keys rm)
       (ext_r sha fill gen G p a cores r3 rs3) (many_s sha fill gen G p cores keys' rm') pws t)
    (client_v12 sha' p' g' (ext_r sha' fill' gen' G' p' a' cores' s1 ss1) (many_r sha' fill' gen' G' p' sm)
       (ext_s sha' fill' gen' G' p' a' cores' s3 ss3) (many_r sha' fill' gen' G' p' sm') pw n i t')
    (2 * frames (v12_dialogue d)) /\
  ends_within h b
    (server_v21 sha p mask g (ext_s sha fill gen G p a cores r1 rs1) (many_s sha fill gen G p cores keys rm) (ext_s sha fill gen G p a cores r2 rs2)
       (ext_r sha fill gen G p a cores r3 rs3) pws t)
    (client_v21 sha' p' rand g' (ext_r sha' fill' gen' G' p' a' cores' s1 ss1) (many_r sha' fill' gen' G' p' sm) (ext_r sha' fill' gen' G' p' a' cores' s2 ss2)
       (ext_s sha' fill' gen' G' p' a' cores' s3 ss3) pw n i t')
    (2 * frames (v21_dialogue d)).
Proof.
  intros h b sha fill gen G p a cores keys rm keys' rm' r1 rs1 r2 rs2 r3 rs3 mask mask' g pws t
    sha' fill' gen' G' p' a' cores' sm sm' s1 ss1 s2 ss2 s3 ss3 rand g' pw n i t' d Hb R1 R2 R3 S1 S2 S3 Hk Hk' Hn Hd H0 Hn' Hd'.
  pose proof (C109_older_end sha fill gen G p a cores keys rm keys' rm' r1 rs1 r2 rs2 r3 rs3 mask mask' g pws t
    sha' fill' gen' G' p' a' cores' sm sm' s1 ss1 s2 ss2 s3 ss3 rand g' pw n i t' d R1 R2 R3 S1 S2 S3 Hk Hk' Hn Hd H0 Hn' Hd') as (E1 & E2 & E3 & E4).
  split; [|split; [|split]].
  - eapply (room_ends _ _ (v1_rounds d)); [now apply wf_server_v1|now apply wf_client_v1|exact E1|]. apply lean_roomy; [assumption|]. apply Forall_app. split; [apply lean_s1|apply lean_c1].
  - eapply (room_ends _ _ (v2_rounds d)); [now apply wf_server_v2|now apply wf_client_v2|exact E2|]. apply lean_roomy; [assumption|]. apply Forall_app. split; [apply lean_s2|apply lean_c2].
  - eapply (room_ends _ _ (v12_rounds d)); [now apply wf_server_v12|now apply wf_client_v12|exact E3|]. apply lean_roomy; [assumption|]. apply Forall_app. split; [apply lean_s1|apply lean_c2].
  - eapply (room_ends _ _ (v21_rounds d)); [now apply wf_server_v21|now apply wf_client_v21|exact E4|]. apply lean_roomy; [assumption|]. apply Forall_app. split; [apply lean_s2|apply lean_c1].
Qed.
Print Assumptions C120_older_versions.
Example C120_older_case : (28 + 2 <= 30)%nat /\ bits_for 5 3 /\ coins_ok toy_coins /\ Forall (lean 28) (v2_rounds 3) /\ ~ Forall (lean 27) (v2_rounds 3).
Proof.
  split; [lia|]. split; [split; [discriminate|]; intros j Hj; destruct j as [|[|[|j]]]; cbn in Hj; lia|]. split; [exact toy_coins_ok|].
  split; [apply Forall_app; split; [apply lean_s2|apply lean_c2]|].
  intros H. rewrite Forall_forall in H. assert (I : List.In ([Some 28%nat], [Some 28%nat]) (v2_rounds 3)).
  { unfold v2_rounds, server_rounds_v2. apply in_or_app. left. apply in_or_app. right. apply in_or_app. right. apply in_or_app. right. apply in_or_app. left. right. left. reflexivity. }
  destruct (H _ I) as [E|[E|(n & E & _ & L)]]; [discriminate|discriminate|]. cbn in E. injection E as <-. lia.
Qed.
