(** C109 for the older versions of the one-of-many exchange. *)
From Coq Require Import List NArith Bool Arith Lia.
From Verif Require Import Base MUtil MWires MCircuit MGarble MPar MBincode MProc MOt MApricot MMany MFpake MLegacy MLegacy2.
From Verif Require Import SpecOt SpecApricot SpecTurns SpecTurns2.
From Verif Require Import PBase PProc PUtil PSizes PTurns PTurns2 CUtil COt CApricot CFpake CTurns.
Import ListNotations.
Open Scope N_scope.

Section Halves.
Variable sha : bytes -> bytes.
Variable p : profile.
Section S1.
Variable ots : list (bytes * bytes) -> proc unit.
Hypothesis Hs : forall ms M, follows (second_party ext_dialogue ++ M) (ots ms) (left_over M).
Lemma fol_gc_v1 rand g pw i n t L : follows (second_party client_garbles_v1 ++ L) (garbler_client_v1 sha p rand g ots pw i n t) (left_over L).
Proof.
  change (second_party client_garbles_v1 ++ L) with (Out :: Out :: second_party ext_dialogue ++ L).
  unfold garbler_client_v1. cbv zeta. eapply fol_bind; [apply fol_any|]. intros ? ? ->. eapply fol_bind; [apply fol_any|]. intros ? [[gc z] dk] ->.
  fol. eapply fol_bind; [apply Hs|]. intros ? ? ->. fol.
Qed.
Section M.
Variable many_s : nat -> list bytes -> proc unit.
Hypothesis Hms : forall d ms M, follows (first_party (many_dialogue d) ++ M) (many_s d ms) (left_over M).
Lemma fol_gs_v1 g pws t d L : oks (fun x => N.to_nat x = d) (log2_ p 64 (N.of_nat (length pws))) ->
  follows (first_party (server_garbles_v1 d) ++ L) (garbler_server_v1 sha p g ots many_s pws t) (left_over L).
Proof.
  intros Hd. unfold server_garbles_v1. rewrite !first_app, first_swap, <- !app_assoc.
  change (first_party [(1%nat, 0%nat)]) with [Out]. cbn [app].
  unfold garbler_server_v1. cbv zeta. eapply fol_bind; [apply fol_any|]. intros ? ? ->. eapply fol_bind; [apply fol_any|]. intros ? ? ->.
  eapply fol_bind; [apply fol_any|]. intros ? [[gc z] dk] ->. fol. eapply fol_bind; [apply Hs|]. intros ? ? ->.
  apply (fol_first _ _ _ _ _ Hd). intros x ->. fol. eapply fol_bind; [apply Hms|]. intros ? ? ->. fol.
Qed.
Variable ots2 : list (bytes * bytes) -> proc unit.
Hypothesis Hs2 : forall ms M, follows (second_party ext_dialogue ++ M) (ots2 ms) (left_over M).
Lemma fol_gs_v2 mask g pws t d L : oks (fun x => N.to_nat x = d) (log2_ p 64 (N.of_nat (length pws))) ->
  follows (first_party (server_garbles_v2 d) ++ L) (garbler_server_v2 sha p mask g ots many_s ots2 pws t) (left_over L).
Proof.
  intros Hd. unfold server_garbles_v2. rewrite !first_app, !first_swap, <- !app_assoc.
  change (first_party [(1%nat, 0%nat)]) with [Out]. cbn [app].
  unfold garbler_server_v2. apply (fol_bind _ _ (left_over L)); [|intros ? [k m] ->; reflexivity].
  unfold garbler_server_v3. cbv zeta. eapply fol_bind; [apply fol_any|]. intros ? ? ->. eapply fol_bind; [apply fol_any|]. intros ? ? ->.
  eapply fol_bind; [apply fol_any|]. intros ? [[gc z] dk] ->. fol. eapply fol_bind; [apply Hs|]. intros ? ? ->.
  eapply fol_bind; [apply fol_any|]. intros ? ? ->. eapply fol_bind; [apply fol_send|]. intros ? ? ->.
  apply (fol_first _ _ _ _ _ Hd). intros x ->. fol. eapply fol_bind; [apply Hms|]. intros ? ? ->. fol.
  eapply fol_bind; [apply Hs2|]. intros ? ? ->. fol.
Qed.
End M.
Section MR.
Variable many_r : nat -> N -> proc bytes.
Hypothesis Hmr : forall d i M, follows (second_party (many_dialogue d) ++ M) (many_r d i) (left_over M).
Lemma fol_gc_v2 g pw i n t d L : oks (fun x => N.to_nat x = d) (log2_ p 32 n) ->
  follows (second_party (client_garbles_v2 d) ++ L) (garbler_client_v2 sha p g ots many_r pw i n t) (left_over L).
Proof.
  intros Hd. unfold client_garbles_v2. rewrite !second_app, <- !app_assoc.
  change (second_party [(0%nat, 2%nat)]) with [Out; Out]. change (second_party [(0%nat, 1%nat)]) with [Out]. cbn [app].
  unfold garbler_client_v2. cbv zeta. eapply fol_bind; [apply fol_any|]. intros ? ? ->. eapply fol_bind; [apply fol_any|]. intros ? [[gc z] dk] ->.
  fol. eapply fol_bind; [apply Hs|]. intros ? ? ->. apply (fol_first _ _ _ _ _ Hd). intros x ->. fol. eapply fol_bind; [apply Hmr|]. intros ? ? ->. fol.
Qed.
End MR.
End S1.
Section R1.
Variable otr : list bool -> proc (list bytes).
Hypothesis Hr : forall cs M, follows (first_party ext_dialogue ++ M) (otr cs) (left_over M).
Lemma fol_es_v1 pws L : follows (first_party client_garbles_v1 ++ L) (evaluator_server_v1 sha p otr pws) (left_over L).
Proof.
  change (first_party client_garbles_v1 ++ L) with (In :: In :: first_party ext_dialogue ++ L).
  unfold evaluator_server_v1. apply (fol_bind _ _ (left_over L)); [|intros ? [k m] ->; reflexivity].
  unfold evaluator_server_v1_seen. fol. eapply fol_bind; [apply Hr|]. intros ? ? ->. fol.
Qed.
Section MS.
Variable many_s : nat -> list bytes -> proc unit.
Hypothesis Hms : forall d ms M, follows (first_party (many_dialogue d) ++ M) (many_s d ms) (left_over M).
Lemma fol_es_v2 mask pws d L : oks (fun x => N.to_nat x = d) (log2_ p 64 (N.of_nat (length pws))) ->
  follows (first_party (client_garbles_v2 d) ++ L) (evaluator_server_v2 sha p mask otr many_s pws) (left_over L).
Proof.
  intros Hd. unfold client_garbles_v2. rewrite !first_app, <- !app_assoc.
  change (first_party [(0%nat, 2%nat)]) with [In; In]. change (first_party [(0%nat, 1%nat)]) with [In]. cbn [app].
  unfold evaluator_server_v2. fol. eapply fol_bind; [apply Hr|]. intros ? ? ->.
  apply (fol_first _ _ _ _ _ Hd). intros x ->. eapply fol_bind; [apply Hms|]. intros ? ? ->. fol.
Qed.
End MS.
Section MR.
Variable many_r : nat -> N -> proc bytes.
Hypothesis Hmr : forall d i M, follows (second_party (many_dialogue d) ++ M) (many_r d i) (left_over M).
Lemma fol_ec_v1 pw n i d L : oks (fun x => N.to_nat x = d) (log2_ p 32 n) ->
  follows (second_party (server_garbles_v1 d) ++ L) (evaluator_client_v1 sha p otr many_r pw n i) (left_over L).
Proof.
  intros Hd. unfold server_garbles_v1. rewrite !second_app, second_swap, <- !app_assoc.
  change (second_party [(1%nat, 0%nat)]) with [In]. cbn [app].
  unfold evaluator_client_v1. fol. eapply fol_bind; [apply Hr|]. intros ? ? ->.
  apply (fol_first _ _ _ _ _ Hd). intros x ->. eapply fol_bind; [apply Hmr|]. intros ? ? ->. fol.
Qed.
Variable otr2 : list bool -> proc (list bytes).
Hypothesis Hr2 : forall cs M, follows (first_party ext_dialogue ++ M) (otr2 cs) (left_over M).
Lemma fol_ec_v2 pw n i d L : oks (fun x => N.to_nat x = d) (log2_ p 32 n) ->
  follows (second_party (server_garbles_v2 d) ++ L) (evaluator_client_v2 sha p otr many_r otr2 pw n i) (left_over L).
Proof.
  intros Hd. unfold server_garbles_v2. rewrite !second_app, !second_swap, <- !app_assoc.
  change (second_party [(1%nat, 0%nat)]) with [In]. cbn [app].
  unfold evaluator_client_v2. apply (fol_bind _ _ (left_over L)); [|intros ? [k m] ->; reflexivity].
  unfold evaluator_client_v3. cbv zeta. fol. eapply fol_bind; [apply Hr|]. intros ? ? ->. eapply fol_bind; [apply fol_recv|]. intros ? ? ->.
  apply (fol_first _ _ _ _ _ Hd). intros x ->. eapply fol_bind; [apply Hmr|]. intros ? ? ->. fol.
  eapply fol_bind; [apply Hr2|]. intros ? ? ->. fol. 
Qed.
End MR.
End R1.
End Halves.

(** ** Over the crate's OT *)
Section Side.
Variable sha : bytes -> bytes.
Variables fill gen : bytes -> nat -> bytes.
Variable G : curve.
Variable p : profile.
Variable a : arch.
Variable cores : nat.
Notation ext_s r rs := (sender_with sha fill p a cores r (co_receiver sha gen G p rs)).
Notation ext_r r rs := (receiver_with sha fill p a cores r (co_sender sha gen G p rs)).
Notation many_s keys rm := (fun d ms => many_sender sha fill p cores (keys d) (co_sender sha gen G p rm) ms d).
Notation many_r rm := (fun d i => many_receiver sha fill p (co_receiver sha gen G p rm) i d).
Lemma two_first {X Y Z} (A B : dialogue) (q : proc X) (q' : X -> proc Y) (f : X -> Y -> Z) :
  follows (first_party A ++ first_party B) q (left_over (first_party B)) -> (forall x, follows (first_party B ++ []) (q' x) (left_over [])) ->
  follows (first_party (A ++ B)) (let! x := q in let! y := q' x in ret (f x y)) (left_over []).
Proof.
  intros H1 H2. rewrite first_app. eapply fol_bind; [exact H1|]. intros ? x ->. specialize (H2 x). rewrite app_nil_r in H2.
  eapply fol_bind; [exact H2|]. intros ? ? ->. reflexivity.
Qed.
Lemma two_second {X Y Z} (A B : dialogue) (q : proc X) (q' : X -> proc Y) (f : X -> Y -> Z) :
  follows (second_party A ++ second_party B) q (left_over (second_party B)) -> (forall x, follows (second_party B ++ []) (q' x) (left_over [])) ->
  follows (second_party (A ++ B)) (let! x := q in let! y := q' x in ret (f x y)) (left_over []).
Proof.
  intros H1 H2. rewrite second_app. eapply fol_bind; [exact H1|]. intros ? x ->. specialize (H2 x). rewrite app_nil_r in H2.
  eapply fol_bind; [exact H2|]. intros ? ? ->. reflexivity.
Qed.
Lemma list_bits (pws : list bytes) d : pws <> [] -> N.of_nat (length pws) < 2 ^ 64 -> bits_for (N.of_nat (length pws)) d ->
  oks (fun x => N.to_nat x = d) (log2_ p 64 (N.of_nat (length pws))).
Proof. intros H0 Hn Hd. apply log_bits; auto; [reflexivity|]. destruct pws; [congruence|]. cbn [length]. lia. Qed.
Lemma number_bits n d : n <> 0 -> n < 2 ^ 32 -> bits_for n d -> oks (fun x => N.to_nat x = d) (log2_ p 32 n).
Proof. intros H0 Hn Hd. apply log_bits; auto; reflexivity. Qed.
Lemma fol_server_v1 keys rm r1 rs1 r2 rs2 g pws t d : coins_ok r1 -> coins_ok r2 -> (forall d, length (keys d) = d) ->
  N.of_nat (length pws) < 2 ^ 64 -> bits_for (N.of_nat (length pws)) d ->
  follows (first_party (v1_dialogue d)) (server_v1 sha p g (ext_s r1 rs1) (many_s keys rm) (ext_r r2 rs2) pws t) (left_over []).
Proof.
  intros H1 H2 Hk Hn Hd. destruct (list_eq_dec (list_eq_dec N.eq_dec) pws []) as [->|Hp]; [exact I|].
  apply two_first; [apply fol_gs_v1|intros; apply fol_es_v1]; intros; [now apply fol_sender_with|now apply fol_many_s|now apply list_bits|now apply fol_receiver_with].
Qed.
Lemma fol_client_v1 rand rm r1 rs1 r2 rs2 g pw n i t d : coins_ok r1 -> coins_ok r2 -> n <> 0 -> n < 2 ^ 32 -> bits_for n d ->
  follows (second_party (v1_dialogue d)) (client_v1 sha p rand g (ext_r r1 rs1) (many_r rm) (ext_s r2 rs2) pw n i t) (left_over []).
Proof.
  intros H1 H2 H0 Hn Hd.
  apply two_second; [apply fol_ec_v1|intros; apply fol_gc_v1]; intros; [now apply fol_receiver_with|now apply fol_many_r|now apply number_bits|now apply fol_sender_with].
Qed.
Lemma fol_server_v2 keys rm r1 rs1 r2 rs2 r3 rs3 keys' rm' mask mask' g pws t d : coins_ok r1 -> coins_ok r2 -> coins_ok r3 ->
  (forall d, length (keys d) = d) -> (forall d, length (keys' d) = d) -> N.of_nat (length pws) < 2 ^ 64 -> bits_for (N.of_nat (length pws)) d ->
  follows (first_party (v2_dialogue d)) (server_v2 sha p mask mask' g (ext_s r1 rs1) (many_s keys rm) (ext_s r2 rs2) (ext_r r3 rs3) (many_s keys' rm') pws t) (left_over []).
Proof.
  intros H1 H2 H3 Hk Hk' Hn Hd. destruct (list_eq_dec (list_eq_dec N.eq_dec) pws []) as [->|Hp]; [exact I|].
  apply two_first; [apply fol_gs_v2|intros; apply fol_es_v2]; intros;
    first [now apply fol_sender_with|now apply fol_many_s|now apply list_bits|now apply fol_receiver_with].
Qed.
Lemma fol_client_v2 rm r1 rs1 r2 rs2 r3 rs3 rm' g pw n i t d : coins_ok r1 -> coins_ok r2 -> coins_ok r3 -> n <> 0 -> n < 2 ^ 32 -> bits_for n d ->
  follows (second_party (v2_dialogue d)) (client_v2 sha p g (ext_r r1 rs1) (many_r rm) (ext_r r2 rs2) (ext_s r3 rs3) (many_r rm') pw n i t) (left_over []).
Proof.
  intros H1 H2 H3 H0 Hn Hd.
  apply two_second; [apply fol_ec_v2|intros; apply fol_gc_v2]; intros;
    first [now apply fol_sender_with|now apply fol_many_r|now apply number_bits|now apply fol_receiver_with].
Qed.
Lemma fol_server_v12 keys rm r1 rs1 r3 rs3 keys' rm' mask g pws t d : coins_ok r1 -> coins_ok r3 ->
  (forall d, length (keys d) = d) -> (forall d, length (keys' d) = d) -> N.of_nat (length pws) < 2 ^ 64 -> bits_for (N.of_nat (length pws)) d ->
  follows (first_party (v12_dialogue d)) (server_v12 sha p mask g (ext_s r1 rs1) (many_s keys rm) (ext_r r3 rs3) (many_s keys' rm') pws t) (left_over []).
Proof.
  intros H1 H3 Hk Hk' Hn Hd. destruct (list_eq_dec (list_eq_dec N.eq_dec) pws []) as [->|Hp]; [exact I|].
  apply two_first; [apply fol_gs_v1|intros; apply fol_es_v2]; intros;
    first [now apply fol_sender_with|now apply fol_many_s|now apply list_bits|now apply fol_receiver_with].
Qed.
Lemma fol_client_v12 rm r1 rs1 r3 rs3 rm' g pw n i t d : coins_ok r1 -> coins_ok r3 -> n <> 0 -> n < 2 ^ 32 -> bits_for n d ->
  follows (second_party (v12_dialogue d)) (client_v12 sha p g (ext_r r1 rs1) (many_r rm) (ext_s r3 rs3) (many_r rm') pw n i t) (left_over []).
Proof.
  intros H1 H3 H0 Hn Hd.
  apply two_second; [apply fol_ec_v1|intros; apply fol_gc_v2]; intros;
    first [now apply fol_sender_with|now apply fol_many_r|now apply number_bits|now apply fol_receiver_with].
Qed.
Lemma fol_server_v21 keys rm r1 rs1 r2 rs2 r3 rs3 mask g pws t d : coins_ok r1 -> coins_ok r2 -> coins_ok r3 ->
  (forall d, length (keys d) = d) -> N.of_nat (length pws) < 2 ^ 64 -> bits_for (N.of_nat (length pws)) d ->
  follows (first_party (v21_dialogue d)) (server_v21 sha p mask g (ext_s r1 rs1) (many_s keys rm) (ext_s r2 rs2) (ext_r r3 rs3) pws t) (left_over []).
Proof.
  intros H1 H2 H3 Hk Hn Hd. destruct (list_eq_dec (list_eq_dec N.eq_dec) pws []) as [->|Hp]; [exact I|].
  apply two_first; [apply fol_gs_v2|intros; apply fol_es_v1]; intros;
    first [now apply fol_sender_with|now apply fol_many_s|now apply list_bits|now apply fol_receiver_with].
Qed.
Lemma fol_client_v21 rand rm r1 rs1 r2 rs2 r3 rs3 g pw n i t d : coins_ok r1 -> coins_ok r2 -> coins_ok r3 -> n <> 0 -> n < 2 ^ 32 -> bits_for n d ->
  follows (second_party (v21_dialogue d)) (client_v21 sha p rand g (ext_r r1 rs1) (many_r rm) (ext_r r2 rs2) (ext_s r3 rs3) pw n i t) (left_over []).
Proof.
  intros H1 H2 H3 H0 Hn Hd.
  apply two_second; [apply fol_ec_v2|intros; apply fol_gc_v1]; intros;
    first [now apply fol_sender_with|now apply fol_many_r|now apply number_bits|now apply fol_receiver_with].
Qed.
End Side.
Notation ext_s sha fill gen G p a cores r rs := (sender_with sha fill p a cores r (co_receiver sha gen G p rs)).
Notation ext_r sha fill gen G p a cores r rs := (receiver_with sha fill p a cores r (co_sender sha gen G p rs)).
Notation many_s sha fill gen G p cores keys rm := (fun d ms => many_sender sha fill p cores (keys d) (co_sender sha gen G p rm) ms d).
Notation many_r sha fill gen G p rm := (fun d i => many_receiver sha fill p (co_receiver sha gen G p rm) i d).

(** Sides of the older versions, alone or mixed, act in an order that depends only on the number of bits of an index. *)
Theorem C109_older_servers : forall sha fill gen G p a cores keys rm keys' rm' r1 rs1 r2 rs2 r3 rs3 mask mask' g pws t d,
  coins_ok r1 -> coins_ok r2 -> coins_ok r3 -> (forall d, length (keys d) = d) -> (forall d, length (keys' d) = d) ->
  N.of_nat (length pws) < 2 ^ 64 -> bits_for (N.of_nat (length pws)) d ->
  takes_turns (server_v1 sha p g (ext_s sha fill gen G p a cores r1 rs1) (many_s sha fill gen G p cores keys rm) (ext_r sha fill gen G p a cores r3 rs3) pws t)
    (first_party (v1_dialogue d)) /\
  takes_turns (server_v2 sha p mask mask' g (ext_s sha fill gen G p a cores r1 rs1) (many_s sha fill gen G p cores keys rm) (ext_s sha fill gen G p a cores r2 rs2)
     (ext_r sha fill gen G p a cores r3 rs3) (many_s sha fill gen G p cores keys' rm') pws t) (first_party (v2_dialogue d)) /\
  takes_turns (server_v12 sha p mask g (ext_s sha fill gen G p a cores r1 rs1) (many_s sha fill gen G p cores keys rm)
     (ext_r sha fill gen G p a cores r3 rs3) (many_s sha fill gen G p cores keys' rm') pws t) (first_party (v12_dialogue d)) /\
  takes_turns (server_v21 sha p mask g (ext_s sha fill gen G p a cores r1 rs1) (many_s sha fill gen G p cores keys rm) (ext_s sha fill gen G p a cores r2 rs2)
     (ext_r sha fill gen G p a cores r3 rs3) pws t) (first_party (v21_dialogue d)).
Proof. intros. repeat split; apply fol_turns; [now apply fol_server_v1|now apply fol_server_v2|now apply fol_server_v12|now apply fol_server_v21]. Qed.
Print Assumptions C109_older_servers.
Theorem C109_older_clients : forall sha fill gen G p a cores rm rm' r1 rs1 r2 rs2 r3 rs3 rand g pw n i t d,
  coins_ok r1 -> coins_ok r2 -> coins_ok r3 -> n <> 0 -> n < 2 ^ 32 -> bits_for n d ->
  takes_turns (client_v1 sha p rand g (ext_r sha fill gen G p a cores r1 rs1) (many_r sha fill gen G p rm) (ext_s sha fill gen G p a cores r3 rs3) pw n i t)
    (second_party (v1_dialogue d)) /\
  takes_turns (client_v2 sha p g (ext_r sha fill gen G p a cores r1 rs1) (many_r sha fill gen G p rm) (ext_r sha fill gen G p a cores r2 rs2)
     (ext_s sha fill gen G p a cores r3 rs3) (many_r sha fill gen G p rm') pw n i t) (second_party (v2_dialogue d)) /\
  takes_turns (client_v12 sha p g (ext_r sha fill gen G p a cores r1 rs1) (many_r sha fill gen G p rm)
     (ext_s sha fill gen G p a cores r3 rs3) (many_r sha fill gen G p rm') pw n i t) (second_party (v12_dialogue d)) /\
  takes_turns (client_v21 sha p rand g (ext_r sha fill gen G p a cores r1 rs1) (many_r sha fill gen G p rm) (ext_r sha fill gen G p a cores r2 rs2)
     (ext_s sha fill gen G p a cores r3 rs3) pw n i t) (second_party (v21_dialogue d)).
Proof. intros. repeat split; apply fol_turns; [now apply fol_client_v1|now apply fol_client_v2|now apply fol_client_v12|now apply fol_client_v21]. Qed.
Print Assumptions C109_older_clients.

(** They never wait for each other, whatever their lists, passwords, thresholds, builds and machines. *)
Theorem C109_older_end : forall sha fill gen G p a cores keys rm keys' rm' r1 rs1 r2 rs2 r3 rs3 mask mask' g pws t
    sha' fill' gen' G' p' a' cores' sm sm' s1 ss1 s2 ss2 s3 ss3 rand g' pw n i t' d,
  coins_ok r1 -> coins_ok r2 -> coins_ok r3 -> coins_ok s1 -> coins_ok s2 -> coins_ok s3 -> (forall d, length (keys d) = d) -> (forall d, length (keys' d) = d) ->
  N.of_nat (length pws) < 2 ^ 64 -> bits_for (N.of_nat (length pws)) d -> n <> 0 -> n < 2 ^ 32 -> bits_for n d ->
  never_stuck
    (server_v1 sha p g (ext_s sha fill gen G p a cores r1 rs1) (many_s sha fill gen G p cores keys rm) (ext_r sha fill gen G p a cores r3 rs3) pws t)
    (client_v1 sha' p' rand g' (ext_r sha' fill' gen' G' p' a' cores' s1 ss1) (many_r sha' fill' gen' G' p' sm) (ext_s sha' fill' gen' G' p' a' cores' s3 ss3) pw n i t')
    (2 * frames (v1_dialogue d)) /\
  never_stuck
    (server_v2 sha p mask mask' g (ext_s sha fill gen G p a cores r1 rs1) (many_s sha fill gen G p cores keys rm) (ext_s sha fill gen G p a cores r2 rs2)
       (ext_r sha fill gen G p a cores r3 rs3) (many_s sha fill gen G p cores keys' rm') pws t)
    (client_v2 sha' p' g' (ext_r sha' fill' gen' G' p' a' cores' s1 ss1) (many_r sha' fill' gen' G' p' sm) (ext_r sha' fill' gen' G' p' a' cores' s2 ss2)
       (ext_s sha' fill' gen' G' p' a' cores' s3 ss3) (many_r sha' fill' gen' G' p' sm') pw n i t')
    (2 * frames (v2_dialogue d)) /\
  never_stuck
    (server_v12 sha p mask g (ext_s sha fill gen G p a cores r1 rs1) (many_s sha fill gen G p cores keys rm)
       (ext_r sha fill gen G p a cores r3 rs3) (many_s sha fill gen G p cores keys' rm') pws t)
    (client_v12 sha' p' g' (ext_r sha' fill' gen' G' p' a' cores' s1 ss1) (many_r sha' fill' gen' G' p' sm)
       (ext_s sha' fill' gen' G' p' a' cores' s3 ss3) (many_r sha' fill' gen' G' p' sm') pw n i t')
    (2 * frames (v12_dialogue d)) /\
  never_stuck
    (server_v21 sha p mask g (ext_s sha fill gen G p a cores r1 rs1) (many_s sha fill gen G p cores keys rm) (ext_s sha fill gen G p a cores r2 rs2)
       (ext_r sha fill gen G p a cores r3 rs3) pws t)
    (client_v21 sha' p' rand g' (ext_r sha' fill' gen' G' p' a' cores' s1 ss1) (many_r sha' fill' gen' G' p' sm) (ext_r sha' fill' gen' G' p' a' cores' s2 ss2)
       (ext_s sha' fill' gen' G' p' a' cores' s3 ss3) pw n i t')
    (2 * frames (v21_dialogue d)).
Proof.
  intros. split; [|split; [|split]]; apply dialogue_never_stuck;
    [now apply fol_server_v1|now apply fol_client_v1|now apply fol_server_v2|now apply fol_client_v2|now apply fol_server_v12|now apply fol_client_v12|now apply fol_server_v21|now apply fol_client_v21].
Qed.
Print Assumptions C109_older_end.
(** The numbers of frames, and the premises. *)
Example C109_older_case :
  frames (v1_dialogue 3) = 551%nat /\ frames (v2_dialogue 3) = 832%nat /\ frames (v12_dialogue 3) = 562%nat /\ frames (v21_dialogue 3) = 821%nat /\
  bits_for 5 3 /\ coins_ok toy_coins.
Proof.
  split; [reflexivity|]. split; [reflexivity|]. split; [reflexivity|]. split; [reflexivity|]. split; [|exact toy_coins_ok].
  split; [discriminate|]. intros j Hj. destruct j as [|[|[|j]]]; cbn in Hj; lia.
Qed.
