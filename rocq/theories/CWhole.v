(** Property C105: the programs as a whole, whatever the peer sends. *)
From Coq Require Import List NArith Bool Arith Lia.
From Verif Require Import Base MUtil MWires MCircuit MGarble MPar MBincode MProc MOt MApricot MMany MFpake MChannel MMain.
From Verif Require Import SpecOt SpecApricot SpecMany SpecMfpake SpecHostile SpecBounds SpecWhole.
From Verif Require Import PBase PProc PHang PHangOt PUtil PMany PBounds PBounds2 PWhole CCircuit COt CApricot CMany CFpake CMfpake CChannel CMain CCrash.
Import ListNotations.
Open Scope N_scope.

(** ** The halves over the crate's OT *)
Lemma holds_garbler_ap (C : nat -> bytes -> Prop) sha fill gen G p a cores r rs g pw t n :
  generator fill -> coins_ok r -> (length pw * 8 <= n)%nat -> (forall i m, C i m -> ap_cond n i m) ->
  holds C 0 (garbler sha p g (sender_with sha fill p a cores r (co_receiver sha gen G p rs)) pw t) (fun j _ => j = 136%nat).
Proof.
  intros Hf (_ & _ & [Ld _] & _) Ln HC. apply holds_garbler. intros ms Lm. unfold sender_with.
  eapply holds_cond; [|apply holds_ap_sender; [exact Hf|exact Ld]].
  intros i m Hi. rewrite Lm. eapply ap_cond_le; [exact Ln|]. now apply HC.
Qed.
Lemma holds_evaluator_ap (C : nat -> bytes -> Prop) sha fill gen G p a cores r rs pw :
  generator fill -> coins_ok r -> (forall i m, C i m -> circuit_cond 133 i m) ->
  holds C 0 (evaluator sha p (receiver_with sha fill p a cores r (co_sender sha gen G p rs)) pw) (fun j _ => j = 135%nat).
Proof.
  intros Hf (_ & _ & _ & _ & [L0 _] & [L1 _]) HC. eapply holds_cond; [exact HC|]. apply holds_evaluator. unfold receiver_with.
  eapply holds_weak; [now apply holds_ap_receiver|]. cbn beta. rewrite combine_length, L0, L1. intros; assumption.
Qed.
Lemma shifted {A} (C C' : nat -> bytes -> Prop) (q : proc A) k n : (forall j m, C' (k + j)%nat m -> C j m) ->
  holds C 0 q (fun j _ => j = n) -> holds C' k q (fun j _ => j = (k + n)%nat).
Proof.
  intros H Hq. eapply (holds_shift _ _ _ _ k H) in Hq. rewrite Nat.add_0_r in Hq. eapply holds_weak; [exact Hq|].
  cbn beta. intros j _ (i & -> & ->). reflexivity.
Qed.

(** What the frames of a session must be like: from frame [k] on the garbler's OT, from frame [l] on the evaluator's. *)
Definition session_cond (n k l : nat) (i : nat) (m : bytes) : Prop :=
  (forall j, i = (k + j)%nat -> ap_cond n j m) /\ (forall j, i = (l + j)%nat -> circuit_cond 133 j m).
Lemma session_frames n k l f : apricot_frames n (skipn k f) -> safe_circuit (l + 133) f ->
  forall i m, nth_error f i = Some m -> session_cond n k l i m.
Proof.
  intros (H1 & H2 & H3) Hc i m Hi. split; intros j ->.
  - rewrite <- (PHostile.nth_error_skip f k j) in Hi. split; [|split]; intros ->; [intros pay Hp; now apply (H1 m pay)|now apply H2|now apply H3].
  - intros -> gc Hgc. now apply (Hc m gc).
Qed.
Lemma server_holds sha fill gen G p a cores r rs r' rs' g pw t n k : generator fill -> coins_ok r -> coins_ok r' -> (length pw * 8 <= n)%nat ->
  holds (session_cond n k (k + 136)) k (fpake_server sha p g (sender_with sha fill p a cores r (co_receiver sha gen G p rs))
    (receiver_with sha fill p a cores r' (co_sender sha gen G p rs')) pw t) (fun _ _ => True).
Proof.
  intros Hf Hr Hr' Ln. unfold fpake_server.
  eapply holds_bind; [apply (shifted (ap_cond n)); [|apply (holds_garbler_ap _ sha fill gen G p a cores r rs g pw t n); auto]|].
  - intros j m [H _]. now apply H.
  - intros ? k1 ->. eapply holds_bind; [apply (shifted (circuit_cond 133)); [|apply (holds_evaluator_ap _ sha fill gen G p a cores r' rs' pw); auto]|].
    + intros j m [_ H]. now apply H.
    + intros ? k2 _. exact I.
Qed.
Lemma client_holds sha fill gen G p a cores r rs r' rs' g pw t n k : generator fill -> coins_ok r -> coins_ok r' -> (length pw * 8 <= n)%nat ->
  holds (session_cond n (k + 135) k) k (fpake_client sha p g (sender_with sha fill p a cores r (co_receiver sha gen G p rs))
    (receiver_with sha fill p a cores r' (co_sender sha gen G p rs')) pw t) (fun _ _ => True).
Proof.
  intros Hf Hr Hr' Ln. unfold fpake_client.
  eapply holds_bind; [apply (shifted (circuit_cond 133)); [|apply (holds_evaluator_ap _ sha fill gen G p a cores r' rs' pw); auto]|].
  - intros j m [_ H]. now apply H.
  - intros ? k1 ->. eapply holds_bind; [apply (shifted (ap_cond n)); [|apply (holds_garbler_ap _ sha fill gen G p a cores r rs g pw t n); auto]|].
    + intros j m [H _]. now apply H.
    + intros ? k2 _. exact I.
Qed.
Lemma hang_sender_with sha fill gen G p a cores r rs ms : hangup (sender_with sha fill p a cores r (co_receiver sha gen G p rs) ms).
Proof. apply hang_ap_sender. intros. apply hang_co_receiver. Qed.
Lemma hang_receiver_with sha fill gen G p a cores r rs cs : hangup (receiver_with sha fill p a cores r (co_sender sha gen G p rs) cs).
Proof. apply hang_ap_receiver. intros. apply hang_co_sender. Qed.

(** The programs of main.rs, for every list of frames, read no memory outside of their buffers, unless one of three
    messages of the OT is too short (C40) or the circuit reads wires before it writes them (C82). *)
Theorem C105_server : forall hmac xpub xdh sha fill gen G p a cores sec r rs r' rs' g pw t ins,
  generator fill -> coins_ok r -> coins_ok r' ->
  apricot_frames (length pw * 8) (messages_of ins) -> safe_circuit 269 (messages_of ins) ->
  fst (feed (main_server hmac xpub xdh sha p sec g (sender_with sha fill p a cores r (co_receiver sha gen G p rs))
     (receiver_with sha fill p a cores r' (co_sender sha gen G p rs')) pw t) ins) <> UB.
Proof.
  intros hmac xpub xdh sha fill gen G p a cores sec r rs r' rs' g pw t ins Hf Hr Hr' H1 H2. unfold main_server.
  eapply serve_bounds; [apply hang_fpake_server; intros; [apply hang_sender_with|apply hang_receiver_with]
    |apply (server_holds sha fill gen G p a cores r rs r' rs' g pw t (length pw * 8) 0); auto|].
  now apply session_frames.
Qed.
Print Assumptions C105_server.
Theorem C105_client : forall hmac xpub xdh sha fill gen G p a cores sec r rs r' rs' g pw t ins,
  generator fill -> coins_ok r -> coins_ok r' ->
  safe_circuit 133 (messages_of ins) -> apricot_frames (length pw * 8) (skipn 135 (messages_of ins)) ->
  fst (feed (main_client hmac xpub xdh sha p sec g (sender_with sha fill p a cores r (co_receiver sha gen G p rs))
     (receiver_with sha fill p a cores r' (co_sender sha gen G p rs')) pw t) ins) <> UB.
Proof.
  intros hmac xpub xdh sha fill gen G p a cores sec r rs r' rs' g pw t ins Hf Hr Hr' H1 H2. unfold main_client.
  eapply connect_bounds; [apply hang_fpake_client; intros; [apply hang_sender_with|apply hang_receiver_with]
    |apply (client_holds sha fill gen G p a cores r rs r' rs' g pw t (length pw * 8) 0); auto|].
  now apply session_frames.
Qed.
Print Assumptions C105_client.

(** ** One of many *)
Lemma many_server_holds sha fill gen G p a cores keys rm r rs r' rs' mask g pws t d l : generator fill -> coins_ok r -> coins_ok r' ->
  length keys = d -> fits cores d -> (1 <= l)%nat -> password_list d l pws -> length mask = l ->
  holds (session_cond (l * 8) (d + 1) (d + 137)) 0
    (mfpake_many sha p mask g (fun d ms => many_sender sha fill p cores keys (co_sender sha gen G p rm) ms d)
       (sender_with sha fill p a cores r (co_receiver sha gen G p rs)) (receiver_with sha fill p a cores r' (co_sender sha gen G p rs')) pws t) (fun _ _ => True).
Proof.
  intros Hf Hr Hr' Lk Hfit Hl (Hd & Lp & Fp) Lm. unfold mfpake_many.
  assert (Hpow : N.of_nat (length pws) = 2 ^ N.of_nat d) by (rewrite Lp, Nnat.Nat2N.inj_pow; reflexivity).
  eapply holds_bind; [apply holds_lift, keeps_idx|]. intros ? p0 [-> H0].
  assert (L0 : length p0 = l) by (rewrite Forall_forall in Fp; apply Fp; eapply nth_error_In; exact H0).
  rewrite L0, mask_passwords_ok by auto.
  eapply holds_bind; [apply holds_lift; instantiate (1 := fun x => x = map (xor mask) pws); reflexivity|]. intros ? masked [-> ->].
  rewrite Hpow, log2_pow2; [|reflexivity|lia].
  eapply holds_bind; [apply holds_lift; instantiate (1 := fun x => x = N.of_nat d); reflexivity|]. intros ? d' [-> ->]. rewrite Nnat.Nat2N.id.
  eapply (holds_bind _ _ _ (fun j _ => j = (d + 1)%nat)).
  - unfold many_sender. eapply holds_bind; [apply holds_lift, keeps_idx|]. intros ? m0 [-> Hm0].
    assert (Lm0 : length m0 = l).
    { rewrite nth_error_map, H0 in Hm0. injection Hm0 as <-. rewrite xor_length; congruence. }
    rewrite Lm0. rewrite (y_ok sha fill Hf p cores keys (map (xor mask) pws) d l); [|lia|exact Lk|exact Hl| |rewrite map_length; lia|now apply fits_guard].
    2: { apply Forall_forall. intros x Hx. apply in_map_iff in Hx as (w & <- & Hw). rewrite Forall_forall in Fp. rewrite xor_length; [exact Lm|]. now rewrite (Fp w Hw). }
    eapply holds_bind; [apply holds_lift; instantiate (1 := fun _ => True); exact I|]. intros ? y [-> _].
    eapply holds_bind; [apply holds_send|]. intros ? _ ->. eapply holds_weak; [apply holds_co_sender|]. cbn beta. intros; lia.
  - intros ? _ ->. replace (d + 137)%nat with (d + 1 + 136)%nat by lia.
    change (holds (session_cond (l * 8) (d + 1) (d + 1 + 136)) (d + 1) (fpake_server sha p g (sender_with sha fill p a cores r (co_receiver sha gen G p rs))
      (receiver_with sha fill p a cores r' (co_sender sha gen G p rs')) mask t) (fun _ _ => True)).
    apply server_holds; auto. lia.
Qed.
Lemma many_client_holds sha fill gen G p a cores rm r rs r' rs' g pw index t d : generator fill -> coins_ok r -> coins_ok r' ->
  (d <= 31)%nat -> index < 2 ^ N.of_nat d ->
  holds (session_cond (length pw * 8) (d + 138) (d + 3)) 0
    (mfpake_single sha p g (fun d i => many_receiver sha fill p (co_receiver sha gen G p rm) i d)
       (sender_with sha fill p a cores r (co_receiver sha gen G p rs)) (receiver_with sha fill p a cores r' (co_sender sha gen G p rs')) pw index (N.of_nat (2 ^ d)) t) (fun _ _ => True).
Proof.
  intros Hf Hr Hr' Hd Hi. unfold mfpake_single.
  assert (Hpow : N.of_nat (2 ^ d) = 2 ^ N.of_nat d) by (rewrite Nnat.Nat2N.inj_pow; reflexivity).
  rewrite Hpow, log2_pow2; [|reflexivity|lia].
  eapply holds_bind; [apply holds_lift; instantiate (1 := fun x => x = N.of_nat d); reflexivity|]. intros ? d' [-> ->]. rewrite Nnat.Nat2N.id.
  eapply holds_bind; [eapply holds_cond; [|apply holds_many_receiver; [lia|exact Hi]]; intros; exact I|]. intros ? masked ->.
  eapply holds_bind; [apply holds_lift; instantiate (1 := fun x => (length x <= length pw)%nat)|].
  { unfold xor_bytes_inplace. eapply keeps_bind; [apply keeps_assert|]. intros _ _.
    destruct (Nat.ltb_spec (length pw) (length masked)); cbn; [exact I|]. rewrite zip_len. lia. }
  intros ? x [-> Lx].
  eapply holds_bind; [apply (shifted (circuit_cond 133)); [|apply (holds_evaluator_ap _ sha fill gen G p a cores r' rs' x); auto]|].
  - intros j m [_ H]. now apply H.
  - intros ? k1 ->. replace (d + 138)%nat with (d + 3 + 135)%nat by lia.
    eapply holds_bind; [apply (shifted (ap_cond (length pw * 8))); [|apply (holds_garbler_ap _ sha fill gen G p a cores r rs g x t (length pw * 8)); auto; lia]|].
    + intros j m [H _]. now apply H.
    + intros ? k2 _. exact I.
Qed.
(** The same for server/main.rs with a file of 2^d passwords (and perhaps an incomplete one) and client/main.rs. *)
Theorem C105_many_server : forall hmac xpub xdh sha fill gen G p a cores sec keys rm r rs r' rs' mask g passwords rest t d l ins,
  generator fill -> coins_ok r -> coins_ok r' -> length keys = d -> fits cores d ->
  (1 <= l)%nat -> password_list d l passwords -> (length rest < l)%nat -> length mask = l ->
  apricot_frames (l * 8) (skipn (d + 1) (messages_of ins)) -> safe_circuit (d + 137 + 133) (messages_of ins) ->
  fst (feed (many_server_main hmac xpub xdh sha p sec mask g (fun d ms => many_sender sha fill p cores keys (co_sender sha gen G p rm) ms d)
     (sender_with sha fill p a cores r (co_receiver sha gen G p rs)) (receiver_with sha fill p a cores r' (co_sender sha gen G p rs'))
     (concat passwords ++ rest) l t) ins) <> UB.
Proof.
  intros hmac xpub xdh sha fill gen G p a cores sec keys rm r rs r' rs' mask g passwords rest t d l ins Hf Hr Hr' Lk Hfit Hl Hp Hrest Lm H1 H2.
  unfold many_server_main. rewrite chunks_of_concat by (auto; apply Hp). cbn [lift pbind].
  eapply serve_bounds; [apply hang_mfpake_many; intros; [apply hang_many_sender; intros; apply hang_co_sender|apply hang_sender_with|apply hang_receiver_with]
    |now apply (many_server_holds sha fill gen G p a cores keys rm r rs r' rs' mask g passwords t d l)|].
  now apply session_frames.
Qed.
Print Assumptions C105_many_server.
Theorem C105_many_client : forall hmac xpub xdh sha fill gen G p a cores sec rm r rs r' rs' g pw index t d ins,
  generator fill -> coins_ok r -> coins_ok r' -> (d <= 31)%nat -> index < 2 ^ N.of_nat d ->
  safe_circuit (d + 3 + 133) (messages_of ins) -> apricot_frames (length pw * 8) (skipn (d + 138) (messages_of ins)) ->
  fst (feed (many_client_main hmac xpub xdh sha p sec g (fun d i => many_receiver sha fill p (co_receiver sha gen G p rm) i d)
     (sender_with sha fill p a cores r (co_receiver sha gen G p rs)) (receiver_with sha fill p a cores r' (co_sender sha gen G p rs'))
     pw index (N.of_nat (2 ^ d)) t) ins) <> UB.
Proof.
  intros hmac xpub xdh sha fill gen G p a cores sec rm r rs r' rs' g pw index t d ins Hf Hr Hr' Hd Hi H1 H2. unfold many_client_main.
  eapply connect_bounds; [apply hang_mfpake_single; intros; [apply hang_many_receiver; intros; apply hang_co_receiver|apply hang_sender_with|apply hang_receiver_with]
    |now apply (many_client_holds sha fill gen G p a cores rm r rs r' rs' g pw index t d)|].
  now apply session_frames.
Qed.
Print Assumptions C105_many_client.

(** Frames on the wire that meet the conditions of the server for passwords of two bytes. *)
Example C105_case : let ms := repeat (repeat 0 32) 132 ++ [enc_payload [(repeat 1 32, repeat 2 32)]; repeat 0 4352; repeat 0 16; repeat 0 16] in
  let wire_frames := repeat 9 32 :: flat_map (fun m => [m; repeat 5 32]) ms in
  messages_of wire_frames = ms /\ apricot_frames 16 (messages_of wire_frames) /\ safe_circuit 269 (messages_of wire_frames) /\
  password_list 1 2 [[1; 2]; [3; 4]] /\ fits 4 1 /\ coins_ok toy_coins /\ generator toy_gen.
Proof.
  cbv zeta. match goal with |- messages_of ?w = ?m /\ _ => assert (E : messages_of w = m) by (vm_compute; reflexivity); rewrite E end.
  split; [reflexivity|]. split; [|split; [|split; [|split; [|split]]]].
  - split; [|split].
    + intros m pay Hm Hp. vm_compute in Hm. injection Hm as <-. vm_compute in Hp. injection Hp as <-. intros c0 c1 [E0|[]]. injection E0 as <- <-. vm_compute. lia.
    + intros m Hm. rewrite nth_error_app2 in Hm by (rewrite repeat_length; lia). rewrite repeat_length in Hm. apply (f_equal (option_map (@length N))) in Hm. cbn [Nat.sub nth_error option_map] in Hm. rewrite repeat_length in Hm. injection Hm as E0. rewrite <- E0. apply Nat.leb_le. vm_compute. reflexivity.
    + intros m Hm. rewrite nth_error_app2 in Hm by (rewrite repeat_length; lia). rewrite repeat_length in Hm. apply (f_equal (option_map (@length N))) in Hm. cbn [Nat.sub nth_error option_map] in Hm. rewrite repeat_length in Hm. injection Hm as E0. lia.
  - intros m gc Hm. rewrite nth_error_app2 in Hm by (rewrite repeat_length; lia). rewrite repeat_length in Hm. discriminate.
  - split; [lia|]. split; [reflexivity|]. repeat constructor.
  - left. lia.
  - exact toy_coins_ok.
  - exact toy_gen_ok.
Qed.
