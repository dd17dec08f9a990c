(** Property C107: the sizes of the messages the programs send depend on the length of the password alone. *)
From Coq Require Import List NArith Bool Arith Lia.
From Verif Require Import Base MUtil MWires MCircuit MGarble MPar MBincode MProc MOt MApricot MMany MFpake MChannel MMain.
From Verif Require Import SpecOt SpecApricot SpecMany SpecMfpake SpecFpake SpecWhole SpecSizes.
From Verif Require Import PBase PProc PHang PHangOt PUtil PPar PMany PBounds PWhole PFpake PSizes PSizes2 CCircuit COt CApricot CMany CFpake CMfpake CChannel CMain CCrash CWhole.
Import ListNotations.
Open Scope N_scope.

(** ** The halves over the crate's OT *)
Lemma sized_garbler_ap (C : nat -> bytes -> Prop) sha fill gen G p a cores r rs g pw t i L :
  generator fill -> hash32 sha -> curve_ok G -> coins_ok r -> garbling_ok g -> good_length (length pw) -> t <= 65534 ->
  sized C i (garbler_sizes (length pw) ++ L) (garbler sha p g (sender_with sha fill p a cores r (co_receiver sha gen G p rs)) pw t) (fun M _ => M = L).
Proof.
  intros Hf Hh HG Hr Hg Hl Ht. destruct Hr as ([Ls _] & _ & [Ld _] & _). apply sized_garbler; auto.
  intros ms j M Lm H0. unfold sender_with. rewrite <- Lm. apply sized_ap_sender; auto.
Qed.
Lemma sized_evaluator_ap (C : nat -> bytes -> Prop) sha fill gen G p a cores r rs pw i L :
  generator fill -> hash32 sha -> curve_ok G -> coins_ok r ->
  sized C i (evaluator_sizes (length pw) ++ L) (evaluator sha p (receiver_with sha fill p a cores r (co_sender sha gen G p rs)) pw) (fun M _ => M = L).
Proof.
  intros Hf Hh HG (_ & [Lr _] & _ & _ & S0 & S1). apply sized_evaluator.
  intros cs j M Lc. unfold receiver_with. rewrite <- Lc. apply sized_ap_receiver; auto.
Qed.
Lemma sized_server (C : nat -> bytes -> Prop) sha fill gen G p a cores r rs r' rs' g pw t i :
  generator fill -> hash32 sha -> curve_ok G -> coins_ok r -> coins_ok r' -> garbling_ok g -> good_length (length pw) -> t <= 65534 ->
  sized C i (garbler_sizes (length pw) ++ evaluator_sizes (length pw)) (fpake_server sha p g (sender_with sha fill p a cores r (co_receiver sha gen G p rs))
     (receiver_with sha fill p a cores r' (co_sender sha gen G p rs')) pw t) (fun M _ => M = []).
Proof.
  intros Hf Hh HG Hr Hr' Hg Hl Ht. unfold fpake_server. eapply sized_bind; [apply sized_garbler_ap; auto|]. intros j M k1 ->.
  rewrite <- (app_nil_r (evaluator_sizes _)). eapply sized_bind; [apply sized_evaluator_ap; auto|]. intros j' M k2 ->. reflexivity.
Qed.
Lemma sized_client (C : nat -> bytes -> Prop) sha fill gen G p a cores r rs r' rs' g pw t i :
  generator fill -> hash32 sha -> curve_ok G -> coins_ok r -> coins_ok r' -> garbling_ok g -> good_length (length pw) -> t <= 65534 ->
  sized C i (evaluator_sizes (length pw) ++ garbler_sizes (length pw)) (fpake_client sha p g (sender_with sha fill p a cores r (co_receiver sha gen G p rs))
     (receiver_with sha fill p a cores r' (co_sender sha gen G p rs')) pw t) (fun M _ => M = []).
Proof.
  intros Hf Hh HG Hr Hr' Hg Hl Ht. unfold fpake_client. eapply sized_bind; [apply sized_evaluator_ap; auto|]. intros j M k1 ->.
  rewrite <- (app_nil_r (garbler_sizes _)). eapply sized_bind; [apply sized_garbler_ap; auto|]. intros j' M k2 ->. reflexivity.
Qed.

(** Whatever the peer sends, the two programs of main.rs send frames of the sizes that follow from the length of the
    password, in that order: not the bits of the password, not the randomness, not the messages of the peer, not the build
    decide them.  A program that fails stops early. *)
Theorem C107_server : forall hmac xpub xdh sha fill gen G p a cores sec r rs r' rs' g pw t ins,
  (forall k m, length (hmac k m) = 32%nat) -> length (xpub sec) = 32%nat -> generator fill -> hash32 sha -> curve_ok G ->
  coins_ok r -> coins_ok r' -> garbling_ok g -> good_length (length pw) -> t <= 65534 ->
  sends_sizes (main_server hmac xpub xdh sha p sec g (sender_with sha fill p a cores r (co_receiver sha gen G p rs))
     (receiver_with sha fill p a cores r' (co_sender sha gen G p rs')) pw t)
    (channel_sizes (garbler_sizes (length pw) ++ evaluator_sizes (length pw))) ins.
Proof.
  intros hmac xpub xdh sha fill gen G p a cores sec r rs r' rs' g pw t ins Hm Hx Hf Hh HG Hr Hr' Hg Hl Ht. unfold main_server.
  apply (serve_sizes _ _ _ _ (fun _ _ => True)); auto.
  - apply hang_fpake_server; intros; [apply hang_sender_with|apply hang_receiver_with].
  - now apply sized_server.
Qed.
Print Assumptions C107_server.
Theorem C107_client : forall hmac xpub xdh sha fill gen G p a cores sec r rs r' rs' g pw t ins,
  (forall k m, length (hmac k m) = 32%nat) -> length (xpub sec) = 32%nat -> generator fill -> hash32 sha -> curve_ok G ->
  coins_ok r -> coins_ok r' -> garbling_ok g -> good_length (length pw) -> t <= 65534 ->
  sends_sizes (main_client hmac xpub xdh sha p sec g (sender_with sha fill p a cores r (co_receiver sha gen G p rs))
     (receiver_with sha fill p a cores r' (co_sender sha gen G p rs')) pw t)
    (channel_sizes (evaluator_sizes (length pw) ++ garbler_sizes (length pw))) ins.
Proof.
  intros hmac xpub xdh sha fill gen G p a cores sec r rs r' rs' g pw t ins Hm Hx Hf Hh HG Hr Hr' Hg Hl Ht. unfold main_client.
  apply (connect_sizes _ _ _ _ (fun _ _ => True)); auto.
  - apply hang_fpake_client; intros; [apply hang_sender_with|apply hang_receiver_with].
  - now apply sized_client.
Qed.
Print Assumptions C107_client.

(** ** One of many *)
Lemma sized_many_server sha fill gen G p a cores keys rm r rs r' rs' mask g pws t d l :
  generator fill -> hash32 sha -> curve_ok G -> coins_ok r -> coins_ok r' -> garbling_ok g -> good_length l -> t <= 65534 ->
  length keys = d -> key_pairs keys -> fits cores d -> password_list d l pws -> length mask = l ->
  sized (fun _ _ => True) 0 (many_sender_sizes d l ++ garbler_sizes l ++ evaluator_sizes l)
    (mfpake_many sha p mask g (fun d ms => many_sender sha fill p cores keys (co_sender sha gen G p rm) ms d)
       (sender_with sha fill p a cores r (co_receiver sha gen G p rs)) (receiver_with sha fill p a cores r' (co_sender sha gen G p rs')) pws t) (fun M _ => M = []).
Proof.
  intros Hf Hh HG Hr Hr' Hg Hl Ht Lk [_ Hk] Hfit (Hd & Lp & Fp) Lm. unfold mfpake_many.
  assert (H1l : (1 <= l)%nat) by (destruct Hl; lia).
  assert (Hpow : N.of_nat (length pws) = 2 ^ N.of_nat d) by (rewrite Lp, Nnat.Nat2N.inj_pow; reflexivity).
  eapply sized_bind; [apply sized_lift, keeps_oks, keeps_idx|]. intros ? ? p0 [-> H0].
  assert (L0 : length p0 = l) by (rewrite Forall_forall in Fp; apply Fp; eapply nth_error_In; exact H0).
  rewrite L0, mask_passwords_ok by auto.
  eapply sized_bind; [apply sized_lift; instantiate (1 := fun x => x = map (xor mask) pws); reflexivity|]. intros ? ? masked [-> ->].
  rewrite Hpow, log2_pow2; [|reflexivity|lia].
  eapply sized_bind; [apply sized_lift; instantiate (1 := fun x => x = N.of_nat d); reflexivity|]. intros ? ? d' [-> ->]. rewrite Nnat.Nat2N.id.
  eapply (sized_bind _ _ _ (fun M _ => M = garbler_sizes l ++ evaluator_sizes l)).
  - unfold many_sender. eapply sized_bind; [apply sized_lift, keeps_oks, keeps_idx|]. intros ? ? m0 [-> Hm0].
    assert (Lm0 : length m0 = l).
    { rewrite nth_error_map, H0 in Hm0. injection Hm0 as <-. rewrite xor_length; congruence. }
    rewrite Lm0.
    eapply (sized_bind _ _ _ (fun M y => M = many_sender_sizes d l ++ garbler_sizes l ++ evaluator_sizes l /\ length y = (2 ^ d * l)%nat)).
    { assert (Fx : Forall (fun m : bytes => length m = l) (map (xor mask) pws)).
      { apply Forall_forall. intros x Hx. apply in_map_iff in Hx as (w & <- & Hw). rewrite Forall_forall in Fp. rewrite xor_length; [exact Lm|]. now rewrite (Fp w Hw). }
      rewrite (y_ok sha fill Hf p cores keys (map (xor mask) pws) d l); [|lia|exact Lk|exact H1l|exact Fx|rewrite map_length; lia|now apply fits_guard].
      cbn. split; [reflexivity|]. rewrite (concat_length_w l); [lia|]. intros i Hi. apply (Y_len sha fill Hf); auto. rewrite map_length. lia. }
    intros ? ? y [-> Ly]. cbn [many_sender_sizes app]. eapply sized_bind; [apply sized_send; exact Ly|]. intros ? ? _ ->.
    rewrite <- Lk. apply sized_co_sender; [exact HG|]. eapply Forall_impl; [|exact Hk]. intros k [[A _] [B _]]. split; assumption.
  - intros jj M _ ->. rewrite <- Lm.
    change (sized (fun _ _ => True) jj (garbler_sizes (length mask) ++ evaluator_sizes (length mask)) (fpake_server sha p g (sender_with sha fill p a cores r (co_receiver sha gen G p rs))
      (receiver_with sha fill p a cores r' (co_sender sha gen G p rs')) mask t) (fun M _ => M = [])).
    apply sized_server; auto. now rewrite Lm.
Qed.
Lemma sized_first {A B} C L (P : A -> Prop) (o : outcome A) (f : A -> proc B) Q : oks P o -> (forall a, P a -> sized C 0 L (f a) Q) -> sized C 0 L (pbind (lift o) f) Q.
Proof. destruct o; cbn; auto. Qed.
Lemma row_size v i w : oks (fun r : bytes => length r = w) (vector_row v i w).
Proof.
  unfold vector_row. destruct (Nat.leb_spec (w * i + w) (length v)); cbn; [|exact I]. rewrite firstn_length, skipn_length. lia.
Qed.
Lemma sized_many_client sha fill gen G p a cores rm r rs r' rs' g pw index t d l :
  generator fill -> hash32 sha -> curve_ok G -> coins_ok r -> coins_ok r' -> garbling_ok g -> good_length l -> t <= 65534 -> (d <= 31)%nat ->
  sized (fun i m => i = 0%nat -> (length m / 2 ^ d = l)%nat) 0 (many_receiver_sizes d ++ evaluator_sizes l ++ garbler_sizes l)
    (mfpake_single sha p g (fun d i => many_receiver sha fill p (co_receiver sha gen G p rm) i d)
       (sender_with sha fill p a cores r (co_receiver sha gen G p rs)) (receiver_with sha fill p a cores r' (co_sender sha gen G p rs')) pw index (N.of_nat (2 ^ d)) t) (fun M _ => M = []).
Proof.
  intros Hf Hh HG Hr Hr' Hg Hl Ht Hd. unfold mfpake_single.
  assert (Hpow : N.of_nat (2 ^ d) = 2 ^ N.of_nat d) by (rewrite Nnat.Nat2N.inj_pow; reflexivity).
  rewrite Hpow, log2_pow2; [|reflexivity|lia]. apply (sized_first _ _ (fun x => x = N.of_nat d)); [reflexivity|]. intros d' ->. rewrite Nnat.Nat2N.id.
  eapply (sized_bind _ _ _ (fun M x => M = evaluator_sizes l ++ garbler_sizes l /\ length x = l)).
  - unfold many_receiver.
    assert (Hc : oks (fun cs => length cs = d) (many_choices p index d)).
    { unfold many_choices. match goal with |- oks _ (mapM ?f _) => pose proof (oks_mapM (fun _ _ => True) f (seq 0 d) (fun _ _ => oks_any _)) as H end.
      destruct (mapM _ _) as [cs| | |]; try exact I. cbn [oks] in *. now rewrite <- (Forall2_length _ _ _ H), seq_length. }
    apply (sized_first _ _ (fun cs => length cs = d)); [exact Hc|]. intros cs Lc.
    eapply (sized_bind _ _ _ (fun M y => M = many_receiver_sizes d ++ evaluator_sizes l ++ garbler_sizes l /\ (length y / 2 ^ d = l)%nat)).
    { cbn [recv sized]. split; [|exact I]. intros y Hy. cbn. split; [reflexivity|now apply Hy]. }
    intros j1 M y [-> Hy].
    eapply sized_bind; [unfold many_receiver_sizes; rewrite <- Lc; apply sized_co_receiver; exact HG|]. intros ? ? ms ->.
    eapply sized_bind; [apply sized_any|]. intros ? ? ks ->.
    eapply sized_bind; [apply sized_lift; instantiate (1 := fun x => x = (2 ^ d)%nat)|].
    { unfold shl_one. destruct (Nat.ltb_spec d 64); [reflexivity|lia]. }
    intros ? ? dm [-> ->]. eapply sized_bind; [apply sized_lift, keeps_oks, keeps_udiv|]. intros ? ? bl [-> Hb]. cbn beta in Hb. rewrite Hy in Hb. subst bl.
    eapply sized_bind; [apply sized_lift, row_size|]. intros ? ? x [-> Lx].
    apply sized_lift, keeps_oks. apply keeps_foldM; [exact Lx|]. intros x' i _ Lx'.
    eapply keeps_bind; [apply keeps_idx|]. intros k _. eapply keeps_weak; [apply keeps_xor_bytes_inplace|]. cbn beta. congruence.
  - intros j M x [-> Lx]. eapply sized_bind; [apply sized_lift, keeps_oks, keeps_xor_bytes_inplace|]. intros j' M x' [-> Lx']. cbn beta in Lx'. rewrite Lx in Lx'.
    rewrite <- Lx' in *. eapply sized_bind; [apply sized_evaluator_ap; auto|]. intros j1 M k1 ->.
    rewrite <- (app_nil_r (garbler_sizes _)). eapply sized_bind; [apply sized_garbler_ap; auto|]. intros j2 M k2 ->. reflexivity.
Qed.

(** server/main.rs with a file of 2^d passwords of [l] bytes: sizes from [d] and [l] alone. *)
Theorem C107_many_server : forall hmac xpub xdh sha fill gen G p a cores sec keys rm r rs r' rs' mask g passwords rest t d l ins,
  (forall k m, length (hmac k m) = 32%nat) -> length (xpub sec) = 32%nat -> generator fill -> hash32 sha -> curve_ok G ->
  coins_ok r -> coins_ok r' -> garbling_ok g -> good_length l -> t <= 65534 ->
  length keys = d -> key_pairs keys -> fits cores d -> password_list d l passwords -> (length rest < l)%nat -> length mask = l ->
  sends_sizes (many_server_main hmac xpub xdh sha p sec mask g (fun d ms => many_sender sha fill p cores keys (co_sender sha gen G p rm) ms d)
     (sender_with sha fill p a cores r (co_receiver sha gen G p rs)) (receiver_with sha fill p a cores r' (co_sender sha gen G p rs'))
     (concat passwords ++ rest) l t)
    (channel_sizes (many_sender_sizes d l ++ garbler_sizes l ++ evaluator_sizes l)) ins.
Proof.
  intros hmac xpub xdh sha fill gen G p a cores sec keys rm r rs r' rs' mask g passwords rest t d l ins Hm Hx Hf Hh HG Hr Hr' Hg Hl Ht Lk Hk Hfit Hp Hrest Lm.
  unfold many_server_main. rewrite chunks_of_concat by (auto; try apply Hp; destruct Hl; lia). cbn [lift pbind].
  apply (serve_sizes _ _ _ _ (fun _ _ => True)); auto.
  - apply hang_mfpake_many; intros; [apply hang_many_sender; intros; apply hang_co_sender|apply hang_sender_with|apply hang_receiver_with].
  - now apply sized_many_server.
Qed.
Print Assumptions C107_many_server.
(** client/main.rs: the size of the first message of the server divided by the number of passwords is the [l] that counts,
    whatever the length of the client's own password. *)
Theorem C107_many_client : forall hmac xpub xdh sha fill gen G p a cores sec rm r rs r' rs' g pw index t d l ins,
  (forall k m, length (hmac k m) = 32%nat) -> length (xpub sec) = 32%nat -> generator fill -> hash32 sha -> curve_ok G ->
  coins_ok r -> coins_ok r' -> garbling_ok g -> good_length l -> t <= 65534 -> (d <= 31)%nat ->
  (forall y, nth_error (messages_of ins) 0 = Some y -> (length y / 2 ^ d = l)%nat) ->
  sends_sizes (many_client_main hmac xpub xdh sha p sec g (fun d i => many_receiver sha fill p (co_receiver sha gen G p rm) i d)
     (sender_with sha fill p a cores r (co_receiver sha gen G p rs)) (receiver_with sha fill p a cores r' (co_sender sha gen G p rs'))
     pw index (N.of_nat (2 ^ d)) t)
    (channel_sizes (many_receiver_sizes d ++ evaluator_sizes l ++ garbler_sizes l)) ins.
Proof.
  intros hmac xpub xdh sha fill gen G p a cores sec rm r rs r' rs' g pw index t d l ins Hm Hx Hf Hh HG Hr Hr' Hg Hl Ht Hd Hy. unfold many_client_main.
  eapply connect_sizes; auto.
  - apply hang_mfpake_single; intros; [apply hang_many_receiver; intros; apply hang_co_receiver|apply hang_sender_with|apply hang_receiver_with].
  - apply (sized_many_client sha fill gen G p a cores rm r rs r' rs' g pw index t d l); auto.
  - cbn beta. intros j m Hj ->. now apply Hy.
Qed.
Print Assumptions C107_many_client.

(** The length of the password itself does show: two sessions of main.rs that succeed and whose servers send frames of the
    same sizes have passwords of the same length. *)
Theorem C107_length_shows : forall hmac xpub xdh sha fill gen G p a cores sec r rs r' rs' g pw t ins k out pw' t' ins' k' out',
  (forall k m, length (hmac k m) = 32%nat) -> length (xpub sec) = 32%nat -> generator fill -> hash32 sha -> curve_ok G ->
  coins_ok r -> coins_ok r' -> garbling_ok g -> good_length (length pw) -> t <= 65534 -> good_length (length pw') -> t' <= 65534 ->
  feed (main_server hmac xpub xdh sha p sec g (sender_with sha fill p a cores r (co_receiver sha gen G p rs))
     (receiver_with sha fill p a cores r' (co_sender sha gen G p rs')) pw t) ins = (Ok k, out) ->
  feed (main_server hmac xpub xdh sha p sec g (sender_with sha fill p a cores r (co_receiver sha gen G p rs))
     (receiver_with sha fill p a cores r' (co_sender sha gen G p rs')) pw' t') ins' = (Ok k', out') ->
  map (@length N) out = map (@length N) out' -> length pw = length pw'.
Proof.
  intros hmac xpub xdh sha fill gen G p a cores sec r rs r' rs' g pw t ins k out pw' t' ins' k' out' Hm Hx Hf Hh HG Hr Hr' Hg Hl Ht Hl' Ht' E1 E2 E.
  destruct (C107_server hmac xpub xdh sha fill gen G p a cores sec r rs r' rs' g pw t ins Hm Hx Hf Hh HG Hr Hr' Hg Hl Ht) as (x & Ex & Nx).
  destruct (C107_server hmac xpub xdh sha fill gen G p a cores sec r rs r' rs' g pw' t' ins' Hm Hx Hf Hh HG Hr Hr' Hg Hl' Ht') as (y & Ey & Ny).
  rewrite E1 in Ex, Nx. rewrite E2 in Ey, Ny. cbn [fst snd] in *. rewrite (Nx _ eq_refl), app_nil_r in Ex. rewrite (Ny _ eq_refl), app_nil_r in Ey.
  rewrite <- Ex, <- Ey in E. clear - E. apply (f_equal (fun L => nth 265 L 0%nat)) in E.
  unfold channel_sizes, garbler_sizes, ext_sender_sizes, base_receiver_sizes in E. cbn [repeat app flat_map nth] in E. lia.
Qed.
Print Assumptions C107_length_shows.

(** The formula against a garbled circuit for passwords of one byte, and parameters that meet the hypotheses. *)
Example C107_case :
  match build_circuit Debug 8 2 with
  | Ok c => match garble_zipped toy Debug demo_garbling c with
            | Ok (gc, _, _) => Nat.eqb (length (enc_garbled gc)) (garbled_size 1)
            | _ => false end
  | _ => false end = true /\
  garbled_size 1 = 1862%nat /\ length (channel_sizes (garbler_sizes 1 ++ evaluator_sizes 1)) = 543%nat /\
  good_length 1 /\ hash32 toy /\ generator toy_gen /\ curve_ok toy_curve /\ coins_ok toy_coins /\ garbling_ok demo_garbling /\
  key_pairs [(repeat 1 32, repeat 2 32)] /\ password_list 1 1 [[5]; [6]] /\ fits 4 1 /\ length (toy_pub [3]) = 32%nat.
Proof.
  split; [vm_compute; reflexivity|]. split; [reflexivity|]. split; [vm_compute; reflexivity|]. split; [left; lia|].
  split; [exact toy_hash32|]. split; [exact toy_gen_ok|]. split; [exact toy_curve_ok|]. split; [exact toy_coins_ok|]. split; [exact demo_garbling_ok|].
  split; [|split; [|split; [left; lia|reflexivity]]].
  - split; [cbn; lia|]. constructor; [|constructor]. split; (split; [reflexivity|]; apply Forall_forall; intros x Hx; apply repeat_spec in Hx; subst x; reflexivity).
  - split; [lia|]. split; [reflexivity|]. repeat constructor.
Qed.
