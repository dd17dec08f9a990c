(** C136: sides of the older versions that count the passwords differently. *)
From Coq Require Import List NArith Bool Lia Arith Permutation.
From Verif Require Import Base MUtil MWires MCircuit MGarble MPar MBincode MProc MOt MApricot MMany MFpake MLegacy MLegacy2.
From Verif Require Import SpecUtil SpecWires SpecCircuit SpecGarble SpecBincode SpecOt SpecApricot SpecFpake SpecMany SpecMfpake SpecLegacy SpecTurns.
From Verif Require Import PBase PUtil PWires PGarble PCircuit PCircuit2 PHalf PProc POt PMany PIndex PFpake PFpake3 PLegacy.
From Verif Require Import CCircuit CGarble COt CApricot CMany CUtil CFpake CMfpake CFpake3 CLegacy CLegacy2 CRelease CCount CUneven.
Import ListNotations.
Open Scope N_scope.

(** ** Different numbers of index bits *)
Lemma wires_flat (zs : list wire) : Forall (WF 2) zs -> length (concat (map wval zs)) = (length zs * 32)%nat.
Proof.
  intros Fw. induction Fw as [|w ws (_ & Hw & _) Fw IH]; cbn [map concat length]; auto.
  etransitivity; [apply app_length|]. etransitivity; [exact (f_equal2 Nat.add Hw IH)|]. lia.
Qed.

Section Bits.
Variables sha : bytes -> bytes.
Variables (fill gen : bytes -> nat -> bytes) (G : curve) (fill' gen' : bytes -> nat -> bytes) (G' : curve).
Variables (p p' : profile) (cores : nat) (keys : list (bytes * bytes)) (rm rm' : nat -> N) (g : garbling).
Variables (ot1S : list (bytes * bytes) -> proc unit) (ot1R : list bool -> proc (list bytes)).
Variables (d d' l : nat) (passwords : list bytes) (index : N) (password : bytes) (number t : N).
Hypothesis Hs : hash32 sha.
Hypothesis Hg : garbling_ok g.
Hypothesis Hot1 : ot_correct extension_ok ot1S ot1R.
Hypothesis Hf : generator fill.
Hypothesis Lk : length keys = d.
Hypothesis Hfit : fits cores d.
Hypothesis Hpl : password_list d l passwords.
Hypothesis Hgl : good_length l.
Hypothesis Lpass : length password = l.
Hypothesis Ht : t <= 65534.
Hypothesis H1 : 1 <= number.
Hypothesis H32 : number < 2 ^ 32.
Hypothesis Hb : bits_for number d'.
Hypothesis Hne : d' <> d.
Let manyS := fun d ms => many_sender sha fill p cores keys (co_sender sha gen G p rm) ms d.
Let manyR := fun d i => many_receiver sha fill' p' (co_receiver sha gen' G' p' rm') i d.

Lemma v1_bits_half :
  runs (garbler_server_v1 sha p g ot1S manyS passwords t) (evaluator_client_v1 sha p' ot1R manyR password number index)
    (Err EBadProperties) (Err EBadProperties).
Proof.
  destruct Hpl as (Hd31 & Lp & Fp).
  assert (Hpow : 2 ^ N.of_nat d = N.of_nat (2 ^ d)) by (now rewrite Nat2N.inj_pow).
  pose proof (pow2_pos d) as P.
  destruct passwords as [|p0 rest] eqn:Epw; [cbn in Lp; lia|].
  assert (L0 : length p0 = l) by (inversion Fp; auto). rewrite <- Epw in *.
  destruct (good_supported _ Hgl) as (Hsup & Hn & Hn1).
  destruct (circ1_half sha p g (l * 8) t Hs Hg Hn Ht Hn1 Hsup) as (gc & ek & dk & zs & l0 & l1 & H).
  pose proof (hk_length _ _ _ _ _ _ _ _ _ _ _ H) as Lz. cbn [circ1 num_inputs] in Lz.
  pose proof (zs_binary _ _ _ _ _ _ _ _ _ _ H) as Hz.
  assert (Hun : usize_ok (l * 8)) by (apply usize_small; apply N.le_lt_trans with 65534; [lia|reflexivity]).
  assert (Hbits : forall v : bytes, length v = l -> length (u8_vec_to_bool_vec v) = (l * 8)%nat) by (intros v Lv; rewrite bits_length8, Lv; reflexivity).
  unfold garbler_server_v1, evaluator_client_v1. rewrite Lpass.
  eapply runs_lift_l. { rewrite Epw. reflexivity. } cbv beta zeta. rewrite L0.
  eapply runs_lift_l; [apply build_circuit_eq; assumption|].
  eapply runs_lift_l; [exact (garble_zipped_ok _ _ _ _ _ _ _ _ _ _ H)|]. cbv beta iota.
  apply runs_send_recv.
  destruct (sent_garbled _ _ _ _ _ _ _ _ _ _ Hg H) as (gc2 & Egc & Same).
  eapply runs_lift_r; [exact Egc|].
  eapply runs_lift_l; [apply label_pairs_ok; lia|].
  eapply runs_lift_r. { rewrite <- Lpass. apply choice_bits_ok. }
  destruct (Hot1 (label_messages (seg zs 0 (l * 8))) (u8_vec_to_bool_vec password)) as (out1 & R1 & Sel1).
  { unfold label_messages. rewrite map_length, seg_length, Hbits; auto; lia. }
  { apply seg_extension; auto; try lia. }
  eapply runs_bind; [exact R1|].
  eapply runs_lift_l. { rewrite Lp, <- Hpow. apply log2_pow2; [reflexivity|lia]. }
  eapply runs_lift_r. { apply log2_bits; eauto. }
  eapply runs_lift_l. { unfold slice_from. rewrite (proj2 (Nat.leb_le _ _)) by lia. reflexivity. }
  set (enc := fun v => concat (map wval (zipWith pick (seg zs (l * 8) (l * 8)) (u8_vec_to_bool_vec v)))).
  eapply runs_lift_l with (a := map enc passwords).
  { apply mapM_Ok. intros v Hv. rewrite Forall_forall in Fp. specialize (Fp v Hv).
    pose proof (flat_labels_ok zs (l * 8) v) as Q. cbv zeta in Q. rewrite Fp in Q. apply Q. lia. }
  rewrite !Nat2N.id. apply runs_bind_err.
  eapply many_mismatch with (s := (l * 8 * 32)%nat); auto; try lia.
  - eapply bits_le32; eauto.
  - now rewrite map_length.
  - apply Forall_map. eapply Forall_impl; [|exact Fp]. intros v Hv. cbn beta in *. unfold enc.
    rewrite wires_flat by (apply picked_labels, seg_binary, Hz). f_equal. rewrite pick_length, seg_length; rewrite ?seg_length, ?Hbits; auto; lia.
Qed.
Lemma v3_bits_half mask (ot2S : list (bytes * bytes) -> proc unit) (ot2R : list bool -> proc (list bytes)) : length mask = l ->
  runs (garbler_server_v3 sha p mask g ot1S manyS ot2S passwords t) (evaluator_client_v3 sha p' ot1R manyR ot2R password number index)
    (Err EBadProperties) (Err EBadProperties).
Proof.
  intros Lm. destruct Hpl as (Hd31 & Lp & Fp).
  assert (Hpow : 2 ^ N.of_nat d = N.of_nat (2 ^ d)) by (now rewrite Nat2N.inj_pow).
  pose proof (pow2_pos d) as P.
  destruct passwords as [|p0 rest] eqn:Epw; [cbn in Lp; lia|].
  assert (L0 : length p0 = l) by (inversion Fp; auto). rewrite <- Epw in *.
  destruct (good_supported _ Hgl) as (Hsup & Hn & Hn1).
  destruct (circ2_half sha p g (l * 8) t Hs Hg Hn Ht Hn1 Hsup) as (gc & ek & dk & zs & l0 & l1 & H).
  pose proof (hk_length _ _ _ _ _ _ _ _ _ _ _ H) as Lz. cbn [circ2 num_inputs] in Lz.
  pose proof (zs_binary _ _ _ _ _ _ _ _ _ _ H) as Hz.
  assert (Hun : usize_ok (l * 8)) by (apply usize_small; apply N.le_lt_trans with 65534; [lia|reflexivity]).
  assert (Hbits : forall v : bytes, length v = l -> length (u8_vec_to_bool_vec v) = (l * 8)%nat) by (intros v Lv; rewrite bits_length8, Lv; reflexivity).
  unfold garbler_server_v3, evaluator_client_v3. rewrite Lpass.
  eapply runs_lift_l. { rewrite Epw. reflexivity. } cbv beta zeta. rewrite L0.
  eapply runs_lift_l; [apply build_circuit_v2_eq; assumption|].
  eapply runs_lift_l; [exact (garble_zipped_ok _ _ _ _ _ _ _ _ _ _ H)|]. cbv beta iota.
  apply runs_send_recv.
  destruct (sent_garbled _ _ _ _ _ _ _ _ _ _ Hg H) as (gc2 & Egc & Same).
  eapply runs_lift_r; [exact Egc|].
  eapply runs_lift_l; [apply label_pairs_ok; lia|].
  eapply runs_lift_r. { rewrite <- Lpass. apply choice_bits_ok. }
  destruct (Hot1 (label_messages (seg zs 0 (l * 8))) (u8_vec_to_bool_vec password)) as (out1 & R1 & Sel1).
  { unfold label_messages. rewrite map_length, seg_length, Hbits; auto; lia. }
  { apply seg_extension; auto; try lia. }
  eapply runs_bind; [exact R1|].
  eapply runs_lift_l. { rewrite <- Lm. apply encode_flat_ok; [|exact Hz]. rewrite Lm. lia. }
  apply runs_send_recv.
  eapply runs_lift_l. { rewrite Lp, <- Hpow. apply log2_pow2; [reflexivity|lia]. }
  eapply runs_lift_r. { apply log2_bits; eauto. }
  eapply runs_lift_l. { apply mask_passwords_ok; auto. }
  rewrite !Nat2N.id. apply runs_bind_err.
  eapply many_mismatch with (s := l); auto; try lia.
  - eapply bits_le32; eauto.
  - now rewrite map_length.
  - apply Forall_map. eapply Forall_impl; [|exact Fp]. intros y Hy. cbn beta. rewrite xor_length; congruence.
Qed.
End Bits.

(** ** Different numbers of passwords where the client of version 1 garbles *)
Lemma v1_number_half sha fill fill' p p' a a' cores cores' r r' bootR bootS rand g l passwords index number password t :
  hash32 sha -> garbling_ok g -> keys_ok rand -> passwords <> [] -> N.of_nat (length passwords) < 2 ^ 32 -> Forall (fun q : bytes => length q = l) passwords ->
  good_length l -> length password = l -> t <= 65534 -> 2 <= N.of_nat number -> N.of_nat number < 2 ^ 32 -> (index < number)%nat -> number <> length passwords ->
  runs (garbler_client_v1 sha p rand g (sender_with sha fill p a cores r bootR) password (N.of_nat index) (N.of_nat number) t)
       (evaluator_server_v1 sha p' (receiver_with sha fill' p' a' cores' r' bootS) passwords) (Err EBadProperties) (Err EBadProperties).
Proof.
  intros Hs Hg Hk Ne H32 Fp Hgl Lpass Ht H2 Hn32 Hi Hne.
  destruct passwords as [|p0 rest] eqn:Epw; [congruence|].
  assert (L0 : length p0 = l) by (inversion Fp; auto). rewrite <- Epw in *.
  destruct (good_supported _ Hgl) as (Hsup & Hn & Hn1).
  destruct (circ1_half sha p g (l * 8) t Hs Hg Hn Ht Hn1 Hsup) as (gc & ek & dk & zs & l0 & l1 & H).
  pose proof (hk_length _ _ _ _ _ _ _ _ _ _ _ H) as Lz. cbn [circ1 num_inputs] in Lz.
  pose proof (zs_binary _ _ _ _ _ _ _ _ _ _ H) as Hz.
  assert (Hun : usize_ok (l * 8)) by (apply usize_small; apply N.le_lt_trans with 65534; [lia|reflexivity]).
  assert (Hbits : forall v : bytes, length v = l -> length (u8_vec_to_bool_vec v) = (l * 8)%nat) by (intros v Lv; rewrite bits_length8, Lv; reflexivity).
  set (n := (l * 8)%nat) in *.
  assert (Ec : exists count, number = (count + 2)%nat) by (exists (number - 2)%nat; lia). destruct Ec as (count & ->).
  destruct (random_rows_ok p rand count n Hk Hn32) as [Er Frs]. set (rs := map (fun r => map (rand r) (seq 0 n)) (seq 0 count)) in *.
  set (rows := rs ++ [total n rs]) in *.
  assert (Lrs : length rs = count) by (unfold rs; now rewrite map_length, seq_length).
  assert (Lrows : length rows = (count + 1)%nat) by (unfold rows; rewrite app_length, Lrs; reflexivity).
  assert (Frows : Forall (shape n) rows) by (apply Forall_app; split; [exact Frs|constructor; [apply (total_ok n rs Frs)|constructor]]).
  set (w1 := zipWith pick (seg zs 0 n) (u8_vec_to_bool_vec password)).
  assert (F1 : Forall (WF 2) w1) by (apply picked_labels, seg_binary, Hz).
  assert (L1 : length w1 = n) by (unfold w1; rewrite pick_length, seg_length; rewrite ?Hbits, ?seg_length; auto; lia).
  unfold evaluator_server_v1. eapply runs_peq_l; [apply pbind_ret|]. apply runs_bind_err.
  unfold garbler_client_v1, evaluator_server_v1_seen. rewrite Lpass. fold n.
  eapply runs_lift_r. { rewrite Epw. reflexivity. } cbv beta. rewrite L0. fold n.
  eapply runs_lift_l; [apply build_circuit_eq; assumption|].
  eapply runs_lift_l; [exact (garble_zipped_ok _ _ _ _ _ _ _ _ _ _ H)|]. cbv beta iota.
  eapply runs_lift_l; [apply label_pairs_ok; lia|].
  eapply runs_lift_l with (a := w1). { pose proof (seg_pick_ok zs 0 password) as Q. cbv zeta in Q. rewrite Lpass in Q. fold n in Q. cbn [Nat.add] in Q. apply Q. lia. }
  apply runs_send_recv.
  destruct (sent_garbled _ _ _ _ _ _ _ _ _ _ Hg H) as (gc2 & Egc & Same).
  eapply runs_lift_r; [exact Egc|].
  apply runs_send_recv.
  eapply runs_lift_r. { apply sent_wires; [exact F1|rewrite L1; exact Hun]. }
  eapply runs_lift_l; [exact Er|]. fold rows.
  eapply runs_lift_l. { apply hidden_keys_ok; [exact Hi|]. rewrite Lrows. lia. }
  eapply runs_lift_r with (a := map u8_vec_to_bool_vec passwords).
  { apply mapM_Ok. intros v Hv. rewrite Forall_forall in Fp. unfold n. rewrite <- (Fp v Hv). apply choice_bits_ok. }
  apply runs_bind_err.
  set (M := map dup (firstn index rows) ++ label_messages (seg zs n n) :: map dup (skipn index rows)).
  assert (FC : Forall (fun cs : list bool => length cs = n) (map u8_vec_to_bool_vec passwords)).
  { apply Forall_map. eapply Forall_impl; [|exact Fp]. intros v Hv. apply Hbits. exact Hv. }
  assert (FMl : Forall (fun ms : list (bytes * bytes) => length ms = n) M).
  { unfold M. rewrite <- (firstn_skipn index rows) in Frows. apply Forall_app in Frows as [Fa Fb]. apply Forall_app. split; [|constructor].
    - apply Forall_map. eapply Forall_impl; [|exact Fa]. intros r0 [Q _]. unfold dup. now rewrite map_length.
    - unfold label_messages. rewrite map_length. apply seg_length. lia.
    - apply Forall_map. eapply Forall_impl; [|exact Fb]. intros r0 [Q _]. unfold dup. now rewrite map_length. }
  assert (LM : length M = (count + 2)%nat) by (unfold M; rewrite app_length; cbn [length]; rewrite !map_length, firstn_length, skipn_length; lia).
  assert (Lcat : forall (A : Type) (L : list (list A)), Forall (fun x => length x = n) L -> length (concat L) = (length L * n)%nat).
  { intros A L F. clear - F. induction F; cbn; auto. rewrite app_length. lia. }
  assert (LcM : length (concat M) = ((count + 2) * n)%nat) by (rewrite Lcat, LM; auto).
  assert (LcC : length (concat (map u8_vec_to_bool_vec passwords)) = (length passwords * n)%nat) by (rewrite Lcat, map_length; auto).
  assert (Hu : forall k, N.of_nat k < 2 ^ 32 -> usize_ok (k * n)).
  { intros k Hk32. unfold usize_ok. rewrite Nat2N.inj_mul. apply N.le_lt_trans with (2 ^ 32 * 65534); [|reflexivity].
    apply N.mul_le_mono; [apply N.lt_le_incl; exact Hk32|exact Hn]. }
  apply apricot_mismatch.
  - rewrite LcM. apply Hu. exact Hn32.
  - rewrite LcC. apply Hu. exact H32.
  - rewrite LcM. unfold n. rewrite Nat.mul_assoc. apply Nat.mod_mul. lia.
  - rewrite LcC. unfold n. rewrite Nat.mul_assoc. apply Nat.mod_mul. lia.
  - rewrite LcM, LcC. intros E. apply Nat.mul_cancel_r in E; [congruence|lia].
Qed.

(** ** C136 *)
(** C136, version 1: with the crate's one-out-of-many OT, sides that need different numbers of index bits both end with
    the same error. *)
Theorem C136_v1_bits : forall sha fill gen G fill' gen' G' p p' cores keys rm rm' g g' rand ot1S ot1R ot2R ot2S d d' l passwords index password number t t',
  hash32 sha -> garbling_ok g -> ot_correct extension_ok ot1S ot1R ->
  generator fill -> length keys = d -> fits cores d -> password_list d l passwords -> good_length l -> length password = l -> t <= 65534 ->
  1 <= number -> number < 2 ^ 32 -> bits_for number d' -> d' <> d ->
  runs (server_v1 sha p g ot1S (fun d ms => many_sender sha fill p cores keys (co_sender sha gen G p rm) ms d) ot2R passwords t)
       (client_v1 sha p' rand g' ot1R (fun d i => many_receiver sha fill' p' (co_receiver sha gen' G' p' rm') i d) ot2S password number index t')
    (Err EBadProperties) (Err EBadProperties).
Proof.
  intros. unfold server_v1, client_v1. apply runs_bind_err. eapply v1_bits_half; eauto.
Qed.
Print Assumptions C136_v1_bits.
(** C136, version 1, as many index bits but another number of passwords: the second half runs over the crate's OT
    extension, with any coins and any base OT, and both sides end with the same error. *)
Theorem C136_v1_number : forall sha fill fill' p p' a a' cores cores' r r' bootR bootS g g' rand dom manyS manyR ot1S ot1R d l passwords index password number t t',
  hash32 sha -> garbling_ok g -> garbling_ok g' -> many_correct dom manyS manyR -> ot_correct extension_ok ot1S ot1R -> keys_ok rand ->
  dom d -> password_list d l passwords -> good_length l -> length password = l -> t <= 65534 -> t' <= 65534 ->
  2 <= N.of_nat number -> bits_for (N.of_nat number) d -> number <> (2 ^ d)%nat -> (index < number)%nat ->
  runs (server_v1 sha p g ot1S manyS (receiver_with sha fill' p a' cores' r' bootS) passwords t)
       (client_v1 sha p' rand g' ot1R manyR (sender_with sha fill p' a cores r bootR) password (N.of_nat number) (N.of_nat index) t')
    (Err EBadProperties) (Err EBadProperties).
Proof.
  intros sha fill fill' p p' a a' cores cores' r r' bootR bootS g g' rand dom manyS manyR ot1S ot1R d l passwords index password number t t'
    Hs Hg Hg' Hm Ho1 Hk Hd Hpl Hgl Lp Ht Ht' H2 Hb Hne Hi.
  pose proof Hpl as (Hd31 & Ll & F).
  assert (Hle : (number <= 2 ^ d)%nat) by (assert (Q : 2 ^ N.of_nat d = N.of_nat (2 ^ d)) by (now rewrite Nat2N.inj_pow); destruct Hb as [Hb _]; lia).
  destruct (nth_error passwords index) as [pw|] eqn:Hpw; [|apply nth_error_None in Hpw; lia].
  destruct (C52_v1_server_garbles sha p p' g dom manyS manyR ot1S ot1R d l passwords index pw password t) as (l0 & l1 & _ & R1); auto.
  assert (H31 : 2 ^ N.of_nat d < 2 ^ 32) by (apply N.pow_lt_mono_r; lia).
  assert (E : log2_ p' 32 (N.of_nat number) = log2_ p' 32 (N.of_nat (2 ^ d))).
  { rewrite (log2_bits p' (N.of_nat number) d); auto; [|lia|destruct Hb; lia]. symmetry. rewrite Nat2N.inj_pow. apply log2_pow2; [reflexivity|lia]. }
  unfold server_v1, client_v1. eapply runs_bind.
  { unfold evaluator_client_v1 in R1 |- *. rewrite E. exact R1. }
  cbv beta. apply runs_bind_err. apply runs_flip. apply v1_number_half with (l := l); auto.
  - intros ->. cbn [length] in Ll. pose proof (pow2_pos d). lia.
  - rewrite Ll, Nat2N.inj_pow. exact H31.
  - destruct Hb. lia.
  - congruence.
Qed.
Print Assumptions C136_v1_number.
(** C136, version 2 and the two mixtures: different numbers of index bits. *)
Theorem C136_v2_bits : forall sha fill gen G fill' gen' G' p p' cores keys rm rm' g g' ot1S ot1R ot2S ot2R ot3S ot3R manyS' manyR' d d' l passwords mask mask' index password number t t',
  hash32 sha -> garbling_ok g -> ot_correct extension_ok ot1S ot1R ->
  generator fill -> length keys = d -> fits cores d -> password_list d l passwords -> good_length l -> length mask = l -> length password = l -> t <= 65534 ->
  1 <= number -> number < 2 ^ 32 -> bits_for number d' -> d' <> d ->
  runs (server_v2 sha p mask mask' g ot1S (fun d ms => many_sender sha fill p cores keys (co_sender sha gen G p rm) ms d) ot2S ot3R manyS' passwords t)
       (client_v2 sha p' g' ot1R (fun d i => many_receiver sha fill' p' (co_receiver sha gen' G' p' rm') i d) ot2R ot3S manyR' password number index t')
    (Err EBadProperties) (Err EBadProperties).
Proof.
  intros. unfold server_v2, client_v2, garbler_server_v2, evaluator_client_v2. do 2 apply runs_bind_err. eapply v3_bits_half; eauto.
Qed.
Print Assumptions C136_v2_bits.
Theorem C136_v12_bits : forall sha fill gen G fill' gen' G' p p' cores keys rm rm' g g' ot1S ot1R ot2S ot2R manyS' manyR' d d' l passwords mask index password number t t',
  hash32 sha -> garbling_ok g -> ot_correct extension_ok ot1S ot1R ->
  generator fill -> length keys = d -> fits cores d -> password_list d l passwords -> good_length l -> length password = l -> t <= 65534 ->
  1 <= number -> number < 2 ^ 32 -> bits_for number d' -> d' <> d ->
  runs (server_v12 sha p mask g ot1S (fun d ms => many_sender sha fill p cores keys (co_sender sha gen G p rm) ms d) ot2R manyS' passwords t)
       (client_v12 sha p' g' ot1R (fun d i => many_receiver sha fill' p' (co_receiver sha gen' G' p' rm') i d) ot2S manyR' password number index t')
    (Err EBadProperties) (Err EBadProperties).
Proof.
  intros. unfold server_v12, client_v12. apply runs_bind_err. eapply v1_bits_half; eauto.
Qed.
Print Assumptions C136_v12_bits.
Theorem C136_v21_bits : forall sha fill gen G fill' gen' G' p p' cores keys rm rm' g g' rand ot1S ot1R ot2S ot2R ot3S ot3R d d' l passwords mask index password number t t',
  hash32 sha -> garbling_ok g -> ot_correct extension_ok ot1S ot1R ->
  generator fill -> length keys = d -> fits cores d -> password_list d l passwords -> good_length l -> length mask = l -> length password = l -> t <= 65534 ->
  1 <= number -> number < 2 ^ 32 -> bits_for number d' -> d' <> d ->
  runs (server_v21 sha p mask g ot1S (fun d ms => many_sender sha fill p cores keys (co_sender sha gen G p rm) ms d) ot2S ot3R passwords t)
       (client_v21 sha p' rand g' ot1R (fun d i => many_receiver sha fill' p' (co_receiver sha gen' G' p' rm') i d) ot2R ot3S password number index t')
    (Err EBadProperties) (Err EBadProperties).
Proof.
  intros. unfold server_v21, client_v21, garbler_server_v2, evaluator_client_v2. do 2 apply runs_bind_err. eapply v3_bits_half; eauto.
Qed.
Print Assumptions C136_v21_bits.
Theorem C136_v21_number : forall sha fill fill' p p' a a' cores cores' r r' bootR bootS g g' rand dom manyS manyR ot1S ot1R ot2S ot2R d l passwords mask index password number t t',
  hash32 sha -> garbling_ok g -> garbling_ok g' -> many_correct dom manyS manyR ->
  ot_correct extension_ok ot1S ot1R -> ot_correct extension_ok ot2S ot2R -> keys_ok rand ->
  dom d -> password_list d l passwords -> good_length l -> length mask = l -> length password = l -> t <= 65534 -> t' <= 65534 ->
  2 <= N.of_nat number -> bits_for (N.of_nat number) d -> number <> (2 ^ d)%nat -> (index < number)%nat ->
  runs (server_v21 sha p mask g ot1S manyS ot2S (receiver_with sha fill' p a' cores' r' bootS) passwords t)
       (client_v21 sha p' rand g' ot1R manyR ot2R (sender_with sha fill p' a cores r bootR) password (N.of_nat number) (N.of_nat index) t')
    (Err EBadProperties) (Err EBadProperties).
Proof.
  intros sha fill fill' p p' a a' cores cores' r r' bootR bootS g g' rand dom manyS manyR ot1S ot1R ot2S ot2R d l passwords mask index password number t t'
    Hs Hg Hg' Hm Ho1 Ho2 Hk Hd Hpl Hgl Lm Lp Ht Ht' H2 Hb Hne Hi.
  pose proof Hpl as (Hd31 & Ll & F).
  assert (Hle : (number <= 2 ^ d)%nat) by (assert (Q : 2 ^ N.of_nat d = N.of_nat (2 ^ d)) by (now rewrite Nat2N.inj_pow); destruct Hb as [Hb _]; lia).
  destruct (nth_error passwords index) as [pw|] eqn:Hpw; [|apply nth_error_None in Hpw; lia].
  destruct (C52_v2_server_garbles sha p p' g dom manyS manyR ot1S ot1R ot2S ot2R d l passwords mask (N.of_nat index) pw password t) as (l0 & l1 & _ & R1); auto.
  { rewrite Nat2N.id. exact Hpw. }
  assert (H31 : 2 ^ N.of_nat d < 2 ^ 32) by (apply N.pow_lt_mono_r; lia).
  assert (E : log2_ p' 32 (N.of_nat number) = log2_ p' 32 (N.of_nat (2 ^ d))).
  { rewrite (log2_bits p' (N.of_nat number) d); auto; [|lia|destruct Hb; lia]. symmetry. rewrite Nat2N.inj_pow. apply log2_pow2; [reflexivity|lia]. }
  unfold server_v21, client_v21. eapply runs_bind.
  { unfold evaluator_client_v2, evaluator_client_v3 in R1 |- *. rewrite E. exact R1. }
  cbv beta. apply runs_bind_err. apply runs_flip. apply v1_number_half with (l := l); auto.
  - intros ->. cbn [length] in Ll. pose proof (pow2_pos d). lia.
  - rewrite Ll, Nat2N.inj_pow. exact H31.
  - destruct Hb. lia.
  - congruence.
Qed.
Print Assumptions C136_v21_number.
(** C136, version 2, and version 1 for the server's circuit with version 2 for the client's: a wrong number with as many
    index bits is not noticed. *)
Theorem C136_v2_refuted : forall sha p p' g g' dom manyS manyR ot1S ot1R ot2S ot2R ot3S ot3R d l passwords mask mask' index pw password number t t',
  hash32 sha -> garbling_ok g -> garbling_ok g' -> many_correct dom manyS manyR ->
  ot_correct extension_ok ot1S ot1R -> ot_correct extension_ok ot2S ot2R -> ot_correct extension_ok ot3S ot3R ->
  dom d -> password_list d l passwords -> good_length l -> length mask = l -> length mask' = l ->
  nth_error passwords (N.to_nat index) = Some pw -> length password = l -> t <= 65534 -> t' <= 65534 ->
  N.of_nat (distance password pw) <= t -> N.of_nat (distance password pw) <= t' ->
  1 <= number -> bits_for number d ->
  exists key, length key = 32%nat /\
    runs (server_v2 sha p mask mask' g ot1S manyS ot2S ot3R manyS passwords t)
         (client_v2 sha p' g' ot1R manyR ot2R ot3S manyR password number index t') (Ok key) (Ok key).
Proof.
  intros sha p p' g g' dom manyS manyR ot1S ot1R ot2S ot2R ot3S ot3R d l passwords mask mask' index pw password number t t'
    Hs Hg Hg' Hm Ho1 Ho2 Ho3 Hd Hpl Hgl Lm Lm' Hi Lp Ht Ht' He He' H1 Hb.
  destruct (C52_v2_keys_agree sha p p' g g' dom manyS manyR ot1S ot1R ot2S ot2R ot3S ot3R d l passwords mask mask' index pw password t t') as (key & Lk & R); auto.
  exists key. split; [exact Lk|]. destruct Hpl as (Hd31 & _).
  assert (H31 : 2 ^ N.of_nat d < 2 ^ 32) by (apply N.pow_lt_mono_r; lia).
  assert (E : log2_ p' 32 number = log2_ p' 32 (N.of_nat (2 ^ d))).
  { rewrite (log2_bits p' number d); auto; [|destruct Hb; lia]. symmetry. rewrite Nat2N.inj_pow. apply log2_pow2; [reflexivity|lia]. }
  unfold client_v2, evaluator_client_v2, evaluator_client_v3, garbler_client_v2 in *. now rewrite E.
Qed.
Print Assumptions C136_v2_refuted.
Theorem C136_v12_refuted : forall sha p p' g g' dom manyS manyR ot1S ot1R ot2S ot2R d l passwords mask index pw password number t t',
  hash32 sha -> garbling_ok g -> garbling_ok g' -> many_correct dom manyS manyR ->
  ot_correct extension_ok ot1S ot1R -> ot_correct extension_ok ot2S ot2R ->
  dom d -> password_list d l passwords -> good_length l -> length mask = l ->
  nth_error passwords index = Some pw -> length password = l -> t <= 65534 -> t' <= 65534 ->
  N.of_nat (distance password pw) <= t -> N.of_nat (distance password pw) <= t' ->
  1 <= number -> bits_for number d ->
  exists key, length key = 32%nat /\
    runs (server_v12 sha p mask g ot1S manyS ot2R manyS passwords t)
         (client_v12 sha p' g' ot1R manyR ot2S manyR password number (N.of_nat index) t') (Ok key) (Ok key).
Proof.
  intros sha p p' g g' dom manyS manyR ot1S ot1R ot2S ot2R d l passwords mask index pw password number t t'
    Hs Hg Hg' Hm Ho1 Ho2 Hd Hpl Hgl Lm Hi Lp Ht Ht' He He' H1 Hb.
  destruct (C52_v1_v2_keys_agree sha p p' g g' dom manyS manyR ot1S ot1R ot2S ot2R d l passwords mask index pw password t t') as (key & Lk & R); auto.
  exists key. split; [exact Lk|]. destruct Hpl as (Hd31 & _).
  assert (H31 : 2 ^ N.of_nat d < 2 ^ 32) by (apply N.pow_lt_mono_r; lia).
  assert (E : log2_ p' 32 number = log2_ p' 32 (N.of_nat (2 ^ d))).
  { rewrite (log2_bits p' number d); auto; [|destruct Hb; lia]. symmetry. rewrite Nat2N.inj_pow. apply log2_pow2; [reflexivity|lia]. }
  unfold client_v12, evaluator_client_v1, garbler_client_v2 in *. now rewrite E.
Qed.
Print Assumptions C136_v12_refuted.

(** ** Examples *)
Lemma four_list : password_list 2 2 [[1; 2]; [3; 4]; [5; 6]; [7; 8]].
Proof. split; [lia|]. split; [reflexivity|]. repeat constructor. Qed.
Example C136_v1_five :
  runs (server_v1 toy Debug demo_garbling (demo_sender Debug) (demo_many Debug) (demo_receiver Debug) [[1; 2]; [3; 4]; [5; 6]; [7; 8]] 1)
       (client_v1 toy Release demo_keys demo_garbling (demo_receiver Release) (demo_one Release) (demo_sender Release) [5; 7] 5 2 1)
    (Err EBadProperties) (Err EBadProperties).
Proof.
  apply C136_v1_bits with (d := 2%nat) (d' := 3%nat) (l := 2%nat); auto using toy_gen_ok, five_bits, four_list; try reflexivity; try discriminate.
  - exact toy_hash32.
  - exact demo_garbling_ok.
  - apply demo_OT.
  - left. lia.
  - unfold good_length. lia.
Qed.
Example C136_v1_three :
  runs (server_v1 toy Debug demo_garbling (demo_sender Debug) (demo_many Debug) (demo_receiver Debug) [[1; 2]; [3; 4]; [5; 6]; [7; 8]] 1)
       (client_v1 toy Release demo_keys demo_garbling (demo_receiver Release) (demo_one Release) (demo_sender Release) [5; 7] (N.of_nat 3) (N.of_nat 2) 1)
    (Err EBadProperties) (Err EBadProperties).
Proof.
  apply C136_v1_number with (dom := fun d => d = 2%nat) (d := 2%nat) (l := 2%nat);
    [exact toy_hash32|exact demo_garbling_ok|exact demo_garbling_ok|apply demo_many_ok|apply demo_OT|exact demo_keys_ok|reflexivity|exact four_list
    |unfold good_length; lia|reflexivity|discriminate|discriminate|discriminate|exact three_bits|discriminate|lia].
Qed.
Example C136_v2_five :
  runs (server_v2 toy Debug [200; 3] [17; 4] demo_garbling (demo_sender Debug) (demo_many Debug) (demo_sender Debug) (demo_receiver Debug) (demo_many Debug) [[1; 2]; [3; 4]; [5; 6]; [7; 8]] 1)
       (client_v2 toy Release demo_garbling (demo_receiver Release) (demo_one Release) (demo_receiver Release) (demo_sender Release) (demo_one Release) [5; 7] 5 2 1)
    (Err EBadProperties) (Err EBadProperties).
Proof.
  apply C136_v2_bits with (d := 2%nat) (d' := 3%nat) (l := 2%nat); auto using toy_gen_ok, five_bits, four_list; try reflexivity; try discriminate.
  - exact toy_hash32.
  - exact demo_garbling_ok.
  - apply demo_OT.
  - left. lia.
  - unfold good_length. lia.
Qed.
Example C136_v12_five :
  runs (server_v12 toy Debug [200; 3] demo_garbling (demo_sender Debug) (demo_many Debug) (demo_receiver Debug) (demo_many Debug) [[1; 2]; [3; 4]; [5; 6]; [7; 8]] 1)
       (client_v12 toy Release demo_garbling (demo_receiver Release) (demo_one Release) (demo_sender Release) (demo_one Release) [5; 7] 5 2 1)
    (Err EBadProperties) (Err EBadProperties).
Proof.
  apply C136_v12_bits with (d := 2%nat) (d' := 3%nat) (l := 2%nat); auto using toy_gen_ok, five_bits, four_list; try reflexivity; try discriminate.
  - exact toy_hash32.
  - exact demo_garbling_ok.
  - apply demo_OT.
  - left. lia.
  - unfold good_length. lia.
Qed.
Example C136_v21_five :
  runs (server_v21 toy Debug [200; 3] demo_garbling (demo_sender Debug) (demo_many Debug) (demo_sender Debug) (demo_receiver Debug) [[1; 2]; [3; 4]; [5; 6]; [7; 8]] 1)
       (client_v21 toy Release demo_keys demo_garbling (demo_receiver Release) (demo_one Release) (demo_receiver Release) (demo_sender Release) [5; 7] 5 2 1)
    (Err EBadProperties) (Err EBadProperties).
Proof.
  apply C136_v21_bits with (d := 2%nat) (d' := 3%nat) (l := 2%nat); auto using toy_gen_ok, five_bits, four_list; try reflexivity; try discriminate.
  - exact toy_hash32.
  - exact demo_garbling_ok.
  - apply demo_OT.
  - left. lia.
  - unfold good_length. lia.
Qed.
Example C136_v21_three :
  runs (server_v21 toy Debug [200; 3] demo_garbling (demo_sender Debug) (demo_many Debug) (demo_sender Debug) (demo_receiver Debug) [[1; 2]; [3; 4]; [5; 6]; [7; 8]] 1)
       (client_v21 toy Release demo_keys demo_garbling (demo_receiver Release) (demo_one Release) (demo_receiver Release) (demo_sender Release) [5; 7] (N.of_nat 3) (N.of_nat 2) 1)
    (Err EBadProperties) (Err EBadProperties).
Proof.
  apply C136_v21_number with (dom := fun d => d = 2%nat) (d := 2%nat) (l := 2%nat);
    [exact toy_hash32|exact demo_garbling_ok|exact demo_garbling_ok|apply demo_many_ok|apply demo_OT|apply demo_OT|exact demo_keys_ok|reflexivity|exact four_list
    |unfold good_length; lia|reflexivity|reflexivity|discriminate|discriminate|discriminate|exact three_bits|discriminate|lia].
Qed.
Example C136_v2_three : exists key, length key = 32%nat /\
  runs (server_v2 toy Debug [200; 3] [17; 4] demo_garbling (demo_sender Debug) (demo_many Debug) (demo_sender Debug) (demo_receiver Debug) (demo_many Debug) [[1; 2]; [3; 4]; [5; 6]; [7; 8]] 1)
       (client_v2 toy Release demo_garbling (demo_receiver Release) (demo_one Release) (demo_receiver Release) (demo_sender Release) (demo_one Release) [5; 7] 3 2 1)
    (Ok key) (Ok key).
Proof.
  apply (C136_v2_refuted toy Debug Release demo_garbling demo_garbling (fun d => d = 2%nat) (demo_many Debug) (demo_one Release)
    (demo_sender Debug) (demo_receiver Release) (demo_sender Debug) (demo_receiver Release) (demo_sender Release) (demo_receiver Debug)
    2 2 [[1; 2]; [3; 4]; [5; 6]; [7; 8]] [200; 3] [17; 4] 2 [5; 6] [5; 7] 3 1 1);
    [exact toy_hash32|exact demo_garbling_ok|exact demo_garbling_ok|apply demo_many_ok|apply demo_OT|apply demo_OT|apply demo_OT|reflexivity|exact four_list
    |unfold good_length; lia|reflexivity|reflexivity|reflexivity|reflexivity|discriminate|discriminate|vm_compute; discriminate|vm_compute; discriminate|discriminate|exact three_bits].
Qed.
Example C136_v12_three : exists key, length key = 32%nat /\
  runs (server_v12 toy Debug [200; 3] demo_garbling (demo_sender Debug) (demo_many Debug) (demo_receiver Debug) (demo_many Debug) [[1; 2]; [3; 4]; [5; 6]; [7; 8]] 1)
       (client_v12 toy Release demo_garbling (demo_receiver Release) (demo_one Release) (demo_sender Release) (demo_one Release) [5; 7] 3 (N.of_nat 2) 1)
    (Ok key) (Ok key).
Proof.
  apply (C136_v12_refuted toy Debug Release demo_garbling demo_garbling (fun d => d = 2%nat) (demo_many Debug) (demo_one Release)
    (demo_sender Debug) (demo_receiver Release) (demo_sender Release) (demo_receiver Debug)
    2 2 [[1; 2]; [3; 4]; [5; 6]; [7; 8]] [200; 3] 2 [5; 6] [5; 7] 3 1 1);
    [exact toy_hash32|exact demo_garbling_ok|exact demo_garbling_ok|apply demo_many_ok|apply demo_OT|apply demo_OT|reflexivity|exact four_list
    |unfold good_length; lia|reflexivity|reflexivity|reflexivity|discriminate|discriminate|vm_compute; discriminate|vm_compute; discriminate|discriminate|exact three_bits].
Qed.
