(** C138: passwords of different lengths in the older versions. *)
From Coq Require Import List NArith Bool Lia Arith Permutation.
From Verif Require Import Base MUtil MWires MCircuit MGarble MPar MBincode MProc MOt MApricot MMany MFpake MLegacy MLegacy2.
From Verif Require Import SpecUtil SpecWires SpecCircuit SpecGarble SpecBincode SpecOt SpecApricot SpecFpake SpecLong SpecMany SpecMfpake SpecLegacy SpecUneven.
From Verif Require Import PBase PUtil PWires PGarble PCircuit PCircuit2 PHalf PProc POt PApricotRun PFpake PFpake3 PLong PLegacy PPads2 PKey3.
From Verif Require Import CCircuit CGarble COt CApricot CMany CUtil CFpake CMfpake CLong CFpake3 CLegacy CLegacy2 CUneven.
Import ListNotations.
Open Scope N_scope.

(** ** The client's password *)
Lemma v1_uneven sha fill fill' p p' a a' cores cores' r r' bootR bootS g manyS manyR p0 rest password number index t :
  hash32 sha -> garbling_ok g -> good_length (length p0) -> t <= 65534 -> usize_ok (length password * 8) -> length password <> length p0 ->
  runs (garbler_server_v1 sha p g (sender_with sha fill p a cores r bootR) manyS (p0 :: rest) t)
       (evaluator_client_v1 sha p' (receiver_with sha fill' p' a' cores' r' bootS) manyR password number index)
    (Err EBadProperties) (Err EBadProperties).
Proof.
  intros Hs Hg Hgl Ht Hu Hne.
  destruct (good_supported _ Hgl) as (Hsup & Hn & H1).
  destruct (circ1_half sha p g (length p0 * 8) t Hs Hg Hn Ht H1 Hsup) as (gc & ek & dk & zs & l0 & l1 & H).
  pose proof (hk_length _ _ _ _ _ _ _ _ _ _ _ H) as Lz. cbn [circ1 num_inputs] in Lz.
  unfold garbler_server_v1, evaluator_client_v1.
  eapply runs_lift_l; [reflexivity|]. cbv beta zeta.
  eapply runs_lift_l; [apply build_circuit_eq; assumption|].
  eapply runs_lift_l; [exact (garble_zipped_ok _ _ _ _ _ _ _ _ _ _ H)|]. cbv beta iota.
  apply runs_send_recv.
  destruct (sent_garbled _ _ _ _ _ _ _ _ _ _ Hg H) as (gc2 & Egc & Same).
  eapply runs_lift_r; [exact Egc|].
  eapply runs_lift_l; [apply label_pairs_ok; lia|].
  eapply runs_lift_r; [apply choice_bits_ok|].
  apply runs_bind_err.
  assert (Lt : length (label_messages (seg zs 0 (length p0 * 8))) = (length p0 * 8)%nat) by (unfold label_messages; rewrite map_length, seg_length; lia).
  assert (Hun : usize_ok (length p0 * 8)) by (apply usize_small; apply N.le_lt_trans with 65534; [lia|reflexivity]).
  apply apricot_mismatch; rewrite ?Lt, ?bits_length8; auto; try (apply Nat.mod_mul; lia). lia.
Qed.
Lemma v2_uneven sha fill fill' p p' a a' cores cores' r r' bootR bootS mask g manyS manyR ot2 ot2' p0 rest password number index t :
  hash32 sha -> garbling_ok g -> good_length (length p0) -> t <= 65534 -> usize_ok (length password * 8) -> length password <> length p0 ->
  runs (garbler_server_v2 sha p mask g (sender_with sha fill p a cores r bootR) manyS ot2 (p0 :: rest) t)
       (evaluator_client_v2 sha p' (receiver_with sha fill' p' a' cores' r' bootS) manyR ot2' password number index)
    (Err EBadProperties) (Err EBadProperties).
Proof.
  intros Hs Hg Hgl Ht Hu Hne.
  destruct (good_supported _ Hgl) as (Hsup & Hn & H1).
  destruct (circ2_half sha p g (length p0 * 8) t Hs Hg Hn Ht H1 Hsup) as (gc & ek & dk & zs & l0 & l1 & H).
  pose proof (hk_length _ _ _ _ _ _ _ _ _ _ _ H) as Lz. cbn [circ2 num_inputs] in Lz.
  unfold garbler_server_v2, evaluator_client_v2. apply runs_bind_err. unfold garbler_server_v3, evaluator_client_v3.
  eapply runs_lift_l; [reflexivity|]. cbv beta zeta.
  eapply runs_lift_l; [apply build_circuit_v2_eq; assumption|].
  eapply runs_lift_l; [exact (garble_zipped_ok _ _ _ _ _ _ _ _ _ _ H)|]. cbv beta iota.
  apply runs_send_recv.
  destruct (sent_garbled _ _ _ _ _ _ _ _ _ _ Hg H) as (gc2 & Egc & Same).
  eapply runs_lift_r; [exact Egc|].
  eapply runs_lift_l; [apply label_pairs_ok; lia|].
  eapply runs_lift_r; [apply choice_bits_ok|].
  apply runs_bind_err.
  assert (Lt : length (label_messages (seg zs 0 (length p0 * 8))) = (length p0 * 8)%nat) by (unfold label_messages; rewrite map_length, seg_length; lia).
  assert (Hun : usize_ok (length p0 * 8)) by (apply usize_small; apply N.le_lt_trans with 65534; [lia|reflexivity]).
  apply apricot_mismatch; rewrite ?Lt, ?bits_length8; auto; try (apply Nat.mod_mul; lia). lia.
Qed.

(** ** Longer passwords in the list *)
Lemma bit_cut l (v : bytes) i : (i < l * 8)%nat -> (l <= length v)%nat -> bit_at v i = bit_at (firstn l v) i.
Proof.
  intros Hi Hl. unfold bit_at. assert (D : (i / 8 < l)%nat) by (apply Nat.div_lt_upper_bound; lia).
  rewrite !(idx_lt _ (i / 8) 0) by (rewrite ?firstn_length; lia). cbn [obind]. do 4 f_equal.
  rewrite <- (firstn_skipn l v) at 1. apply app_nth1. rewrite firstn_length. lia.
Qed.
Lemma flat_cut z k l (v : bytes) : (l <= length v)%nat -> flat_labels z k (l * 8) v = flat_labels z k (l * 8) (firstn l v).
Proof.
  intros Hl. unfold flat_labels. f_equal. apply mapM_ext. intros i Hi. apply in_seq in Hi. rewrite (bit_cut l v i) by lia. reflexivity.
Qed.
Lemma choice_cut l (v : bytes) : (l <= length v)%nat -> choice_bits v (l * 8) = choice_bits (firstn l v) (l * 8).
Proof. intros Hl. unfold choice_bits. apply mapM_ext. intros i Hi. apply in_seq in Hi. apply bit_cut; lia. Qed.
Definition cut (l : nat) (ps : list bytes) : list bytes := map (firstn l) ps.
Lemma cut_len l ps : length (cut l ps) = length ps.
Proof. apply map_length. Qed.
Lemma mapM_cut {B} (f : bytes -> outcome B) l ps : Forall (fun q : bytes => (l <= length q)%nat) ps ->
  (forall v : bytes, (l <= length v)%nat -> f v = f (firstn l v)) -> mapM f ps = mapM f (cut l ps).
Proof. intros Fp H. induction Fp as [|v ps Hv Fp IH]; unfold cut in *; cbn [map mapM]; [reflexivity|]. rewrite <- IH, <- H by exact Hv. reflexivity. Qed.
Lemma head_cut l (p0 : bytes) rest : length p0 = l -> idx (cut l (p0 :: rest)) 0 = Ok p0.
Proof. intros L. unfold idx, cut. cbn [map nth_error unwrap]. rewrite firstn_all2 by lia. reflexivity. Qed.
Lemma cut_list d l (passwords : list bytes) : uneven_list d l passwords -> password_list d l (cut l passwords).
Proof.
  intros (H & L & _ & F). split; [exact H|]. split; [now rewrite cut_len|]. apply Forall_map. eapply Forall_impl; [|exact F].
  intros q Hq. now apply cut_length.
Qed.
Lemma mask_cut' p mask passwords l : p = Release -> length mask = l -> Forall (fun pw : bytes => (l <= length pw)%nat) passwords ->
  mask_passwords p mask passwords l = mask_passwords p mask (cut l passwords) l.
Proof.
  intros -> Lm F. rewrite mask_cut by assumption. rewrite mask_cut; [|exact Lm|apply Forall_map; eapply Forall_impl; [|exact F]; intros q Hq; rewrite cut_length; auto].
  assert (E : map (firstn l) (cut l passwords) = cut l passwords) by (unfold cut; rewrite map_map; apply map_ext; intros q; now rewrite firstn_firstn, Nat.min_id).
  exact (f_equal (fun x => Ok (map (xor mask) x)) (eq_sym E)).
Qed.

Lemma bind_ok {A B} (a : A) (f : A -> proc B) : pbind (lift (Ok a)) f = f a.
Proof. reflexivity. Qed.

Section Cut.
Variables (sha : bytes -> bytes) (p : profile) (l : nat) (passwords : list bytes).
Hypothesis head : exists p0 rest, passwords = p0 :: rest /\ length p0 = l.
Hypothesis long : Forall (fun q : bytes => (l <= length q)%nat) passwords.
Lemma gs1_cut g ot many t : peq (garbler_server_v1 sha p g ot many passwords t) (garbler_server_v1 sha p g ot many (cut l passwords) t).
Proof.
  destruct head as (p0 & rest & E & L0). unfold garbler_server_v1. rewrite cut_len.
  assert (E0 : idx passwords 0 = Ok p0) by (rewrite E; reflexivity). assert (E1 : idx (cut l passwords) 0 = Ok p0) by (rewrite E; now apply head_cut).
  rewrite E0, E1, !bind_ok. cbv beta zeta. rewrite L0.
  apply pbind_peq. intros c. apply pbind_peq. intros [[gc z] d]. apply pbind_peq. intros _. apply pbind_peq. intros m. apply pbind_peq. intros _.
  apply pbind_peq. intros domain. apply pbind_peq. intros _.
  rewrite (mapM_cut (flat_labels z (l * 8) (l * 8)) l passwords long) by (intros v Hv; now apply flat_cut). apply peq_refl.
Qed.
Lemma es1_cut ot : peq (evaluator_server_v1 sha p ot passwords) (evaluator_server_v1 sha p ot (cut l passwords)).
Proof.
  destruct head as (p0 & rest & E & L0). unfold evaluator_server_v1. apply peq_bind; [|intros; apply peq_refl]. unfold evaluator_server_v1_seen. rewrite cut_len.
  assert (E0 : idx passwords 0 = Ok p0) by (rewrite E; reflexivity). assert (E1 : idx (cut l passwords) 0 = Ok p0) by (rewrite E; now apply head_cut).
  rewrite E0, E1, !bind_ok. cbv beta zeta. rewrite L0.
  rewrite (mapM_cut (fun q => choice_bits q (l * 8)) l passwords long) by (intros v Hv; now apply choice_cut). apply peq_refl.
Qed.
Lemma gs2_cut mask g ot1 many ot2 t : p = Release -> length mask = l ->
  peq (garbler_server_v2 sha p mask g ot1 many ot2 passwords t) (garbler_server_v2 sha p mask g ot1 many ot2 (cut l passwords) t).
Proof.
  intros Hp Lm. destruct head as (p0 & rest & E & L0). unfold garbler_server_v2. apply peq_bind; [|intros; apply peq_refl]. unfold garbler_server_v3. rewrite cut_len.
  assert (E0 : idx passwords 0 = Ok p0) by (rewrite E; reflexivity). assert (E1 : idx (cut l passwords) 0 = Ok p0) by (rewrite E; now apply head_cut).
  rewrite E0, E1, !bind_ok. cbv beta zeta. rewrite L0. rewrite <- (mask_cut' p mask passwords l Hp Lm long). apply peq_refl.
Qed.
Lemma es2_cut mask ot many : p = Release -> length mask = l ->
  peq (evaluator_server_v2 sha p mask ot many passwords) (evaluator_server_v2 sha p mask ot many (cut l passwords)).
Proof.
  intros Hp Lm. destruct head as (p0 & rest & E & L0). unfold evaluator_server_v2. rewrite cut_len.
  assert (E0 : idx passwords 0 = Ok p0) by (rewrite E; reflexivity). assert (E1 : idx (cut l passwords) 0 = Ok p0) by (rewrite E; now apply head_cut).
  rewrite E0, E1, !bind_ok. cbv beta zeta. rewrite L0. rewrite <- (mask_cut' p mask passwords l Hp Lm long). apply peq_refl.
Qed.
End Cut.

(** ** Shorter passwords in the list *)
Lemma feed_bind_inv {A B} (q : proc A) (f : A -> proc B) ins b : fst (feed (pbind q f) ins) = Ok b ->
  exists a ins', fst (feed q ins) = Ok a /\ fst (feed (f a) ins') = Ok b.
Proof.
  rewrite feed_feedr. destruct (feedr (pbind q f) ins) as [[o out] rest] eqn:E. cbn [fst]. intros ->.
  destruct (feedr_bind_ok _ _ _ _ _ _ E) as (a & o1 & r1 & o2 & E1 & E2). exists a, r1. rewrite !feed_feedr, E1, E2. auto.
Qed.
Lemma lift_inv {A} (o : outcome A) ins a : fst (feed (lift o) ins) = Ok a -> o = Ok a.
Proof. auto. Qed.
Ltac bind_inv H a H1 := let i := fresh "i" in apply feed_bind_inv in H as (a & i & H1 & H).
Lemma mapM_all {A B} (f : A -> outcome B) : forall l r, mapM f l = Ok r -> Forall (fun x => exists y, f x = Ok y) l.
Proof.
  induction l as [|x l IH]; intros r E; [constructor|]. cbn [mapM] in E. destruct (f x) as [y|e|e|] eqn:Ex; try discriminate. cbn [obind] in E.
  destruct (mapM f l) as [ys|e|e|] eqn:El; try discriminate. constructor; eauto.
Qed.
Lemma flat_short z k l (v : bytes) r : flat_labels z k (l * 8) v = Ok r -> (l <= length v)%nat.
Proof.
  intros E. unfold flat_labels in E. destruct (Nat.eq_dec l 0) as [->|Hl]; [lia|].
  destruct (mapM _ (seq 0 (l * 8))) as [rows|e|e|] eqn:Em; try discriminate. apply mapM_all in Em. rewrite Forall_forall in Em.
  destruct (Em ((l - 1) * 8)%nat) as [y Ey]; [apply in_seq; lia|]. unfold bit_at in Ey. rewrite Nat.div_mul in Ey by lia.
  unfold idx in Ey. destruct (nth_error v (l - 1)) eqn:En; [|discriminate]. assert (l - 1 < length v)%nat by (apply nth_error_Some; congruence). lia.
Qed.
Lemma mask_short p mask l (v y : bytes) : length mask = l ->
  (let* m := xor_bytes_inplace p (repeat 0 l) mask in xor_bytes_inplace p m v) = Ok y ->
  (l <= length v)%nat /\ (p = Debug -> length v = l).
Proof.
  intros Lm. rewrite xor_bytes_inplace_ok by (rewrite repeat_length; lia). cbn [obind].
  change (zipWith N.lxor (repeat 0 l) mask) with (xor (repeat 0 l) mask). rewrite <- Lm, xor_zeros.
  unfold xor_bytes_inplace. destruct p; cbn [debug_assert].
  - destruct (Nat.eqb_spec (length mask) (length v)) as [Q|Q]; [intros _; split; [lia|auto]|discriminate].
  - cbn [obind]. destruct (Nat.ltb_spec (length v) (length mask)); [discriminate|]. intros _. split; [lia|discriminate].
Qed.
Lemma gs1_short sha p g ot many p0 rest t ins k : fst (feed (garbler_server_v1 sha p g ot many (p0 :: rest) t) ins) = Ok k ->
  Forall (fun q : bytes => (length p0 <= length q)%nat) (p0 :: rest).
Proof.
  intros H. unfold garbler_server_v1 in H. bind_inv H x0 H0. apply lift_inv in H0. injection H0 as <-. cbv zeta in H.
  bind_inv H c H1. bind_inv H z H2. destruct z as [[gc z] d]. bind_inv H u3 H3. bind_inv H m H4. bind_inv H u5 H5. bind_inv H dom H6. bind_inv H u7 H7. bind_inv H enc H8.
  apply lift_inv in H8. apply mapM_all in H8. eapply Forall_impl; [|exact H8]. intros q (y & Ey). eapply flat_short. exact Ey.
Qed.
Lemma gs2_short sha p mask g ot1 many ot2 p0 rest t ins k : length mask = length p0 ->
  fst (feed (garbler_server_v2 sha p mask g ot1 many ot2 (p0 :: rest) t) ins) = Ok k ->
  Forall (fun q : bytes => (length p0 <= length q)%nat /\ (p = Debug -> length q = length p0)) (p0 :: rest).
Proof.
  intros Lm H. unfold garbler_server_v2 in H. apply feed_bind_inv in H as (r & i0 & H & _). unfold garbler_server_v3 in H.
  bind_inv H x0 H0. apply lift_inv in H0. injection H0 as <-. cbv zeta in H.
  bind_inv H c H1. bind_inv H z H2. destruct z as [[gc z] d]. bind_inv H u3 H3. bind_inv H m H4. bind_inv H u5 H5. bind_inv H em H6. bind_inv H u7 H7. bind_inv H dom H8. bind_inv H ms H9.
  apply lift_inv in H9. unfold mask_passwords in H9. apply mapM_all in H9. eapply Forall_impl; [|exact H9]. intros q (y & Ey). eapply mask_short; eauto.
Qed.

(** ** C138 *)
(** C138: a client whose password is longer or shorter than the first of the list gets an error, and so does the server. *)
Theorem C138_client : forall sha fill fill' p p' a a' cores cores' r r' bootR bootS g g' mask mask' rand manyS manyR manyS' manyR' ot2S ot2R ot3S ot3R
    p0 rest password number index t t',
  hash32 sha -> garbling_ok g -> good_length (length p0) -> t <= 65534 -> usize_ok (length password * 8) -> length password <> length p0 ->
  let otS := sender_with sha fill p a cores r bootR in
  let otR := receiver_with sha fill' p' a' cores' r' bootS in
  runs (server_v1 sha p g otS manyS ot2R (p0 :: rest) t)
       (client_v1 sha p' rand g' otR manyR ot2S password number index t') (Err EBadProperties) (Err EBadProperties) /\
  runs (server_v2 sha p mask mask' g otS manyS ot2S ot3R manyS' (p0 :: rest) t)
       (client_v2 sha p' g' otR manyR ot2R ot3S manyR' password number index t') (Err EBadProperties) (Err EBadProperties) /\
  runs (server_v12 sha p mask g otS manyS ot2R manyS' (p0 :: rest) t)
       (client_v12 sha p' g' otR manyR ot2S manyR' password number index t') (Err EBadProperties) (Err EBadProperties) /\
  runs (server_v21 sha p mask g otS manyS ot2S ot3R (p0 :: rest) t)
       (client_v21 sha p' rand g' otR manyR ot2R ot3S password number index t') (Err EBadProperties) (Err EBadProperties).
Proof.
  intros. split; [|split; [|split]].
  - unfold server_v1, client_v1. apply runs_bind_err. now apply v1_uneven.
  - unfold server_v2, client_v2. apply runs_bind_err. now apply v2_uneven.
  - unfold server_v12, client_v12. apply runs_bind_err. now apply v1_uneven.
  - unfold server_v21, client_v21. apply runs_bind_err. now apply v2_uneven.
Qed.
Print Assumptions C138_client.

(** C138 is false of longer passwords in the list: in version 1, in every build, only their beginning counts. *)
Theorem C138_v1_refuted : forall sha p p' g g' dom manyS manyR ot1S ot1R ot2S ot2R rand d l passwords index pw password t t',
  hash32 sha -> garbling_ok g -> garbling_ok g' -> many_correct dom manyS manyR ->
  ot_correct extension_ok ot1S ot1R -> ot_correct extension_ok ot2S ot2R -> keys_ok rand ->
  dom d -> (1 <= d)%nat -> uneven_list d l passwords -> good_length l ->
  nth_error passwords index = Some pw -> length password = l -> t <= 65534 -> t' <= 65534 ->
  N.of_nat (distance password (firstn l pw)) <= t -> N.of_nat (distance password (firstn l pw)) <= t' ->
  exists key, length key = 32%nat /\
    runs (server_v1 sha p g ot1S manyS ot2R passwords t)
         (client_v1 sha p' rand g' ot1R manyR ot2S password (N.of_nat (2 ^ d)) (N.of_nat index) t') (Ok key) (Ok key).
Proof.
  intros sha p p' g g' dom manyS manyR ot1S ot1R ot2S ot2R rand d l passwords index pw password t t'
    Hs Hg Hg' Hm H1 H2 Hk Hd Hd1 Hu Hgl Hi Lp Ht Ht' He He'.
  destruct (C52_v1_keys_agree sha p p' g g' dom manyS manyR ot1S ot1R ot2S ot2R rand d l (cut l passwords) index (firstn l pw) password t t') as (key & Lk & R); auto.
  { now apply cut_list. } { now apply (map_nth_error (firstn l)). }
  exists key. split; [exact Lk|]. destruct Hu as (_ & _ & Hh & F). eapply runs_peq_l; [|exact R]. apply peq_sym. unfold server_v1.
  apply peq_bind; [now apply gs1_cut|]. intros k. apply peq_bind; [now apply es1_cut|]. intros; apply peq_refl.
Qed.
Print Assumptions C138_v1_refuted.
(** Version 2 and the mixtures: in release builds of the server. *)
Theorem C138_v2_refuted : forall sha p' g g' dom manyS manyR ot1S ot1R ot2S ot2R ot3S ot3R d l passwords mask mask' index pw password t t',
  hash32 sha -> garbling_ok g -> garbling_ok g' -> many_correct dom manyS manyR ->
  ot_correct extension_ok ot1S ot1R -> ot_correct extension_ok ot2S ot2R -> ot_correct extension_ok ot3S ot3R ->
  dom d -> uneven_list d l passwords -> good_length l -> length mask = l -> length mask' = l ->
  nth_error passwords (N.to_nat index) = Some pw -> length password = l -> t <= 65534 -> t' <= 65534 ->
  N.of_nat (distance password (firstn l pw)) <= t -> N.of_nat (distance password (firstn l pw)) <= t' ->
  exists key, length key = 32%nat /\
    runs (server_v2 sha Release mask mask' g ot1S manyS ot2S ot3R manyS passwords t)
         (client_v2 sha p' g' ot1R manyR ot2R ot3S manyR password (N.of_nat (2 ^ d)) index t') (Ok key) (Ok key).
Proof.
  intros sha p' g g' dom manyS manyR ot1S ot1R ot2S ot2R ot3S ot3R d l passwords mask mask' index pw password t t'
    Hs Hg Hg' Hm H1 H2 H3 Hd Hu Hgl Lm Lm' Hi Lp Ht Ht' He He'.
  destruct (C52_v2_keys_agree sha Release p' g g' dom manyS manyR ot1S ot1R ot2S ot2R ot3S ot3R d l (cut l passwords) mask mask' index (firstn l pw) password t t') as (key & Lk & R); auto.
  { now apply cut_list. } { now apply (map_nth_error (firstn l)). }
  exists key. split; [exact Lk|]. destruct Hu as (_ & _ & Hh & F). eapply runs_peq_l; [|exact R]. apply peq_sym. unfold server_v2.
  apply peq_bind; [now apply gs2_cut|]. intros k. apply peq_bind; [now apply es2_cut|]. intros; apply peq_refl.
Qed.
Print Assumptions C138_v2_refuted.
Theorem C138_v12_refuted : forall sha p' g g' dom manyS manyR ot1S ot1R ot2S ot2R d l passwords mask index pw password t t',
  hash32 sha -> garbling_ok g -> garbling_ok g' -> many_correct dom manyS manyR ->
  ot_correct extension_ok ot1S ot1R -> ot_correct extension_ok ot2S ot2R ->
  dom d -> uneven_list d l passwords -> good_length l -> length mask = l ->
  nth_error passwords index = Some pw -> length password = l -> t <= 65534 -> t' <= 65534 ->
  N.of_nat (distance password (firstn l pw)) <= t -> N.of_nat (distance password (firstn l pw)) <= t' ->
  exists key, length key = 32%nat /\
    runs (server_v12 sha Release mask g ot1S manyS ot2R manyS passwords t)
         (client_v12 sha p' g' ot1R manyR ot2S manyR password (N.of_nat (2 ^ d)) (N.of_nat index) t') (Ok key) (Ok key).
Proof.
  intros sha p' g g' dom manyS manyR ot1S ot1R ot2S ot2R d l passwords mask index pw password t t'
    Hs Hg Hg' Hm H1 H2 Hd Hu Hgl Lm Hi Lp Ht Ht' He He'.
  destruct (C52_v1_v2_keys_agree sha Release p' g g' dom manyS manyR ot1S ot1R ot2S ot2R d l (cut l passwords) mask index (firstn l pw) password t t') as (key & Lk & R); auto.
  { now apply cut_list. } { now apply (map_nth_error (firstn l)). }
  exists key. split; [exact Lk|]. destruct Hu as (_ & _ & Hh & F). eapply runs_peq_l; [|exact R]. apply peq_sym. unfold server_v12.
  apply peq_bind; [now apply gs1_cut|]. intros k. apply peq_bind; [now apply es2_cut|]. intros; apply peq_refl.
Qed.
Print Assumptions C138_v12_refuted.
Theorem C138_v21_refuted : forall sha p' g g' dom manyS manyR ot1S ot1R ot2S ot2R ot3S ot3R rand d l passwords mask index pw password t t',
  hash32 sha -> garbling_ok g -> garbling_ok g' -> many_correct dom manyS manyR ->
  ot_correct extension_ok ot1S ot1R -> ot_correct extension_ok ot2S ot2R -> ot_correct extension_ok ot3S ot3R -> keys_ok rand ->
  dom d -> (1 <= d)%nat -> uneven_list d l passwords -> good_length l -> length mask = l ->
  nth_error passwords index = Some pw -> length password = l -> t <= 65534 -> t' <= 65534 ->
  N.of_nat (distance password (firstn l pw)) <= t -> N.of_nat (distance password (firstn l pw)) <= t' ->
  exists key, length key = 32%nat /\
    runs (server_v21 sha Release mask g ot1S manyS ot2S ot3R passwords t)
         (client_v21 sha p' rand g' ot1R manyR ot2R ot3S password (N.of_nat (2 ^ d)) (N.of_nat index) t') (Ok key) (Ok key).
Proof.
  intros sha p' g g' dom manyS manyR ot1S ot1R ot2S ot2R ot3S ot3R rand d l passwords mask index pw password t t'
    Hs Hg Hg' Hm H1 H2 H3 Hk Hd Hd1 Hu Hgl Lm Hi Lp Ht Ht' He He'.
  destruct (C52_v2_v1_keys_agree sha Release p' g g' dom manyS manyR ot1S ot1R ot2S ot2R ot3S ot3R rand d l (cut l passwords) mask index (firstn l pw) password t t') as (key & Lk & R); auto.
  { now apply cut_list. } { now apply (map_nth_error (firstn l)). }
  exists key. split; [exact Lk|]. destruct Hu as (_ & _ & Hh & F). eapply runs_peq_l; [|exact R]. apply peq_sym. unfold server_v21.
  apply peq_bind; [now apply gs2_cut|]. intros k. apply peq_bind; [now apply es1_cut|]. intros; apply peq_refl.
Qed.
Print Assumptions C138_v21_refuted.

(** A server whose list holds a shorter password than the first gets no key, whatever its peer sends; in version 2 and the
    mixtures a debug build gets none if the lengths differ at all. *)
Theorem C138_server : forall sha p g mask mask' manyS manyS' ot1 ot2R ot2S ot3R p0 rest t ins key,
  length mask = length p0 -> length mask' = length p0 ->
  (fst (feed (server_v1 sha p g ot1 manyS ot2R (p0 :: rest) t) ins) = Ok key -> Forall (fun q : bytes => (length p0 <= length q)%nat) rest) /\
  (fst (feed (server_v2 sha p mask mask' g ot1 manyS ot2S ot3R manyS' (p0 :: rest) t) ins) = Ok key \/
   fst (feed (server_v12 sha p mask g ot1 manyS ot2R manyS' (p0 :: rest) t) ins) = Ok key \/
   fst (feed (server_v21 sha p mask g ot1 manyS ot2S ot3R (p0 :: rest) t) ins) = Ok key ->
   Forall (fun q : bytes => (length p0 <= length q)%nat /\ (p = Debug -> length q = length p0)) rest).
Proof.
  intros sha p g mask mask' manyS manyS' ot1 ot2R ot2S ot3R p0 rest t ins key Lm Lm'. split.
  - intros H. apply feed_bind_inv in H as (k1 & i & H & _). exact (Forall_inv_tail (gs1_short _ _ _ _ _ _ _ _ _ _ H)).
  - intros [H|[H|H]].
    + apply feed_bind_inv in H as (k1 & i & H & _). exact (Forall_inv_tail (gs2_short _ _ _ _ _ _ _ _ _ _ _ _ Lm H)).
    + apply feed_bind_inv in H as (k1 & i & _ & H). apply feed_bind_inv in H as (k2 & i2 & H & _).
      unfold evaluator_server_v2 in H. bind_inv H x0 H0. apply lift_inv in H0. injection H0 as <-. cbv zeta in H.
      bind_inv H m1 H1. bind_inv H gc H2. bind_inv H m3 H3. bind_inv H cl H4. bind_inv H ch H5. bind_inv H ms H6.
      apply lift_inv in H6. unfold mask_passwords in H6. apply mapM_all in H6. apply Forall_inv_tail in H6. eapply Forall_impl; [|exact H6].
      intros q (y & Ey). exact (mask_short p mask (length p0) q y Lm Ey).
    + apply feed_bind_inv in H as (k1 & i & H & _). exact (Forall_inv_tail (gs2_short _ _ _ _ _ _ _ _ _ _ _ _ Lm H)).
Qed.
Print Assumptions C138_server.

(** ** Examples *)
(** The list holds "ab", "cdef", 1 2 3 and 5 6; the client types "cd" for the second. *)
Lemma uneven_four : uneven_list 2 2 [[97; 98]; [99; 100; 101; 102]; [1; 2; 3]; [5; 6]].
Proof. split; [lia|]. split; [reflexivity|]. split; [do 2 eexists; split; reflexivity|]. repeat constructor. Qed.
Example C138_client_example : runs (server_v1 toy Debug demo_garbling (demo_sender Debug) (demo_many Debug) (demo_receiver Debug) [[97; 98; 99]; [4; 5; 6]] 2)
       (client_v1 toy Release demo_keys demo_garbling (demo_receiver Release) (demo_one Release) (demo_sender Release) [97; 98] 2 0 4) (Err EBadProperties) (Err EBadProperties).
Proof.
  refine (proj1 (C138_client toy toy_gen toy_gen Debug Release X86 ARM64 4%nat 2%nat toy_coins toy_coins _ _ demo_garbling demo_garbling [] [] demo_keys (demo_many Debug) (demo_one Release)
    (demo_many Debug) (demo_one Release) (demo_sender Release) (demo_receiver Debug) (demo_sender Release) (demo_receiver Debug) [97; 98; 99] [[4; 5; 6]] [97; 98] 2 0 2 4
    toy_hash32 demo_garbling_ok _ _ _ _)); [unfold good_length; cbn [length]; lia|discriminate|reflexivity|discriminate].
Qed.
Example C138_v1_example : exists key, length key = 32%nat /\
  runs (server_v1 toy Debug demo_garbling (demo_sender Debug) (demo_many Debug) (demo_receiver Debug) [[97; 98]; [99; 100; 101; 102]; [1; 2; 3]; [5; 6]] 0)
       (client_v1 toy Release demo_keys demo_garbling (demo_receiver Release) (demo_one Release) (demo_sender Release) [99; 100] (N.of_nat (2 ^ 2)) (N.of_nat 1) 0) (Ok key) (Ok key).
Proof.
  apply (C138_v1_refuted toy Debug Release demo_garbling demo_garbling (fun d => d = 2%nat) (demo_many Debug) (demo_one Release)
    (demo_sender Debug) (demo_receiver Release) (demo_sender Release) (demo_receiver Debug) demo_keys 2 2 [[97; 98]; [99; 100; 101; 102]; [1; 2; 3]; [5; 6]] 1 [99; 100; 101; 102] [99; 100] 0 0);
    [exact toy_hash32|exact demo_garbling_ok|exact demo_garbling_ok|apply demo_many_ok|apply demo_OT|apply demo_OT|exact demo_keys_ok|reflexivity|lia|exact uneven_four
    |unfold good_length; lia|reflexivity|reflexivity|discriminate|discriminate|vm_compute; discriminate|vm_compute; discriminate].
Qed.
Example C138_v2_example : exists key, length key = 32%nat /\
  runs (server_v2 toy Release [200; 3] [17; 4] demo_garbling (demo_sender Release) (demo_many Release) (demo_sender Release) (demo_receiver Release) (demo_many Release) [[97; 98]; [99; 100; 101; 102]; [1; 2; 3]; [5; 6]] 0)
       (client_v2 toy Debug demo_garbling (demo_receiver Debug) (demo_one Debug) (demo_receiver Debug) (demo_sender Debug) (demo_one Debug) [99; 100] (N.of_nat (2 ^ 2)) 1 0) (Ok key) (Ok key).
Proof.
  apply (C138_v2_refuted toy Debug demo_garbling demo_garbling (fun d => d = 2%nat) (demo_many Release) (demo_one Debug)
    (demo_sender Release) (demo_receiver Debug) (demo_sender Release) (demo_receiver Debug) (demo_sender Debug) (demo_receiver Release) 2 2 [[97; 98]; [99; 100; 101; 102]; [1; 2; 3]; [5; 6]]
    [200; 3] [17; 4] 1 [99; 100; 101; 102] [99; 100] 0 0);
    [exact toy_hash32|exact demo_garbling_ok|exact demo_garbling_ok|apply demo_many_ok|apply demo_OT|apply demo_OT|apply demo_OT|reflexivity|exact uneven_four
    |unfold good_length; lia|reflexivity|reflexivity|reflexivity|reflexivity|discriminate|discriminate|vm_compute; discriminate|vm_compute; discriminate].
Qed.
Example C138_v12_example : exists key, length key = 32%nat /\
  runs (server_v12 toy Release [200; 3] demo_garbling (demo_sender Release) (demo_many Release) (demo_receiver Release) (demo_many Release) [[97; 98]; [99; 100; 101; 102]; [1; 2; 3]; [5; 6]] 0)
       (client_v12 toy Debug demo_garbling (demo_receiver Debug) (demo_one Debug) (demo_sender Debug) (demo_one Debug) [99; 100] (N.of_nat (2 ^ 2)) (N.of_nat 1) 0) (Ok key) (Ok key).
Proof.
  apply (C138_v12_refuted toy Debug demo_garbling demo_garbling (fun d => d = 2%nat) (demo_many Release) (demo_one Debug)
    (demo_sender Release) (demo_receiver Debug) (demo_sender Debug) (demo_receiver Release) 2 2 [[97; 98]; [99; 100; 101; 102]; [1; 2; 3]; [5; 6]]
    [200; 3] 1 [99; 100; 101; 102] [99; 100] 0 0);
    [exact toy_hash32|exact demo_garbling_ok|exact demo_garbling_ok|apply demo_many_ok|apply demo_OT|apply demo_OT|reflexivity|exact uneven_four
    |unfold good_length; lia|reflexivity|reflexivity|reflexivity|discriminate|discriminate|vm_compute; discriminate|vm_compute; discriminate].
Qed.
Example C138_v21_example : exists key, length key = 32%nat /\
  runs (server_v21 toy Release [200; 3] demo_garbling (demo_sender Release) (demo_many Release) (demo_sender Release) (demo_receiver Release) [[97; 98]; [99; 100; 101; 102]; [1; 2; 3]; [5; 6]] 0)
       (client_v21 toy Debug demo_keys demo_garbling (demo_receiver Debug) (demo_one Debug) (demo_receiver Debug) (demo_sender Debug) [99; 100] (N.of_nat (2 ^ 2)) (N.of_nat 1) 0) (Ok key) (Ok key).
Proof.
  apply (C138_v21_refuted toy Debug demo_garbling demo_garbling (fun d => d = 2%nat) (demo_many Release) (demo_one Debug)
    (demo_sender Release) (demo_receiver Debug) (demo_sender Release) (demo_receiver Debug) (demo_sender Debug) (demo_receiver Release) demo_keys 2 2 [[97; 98]; [99; 100; 101; 102]; [1; 2; 3]; [5; 6]]
    [200; 3] 1 [99; 100; 101; 102] [99; 100] 0 0);
    [exact toy_hash32|exact demo_garbling_ok|exact demo_garbling_ok|apply demo_many_ok|apply demo_OT|apply demo_OT|apply demo_OT|exact demo_keys_ok|reflexivity|lia|exact uneven_four
    |unfold good_length; lia|reflexivity|reflexivity|reflexivity|discriminate|discriminate|vm_compute; discriminate|vm_compute; discriminate].
Qed.
Example C138_server_example p ins key : fst (feed (server_v1 toy p demo_garbling (demo_sender p) (demo_many p) (demo_receiver p) [[97; 98]; [99]] 0) ins) <> Ok key.
Proof.
  intros H. apply (C138_server toy p demo_garbling [0; 0] [0; 0] (demo_many p) (demo_many p) (demo_sender p) (demo_receiver p) (demo_sender p) (demo_receiver p) [97; 98] [[99]] 0 ins key eq_refl eq_refl) in H.
  apply Forall_inv in H. cbn in H. lia.
Qed.
