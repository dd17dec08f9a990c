(** C117: the attacks of C111 and C112 on the one-of-many exchange (many_fpake.rs:434-512). *)
From Coq Require Import List NArith Bool Lia Arith Permutation.
From Verif Require Import Base MUtil MWires MCircuit MGarble MPar MBincode MProc MOt MApricot MMany MFpake.
From Verif Require Import SpecUtil SpecWires SpecCircuit SpecGarble SpecBincode SpecOt SpecApricot SpecFpake SpecMany SpecMfpake SpecSteal SpecTell SpecForce SpecTellMany.
From Verif Require Import PBase PUtil PWires PGarble PCircuit PHalf PProc PFpake PSteal2 PTell PForce PKey3.
From Verif Require Import CCircuit CGarble COt CApricot CMany CUtil CFpake CMfpake CFpake3 CSteal CTell CForce.
Import ListNotations.
Open Scope N_scope.

(** ** After the 1-out-of-n OT the exchange is plain fPAKE over the mask *)
Lemma many_after_ot {B} sha p g dom manyS manyR otS otR d l passwords mask index pw t (K : bytes -> proc B) oa ob :
  many_correct dom manyS manyR -> dom d -> password_list d l passwords -> (1 <= l)%nat -> length mask = l ->
  nth_error passwords (N.to_nat index) = Some pw ->
  runs (fpake_server sha p g otS otR mask t) (K (xor mask pw)) oa ob ->
  runs (mfpake_many sha p mask g manyS otS otR passwords t) (pbind (manyR d index) K) oa ob.
Proof.
  intros Hm Hd (Hd31 & Lp & Fp) H1 Lm Hi R.
  assert (Hpow : 2 ^ N.of_nat d = N.of_nat (2 ^ d)) by (now rewrite Nat2N.inj_pow).
  unfold mfpake_many.
  destruct passwords as [|p0 rest] eqn:Epw. { destruct (N.to_nat index); discriminate. }
  assert (L0 : length p0 = l) by (inversion Fp; auto). rewrite <- Epw in *.
  eapply runs_lift_l. { rewrite Epw. reflexivity. }
  eapply runs_lift_l. { rewrite L0. apply mask_passwords_ok; auto. }
  eapply runs_lift_l. { rewrite Lp, <- Hpow. apply log2_pow2; [reflexivity|lia]. }
  rewrite Nat2N.id.
  eapply runs_bind; [|exact R].
  apply (Hm d (map (xor mask) passwords) index (xor mask pw)); auto.
  - now rewrite map_length.
  - exists l. split; [exact H1|]. apply Forall_map. eapply Forall_impl; [|exact Fp]. intros y Hy. cbn beta. rewrite xor_length; congruence.
  - now apply map_nth_error.
Qed.
Lemma single_after_ot {B} sha p g dom manyS manyR otS otR d index password t (K : proc B) oa ob :
  many_correct dom manyS manyR -> dom d -> (d <= 31)%nat -> index < 2 ^ N.of_nat d -> (1 <= length password)%nat ->
  runs K (fpake_client sha p g otS otR password t) oa ob ->
  runs (pbind (manyS d (repeat (repeat 0 (length password)) (2 ^ d))) (fun _ => K))
       (mfpake_single sha p g manyR otS otR password index (N.of_nat (2 ^ d)) t) oa ob.
Proof.
  intros Hm Hd Hd31 Hi H1 R.
  assert (Hpow : 2 ^ N.of_nat d = N.of_nat (2 ^ d)) by (now rewrite Nat2N.inj_pow).
  unfold mfpake_single. eapply runs_lift_r. { rewrite <- Hpow. apply log2_pow2; [reflexivity|lia]. }
  rewrite Nat2N.id.
  eapply runs_bind.
  { apply (Hm d (repeat (repeat 0 (length password)) (2 ^ d)) index (repeat 0 (length password))); auto.
    - now rewrite repeat_length.
    - exists (length password). split; [lia|]. apply Forall_forall. intros y Hy. apply repeat_spec in Hy. subst y. apply repeat_length.
    - apply nth_error_repeat. rewrite Hpow in Hi. lia. }
  eapply runs_lift_r. { apply xor_bytes_inplace_ok. apply repeat_length. }
  rewrite xor_zeros. unfold fpake_client in R. eapply runs_peq_r; [|exact R].
  apply peq_bind; [apply peq_refl|]. intros k1. apply peq_bind; [apply peq_refl|]. intros k2. rewrite C46_combine_commutes. apply peq_refl.
Qed.

(** *** C117 *)
(** C117 is false: a client that knows none of the passwords ends with all of the server's key but the password
    at an index of its choice. *)
Theorem C117_wrong_single_refuted : forall sha p p' g dom manyS manyR otS otR otS' otR' d l passwords mask index pw guess t,
  hash32 sha -> garbling_ok g ->
  many_correct dom manyS manyR -> ot_correct extension_ok otS otR -> ot_correct extension_ok otS' otR' ->
  dom d -> password_list d l passwords -> good_length l -> (l <= 32)%nat -> length mask = l -> bytes_ok mask ->
  nth_error passwords (N.to_nat index) = Some pw -> length guess = l -> (t < l * 8)%nat -> leaky (l * 8) (g_ri g) ->
  exists k masked, length k = 32%nat /\ mask = xor masked pw /\
    runs (mfpake_many sha p mask g manyS otS otR' passwords (N.of_nat t)) (telling_single sha p' manyR otS' otR d index guess t)
      (Ok (combine_keys k (told sha (xor masked pw)))) (Ok (k, masked)).
Proof.
  intros sha p p' g dom manyS manyR otS otR otS' otR' d l passwords mask index pw guess t
    Hs Hg Hm Hot Hot' Hd Hpl Hgl Hl32 Lm Hok Hi Lg Ht Hk.
  assert (Lpw : length pw = l) by (destruct Hpl as (_ & _ & Fp); rewrite Forall_forall in Fp; apply Fp; eapply nth_error_In; eauto).
  assert (H1 : (1 <= l)%nat) by (destruct Hgl; lia).
  assert (Lx0 : length (xor mask pw) = l) by (rewrite xor_length; congruence).
  set (x := xor (xor mask pw) guess).
  assert (Lx : length x = length mask) by (unfold x; rewrite xor_length; congruence).
  rewrite <- Lm in Hgl, Ht, Hk, Hl32.
  destruct (C111_wrong_client_refuted sha p p' g otS otR otS' otR' mask x t Hs Hg Hot Hot' Hok Hl32 Lx Hgl Ht Hk) as (k & Lk & R).
  assert (Em : mask = xor (xor mask pw) pw) by (symmetry; apply C04_mask_twice; congruence).
  exists k, (xor mask pw). split; [exact Lk|]. split; [exact Em|]. rewrite <- Em.
  unfold telling_single. eapply many_after_ot; eauto.
  eapply runs_lift_r. { apply xor_bytes_inplace_ok. congruence. } fold (xor (xor mask pw) guess). fold x.
  eapply runs_peq_l; [apply pbind_ret|]. eapply runs_bind; [exact R|]. apply runs_ret.
Qed.
Print Assumptions C117_wrong_single_refuted.

(** C117: a server ends with all of the client's key but its password. *)
Theorem C117_wrong_many_refuted : forall sha p p' g dom manyS manyR otS otR otS' otR' d index password guess t,
  hash32 sha -> garbling_ok g ->
  many_correct dom manyS manyR -> ot_correct extension_ok otS otR -> ot_correct extension_ok otS' otR' ->
  dom d -> (d <= 31)%nat -> index < 2 ^ N.of_nat d -> good_length (length password) -> (length password <= 32)%nat -> bytes_ok password ->
  length guess = length password -> (t < length password * 8)%nat -> leaky (length password * 8) (g_ri g) ->
  exists k, length k = 32%nat /\
    runs (telling_many sha p' manyS otS' otR d guess t)
         (mfpake_single sha p g manyR otS otR' password index (N.of_nat (2 ^ d)) (N.of_nat t))
      (Ok k) (Ok (combine_keys k (told sha password))).
Proof.
  intros sha p p' g dom manyS manyR otS otR otS' otR' d index password guess t Hs Hg Hm Hot Hot' Hd Hd31 Hi Hgl Hl32 Hok Lg Ht Hk.
  destruct (C111_wrong_server_refuted sha p p' g otS otR otS' otR' password guess t Hs Hg Hot Hot' Hok Hl32 Lg Hgl Ht Hk) as (k & Lk & R).
  exists k. split; [exact Lk|]. unfold telling_many. rewrite Lg.
  eapply single_after_ot; eauto. destruct Hgl; lia.
Qed.
Print Assumptions C117_wrong_many_refuted.

(** C117: the search of the client, once it has the server's key. *)
Theorem C117_offline_search_refuted : forall sha k masked pw dictionary,
  hash32 sha -> length k = 32%nat -> length masked = length pw -> In pw dictionary -> Forall (fun q => length q = length pw) dictionary ->
  let found := try_masked sha k masked (combine_keys k (told sha (xor masked pw))) dictionary in
  In pw found /\ (forall q, In q found -> q = pw \/ clash sha (told_string (xor masked q)) (told_string (xor masked pw))).
Proof.
  intros sha k masked pw dictionary Hs Lk Lm Hin HF found. split.
  - apply filter_In. split; [exact Hin|]. apply bytes_eqb_eq. reflexivity.
  - intros q Hq. apply filter_In in Hq as [Hq E]. apply bytes_eqb_eq in E. change (zipWith N.lxor masked q) with (xor masked q) in E.
    rewrite Forall_forall in HF. specialize (HF q Hq). cbv beta in HF.
    destruct (list_eq_dec N.eq_dec (told_string (xor masked q)) (told_string (xor masked pw))) as [Es|Es]; [left|right].
    + apply told_inj in Es; [|rewrite !xor_length; congruence]. apply (xor_cancel masked); [congruence|congruence|exact Es].
    + split; [exact Es|]. unfold combine_keys in E. apply xor_cancel in E; [exact E| |]; rewrite Lk; apply Hs.
Qed.
Print Assumptions C117_offline_search_refuted.

(** C117: a client with a password close to the one at its index makes the server's key zero ... *)
Theorem C117_insider_refuted : forall sha p p' g dom manyS manyR otS otR otS' otR' d l passwords mask index pw password t,
  hash32 sha -> garbling_ok g ->
  many_correct dom manyS manyR -> ot_correct extension_ok otS otR -> ot_correct extension_ok otS' otR' ->
  dom d -> password_list d l passwords -> good_length l -> length mask = l ->
  nth_error passwords (N.to_nat index) = Some pw -> length password = l -> t <= 65534 -> N.of_nat (distance pw password) <= t ->
  runs (mfpake_many sha p mask g manyS otS otR' passwords t) (forcing_single p' (by_evaluation sha p') manyR otS' otR d index password)
    (Ok (repeat 0 32)) (Ok tt).
Proof.
  intros sha p p' g dom manyS manyR otS otR otS' otR' d l passwords mask index pw guess t Hs Hg Hm Hot Hot' Hd Hpl Hgl Lm Hi Lg Ht Hdist.
  assert (Lpw : length pw = l) by (destruct Hpl as (_ & _ & Fp); rewrite Forall_forall in Fp; apply Fp; eapply nth_error_In; eauto).
  assert (H1 : (1 <= l)%nat) by (destruct Hgl; lia).
  assert (Lx0 : length (xor mask pw) = l) by (rewrite xor_length; congruence).
  unfold forcing_single. eapply many_after_ot; eauto.
  eapply runs_lift_r. { apply xor_bytes_inplace_ok. congruence. }
  apply C112_insider_refuted; auto.
  - change (zipWith N.lxor (xor mask pw) guess) with (xor (xor mask pw) guess). rewrite xor_length; congruence.
  - now rewrite Lm.
  - change (zipWith N.lxor (xor mask pw) guess) with (xor (xor mask pw) guess). rewrite distance_masked by congruence. exact Hdist.
Qed.
Print Assumptions C117_insider_refuted.

(** ... and so does a client without one. *)
Theorem C117_outsider_refuted : forall sha p p' g dom manyS manyR otS otR otS' otR' d l passwords mask index pw guess t,
  hash32 sha -> garbling_ok g ->
  many_correct dom manyS manyR -> ot_correct extension_ok otS otR -> ot_correct extension_ok otS' otR' ->
  dom d -> password_list d l passwords -> good_length l -> length mask = l ->
  nth_error passwords (N.to_nat index) = Some pw -> length guess = l -> (t < l * 8)%nat -> leaky (l * 8) (g_ri g) ->
  runs (mfpake_many sha p mask g manyS otS otR' passwords (N.of_nat t)) (forcing_single p' (by_stealing sha p' (l * 8) t) manyR otS' otR d index guess)
    (Ok (repeat 0 32)) (Ok tt).
Proof.
  intros sha p p' g dom manyS manyR otS otR otS' otR' d l passwords mask index pw guess t Hs Hg Hm Hot Hot' Hd Hpl Hgl Lm Hi Lg Ht Hk.
  assert (Lpw : length pw = l) by (destruct Hpl as (_ & _ & Fp); rewrite Forall_forall in Fp; apply Fp; eapply nth_error_In; eauto).
  assert (H1 : (1 <= l)%nat) by (destruct Hgl; lia).
  assert (Lx0 : length (xor mask pw) = l) by (rewrite xor_length; congruence).
  unfold forcing_single. eapply many_after_ot; eauto.
  eapply runs_lift_r. { apply xor_bytes_inplace_ok. congruence. }
  rewrite <- Lm in Hgl, Ht, Hk |- *.
  apply C112_outsider_refuted; auto.
  change (zipWith N.lxor (xor mask pw) guess) with (xor (xor mask pw) guess). rewrite xor_length; congruence.
Qed.
Print Assumptions C117_outsider_refuted.

(** ** Examples *)
Definition four : list bytes := [[97; 98; 99]; [100; 101; 102]; [1; 2; 3]; [5; 6; 7]].
Lemma four_ok : password_list 2 3 four.
Proof. split; [lia|]. split; [reflexivity|]. repeat constructor. Qed.
(** A client that guesses "zzz" at index 1; then the search finds "def". *)
Example wrong_single_example : exists k masked, length k = 32%nat /\ [7; 9; 11] = xor masked [100; 101; 102] /\
  runs (mfpake_many toy Debug [7; 9; 11] demo_garbling (demo_many Debug) (demo_sender Debug) (demo_receiver Debug) four 1)
       (telling_single toy Release (demo_one Release) (demo_sender Release) (demo_receiver Release) 2 1 [122; 122; 122] 1)
    (Ok (combine_keys k (told toy (xor masked [100; 101; 102])))) (Ok (k, masked)).
Proof.
  exact (C117_wrong_single_refuted toy Debug Release demo_garbling (fun d => d = 2%nat) (demo_many Debug) (demo_one Release) (demo_sender Debug) (demo_receiver Release)
    (demo_sender Release) (demo_receiver Debug) 2 3 four [7; 9; 11] 1 [100; 101; 102] [122; 122; 122] 1 toy_hash32 demo_garbling_ok (demo_many_ok Debug Release)
    (demo_OT Debug Release) (demo_OT Release Debug) eq_refl four_ok ltac:(unfold good_length; lia) ltac:(lia) eq_refl ltac:(repeat constructor) eq_refl eq_refl
    ltac:(lia) demo_leaky).
Qed.
Example wrong_many_example : exists k, length k = 32%nat /\
  runs (telling_many toy Release (demo_many Release) (demo_sender Release) (demo_receiver Release) 2 [122; 122; 122] 1)
       (mfpake_single toy Debug demo_garbling (demo_one Debug) (demo_sender Debug) (demo_receiver Debug) [97; 98; 99] 3 4 1)
    (Ok k) (Ok (combine_keys k (told toy [97; 98; 99]))).
Proof.
  exact (C117_wrong_many_refuted toy Debug Release demo_garbling (fun d => d = 2%nat) (demo_many Release) (demo_one Debug) (demo_sender Debug) (demo_receiver Release)
    (demo_sender Release) (demo_receiver Debug) 2 3 [97; 98; 99] [122; 122; 122] 1 toy_hash32 demo_garbling_ok (demo_many_ok Release Debug)
    (demo_OT Debug Release) (demo_OT Release Debug) eq_refl ltac:(lia) eq_refl ltac:(unfold good_length; cbn [length]; lia) ltac:(cbn [length]; lia) ltac:(repeat constructor) eq_refl
    ltac:(cbn [length]; lia) demo_leaky).
Qed.
Example masked_search_example : let k := repeat 7 32 in let masked := [1; 2; 3] in
  try_masked toy k masked (combine_keys k (told toy (xor masked [97; 98; 99]))) [[97; 98; 98]; [97; 98; 99]; [122; 122; 122]] = [[97; 98; 99]].
Proof. vm_compute. reflexivity. Qed.
Example many_insider_example :
  runs (mfpake_many toy Debug [7; 9; 11] demo_garbling (demo_many Debug) (demo_sender Debug) (demo_receiver Debug) four 1)
       (forcing_single Release (by_evaluation toy Release) (demo_one Release) (demo_sender Release) (demo_receiver Release) 2 1 [100; 101; 103])
    (Ok (repeat 0 32)) (Ok tt).
Proof.
  exact (C117_insider_refuted toy Debug Release demo_garbling (fun d => d = 2%nat) (demo_many Debug) (demo_one Release) (demo_sender Debug) (demo_receiver Release)
    (demo_sender Release) (demo_receiver Debug) 2 3 four [7; 9; 11] 1 [100; 101; 102] [100; 101; 103] 1 toy_hash32 demo_garbling_ok (demo_many_ok Debug Release)
    (demo_OT Debug Release) (demo_OT Release Debug) eq_refl four_ok ltac:(unfold good_length; lia) eq_refl eq_refl eq_refl
    ltac:(discriminate) ltac:(vm_compute; discriminate)).
Qed.
Example many_outsider_example :
  runs (mfpake_many toy Debug [7; 9; 11] demo_garbling (demo_many Debug) (demo_sender Debug) (demo_receiver Debug) four 1)
       (forcing_single Release (by_stealing toy Release 24 1) (demo_one Release) (demo_sender Release) (demo_receiver Release) 2 1 [122; 122; 122])
    (Ok (repeat 0 32)) (Ok tt).
Proof.
  exact (C117_outsider_refuted toy Debug Release demo_garbling (fun d => d = 2%nat) (demo_many Debug) (demo_one Release) (demo_sender Debug) (demo_receiver Release)
    (demo_sender Release) (demo_receiver Debug) 2 3 four [7; 9; 11] 1 [100; 101; 102] [122; 122; 122] 1 toy_hash32 demo_garbling_ok (demo_many_ok Debug Release)
    (demo_OT Debug Release) (demo_OT Release Debug) eq_refl four_ok ltac:(unfold good_length; lia) eq_refl eq_refl eq_refl
    ltac:(lia) demo_leaky).
Qed.
