(** C121: the attacks of C111 and C112 on the third version of the one-of-many exchange (many_fpake.rs:64-421). *)
From Coq Require Import List NArith Bool Lia Arith Permutation.
From Verif Require Import Base MUtil MWires MCircuit MGarble MPar MBincode MProc MOt MApricot MMany MFpake.
From Verif Require Import SpecUtil SpecWires SpecCircuit SpecGarble SpecBincode SpecOt SpecApricot SpecFpake SpecMany SpecMfpake SpecSteal SpecSteal3 SpecTell SpecForce SpecTell3.
From Verif Require Import PBase PUtil PWires PGarble PCircuit PCircuit2 PHalf PProc PFpake PFpake3 PSteal2 PSteal3 PTell PForce PTell3.
From Verif Require Import CCircuit CGarble COt CApricot CMany CUtil CFpake CMfpake CFpake3 CSteal CSteal3 CForce.
Import ListNotations.
Open Scope N_scope.

(** *** C121 *)
(** C121 is false: a client that knows none of the passwords ends with all of the server's key but the password
    at an index of its choice. *)
Theorem C121_wrong_client_refuted : forall sha p p' g dom manyS manyR ot1S ot1R ot2S ot2R ot3S ot3R d l passwords mask index pw guess t,
  hash32 sha -> garbling_ok g -> many_correct dom manyS manyR ->
  ot_correct extension_ok ot1S ot1R -> ot_correct extension_ok ot2S ot2R -> ot_correct extension_ok ot3S ot3R ->
  dom d -> password_list d l passwords -> good_length l -> (l <= 32)%nat -> length mask = l -> bytes_ok mask ->
  nth_error passwords (N.to_nat index) = Some pw -> length guess = l -> (t < l * 8)%nat -> leaky3 (l * 8) (g_ri g) ->
  exists k masked, length k = 32%nat /\ mask = xor masked pw /\
    runs (server_v3 sha p mask g ot1S manyS ot2S ot3R passwords (N.of_nat t))
         (telling_client_v3 sha p' ot1R manyR ot2R ot3S guess d index t)
      (Ok (combine_keys k (told_at sha (16 * l) (xor masked pw)))) (Ok (k, masked)).
Proof.
  intros sha p p' g dom manyS manyR ot1S ot1R ot2S ot2R ot3S ot3R d l passwords mask index pw guess t
    Hs Hg Hm H1 H2 H3 Hd Hpl Hgl Hl32 Lm Hok Hi Lg Ht Hk.
  assert (Lpw : length pw = l) by (destruct Hpl as (_ & _ & F); rewrite Forall_forall in F; apply F; eapply nth_error_In; eauto).
  pose proof (list_first _ _ _ Hpl) as Hp0.
  assert (Hl1 : (1 <= l)%nat) by (destruct Hgl; lia).
  destruct (v3_steal_client sha Hs p p' g Hg l Hgl passwords mask pw guess t Hp0 Lm Lpw Lg Ht Hk ot1S ot1R ot2S ot2R dom manyS manyR d index
    H1 H2 Hm Hd Hpl Hi) as (k & Lk & R).
  assert (Em : mask = xor (xor mask pw) pw) by (symmetry; apply C04_mask_twice; congruence).
  exists k, (xor mask pw). split; [exact Lk|]. split; [exact Em|]. rewrite <- Em.
  destruct Hp0 as (p0 & E0 & L0).
  unfold server_v3, telling_client_v3. eapply runs_bind; [exact R|]. cbv beta iota.
  replace (length guess * 8)%nat with (length mask * 8)%nat by congruence.
  eapply runs_bind.
  { apply runs_flip. apply (own_client_runs sha p (telling_labels (length mask * 8)) mask (mask ++ repeat 0 (32 - length mask))) with (p0 := p0); auto; try congruence.
    - apply telling_binary.
    - lia.
    - unfold telling_labels. now rewrite map_length, seq_length.
    - intros y ys. apply telling_value; auto. lia.
    - lia. }
  cbv beta. unfold told_at, told_string_at. rewrite Lm. replace (2 * (l * 8))%nat with (16 * l)%nat by lia. apply runs_ret.
Qed.
Print Assumptions C121_wrong_client_refuted.

(** C121: a server that knows no password ends with all of the client's key but its password. *)
Theorem C121_wrong_server_refuted : forall sha p p' g dom manyS manyR ot1S ot1R ot2S ot2R ot3S ot3R d index password t,
  hash32 sha -> garbling_ok g -> many_correct dom manyS manyR ->
  ot_correct extension_ok ot1S ot1R -> ot_correct extension_ok ot2S ot2R -> ot_correct extension_ok ot3S ot3R ->
  dom d -> (d <= 31)%nat -> index < 2 ^ N.of_nat d -> good_length (length password) -> (length password <= 32)%nat -> bytes_ok password ->
  (t < length password * 8)%nat -> leaky3 (length password * 8) (g_ri g) ->
  exists k, length k = 32%nat /\
    runs (telling_server_v3 sha p' ot1S manyS ot2S ot3R (length password) d t)
         (client_v3 sha p g ot1R manyR ot2R ot3S password (N.of_nat (2 ^ d)) index (N.of_nat t))
      (Ok k) (Ok (combine_keys k (told_at sha (24 * length password) password))).
Proof.
  intros sha p p' g dom manyS manyR ot1S ot1R ot2S ot2R ot3S ot3R d index password t
    Hs Hg Hm H1 H2 H3 Hd Hd31 Hi Hgl Hl32 Hok Ht Hk. set (l := length password) in *.
  assert (Hl1 : (1 <= l)%nat) by (destruct Hgl; lia).
  set (z := repeat 0 l). assert (Lz : length z = l) by apply repeat_length.
  destruct (v3_steal_server sha Hs p p' g Hg l Hgl z z password t Lz Lz eq_refl Ht Hk ot3S ot3R H3) as (k & Lk & R).
  exists k. split; [exact Lk|]. unfold telling_server_v3, client_v3.
  eapply runs_bind.
  { apply (own_server_runs sha p (telling_labels (l * 8)) password (password ++ repeat 0 (32 - l))) with (dom := dom); auto.
    - apply telling_binary.
    - fold l. lia.
    - unfold telling_labels. now rewrite map_length, seq_length.
    - intros y ys. apply telling_value; auto.
    - lia. }
  cbv beta iota. fold l. fold z.
  assert (Ez : xor z z = z) by (unfold z at 1; rewrite <- Lz at 1; apply xor_zeros). rewrite Ez in R.
  eapply runs_bind; [apply runs_flip; exact R|]. cbv beta iota.
  rewrite (C46_combine_commutes k). unfold told_at, told_string_at. fold l. replace (3 * (l * 8))%nat with (24 * l)%nat by lia. apply runs_ret.
Qed.
Print Assumptions C121_wrong_server_refuted.

(** C121: the search of either attacker, once it has the key of the honest side. *)
Theorem C121_offline_search_refuted : forall sha o k pw dictionary,
  hash32 sha -> length k = 32%nat -> In pw dictionary -> Forall (fun q => length q = length pw) dictionary ->
  (let found := try_digest k (combine_keys k (told_at sha o pw)) (told_at sha o) dictionary in
   In pw found /\ (forall q, In q found -> q = pw \/ clash sha (told_string_at o q) (told_string_at o pw))) /\
  (forall masked, length masked = length pw ->
   let found := try_digest k (combine_keys k (told_at sha o (xor masked pw))) (fun q => told_at sha o (xor masked q)) dictionary in
   In pw found /\ (forall q, In q found -> q = pw \/ clash sha (told_string_at o (xor masked q)) (told_string_at o (xor masked pw)))).
Proof.
  intros sha o k pw dictionary Hs Lk Hin HF.
  assert (Inj : forall a b, length a = length b -> told_string_at o a = told_string_at o b -> a = b).
  { intros a b L E. unfold told_string_at in E. rewrite L in E. apply app_inv_head in E. apply app_inv_head in E. now apply app_inv_tail in E. }
  assert (Gen : forall f : bytes -> bytes, (forall q, length q = length pw -> f q = f pw -> q = pw) -> (forall q, length q = length pw -> length (f q) = length (f pw)) ->
    let found := try_digest k (combine_keys k (told_at sha o (f pw))) (fun q => told_at sha o (f q)) dictionary in
    In pw found /\ (forall q, In q found -> q = pw \/ clash sha (told_string_at o (f q)) (told_string_at o (f pw)))).
  { intros f If Lf found. split.
    - apply filter_In. split; [exact Hin|]. apply bytes_eqb_eq. reflexivity.
    - intros q Hq. apply filter_In in Hq as [Hq E]. apply bytes_eqb_eq in E.
      rewrite Forall_forall in HF. specialize (HF q Hq). cbv beta in HF.
      destruct (list_eq_dec N.eq_dec (told_string_at o (f q)) (told_string_at o (f pw))) as [Es|Es]; [left|right].
      + apply If; [exact HF|]. apply Inj; auto.
      + split; [exact Es|]. unfold combine_keys in E. apply xor_cancel in E; [exact E| |]; rewrite Lk; apply Hs. }
  split; [apply (Gen (fun q => q)); auto|].
  intros masked Lm. apply (Gen (xor masked)).
  - intros q Lq E. apply (xor_cancel masked); congruence.
  - intros q Lq. rewrite !xor_length; congruence.
Qed.
Print Assumptions C121_offline_search_refuted.

Lemma forced_v3 sha p p' g dom manyS manyR ot1S ot1R ot2S ot2R ot3S ot3R d l passwords mask index pw guess t F :
  hash32 sha -> garbling_ok g -> many_correct dom manyS manyR ->
  ot_correct extension_ok ot1S ot1R -> ot_correct extension_ok ot2S ot2R -> ot_correct extension_ok ot3S ot3R ->
  dom d -> password_list d l passwords -> good_length l -> length mask = l ->
  nth_error passwords (N.to_nat index) = Some pw -> length guess = l -> t <= 65534 ->
  (forall gc gc2 ek dk zs l0 l1, half_key sha p (g_rd g) (g_ri g) (circ2 (l * 8) t) gc ek dk zs l0 l1 -> same_garbled gc2 gc ->
     F gc2 (zipWith pick (seg zs 0 (l * 8)) (u8_vec_to_bool_vec guess) ++ zipWith pick (seg zs (l * 8) (l * 8)) (u8_vec_to_bool_vec mask) ++
       zipWith pick (seg zs (l * 8 * 2) (l * 8)) (u8_vec_to_bool_vec (xor mask pw))) = Ok l1) ->
  runs (server_v3 sha p mask g ot1S manyS ot2S ot3R passwords t)
       (forcing_client_v3 p' F ot1R manyR ot2R ot3S guess d index) (Ok (repeat 0 32)) (Ok tt).
Proof.
  intros Hs Hg Hm H1 H2 H3 Hd Hpl Hgl Lm Hi Lg Ht HF.
  assert (Lpw : length pw = l) by (destruct Hpl as (_ & _ & Fp); rewrite Forall_forall in Fp; apply Fp; eapply nth_error_In; eauto).
  pose proof (list_first _ _ _ Hpl) as Hp0.
  assert (Hl1 : (1 <= l <= 4095)%nat) by (unfold good_length in Hgl; lia).
  destruct (reading_v3 sha Hs p p' g Hg l Hgl passwords mask pw guess t Hp0 Lm Lpw Lg Ht F HF ot1S ot1R ot2S ot2R dom manyS manyR d index
    H1 H2 Hm Hd Hpl Hi) as (lab & Wl & R).
  destruct Hp0 as (p0 & E0 & L0).
  unfold server_v3, forcing_client_v3. eapply runs_bind; [exact R|]. cbv beta iota.
  replace (length guess * 8)%nat with (length mask * 8)%nat by congruence.
  eapply runs_peq_r; [apply pbind_ret|].
  destruct (forcing_labels_ok (length mask * 8) lab ltac:(lia) Wl) as [Hb Lf].
  eapply runs_bind.
  { apply runs_flip. apply (own_client_runs sha p (forcing_labels (length mask * 8) lab) mask (wval lab)) with (p0 := p0); auto; try congruence.
    - intros y ys. apply forcing_value; auto. lia.
    - lia.
    - lia. }
  cbv beta. rewrite Lm. change (be_bytes 8 (N.of_nat (5 * (l * 8) + 1)) ++ be_bytes 2 1 ++ wval lab) with (dec_string (5 * (l * 8) + 1) 1 lab).
  unfold combine_keys. rewrite xor_itself. rewrite (proj1 (Hs _)). apply runs_ret.
Qed.

(** C121: a client with a password close to the one at its index makes the server's key zero ... *)
Theorem C121_insider_refuted : forall sha p p' g dom manyS manyR ot1S ot1R ot2S ot2R ot3S ot3R d l passwords mask index pw password t,
  hash32 sha -> garbling_ok g -> many_correct dom manyS manyR ->
  ot_correct extension_ok ot1S ot1R -> ot_correct extension_ok ot2S ot2R -> ot_correct extension_ok ot3S ot3R ->
  dom d -> password_list d l passwords -> good_length l -> length mask = l ->
  nth_error passwords (N.to_nat index) = Some pw -> length password = l -> t <= 65534 -> N.of_nat (distance pw password) <= t ->
  runs (server_v3 sha p mask g ot1S manyS ot2S ot3R passwords t)
       (forcing_client_v3 p' (by_evaluation sha p') ot1R manyR ot2R ot3S password d index) (Ok (repeat 0 32)) (Ok tt).
Proof.
  intros sha p p' g dom manyS manyR ot1S ot1R ot2S ot2R ot3S ot3R d l passwords mask index pw password t
    Hs Hg Hm H1 H2 H3 Hd Hpl Hgl Lm Hi Lg Ht Hdist.
  assert (Lpw : length pw = l) by (destruct Hpl as (_ & _ & Fp); rewrite Forall_forall in Fp; apply Fp; eapply nth_error_In; eauto).
  assert (Lx : length (xor mask pw) = l) by (rewrite xor_length; congruence).
  eapply forced_v3; eauto.
  intros gc gc2 ek dk zs l0 l1 H Same. destruct (good_supported _ Hgl) as (Hsup & Hn & Hn1). set (n := (l * 8)%nat) in *.
  pose proof (hk_length _ _ _ _ _ _ _ _ _ _ _ H) as Lz. cbn [circ2 num_inputs] in Lz.
  assert (Hbits : forall v, length v = l -> length (u8_vec_to_bool_vec v) = n) by (intros v Lv; rewrite bits_length8, Lv; reflexivity).
  rewrite <- !zipWith_app by (rewrite ?app_length, !seg_length, ?Hbits; auto; lia). rewrite seg_split3 by exact Lz.
  unfold by_evaluation. rewrite (hk_evaluate _ _ _ _ _ _ _ _ _ _ _ H); [|rewrite !app_length, !Hbits by auto; cbn [circ2 num_inputs]; lia|exact Same].
  assert (Ev : circuit_outputs (circ2 n t) (bit_values (u8_vec_to_bool_vec password ++ u8_vec_to_bool_vec mask ++ u8_vec_to_bool_vec (xor mask pw))) = [1]).
  { unfold bit_values. rewrite !map_app. fold (bit_values (u8_vec_to_bool_vec password)). fold (bit_values (u8_vec_to_bool_vec mask)).
    fold (bit_values (u8_vec_to_bool_vec (xor mask pw))).
    rewrite circ2_outputs by auto. rewrite weight3_bits, dist3_client by congruence. rewrite (distance_comm password pw). now rewrite (proj2 (N.leb_le _ _) Hdist). }
  rewrite Ev. reflexivity.
Qed.
Print Assumptions C121_insider_refuted.

(** ... and so does a client without one. *)
Theorem C121_outsider_refuted : forall sha p p' g dom manyS manyR ot1S ot1R ot2S ot2R ot3S ot3R d l passwords mask index pw guess t,
  hash32 sha -> garbling_ok g -> many_correct dom manyS manyR ->
  ot_correct extension_ok ot1S ot1R -> ot_correct extension_ok ot2S ot2R -> ot_correct extension_ok ot3S ot3R ->
  dom d -> password_list d l passwords -> good_length l -> length mask = l ->
  nth_error passwords (N.to_nat index) = Some pw -> length guess = l -> (t < l * 8)%nat -> leaky3 (l * 8) (g_ri g) ->
  runs (server_v3 sha p mask g ot1S manyS ot2S ot3R passwords (N.of_nat t))
       (forcing_client_v3 p' (by_stealing_v3 sha p' (l * 8) t) ot1R manyR ot2R ot3S guess d index) (Ok (repeat 0 32)) (Ok tt).
Proof.
  intros sha p p' g dom manyS manyR ot1S ot1R ot2S ot2R ot3S ot3R d l passwords mask index pw guess t
    Hs Hg Hm H1 H2 H3 Hd Hpl Hgl Lm Hi Lg Ht Hk.
  assert (Lpw : length pw = l) by (destruct Hpl as (_ & _ & Fp); rewrite Forall_forall in Fp; apply Fp; eapply nth_error_In; eauto).
  eapply forced_v3; eauto. { destruct (good_supported _ Hgl) as (_ & Hn & _). lia. }
  intros gc gc2 ek dk zs l0 l1 H Same. unfold by_stealing_v3.
  rewrite (v3_stolen sha Hs p p' g Hg l Hgl mask pw guess t Lm Lpw Lg Ht Hk gc gc2 ek dk zs l0 l1); auto. rewrite xor_length; congruence.
Qed.
Print Assumptions C121_outsider_refuted.

(** ** Examples *)
(** Four passwords of two bytes, threshold 1.  A client that guesses [255; 0] at index 2 learns all of the key but the
    password; the search finds it. *)
Example telling_v3_example : exists k masked, length k = 32%nat /\ [200; 3] = xor masked [5; 6] /\
  runs (server_v3 toy Debug [200; 3] demo_garbling (demo_sender Debug) (demo_many Debug) (demo_sender Debug) (demo_receiver Debug)
          [[1; 2]; [3; 4]; [5; 6]; [7; 8]] 1)
       (telling_client_v3 toy Release (demo_receiver Release) (demo_one Release) (demo_receiver Release) (demo_sender Release) [255; 0] 2 2 1)
    (Ok (combine_keys k (told_at toy (16 * 2) (xor masked [5; 6])))) (Ok (k, masked)).
Proof.
  apply (C121_wrong_client_refuted toy Debug Release demo_garbling (fun d => d = 2%nat) (demo_many Debug) (demo_one Release)
    (demo_sender Debug) (demo_receiver Release) (demo_sender Debug) (demo_receiver Release) (demo_sender Release) (demo_receiver Debug)
    2 2 [[1; 2]; [3; 4]; [5; 6]; [7; 8]] [200; 3] 2 [5; 6] [255; 0] 1);
    [exact toy_hash32|exact demo_garbling_ok|apply demo_many_ok|apply demo_OT|apply demo_OT|apply demo_OT|reflexivity|
    |unfold good_length; lia|lia|reflexivity|repeat constructor|reflexivity|reflexivity|lia|exact demo_leaky3].
  split; [lia|]. split; [reflexivity|]. repeat constructor.
Qed.
Example telling_v3_server_example : exists k, length k = 32%nat /\
  runs (telling_server_v3 toy Debug (demo_sender Debug) (demo_many Debug) (demo_sender Debug) (demo_receiver Debug) 2 2 1)
       (client_v3 toy Release demo_garbling (demo_receiver Release) (demo_one Release) (demo_receiver Release) (demo_sender Release) [5; 7] 4 3 1)
    (Ok k) (Ok (combine_keys k (told_at toy (24 * 2) [5; 7]))).
Proof.
  exact (C121_wrong_server_refuted toy Release Debug demo_garbling (fun d => d = 2%nat) (demo_many Debug) (demo_one Release)
    (demo_sender Debug) (demo_receiver Release) (demo_sender Debug) (demo_receiver Release) (demo_sender Release) (demo_receiver Debug)
    2 3 [5; 7] 1 toy_hash32 demo_garbling_ok (demo_many_ok Debug Release) (demo_OT Debug Release) (demo_OT Debug Release) (demo_OT Release Debug)
    eq_refl ltac:(lia) ltac:(reflexivity) ltac:(unfold good_length; cbn [length]; lia) ltac:(cbn [length]; lia) ltac:(repeat constructor) ltac:(cbn [length]; lia) demo_leaky3).
Qed.
Example search_v3_example : let k := repeat 7 32 in let masked := xor [200; 3] [5; 6] in
  try_digest k (combine_keys k (told_at toy 32 (xor masked [5; 6]))) (fun q => told_at toy 32 (xor masked q)) [[1; 2]; [5; 6]; [5; 7]] = [[5; 6]].
Proof. vm_compute. reflexivity. Qed.
(** And the password [5; 7] at index 2 makes the key of the server zero; so does the guess [255; 0]. *)
Example insider_v3_example :
  runs (server_v3 toy Debug [200; 3] demo_garbling (demo_sender Debug) (demo_many Debug) (demo_sender Debug) (demo_receiver Debug)
          [[1; 2]; [3; 4]; [5; 6]; [7; 8]] 1)
       (forcing_client_v3 Release (by_evaluation toy Release) (demo_receiver Release) (demo_one Release) (demo_receiver Release) (demo_sender Release) [5; 7] 2 2)
    (Ok (repeat 0 32)) (Ok tt).
Proof.
  apply (C121_insider_refuted toy Debug Release demo_garbling (fun d => d = 2%nat) (demo_many Debug) (demo_one Release)
    (demo_sender Debug) (demo_receiver Release) (demo_sender Debug) (demo_receiver Release) (demo_sender Release) (demo_receiver Debug)
    2 2 [[1; 2]; [3; 4]; [5; 6]; [7; 8]] [200; 3] 2 [5; 6] [5; 7] 1);
    [exact toy_hash32|exact demo_garbling_ok|apply demo_many_ok|apply demo_OT|apply demo_OT|apply demo_OT|reflexivity|
    |unfold good_length; lia|reflexivity|reflexivity|reflexivity|discriminate|vm_compute; discriminate].
  split; [lia|]. split; [reflexivity|]. repeat constructor.
Qed.
Example outsider_v3_example :
  runs (server_v3 toy Debug [200; 3] demo_garbling (demo_sender Debug) (demo_many Debug) (demo_sender Debug) (demo_receiver Debug)
          [[1; 2]; [3; 4]; [5; 6]; [7; 8]] 1)
       (forcing_client_v3 Release (by_stealing_v3 toy Release 16 1) (demo_receiver Release) (demo_one Release) (demo_receiver Release) (demo_sender Release) [255; 0] 2 2)
    (Ok (repeat 0 32)) (Ok tt).
Proof.
  apply (C121_outsider_refuted toy Debug Release demo_garbling (fun d => d = 2%nat) (demo_many Debug) (demo_one Release)
    (demo_sender Debug) (demo_receiver Release) (demo_sender Debug) (demo_receiver Release) (demo_sender Release) (demo_receiver Debug)
    2 2 [[1; 2]; [3; 4]; [5; 6]; [7; 8]] [200; 3] 2 [5; 6] [255; 0] 1);
    [exact toy_hash32|exact demo_garbling_ok|apply demo_many_ok|apply demo_OT|apply demo_OT|apply demo_OT|reflexivity|
    |unfold good_length; lia|reflexivity|reflexivity|reflexivity|lia|exact demo_leaky3].
  split; [lia|]. split; [reflexivity|]. repeat constructor.
Qed.
