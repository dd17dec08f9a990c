(** C116: passwords of different lengths. *)
From Coq Require Import List NArith Bool Lia Arith Permutation.
From Verif Require Import Base MUtil MWires MCircuit MGarble MPar MBincode MProc MOt MApricot MMany MFpake.
From Verif Require Import SpecUtil SpecWires SpecCircuit SpecGarble SpecBincode SpecOt SpecApricot SpecFpake SpecLong SpecMany SpecMfpake SpecUneven.
From Verif Require Import PBase PUtil PWires PGarble PCircuit PCircuit2 PHalf PProc POt PApricotRun PFpake PFpake3 PLong.
From Verif Require Import CCircuit CGarble COt CApricot CMany CUtil CFpake CMfpake CLong CFpake3.
Import ListNotations.
Open Scope N_scope.

(** ** Where the two sides compare their lengths *)
Lemma apricot_props n : usize_ok n -> props_ok (mkProps n apricot_name).
Proof. intros H. split; [exact H|]. split; [split; [reflexivity|repeat constructor]|reflexivity]. Qed.
Lemma apricot_mismatch sha fill sha' fill' p p' a a' cores cores' r r' bootR bootS msg choices :
  usize_ok (length msg) -> usize_ok (length choices) -> (length msg mod 8 = 0)%nat -> (length choices mod 8 = 0)%nat -> length msg <> length choices ->
  runs (sender_with sha fill p a cores r bootR msg) (receiver_with sha' fill' p' a' cores' r' bootS choices)
    (Err EBadProperties) (Err EBadProperties).
Proof.
  intros Hu Hu' H8 H8' Hne. unfold sender_with, receiver_with, ap_sender, ap_receiver.
  rewrite H8, H8'. change (Nat.eqb 0 0) with true.
  eapply runs_lift_l; [apply debug_assert_true|]. eapply runs_lift_r; [apply debug_assert_true|].
  apply runs_bind_err. apply C30_negotiation; [now apply apricot_props|now apply apricot_props|].
  cbn [pr_size]. intros [E _]. contradiction.
Qed.

(** C116, plain fPAKE: over the OT extension of the crate, with any coins and any base OT, both sides end
    with the same error, whatever else they agree on. *)
Theorem C116_fpake : forall sha fill fill' p p' a a' cores cores' r r' bootR bootS g g' (otR : list bool -> proc (list bytes)) (otS : list (bytes * bytes) -> proc unit) pw pw' t t',
  hash32 sha -> garbling_ok g -> workable_length (length pw) -> t <= 65534 ->
  usize_ok (length pw' * 8) -> length pw' <> length pw ->
  runs (fpake_server sha p g (sender_with sha fill p a cores r bootR) otR pw t)
       (fpake_client sha p' g' otS (receiver_with sha fill' p' a' cores' r' bootS) pw' t')
    (Err EBadProperties) (Err EBadProperties).
Proof.
  intros sha fill fill' p p' a a' cores cores' r r' bootR bootS g g' otR otS pw pw' t t' Hs Hg Hw Ht Hu Hne.
  destruct (workable _ Hw) as (H1 & Hsup & H2 & Hlt & Hun & Hnw).
  destruct (circL_half sha p g (length pw * 8) (sum_modulus (length pw)) t Hs Hg Ht H1 Hsup Hnw) as (gc & ek & dk & zs & l0 & l1 & H).
  pose proof (hk_length _ _ _ _ _ _ _ _ _ _ _ H) as Lz. cbn [circL num_inputs] in Lz.
  unfold fpake_server, fpake_client. apply runs_bind_err. unfold garbler, evaluator. rewrite bits_length8.
  eapply runs_lift_l; [exact (build_circuit_long p (length pw * 8) t Hlt Ht)|].
  change (N.of_nat (length pw * 8) mod 65536 + 1) with (sum_modulus (length pw)).
  eapply runs_lift_l; [exact (garble_zipped_ok _ _ _ _ _ _ _ _ _ _ H)|]. cbv beta iota.
  eapply runs_lift_l. { unfold slice_to. rewrite (proj2 (Nat.leb_le _ _)) by lia. reflexivity. }
  eapply runs_lift_l. { unfold slice_from. rewrite (proj2 (Nat.leb_le _ _)) by lia. reflexivity. }
  apply runs_bind_err.
  assert (Lt : length (label_messages (skipn (length pw * 8) zs)) = (length pw * 8)%nat) by (unfold label_messages; rewrite map_length, skipn_length; lia).
  apply apricot_mismatch; rewrite ?Lt, ?bits_length8; auto; try (apply Nat.mod_mul; lia). lia.
Qed.
Print Assumptions C116_fpake.

(** C116, third version: a client whose password is longer or shorter than the first of the list. *)
Theorem C116_v3 : forall sha fill fill' p p' a a' cores cores' r r' bootR bootS mask g g'
    manyS ot2 ot3 manyR ot2' ot3' p0 rest password number index t t',
  hash32 sha -> garbling_ok g -> good_length (length p0) -> t <= 65534 ->
  usize_ok (length password * 8) -> length password <> length p0 ->
  runs (server_v3 sha p mask g (sender_with sha fill p a cores r bootR) manyS ot2 ot3 (p0 :: rest) t)
       (client_v3 sha p' g' (receiver_with sha fill' p' a' cores' r' bootS) manyR ot2' ot3' password number index t')
    (Err EBadProperties) (Err EBadProperties).
Proof.
  intros sha fill fill' p p' a a' cores cores' r r' bootR bootS mask g g' manyS ot2 ot3 manyR ot2' ot3' p0 rest password number index t t'
    Hs Hg Hgl Ht Hu Hne.
  destruct (good_supported _ Hgl) as (Hsup & Hn & H1).
  destruct (circ2_half sha p g (length p0 * 8) t Hs Hg Hn Ht H1 Hsup) as (gc & ek & dk & zs & l0 & l1 & H).
  pose proof (hk_length _ _ _ _ _ _ _ _ _ _ _ H) as Lz. cbn [circ2 num_inputs] in Lz.
  unfold server_v3, client_v3. apply runs_bind_err. unfold garbler_server_v3, evaluator_client_v3.
  eapply runs_lift_l; [reflexivity|]. cbv beta zeta.
  eapply runs_lift_l; [apply build_circuit_v2_eq; assumption|].
  eapply runs_lift_l; [exact (garble_zipped_ok _ _ _ _ _ _ _ _ _ _ H)|]. cbv beta iota.
  apply runs_send_recv.
  destruct (sent_garbled _ _ _ _ _ _ _ _ _ _ Hg H) as (gc2 & Egc & Same).
  eapply runs_lift_r; [exact Egc|].
  eapply runs_lift_l; [apply label_pairs_ok; lia|].
  eapply runs_lift_r; [apply choice_bits_ok|].
  apply runs_bind_err.
  assert (Lt : length (label_messages (seg zs 0 (length p0 * 8))) = (length p0 * 8)%nat) by (unfold label_messages; rewrite map_length, seg_length; lia).
  assert (Hun : usize_ok (length p0 * 8)) by (apply usize_small; apply N.le_lt_trans with 65534; [lia|reflexivity]).
  apply apricot_mismatch; rewrite ?Lt, ?bits_length8; auto; try (apply Nat.mod_mul; lia). lia.
Qed.
Print Assumptions C116_v3.

(** ** The version with masks *)
Lemma xor_cut (m : bytes) : forall v, xor m v = xor m (firstn (length m) v).
Proof. unfold xor. induction m as [|x m IH]; intros [|y v]; cbn [length firstn zipWith]; auto. f_equal. apply IH. Qed.
Lemma xor_inplace_cut m v : (length m <= length v)%nat -> xor_bytes_inplace Release m v = Ok (xor m (firstn (length m) v)).
Proof.
  intros H. unfold xor_bytes_inplace. rewrite (proj2 (Nat.ltb_ge _ _) H). rewrite <- xor_cut. reflexivity.
Qed.
Lemma mask_cut mask passwords l : length mask = l -> Forall (fun pw : bytes => (l <= length pw)%nat) passwords ->
  mask_passwords Release mask passwords l = Ok (map (xor mask) (map (firstn l) passwords)).
Proof.
  intros Hm Hp. unfold mask_passwords. rewrite map_map. apply mapM_Ok. intros pw Hin. rewrite Forall_forall in Hp. specialize (Hp pw Hin).
  rewrite xor_bytes_inplace_ok by (rewrite repeat_length; lia). cbn [obind].
  change (zipWith N.lxor (repeat 0 l) mask) with (xor (repeat 0 l) mask). rewrite <- Hm, xor_zeros.
  apply xor_inplace_cut. lia.
Qed.
Lemma cut_length l (v : bytes) : (l <= length v)%nat -> length (firstn l v) = l.
Proof. intros H. rewrite firstn_length. lia. Qed.

(** C116 is false for the version with masks in release builds.  The length of the first password of the
    list is taken for all of them, and what is longer is cut: in the list as well as on the client's side. *)
Theorem C116_mfpake_refuted : forall sha g g' dom manyS manyR otS otR otS' otR' d l passwords mask index pw password t t',
  hash32 sha -> garbling_ok g -> garbling_ok g' ->
  many_correct dom manyS manyR -> ot_correct extension_ok otS otR -> ot_correct extension_ok otS' otR' ->
  dom d -> uneven_list d l passwords -> good_length l -> length mask = l ->
  nth_error passwords (N.to_nat index) = Some pw -> (l <= length password)%nat -> t <= 65534 -> t' <= 65534 ->
  N.of_nat (distance (firstn l pw) (firstn l password)) <= t -> N.of_nat (distance (firstn l pw) (firstn l password)) <= t' ->
  exists key, length key = 32%nat /\
    runs (mfpake_many sha Release mask g manyS otS otR' passwords t)
         (mfpake_single sha Release g' manyR otS' otR password index (N.of_nat (2 ^ d)) t') (Ok key) (Ok key).
Proof.
  intros sha g g' dom manyS manyR otS otR otS' otR' d l passwords mask index pw password t t'
    Hs Hg Hg' Hm Hot Hot' Hd (Hd31 & Lp & (p0 & rest & E0 & L0) & Fp) Hgl Lm Hi Lpw Ht Ht' D1 D2.
  assert (Lpwi : (l <= length pw)%nat) by (rewrite Forall_forall in Fp; apply Fp; eapply nth_error_In; eauto).
  assert (H1 : (1 <= l)%nat) by (destruct Hgl; lia).
  set (a := firstn l pw) in *. set (b := firstn l password) in *.
  assert (La : length a = l) by now apply cut_length. assert (Lb : length b = l) by now apply cut_length.
  set (x := xor (xor mask a) b).
  assert (Lxm : length (xor mask a) = l) by (rewrite xor_length; congruence).
  assert (Lx : length x = length mask) by (unfold x; rewrite xor_length; congruence).
  assert (Ex : distance mask x = distance a b) by (apply distance_masked; congruence).
  assert (Hgm : good_length (length mask)) by now rewrite Lm.
  assert (Hgx : good_length (length x)) by now rewrite Lx.
  destruct (C44_half_keys_agree sha Release Release g otS otR mask x t Hs Hg Hot Lx Hgm Ht) as (k1 & Lk1 & R1); [now rewrite Ex|].
  destruct (C44_half_keys_agree sha Release Release g' otS' otR' x mask t' Hs Hg' Hot' (eq_sym Lx) Hgx Ht') as (k2 & Lk2 & R2).
  { rewrite distance_comm, Ex. exact D2. }
  exists (combine_keys k1 k2). split. { unfold combine_keys. rewrite xor_length; congruence. }
  assert (Hpow : 2 ^ N.of_nat d = N.of_nat (2 ^ d)) by (now rewrite Nat2N.inj_pow).
  assert (Hlog : forall q w, 32 <= w <= 64 -> log2_ q w (N.of_nat (2 ^ d)) = Ok (N.of_nat d)).
  { intros q w Hw. rewrite <- Hpow. apply log2_pow2; [apply N.le_lt_trans with 64; [lia|reflexivity]|lia]. }
  unfold mfpake_many, mfpake_single.
  eapply runs_lift_l. { rewrite E0. reflexivity. }
  eapply runs_lift_l. { rewrite L0. apply mask_cut; auto. }
  eapply runs_lift_l. { rewrite Lp. apply Hlog. lia. }
  eapply runs_lift_r. { apply Hlog. lia. }
  rewrite Nat2N.id.
  eapply runs_bind.
  { apply (Hm d (map (xor mask) (map (firstn l) passwords)) index (xor mask a)); auto.
    - now rewrite !map_length.
    - exists l. split; [exact H1|]. apply Forall_map, Forall_map. eapply Forall_impl; [|exact Fp]. intros y Hy. cbn beta in *.
      rewrite xor_length; [exact Lm|]. now rewrite cut_length.
    - now apply map_nth_error, map_nth_error. }
  eapply runs_lift_r. { rewrite xor_inplace_cut by (rewrite Lxm; exact Lpw). rewrite Lxm. reflexivity. }
  fold b. fold x.
  eapply runs_bind; [exact R1|]. eapply runs_bind; [apply runs_flip; exact R2|]. apply runs_ret.
Qed.
Print Assumptions C116_mfpake_refuted.

(** So two passwords of the same length, of which only the first l bytes agree, open each other's session. *)
Theorem C116_mfpake_tail_ignored_refuted : forall sha g g' dom manyS manyR otS otR otS' otR' d passwords mask index start end1 end2,
  hash32 sha -> garbling_ok g -> garbling_ok g' ->
  many_correct dom manyS manyR -> ot_correct extension_ok otS otR -> ot_correct extension_ok otS' otR' ->
  dom d -> uneven_list d (length start) passwords -> good_length (length start) -> length mask = length start ->
  nth_error passwords (N.to_nat index) = Some (start ++ end1) ->
  exists key, length key = 32%nat /\
    runs (mfpake_many sha Release mask g manyS otS otR' passwords 0)
         (mfpake_single sha Release g' manyR otS' otR (start ++ end2) index (N.of_nat (2 ^ d)) 0) (Ok key) (Ok key).
Proof.
  intros sha g g' dom manyS manyR otS otR otS' otR' d passwords mask index start end1 end2 Hs Hg Hg' Hm Hot Hot' Hd Hu Hgl Lm Hi.
  assert (D : distance start start = 0%nat).
  { clear. induction start as [|x l IH]; [reflexivity|]. cbn [distance]. rewrite IH, N.lxor_nilpotent. reflexivity. }
  eapply (C116_mfpake_refuted sha g g' dom) with (l := length start) (pw := start ++ end1); eauto; try lia.
  - rewrite app_length. lia.
  - rewrite !firstn_app, !Nat.sub_diag, !firstn_all. cbn [firstn]. rewrite !app_nil_r, D. lia.
  - rewrite !firstn_app, !Nat.sub_diag, !firstn_all. cbn [firstn]. rewrite !app_nil_r, D. lia.
Qed.
Print Assumptions C116_mfpake_tail_ignored_refuted.

(** In debug builds the server with such a list, and in any build one with a shorter password than the
    first, panics before it sends anything ... *)
Theorem C116_mfpake_server_panics_refuted : forall sha p mask g manyS otS otR p0 rest pw t,
  length mask = length p0 -> In pw rest -> length pw <> length p0 ->
  p = Debug \/ (p = Release /\ (length pw < length p0)%nat) ->
  exists e, mfpake_many sha p mask g manyS otS otR (p0 :: rest) t = Done (Panic e).
Proof.
  intros sha p mask g manyS otS otR p0 rest pw t Lm Hin Hne Hp. unfold mfpake_many.
  change (idx (p0 :: rest) 0) with (Ok p0). cbn [lift pbind].
  set (step := fun pw0 : bytes => let* m := xor_bytes_inplace p (repeat 0 (length p0)) mask in xor_bytes_inplace p m pw0).
  assert (St : forall v, step v = xor_bytes_inplace p mask v).
  { intros v. unfold step. rewrite xor_bytes_inplace_ok by (rewrite repeat_length; lia). cbn [obind].
    change (zipWith N.lxor (repeat 0 (length p0)) mask) with (xor (repeat 0 (length p0)) mask). now rewrite <- Lm, xor_zeros. }
  assert (Bad : exists e, step pw = Panic e).
  { rewrite St. destruct (C04_length_mismatch mask pw) as (_ & Hd & Hr & _); [congruence|].
    destruct Hp as [->|[-> Hlt]]; [eauto|]. destruct (Hr ltac:(lia)) as [_ E]. eauto. }
  assert (Or : forall v, (exists y, step v = Ok y) \/ exists e, step v = Panic e).
  { intros v. rewrite St. unfold xor_bytes_inplace, debug_assert, assert_. destruct (is_debug p), (Nat.eqb (length mask) (length v)), (Nat.ltb (length v) (length mask)); cbn [obind]; eauto. }
  assert (G : forall vs, In pw vs -> exists e, mapM step vs = Panic e).
  { induction vs as [|v vs IH]; [intros []|]. intros [->|Hv]; cbn [mapM].
    - destruct Bad as [e ->]. cbn [obind]. eauto.
    - destruct (Or v) as [[y ->]|[e ->]]; cbn [obind]; [|eauto]. destruct (IH Hv) as [e ->]. cbn [obind]. eauto. }
  destruct (G (p0 :: rest)) as [e E]; [now right|]. exists e.
  unfold mask_passwords. fold step. rewrite E. reflexivity.
Qed.
Print Assumptions C116_mfpake_server_panics_refuted.

(** ... and such a client panics after the 1-out-of-n OT. *)
Theorem C116_mfpake_client_panics_refuted : forall sha p p' g g' dom manyS manyR otS otR otS' otR' d l passwords mask index pw password t t',
  many_correct dom manyS manyR -> dom d -> password_list d l passwords -> (1 <= l)%nat -> length mask = l ->
  nth_error passwords (N.to_nat index) = Some pw -> length password <> l ->
  p' = Debug \/ (p' = Release /\ (length password < l)%nat) ->
  exists c e, reach (initial (mfpake_many sha p mask g manyS otS otR' passwords t)
         (mfpake_single sha p' g' manyR otS' otR password index (N.of_nat (2 ^ d)) t')) c /\ right_ c = Done (Panic e).
Proof.
  intros sha p p' g g' dom manyS manyR otS otR otS' otR' d l passwords mask index pw password t t'
    Hm Hd (Hd31 & Lp & Fp) H1 Lm Hi Hne Hp.
  assert (Lpwi : length pw = l) by (rewrite Forall_forall in Fp; apply Fp; eapply nth_error_In; eauto).
  assert (Lxm : length (xor mask pw) = l) by (rewrite xor_length; congruence).
  assert (Hpow : 2 ^ N.of_nat d = N.of_nat (2 ^ d)) by (now rewrite Nat2N.inj_pow).
  assert (Hlog : forall q w, 32 <= w <= 64 -> log2_ q w (N.of_nat (2 ^ d)) = Ok (N.of_nat d)).
  { intros q w Hw. rewrite <- Hpow. apply log2_pow2; [apply N.le_lt_trans with 64; [lia|reflexivity]|lia]. }
  destruct passwords as [|p0 rest] eqn:Epw. { destruct (N.to_nat index); discriminate. }
  assert (L0 : length p0 = l) by (inversion Fp; auto). rewrite <- Epw in *.
  unfold mfpake_many, mfpake_single. rewrite Lp, !Hlog by lia. assert (E0 : idx passwords 0 = Ok p0) by (rewrite Epw; reflexivity). rewrite E0.
  cbn [lift pbind]. rewrite L0, (mask_passwords_ok p mask passwords l Lm Fp). cbn [lift pbind]. rewrite !Nat2N.id.
  assert (R : runs (manyS d (map (xor mask) passwords)) (manyR d index) (Ok tt) (Ok (xor mask pw))).
  { apply Hm; auto.
    - now rewrite map_length.
    - exists l. split; [exact H1|]. apply Forall_map. eapply Forall_impl; [|exact Fp]. intros y Hy. cbn beta in *. rewrite xor_length; congruence.
    - now apply map_nth_error. }
  assert (Bad : exists e, xor_bytes_inplace p' (xor mask pw) password = Panic e).
  { destruct (C04_length_mismatch (xor mask pw) password) as (_ & Hdb & Hr & _); [congruence|].
    destruct Hp as [->|[-> Hlt]]; [eauto|]. destruct (Hr ltac:(lia)) as [_ E]. eauto. }
  destruct Bad as [e Ee].
  eexists. exists e. split; [exact (reach_map _ _ _ _ R)|].
  unfold map_cfg, final. cbn [right_ pbind]. rewrite Ee. reflexivity.
Qed.
Print Assumptions C116_mfpake_client_panics_refuted.

(** ** Instances *)
Example C116_fpake_example : runs (fpake_server toy Debug demo_garbling (demo_sender Debug) (demo_receiver Debug) [97; 98; 99] 2)
       (fpake_client toy Release demo_garbling (demo_sender Release) (demo_receiver Release) [97; 98] 4) (Err EBadProperties) (Err EBadProperties).
Proof.
  apply C116_fpake; [exact toy_hash32|exact demo_garbling_ok|apply good_workable; unfold good_length; cbn [length]; lia|lia|reflexivity|discriminate].
Qed.
Example C116_v3_example : runs (server_v3 toy Debug [1; 2; 3] demo_garbling (demo_sender Debug) (demo_many Debug) (demo_sender Debug) (demo_receiver Debug) [[97; 98; 99]; [4; 5; 6]] 2)
       (client_v3 toy Release demo_garbling (demo_receiver Release) (demo_one Release) (demo_receiver Release) (demo_sender Release) [97; 98] 2 0 4) (Err EBadProperties) (Err EBadProperties).
Proof.
  apply C116_v3; [exact toy_hash32|exact demo_garbling_ok|unfold good_length; cbn [length]; lia|lia|reflexivity|discriminate].
Qed.
(** The list holds "ab" and "cdef"; the client types "cdxyz" for the second. *)
Example C116_mfpake_example : exists key,
  runs (mfpake_many toy Release [7; 9] demo_garbling (demo_many Release) (demo_sender Release) (demo_receiver Release) [[97; 98]; [99; 100; 101; 102]; [1; 2; 3]; [5; 6]] 0)
       (mfpake_single toy Release demo_garbling (demo_one Release) (demo_sender Release) (demo_receiver Release) [99; 100; 120; 121; 122] 1 4 0) (Ok key) (Ok key).
Proof.
  destruct (C116_mfpake_tail_ignored_refuted toy demo_garbling demo_garbling (fun d => d = 2%nat) (demo_many Release) (demo_one Release) (demo_sender Release) (demo_receiver Release)
    (demo_sender Release) (demo_receiver Release) 2 [[97; 98]; [99; 100; 101; 102]; [1; 2; 3]; [5; 6]] [7; 9] 1 [99; 100] [101; 102] [120; 121; 122]) as (key & _ & R);
    [exact toy_hash32|exact demo_garbling_ok|exact demo_garbling_ok|exact (demo_many_ok Release Release)|apply demo_OT|apply demo_OT| | | | | |].
  - reflexivity.
  - split; [lia|]. split; [reflexivity|]. split; [eexists _, _; split; reflexivity|]. repeat constructor; cbn; lia.
  - unfold good_length; cbn [length]; lia.
  - reflexivity.
  - reflexivity.
  - exists key. exact R.
Qed.
Example C116_server_panics : exists e,
  mfpake_many toy Release [7; 9] demo_garbling (demo_many Release) (demo_sender Release) (demo_receiver Release) [[97; 98]; [99]] 0 = Done (Panic e).
Proof. apply C116_mfpake_server_panics_refuted with (pw := [99]); [reflexivity|now left|discriminate|right; split; [reflexivity|cbn; lia]]. Qed.
Example C116_client_panics : exists c e,
  reach (initial (mfpake_many toy Release [7; 9] demo_garbling (demo_many Release) (demo_sender Release) (demo_receiver Release) [[97; 98]; [99; 100]; [1; 2]; [5; 6]] 0)
    (mfpake_single toy Release demo_garbling (demo_one Release) (demo_sender Release) (demo_receiver Release) [99] 1 4 0)) c /\ right_ c = Done (Panic e).
Proof.
  apply (C116_mfpake_client_panics_refuted toy Release Release demo_garbling demo_garbling (fun d => d = 2%nat) (demo_many Release) (demo_one Release) (demo_sender Release) (demo_receiver Release)
    (demo_sender Release) (demo_receiver Release) 2 2 [[97; 98]; [99; 100]; [1; 2]; [5; 6]] [7; 9] 1 [99; 100] [99] 0 0 (demo_many_ok Release Release));
    [reflexivity| |lia|reflexivity|reflexivity|discriminate|right; split; [reflexivity|cbn; lia]].
  split; [lia|]. split; [reflexivity|]. repeat constructor.
Qed.
