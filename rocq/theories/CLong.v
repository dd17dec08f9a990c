(** C66: long passwords. *)
From Coq Require Import List NArith Bool Lia Arith Permutation.
From Verif Require Import Base MUtil MWires MCircuit MGarble MPar MBincode MProc MOt MApricot MMany MFpake.
From Verif Require Import SpecUtil SpecWires SpecCircuit SpecGarble SpecBincode SpecOt SpecApricot SpecFpake SpecLong.
From Verif Require Import PBase PUtil PWires PGarble PCircuit PHalf PProc POt PFpake PLong CCircuit CGarble COt CApricot CFpake.
Import ListNotations.
Open Scope N_scope.

(** The circuit of a run. *)
Notation long_circuit l t := (circL (l * 8) (sum_modulus l) t).

(** What holds instead of C66, for every length the wires can work with: the half keys agree when the
    distance modulo [sum_modulus] is within the threshold ... *)
Theorem C66_reduced_distance_agrees : forall sha p p' g otS otR pw pw' t,
  hash32 sha -> garbling_ok g -> ot_correct extension_ok otS otR ->
  length pw' = length pw -> workable_length (length pw) -> t <= 65534 ->
  N.of_nat (distance pw pw') mod sum_modulus (length pw) <= t ->
  exists k, length k = 32%nat /\ runs (garbler sha p g otS pw t) (evaluator sha p' otR pw') (Ok k) (Ok k).
Proof.
  intros sha p p' g otS otR pw pw' t Hs Hg Hot Hl Hgl Ht Hd.
  destruct (fpake_run_long sha Hs p p' g Hg otS otR Hot pw pw' t Hl Hgl Ht) as (ek & s & l0 & l1 & _ & _ & _ & _ & R).
  rewrite (proj2 (N.leb_le _ _) Hd) in R. eexists. split; [|exact R]. apply Hs.
Qed.
Print Assumptions C66_reduced_distance_agrees.

(** ... and otherwise differ, unless the hash function collides. *)
Theorem C66_reduced_distance_differs : forall sha p p' g otS otR pw pw' t,
  hash32 sha -> garbling_ok g -> ot_correct extension_ok otS otR ->
  length pw' = length pw -> workable_length (length pw) -> t <= 65534 ->
  t < N.of_nat (distance pw pw') mod sum_modulus (length pw) ->
  let c := long_circuit (length pw) t in let o := fpake_output (length pw) in
  exists k k' ek s l0 l1,
    runs (garbler sha p g otS pw t) (evaluator sha p' otR pw') (Ok k) (Ok k') /\
    garble_run sha p (g_rd g) (g_ri g) c = Ok (ek, o, s) /\
    genuine c (g_rd g) (gs_wires s) o 0 l0 /\ genuine c (g_rd g) (gs_wires s) o 1 l1 /\
    (k <> k' \/ clash sha (dec_string o 1 l0) (dec_string o 1 l1)).
Proof.
  intros sha p p' g otS otR pw pw' t Hs Hg Hot Hl Hgl Ht Hd c o.
  destruct (fpake_run_long sha Hs p p' g Hg otS otR Hot pw pw' t Hl Hgl Ht) as (ek & s & l0 & l1 & Er & G0 & G1 & Hne & R).
  rewrite (proj2 (N.leb_gt _ _) Hd) in R. do 2 eexists. exists ek, s, l0, l1.
  split; [exact R|]. split; [exact Er|]. split; [exact G0|]. split; [exact G1|].
  destruct (list_eq_dec N.eq_dec (sha (dec_string o 1 l1)) (sha (dec_string o 1 l0))) as [E|E]; [right|left; exact E].
  split; [|now symmetry]. intros Q. apply Hne. exact (dec_string_inj _ _ _ _ Q).
Qed.
Print Assumptions C66_reduced_distance_differs.

(** Every good length of C44 and C45 is workable, with a modulus above every distance. *)
Lemma good_workable l : good_length l -> workable_length l /\ N.of_nat (l * 8) < sum_modulus l.
Proof.
  intros H. assert (Hb : (1 <= l <= 4095)%nat) by (unfold good_length in H; lia).
  assert (E : sum_modulus l = N.of_nat (l * 8) + 1) by (unfold sum_modulus; rewrite N.mod_small by lia; reflexivity).
  unfold workable_length. rewrite E. unfold good_length in H. unfold supported, usize_ok. change (2 ^ 64) with 18446744073709551616. lia.
Qed.

(** Two passwords of [l] bytes at distance [sum_modulus l]. *)
Definition far_password (l : nat) : bytes := repeat 255 (l mod (N.to_nat 8192)) ++ 1 :: repeat 0 (l - l mod (N.to_nat 8192) - 1).
Lemma distance_repeat b w n : weight (N.lxor 0 b) = w -> forall u v, distance (repeat 0 n ++ u) (repeat b n ++ v) = (n * w + distance u v)%nat.
Proof. intros Hw u v. induction n as [|n IH]; [reflexivity|]. cbn [repeat app distance]. rewrite IH, Hw. lia. Qed.
Lemma far_distance l : (N.to_nat 8192 <= l)%nat ->
  length (far_password l) = l /\ distance (repeat 0 l) (far_password l) = (8 * (l mod N.to_nat 8192) + 1)%nat.
Proof.
  intros Hl. unfold far_password. pose proof (Nat.mod_upper_bound l (N.to_nat 8192) ltac:(lia)) as Hj.
  set (j := (l mod N.to_nat 8192)%nat) in *. clearbody j. split.
  - rewrite app_length. cbn [length]. rewrite !repeat_length. lia.
  - replace l with (j + (1 + (l - j - 1)))%nat at 1 by lia. rewrite repeat_app. rewrite (distance_repeat 255 8) by reflexivity.
    cbn [plus repeat distance]. replace (weight (N.lxor 0 1)) with 1%nat by reflexivity.
    pose proof (distance_repeat 0 0 (l - j - 1) eq_refl [] []) as Z. rewrite !app_nil_r in Z. rewrite Z. cbn [distance]. lia.
Qed.
Lemma far_modulus l : N.of_nat (8 * (l mod N.to_nat 8192) + 1) = sum_modulus l.
Proof.
  unfold sum_modulus. rewrite Nat2N.inj_add, !Nat2N.inj_mul. rewrite Nat2N.inj_mod, N2Nat.id.
  replace 65536 with (8 * 8192) by reflexivity. rewrite (N.mul_comm (N.of_nat l)). change (N.of_nat 8) with 8. change (N.of_nat 1) with 1.
  rewrite N.mul_mod_distr_l by discriminate. reflexivity.
Qed.

(** C66 is false: at every workable length of 8192 bytes or more there are passwords that differ in
    more than one bit and give the same half key under threshold 0. *)
Theorem C66_distant_passwords_agree_refuted : forall sha p p' g otS otR l,
  hash32 sha -> garbling_ok g -> ot_correct extension_ok otS otR -> workable_length l -> (N.to_nat 8192 <= l)%nat ->
  exists pw pw' k, length pw = l /\ length pw' = l /\ N.of_nat (distance pw pw') = sum_modulus l /\ 1 < sum_modulus l /\
    runs (garbler sha p g otS pw 0) (evaluator sha p' otR pw') (Ok k) (Ok k).
Proof.
  intros sha p p' g otS otR l Hs Hg Hot Hw Hl. destruct (far_distance l Hl) as [L D].
  exists (repeat 0 l), (far_password l). assert (E : N.of_nat (distance (repeat 0 l) (far_password l)) = sum_modulus l) by (rewrite D; apply far_modulus).
  destruct (workable l Hw) as (_ & _ & H2 & _).
  destruct (C66_reduced_distance_agrees sha p p' g otS otR (repeat 0 l) (far_password l) 0) as (k & _ & R); auto; rewrite ?repeat_length; auto.
  - lia.
  - rewrite E, N.mod_same by lia. lia.
  - exists k. split; [try apply repeat_length; reflexivity|]. split; [exact L|]. split; [exact E|]. split; [lia|exact R].
Qed.
Print Assumptions C66_distant_passwords_agree_refuted.

(** C66: once the threshold reaches the modulus minus 1, every two passwords give the same key, on
    both sides of the whole exchange. *)
Theorem C66_everything_agrees_refuted : forall sha p p' g g' otS otR otS' otR' pw pw' t t',
  hash32 sha -> garbling_ok g -> garbling_ok g' -> ot_correct extension_ok otS otR -> ot_correct extension_ok otS' otR' ->
  length pw' = length pw -> workable_length (length pw) -> t <= 65534 -> t' <= 65534 ->
  sum_modulus (length pw) <= t + 1 -> sum_modulus (length pw) <= t' + 1 ->
  exists key, length key = 32%nat /\
    runs (fpake_server sha p g otS otR' pw t) (fpake_client sha p' g' otS' otR pw' t') (Ok key) (Ok key).
Proof.
  intros sha p p' g g' otS otR otS' otR' pw pw' t t' Hs Hg Hg' Hot Hot' Hl Hw Ht Ht' Hm Hm'.
  assert (B : forall x, x mod sum_modulus (length pw) < sum_modulus (length pw)).
  { intros x. apply N.mod_lt. destruct (workable _ Hw) as (_ & _ & H2 & _). lia. }
  destruct (C66_reduced_distance_agrees sha p p' g otS otR pw pw' t Hs Hg Hot Hl Hw Ht) as (k1 & L1 & R1).
  { specialize (B (N.of_nat (distance pw pw'))). lia. }
  destruct (C66_reduced_distance_agrees sha p' p g' otS' otR' pw' pw t' Hs Hg' Hot') as (k2 & L2 & R2); auto; try (rewrite Hl; assumption).
  { rewrite Hl. specialize (B (N.of_nat (distance pw' pw))). lia. }
  exists (combine_keys k1 k2). split. { unfold combine_keys, xor. rewrite zipWith_length, L1, L2. reflexivity. }
  unfold fpake_server, fpake_client. eapply runs_bind; [exact R1|].
  eapply runs_bind; [apply runs_flip; exact R2|].
  rewrite (C46_combine_commutes k2 k1). apply runs_ret.
Qed.
Print Assumptions C66_everything_agrees_refuted.

(** 8193 bytes: the distance is taken modulo 9, so that a threshold of 8 accepts everything. *)
Lemma workable_8193 : workable_length (N.to_nat 8193) /\ sum_modulus (N.to_nat 8193) = 9.
Proof.
  assert (E : sum_modulus (N.to_nat 8193) = 9).
  { unfold sum_modulus. rewrite Nat2N.inj_mul, N2Nat.id. reflexivity. }
  split; [|exact E]. unfold workable_length. rewrite E. unfold supported, usize_ok. rewrite Nat2N.inj_mul, N2Nat.id. change (2 ^ 64) with 18446744073709551616. lia.
Qed.
Example C66_example : forall otS otR, ot_correct extension_ok otS otR ->
  exists pw pw' k, length pw = N.to_nat 8193 /\ length pw' = N.to_nat 8193 /\ distance pw pw' = 9%nat /\
    runs (garbler toy Debug demo_garbling otS pw 0) (evaluator toy Release otR pw') (Ok k) (Ok k).
Proof.
  intros otS otR Hot. destruct workable_8193 as [W E].
  destruct (C66_distant_passwords_agree_refuted toy Debug Release demo_garbling otS otR (N.to_nat 8193)) as (pw & pw' & k & H1 & H2 & H3 & _ & R);
    [exact toy_hash32|exact demo_garbling_ok|exact Hot|exact W|apply Nat.leb_le; vm_compute; reflexivity|].
  exists pw, pw', k. split; [exact H1|]. split; [exact H2|]. split; [lia|exact R].
Qed.
