(** C47, continued: the lengths at which the key exchange works are exactly those whose sum modulus the
    wires can add in. *)
From Coq Require Import List NArith Bool Lia Arith.
From Verif Require Import Base MUtil MWires MCircuit MGarble MPar MBincode MProc MOt MApricot MMany MFpake.
From Verif Require Import SpecUtil SpecWires SpecCircuit SpecGarble SpecBincode SpecOt SpecApricot SpecFpake SpecLong SpecFlat.
From Verif Require Import PBase PUtil PWires PGarble PCircuit PHalf PProc POt PFpake PLong PFlat PHang PBad.
From Verif Require Import CCircuit CGarble COt CApricot CFpake CLong CFlat.
Import ListNotations.
Open Scope N_scope.

(** Coins that are good for the labels of the key exchange with passwords of [l] bytes. *)
Definition coins_for (l : nat) (g : garbling) : Prop :=
  garbling_ok g /\ valid_sample (sum_modulus l) (g_rd g (sum_modulus l)).

Lemma eight_more l : exists q, sum_modulus l = 8 * q + 1 /\ q < 8192.
Proof.
  exists (N.of_nat l mod 8192). split; [|apply N.mod_lt; discriminate].
  unfold sum_modulus. rewrite Nat2N.inj_mul. change (N.of_nat 8) with 8.
  rewrite (N.mul_comm (N.of_nat l)). replace 65536 with (8 * 8192) by reflexivity.
  now rewrite N.mul_mod_distr_l by discriminate.
Qed.
Lemma bad_moduli l : ~ supported (sum_modulus l) -> sum_modulus l <> 1 ->
  128 < sum_modulus l < 255 \/ 32768 < sum_modulus l < 65535.
Proof. destruct (eight_more l) as (q & -> & Hq). unfold supported. lia. Qed.
Lemma one_block l : (1 <= l)%nat -> usize_ok (l * 64) -> sum_modulus l = 1 -> whole_blocks l.
Proof.
  intros H1 Hu Hm. split; [exact H1|]. split; [|exact Hu]. revert Hm. unfold sum_modulus.
  rewrite Nat2N.inj_mul. change (N.of_nat 8) with 8.
  rewrite (N.mul_comm (N.of_nat l)). replace 65536 with (8 * 8192) by reflexivity.
  rewrite N.mul_mod_distr_l by discriminate. lia.
Qed.
Lemma zeros_valid m : 1 <= m -> valid_sample m (repeat 0 32).
Proof.
  intros Hm d E. split; [exact E|]. split; [reflexivity|]. split; [repeat constructor|]. intros _ i _.
  unfold digit. cbn [wval]. rewrite !nth_repeat. destruct (wide m); lia.
Qed.
Lemma still_ok l : coins_for l still.
Proof.
  split.
  - split; [intros m Hs; apply zeros_valid; unfold supported in Hs; lia|]. split; [intros i; apply zeros_valid; lia|].
    intros gc. split; [reflexivity|]. split; apply Permutation.Permutation_refl.
  - apply zeros_valid. destruct (eight_more l) as (q & -> & _). lia.
Qed.
Lemma small_positions p m : m <= 32768 -> forall x, x < m -> exists s, uadd p 16 x (m - 1) = Ok s /\ (x = 0 -> s = m - 1).
Proof.
  intros Hm x Hx. exists (x + (m - 1)). split; [|intros ->; lia]. unfold uadd. change (2 ^ 16) with 65536.
  now rewrite (proj2 (N.ltb_lt (x + (m - 1)) 65536)) by lia.
Qed.
Lemma wrapped_positions m : m < 65536 -> 1 <= m -> forall x, x < m -> exists s, uadd Release 16 x (m - 1) = Ok s /\ (x = 0 -> s = m - 1).
Proof.
  intros Hm H1 x Hx. unfold uadd. change (2 ^ 16) with 65536. destruct (x + (m - 1) <? 65536) eqn:E.
  - exists (x + (m - 1)). split; [reflexivity|intros ->; lia].
  - eexists. split; [reflexivity|]. intros ->. rewrite N.ltb_ge in E. lia.
Qed.

Lemma distance_self a : distance a a = 0%nat.
Proof. induction a as [|x a IH]; [reflexivity|]. cbn [distance]. now rewrite N.lxor_nilpotent, IH. Qed.

(** C47 is false at every length whose sum modulus is neither supported nor 1: some hash function and
    some coins give different half keys for equal passwords, over any correct OT, whatever the password.
    When the modulus is over 32768 this is about garblers in release builds. *)
Theorem C47_bad_lengths_refuted : forall p p' otS otR pw,
  ot_correct extension_ok otS otR -> (1 <= length pw)%nat -> usize_ok (length pw * 64) ->
  ~ supported (sum_modulus (length pw)) -> sum_modulus (length pw) <> 1 ->
  (p = Debug -> sum_modulus (length pw) <= 32768) ->
  exists sha g, hash32 sha /\ coins_for (length pw) g /\
  exists k k', k <> k' /\ runs (garbler sha p g otS pw 0) (evaluator sha p' otR pw) (Ok k) (Ok k').
Proof.
  intros p p' otS otR pw Hot H1 Hu Hs Hne Hp. set (m := sum_modulus (length pw)) in *.
  assert (Hn : (1 <= length pw * 8)%nat) by lia.
  assert (Hsize : usize_ok (4 * (length pw * 8) + 2)) by (eapply usize_le; [|exact Hu]; lia).
  destruct (bad_moduli _ Hs Hne) as [Hm|Hm]; fold m in Hm.
  - exists (bad_sha m (fun v => repeat 0 31 ++ [v]) (length pw * 8)), still.
    split; [|split; [apply still_ok|]].
    + apply bad_hash32; [lia|]. intros v Hv. now apply (Ln_bytes m).
    + apply (fpake_run_bad m 256 (U8 m) (Ln m)); auto; try lia; try reflexivity;
        auto using Ln_add, Ln_sub, Ln_neg, Ln_mul, Ln_from, Ln_delta, Ln_color, Ln_ok.
      * intros v Hv. now apply (Ln_bytes m).
      * apply small_positions. lia.
  - exists (bad_sha m wb (length pw * 8)), still.
    split; [|split; [apply still_ok|]].
    + apply bad_hash32; [lia|]. intros v Hv. now apply (wb_bytes m).
    + apply (fpake_run_bad m 65536 (U16 m) (Lv m)); auto; try lia; try reflexivity;
        auto using Lv_add, Lv_sub, Lv_neg, Lv_mul, Lv_from, Lv_delta, Lv_color, Lv_ok.
      * intros v Hv. now apply (wb_bytes m).
      * destruct p; [specialize (Hp eq_refl); lia|]. apply wrapped_positions; lia.
Qed.
Print Assumptions C47_bad_lengths_refuted.

(** In debug builds the garbler may end without a half key, before it has sent or received anything,
    when the modulus is over 32768. *)
Theorem C47_debug_overflow_refuted : forall otS pw,
  (1 <= length pw)%nat -> usize_ok (length pw * 64) -> 32768 < sum_modulus (length pw) ->
  exists sha g, hash32 sha /\ coins_for (length pw) g /\
  exists o, garbler sha Debug g otS pw 0 = Done o /\ forall k, o <> Ok k.
Proof.
  intros otS pw H1 Hu Hw. pose proof (eight_more (length pw)) as (q & Eq & Hq). set (m := sum_modulus (length pw)) in *.
  assert (Hm : 32768 < m < 65535) by lia.
  assert (Hn : (1 <= length pw * 8)%nat) by lia.
  assert (Hsize : usize_ok (4 * (length pw * 8) + 2)) by (eapply usize_le; [|exact Hu]; lia).
  exists (bad_sha m wb (length pw * 8)), still. split; [|split; [apply still_ok|]].
  { apply bad_hash32; [lia|]. intros v Hv. now apply (wb_bytes m). }
  assert (Ho : forall x, garble_zipped (bad_sha m wb (length pw * 8)) Debug still (circL (length pw * 8) m 0) <> Ok x).
  { apply (garble_overflow m 65536 (U16 m) (Lv m)); auto; try lia; try reflexivity;
      auto using Lv_add, Lv_sub, Lv_neg, Lv_mul, Lv_from, Lv_delta, Lv_color, Lv_ok;
      intros v Hv; now apply (wb_bytes m). }
  unfold garbler. rewrite bits_length8.
  assert (Em : N.of_nat (length pw * 8) mod 65536 + 1 = m) by reflexivity.
  rewrite build_circuit_long; [|rewrite Em; lia|lia]. rewrite Em. cbn [lift pbind].
  destruct (garble_zipped _ Debug still _) as [x| | |] eqn:E; [exfalso; now apply (Ho x)| | |];
    cbn [lift pbind]; eexists; (split; [reflexivity|discriminate]).
Qed.
Print Assumptions C47_debug_overflow_refuted.

(** So equal passwords always lead to equal half keys exactly at the lengths whose sum modulus is
    supported, or 1. *)
Theorem C47_working_lengths : forall p p' l, (1 <= l)%nat -> usize_ok (l * 64) ->
  ((forall sha g otS otR pw t, hash32 sha -> coins_for l g -> ot_correct extension_ok otS otR -> length pw = l -> t <= 65534 ->
     exists k, runs (garbler sha p g otS pw t) (evaluator sha p' otR pw) (Ok k) (Ok k)) <->
   supported (sum_modulus l) \/ sum_modulus l = 1).
Proof.
  intros p p' l H1 Hu. split.
  - intros H. assert (Dec : supported (sum_modulus l) \/ ~ supported (sum_modulus l)) by (unfold supported; lia).
    destruct Dec as [D|D]; [now left|]. destruct (N.eq_dec (sum_modulus l) 1) as [E|E]; [now right|]. exfalso.
    set (pw := repeat 0 l). assert (Hl : length pw = l) by apply repeat_length.
    assert (Dec : (p = Debug -> sum_modulus l <= 32768) \/ p = Debug /\ 32768 < sum_modulus l).
    { destruct p; [|left; discriminate]. destruct (N.le_gt_cases (sum_modulus l) 32768); [left; auto|right; auto]. }
    destruct Dec as [D'|[-> D']].
    + destruct (C47_bad_lengths_refuted p p' (demo_sender p) (demo_receiver p') pw) as (sha & g & Hs & Hg & k & k' & Hne & R);
        rewrite ?Hl; auto using demo_OT. rewrite Hl in Hg.
      destruct (H sha g (demo_sender p) (demo_receiver p') pw 0) as (k2 & R2); auto using demo_OT; [lia|].
      destruct (runs_fun _ _ _ _ _ _ R R2). congruence.
    + destruct (C47_debug_overflow_refuted (demo_sender Debug) pw) as (sha & g & Hs & Hg & o & Eo & Hno); rewrite ?Hl; auto. rewrite Hl in Hg.
      destruct (H sha g (demo_sender Debug) (demo_receiver p') pw 0) as (k2 & R2); auto using demo_OT; [lia|].
      rewrite Eo in R2. apply (Hno k2). exact (reach_done_left _ _ _ _ _ _ _ _ (reach_refl _) R2).
  - intros [Hs|Hm] sha g otS otR pw t Hsha [Hg Hg'] Hot Hl Ht.
    + destruct (C66_reduced_distance_agrees sha p p' g otS otR pw pw t) as (k & _ & R); eauto.
      * rewrite Hl. split; [exact H1|]. now split.
      * rewrite distance_self. change (N.of_nat 0) with 0. rewrite N.mod_0_l; [lia|]. unfold supported in Hs. rewrite Hl. lia.
    + destruct (C113_half_keys_agree_refuted sha p p' g otS otR pw pw t) as (k & _ & R); eauto.
      * split; [exact Hg|]. now rewrite Hm in Hg'.
      * rewrite Hl. now apply one_block.
Qed.
Print Assumptions C47_working_lengths.

(** Lengths of each kind: 16 and 31 bytes, 4096 and 8191 bytes, and 8208 bytes do not work; 15, 32, 4095,
    8192 and 8193 do. *)
Example C47_lengths :
  map (fun l => sum_modulus (N.to_nat l)) [15; 16; 31; 32; 4095; 4096; 8191; 8192; 8193; 8208] =
  [121; 129; 249; 257; 32761; 32769; 65529; 1; 9; 129].
Proof. vm_compute. reflexivity. Qed.
Example C47_bad_case : exists sha g, hash32 sha /\ coins_for 20 g /\
  exists k k', k <> k' /\ runs (garbler sha Debug g (demo_sender Debug) (repeat 7 20) 0)
    (evaluator sha Release (demo_receiver Release) (repeat 7 20)) (Ok k) (Ok k').
Proof.
  apply (C47_bad_lengths_refuted Debug Release _ _ (repeat 7 20)); auto using demo_OT; [cbn; lia|reflexivity| | |];
    change (sum_modulus _) with 161; unfold supported; lia.
Qed.
