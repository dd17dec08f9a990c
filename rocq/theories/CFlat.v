(** C113: passwords of whole blocks of 8192 bytes. *)
From Coq Require Import List NArith Bool Lia Arith.
From Verif Require Import Base MUtil MWires MCircuit MGarble MPar MBincode MProc MOt MApricot MMany MFpake.
From Verif Require Import SpecUtil SpecWires SpecCircuit SpecGarble SpecBincode SpecOt SpecApricot SpecFpake SpecLong SpecFlat.
From Verif Require Import PBase PUtil PWires PGarble PCircuit PHalf PProc POt PFpake PLong PFlat CCircuit CGarble COt CApricot CFpake.
Import ListNotations.
Open Scope N_scope.

Lemma whole_modulus l : whole_blocks l -> sum_modulus l = 1.
Proof.
  intros (_ & H & _). unfold sum_modulus. rewrite Nat2N.inj_mul. change (N.of_nat 8) with 8.
  rewrite (N.mul_comm (N.of_nat l)). replace 65536 with (8 * 8192) by reflexivity.
  rewrite N.mul_mod_distr_l by discriminate. rewrite H. reflexivity.
Qed.

(** C113 is false: any two passwords of such a length give the same half key, whatever their distance
    and whatever the threshold. *)
Theorem C113_half_keys_agree_refuted : forall sha p p' g otS otR pw pw' t,
  hash32 sha -> garbling_ok1 g -> ot_correct extension_ok otS otR ->
  length pw' = length pw -> whole_blocks (length pw) -> t <= 65534 ->
  exists k, length k = 32%nat /\ runs (garbler sha p g otS pw t) (evaluator sha p' otR pw') (Ok k) (Ok k).
Proof.
  intros sha p p' g otS otR pw pw' t Hs [Hg Hg1] Hot Hl Hw Ht. pose proof (whole_modulus _ Hw) as Hm. destruct Hw as (Hp & _ & Hu).
  destruct (fpake_run_flat sha Hs p p' g Hg Hg1 otS otR Hot pw pw' t Hl Hm Hp Hu Ht) as (l1 & _ & R).
  eexists. split; [|exact R]. apply Hs.
Qed.
Print Assumptions C113_half_keys_agree_refuted.

(** ... and so the whole exchange ends with the same key on both sides. *)
Theorem C113_any_passwords_agree_refuted : forall sha p p' g g' otS otR otS' otR' pw pw' t t',
  hash32 sha -> garbling_ok1 g -> garbling_ok1 g' -> ot_correct extension_ok otS otR -> ot_correct extension_ok otS' otR' ->
  length pw' = length pw -> whole_blocks (length pw) -> t <= 65534 -> t' <= 65534 ->
  exists key, length key = 32%nat /\
    runs (fpake_server sha p g otS otR' pw t) (fpake_client sha p' g' otS' otR pw' t') (Ok key) (Ok key).
Proof.
  intros sha p p' g g' otS otR otS' otR' pw pw' t t' Hs Hg Hg' Hot Hot' Hl Hw Ht Ht'.
  destruct (C113_half_keys_agree_refuted sha p p' g otS otR pw pw' t Hs Hg Hot Hl Hw Ht) as (k1 & L1 & R1).
  destruct (C113_half_keys_agree_refuted sha p' p g' otS' otR' pw' pw t' Hs Hg' Hot') as (k2 & L2 & R2); auto; try (rewrite Hl; assumption).
  exists (combine_keys k1 k2). split. { unfold combine_keys, xor. rewrite zipWith_length, L1, L2. reflexivity. }
  unfold fpake_server, fpake_client. eapply runs_bind; [exact R1|].
  eapply runs_bind; [apply runs_flip; exact R2|].
  rewrite (C46_combine_commutes k2 k1). apply runs_ret.
Qed.
Print Assumptions C113_any_passwords_agree_refuted.

(** The garbled circuit alone gives away the half key: any labels evaluate to it. *)
Theorem C113_any_labels_refuted : forall sha p g l t,
  hash32 sha -> garbling_ok1 g -> whole_blocks l -> t <= 65534 ->
  exists c gc ek dk k, build_circuit p (l * 8) t = Ok c /\ garble sha p (g_rd g) (g_ri g) c = Ok (gc, ek, dk) /\
    garbler_half_key dk = Ok k /\
    forall p' labels, length labels = (2 * (l * 8))%nat -> Forall (label 2) labels ->
      exists out, evaluate sha p' gc labels = Ok out /\ evaluator_half_key sha p' gc out = Ok k.
Proof.
  intros sha p g l t Hs [(G1 & G2 & G3) Hg1] Hw Ht. pose proof (whole_modulus _ Hw) as Hm. destruct Hw as (Hp & _ & Hu).
  set (n := (l * 8)%nat).
  assert (H1 : (1 <= n)%nat) by (unfold n; lia).
  assert (Hnw : usize_ok (4 * n + 2)) by (eapply usize_le; [|exact Hu]; unfold n; lia).
  destruct (garble_flat sha Hs p (g_rd g) (g_ri g) G1 Hg1 G2 n t H1 Ht Hnw)
    as (gc & ek & dk & bk & zs & l1 & Eg & Ebk & Ez & Hok & Ec & Lz & Hz & Hkey & Wl & Hev).
  assert (Em : N.of_nat n mod 65536 + 1 = 1) by exact Hm.
  exists (circL n 1 t), gc, ek, dk, (sha (dec_string (4 * n + 1) 1 l1)).
  split. { rewrite (build_circuit_long p n t) by (rewrite ?Em; lia). now rewrite Em. }
  split; [exact Eg|]. split. { unfold garbler_half_key. destruct Hkey as (hs & -> & E). exact E. }
  intros p' labels Hl HF. exists [l1]. split.
  - apply Hev; [|exact Hl|]. { split; [reflexivity|]. split; intros k; reflexivity. }
    eapply Forall_impl; [|exact HF]. intros w Hw. apply label_WF; auto using sup2.
  - unfold evaluator_half_key. rewrite Ec. cbn [circL num_wires].
    unfold usub. destruct (N.leb_spec 1 (N.of_nat (4 * n + 2))); [|lia]. cbn [obind idx nth_error unwrap].
    unfold dec_string, u16_be. do 4 f_equal. lia.
Qed.
Print Assumptions C113_any_labels_refuted.

(** 8192 bytes: all zeros and all ones, threshold 0. *)
Lemma whole_8192 : whole_blocks (N.to_nat 8192).
Proof.
  unfold whole_blocks, usize_ok. rewrite Nat2N.inj_mul, N2Nat.id. change (N.of_nat 64) with 64.
  split; [lia|]. split; reflexivity.
Qed.
Lemma demo_garbling_ok1 : garbling_ok1 demo_garbling.
Proof.
  split; [exact demo_garbling_ok|]. intros d E. cbn in E. inversion E; subst d.
  split; [reflexivity|]. split; [reflexivity|]. split.
  - cbn [wval]. apply Forall_repeat. unfold byte_ok. lia.
  - intros _ i Hi. unfold digit. change (wide 1) with false. cbv iota. cbn [wval demo_garbling g_rd].
    change (demo_rd 1) with (repeat 0 32). rewrite nth_repeat. lia.
Qed.
Example C113_example : forall otS otR, ot_correct extension_ok otS otR ->
  let zeros := repeat 0 (N.to_nat 8192) in let ones := repeat 255 (N.to_nat 8192) in
  distance zeros ones = N.to_nat 65536 /\
  exists k, runs (garbler toy Debug demo_garbling otS zeros 0) (evaluator toy Release otR ones) (Ok k) (Ok k).
Proof.
  intros otS otR Hot zeros ones. split.
  - assert (D : forall k, N.of_nat (distance (repeat 0 k) (repeat 255 k)) = 8 * N.of_nat k).
    { induction k as [|k IH]; [reflexivity|]. cbn [repeat distance]. change (weight (N.lxor 0 255)) with 8%nat. lia. }
    specialize (D (N.to_nat 8192)). fold zeros ones in D. rewrite N2Nat.id in D. lia.
  - destruct (C113_half_keys_agree_refuted toy Debug Release demo_garbling otS otR zeros ones 0) as (k & _ & R);
      [exact toy_hash32|exact demo_garbling_ok1|exact Hot| | |lia|].
    + unfold zeros, ones. now rewrite !repeat_length.
    + unfold zeros. rewrite repeat_length. exact whole_8192.
    + eauto.
Qed.
