(** When the keys of two sides agree, and that equal garblings have equal labels. *)
From Coq Require Import List NArith Bool Arith Lia.
From Verif Require Import Base MUtil MWires MCircuit MGarble MPar MBincode MProc MOt MApricot MMany MFpake.
From Verif Require Import SpecUtil SpecWires SpecCircuit SpecGarble SpecBincode SpecOt SpecApricot SpecFpake SpecMfpake SpecProfile SpecAgree.
From Verif Require Import PBase PUtil PWires PGarble PGarbleSpec PCircuit PCircuit2 PHalf PProc PFpake PProfile CFpake CFpake3.
Import ListNotations.
Open Scope N_scope.

Lemma xor_comm a b : xor a b = xor b a.
Proof. unfold xor. apply zipWith_comm. intros. apply N.lxor_comm. Qed.

(** Moving operands of an equation between strings of one length. *)
Lemma xor_swap a0 : forall a1 b0 b1, length a1 = length a0 -> length b0 = length a0 -> length b1 = length a0 ->
  (xor a1 b0 = xor a0 b1 <-> xor a0 a1 = xor b0 b1).
Proof.
  induction a0 as [|x a0 IH]; intros [|y a1] [|z b0] [|w b1] H1 H2 H3; try discriminate; [cbn; tauto|].
  cbn in H1, H2, H3. injection H1 as H1. injection H2 as H2. injection H3 as H3.
  specialize (IH a1 b0 b1 H1 H2 H3). unfold xor in *. cbn [zipWith].
  assert (B : N.lxor y z = N.lxor x w <-> N.lxor x y = N.lxor z w).
  { split; intros E; apply N.bits_inj; intros i; apply (f_equal (fun v => N.testbit v i)) in E;
      rewrite !N.lxor_spec in *; destruct (N.testbit x i), (N.testbit y i), (N.testbit z i), (N.testbit w i); cbn in *; congruence. }
  split; intros E; injection E as E1 E2; f_equal; tauto.
Qed.

Lemma agreement_ok e t t' a0 a1 b0 b1 :
  length a0 = 32%nat -> length a1 = 32%nat -> length b0 = 32%nat -> length b1 = 32%nat ->
  (xor a1 (if e <=? t' then b1 else b0) = xor (if e <=? t then a1 else a0) b1 <-> agreement e t t' a0 a1 b0 b1).
Proof.
  intros L0 L1 L2 L3. unfold agreement.
  destruct (N.leb_spec e t) as [A|A], (N.leb_spec e t') as [B|B].
  - split; auto.
  - split.
    + intros E. right. left. repeat split; auto. apply (xor_cancel a1); [exact (eq_trans L2 (eq_sym L1))|exact (eq_trans L3 (eq_sym L1))|exact E].
    + intros [[_ Q]|[(_ & _ & ->)|[(Q & _)|(Q & _)]]]; auto; lia.
  - split.
    + intros E. right. right. left. repeat split; auto. rewrite (xor_comm a1), (xor_comm a0) in E. symmetry. apply (xor_cancel b1); [exact (eq_trans L1 (eq_sym L3))|exact (eq_trans L0 (eq_sym L3))|exact E].
    + intros [[Q _]|[(Q & _)|[(_ & _ & ->)|(_ & Q & _)]]]; auto; lia.
  - split.
    + intros E. right. right. right. repeat split; auto. exact (proj1 (xor_swap a0 a1 b0 b1 (eq_trans L1 (eq_sym L0)) (eq_trans L2 (eq_sym L0)) (eq_trans L3 (eq_sym L0))) E).
    + intros [[Q _]|[(Q & _)|[(_ & Q & _)|(_ & _ & Q)]]]; try lia. exact (proj2 (xor_swap a0 a1 b0 b1 (eq_trans L1 (eq_sym L0)) (eq_trans L2 (eq_sym L0)) (eq_trans L3 (eq_sym L0))) Q).
Qed.

(** The labels do not depend on the build profile, and there is one pair of them. *)
Lemma garble_run_any sha p p' rd ri c x x' : garble_run sha p rd ri c = Ok x -> garble_run sha p' rd ri c = Ok x' -> x = x'.
Proof.
  assert (D : forall y, garble_run sha Debug rd ri c = Ok y -> garble_run sha Release rd ri c = Ok y).
  { intros y E. pose proof (ole_garble_run sha rd ri c) as H. rewrite E in H. inversion H; congruence. }
  intros E E'. destruct p, p'; try (apply D in E); try (apply D in E'); congruence.
Qed.
Lemma labels_of_unique sha p p' g c o l0 l1 m0 m1 : supported (modulus c o) ->
  labels_of sha p g c o l0 l1 -> labels_of sha p' g c o m0 m1 -> m0 = l0 /\ m1 = l1.
Proof.
  intros Hm (ek & s & E & G0 & G1 & _) (ek' & s' & E' & H0 & H1 & _).
  pose proof (garble_run_any _ _ _ _ _ _ _ _ E E') as Q. injection Q as _ <-.
  split; eapply genuine_unique; eauto.
Qed.
Lemma sup_fpake l t : good_length l -> t <= 65534 -> supported (modulus (fpake_circuit l t) (fpake_output l)).
Proof.
  intros H Ht. destruct (good_supported _ H) as (Hs & Hn & H1). rewrite circ1_modulus by lia.
  destruct (Nat.ltb_spec (fpake_output l) (3 * (l * 8))); [lia|]. destruct (Nat.ltb_spec (fpake_output l) (fpake_output l)); [lia|]. exact sup2.
Qed.
Lemma sup_v3 l t : good_length l -> t <= 65534 -> supported (modulus (v3_circuit l t) (v3_output l)).
Proof.
  intros H Ht. destruct (good_supported _ H) as (Hs & Hn & H1). rewrite circ2_modulus by lia.
  destruct (Nat.ltb_spec (v3_output l) (4 * (l * 8))); [lia|]. destruct (Nat.ltb_spec (v3_output l) (v3_output l)); [lia|]. exact sup2.
Qed.
