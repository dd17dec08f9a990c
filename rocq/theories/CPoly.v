(** Properties C24-C26: multiplication in GF(2^128). *)
From Coq Require Import List NArith Bool Arith Lia.
From Verif Require Import Base MPoly SpecPoly PBase PPoly.
Import ListNotations.
Open Scope N_scope.

(** The specification's product is the convolution of coefficients, and remainders are unique. *)
Theorem C24_product_is_convolution : forall a b k, N.testbit (pmulx a b) (N.of_nat k) = conv a b k.
Proof. exact pm_conv. Qed.
Theorem C24_remainder_unique : forall x r s, is_rem x r -> is_rem x s -> r = s.
Proof. exact rem_unique. Qed.
(** C24: the multiply-accumulate adds the product modulo the field polynomial to the accumulator. *)
Theorem C24_generic_mul_acc : forall p acc a b,
  length acc = 16%nat -> length a = 16%nat -> length b = 16%nat -> bytes_ok acc -> bytes_ok a -> bytes_ok b ->
  exists acc' r, mul_acc_generic p acc a b = Ok acc' /\ length acc' = 16%nat /\ bytes_ok acc' /\
    is_rem (pmulx (le_value a) (le_value b)) r /\ le_value acc' = N.lxor (le_value acc) r.
Proof.
  intros p acc a b L La Lb H Ha Hb. exists (le_bytes 16 (N.lxor (le_value acc) (gmul (le_value a) (le_value b)))), (gmul (le_value a) (le_value b)).
  pose proof (le_value16_lt a La Ha). pose proof (le_value16_lt b Lb Hb). pose proof (le_value16_lt acc L H).
  split. { now apply mul_acc_generic_ok. } split. { apply le_bytes_length. } split. { apply le_bytes_ok. }
  split. { now apply gmul_rem. } apply le_value_bytes. change (8 * N.of_nat 16) with 128. apply lxor_lt2; auto. now apply gmul_lt.
Qed.
(** x^127 times x is x^128 = x^7 + x^2 + x + 1; (x+1)(x^2+1) is the repository's own test. *)
Example C24_case :
  mul_acc_generic Debug (repeat 0 16) (repeat 0 15 ++ [128]) (2 :: repeat 0 15) = Ok (135 :: repeat 0 15) /\
  mul_acc_generic Debug (repeat 0 16) (3 :: repeat 0 15) (5 :: repeat 0 15) = Ok (15 :: repeat 0 15) /\
  mul_acc_generic Release (repeat 255 16) (repeat 0 15 ++ [128]) (2 :: repeat 0 15) = Ok (120 :: repeat 255 15).
Proof. repeat split; vm_compute; reflexivity. Qed.
Print Assumptions C24_product_is_convolution.
Print Assumptions C24_remainder_unique.
Print Assumptions C24_generic_mul_acc.

(** C25: the three platform versions agree (in both build profiles). *)
Theorem C25_platforms_agree : forall p acc a b,
  length acc = 16%nat -> length a = 16%nat -> length b = 16%nat -> bytes_ok a -> bytes_ok b ->
  mul_acc_x86 acc a b = mul_acc_generic p acc a b /\ mul_acc_arm64 p acc a b = mul_acc_generic p acc a b.
Proof.
  intros. rewrite mul_acc_generic_ok by auto. split. now apply mul_acc_x86_ok. now apply mul_acc_arm64_ok.
Qed.
(** apricot.rs has its own copies of the two platform versions. *)
Theorem C25_apricot_platforms_agree : forall p acc a b,
  length acc = 16%nat -> length a = 16%nat -> length b = 16%nat -> bytes_ok a -> bytes_ok b ->
  ap_mul_acc_x86 acc a b = mul_acc_generic p acc a b /\ ap_mul_acc_arm64 acc a b = mul_acc_generic p acc a b.
Proof.
  intros. rewrite mul_acc_generic_ok by auto. split. now apply ap_mul_acc_x86_ok. now apply ap_mul_acc_arm64_ok.
Qed.
Example C25_case :
  let a := [1;2;3;4;5;6;7;8;9;10;11;12;13;14;15;240] in let b := [255;254;1;0;7;9;200;100;3;2;1;0;50;60;70;129] in
  let r := mul_acc_generic Debug (repeat 0 16) a b in
  mul_acc_x86 (repeat 0 16) a b = r /\ mul_acc_arm64 Debug (repeat 0 16) a b = r /\ r <> Ok (repeat 0 16) /\ r <> UB.
Proof. vm_compute. repeat split; discriminate. Qed.
Print Assumptions C25_platforms_agree.
Print Assumptions C25_apricot_platforms_agree.

(** C26: ring laws of the product computed into a zero accumulator. *)
Definition mul0 (a b : bytes) : outcome bytes := mul_acc_generic Release (repeat 0 16) a b.
Lemma mul0_ok a b : elem a -> elem b -> mul0 a b = Ok (le_bytes 16 (gmul (le_value a) (le_value b))).
Proof. intros [? ?] [? ?]. unfold mul0. now rewrite mul_acc_generic_ok. Qed.
Theorem C26_ring_laws : forall a b c, elem a -> elem b -> elem c ->
  exists ab bc ac l r,
    mul0 a b = Ok ab /\ mul0 b a = Ok ab /\ mul0 b c = Ok bc /\ mul0 a c = Ok ac /\
    mul0 ab c = Ok l /\ mul0 a bc = Ok l /\
    mul0 a (zipWith N.lxor b c) = Ok r /\ r = zipWith N.lxor ab ac /\
    mul0 a (1 :: repeat 0 15) = Ok a /\ mul0 a (repeat 0 16) = Ok (repeat 0 16).
Proof.
  intros a b c Ha Hb Hc.
  pose proof (elem_lt a Ha). pose proof (elem_lt b Hb). pose proof (elem_lt c Hc).
  assert (Hxe : elem (zipWith N.lxor b c)).
  { destruct Hb, Hc. split. rewrite zipWith_length. rewrite H2, H4. reflexivity. apply le_value_xor; auto. congruence. }
  assert (H1e : elem (1 :: repeat 0 15)) by (split; [reflexivity|repeat constructor]).
  assert (H0e : elem (repeat 0 16)) by (split; [reflexivity|repeat constructor]).
  exists (le_bytes 16 (gmul (le_value a) (le_value b))), (le_bytes 16 (gmul (le_value b) (le_value c))), (le_bytes 16 (gmul (le_value a) (le_value c))).
  exists (le_bytes 16 (gmul (gmul (le_value a) (le_value b)) (le_value c))).
  exists (le_bytes 16 (gmul (le_value a) (N.lxor (le_value b) (le_value c)))).
  rewrite !mul0_ok by (auto using elem_bytes). rewrite !le_value16 by (now apply gmul_lt).
  split; [reflexivity|]. split. { now rewrite gmul_comm. } split; [reflexivity|]. split; [reflexivity|].
  split; [reflexivity|]. split. { now rewrite gmul_assoc. }
  split. { f_equal. f_equal. f_equal. destruct Hb, Hc. apply le_value_xor; auto. congruence. }
  split.
  { rewrite gmul_lxor_r by auto.
    destruct (le_value_xor (le_bytes 16 (gmul (le_value a) (le_value b))) (le_bytes 16 (gmul (le_value a) (le_value c)))) as [E Hx].
    { now rewrite !le_bytes_length. } 1,2: apply le_bytes_ok.
    rewrite !le_value16 in E by (now apply gmul_lt). rewrite <- E. apply elem_eta. split; auto. }
  split.
  { change (le_value (1 :: repeat 0 15)) with 1. rewrite gmul_1 by auto. f_equal. now apply elem_eta. }
  change (le_value (repeat 0 16)) with 0. rewrite gmul_0_r by auto. reflexivity.
Qed.
Example C26_case : elem (repeat 7 16) /\ mul0 (repeat 7 16) (2 :: repeat 0 15) = Ok (repeat 14 16).
Proof. split; [split; [reflexivity|repeat constructor]|vm_compute; reflexivity]. Qed.
Print Assumptions C26_ring_laws.
