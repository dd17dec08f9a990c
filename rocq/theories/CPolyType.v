(** C90: the type Polynomial. *)
From Coq Require Import List NArith Bool Lia Arith.
From Verif Require Import Base MPoly MBitMatrix MPolyType SpecPoly PBase PUtil PPoly PPolyType.
Import ListNotations.
Open Scope N_scope.

(** On polynomials of 128 bits the three ways to add agree, with each other and with the addition of GF(2)[x], and make a group
    in which every element is its own inverse. *)
Theorem C90_additions_agree : forall p a b, elem a -> elem b ->
  poly_add_assign_ref p a b = Ok (poly_add a b) /\ poly_add_assign a b = poly_add a b /\
  elem (poly_add a b) /\ le_value (poly_add a b) = N.lxor (le_value a) (le_value b).
Proof.
  intros p a b Ha Hb. destruct (adds_agree p a b) as [E1 E2]. { destruct Ha, Hb. congruence. }
  repeat split; try (now apply add_elem); auto.
Qed.
Theorem C90_addition_is_a_group : forall a b c, elem a -> elem b -> elem c ->
  poly_add a b = poly_add b a /\ poly_add (poly_add a b) c = poly_add a (poly_add b c) /\
  poly_add a poly_new = a /\ poly_add a a = poly_new.
Proof. exact add_group. Qed.
Print Assumptions C90_additions_agree.
Print Assumptions C90_addition_is_a_group.

(** On every target [mul_add_assign] adds the product in the field, and it is linear in its last argument. *)
Theorem C90_mul_add_assign : forall t p s a b, elem s -> elem a -> elem b ->
  exists r m, poly_mul_add_assign t p s a b = Ok r /\ elem r /\ is_rem (pmulx (le_value a) (le_value b)) (le_value m) /\ elem m /\
    r = poly_add s m.
Proof. exact mul_add_spec. Qed.
Theorem C90_mul_add_distributes : forall t p s a b c r, elem s -> elem a -> elem b -> elem c ->
  poly_mul_add_assign t p s a (poly_add b c) = Ok r <->
  exists m, poly_mul_add_assign t p s a b = Ok m /\ poly_mul_add_assign t p m a c = Ok r.
Proof. exact mul_add_distributes. Qed.
Print Assumptions C90_mul_add_assign.
Print Assumptions C90_mul_add_distributes.

Example C90_example :
  let a := 3 :: repeat 0 15 in let b := 5 :: repeat 0 15 in
  elem a /\ elem b /\ poly_add a b = 6 :: repeat 0 15 /\
  poly_mul_add_assign TX86 Release poly_new a b = Ok (15 :: repeat 0 15) /\
  poly_mul_add_assign TOther Debug (repeat 1 16) a b = Ok (14 :: repeat 1 15).
Proof. cbn [poly_add]. repeat split; try (vm_compute; reflexivity); repeat constructor. Qed.

(** Release builds make polynomials of any number of bits.  Then the additions differ: one cuts, one keeps the tail, one panics. *)
Theorem C90_additions_always_agree_refuted : forall a b, (length b < length a)%nat ->
  poly_from Release a = Ok a /\ poly_from Release b = Ok b /\
  poly_add a b <> poly_add_assign a b /\ poly_add_assign_ref Release a b = Panic PIndex.
Proof.
  intros a b L. repeat split.
  - intros E. apply (f_equal (@length N)) in E. unfold poly_add, poly_add_assign, bv_xor, bv_xor_assign in E.
    rewrite app_length, zipWith_length, skipn_length in E. lia.
  - unfold poly_add_assign_ref, bv_xor_assign_ref. cbn [debug_assert obind]. destruct (Nat.ltb_spec (length b) (length a)); [reflexivity|lia].
Qed.
Print Assumptions C90_additions_always_agree_refuted.
Example C90_additions_differ :
  poly_add (repeat 1 17) (repeat 1 16) = repeat 0 16 /\ poly_add_assign (repeat 1 17) (repeat 1 16) = repeat 0 16 ++ [1].
Proof. split; reflexivity. Qed.

(** [*] and [*=] are [todo!()]: the product of the field is never returned. *)
Theorem C90_operator_multiplies_refuted : forall t p a b, elem a -> elem b ->
  exists r, poly_mul_add_assign t p poly_new a b = Ok r /\ poly_mul a b <> Ok r.
Proof.
  intros t p a b Ha Hb. destruct new_elem as [H _]. eexists. split; [now apply mul_add_ok|discriminate].
Qed.
Print Assumptions C90_operator_multiplies_refuted.
