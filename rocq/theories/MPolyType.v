(** Model of the type [Polynomial] of src/ot/polynomial.rs: a BitVector, i.e. its bytes. *)
From Coq Require Import List NArith Bool Arith.
From Verif Require Import Base MPoly MBitMatrix.
Import ListNotations.
Open Scope N_scope.

(** polynomial.rs:14-16 [new] and 41-46 [default]. *)
Definition poly_new : bytes := bv_zeros 128.
(** polynomial.rs:24-30 and 32-38, the two [from]s: the length is only looked at in debug builds. *)
Definition poly_from (p : profile) (v : bytes) : outcome bytes :=
  let* _ := debug_assert p (Nat.eqb (bv_len v) 128) in Ok v.
(** polynomial.rs:48-55 [a + b]. *)
Definition poly_add (a b : bytes) : bytes := bv_xor a b.
(** polynomial.rs:57-62 [a += &b]. *)
Definition poly_add_assign_ref (p : profile) (a b : bytes) : outcome bytes := bv_xor_assign_ref p a b.
(** polynomial.rs:64-69 [a += b]. *)
Definition poly_add_assign (a b : bytes) : bytes := bv_xor_assign a b.
(** polynomial.rs:71-80, 82-91 [a * b] and 93-99 [a *= b]. *)
Definition poly_mul (a b : bytes) : outcome bytes := Panic PTodo.

(** polynomial.rs:101-114 [gf128_mul_acc]: one of three functions, by target_arch. *)
Inductive target := TX86 | TArm64 | TOther.
Definition gf128_mul_acc (t : target) (p : profile) (result left right : bytes) : outcome bytes :=
  match t with
  | TX86 => mul_acc_x86 result left right
  | TArm64 => mul_acc_arm64 p result left right
  | TOther => mul_acc_generic p result left right
  end.
(** polynomial.rs:18-21 [mul_add_assign]. *)
Definition poly_mul_add_assign (t : target) (p : profile) (self a b : bytes) : outcome bytes := gf128_mul_acc t p self a b.
