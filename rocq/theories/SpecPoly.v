(** Independent specification of GF(2)[x] and of the quotient by x^128+x^7+x^2+x+1. Bit i of a number is
    the coefficient of x^i; addition is exclusive or. *)
From Coq Require Import NArith Bool List.
Import ListNotations.
Open Scope N_scope.

(** Product of polynomials by Horner's rule on the first factor: (a0 + x a') b = a0 b + x (a' b). *)
Fixpoint ppmul (a : positive) (b : N) : N :=
  match a with
  | xH => b
  | xO a' => N.shiftl (ppmul a' b) 1
  | xI a' => N.lxor b (N.shiftl (ppmul a' b) 1)
  end.
Definition pmulx (a b : N) : N := match a with 0 => 0 | Npos a' => ppmul a' b end.

(** The coefficients of a product are the convolution of the coefficients. *)
Definition conv (a b : N) (k : nat) : bool :=
  fold_right xorb false (map (fun i => N.testbit a (N.of_nat i) && N.testbit b (N.of_nat (k - i))) (seq 0 (S k))).

(** x^128 + x^7 + x^2 + x + 1. *)
Definition gf_modulus : N := 2 ^ 128 + 2 ^ 7 + 2 ^ 2 + 2 + 1.

(** [r] is the remainder of [x] modulo the field polynomial. *)
Definition is_rem (x r : N) : Prop := r < 2 ^ 128 /\ exists q, x = N.lxor r (pmulx q gf_modulus).
