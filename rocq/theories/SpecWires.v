(** Independent specification of wire labels: a label of modulus m is a vector over Z_m
    (for m = 2: a vector of bytes under XOR). *)
From Coq Require Import List NArith Bool Arith.
From Verif Require Import Base MWires.
Import ListNotations.
Open Scope N_scope.

(** Moduli for which the byte-wise arithmetic of the crate does not overflow. *)
Definition supported (m : N) : Prop := (2 <= m <= 128) \/ (255 <= m <= 32768).

(** Two-byte components are used for 255 and for moduli above 256. *)
Definition wide (m : N) : bool := (m =? 255) || (256 <? m).
Definition ndigits (m : N) : nat := if wide m then 16 else 32.

(** The i-th component of a label of modulus m. *)
Definition digit (m : N) (w : wire) (i : nat) : N :=
  if wide m then nth (2 * i) (wval w) 0 + 256 * nth (2 * i + 1) (wval w) 0
  else nth i (wval w) 0.

(** A label of modulus m: right domain tag, 32 bytes, components in range. *)
Definition label (m : N) (w : wire) : Prop :=
  domain_new m = Ok (wdom w) /\ length (wval w) = 32%nat /\ bytes_ok (wval w) /\
  (m <> 2 -> forall i, (i < ndigits m)%nat -> digit m w i < m).

(** Component arithmetic. *)
Definition dplus (m x y : N) : N := if m =? 2 then N.lxor x y else (x + y) mod m.
Definition dminus (m x y : N) : N := if m =? 2 then N.lxor x y else (x + (m - y)) mod m.
Definition dtimes (m x c : N) : N := if m =? 2 then (if c =? 0 then 0 else x) else (x * c) mod m.
Definition dneg (m x : N) : N := if m =? 2 then x else (m - x) mod m.

(** The component used as the colour. *)
Definition colour_of (m : N) (w : wire) : N := digit m w (ndigits m - 1) mod m.

(** A sample the random generator may produce for modulus m. *)
Definition valid_sample (m : N) (r : bytes) : Prop := forall d, domain_new m = Ok d -> label m (mkWire d r).
