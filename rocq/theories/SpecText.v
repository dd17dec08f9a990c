(** Independent specification of UTF-8 (RFC 3629): the encodings of sequences of Unicode scalar values. *)
From Coq Require Import List NArith.
From Verif Require Import Base.
Import ListNotations.
Open Scope N_scope.

(** Scalar values: code points other than the surrogates D800-DFFF, up to 10FFFF. *)
Definition scalar (c : N) : Prop := c < 55296 \/ 57344 <= c < 1114112.

(** One to four bytes, with 7, 5 + 6, 4 + 6 + 6 or 3 + 6 + 6 + 6 bits of the code point. *)
Definition encode_scalar (c : N) : bytes :=
  if c <? 128 then [c]
  else if c <? 2048 then [192 + c / 64; 128 + c mod 64]
  else if c <? 65536 then [224 + c / 4096; 128 + (c / 64) mod 64; 128 + c mod 64]
  else [240 + c / 262144; 128 + (c / 4096) mod 64; 128 + (c / 64) mod 64; 128 + c mod 64].

Definition text (s : bytes) : Prop := exists cs, Forall scalar cs /\ s = flat_map encode_scalar cs.
