(** Independent of the protocol models: when two sides that each combine two half keys get the same key. *)
From Coq Require Import NArith List.
From Verif Require Import Base MUtil.
Open Scope N_scope.

(** The server's garbling has the digests a0 and a1 for its two outputs, the client's b0 and b1; e is the
    distance of the passwords, t the server's threshold and t' the client's.  The four cases: near for
    both; too far for the client's circuit only; for the server's only; for both. *)
Definition agreement (e t t' : N) (a0 a1 b0 b1 : bytes) : Prop :=
  (e <= t /\ e <= t') \/ (e <= t /\ t' < e /\ b0 = b1) \/ (t < e /\ e <= t' /\ a0 = a1) \/
  (t < e /\ t' < e /\ xor a0 a1 = xor b0 b1).
