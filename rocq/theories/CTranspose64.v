(** Property C28, second part. *)
From Coq Require Import List NArith.
From Verif Require Import Base MBitMatrix PTranspose64.
Import ListNotations.
Open Scope N_scope.

(** The function terminates without a panic on every matrix ... *)
Theorem C28_total : forall M, length M = 64%nat -> exists M', tranpose_64 M = Ok M' /\ length M' = 64%nat.
Proof. exact tranpose_64_total. Qed.
Print Assumptions C28_total.
(** ... and for every matrix it forgets the upper 16 bits of the first row, so that no matrix is recovered
    from its result. *)
Theorem C28_forgets_bits_refuted : forall r r' rest, r mod 2 ^ 48 = r' mod 2 ^ 48 -> length rest = 63%nat ->
  tranpose_64 (r :: rest) = tranpose_64 (r' :: rest).
Proof. exact tranpose_64_forgets. Qed.
Print Assumptions C28_forgets_bits_refuted.

(** A checksum of the result for the triangular matrix, to pin the function down. *)
Example C28_case :
  (2 ^ 63 + 5) mod 2 ^ 48 = 5 mod 2 ^ 48 /\ length (repeat 7 63) = 63%nat /\
  exists M', tranpose_64 (map (fun i => 2 ^ N.of_nat i * 2 - 1) (seq 0 64)) = Ok M' /\
    fold_left (fun acc r => (acc * 5 + r) mod 1000003) M' 0 = 543839.
Proof. split; [reflexivity|]. split; [reflexivity|]. eexists. split; vm_compute; reflexivity. Qed.
