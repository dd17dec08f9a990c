(** Properties C27-C28: transposition of bit matrices. *)
From Coq Require Import List NArith Bool Arith Lia.
From Verif Require Import Base MUtil MBitMatrix SpecUtil SpecBitMatrix PBase PUtil PBitMatrix.
Import ListNotations.
Open Scope N_scope.

(** C27: [BitMatrix::transpose] transposes when the number of rows is a multiple of 8 ... *)
Theorem C27_transpose : forall m r c, shaped (8 * r) c m -> (1 <= r)%nat ->
  exists m', transpose m = Ok m' /\ shaped (8 * c) r m' /\
    forall i j, (i < 8 * c)%nat -> (j < 8 * r)%nat -> mbit m' i j = mbit m j i.
Proof. exact transpose_ok. Qed.
(** ... twice gives the original ... *)
Theorem C27_transpose_twice : forall m r c m', shaped (8 * r) c m -> (1 <= r)%nat -> (1 <= c)%nat ->
  transpose m = Ok m' -> transpose m' = Ok m.
Proof. intros. eapply transpose_involutive; eauto. Qed.
(** ... and panics otherwise. *)
Theorem C27_transpose_panics : forall m r c, shaped r c m -> (1 <= c)%nat -> (r mod 8 <> 0)%nat -> transpose m = Panic PIndex.
Proof. exact transpose_panics. Qed.
(** The flat version of apricot.rs into a zeroed target. *)
Theorem C27_transpose_matrix : forall source w c n,
  length source = (8 * w * c)%nat -> (8 * w * c <= n)%nat ->
  exists t, transpose_matrix source (repeat 0 n) (8 * w) c w = Ok t /\ length t = n /\ bytes_ok t /\
    forall i j, (i < 8 * c)%nat -> (j < 8 * w)%nat -> fbit w t i j = fbit c source j i.
Proof.
  intros source w c n Ls Hn. destruct (transpose_matrix_ok source (repeat 0 n) w c) as (t & E & L & B & G).
  - lia. - rewrite repeat_length. lia. - apply Forall_repeat. reflexivity. - intros. apply fbit_zeros.
  - exists t. rewrite repeat_length in L. auto.
Qed.
Example C27_case :
  transpose [[1;128];[3;0];[0;0];[0;0];[0;0];[0;0];[0;0];[128;255]] =
    Ok [[3];[2];[0];[0];[0];[0];[0];[128];[128];[128];[128];[128];[128];[128];[128];[129]] /\
  transpose [[1];[2];[3]] = Panic PIndex /\ transpose [] = Panic PIndex /\
  transpose_matrix [1;128;3;0;0;0;0;0;0;0;0;0;0;0;128;255] (repeat 0 16) 8 2 1 =
    Ok [3;2;0;0;0;0;0;128;128;128;128;128;128;128;128;129].
Proof. vm_compute. auto. Qed.
Print Assumptions C27_transpose.
Print Assumptions C27_transpose_twice.
Print Assumptions C27_transpose_panics.
Print Assumptions C27_transpose_matrix.

(** C28: [tranpose_64] is not a transposition: it maps a matrix with a single one to the zero matrix. *)
Definition wbit (m : list N) (i j : nat) : bool := N.testbit (nth i m 0) (N.of_nat j).
Theorem C28_tranpose_64_refuted : exists m m',
  length m = 64%nat /\ Forall (fun x => x < 2 ^ 64) m /\ tranpose_64 m = Ok m' /\
  wbit m 0 63 = true /\ wbit m' 63 0 = false /\ m' = repeat 0 64 /\ tranpose_64 (repeat 0 64) = Ok (repeat 0 64).
Proof.
  exists (2 ^ 63 :: repeat 0 63), (repeat 0 64). split; [reflexivity|]. split.
  { constructor; [reflexivity|]. apply Forall_repeat. reflexivity. }
  vm_compute. auto 10.
Qed.
Print Assumptions C28_tranpose_64_refuted.
