(** [tranpose_64]. *)
From Coq Require Import List NArith Bool Arith Lia.
From Verif Require Import Base MUtil MBitMatrix PBase.
Import ListNotations.
Open Scope N_scope.

(** The loops visit the same indices for all matrices. *)
Definition next_k (k j : nat) : nat := N.to_nat (N.land (N.of_nat (k + j + 1)) (N.lxor (N.ones 64) (N.of_nat j))).
Fixpoint inner_fits (fuel j k : nat) : bool :=
  if Nat.ltb k 64 then match fuel with O => false | S f => Nat.ltb (k + j) 64 && inner_fits f j (next_k k j) end else true.
Fixpoint outer_fits (fuel j : nat) : bool :=
  match j with O => true | _ => match fuel with O => false | S f => inner_fits 64 j 0 && outer_fits f (Nat.div2 j) end end.
Lemma inner_step f m j k M : tranpose_64_inner (S f) m j k M =
  if Nat.ltb k 64 then
    let* a := idx M k in
    let* b := idx M (k + j) in
    let t := N.lxor a (N.land (N.shiftr b (N.of_nat j)) m) in
    let* M := set_idx M k (N.lxor a t) in
    let* b := idx M (k + j) in
    let* M := set_idx M (k + j) (N.lxor b (N.shiftl t (N.of_nat j) mod 2 ^ 64)) in
    tranpose_64_inner f m j (next_k k j) M
  else Ok M.
Proof. reflexivity. Qed.
Lemma inner_total fuel : forall m j k M, length M = 64%nat -> inner_fits fuel j k = true ->
  exists M', tranpose_64_inner fuel m j k M = Ok M' /\ length M' = 64%nat.
Proof.
  induction fuel as [|f IH]; intros m j k M L H.
  - cbn [inner_fits tranpose_64_inner] in *. destruct (Nat.ltb k 64); [discriminate H|]. exists M. auto.
  - change (inner_fits (S f) j k) with (if Nat.ltb k 64 then Nat.ltb (k + j) 64 && inner_fits f j (next_k k j) else true) in H.
    rewrite inner_step. destruct (Nat.ltb k 64) eqn:K; [|exists M; auto].
    apply andb_true_iff in H. destruct H as [H1 H2]. apply Nat.ltb_lt in H1. apply Nat.ltb_lt in K.
    revert H2. generalize (next_k k j). intros k' H2.
    rewrite !(idx_lt M _ 0) by lia. cbn [obind]. rewrite set_idx_lt by lia. cbn [obind].
    rewrite (idx_lt _ _ 0) by (rewrite set_nth_length; lia). cbn [obind].
    rewrite set_idx_lt by (rewrite set_nth_length; lia). cbn [obind].
    apply IH; [now rewrite !set_nth_length|exact H2].
Qed.
Lemma outer_step f m j M : tranpose_64_outer (S f) m (S j) M =
  let* M := tranpose_64_inner 64 m (S j) 0 M in tranpose_64_outer f (N.lxor m (N.shiftl m (N.of_nat (S j)) mod 2 ^ 64)) (Nat.div2 (S j)) M.
Proof. reflexivity. Qed.
Lemma outer_total fuel : forall m j M, length M = 64%nat -> outer_fits fuel j = true ->
  exists M', tranpose_64_outer fuel m j M = Ok M' /\ length M' = 64%nat.
Proof.
  induction fuel as [|f IH]; intros m j M L H; destruct j as [|j].
  - exists M. split; [reflexivity|exact L].
  - discriminate H.
  - exists M. split; [reflexivity|exact L].
  - change (outer_fits (S f) (S j)) with (inner_fits 64 (S j) 0 && outer_fits f (Nat.div2 (S j))) in H.
    apply andb_true_iff in H. destruct H as [H1 H2]. rewrite outer_step.
    destruct (inner_total 64 m (S j) 0 M L H1) as (M1 & E & L1). rewrite E. cbn [obind]. apply IH; assumption.
Qed.
Lemma tranpose_64_total M : length M = 64%nat -> exists M', tranpose_64 M = Ok M' /\ length M' = 64%nat.
Proof.
  intros L. unfold tranpose_64. generalize (2 ^ 32 - 1). intros m.
  assert (F : outer_fits 8 16 = true) by (vm_compute; reflexivity). exact (outer_total 8 m 16 M L F).
Qed.

Lemma shifted_out r r' s : r mod 2 ^ 48 = r' mod 2 ^ 48 ->
  N.shiftl (N.lxor r s) 16 mod 2 ^ 64 = N.shiftl (N.lxor r' s) 16 mod 2 ^ 64.
Proof.
  intros H. apply N.bits_inj. intros i. destruct (N.lt_ge_cases i 64) as [L|L].
  2:{ rewrite !N.mod_pow2_bits_high by exact L. reflexivity. }
  rewrite !N.mod_pow2_bits_low by exact L.
  destruct (N.lt_ge_cases i 16) as [K|K]; [rewrite !N.shiftl_spec_low by exact K; reflexivity|].
  rewrite !N.shiftl_spec_high' by exact K. rewrite !N.lxor_spec. f_equal.
  rewrite <- (N.mod_pow2_bits_low r 48), <- (N.mod_pow2_bits_low r' 48) by lia. now rewrite H.
Qed.
(** The first round overwrites the first row and keeps only its lower 48 bits elsewhere. *)
Lemma first_step fuel m r r' rest : r mod 2 ^ 48 = r' mod 2 ^ 48 -> length rest = 63%nat ->
  tranpose_64_inner (S fuel) m 16 0 (r :: rest) = tranpose_64_inner (S fuel) m 16 0 (r' :: rest).
Proof.
  intros H L. rewrite !inner_step. generalize (next_k 0 16). intros k'. cbn [Nat.ltb Nat.leb Nat.add].
  rewrite !(idx_lt _ _ 0) by (cbn [length]; lia). cbn [obind nth].
  rewrite !set_idx_lt by (cbn [length]; lia). cbn [obind set_nth].
  rewrite !(idx_lt _ _ 0) by (cbn [length]; lia). cbn [obind nth].
  rewrite !set_idx_lt by (cbn [length]; lia). cbn [obind set_nth].
  rewrite <- !N.lxor_assoc, !N.lxor_nilpotent, !N.lxor_0_l.
  change (N.of_nat 16) with 16. rewrite (shifted_out r r' _ H). reflexivity.
Qed.
Lemma tranpose_64_forgets r r' rest : r mod 2 ^ 48 = r' mod 2 ^ 48 -> length rest = 63%nat ->
  tranpose_64 (r :: rest) = tranpose_64 (r' :: rest).
Proof.
  intros H L. unfold tranpose_64. generalize (2 ^ 32 - 1). intros m. rewrite !outer_step.
  pose proof (first_step 63 m r r' rest H L) as E. rewrite E. reflexivity.
Qed.
