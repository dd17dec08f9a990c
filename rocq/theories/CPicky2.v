(** C103 for the one-of-many exchange: the client's password, whichever entry it asks for. *)
From Coq Require Import List NArith Bool Arith Lia.
From Verif Require Import Base MUtil MWires MCircuit MGarble MBincode MProc MOt MApricot MMany MFpake.
From Verif Require Import SpecUtil SpecWires SpecCircuit SpecGarble SpecBincode SpecOt SpecApricot SpecMany SpecFpake SpecMfpake SpecHostile SpecPicky.
From Verif Require Import PBase PProc PFpake PUtil PHostile PPicky CUtil CCircuit CGarble COt CApricot CFpake CMfpake CFpake3.
Import ListNotations.
Open Scope N_scope.

(** The server offers zeros for all entries, so that the client evaluates with its own password. *)
Theorem C103_one_of_many_client_refuted : forall sha p p' g dom manyS manyR otS otR otS' otR' d l index password guess t i,
  hash32 sha -> garbling_ok g -> many_correct dom manyS manyR -> ot_correct extension_ok otS otR -> ot_correct extension_ok otS' otR' ->
  dom d -> (d <= 31)%nat -> good_length l -> index < N.of_nat (2 ^ d) -> length password = l -> length guess = l -> t <= 65534 -> (i < l * 8)%nat ->
  let first := let! _ := manyS d (repeat (repeat 0 l) (2 ^ d)) in picky_garbler otS (l * 8) i in
  let second := evaluator sha p otR' guess in
  let client := mfpake_single sha p' g manyR otS' otR password index (N.of_nat (2 ^ d)) t in
  if bit_of password i then runs first client (Ok tt) (Panic PIndex)
  else exists k key, runs (let! _ := first in second) client (Ok k) (Ok key).
Proof.
  intros sha p p' g dom manyS manyR otS otR otS' otR' d l index password guess t i
    Hs Hg Hm Hot Hot' Hd Hd31 Hgl Hix Lp Lg Ht Hi first second client.
  assert (Hu : usize_ok (l * 8 + 1)).
  { destruct (good_supported _ Hgl) as (_ & Hn & _). apply usize_small. apply N.le_lt_trans with 65535; [lia|reflexivity]. }
  assert (Hpow : 2 ^ N.of_nat d = N.of_nat (2 ^ d)) by (now rewrite Nat2N.inj_pow).
  assert (Hlog : log2_ p' 32 (N.of_nat (2 ^ d)) = Ok (N.of_nat d)).
  { rewrite <- Hpow. apply log2_pow2; [reflexivity|lia]. }
  assert (H1 : (1 <= l)%nat) by (destruct Hgl; lia).
  assert (R0 : runs (manyS d (repeat (repeat 0 l) (2 ^ d))) (manyR d index) (Ok tt) (Ok (repeat 0 l))).
  { apply (Hm d); auto.
    - apply repeat_length.
    - exists l. split; [exact H1|]. apply Forall_rep. apply repeat_length.
    - apply nth_error_repeat. lia. }
  assert (Ex : xor_bytes_inplace p' (repeat 0 l) password = Ok password).
  { rewrite xor_bytes_inplace_ok by (rewrite repeat_length; lia). f_equal. rewrite <- Lp. exact (xor_zeros password). }
  pose proof (picky_run sha p' _ _ password i Hs Hot) as R. rewrite Lp in R. specialize (R Hi Hu).
  unfold client, mfpake_single. destruct (bit_of password i).
  - eapply runs_lift_r; [exact Hlog|]. rewrite Nat2N.id. unfold first. eapply runs_bind; [exact R0|].
    eapply runs_lift_r; [exact Ex|]. apply runs_stop_r. exact R.
  - destruct (fpake_run sha Hs p' p g Hg _ _ Hot' password guess t) as (_ & _ & l0 & l1 & _ & _ & _ & _ & R2); [congruence|now rewrite Lp|exact Ht|].
    eexists. eexists. eapply runs_lift_r; [exact Hlog|]. rewrite Nat2N.id. unfold first.
    eapply (runs_peq_l (pbind (manyS d (repeat (repeat 0 l) (2 ^ d))) (fun _ => pbind (picky_garbler otS (l * 8) i) (fun _ => second)))).
    { apply peq_sym, pbind_assoc. }
    eapply runs_bind; [exact R0|]. eapply runs_lift_r; [exact Ex|].
    eapply runs_bind; [exact R|]. apply (runs_peq_l (pbind second ret)); [apply pbind_ret|].
    eapply runs_bind; [apply runs_flip; exact R2|]. apply runs_ret.
Qed.
Print Assumptions C103_one_of_many_client_refuted.
Example C103_one_of_many_case :
  runs (let! _ := demo_many Debug 2 (repeat (repeat 0 2) 4) in picky_garbler (demo_sender Debug) 16 0)
       (mfpake_single toy Release demo_garbling (demo_one Release) (demo_sender Release) (demo_receiver Release) [5; 7] 2 4 1) (Ok tt) (Panic PIndex) /\
  exists k key, runs (let! _ := (let! _ := demo_many Debug 2 (repeat (repeat 0 2) 4) in picky_garbler (demo_sender Debug) 16 1) in
                      evaluator toy Debug (demo_receiver Debug) [0; 0])
       (mfpake_single toy Release demo_garbling (demo_one Release) (demo_sender Release) (demo_receiver Release) [5; 7] 2 4 1) (Ok k) (Ok key).
Proof.
  assert (H : forall i, (i < 2 * 8)%nat -> _) by (intros i Hi;
    refine (C103_one_of_many_client_refuted toy Debug Release demo_garbling (fun d => d = 2%nat) (demo_many Debug) (demo_one Release)
      (demo_sender Debug) (demo_receiver Release) (demo_sender Release) (demo_receiver Debug) 2 2 2 [5; 7] [0; 0] 1 i
      toy_hash32 demo_garbling_ok (demo_many_ok _ _) (demo_OT _ _) (demo_OT _ _) eq_refl ltac:(lia) ltac:(left; lia) eq_refl eq_refl eq_refl ltac:(discriminate) Hi)).
  split; [exact (H 0%nat ltac:(lia))|exact (H 1%nat ltac:(lia))].
Qed.
