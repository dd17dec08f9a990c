(** C140: what the receiver of the classic OT extension sends does not tell its choices. *)
From Coq Require Import List NArith Bool Lia Arith.
From Verif Require Import Base MUtil MBitMatrix MPoly MBincode MProc MOt MApricot MClassic.
From Verif Require Import SpecUtil SpecBincode SpecOt SpecApricot SpecPads SpecHide.
From Verif Require Import PBase PProc POt PHide PHideClassic CCircuit COt CApricot CHide CSpan.
Import ListNotations.
Open Scope N_scope.

(** C140.  A malicious sender uses the choices [w] in the 128 base OTs, so it has the seeds [seen w] and not the seeds
    [unseen w], and it sends the frames [ins].  Its share of the coin flip is the frame after the greetings and the 128
    points, and the weights [chi] of the check are what that share gives.  If the weights of the 192 extra rows span,
    then for any two lists of choices there is a change [b0] of the receiver's extra bits and a change [d] of the
    generator on the unseen seeds under which a receiver with the second choices sends exactly the frames that it sends
    with the first ones.  Neither change depends on the bits or on the generator (but for [chi]). *)
Theorem C140_classic_hides_choices : forall sha gen gen8 G p a cv seed0 seed1 rs w choices choices' ins chi,
  seeds_ok seed0 -> seeds_ok seed1 -> length w = 128%nat ->
  (forall s, In s (seen w seed0 seed1) -> In s (unseen w seed0 seed1) -> False) ->
  length choices' = length choices -> (length choices mod 8 = 0)%nat ->
  bytes_ok chi -> spans 192 (skipn (16 * length choices) chi) ->
  exists b0 d, length b0 = 192%nat /\ array_ok ((length choices + 192) / 8) d /\
  forall gen20 bonus, generator gen20 -> gen20 (xored cv (nth 130 ins [])) (16 * (length choices + 192))%nat = chi -> length bonus = 192%nat ->
  snd (feed (classic_receiver sha (switch (unseen w seed0 seed1) ((length choices + 192) / 8) d gen20) gen8 p a cv (flipped bonus b0) seed0 seed1 (co_sender sha gen G p rs) choices') ins) =
  snd (feed (classic_receiver sha gen20 gen8 p a cv bonus seed0 seed1 (co_sender sha gen G p rs) choices) ins).
Proof.
  intros sha gen gen8 G p a cv seed0 seed1 rs w choices choices' ins chi S0 S1 Lw Hap.
  apply (classic_hides_all sha gen8 p a cv seed0 seed1 (co_sender sha gen G p rs) 129 w choices choices' ins chi S0 S1 Lw Hap).
  now apply base_reads.
Qed.
Print Assumptions C140_classic_hides_choices.

(** Weights of the 192 extra rows (3072 bytes) that do not span are few: they can be written with 8 bytes less, so
    uniform weights fail to span with probability at most 2^-64. *)
Theorem C140_classic_weights_span : exists (enc dec : bytes -> bytes), forall chi,
  array_ok 3072 chi -> ~ spans 192 chi -> array_ok (3072 - 8) (enc chi) /\ dec (enc chi) = chi.
Proof.
  destruct (C88_few_weights_do_not_span 24) as (enc & dec & H). exists enc, dec. intros chi [L B] N. exact (H chi L B N).
Qed.
Print Assumptions C140_classic_weights_span.

(** The same without the spanning weights, for two paddings that happen to have the same weighted sum. *)
Theorem C140_same_sum : forall sha gen gen20 gen8 G p a cv bonus bonus' seed0 seed1 rs w choices choices' ins,
  generator gen20 -> seeds_ok seed0 -> seeds_ok seed1 -> length w = 128%nat ->
  (forall s, In s (seen w seed0 seed1) -> In s (unseen w seed0 seed1) -> False) ->
  length choices' = length choices -> length bonus = 192%nat -> length bonus' = 192%nat -> (length choices mod 8 = 0)%nat ->
  weighted (choices ++ bonus) (gen20 (xored cv (nth 130 ins [])) (16 * (length choices + 192))%nat) =
  weighted (choices' ++ bonus') (gen20 (xored cv (nth 130 ins [])) (16 * (length choices + 192))%nat) ->
  exists d, array_ok ((length choices + 192) / 8) d /\
  snd (feed (classic_receiver sha (switch (unseen w seed0 seed1) ((length choices + 192) / 8) d gen20) gen8 p a cv bonus' seed0 seed1 (co_sender sha gen G p rs) choices') ins) =
  snd (feed (classic_receiver sha gen20 gen8 p a cv bonus seed0 seed1 (co_sender sha gen G p rs) choices) ins).
Proof.
  intros sha gen gen20 gen8 G p a cv bonus bonus' seed0 seed1 rs w choices choices' ins Hg S0 S1 Lw Hap Lc Lb Lb' H8 Hw.
  exact (classic_hides_same sha gen20 gen8 p a cv bonus bonus' seed0 seed1 (co_sender sha gen G p rs) 129 w choices choices' ins
    Hg S0 S1 Lw Hap (base_reads sha gen G p rs seed0 seed1 S0 S1) Lc Lb Lb' H8 Hw).
Qed.
Print Assumptions C140_same_sum.

(** ** Example *)
Lemma unit_spans_192 s : spans 192 (skipn (16 * 8) (unit_gen s (16 * (8 + 192)))).
Proof.
  apply spans_powers. intros i Hi. exists (map (Nat.eqb ((N.to_nat i + 120) mod 128)) (seq 0 192)).
  split; [now rewrite map_length, seq_length|].
  assert (E : forallb (fun j => weighted (map (Nat.eqb ((j + 120) mod 128)) (seq 0 192)) (skipn (16 * 8) (unit_gen [] (16 * (8 + 192)))) =? 2 ^ N.of_nat j)
    (seq 0 128) = true) by (vm_compute; reflexivity).
  rewrite forallb_forall in E. specialize (E (N.to_nat i)). rewrite N2Nat.id in E. apply N.eqb_eq. apply E. apply in_seq. lia.
Qed.
Example C140_example : forall bonus ins, length bonus = 192%nat -> exists d bonus', array_ok 25 d /\ length bonus' = 192%nat /\
  snd (feed (classic_receiver toy (switch (unseen turns (own_seeds 0) (own_seeds 128)) 25 d unit_gen) toy_gen Release (Some X86) (repeat 7 32) bonus'
        (own_seeds 0) (own_seeds 128) (co_sender toy toy_gen toy_curve Release (fun _ => 1)) (repeat true 8)) ins) =
  snd (feed (classic_receiver toy unit_gen toy_gen Release (Some X86) (repeat 7 32) bonus
        (own_seeds 0) (own_seeds 128) (co_sender toy toy_gen toy_curve Release (fun _ => 1)) (repeat false 8)) ins).
Proof.
  intros bonus ins L.
  destruct (C140_classic_hides_choices toy toy_gen toy_gen toy_curve Release (Some X86) (repeat 7 32) (own_seeds 0) (own_seeds 128) (fun _ => 1) turns (repeat false 8) (repeat true 8) ins
    (unit_gen [] (16 * (8 + 192))) (own_seeds_ok 0 ltac:(lia)) (own_seeds_ok 128 ltac:(lia)) eq_refl turns_apart eq_refl eq_refl
    (proj2 (unit_gen_ok _ _)) (unit_spans_192 [])) as (b0 & d & L0 & Hd & H).
  exists d, (flipped bonus b0). split; [exact Hd|]. split; [rewrite flipped_length; congruence|].
  exact (H unit_gen bonus unit_gen_ok eq_refl L).
Qed.
