(** C99: the correlation check of the classic extension catches receivers with inconsistent choices. *)
From Coq Require Import List NArith Bool Lia Arith.
From Verif Require Import Base MUtil MPoly MBincode MProc MOt MApricot MClassic.
From Verif Require Import SpecUtil SpecBitMatrix SpecBincode SpecOt SpecApricot SpecClassic SpecHide SpecNothing SpecCatch PCatch PClassic CCircuit COt CApricot CClassic.
Import ListNotations.
Open Scope N_scope.

(** C99: a receiver that has sent a matrix whose columns [i] and [j] stand for different choices, and
    whose weighted sums differ, is caught for at least half of all delta, whatever sums it sends: the
    delta come in pairs that differ in one bit, and it is caught for one of each pair. *)
Theorem C99_inconsistent_caught_half : forall sha gen20 gen8 p a cu cv seed0 seed1 bootS bootR msgs u reply x t i j,
  generator gen20 -> generator gen8 -> array_ok 32 cu -> array_ok 32 cv -> seeds_ok seed0 -> seeds_ok seed1 ->
  ot_correct seed_pairs bootS bootR -> classic_ok msgs ->
  let l := (length msgs + 192)%nat in let seed := xor_arrays cv cu in
  shaped 128 (l / 8) u -> reply seed = (x, t) -> array_ok 16 x -> blob_ok t -> (i < 128)%nat -> (j < 128)%nat ->
  let choices := choices_in gen20 seed0 seed1 l u in let weights := gen20 seed (16 * l)%nat in
  weighted (choices i) weights <> weighted (choices j) weights ->
  let S delta := classic_sender sha gen20 gen8 p a cu delta bootR msgs in
  let R := sly_receiver sha cv seed0 seed1 bootS (length msgs) u reply in
  exists k, (k = i \/ k = j) /\ forall delta delta', differ_at k delta delta' -> caught (S delta) R \/ caught (S delta') R.
Proof.
  intros sha gen20 gen8 p a cu cv seed0 seed1 bootS bootR msgs u reply x t i j Hg Hg8 Hcu Hcv H0 H1 Hb Hm l seed Hu Er Hx Ht Hi Hj choices weights Hw.
  exact (sly_half sha gen20 gen8 Hg Hg8 p a cu cv seed0 seed1 Hcu Hcv H0 H1 bootS bootR Hb msgs Hm u Hu i j reply x t Hi Hj Er Hx Ht Hw).
Qed.
Print Assumptions C99_inconsistent_caught_half.

(** C99: weights for which the sums of two different lists of choices agree are rare: in some row (which
    only depends on the choices) there is at most one such weight for each value of the other rows. The
    matrix is sent before the coin flip that fixes the weights (in apricot.rs it is the other way round,
    see C38). *)
Theorem C99_equal_sums_are_rare : forall xs ys, length xs = length ys -> xs <> ys ->
  exists r, (r < length xs)%nat /\ forall chi chi', array_ok (16 * length xs) chi -> array_ok (16 * length xs) chi' ->
    (forall i, (i < length xs)%nat -> i <> r -> firstn 16 (skipn (16 * i) chi) = firstn 16 (skipn (16 * i) chi')) ->
    weighted xs chi = weighted ys chi -> weighted xs chi' = weighted ys chi' -> chi = chi'.
Proof.
  intros xs ys L Ne. destruct (rare xs ys L Ne) as (r & Hr & H). exists r. split; [exact Hr|].
  intros chi chi' [L1 B1] [L2 B2]. exact (H chi chi' L1 L2 B1 B2).
Qed.
Print Assumptions C99_equal_sums_are_rare.

(** C99 is tight, so that "is always caught" is false: for all choices [xs] and [ys] a receiver that uses
    [ys] in column [k] only can send sums that are accepted if and only if bit [k] of delta is 0 (or the
    weighted sums agree); the receiver learns this bit. *)
Theorem C99_always_caught_refuted : forall sha gen20 gen8 p a cu cv seed0 seed1 bootS bootR msgs k xs ys,
  generator gen20 -> generator gen8 -> array_ok 32 cu -> array_ok 32 cv -> seeds_ok seed0 -> seeds_ok seed1 ->
  ot_correct seed_pairs bootS bootR -> classic_ok msgs -> (k < 128)%nat ->
  let l := (length msgs + 192)%nat in let seed := xor_arrays cv cu in
  length xs = l -> length ys = l ->
  let weights := gen20 seed (16 * l)%nat in
  exists u, shaped 128 (l / 8) u /\
  (forall j, (j < 128)%nat -> choices_in gen20 seed0 seed1 l u j = if Nat.eqb j k then ys else xs) /\
  exists x t, forall reply, reply seed = (x, t) -> forall delta, array_ok 16 delta ->
  let S := classic_sender sha gen20 gen8 p a cu delta bootR msgs in
  let R := sly_receiver sha cv seed0 seed1 bootS (length msgs) u reply in
  (bit_of delta k = false -> accepted S R) /\
  (bit_of delta k = true -> weighted xs weights <> weighted ys weights -> caught S R).
Proof.
  intros sha gen20 gen8 p a cu cv seed0 seed1 bootS bootR msgs k xs ys Hg Hg8 Hcu Hcv H0 H1 Hb Hm Hk l seed Lx Ly weights.
  assert (H8 : l = (8 * (l / 8))%nat) by (destruct (sly_sizes msgs Hm) as (_ & E & _); exact E).
  destruct (lie_ok gen20 seed0 seed1 l k xs ys Hg H8 Lx Ly) as [Su Cu].
  exists (lie gen20 seed0 seed1 l k xs ys). split; [exact Su|]. split; [exact Cu|].
  exact (sly_single sha gen20 gen8 Hg Hg8 p a cu cv seed0 seed1 Hcu Hcv H0 H1 bootS bootR Hb msgs Hm (lie gen20 seed0 seed1 l k xs ys) Su k xs ys Hk Cu).
Qed.
Print Assumptions C99_always_caught_refuted.

(** A receiver that sets one choice in column 0 and no other: for every delta it is caught with delta or
    with delta changed in bit 0 or 1. *)
Definition one_bit_u : list bytes := (3 :: repeat 2 24) :: repeat (repeat 2 25) 127.
Definition eight : list (bytes * bytes) := repeat ([1], [2]) 8.
Lemma eight_ok : classic_ok eight.
Proof. repeat split; try reflexivity; repeat constructor. Qed.
Example C99_half_example :
  let S delta := classic_sender toy toy_gen toy_gen Release (Some X86) (coin_s classic_toy) delta (co_receiver toy toy_gen toy_curve Release (fun _ => 1)) eight in
  let R := sly_receiver toy (coin_r classic_toy) (coin_seed0 classic_toy) (coin_seed1 classic_toy) (co_sender toy toy_gen toy_curve Release (fun _ => 1)) 8 one_bit_u
    (fun _ => (repeat 5 16, repeat 6 16)) in
  exists k, (k = 0%nat \/ k = 1%nat) /\ forall delta delta', differ_at k delta delta' -> caught (S delta) R \/ caught (S delta') R.
Proof.
  destruct classic_toy_ok as (H1 & H2 & _ & _ & H5 & H6).
  apply (C99_inconsistent_caught_half toy toy_gen toy_gen Release (Some X86) (coin_s classic_toy) (coin_r classic_toy) (coin_seed0 classic_toy) (coin_seed1 classic_toy)
    _ _ eight one_bit_u (fun _ => (repeat 5 16, repeat 6 16)) (repeat 5 16) (repeat 6 16)); auto using toy_gen_ok, toy_base, eight_ok; try lia.
  - split; [reflexivity|]. repeat constructor.
  - repeat constructor.
  - repeat constructor.
  - vm_compute. discriminate.
Qed.
Example C99_rare_example : exists r, (r < 2)%nat /\ forall chi chi', array_ok 32 chi -> array_ok 32 chi' ->
    (forall i, (i < 2)%nat -> i <> r -> firstn 16 (skipn (16 * i) chi) = firstn 16 (skipn (16 * i) chi')) ->
    weighted [true; false] chi = weighted [true; true] chi -> weighted [true; false] chi' = weighted [true; true] chi' -> chi = chi'.
Proof. exact (C99_equal_sums_are_rare [true; false] [true; true] eq_refl ltac:(discriminate)). Qed.
Example C99_lie_example : exists u x t, forall delta, array_ok 16 delta ->
  let S := classic_sender toy toy_gen toy_gen Release (Some X86) (coin_s classic_toy) delta (co_receiver toy toy_gen toy_curve Release (fun _ => 1)) eight in
  let R := sly_receiver toy (coin_r classic_toy) (coin_seed0 classic_toy) (coin_seed1 classic_toy) (co_sender toy toy_gen toy_curve Release (fun _ => 1)) 8 u (fun _ => (x, t)) in
  (bit_of delta 77 = false -> accepted S R) /\ (bit_of delta 77 = true -> caught S R).
Proof.
  destruct classic_toy_ok as (H1 & H2 & _ & _ & H5 & H6).
  destruct (C99_always_caught_refuted toy toy_gen toy_gen Release (Some X86) (coin_s classic_toy) (coin_r classic_toy) (coin_seed0 classic_toy) (coin_seed1 classic_toy)
    _ _ eight 77 (repeat false 200) (true :: repeat false 199) toy_gen_ok toy_gen_ok H1 H2 H5 H6 (toy_base Release Release) eight_ok ltac:(lia) eq_refl eq_refl) as (u & _ & _ & x & t & H).
  exists u, x, t. intros delta Hd. destruct (H (fun _ => (x, t)) eq_refl delta Hd) as [A B]. split; [exact A|].
  intros E. apply (B E). vm_compute. discriminate.
Qed.
