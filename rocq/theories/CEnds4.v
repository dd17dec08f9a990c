(** C137: how the receiver of the classic OT extension ends for arbitrary messages of the peer. *)
From Coq Require Import List NArith Bool Lia Arith.
From Verif Require Import Base MUtil MBitMatrix MBincode MProc MOt MApricot MClassic SpecBincode SpecOt SpecApricot SpecEnds SpecEnds2 SpecEnds4 PBase PProc POt PEnds PEnds2 PEnds4.
From Verif Require Import CCircuit COt CApricot CClassic CEnds2.
Import ListNotations.
Open Scope N_scope.

(** A peer that agrees to the transfer and to the base OT, but sends something else than 128 points, makes the receiver panic. *)
Theorem C137_points_refuted : forall sha gen20 gen8 gen G, generator gen20 -> generator gen8 -> generator gen -> curve_ok G ->
  forall p a cv bonus seed0 seed1 rs, length bonus = 192%nat -> seeds_ok seed0 -> seeds_ok seed1 ->
  forall cs, (8 <= length cs)%nat -> (length cs mod 8 = 0)%nat -> forall ins l, hailed (length cs) ins l -> ~ points G 128 l ->
  crashes (fst (feed (classic_receiver sha gen20 gen8 p a cv bonus seed0 seed1 (co_sender sha gen G p rs) cs) ins)).
Proof.
  intros sha gen20 gen8 gen G H20 H8 Hg HG p a cv bonus seed0 seed1 rs Lb S0 S1 cs Hn Hm ins l Hh Pt.
  apply (classic_receiver_ends sha gen20 gen8 gen G H20 H8 Hg HG p a cv bonus seed0 seed1 rs Lb S0 S1 cs Hn Hm ins). eauto.
Qed.
Print Assumptions C137_points_refuted.
(** Lists that are too short count: with two empty lists the receiver returns no message at all. *)
Theorem C137_empty_lists_refuted : forall sha gen20 gen8 gen G, generator gen20 -> generator gen8 -> generator gen -> curve_ok G ->
  forall p a cv bonus seed0 seed1 rs, length bonus = 192%nat -> seeds_ok seed0 -> seeds_ok seed1 ->
  forall cs, (8 <= length cs)%nat -> (length cs mod 8 = 0)%nat -> forall ins l, bootstrapped G (length cs) ins l -> finished l [] [] ->
  fst (feed (classic_receiver sha gen20 gen8 p a cv bonus seed0 seed1 (co_sender sha gen G p rs) cs) ins) = Ok [].
Proof.
  intros sha gen20 gen8 gen G H20 H8 Hg HG p a cv bonus seed0 seed1 rs Lb S0 S1 cs Hn Hm ins l B F.
  destruct (proj1 (rest_cases sha gen20 gen8 H20 H8 p a cv bonus seed0 seed1 Lb S0 S1 cs Hn Hm l) [] [] F) as (out & E & Lo & _).
  rewrite (boot_go sha gen20 gen8 gen G Hg HG p a cv bonus seed0 seed1 rs S0 S1 cs Hn Hm ins l B), E. f_equal.
  cbn [length] in Lo. rewrite !Nat.min_0_r in Lo. destruct out; [reflexivity|discriminate].
Qed.
Print Assumptions C137_empty_lists_refuted.

(** For any frames of the peer and a number [n] of choices the receiver accepts: a value exactly if the peer agrees to [n]
    and to 128, sends 128 points, 32 bytes for the coin flip and two lists. A panic exactly if the peer agrees to both and
    does not send 128 points. An error in all other cases. *)
Theorem C137_receiver_ends : forall sha gen20 gen8 gen G, generator gen20 -> generator gen8 -> generator gen -> curve_ok G ->
  forall p a cv bonus seed0 seed1 rs, length bonus = 192%nat -> seeds_ok seed0 -> seeds_ok seed1 ->
  forall cs, (8 <= length cs)%nat -> (length cs mod 8 = 0)%nat -> forall ins,
  let n := length cs in
  let o := fst (feed (classic_receiver sha gen20 gen8 p a cv bonus seed0 seed1 (co_sender sha gen G p rs) cs) ins) in
  (succeeds o <-> exists l d0 d1, bootstrapped G n ins l /\ finished l d0 d1) /\
  (crashes o <-> exists l, hailed n ins l /\ ~ points G 128 l) /\
  (fails o <-> (forall l, ~ hailed n ins l) \/ (exists l, bootstrapped G n ins l /\ forall d0 d1, ~ finished l d0 d1)) /\
  o <> UB.
Proof. intros. now apply classic_receiver_ends. Qed.
Print Assumptions C137_receiver_ends.

(** With other numbers of choices it panics once the peer has agreed, and returns an error if the peer does not. *)
Theorem C137_other_numbers : forall sha gen20 gen8 gen G p a cv bonus seed0 seed1 rs cs ins, (length cs < 8)%nat \/ (length cs mod 8 <> 0)%nat ->
  let o := fst (feed (classic_receiver sha gen20 gen8 p a cv bonus seed0 seed1 (co_sender sha gen G p rs) cs) ins) in
  (crashes o <-> exists m l, ins = m :: l /\ greets (length cs) m) /\ (fails o <-> ~ exists m l, ins = m :: l /\ greets (length cs) m).
Proof. intros. now apply classic_few. Qed.
Print Assumptions C137_other_numbers.

(** As many messages are returned as the shorter of the two lists has, at most one for each choice, and each has the length
    of the ciphertext that was chosen. *)
Theorem C137_sizes : forall sha gen20 gen8 gen G, generator gen20 -> generator gen8 -> generator gen -> curve_ok G ->
  forall p a cv bonus seed0 seed1 rs, length bonus = 192%nat -> seeds_ok seed0 -> seeds_ok seed1 ->
  forall cs, (8 <= length cs)%nat -> (length cs mod 8 = 0)%nat -> forall ins out,
  fst (feed (classic_receiver sha gen20 gen8 p a cv bonus seed0 seed1 (co_sender sha gen G p rs) cs) ins) = Ok out ->
  exists l d0 d1, bootstrapped G (length cs) ins l /\ finished l d0 d1 /\ length out = Nat.min (length cs) (Nat.min (length d0) (length d1)) /\
    forall i y, nth_error out i = Some y -> length y = length (nth i (if nth i cs false then d1 else d0) []).
Proof. intros. apply (classic_receiver_sizes sha gen20 gen8 gen G H H0 H1 H2 p a cv bonus seed0 seed1 rs H3 H4 H5 cs H6 H7 ins out H8). Qed.
Print Assumptions C137_sizes.

(** ** Example *)
(** Eight choices; the peer sends one and two ciphertexts, of one and of three bytes. *)
Definition hail : list bytes := [enc_props (mkProps 8 apricot_name); enc_props (mkProps 128 chou_orlandi)].
Definition points_128 : list bytes := repeat (repeat 0 32) 128.
Definition last_frames : list bytes := [repeat 5 32; enc_rows [[7]]; enc_rows [[1; 2; 3]; [4]]].
Lemma hail_to l : hailed 8 (hail ++ l) l.
Proof. do 2 eexists. split; [reflexivity|]. split; reflexivity. Qed.
Lemma hail_points l : bootstrapped toy_curve 8 (hail ++ points_128 ++ l) l.
Proof.
  exists (points_128 ++ l). split; [apply hail_to|]. unfold points_128. split; [split|].
  - rewrite app_length, repeat_length. lia.
  - rewrite firstn_app, repeat_length, Nat.sub_diag. change (firstn 0 l) with (@nil bytes). rewrite app_nil_r, firstn_all2 by (now rewrite repeat_length).
    apply Forall_forall. intros y Hy. apply repeat_spec in Hy. subst. split; [reflexivity|]. vm_compute. discriminate.
  - rewrite skipn_app, repeat_length, Nat.sub_diag, skipn_all2 by (now rewrite repeat_length). reflexivity.
Qed.
Lemma toy_seeds : seeds_ok (repeat (repeat 0 32) 128).
Proof. split; [apply repeat_length|]. apply Forall_forall. intros y Hy. apply repeat_spec in Hy. subst. split; [reflexivity|now apply repeat_bytes]. Qed.
Example C137_case : let cs := repeat true 8 in let seeds := repeat (repeat 0 32) 128 in
  let run cs ins := fst (feed (classic_receiver toy toy_gen toy_gen Debug (Some X86) (repeat 1 32) (repeat true 192) seeds seeds (co_sender toy toy_gen toy_curve Debug (fun _ => 1)) cs) ins) in
  finished last_frames [[7]] [[1; 2; 3]; [4]] /\
  (exists y, run cs (hail ++ points_128 ++ last_frames) = Ok [y] /\ length y = 3%nat) /\
  run cs (hail ++ points_128 ++ [repeat 5 32; enc_rows []; enc_rows []]) = Ok [] /\
  fails (run cs (hail ++ points_128 ++ [repeat 5 32; [1]])) /\ crashes (run cs (hail ++ [[1]])) /\ fails (run cs [[1]]) /\
  crashes (run [] [enc_props (mkProps 0 apricot_name)]).
Proof.
  intros cs seeds run.
  assert (F : finished last_frames [[7]] [[1; 2; 3]; [4]]) by (do 4 eexists; split; [reflexivity|split; [reflexivity|split; reflexivity]]).
  assert (H8 : (8 <= length cs)%nat) by (cbn; lia). assert (Hm : (length cs mod 8 = 0)%nat) by reflexivity.
  pose proof (C137_receiver_ends toy toy_gen toy_gen toy_gen toy_curve toy_gen_ok toy_gen_ok toy_gen_ok toy_curve_ok Debug (Some X86) (repeat 1 32) (repeat true 192) seeds seeds (fun _ => 1)
    (repeat_length _ _) toy_seeds toy_seeds cs H8 Hm) as Ends.
  split; [exact F|]. split; [|split; [|split; [|split; [|split]]]].
  - destruct (proj2 (proj1 (Ends (hail ++ points_128 ++ last_frames)))) as [out E]; [eexists; eexists; eexists; split; [apply hail_points|exact F]|].
    destruct (C137_sizes toy toy_gen toy_gen toy_gen toy_curve toy_gen_ok toy_gen_ok toy_gen_ok toy_curve_ok Debug (Some X86) (repeat 1 32) (repeat true 192) seeds seeds (fun _ => 1)
      (repeat_length _ _) toy_seeds toy_seeds cs H8 Hm _ out E) as (l & d0 & d1 & B & F' & Lo & So).
    assert (El : l = last_frames).
    { destruct B as (l' & (m & b & Q & _) & _ & ->). assert (L' : l' = points_128 ++ last_frames) by (symmetry; exact (f_equal (skipn 2) Q)). rewrite L'. unfold points_128. rewrite skipn_app, repeat_length, Nat.sub_diag, skipn_all2 by (now rewrite repeat_length). reflexivity. }
    subst l. destruct F as (u & m0 & m1 & l1 & Q & _ & K0 & K1). destruct F' as (u' & m0' & m1' & l1' & Q' & _ & K0' & K1').
    rewrite Q in Q'. injection Q' as <- <- <- <-. rewrite K0 in K0'. rewrite K1 in K1'. injection K0' as <-. injection K1' as <-.
    destruct out as [|y [|? ?]]; cbn in Lo; try discriminate Lo. exists y. split; [exact E|]. exact (So 0%nat y eq_refl).
  - apply (C137_empty_lists_refuted toy toy_gen toy_gen toy_gen toy_curve toy_gen_ok toy_gen_ok toy_gen_ok toy_curve_ok Debug (Some X86) (repeat 1 32) (repeat true 192) seeds seeds (fun _ => 1)
      (repeat_length _ _) toy_seeds toy_seeds cs H8 Hm _ _ (hail_points _)). do 4 eexists. split; [reflexivity|split; [reflexivity|split; reflexivity]].
  - refine (proj2 (proj1 (proj2 (proj2 (Ends (hail ++ points_128 ++ [repeat 5 32; [1]]))))) _). right. eexists. split; [apply hail_points|]. intros d0 d1 (? & ? & ? & ? & Q & _). discriminate.
  - apply (C137_points_refuted toy toy_gen toy_gen toy_gen toy_curve toy_gen_ok toy_gen_ok toy_gen_ok toy_curve_ok Debug (Some X86) (repeat 1 32) (repeat true 192) seeds seeds (fun _ => 1)
      (repeat_length _ _) toy_seeds toy_seeds cs H8 Hm _ _ (hail_to _)). intros [L _]. cbn in L. lia.
  - refine (proj2 (proj1 (proj2 (proj2 (Ends [[1]])))) _). left. intros l (m & b & Q & _). discriminate.
  - refine (proj2 (proj1 (C137_other_numbers toy toy_gen toy_gen toy_gen toy_curve Debug (Some X86) (repeat 1 32) (repeat true 192) seeds seeds (fun _ => 1) [] [enc_props (mkProps 0 apricot_name)] ltac:(left; cbn; lia))) _).
    do 2 eexists. split; reflexivity.
Qed.
