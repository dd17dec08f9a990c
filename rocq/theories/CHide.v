(** C84: what the receiver of the OT extension sends does not tell its choices. *)
From Coq Require Import List NArith Bool Lia Arith.
From Verif Require Import Base MUtil MBitMatrix MPoly MPar MBincode MProc MOt MApricot.
From Verif Require Import SpecUtil SpecBincode SpecOt SpecApricot SpecPads SpecHide.
From Verif Require Import PBase PProc POt PHide CCircuit COt CApricot.
Import ListNotations.
Open Scope N_scope.

(** C84.  A malicious sender uses the choices [w] in the base OTs, so it has the seeds [seen w] and not the seeds
    [unseen w], and it sends the frames [ins].  The weights [chi] of the check are what the coin flip gives on these
    frames.  If the weights of the 256 extra rows span, then for any two lists of choices there is a change [b0] of the
    receiver's extra bits and a change [d] of the generator on the unseen seeds under which a receiver with the second
    choices sends exactly the frames that it sends with the first ones.  Neither change depends on the bits or on the
    generator (but for [chi]). *)
Theorem C84_extension_hides_choices : forall sha p a cores cv seed0 seed1 boot w choices choices' ins chi,
  seeds_ok seed0 -> seeds_ok seed1 -> length w = 128%nat ->
  (forall s, In s (seen w seed0 seed1) -> In s (unseen w seed0 seed1) -> False) ->
  length choices' = length choices -> (length choices mod 8 = 0)%nat ->
  bytes_ok chi -> spans 256 (skipn (16 * length choices) chi) ->
  exists b0 d, length b0 = 256%nat /\ array_ok ((length choices + 256) / 8) d /\
  forall fill bonus, generator fill -> fill (xored cv (nth 1 ins [])) (16 * (length choices + 256))%nat = chi -> length bonus = 256%nat ->
  snd (feed (ap_receiver sha (switch (unseen w seed0 seed1) ((length choices + 256) / 8) d fill) p a cores cv (flipped bonus b0) seed0 seed1 boot choices') ins) =
  snd (feed (ap_receiver sha fill p a cores cv bonus seed0 seed1 boot choices) ins).
Proof. exact receiver_hides_all. Qed.
Print Assumptions C84_extension_hides_choices.

(** Both changes undo themselves, so as the bits and the generator vary over all values the frames are distributed in
    the same way for both lists of choices; and the changed generator is one, is the old one wherever the sender can
    evaluate it (on any seed outside the unseen ones), and gives the same weights. *)
Theorem C84_changes_undo : forall S n d fill bonus b0, generator fill -> array_ok n d -> length b0 = length bonus ->
  generator (switch S n d fill) /\
  (forall s m, ~ In s S -> switch S n d fill s m = fill s m) /\
  (forall s m, m <> n -> switch S n d fill s m = fill s m) /\
  (forall s m, switch S n d (switch S n d fill) s m = fill s m) /\
  length (flipped bonus b0) = length bonus /\ flipped (flipped bonus b0) b0 = bonus.
Proof. exact switch_facts. Qed.
Print Assumptions C84_changes_undo.

(** The same without the spanning weights, for two paddings that happen to have the same weighted sum. *)
Theorem C84_same_sum : forall sha fill p a cores cv bonus bonus' seed0 seed1 boot w choices choices' ins,
  generator fill -> seeds_ok seed0 -> seeds_ok seed1 -> length w = 128%nat ->
  (forall s, In s (seen w seed0 seed1) -> In s (unseen w seed0 seed1) -> False) ->
  length choices' = length choices -> length bonus = 256%nat -> length bonus' = 256%nat -> (length choices mod 8 = 0)%nat ->
  weighted (choices ++ bonus) (fill (xored cv (nth 1 ins [])) (16 * (length choices + 256))%nat) =
  weighted (choices' ++ bonus') (fill (xored cv (nth 1 ins [])) (16 * (length choices + 256))%nat) ->
  exists d, array_ok ((length choices + 256) / 8) d /\
  snd (feed (ap_receiver sha (switch (unseen w seed0 seed1) ((length choices + 256) / 8) d fill) p a cores cv bonus' seed0 seed1 boot choices') ins) =
  snd (feed (ap_receiver sha fill p a cores cv bonus seed0 seed1 boot choices) ins).
Proof. exact receiver_hides_sum. Qed.
Print Assumptions C84_same_sum.

(** A generator whose rows of 16 bytes are the powers of two in turn, seeds that are all different, and a sender that
    chooses alternately. *)
Definition unit_gen (s : bytes) (n : nat) : bytes :=
  map (fun k => if Nat.eqb (k mod 16) (((k / 16) mod 128) / 8) then 2 ^ N.of_nat ((k / 16) mod 8) else 0) (seq 0 n).
Lemma unit_gen_ok : generator unit_gen.
Proof.
  intros s n. unfold unit_gen. split; [now rewrite map_length, seq_length|]. apply Forall_map. apply Forall_forall.
  intros k _. destruct (Nat.eqb _ _); [|reflexivity]. pose proof (Nat.mod_upper_bound (k / 16) 8).
  apply (N.pow_lt_mono_r 2 _ 8); lia.
Qed.
Definition own_seeds (o : N) : list bytes := map (fun i => (o + N.of_nat i) :: repeat 0 31) (seq 0 128).
Lemma own_seeds_ok o : o <= 128 -> seeds_ok (own_seeds o).
Proof.
  intros H. split; [reflexivity|]. unfold own_seeds. apply Forall_map. apply Forall_forall. intros i Hi. apply in_seq in Hi.
  split; [reflexivity|]. constructor; [apply N.lt_le_trans with (128 + 128); [lia|easy]|]. apply repeat_ok. reflexivity.
Qed.
Definition turns : list bool := map Nat.even (seq 0 128).

Lemma turns_apart s : In s (seen turns (own_seeds 0) (own_seeds 128)) -> In s (unseen turns (own_seeds 0) (own_seeds 128)) -> False.
Proof.
  assert (E : forallb (fun x => negb (existsb (bytes_eqb x) (unseen turns (own_seeds 0) (own_seeds 128))))
    (seen turns (own_seeds 0) (own_seeds 128)) = true) by (vm_compute; reflexivity).
  intros A B. rewrite forallb_forall in E. specialize (E s A). apply negb_true_iff in E.
  apply existsb_In in B. rewrite B in E. discriminate.
Qed.
Lemma unit_spans s : spans 256 (skipn (16 * 8) (unit_gen s (16 * (8 + 256)))).
Proof.
  apply spans_powers. intros i Hi. exists (map (Nat.eqb ((N.to_nat i + 120) mod 128)) (seq 0 256)).
  split; [now rewrite map_length, seq_length|].
  assert (E : forallb (fun j => weighted (map (Nat.eqb ((j + 120) mod 128)) (seq 0 256)) (skipn (16 * 8) (unit_gen [] (16 * (8 + 256)))) =? 2 ^ N.of_nat j)
    (seq 0 128) = true) by (vm_compute; reflexivity).
  rewrite forallb_forall in E. specialize (E (N.to_nat i)). rewrite N2Nat.id in E. apply N.eqb_eq. apply E. apply in_seq. lia.
Qed.
Example C84_example : forall bonus boot ins, length bonus = 256%nat -> exists d bonus', array_ok 33 d /\ length bonus' = 256%nat /\
  snd (feed (ap_receiver toy (switch (unseen turns (own_seeds 0) (own_seeds 128)) 33 d unit_gen) Release X86 4 (repeat 7 32) bonus'
        (own_seeds 0) (own_seeds 128) boot (repeat true 8)) ins) =
  snd (feed (ap_receiver toy unit_gen Release X86 4 (repeat 7 32) bonus (own_seeds 0) (own_seeds 128) boot (repeat false 8)) ins).
Proof.
  intros bonus boot ins L.
  destruct (C84_extension_hides_choices toy Release X86 4 (repeat 7 32) (own_seeds 0) (own_seeds 128) boot turns (repeat false 8) (repeat true 8) ins
    (unit_gen [] (16 * (8 + 256))) (own_seeds_ok 0 ltac:(lia)) (own_seeds_ok 128 ltac:(lia)) eq_refl turns_apart eq_refl eq_refl
    (proj2 (unit_gen_ok _ _)) (unit_spans [])) as (b0 & d & L0 & Hd & H).
  exists d, (flipped bonus b0). split; [exact Hd|]. split; [rewrite flipped_length; congruence|].
  exact (H unit_gen bonus unit_gen_ok eq_refl L).
Qed.
