(** C87: what a dishonest receiver of the OT extension can learn. *)
From Coq Require Import List NArith Bool Lia Arith.
From Verif Require Import Base MUtil MWires MBitMatrix MPoly MPar MBincode MProc MOt MApricot MMany.
From Verif Require Import SpecUtil SpecBincode SpecOt SpecApricot SpecEvil SpecPads SpecHide.
From Verif Require Import PBase PUtil PBincode PProc POt PHide PGreedy CCircuit COt CApricot CHide.
Import ListNotations.
Open Scope N_scope.

(** C87 is false.  The weights of the check are known before u is sent, so the receiver can send a u that uses another
    list of choices in each of its 128 columns, and sums that the sender accepts whatever its delta is.  From the answer
    d and the first messages of 128 of the pairs it computes both messages of every pair: one [extract] works for every
    delta and all messages.  (The assumptions: the weights of the 256 extra rows span, and the masks of different rows
    with one number differ.) *)
Theorem C87_receiver_gets_one_message_refuted : forall sha fill p a cores cu cv seed0 seed1 bootS bootR n s,
  generator fill -> (1 <= cores)%nat -> array_ok 32 cu -> array_ok 32 cv -> seeds_ok seed0 -> seeds_ok seed1 ->
  ot_correct seed_pairs bootS bootR ->
  usize_ok n -> (128 <= n)%nat -> (n mod 8 = 0)%nat -> (1 <= s)%nat ->
  spans 256 (skipn (16 * n) (fill (xor_arrays cv cu) (16 * (n + 256))%nat)) ->
  (forall r y y', (r < 128)%nat -> array_ok 16 y -> array_ok 16 y' -> y <> y' ->
     fill (sha (usize_be r ++ y)) s <> fill (sha (usize_be r ++ y')) s) ->
  exists u x_sum t_sum (extract : list bytes -> bytes -> list (bytes * bytes)),
    length u = ((n + 256) / 8 * 128)%nat /\ length x_sum = 16%nat /\ length t_sum = 16%nat /\
    forall delta msgs, array_ok 16 delta -> length msgs = n -> equal_sized s msgs ->
    exists d, runs (ap_sender sha fill p a cores cu delta bootR msgs)
      (evil_receiver sha cv seed0 seed1 bootS n (fun _ => (u, x_sum, t_sum))) (Ok tt) (Ok d) /\
      extract (map fst (firstn 128 msgs)) d = msgs.
Proof.
  intros sha fill p a cores cu cv seed0 seed1 bootS bootR n s Hf Hc H1 H2 H5 H6 Hb Un Hn H8 Hs Sp Md.
  exact (greedy sha fill Hf p a cores Hc cu cv seed0 seed1 H1 H2 H5 H6 bootS bootR Hb n s Un Hn H8 Hs Sp Md).
Qed.
Print Assumptions C87_receiver_gets_one_message_refuted.

(** A hash that keeps the row and a generator that keeps the hash, except for the weights. *)
Definition keep_row (x : bytes) : bytes := firstn 32 (skipn 8 x ++ repeat 0 32).
Definition keep_gen (s : bytes) (m : nat) : bytes :=
  if Nat.eqb m (16 * 384) then unit_gen s m else map (fun x => x mod 256) (firstn m (s ++ repeat 0 m)).
Lemma keep_gen_ok : generator keep_gen.
Proof.
  intros s m. unfold keep_gen. destruct (Nat.eqb m (16 * 384)); [apply unit_gen_ok|]. split.
  - rewrite map_length, firstn_length, app_length, repeat_length. lia.
  - apply Forall_map. apply Forall_forall. intros x _. apply N.mod_lt. discriminate.
Qed.
Lemma keep_masks r y : array_ok 16 y -> keep_gen (keep_row (usize_be r ++ y)) 16 = y.
Proof.
  intros [L B]. unfold keep_row. rewrite skipn_app. replace (skipn 8 (usize_be r)) with (@nil N) by reflexivity.
  replace (8 - length (usize_be r))%nat with 0%nat by reflexivity. cbn [skipn app].
  unfold keep_gen. replace (Nat.eqb 16 (16 * 384)) with false by reflexivity.
  assert (E : firstn 32 (y ++ repeat 0 32) = y ++ repeat 0 16) by (rewrite firstn_app, L, (firstn_all2 y) by lia; reflexivity).
  rewrite E, <- app_assoc, (firstn_app 16 y), L, (firstn_all2 y) by lia. change (16 - 16)%nat with 0%nat. cbn [firstn]. rewrite app_nil_r.
  rewrite <- (map_id y) at 2. apply map_ext_in. intros x Hx. apply N.mod_small. unfold bytes_ok in B. rewrite Forall_forall in B. now apply B.
Qed.
Lemma keep_spans s : spans 256 (skipn (16 * 128) (keep_gen s (16 * (128 + 256)))).
Proof.
  change (keep_gen s (16 * (128 + 256))) with (unit_gen s (16 * (128 + 256))).
  apply spans_powers. intros i Hi. exists (map (Nat.eqb (N.to_nat i)) (seq 0 256)).
  split; [now rewrite map_length, seq_length|].
  assert (E : forallb (fun j => weighted (map (Nat.eqb j) (seq 0 256)) (skipn (16 * 128) (unit_gen [] (16 * (128 + 256)))) =? 2 ^ N.of_nat j)
    (seq 0 128) = true) by (vm_compute; reflexivity).
  rewrite forallb_forall in E. specialize (E (N.to_nat i)). rewrite N2Nat.id in E. apply N.eqb_eq. apply E. apply in_seq. lia.
Qed.
Example C87_example : exists u x_sum t_sum (extract : list bytes -> bytes -> list (bytes * bytes)),
  forall delta msgs, array_ok 16 delta -> length msgs = 128%nat -> equal_sized 16 msgs ->
  exists d, runs (ap_sender keep_row keep_gen Debug X86 4 (repeat 0 32) delta (co_receiver toy toy_gen toy_curve Debug (fun _ => 1)) msgs)
    (evil_receiver keep_row (repeat 0 32) (own_seeds 0) (own_seeds 128) (co_sender toy toy_gen toy_curve Debug (fun _ => 1)) 128 (fun _ => (u, x_sum, t_sum)))
    (Ok tt) (Ok d) /\ extract (map fst (firstn 128 msgs)) d = msgs.
Proof.
  destruct (C87_receiver_gets_one_message_refuted keep_row keep_gen Debug X86 4 (repeat 0 32) (repeat 0 32) (own_seeds 0) (own_seeds 128) _ _ 128 16
    keep_gen_ok ltac:(lia) (conj eq_refl (repeat_ok 0 32 eq_refl)) (conj eq_refl (repeat_ok 0 32 eq_refl)) (own_seeds_ok 0 ltac:(lia)) (own_seeds_ok 128 ltac:(lia))
    (toy_base Debug Debug) eq_refl ltac:(lia) eq_refl ltac:(lia) (keep_spans _)) as (u & x_sum & t_sum & ex & _ & _ & _ & H).
  - intros r y y' _ Hy Hy' Ne E. apply Ne. rewrite !keep_masks in E by auto. exact E.
  - exists u, x_sum, t_sum, ex. exact H.
Qed.
(** Such messages and deltas exist. *)
Example C87_inputs : array_ok 16 (repeat 5 16) /\ length (repeat (repeat 1 16, repeat 2 16) 128) = 128%nat /\ equal_sized 16 (repeat (repeat 1 16, repeat 2 16) 128).
Proof.
  split; [split; [reflexivity|now apply repeat_ok]|]. split; [reflexivity|].
  apply Forall_forall. intros x Hx. apply repeat_spec in Hx. subst. split; reflexivity.
Qed.
