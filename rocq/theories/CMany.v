(** C42, C43, and the 1-of-n parts of C39 and C40: ot/one_of_many.rs. *)
From Coq Require Import List NArith Bool Lia Arith.
From Verif Require Import Base MUtil MPar MBincode MProc MOt MMany.
From Verif Require Import SpecUtil SpecBincode SpecOt SpecMany PBase PUtil PPar PProc PHang POt PMany CCircuit COt.
Import ListNotations.
Open Scope N_scope.

Lemma fits_guard p cores d : fits cores d -> let rows := (2 ^ d)%nat in let threads := if Nat.leb rows cores then rows else cores in
  (d <= 2 \/ (1 <= cores /\ (p = Debug -> rows mod threads = 0) /\ rows mod (rows / threads) = 0))%nat.
Proof.
  intros [H|[H|[H1 H2]]] rows threads; [now left|right|right]; pose proof (pow2_pos d) as P; fold rows in P.
  - unfold threads. rewrite (proj2 (Nat.leb_le _ _)) by exact H. split; [lia|].
    rewrite Nat.mod_same, Nat.div_same by lia. split; [auto|]. apply Nat.mod_1_r.
  - fold rows in H2. unfold threads. destruct (Nat.leb_spec rows cores) as [L|L].
    + split; [lia|]. rewrite Nat.mod_same, Nat.div_same by lia. split; [auto|]. apply Nat.mod_1_r.
    + split; [lia|]. split; [auto|].
      assert (E : rows = (cores * (rows / cores))%nat) by (apply Nat.div_exact; lia).
      rewrite E at 1. apply Nat.mod_mul. intros Z. rewrite Z in E. lia.
Qed.

(** C42: 2^d messages of the same positive length, an index below 2^d: the receiver gets the message at
    that index, for every correct internal 1-of-2 OT and all keys. *)
Theorem C42_one_of_many_correct : forall sha fill p p' cores keys bootS bootR messages d choice,
  generator fill -> ot_correct key_pairs bootS bootR -> key_pairs keys -> length keys = d ->
  length messages = (2 ^ d)%nat -> same_length messages -> choice < N.of_nat (2 ^ d)%nat -> fits cores d ->
  exists m, nth_error messages (N.to_nat choice) = Some m /\
    runs (many_sender sha fill p cores keys bootS messages d) (many_receiver sha fill p' bootR choice d) (Ok tt) (Ok m).
Proof.
  intros sha fill p p' cores keys bootS bootR messages d choice Hf Hb Hk Lk Lm (s & Hs & Sm) Hc Hfit.
  exists (nth (N.to_nat choice) messages []). split; [apply nth_error_nth_lt; lia|].
  assert (Hd : (d <= 32)%nat) by (destruct Hk; lia).
  apply (many_run sha fill Hf p p' cores keys messages d s Hd Lk Hs Sm bootS bootR Hb Hk choice Hc); [lia|].
  now apply fits_guard.
Qed.
Print Assumptions C42_one_of_many_correct.

(** Up to 32 pairs of keys are a valid input of the base OT. *)
Lemma key_pairs_payload ks : key_pairs ks -> payload_ok ks.
Proof.
  intros [L H]. split; [unfold usize_ok; apply N.le_lt_trans with 32; [lia|reflexivity]|]. eapply Forall_impl; [|exact H].
  intros m [[L0 B0] [L1 B1]]. repeat split; auto; unfold usize_ok; try rewrite L0; try rewrite L1; reflexivity.
Qed.
Lemma co_for_keys sha gen G p p' rs rr : generator gen -> curve_ok G ->
  ot_correct key_pairs (co_sender sha gen G p rs) (co_receiver sha gen G p' rr).
Proof. intros Hg HG msgs cs L H. exact (co_runs sha gen G Hg HG p p' rs rr msgs cs L (key_pairs_payload msgs H)). Qed.

(** C42: over the base OT of the crate. *)
Theorem C42_one_of_many_over_base_OT : forall sha fill gen G p p' cores keys rs rr messages d choice,
  generator fill -> generator gen -> curve_ok G -> key_pairs keys -> length keys = d ->
  length messages = (2 ^ d)%nat -> same_length messages -> choice < N.of_nat (2 ^ d)%nat -> fits cores d ->
  exists m, nth_error messages (N.to_nat choice) = Some m /\
    runs (many_sender sha fill p cores keys (co_sender sha gen G p rs) messages d)
         (many_receiver sha fill p' (co_receiver sha gen G p' rr) choice d) (Ok tt) (Ok m).
Proof. intros. apply C42_one_of_many_correct; auto. now apply co_for_keys. Qed.
Print Assumptions C42_one_of_many_over_base_OT.

Definition toy_keys (d : nat) : list (bytes * bytes) := repeat (repeat 3 32, repeat 5 32) d.
Lemma toy_keys_ok d : (d <= 32)%nat -> key_pairs (toy_keys d).
Proof.
  intros H. split; [unfold toy_keys; now rewrite repeat_length|]. apply Forall_forall. intros k Hk. apply repeat_spec in Hk. subst.
  split; (split; [reflexivity|]); repeat constructor.
Qed.
Example one_of_many_example : exists m,
  nth_error [[10; 0]; [11; 1]; [12; 2]; [13; 3]; [14; 4]; [15; 5]; [16; 6]; [17; 7]] 5 = Some m /\ m = [15; 5] /\
  runs (many_sender toy toy_gen Debug 4 (toy_keys 3) (co_sender toy toy_gen toy_curve Debug (fun _ => 1))
          [[10; 0]; [11; 1]; [12; 2]; [13; 3]; [14; 4]; [15; 5]; [16; 6]; [17; 7]] 3)
       (many_receiver toy toy_gen Release (co_receiver toy toy_gen toy_curve Release (fun _ => 1)) 5 3) (Ok tt) (Ok m).
Proof.
  destruct (C42_one_of_many_over_base_OT toy toy_gen toy_gen toy_curve Debug Release 4 (toy_keys 3) (fun _ => 1) (fun _ => 1)
    [[10; 0]; [11; 1]; [12; 2]; [13; 3]; [14; 4]; [15; 5]; [16; 6]; [17; 7]] 3 5) as (m & E & R);
    auto using toy_gen_ok, toy_curve_ok; try reflexivity.
  - apply toy_keys_ok. lia.
  - exists 2%nat. split; [lia|]. repeat constructor.
  - right; right. split; [lia|reflexivity].
  - exists m. split; [exact E|]. split; [|exact R]. vm_compute in E. now injection E as <-.
Qed.

(** *** C43 *)
(** C43 is false: in debug builds the sender panics, before sending anything, whenever 3 <= d and the
    number of cores is smaller than 2^d without dividing it. *)
Theorem C43_debug_core_count_refuted : forall sha fill cores keys internal messages d ins,
  (3 <= d <= 32)%nat -> length keys = d -> (1 <= cores < 2 ^ d)%nat -> (2 ^ d mod cores <> 0)%nat -> messages <> [] -> same_length messages ->
  feed (many_sender sha fill Debug cores keys internal messages d) ins = (Panic PAssert, []).
Proof.
  intros sha fill cores keys internal messages d ins Hd Lk Hc Hm Hn (s & Hs & Sm).
  destruct messages as [|m0 messages]; [now elim Hn|]. inversion Sm as [|m1 ms1 S0 Sr Q]; subst m1 ms1.
  unfold many_sender. rewrite (idx_lt (m0 :: messages) 0 []) by (cbn; lia). cbn [lift pbind nth].
  rewrite (y_panics_debug sha fill Debug cores keys (m0 :: messages) d (length m0)); try lia; auto.
  rewrite (proj2 (Nat.leb_gt _ _)) by lia. exact Hm.
Qed.
Print Assumptions C43_debug_core_count_refuted.

(** C43: in release builds it writes behind the end of a buffer whenever, for t = min(cores, 2^d), the
    chunk size 2^d / t does not divide 2^d. *)
Theorem C43_release_core_count_refuted : forall sha fill cores keys internal messages d ins,
  generator fill -> (3 <= d <= 32)%nat -> length keys = d -> (1 <= cores < 2 ^ d)%nat -> (2 ^ d mod (2 ^ d / cores) <> 0)%nat ->
  (2 ^ d <= length messages)%nat -> same_length messages ->
  feed (many_sender sha fill Release cores keys internal messages d) ins = (UB, []).
Proof.
  intros sha fill cores keys internal messages d ins Hf Hd Lk Hc Hm Lm (s & Hs & Sm).
  pose proof (pow2_pos d). unfold many_sender. rewrite (idx_lt messages 0 []) by lia. cbn [lift pbind].
  rewrite (Forall_nth_in _ messages 0 [] Sm) by lia.
  rewrite (y_UB_release sha fill Hf Release cores keys messages d s); auto; try lia.
  rewrite (proj2 (Nat.leb_gt _ _)) by lia. exact Hm.
Qed.
Print Assumptions C43_release_core_count_refuted.

(** C43: and if the number of messages is not a power of two, so that log2 rounds up, it never
    succeeds: no core count, profile or peer helps. *)
Theorem C43_message_count_refuted : forall sha fill p cores keys internal messages d ins,
  (d <= 32)%nat -> (length messages < 2 ^ d)%nat -> same_length messages ->
  fst (feed (many_sender sha fill p cores keys internal messages d) ins) <> Ok tt.
Proof.
  intros sha fill p cores keys internal messages d ins Hd Hl (s & Hs & Sm) E.
  unfold many_sender in E. destruct (idx messages 0) as [m0| | |] eqn:E0; try discriminate. cbn [lift pbind] in E.
  destruct (many_y sha fill p cores keys messages d (length m0)) as [y| | |] eqn:Ey; try discriminate.
  apply y_needs_messages in Ey; [lia|exact Hd|].
  apply idx_inv in E0. apply nth_error_In in E0. rewrite (proj1 (Forall_forall _ _) Sm m0 E0). exact Hs.
Qed.
Print Assumptions C43_message_count_refuted.

(** Witnesses: 8 messages on 3 cores, 16 on 5, and 3 messages anywhere (log2 3 = 2). *)
Example core_count_witness : forall ins,
  feed (many_sender toy toy_gen Debug 3 (toy_keys 3) (fun _ => ret tt) (repeat [1] 8) 3) ins = (Panic PAssert, []) /\
  feed (many_sender toy toy_gen Release 5 (toy_keys 4) (fun _ => ret tt) (repeat [1] 16) 4) ins = (UB, []) /\
  fst (feed (many_sender toy toy_gen Release 5 (toy_keys 2) (fun _ => ret tt) (repeat [1] 3) 2) ins) <> Ok tt /\
  log2_ Debug 64 3 = Ok 2.
Proof.
  intros ins. split.
  { apply (C43_debug_core_count_refuted toy toy_gen 3 (toy_keys 3) (fun _ => ret tt) (repeat [1] 8) 3); try reflexivity; try (cbn; lia); try discriminate.
    exists 1%nat. split; [lia|]. repeat constructor. }
  split.
  { apply (C43_release_core_count_refuted toy toy_gen 5 (toy_keys 4) (fun _ => ret tt) (repeat [1] 16) 4); auto using toy_gen_ok; try (cbn; lia).
    exists 1%nat. split; [lia|]. repeat constructor. }
  split; [|reflexivity].
  apply C43_message_count_refuted; [lia|cbn; lia|]. exists 1%nat. split; [lia|]. repeat constructor.
Qed.

(** C39: no access outside a buffer in any schedule of an honest run. *)
Theorem C39_one_of_many_stays_in_bounds : forall sha fill p p' cores keys bootS bootR messages d choice,
  generator fill -> ot_correct key_pairs bootS bootR -> key_pairs keys -> length keys = d ->
  length messages = (2 ^ d)%nat -> same_length messages -> choice < N.of_nat (2 ^ d)%nat -> fits cores d ->
  forall k c, steps k (initial (many_sender sha fill p cores keys bootS messages d) (many_receiver sha fill p' bootR choice d)) c ->
    left_ c <> Done UB /\ right_ c <> Done UB.
Proof.
  intros sha fill p p' cores keys bootS bootR messages d choice Hf Hb Hk Lk Lm Sm Hc Hfit.
  destruct (C42_one_of_many_correct sha fill p p' cores keys bootS bootR messages d choice Hf Hb Hk Lk Lm Sm Hc Hfit) as (m & _ & R).
  apply (runs_safe _ _ _ _ R); discriminate.
Qed.
Print Assumptions C39_one_of_many_stays_in_bounds.

(** C40 is also false for the arguments of a safe function: an index of 2^d or more makes the
    receiver read outside of y, with an honest sender. *)
Theorem C40_large_index_is_read_out_of_bounds_refuted : forall sha fill p p' cores keys bootS bootR messages d choice,
  generator fill -> ot_correct key_pairs bootS bootR -> key_pairs keys -> length keys = d ->
  length messages = (2 ^ d)%nat -> same_length messages -> N.of_nat (2 ^ d)%nat <= choice -> fits cores d ->
  runs (many_sender sha fill p cores keys bootS messages d) (many_receiver sha fill p' bootR choice d) (Ok tt) UB.
Proof.
  intros sha fill p p' cores keys bootS bootR messages d choice Hf Hb Hk Lk Lm (s & Hs & Sm) Hc Hfit.
  assert (Hd : (d <= 32)%nat) by (destruct Hk; lia).
  apply (many_outside sha fill Hf p p' cores keys messages d s Hd Lk Hs Sm bootS bootR Hb Hk choice Hc); [lia|].
  now apply fits_guard.
Qed.
Print Assumptions C40_large_index_is_read_out_of_bounds_refuted.
Example large_index_example :
  runs (many_sender toy toy_gen Debug 4 (toy_keys 1) (co_sender toy toy_gen toy_curve Debug (fun _ => 1)) [[1]; [2]] 1)
       (many_receiver toy toy_gen Debug (co_receiver toy toy_gen toy_curve Debug (fun _ => 1)) 2 1) (Ok tt) UB.
Proof.
  apply C40_large_index_is_read_out_of_bounds_refuted; auto using toy_gen_ok; try reflexivity.
  - apply co_for_keys; [exact toy_gen_ok|exact toy_curve_ok].
  - apply toy_keys_ok. lia.
  - exists 1%nat. split; [lia|]. repeat constructor.
  - left. lia.
Qed.
