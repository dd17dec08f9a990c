(** C35, C37-C41, C60, C61: the OT extension of ot/apricot.rs. *)
From Coq Require Import List NArith Bool Lia Arith Permutation.
From Verif Require Import Base MUtil MBitMatrix MPoly MPar MBincode MProc MOt MApricot.
From Verif Require Import SpecUtil SpecPoly SpecBincode SpecOt SpecApricot SpecEvil PBase PPoly PPar PBincode PProc PHang POt PHangOt.
From Verif Require Import PApricotA PApricot PApricotRun PApricotRun2 PLinDep PApricotEvil CCircuit COt.
Import ListNotations.
Open Scope N_scope.

(** The two ends of a run with the coins [r] over a base OT. *)
Definition sender_with sha fill p a cores (r : coins) bootR :=
  ap_sender sha fill p a cores (coin_s r) (coin_delta r) bootR.
Definition receiver_with sha fill p a cores (r : coins) bootS :=
  ap_receiver sha fill p a cores (coin_r r) (coin_bonus r) (coin_seed0 r) (coin_seed1 r) bootS.

(** C35: for every correct base OT, whatever the coins, and whatever the build profile, target
    architecture and core count of each side, Apricot is a correct OT for a positive multiple of 8
    messages of equal size between 1 and 65535. *)
Theorem C35_extension_correct : forall sha fill p p' a a' cores cores' r bootS bootR,
  hash32 sha -> generator fill -> (1 <= cores)%nat -> (1 <= cores')%nat -> coins_ok r ->
  ot_correct seed_pairs bootS bootR ->
  ot_correct extension_ok (sender_with sha fill p a cores r bootR) (receiver_with sha fill p' a' cores' r bootS).
Proof.
  intros sha fill p p' a a' cores cores' [cu cv delta bonus seed0 seed1] bootS bootR Hs Hf Hc Hc' (H1 & H2 & H3 & H4 & H5 & H6) Hb.
  exact (ap_correct sha fill Hs Hf p p' a a' cores cores' Hc Hc' cu cv delta bonus seed0 seed1 H1 H2 H3 H4 H5 H6 bootS bootR Hb).
Qed.
Print Assumptions C35_extension_correct.

(** 128 pairs of seeds are a valid input of the base OT. *)
Lemma seed_pairs_payload msgs : seed_pairs msgs -> payload_ok msgs.
Proof.
  intros [L H]. split; [rewrite L; reflexivity|]. eapply Forall_impl; [|exact H].
  intros m [[L0 B0] [L1 B1]]. repeat split; auto; unfold usize_ok; try rewrite L0; try rewrite L1; reflexivity.
Qed.

(** C35: in particular over the base OT of the crate, as the protocols use it. *)
Theorem C35_extension_over_base_OT : forall sha fill gen G p p' a a' cores cores' r rs rr,
  hash32 sha -> generator fill -> generator gen -> curve_ok G -> (1 <= cores)%nat -> (1 <= cores')%nat -> coins_ok r ->
  ot_correct extension_ok
    (sender_with sha fill p a cores r (co_receiver sha gen G p rs))
    (receiver_with sha fill p' a' cores' r (co_sender sha gen G p' rr)).
Proof.
  intros sha fill gen G p p' a a' cores cores' r rs rr Hs Hf Hg HG Hc Hc' Hr.
  apply C35_extension_correct; auto. intros msgs cs L H.
  exact (co_runs sha gen G Hg HG p' p rr rs msgs cs L (seed_pairs_payload msgs H)).
Qed.
Print Assumptions C35_extension_over_base_OT.

(** Coins meeting [coins_ok]. *)
Definition toy_coins : coins := mkCoins (repeat 0 32) (repeat 0 32) (1 :: repeat 0 15) (repeat false 255 ++ [true])
  (repeat (repeat 7 32) 128) (repeat (repeat 9 32) 128).
Lemma repeat_ok x n : x < 256 -> bytes_ok (repeat x n).
Proof. intros H. apply Forall_forall. intros y Hy. apply repeat_spec in Hy. now subst. Qed.
Lemma toy_coins_ok : coins_ok toy_coins.
Proof.
  repeat split; try reflexivity; cbn [toy_coins coin_s coin_r coin_delta coin_seed0 coin_seed1].
  - now apply repeat_ok.
  - now apply repeat_ok.
  - constructor; [reflexivity|now apply repeat_ok].
  - apply Forall_forall. intros y Hy. apply repeat_spec in Hy. subst. split; [reflexivity|now apply repeat_ok].
  - apply Forall_forall. intros y Hy. apply repeat_spec in Hy. subst. split; [reflexivity|now apply repeat_ok].
Qed.
Example extension_example :
  let msgs := repeat ([1; 2; 3], [4; 5; 6]) 16 in
  let cs := [true; false; true; false; true; false; true; false; true; false; true; false; true; false; true; false] in
  exists out, runs (sender_with toy toy_gen Release X86 5 toy_coins (co_receiver toy toy_gen toy_curve Release (fun _ => 1)) msgs)
                   (receiver_with toy toy_gen Debug ARM64 3 toy_coins (co_sender toy toy_gen toy_curve Debug (fun _ => 1)) cs)
                   (Ok tt) (Ok out) /\ nth 0 out [] = [4; 5; 6] /\ nth 1 out [] = [1; 2; 3].
Proof.
  intros msgs cs.
  destruct (C35_extension_over_base_OT toy toy_gen toy_gen toy_curve Release Debug X86 ARM64 5 3 toy_coins (fun _ => 1) (fun _ => 1)
    toy_hash32 toy_gen_ok toy_gen_ok toy_curve_ok ltac:(lia) ltac:(lia) toy_coins_ok msgs cs eq_refl) as (out & R & L & S).
  { split; [reflexivity|]. split; [cbn; lia|]. split; [reflexivity|]. exists 3%nat. split; [lia|]. split; [reflexivity|]. repeat constructor. }
  exists out. split; [exact R|]. split; apply nth_error_nth.
  - exact (S 0%nat _ _ eq_refl eq_refl).
  - exact (S 1%nat _ _ eq_refl eq_refl).
Qed.

(** *** C37 *)
(** C37 is false in release builds: a receiver that sends any u and x_sum of the right size and an
    EMPTY t_sum is accepted, for every delta. *)
Theorem C37_empty_t_sum_accepted_refuted : forall sha fill a cores r bootS bootR msgs s u x_sum,
  generator fill -> (1 <= cores)%nat -> coins_ok r -> ot_correct seed_pairs bootS bootR ->
  usize_ok (length msgs) -> (1 <= length msgs)%nat -> (length msgs mod 8 = 0)%nat -> (1 <= s)%nat -> equal_sized s msgs ->
  length u = ((length msgs + 256) / 8 * 128)%nat -> bytes_ok u -> array_ok 16 x_sum ->
  exists d, runs (sender_with sha fill Release a cores r bootR msgs)
    (evil_receiver sha (coin_r r) (coin_seed0 r) (coin_seed1 r) bootS (length msgs) (fun _ => (u, x_sum, [])))
    (Ok tt) (Ok d).
Proof.
  intros sha fill a cores [cu cv delta bonus seed0 seed1] bootS bootR msgs s u x_sum Hf Hc (H1 & H2 & H3 & H4 & H5 & H6) Hb Un Hn H8 Hs Sz Lu Bu Hx.
  exact (empty_t_sum sha fill Hf Release a cores Hc cu cv seed0 seed1 H1 H2 H5 H6 bootS bootR Hb msgs s Un Hn H8 Hs Sz u x_sum eq_refl Lu Bu Hx delta H3).
Qed.
Print Assumptions C37_empty_t_sum_accepted_refuted.

(** C37 holds for debug builds: the check accepts only a t_sum of 16 bytes equal to
    q_sum + x_sum * delta in GF(2^128). *)
Theorem C37_debug_check_is_complete : forall a q delta x t,
  elem q -> elem delta -> bytes_ok x -> bytes_ok t ->
  sender_check Debug a q delta x t 16 = Ok tt ->
  length t = 16%nat /\ le_value t = N.lxor (le_value q) (gmul (le_value x) (le_value delta)).
Proof. exact check_debug. Qed.
Print Assumptions C37_debug_check_is_complete.

Example debug_check_example :
  sender_check Debug X86 (5 :: repeat 0 15) (1 :: repeat 0 15) (3 :: repeat 0 15) (6 :: repeat 0 15) 16 = Ok tt /\
  sender_check Debug X86 (5 :: repeat 0 15) (1 :: repeat 0 15) (3 :: repeat 0 15) (7 :: repeat 0 15) 16 = Err ECorrelation /\
  sender_check Debug X86 (5 :: repeat 0 15) (1 :: repeat 0 15) (3 :: repeat 0 15) [] 16 = Panic PAssert /\
  sender_check Release X86 (5 :: repeat 0 15) (1 :: repeat 0 15) (3 :: repeat 0 15) [] 16 = Ok tt.
Proof. vm_compute. auto. Qed.
Example release_check_example :
  exists d, runs (sender_with toy toy_gen Release X86 4 toy_coins (co_receiver toy toy_gen toy_curve Release (fun _ => 1)) (repeat ([1], [2]) 8))
    (evil_receiver toy (coin_r toy_coins) (coin_seed0 toy_coins) (coin_seed1 toy_coins) (co_sender toy toy_gen toy_curve Release (fun _ => 1)) 8
       (fun _ => (repeat 77 (33 * 128), repeat 78 16, []))) (Ok tt) (Ok d).
Proof.
  apply (C37_empty_t_sum_accepted_refuted toy toy_gen X86 4 toy_coins _ _ (repeat ([1], [2]) 8) 1); auto using toy_gen_ok, toy_coins_ok; try reflexivity; try (cbn; lia).
  - intros msgs cs L H. exact (co_runs toy toy_gen toy_curve toy_gen_ok toy_curve_ok Release Release (fun _ => 1) (fun _ => 1) msgs cs L (seed_pairs_payload msgs H)).
  - repeat constructor.
  - now apply repeat_ok.
  - split; [reflexivity|now apply repeat_ok].
Qed.

(** *** C38 *)
(** C38 is false: the weights of the check come from a coin flip that is over before u is sent.  For
    every result of the coin flip there is an inconsistent u, and sums, that the sender accepts
    whatever its delta is. *)
Theorem C38_inconsistent_matrix_always_accepted_refuted : forall sha fill p a cores cu cv seed0 seed1 bootS bootR msgs s,
  generator fill -> (1 <= cores)%nat -> array_ok 32 cu -> array_ok 32 cv -> seeds_ok seed0 -> seeds_ok seed1 ->
  ot_correct seed_pairs bootS bootR ->
  usize_ok (length msgs) -> (1 <= length msgs)%nat -> (length msgs mod 8 = 0)%nat -> (1 <= s)%nat -> equal_sized s msgs ->
  let w := ((length msgs + 256) / 8)%nat in
  exists u x_sum t_sum, length u = (w * 128)%nat /\ length x_sum = 16%nat /\ length t_sum = 16%nat /\
    ~ consistent_u fill seed0 seed1 w u /\
    forall delta, array_ok 16 delta ->
    exists d, runs (ap_sender sha fill p a cores cu delta bootR msgs)
      (evil_receiver sha cv seed0 seed1 bootS (length msgs) (fun _ => (u, x_sum, t_sum))) (Ok tt) (Ok d).
Proof.
  intros sha fill p a cores cu cv seed0 seed1 bootS bootR msgs s Hf Hc H1 H2 H5 H6 Hb Un Hn H8 Hs Sz.
  exact (undetected sha fill Hf p a cores Hc cu cv seed0 seed1 H1 H2 H5 H6 bootS bootR Hb msgs s Un Hn H8 Hs Sz).
Qed.
Print Assumptions C38_inconsistent_matrix_always_accepted_refuted.

(** The honest u is consistent, so the notion is not empty. *)
Example consistent_example : consistent_u toy_gen (repeat (repeat 7 32) 128) (repeat (repeat 9 32) 128) 2 (repeat (N.lxor 97 99) 256).
Proof.
  exists [0; 0]. split; [reflexivity|]. intros j Hj. unfold u_row_of.
  assert (E : forall s : bytes, nth j (repeat s 128) [] = s) by (intros s; rewrite (nth_indep _ [] s) by (now rewrite repeat_length); apply nth_repeat).
  rewrite !E. cbn [toy_gen hd repeat zipWith].
  do 128 (destruct j as [|j]; [reflexivity|]). lia.
Qed.

(** *** C39 *)
(** C39: in every schedule of an honest run, with any number of messages of any positive common size,
    neither side makes an access outside a buffer.  (Debug builds stop at once unless the number of
    messages is a multiple of 8.) *)
Theorem C39_extension_stays_in_bounds : forall sha fill p p' a a' cores cores' r bootS bootR msgs cs s,
  hash32 sha -> generator fill -> (1 <= cores)%nat -> (1 <= cores')%nat -> coins_ok r ->
  ot_correct seed_pairs bootS bootR -> (forall ms, hangup (bootS ms)) -> (forall bs, hangup (bootR bs)) ->
  length cs = length msgs -> usize_ok (length msgs) -> (1 <= length msgs)%nat ->
  (p = Release /\ p' = Release \/ length msgs mod 8 = 0)%nat -> (1 <= s)%nat -> equal_sized s msgs ->
  forall k c, steps k (initial (sender_with sha fill p a cores r bootR msgs) (receiver_with sha fill p' a' cores' r bootS cs)) c ->
    left_ c <> Done UB /\ right_ c <> Done UB.
Proof.
  intros sha fill p p' a a' cores cores' [cu cv delta bonus seed0 seed1] bootS bootR msgs cs s Hs Hf Hc Hc' (H1 & H2 & H3 & H4 & H5 & H6) Hb HbS HbR Lc Un Hn H8 Hs1 Sz.
  unfold sender_with, receiver_with. cbn [coin_s coin_r coin_delta coin_bonus coin_seed0 coin_seed1] in *.
  set (S := ap_sender _ _ _ _ _ _ _ _ _). set (R := ap_receiver _ _ _ _ _ _ _ _ _ _ _).
  assert (K : exists oa ob, linked (initial S R) oa ob /\ oa <> UB /\ ob <> UB).
  { destruct (safe_end sha fill Hs Hf p p' a a' cores cores' Hc Hc' cu cv delta bonus seed0 seed1 H1 H2 H3 H4 H5 H6 bootS bootR Hb
      msgs cs s Lc Un Hn H8 Hs1 Sz) as (c & oa & ob & Hr & Hl & Na & Nb).
    exists oa, ob. split; [|split; auto]. eapply reach_linked; eauto. }
  destruct K as (oa & ob & (la & lb & L & Rr) & Na & Nb).
  apply (safe_pair S R oa ob la lb); auto; [now apply hang_ap_sender|now apply hang_ap_receiver].
Qed.
Print Assumptions C39_extension_stays_in_bounds.

(** The base OT of the crate meets the assumptions on the base OT. *)
Example base_OT_hangs_up : (forall ms, hangup (co_sender toy toy_gen toy_curve Debug (fun _ => 1) ms)) /\
  (forall bs, hangup (co_receiver toy toy_gen toy_curve Debug (fun _ => 1) bs)).
Proof. split; intros; [apply hang_co_sender|apply hang_co_receiver]. Qed.

(** *** C40 *)
(** C40 is false: a u that is too short makes the sender read outside of it, in both profiles,
    whenever the first bit of delta is set. *)
Theorem C40_short_u_is_read_out_of_bounds_refuted : forall sha fill p a cores r bootS bootR msgs s u x_sum t_sum,
  generator fill -> (1 <= cores)%nat -> coins_ok r -> ot_correct seed_pairs bootS bootR ->
  usize_ok (length msgs) -> (1 <= length msgs)%nat -> (length msgs mod 8 = 0)%nat -> (1 <= s)%nat -> equal_sized s msgs ->
  bit_of (coin_delta r) 0 = true -> (length u < (length msgs + 256) / 8)%nat ->
  exists q, reach (initial (sender_with sha fill p a cores r bootR msgs)
      (evil_receiver sha (coin_r r) (coin_seed0 r) (coin_seed1 r) bootS (length msgs) (fun _ => (u, x_sum, t_sum))))
    (Cfg (Done UB) q [] []).
Proof.
  intros sha fill p a cores [cu cv delta bonus seed0 seed1] bootS bootR msgs s u x_sum t_sum Hf Hc (H1 & H2 & H3 & H4 & H5 & H6) Hb Un Hn H8 Hs Sz B Lu.
  exact (short_u sha fill Hf p a cores Hc cu cv seed0 seed1 H1 H2 H5 H6 bootS bootR Hb msgs s Un Hn H8 Hs Sz x_sum t_sum delta u H3 B Lu).
Qed.
Print Assumptions C40_short_u_is_read_out_of_bounds_refuted.

(** C40: so does a short x_sum in release builds, for every delta. *)
Theorem C40_short_x_sum_is_read_out_of_bounds_refuted : forall sha fill a cores r bootS bootR msgs s u x_sum t_sum,
  generator fill -> (1 <= cores)%nat -> coins_ok r -> ot_correct seed_pairs bootS bootR ->
  usize_ok (length msgs) -> (1 <= length msgs)%nat -> (length msgs mod 8 = 0)%nat -> (1 <= s)%nat -> equal_sized s msgs ->
  length u = ((length msgs + 256) / 8 * 128)%nat -> bytes_ok u -> (length x_sum < 16)%nat ->
  exists q, reach (initial (sender_with sha fill Release a cores r bootR msgs)
      (evil_receiver sha (coin_r r) (coin_seed0 r) (coin_seed1 r) bootS (length msgs) (fun _ => (u, x_sum, t_sum))))
    (Cfg (Done UB) q [] []).
Proof.
  intros sha fill a cores [cu cv delta bonus seed0 seed1] bootS bootR msgs s u x_sum t_sum Hf Hc (H1 & H2 & H3 & H4 & H5 & H6) Hb Un Hn H8 Hs Sz Lu Bu Lx.
  exact (short_x_sum sha fill Hf Release a cores Hc cu cv seed0 seed1 H1 H2 H5 H6 bootS bootR Hb msgs s Un Hn H8 Hs Sz x_sum t_sum delta u eq_refl H3 Lu Bu Lx).
Qed.
Print Assumptions C40_short_x_sum_is_read_out_of_bounds_refuted.

(** C40: and short seeds in the base OT are read outside of, whatever delta is, in both profiles. *)
Theorem C40_short_seeds_are_read_out_of_bounds_refuted : forall sha fill cv p p' a cores cu coin delta xs ys seed0 seed1 msgs reply,
  generator fill -> curve_ok cv -> array_ok 32 cu -> array_ok 32 coin -> array_ok 16 delta ->
  length seed0 = 128%nat -> length seed1 = 128%nat -> payload_ok (combine seed0 seed1) ->
  (length (nth 0 seed0 []) < 32)%nat -> (length (nth 0 seed1 []) < 32)%nat ->
  usize_ok (length msgs) -> (1 <= length msgs)%nat -> (length msgs mod 8 = 0)%nat ->
  exists q, reach (initial (ap_sender sha fill p a cores cu delta (co_receiver sha fill cv p xs) msgs)
      (evil_receiver sha coin seed0 seed1 (co_sender sha fill cv p' ys) (length msgs) reply))
    (Cfg (Done UB) q [] []).
Proof.
  intros sha fill cv p p' a cores cu coin delta xs ys seed0 seed1 msgs reply Hf Hcv Hcu Hco Hd L0 L1 Hp S0 S1 Un Hn H8.
  apply (short_seeds sha fill p a cores cu coin delta seed0 seed1 Hcu Hco Hd payload_ok); auto.
  - intros ms cs L H. exact (co_runs sha fill cv Hf Hcv p' p ys xs ms cs L H).
  - destruct (bit_of delta 0); assumption.
Qed.
Print Assumptions C40_short_seeds_are_read_out_of_bounds_refuted.
Example short_seeds_example : forall p, exists q,
  reach (initial (ap_sender toy toy_gen p X86 4 (coin_s toy_coins) (coin_delta toy_coins) (co_receiver toy toy_gen toy_curve p (fun _ => 1)) (repeat ([1], [2]) 8))
    (evil_receiver toy (coin_r toy_coins) (repeat [7] 128) (repeat [9] 128) (co_sender toy toy_gen toy_curve p (fun _ => 1)) 8
       (fun _ => ([], [], [])))) (Cfg (Done UB) q [] []).
Proof.
  intros p. destruct toy_coins_ok as (H1 & H2 & H3 & H4 & H5 & H6).
  apply (C40_short_seeds_are_read_out_of_bounds_refuted toy toy_gen toy_curve p p X86 4 _ _ _ _ _ (repeat [7] 128) (repeat [9] 128) (repeat ([1], [2]) 8));
    auto using toy_gen_ok, toy_curve_ok; try reflexivity; try (cbn; lia).
  split; [unfold usize_ok; cbn; lia|]. repeat constructor; cbn; unfold usize_ok; cbn; lia.
Qed.

Lemma toy_base p p' : ot_correct seed_pairs (co_sender toy toy_gen toy_curve p (fun _ => 1)) (co_receiver toy toy_gen toy_curve p' (fun _ => 1)).
Proof. intros msgs cs L H. exact (co_runs toy toy_gen toy_curve toy_gen_ok toy_curve_ok p p' (fun _ => 1) (fun _ => 1) msgs cs L (seed_pairs_payload msgs H)). Qed.
Example short_u_example : forall p, exists q,
  reach (initial (sender_with toy toy_gen p X86 4 toy_coins (co_receiver toy toy_gen toy_curve p (fun _ => 1)) (repeat ([1], [2]) 8))
    (evil_receiver toy (coin_r toy_coins) (coin_seed0 toy_coins) (coin_seed1 toy_coins) (co_sender toy toy_gen toy_curve p (fun _ => 1)) 8
       (fun _ => ([], [], [])))) (Cfg (Done UB) q [] []).
Proof.
  intros p. apply (C40_short_u_is_read_out_of_bounds_refuted toy toy_gen p X86 4 toy_coins _ _ (repeat ([1], [2]) 8) 1);
    auto using toy_gen_ok, toy_coins_ok, toy_base; try reflexivity; try (cbn; lia).
  repeat constructor.
Qed.

(** *** C41 *)
(** C41: [work i row] is the code that replaces row [i] of a buffer of [rows] rows of [w] bytes; it may
    depend on its own row only.  Splitting the rows as apricot.rs does (chunks of
    rows / pick_suitable_thread_count rows, chunk number and position giving the row index back) has
    the result of the sequential loop, and so has every order of the row writes. *)
Theorem C41_workers : forall cores rows w buf work g,
  (1 <= cores)%nat -> (1 <= rows)%nat -> (1 <= w)%nat -> length buf = (w * rows)%nat ->
  (forall i, (i < rows)%nat -> work i (firstn w (skipn (w * i) buf)) = Ok (g i) /\ length (g i) = w) ->
  exists threads per_chunk out,
    pick_suitable_thread_count cores rows = Ok threads /\ udiv rows threads = Ok per_chunk /\
    (forall i, (i < rows)%nat -> firstn w (skipn (w * i) out) = g i) /\ length out = (w * rows)%nat /\
    par_rows w per_chunk buf work = Ok out /\
    update_rows buf rows w work = Ok out /\
    forall order, Permutation order (seq 0 rows) -> foldM (row_step w work) order buf = Ok out.
Proof.
  intros cores rows w buf work g Hc Hr Hw L H.
  destruct (rows_in_chunk_ok cores rows Hc Hr) as (tc & k & E & Ek & Hk).
  exists tc, k, (concat (map g (seq 0 rows))).
  split; [exact E|]. split; [exact Ek|].
  split. { intros i Hi. apply (frow_concat w g rows); auto. intros j Hj. now apply H. }
  split. { rewrite (concat_length_w w); auto. intros j Hj. now apply H. }
  split; [now apply par_rows_ok|].
  assert (A : forall order, Permutation order (seq 0 rows) -> foldM (row_step w work) order buf = Ok (concat (map g (seq 0 rows)))).
  { intros order P. now apply any_order. }
  split; [apply A, Permutation_refl|exact A].
Qed.
Print Assumptions C41_workers.

Example workers_example :
  par_rows 2 2 [1; 2; 3; 4; 5; 6; 7; 8; 9; 10] (fun i row => Ok (map (fun b => b + N.of_nat i) row)) = Ok [1; 2; 4; 5; 7; 8; 10; 11; 13; 14] /\
  pick_suitable_thread_count 2 5 = Ok 2%nat /\
  foldM (row_step 2 (fun i row => Ok (map (fun b => b + N.of_nat i) row))) [3; 0; 4; 2; 1]%nat [1; 2; 3; 4; 5; 6; 7; 8; 9; 10] = Ok [1; 2; 4; 5; 7; 8; 10; 11; 13; 14].
Proof. vm_compute. auto. Qed.

(** *** C60 *)
(** C60 is false: with messages of 65536 bytes or more (announced as a 16-bit number) the sender
    succeeds and the receiver panics. *)
Theorem C60_large_messages_panic_refuted : forall sha fill p p' a a' cores cores' r bootS bootR msgs cs s,
  hash32 sha -> generator fill -> (1 <= cores)%nat -> (1 <= cores')%nat -> coins_ok r ->
  ot_correct seed_pairs bootS bootR ->
  length cs = length msgs -> usize_ok (length msgs) -> (1 <= length msgs)%nat -> (length msgs mod 8 = 0)%nat ->
  2 ^ 16 <= N.of_nat s -> equal_sized s msgs ->
  exists reason, runs (sender_with sha fill p a cores r bootR msgs) (receiver_with sha fill p' a' cores' r bootS cs) (Ok tt) (Panic reason).
Proof.
  intros sha fill p p' a a' cores cores' [cu cv delta bonus seed0 seed1] bootS bootR msgs cs s Hs Hf Hc Hc' (H1 & H2 & H3 & H4 & H5 & H6) Hb Lc Un Hn H8 Hl Sz.
  exact (ap_large sha fill Hs Hf p p' a a' cores cores' Hc Hc' cu cv delta bonus seed0 seed1 H1 H2 H3 H4 H5 H6 bootS bootR Hb msgs cs s Lc Un Hn H8 Hl Sz).
Qed.
Print Assumptions C60_large_messages_panic_refuted.
Example large_example : exists reason,
  runs (sender_with toy toy_gen Release X86 4 toy_coins (co_receiver toy toy_gen toy_curve Release (fun _ => 1))
         (repeat (repeat 1 (N.to_nat 65536), repeat 2 (N.to_nat 65536)) 8))
       (receiver_with toy toy_gen Release X86 4 toy_coins (co_sender toy toy_gen toy_curve Release (fun _ => 1)) (repeat true 8))
       (Ok tt) (Panic reason).
Proof.
  apply (C60_large_messages_panic_refuted toy toy_gen Release Release X86 X86 4 4 toy_coins _ _ _ (repeat true 8) (N.to_nat 65536));
    try exact toy_hash32; auto using toy_gen_ok, toy_coins_ok, toy_base; try reflexivity; try (cbn [length repeat]; lia).
  unfold equal_sized. apply Forall_forall. intros m Hm. apply repeat_spec in Hm. subst. cbn [fst snd]. now rewrite !repeat_length.
Qed.

(** *** C61 *)
(** C61 is false: if the number of messages is not a multiple of 8, the sender aborts an honest run
    with a correlation error for (at least) these coins: last extra choice set, delta = 1. *)
Theorem C61_honest_release_run_aborts_refuted : forall sha fill a a' cores cores' cu cv seed0 seed1 bootS bootR msgs cs s,
  hash32 sha -> generator fill -> (1 <= cores)%nat -> (1 <= cores')%nat ->
  let r := mkCoins cu cv (1 :: repeat 0 15) (repeat false 255 ++ [true]) seed0 seed1 in
  coins_ok r -> ot_correct seed_pairs bootS bootR ->
  length cs = length msgs -> usize_ok (length msgs) -> (1 <= length msgs)%nat -> (length msgs mod 8 <> 0)%nat ->
  (1 <= s)%nat -> N.of_nat s < 2 ^ 16 -> equal_sized s msgs ->
  le_value (firstn 16 (skipn (16 * (length msgs + 255))%nat (fill (xor_arrays cv cu) (16 * (length msgs + 256))%nat))) <> 0 ->
  let S := sender_with sha fill Release a cores r bootR msgs in
  let R := receiver_with sha fill Release a' cores' r bootS cs in
  (exists q, reach (initial S R) (Cfg (Done (Err ECorrelation)) q [] [])) /\
  forall o ob, ~ runs S R (Ok o) ob.
Proof.
  intros sha fill a a' cores cores' cu cv seed0 seed1 bootS bootR msgs cs s Hs Hf Hc Hc' r (H1 & H2 & H3 & H4 & H5 & H6) Hb Lc Un Hn H8 Hs1 Hs2 Sz Nz S R.
  destruct (ap_run sha fill Hs Hf Release Release a a' cores cores' Hc Hc' cu cv (1 :: repeat 0 15) (repeat false 255 ++ [true]) seed0 seed1 H1 H2 H3 H4 H5 H6 bootS bootR Hb
    msgs cs s Lc Un Hn (or_introl (conj eq_refl eq_refl)) Hs1 Hs2 Sz) as [_ K].
  destruct K as (q & K & _).
  { change (le_value (1 :: repeat 0 15)) with 1. rewrite (last_dropped fill cores cores' Hc Hc' cu cv (repeat false 255 ++ [true]) H4 cs) by congruence. rewrite Lc. rewrite gmul_1; [exact Nz|].
    apply (rowv_lt _ _ (length msgs + 256)); [apply Hf|apply Hf|lia]. }
  split; [now exists q|]. intros o ob Hrun. pose proof (reach_done_left S R _ _ _ _ _ _ K Hrun). discriminate.
Qed.
Print Assumptions C61_honest_release_run_aborts_refuted.

(** C61: what exactly happens: the choices beyond the last full byte are left out of the matrix but
    not of the sum; the run succeeds if and only if their weighted sum times delta is 0. *)
Theorem C61_release_outcome : forall sha fill a a' cores cores' r bootS bootR msgs cs s,
  hash32 sha -> generator fill -> (1 <= cores)%nat -> (1 <= cores')%nat ->
  coins_ok r -> ot_correct seed_pairs bootS bootR ->
  length cs = length msgs -> usize_ok (length msgs) -> (1 <= length msgs)%nat ->
  (1 <= s)%nat -> N.of_nat s < 2 ^ 16 -> equal_sized s msgs ->
  let S := sender_with sha fill Release a cores r bootR msgs in
  let R := receiver_with sha fill Release a' cores' r bootS cs in
  let lost := dropped fill (coin_s r) (coin_r r) (coin_bonus r) cs in
  (gmul lost (le_value (coin_delta r)) = 0 -> exists out, runs S R (Ok tt) (Ok out) /\ is_selection msgs cs out) /\
  (gmul lost (le_value (coin_delta r)) <> 0 -> forall o ob, ~ runs S R (Ok o) ob).
Proof.
  intros sha fill a a' cores cores' [cu cv delta bonus seed0 seed1] bootS bootR msgs cs s Hs Hf Hc Hc' (H1 & H2 & H3 & H4 & H5 & H6) Hb Lc Un Hn Hs1 Hs2 Sz S R lost.
  destruct (ap_run sha fill Hs Hf Release Release a a' cores cores' Hc Hc' cu cv delta bonus seed0 seed1 H1 H2 H3 H4 H5 H6 bootS bootR Hb
    msgs cs s Lc Un Hn (or_introl (conj eq_refl eq_refl)) Hs1 Hs2 Sz) as [K K'].
  split; [exact K|]. intros N o ob Hrun. destruct (K' N) as (q & Kq & _).
  pose proof (reach_done_left S R _ _ _ _ _ _ Kq Hrun). discriminate.
Qed.
Print Assumptions C61_release_outcome.

Example abort_example :
  let S := sender_with toy toy_gen Release X86 4 toy_coins (co_receiver toy toy_gen toy_curve Release (fun _ => 1)) [([1], [2])] in
  let R := receiver_with toy toy_gen Release X86 4 toy_coins (co_sender toy toy_gen toy_curve Release (fun _ => 1)) [true] in
  forall o ob, ~ runs S R (Ok o) ob.
Proof.
  apply (C61_honest_release_run_aborts_refuted toy toy_gen X86 X86 4 4 (repeat 0 32) (repeat 0 32) (repeat (repeat 7 32) 128) (repeat (repeat 9 32) 128)
    _ _ [([1], [2])] [true] 1); try exact toy_hash32; auto using toy_gen_ok, toy_coins_ok, toy_base; try reflexivity; try (cbn [length]; lia).
  - repeat constructor.
  - vm_compute. discriminate.
Qed.
