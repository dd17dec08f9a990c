(** Facts about 1-of-n OT. *)
From Coq Require Import List NArith Bool Lia Arith.
From Verif Require Import Base MUtil MPar MBincode MProc MOt MMany.
From Verif Require Import SpecUtil SpecBincode SpecOt SpecMany PBase PUtil PPar PProc POt PBitMatrix PApricotA.
Import ListNotations.
Open Scope N_scope.

Lemma pow2_pos d : (1 <= 2 ^ d)%nat.
Proof. induction d; cbn; lia. Qed.
Lemma shl_ok p d : (d <= 32)%nat -> shl_one p d = Ok (2 ^ d)%nat.
Proof. intros H. unfold shl_one. now rewrite (proj2 (Nat.ltb_lt _ _)) by lia. Qed.

(** A sequence of masks. *)
Definition masked (h : nat -> bytes) (js : list nat) (m : bytes) : bytes := fold_left (fun acc j => zipWith N.lxor acc (h j)) js m.
Lemma masked_length h js : forall m, (forall j, In j js -> length (h j) = length m) -> length (masked h js m) = length m.
Proof.
  induction js as [|j js IH]; intros m H; cbn; auto.
  assert (E : length (zipWith N.lxor m (h j)) = length m) by (rewrite zipWith_length, (H j) by (now left); apply Nat.min_id).
  unfold masked in IH. rewrite IH; [exact E|]. intros k Hk. rewrite E. apply H. now right.
Qed.
Lemma xor_swap (a b c : bytes) : zipWith N.lxor (zipWith N.lxor a b) c = zipWith N.lxor (zipWith N.lxor a c) b.
Proof.
  revert b c; induction a as [|x a IH]; intros [|y b] [|z c]; cbn; auto. f_equal; [|apply IH].
  rewrite !N.lxor_assoc. f_equal. apply N.lxor_comm.
Qed.
Lemma masked_swap h js : forall m b, masked h js (zipWith N.lxor m b) = zipWith N.lxor (masked h js m) b.
Proof.
  induction js as [|j js IH]; intros m b; cbn; auto. unfold masked in IH. rewrite xor_swap. apply IH.
Qed.
Lemma masked_twice h js : forall m, (forall j, In j js -> length (h j) = length m) -> masked h js (masked h js m) = m.
Proof.
  induction js as [|j js IH]; intros m H; cbn; auto.
  change (masked h js (zipWith N.lxor (masked h js (zipWith N.lxor m (h j))) (h j)) = m).
  rewrite masked_swap, masked_swap. rewrite masked_swap.
  rewrite IH by (intros; apply H; now right).
  apply zipWith_xor_twice. symmetry. apply H. now left.
Qed.

Lemma lift_step {A B} (o : outcome A) a (f : A -> proc B) x : o = Ok a -> f a = x -> pbind (lift o) f = x.
Proof. intros ->. auto. Qed.

Section Many.
Variable sha : bytes -> bytes.
Variable fill : bytes -> nat -> bytes.
Hypothesis fill_ok : generator fill.
Variables (p p' : profile) (cores : nat).
Variables (keys : list (bytes * bytes)) (messages : list bytes) (d s : nat).
Hypothesis d_ok : (d <= 32)%nat.
Hypothesis keys_len : length keys = d.
Hypothesis s_pos : (1 <= s)%nat.
Hypothesis messages_s : Forall (fun m : bytes => length m = s) messages.

Definition hide (i j : nat) : bytes :=
  fk sha fill (if N.testbit (N.of_nat i) (N.of_nat j) then snd (nth j keys ([], [])) else fst (nth j keys ([], []))) (N.of_nat i) s.
Definition Y (i : nat) : bytes := masked (hide i) (seq 0 d) (nth i messages []).
Lemma hide_len i j : length (hide i j) = s.
Proof. apply fill_ok. Qed.
Lemma msg_len i : (i < length messages)%nat -> length (nth i messages []) = s.
Proof. intros H. now apply (Forall_nth_in _ messages i [] messages_s). Qed.
Lemma Y_len i : (i < length messages)%nat -> length (Y i) = s.
Proof. intros H. unfold Y. rewrite masked_length; [now apply msg_len|]. intros j _. now rewrite hide_len, msg_len. Qed.

Lemma loop_masked q h js : forall m, (forall j, In j js -> length (h j) = length m) ->
  foldM (fun x j => xor_bytes_inplace q x (h j)) js m = Ok (masked h js m).
Proof.
  induction js as [|j js IH]; intros m H; cbn [foldM]; auto.
  assert (L : length m = length (h j)) by (symmetry; apply H; now left).
  rewrite xor_bytes_inplace_ok by exact L. cbn [obind]. rewrite IH; [reflexivity|].
  intros k Hk. rewrite zipWith_length, <- L, Nat.min_id. apply H. now right.
Qed.
Lemma foldM_ext {A S} (f g : S -> A -> outcome S) l : forall x, (forall s a, In a l -> f s a = g s a) -> foldM f l x = foldM g l x.
Proof.
  induction l as [|a l IH]; intros x H; cbn [foldM]; auto. rewrite (H x a) by (now left).
  destruct (g x a); cbn; auto. apply IH. intros; apply H. now right.
Qed.

Lemma row_ok i : (i < length messages)%nat -> (i < 2 ^ d)%nat ->
  many_row sha fill p keys messages d s i (repeat 0 s) = Ok (Y i).
Proof.
  intros Hi Hd. unfold many_row. rewrite (idx_lt messages i []) by exact Hi. cbn [obind].
  rewrite xor_bytes_inplace_ok by (rewrite repeat_length, msg_len; auto). cbn [obind].
  replace (zipWith N.lxor (repeat 0 s) (nth i messages [])) with (nth i messages []).
  2: { symmetry. rewrite <- (msg_len i Hi). apply zip_zeros_l. }
  assert (B : N.of_nat i < 2 ^ 32).
  { assert (2 ^ d <= 2 ^ 32)%nat by (apply Nat.pow_le_mono_r; lia).
    apply N.lt_le_trans with (N.of_nat (2 ^ 32)%nat); [lia|]. rewrite Nat2N.inj_pow. reflexivity. }
  rewrite N.mod_small by exact B.
  rewrite (foldM_ext _ (fun x j => xor_bytes_inplace p x (hide i j))).
  - apply loop_masked. intros j _. rewrite hide_len, msg_len; auto.
  - intros x j Hj. apply in_seq in Hj. rewrite (idx_lt keys j ([], [])) by (rewrite keys_len; lia). cbn [obind].
    rewrite land1_testbit. unfold hide. destruct (N.testbit (N.of_nat i) (N.of_nat j)); reflexivity.
Qed.
Lemma row_fail i : (length messages <= i)%nat -> forall row, many_row sha fill p keys messages d s i row = Panic PIndex.
Proof. intros H row. unfold many_row, idx. now rewrite (proj2 (nth_error_None messages i) H). Qed.

(** *** Chunks of exactly k rows *)
Lemma chunk_sizes {A} k fuel : (1 <= k)%nat -> forall m (l : list A), length l = (k * m)%nat -> (length l <= fuel)%nat ->
  Forall (fun c => length c = k) (chunks_fuel fuel k l).
Proof.
  intros Hk. induction fuel as [|fuel IH]; intros m l L F; [constructor|].
  destruct l as [|x l0] eqn:El; [constructor|]. rewrite <- El in *. assert (l <> []) by (rewrite El; discriminate).
  rewrite chunks_cons by auto. destruct m as [|m]; [rewrite El in L; cbn in L; lia|]. constructor.
  - rewrite firstn_length. nia.
  - apply (IH m); rewrite skipn_length; nia.
Qed.
Let rows := (2 ^ d)%nat.
Let chunked (k : nat) : outcome bytes :=
  let* cs := chunks_mut (k * s) (repeat 0 (rows * s)) in
  let* rs := mapM (fun c : nat * bytes =>
        update_rows (snd c) k s (fun i row => many_row sha fill p keys messages d s (k * fst c + i) row))
      (enumerate cs) in
  Ok (concat rs).
Lemma chunked_ok k : (1 <= k)%nat -> (rows mod k = 0)%nat -> (rows <= length messages)%nat ->
  chunked k = Ok (concat (map Y (seq 0 rows))).
Proof.
  intros Hk Hm Hl. assert (E : rows = (k * (rows / k))%nat) by (apply Nat.div_exact; lia).
  assert (P : par_rows s k (repeat 0 (rows * s)) (many_row sha fill p keys messages d s) = Ok (concat (map Y (seq 0 rows)))).
  { apply par_rows_ok; auto. { rewrite repeat_length. lia. }
    intros i Hi. rewrite frow_zeros by nia. split; [apply row_ok; fold rows; lia|apply Y_len; lia]. }
  rewrite <- P. unfold chunked, par_rows, chunks_mut. rewrite (proj2 (Nat.eqb_neq _ _)) by nia. cbn [obind].
  match goal with |- context [mapM ?f (enumerate ?cs)] => set (l := cs) end.
  rewrite (mapM_ext _ (fun c : nat * bytes => update_rows (snd c) (length (snd c) / s) s (fun i row => many_row sha fill p keys messages d s (fst c * k + i) row))); [reflexivity|].
  intros [c ch] I. cbn [fst snd]. unfold enumerate in I. apply in_combine_r in I.
  assert (S : length ch = (k * s)%nat).
  { assert (F : Forall (fun c => length c = (k * s)%nat) l).
    { apply (chunk_sizes (k * s) _ ltac:(nia) (rows / k)); rewrite ?repeat_length; nia. }
    now apply (proj1 (Forall_forall _ _) F). }
  rewrite S, Nat.div_mul by lia. unfold update_rows. f_equal.
  now rewrite (Nat.mul_comm c k).
Qed.

(** *** A chunk with fewer than k rows is overrun *)
Lemma overrun w k (f : nat -> bytes -> outcome bytes) g r v : (1 <= w)%nat -> length v = (w * r)%nat -> (r < k)%nat ->
  (forall i, (i < r)%nat -> f i (frow w v i) = Ok (g i) /\ length (g i) = w) ->
  update_rows v k w f = UB.
Proof.
  intros Hw L H G. unfold update_rows. replace k with (r + (1 + (k - S r)))%nat by lia. rewrite seq_app, foldM_app.
  fold (update_rows v r w f). rewrite (update_rows_ok w r v f g L G). cbn [obind Nat.add seq foldM].
  unfold row_step, vector_row. rewrite (concat_length_w w) by (intros; apply G; lia).
  rewrite (proj2 (Nat.leb_gt _ _)) by nia. reflexivity.
Qed.
Lemma chunked_UB k : (1 <= k)%nat -> (rows mod k <> 0)%nat -> (rows <= length messages)%nat -> chunked k = UB.
Proof.
  intros Hk Hm Hl. unfold chunked, chunks_mut. rewrite (proj2 (Nat.eqb_neq _ _)) by nia. cbn [obind]. unfold enumerate.
  assert (K : forall fuel m c, (m <= fuel)%nat -> (m mod k <> 0)%nat -> (k * c + m <= rows)%nat ->
    mapM (fun c : nat * bytes => update_rows (snd c) k s (fun i row => many_row sha fill p keys messages d s (k * fst c + i) row))
     (combine (seq c (length (chunks_fuel fuel (k * s) (repeat 0 (m * s))))) (chunks_fuel fuel (k * s) (repeat 0 (m * s)))) = UB).
  { induction fuel as [|fuel IH]; intros m c F Z B.
    - assert (m = 0)%nat by lia. subst. rewrite Nat.mod_0_l in Z by lia. congruence.
    - assert (m <> 0)%nat by (intros ->; rewrite Nat.mod_0_l in Z by lia; congruence).
      rewrite chunks_cons. 2: { intros E. apply (f_equal (@length _)) in E. rewrite repeat_length in E. cbn in E. nia. }
      cbn [length seq combine mapM fst snd].
      destruct (Nat.lt_ge_cases m k) as [C|C].
      + rewrite (overrun s k _ (fun i => Y (k * c + i)) m); auto.
        * rewrite firstn_all2 by (rewrite repeat_length; nia). rewrite repeat_length. lia.
        * intros i Hi. rewrite frow_firstn by nia. rewrite frow_zeros by nia.
          split; [apply row_ok; fold rows; lia|apply Y_len; lia].
      + rewrite (update_rows_ok s k _ _ (fun i => Y (k * c + i))).
        * cbn [obind].
          replace (skipn (k * s) (repeat 0 (m * s))) with (repeat 0 ((m - k) * s)).
          2: { replace (m * s)%nat with (k * s + (m - k) * s)%nat by nia.
               rewrite repeat_app, skipn_app, skipn_all2 by (rewrite repeat_length; lia). rewrite repeat_length, Nat.sub_diag. reflexivity. }
          rewrite IH; [reflexivity|lia| |lia].
          intros Z'. apply Z. replace m with (m - k + 1 * k)%nat by lia. rewrite Nat.mod_add by lia. exact Z'.
        * rewrite firstn_length, repeat_length. nia.
        * intros i Hi. rewrite frow_firstn by nia. rewrite frow_zeros by nia.
          split; [apply row_ok; fold rows; lia|apply Y_len; lia]. }
  rewrite repeat_length. rewrite K; auto; nia.
Qed.

(** *** y *)
Let threads := if Nat.leb rows cores then rows else cores.
Lemma threads_pos : (1 <= cores)%nat -> (1 <= threads <= rows)%nat.
Proof. intros H. pose proof (pow2_pos d). unfold threads, rows in *. destruct (Nat.leb_spec (2 ^ d) cores); lia. Qed.
Lemma y_ok : (rows <= length messages)%nat ->
  (d <= 2 \/ (1 <= cores /\ (p = Debug -> rows mod threads = 0) /\ rows mod (rows / threads) = 0))%nat ->
  many_y sha fill p cores keys messages d s = Ok (concat (map Y (seq 0 rows))).
Proof.
  intros Hl H. unfold many_y. rewrite shl_ok by exact d_ok. cbn [obind]. fold rows.
  destruct (Nat.leb_spec d 2) as [D|D].
  - apply update_rows_ok. { rewrite repeat_length. lia. }
    intros i Hi. rewrite frow_zeros by nia. split; [apply row_ok; fold rows; lia|apply Y_len; lia].
  - destruct H as [H|(Hc & Hd & Hk)]; [lia|]. fold threads. pose proof (threads_pos Hc) as [T1 T2].
    assert (E : (if is_debug p then if (threads =? 0)%nat then Panic PDivZero else debug_assert p ((rows mod threads) =? 0)%nat else Ok tt) = Ok tt).
    { destruct p; [|reflexivity]. cbn [is_debug]. rewrite (proj2 (Nat.eqb_neq threads 0)) by lia. now rewrite Hd. }
    rewrite E. cbn [obind]. rewrite udiv_ok by lia. cbn [obind].
    apply chunked_ok; auto. apply Nat.div_le_lower_bound; lia.
Qed.
Lemma y_panics_debug : (3 <= d)%nat -> (1 <= cores)%nat -> p = Debug -> (rows mod threads <> 0)%nat ->
  many_y sha fill p cores keys messages d s = Panic PAssert.
Proof.
  intros D Hc E Hm. unfold many_y. rewrite shl_ok by exact d_ok. cbn [obind]. fold rows.
  rewrite (proj2 (Nat.leb_gt d 2)) by lia. fold threads. pose proof (threads_pos Hc) as [T1 T2].
  rewrite E. cbn [is_debug]. rewrite (proj2 (Nat.eqb_neq threads 0)) by lia. unfold debug_assert, assert_. cbn [is_debug].
  now rewrite (proj2 (Nat.eqb_neq _ _) Hm).
Qed.
Lemma y_UB_release : (3 <= d)%nat -> (1 <= cores)%nat -> p = Release -> (rows mod (rows / threads) <> 0)%nat ->
  (rows <= length messages)%nat ->
  many_y sha fill p cores keys messages d s = UB.
Proof.
  intros D Hc E Hm Hl. unfold many_y. rewrite shl_ok by exact d_ok. cbn [obind]. fold rows.
  rewrite (proj2 (Nat.leb_gt d 2)) by lia. fold threads. pose proof (threads_pos Hc) as [T1 T2].
  rewrite E at 1. cbn [is_debug obind]. rewrite udiv_ok by lia. cbn [obind].
  apply chunked_UB; auto. apply Nat.div_le_lower_bound; lia.
Qed.

(** *** Complete runs *)
Variables (bootS : list (bytes * bytes) -> proc unit) (bootR : list bool -> proc (list bytes)).
Hypothesis boot_ok : ot_correct key_pairs bootS bootR.
Hypothesis keys_ok : key_pairs keys.
Variable choice : N.

Lemma choices_ok : many_choices p' choice d = Ok (map (fun i => N.testbit choice (N.of_nat i)) (seq 0 d)).
Proof.
  apply mapM_Ok. intros i Hi. apply in_seq in Hi. rewrite (proj2 (Nat.ltb_lt _ _)) by lia. f_equal.
  apply eq_true_iff_eq. rewrite N.eqb_eq. rewrite N.shiftl_1_l.
  assert (E : N.shiftr (N.land choice (2 ^ N.of_nat i)) (N.of_nat i) = if N.testbit choice (N.of_nat i) then 1 else 0).
  { apply N.bits_inj. intros k. rewrite N.shiftr_spec', N.land_spec, N.pow2_bits_eqb.
    destruct (N.eqb_spec (N.of_nat i) (k + N.of_nat i)) as [Ek|Nk].
    - assert (k = 0) by lia. subst k. rewrite andb_true_r, N.add_0_l. destruct (N.testbit choice (N.of_nat i)); reflexivity.
    - rewrite andb_false_r. destruct (N.testbit choice (N.of_nat i)); [|now rewrite N.bits_0].
      destruct k; [lia|reflexivity]. }
  rewrite E. destruct (N.testbit choice (N.of_nat i)); split; congruence.
Qed.

Lemma many_until : (rows <= length messages)%nat ->
  (d <= 2 \/ (1 <= cores /\ (p = Debug -> rows mod threads = 0) /\ rows mod (rows / threads) = 0))%nat ->
  runs (many_sender sha fill p cores keys bootS messages d) (many_receiver sha fill p' bootR choice d)
    (Ok tt) (let* x := vector_row (concat (map Y (seq 0 rows))) (N.to_nat choice) s in
             foldM (fun x j => xor_bytes_inplace p' x (fk sha fill
               (if N.testbit choice (N.of_nat j) then snd (nth j keys ([], [])) else fst (nth j keys ([], []))) choice s)) (seq 0 d) x).
Proof.
  intros Hl H. pose proof (pow2_pos d) as P2. fold rows in P2.
  set (c := N.to_nat choice).
  set (bits := map (fun i => N.testbit choice (N.of_nat i)) (seq 0 d)).
  assert (Lb : length bits = d) by (unfold bits; now rewrite map_length, seq_length).
  destruct (boot_ok keys bits) as (out & Rb & Lo & So). { now rewrite Lb. } { exact keys_ok. }
  rewrite Lb in Lo.
  assert (Sel : forall j, (j < d)%nat -> nth j out [] = if N.testbit choice (N.of_nat j) then snd (nth j keys ([], [])) else fst (nth j keys ([], []))).
  { intros j Hj. specialize (So j (nth j keys ([], [])) (N.testbit choice (N.of_nat j))).
    apply nth_error_nth. apply So; [apply nth_error_nth_lt; rewrite keys_len; exact Hj|].
    unfold bits. now rewrite nth_map_seq by exact Hj. }
  unfold many_sender, many_receiver.
  eapply runs_lift_r; [exact choices_ok|]. fold bits.
  eapply runs_lift_l; [apply (idx_lt messages 0 []); lia|]. rewrite msg_len by lia.
  eapply runs_lift_l; [now apply y_ok|].
  apply runs_send_recv.
  (* the base OT, whose result only the receiver uses *)
  apply runs_then_r with (b := out); [exact Rb|].
  eapply lift_step.
  { apply mapM_Ok with (g := fun i => nth i out []). intros i Hi. apply in_seq in Hi.
    rewrite (idx_lt out i []) by (rewrite Lo; lia). cbn [obind].
    assert (L32 : length (nth i out []) = 32%nat).
    { rewrite Sel by lia. destruct keys_ok as [_ F].
      destruct (Forall_nth_in _ keys i ([], []) F ltac:(rewrite keys_len; lia)) as [[A _] [B _]].
      destruct (N.testbit choice (N.of_nat i)); auto. }
    rewrite L32. now destruct p'. }
  eapply lift_step; [now apply shl_ok|]. fold rows.
  assert (Ly : length (concat (map Y (seq 0 rows))) = (s * rows)%nat) by (apply concat_length_w; intros; apply Y_len; lia).
  rewrite Ly. eapply lift_step; [rewrite udiv_ok by lia; rewrite Nat.div_mul by lia; reflexivity|].
  fold c. destruct (vector_row (concat (map Y (seq 0 rows))) c s) as [x| | |]; cbn [lift pbind obind]; try reflexivity.
  unfold lift. f_equal. apply foldM_ext. intros x0 j Hj. apply in_seq in Hj.
  rewrite (idx_map_seq (fun i => nth i out []) d j) by lia. cbn [obind].
  now rewrite Sel by lia.
Qed.

Lemma many_run : choice < N.of_nat rows -> (rows <= length messages)%nat ->
  (d <= 2 \/ (1 <= cores /\ (p = Debug -> rows mod threads = 0) /\ rows mod (rows / threads) = 0))%nat ->
  runs (many_sender sha fill p cores keys bootS messages d) (many_receiver sha fill p' bootR choice d)
    (Ok tt) (Ok (nth (N.to_nat choice) messages [])).
Proof.
  intros Hch Hl H. pose proof (many_until Hl H) as R. set (c := N.to_nat choice) in *.
  assert (Hc : (c < rows)%nat) by (unfold c; lia).
  assert (Ly : length (concat (map Y (seq 0 rows))) = (s * rows)%nat) by (apply concat_length_w; intros; apply Y_len; lia).
  rewrite vector_row_ok in R by (rewrite Ly; nia). cbn [obind] in R.
  rewrite (frow_concat s Y rows c) in R by (auto; intros; apply Y_len; lia).
  rewrite (foldM_ext _ (fun x j => xor_bytes_inplace p' x (hide c j))) in R.
  2: { intros x j _. unfold hide, c. now rewrite N2Nat.id. }
  rewrite loop_masked in R by (intros; rewrite hide_len, Y_len; auto; lia).
  unfold Y in R. rewrite masked_twice in R by (intros; rewrite hide_len, msg_len; auto; lia). exact R.
Qed.
Lemma many_outside : N.of_nat rows <= choice -> (rows <= length messages)%nat ->
  (d <= 2 \/ (1 <= cores /\ (p = Debug -> rows mod threads = 0) /\ rows mod (rows / threads) = 0))%nat ->
  runs (many_sender sha fill p cores keys bootS messages d) (many_receiver sha fill p' bootR choice d) (Ok tt) UB.
Proof.
  intros Hch Hl H. pose proof (many_until Hl H) as R.
  assert (Ly : length (concat (map Y (seq 0 rows))) = (s * rows)%nat) by (apply concat_length_w; intros; apply Y_len; lia).
  unfold vector_row in R. rewrite Ly in R. rewrite (proj2 (Nat.leb_gt _ _)) in R by nia. exact R.
Qed.
End Many.

(** *** Fewer messages than rows *)
Lemma foldM_step {A S} (f : S -> A -> outcome S) l a l' s s' : foldM f (l ++ a :: l') s = Ok s' ->
  exists x y, f x a = Ok y.
Proof.
  rewrite foldM_app. destruct (foldM f l s) as [x| | |]; cbn [obind foldM]; try discriminate.
  destruct (f x a) as [y| | |] eqn:E; cbn [obind]; try discriminate. eauto.
Qed.
Lemma update_rows_step w h v f r i : update_rows v h w f = Ok r -> (i < h)%nat -> exists row y, f i row = Ok y.
Proof.
  intros H Hi. unfold update_rows in H. replace h with (i + S (h - S i))%nat in H by lia.
  rewrite seq_app in H. cbn [seq Nat.add] in H. destruct (foldM_step _ _ _ _ _ _ H) as (x & y & E).
  unfold row_step in E. destruct (vector_row x i w) as [row| | |]; try discriminate. cbn [obind] in E.
  destruct (f i row) as [z| | |] eqn:F; try discriminate. eauto.
Qed.
Lemma chunk_count {A} k fuel : forall l : list A, (length l <= fuel)%nat -> (1 <= k)%nat -> (length l <= k * length (chunks_fuel fuel k l))%nat.
Proof.
  induction fuel as [|fuel IH]; intros l F Hk; [cbn; lia|].
  destruct l as [|x l0] eqn:El; [cbn; lia|]. rewrite <- El in *. rewrite chunks_cons by (rewrite El; discriminate).
  cbn [length]. pose proof (IH (skipn k l)) as H. rewrite skipn_length in H. rewrite El in F. cbn in F.
  assert (length l = S (length l0)) by (rewrite El; reflexivity). lia.
Qed.
Lemma y_needs_messages sha fill p cores keys messages d s y : (d <= 32)%nat -> (1 <= s)%nat ->
  many_y sha fill p cores keys messages d s = Ok y -> (2 ^ d <= length messages)%nat.
Proof.
  intros Hd Hs H. pose proof (pow2_pos d) as P2. unfold many_y in H. rewrite shl_ok in H by exact Hd. cbn [obind] in H.
  set (rows := (2 ^ d)%nat) in *.
  assert (K : forall i row r, many_row sha fill p keys messages d s i row = Ok r -> (i < length messages)%nat).
  { intros i row r E. destruct (Nat.lt_ge_cases i (length messages)) as [L|L]; auto. rewrite row_fail in E by exact L. discriminate. }
  destruct (Nat.leb d 2).
  - destruct (update_rows_step _ _ _ _ _ (rows - 1) H ltac:(lia)) as (row & r & E). apply K in E. lia.
  - match type of H with (let* _ := ?a in _) = _ => destruct a as [u| | |]; try discriminate end. cbn [obind] in H.
    set (threads := if Nat.leb rows cores then rows else cores) in *.
    unfold udiv in H. destruct (Nat.eqb_spec threads 0) as [|T]; [discriminate|]. cbn [obind] in H.
    set (k := (rows / threads)%nat) in *.
    assert (Hk : (1 <= k)%nat).
    { unfold k. apply Nat.div_le_lower_bound; [exact T|]. unfold threads. destruct (Nat.leb_spec rows cores); lia. }
    unfold chunks_mut in H. rewrite (proj2 (Nat.eqb_neq _ _)) in H by nia. cbn [obind] in H.
    set (cs := chunks_fuel (length (repeat 0 (rows * s))) (k * s) (repeat 0 (rows * s))) in *.
    pose proof (chunk_count (k * s) (length (repeat 0 (rows * s))) (repeat 0 (rows * s)) ltac:(lia) ltac:(nia)) as Hn.
    fold cs in Hn. rewrite repeat_length in Hn.
    assert (Hn' : (rows <= k * length cs)%nat) by nia.
    match type of H with (let* _ := ?a in _) = _ => destruct a as [rs| | |] eqn:M; try discriminate end.
    assert (Hl : (length cs - 1 < length cs)%nat) by nia.
    destruct (nth_error (enumerate cs) (length cs - 1)) as [[c ch]|] eqn:En.
    2: { apply nth_error_None in En. unfold enumerate in En. rewrite combine_length, seq_length in En. lia. }
    destruct (enum_from 0 cs _ _ En) as [Ec _]. cbn in Ec.
    destruct (mapM_nth_error _ _ _ _ _ M En) as (b & _ & U). cbn [fst snd] in U.
    destruct (update_rows_step _ _ _ _ _ (k - 1) U ltac:(lia)) as (row & r & E). apply K in E. subst c. nia.
Qed.
