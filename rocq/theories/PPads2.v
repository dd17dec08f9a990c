(** The two OT extensions: messages under pads. *)
From Coq Require Import List NArith Bool Lia Arith.
From Verif Require Import Base MUtil MWires MBitMatrix MPoly MPar MBincode MProc MOt MApricot MClassic.
From Verif Require Import SpecBincode SpecOt SpecApricot SpecPads PBase PUtil PPar PProc POt PApricotA PApricotRun PClassic PPads.
Import ListNotations.
Open Scope N_scope.

Lemma set_nth_length' {A} (l : list A) i x l' : set_idx l i x = Ok l' -> length l' = length l.
Proof. unfold set_idx. destruct (Nat.ltb i (length l)); [|discriminate]. intros [= <-]. apply set_nth_length. Qed.
Lemma transpose_matrix_length source target h w c t : transpose_matrix source target h w c = Ok t -> length t = length target.
Proof.
  intros E. unfold transpose_matrix in E.
  apply (foldM_preserve _ (fun t => length t = length target) _ _ _ ) in E; auto. clear E.
  intros s r s' _ Hs E. refine (foldM_preserve _ (fun t => length t = length target) _ _ _ _ E Hs). clear E Hs s s'.
  intros s col s' _ Hs E. destruct (idx source _) as [b| | |]; try discriminate. cbn [obind] in E.
  refine (foldM_preserve _ (fun t => length t = length target) _ _ _ _ E Hs). clear E Hs s s'.
  intros s bit s' _ Hs E. cbv zeta in E. unfold or_at in E. destruct (idx s _) as [o| | |]; try discriminate. cbn [obind] in E.
  now rewrite (set_nth_length' _ _ _ _ E).
Qed.

(** The sizes of [n] pairs of messages of [s] bytes each. *)
Lemma sizes_equal n s msgs : sizes msgs = repeat (s, s) n -> length msgs = n /\ equal_sized s msgs.
Proof.
  intros H. split. { rewrite <- (sizes_length msgs), H. apply repeat_length. }
  apply Forall_forall. intros m I. assert (J : In (length (fst m), length (snd m)) (sizes msgs)) by (unfold sizes; now apply (in_map (fun m => (length (fst m), length (snd m))))).
  rewrite H in J. apply repeat_spec in J. split; congruence.
Qed.

Lemma lxor_comm_zip a b : zipWith N.lxor a b = zipWith N.lxor b a.
Proof. revert b. induction a as [|x a IH]; intros [|y b]; cbn; auto. now rewrite IH, N.lxor_comm. Qed.

Section Ap.
Variable sha : bytes -> bytes.
Variable fill : bytes -> nat -> bytes.
Hypothesis fill_ok : generator fill.
Variables (p : profile) (a : arch) (cores : nat).
Hypothesis cores_ok : (1 <= cores)%nat.

Definition ap_frames (c : list (bytes * bytes)) : list bytes := [concat (map (fun x => fst x ++ snd x) c)].

Lemma ap_sender_padded cu delta boot n s ins : (1 <= n)%nat -> (1 <= s)%nat -> array_ok 16 delta ->
  sends_padded (repeat (s, s) n) (ap_sender sha fill p a cores cu delta boot) ap_frames ins
    (fun _ i s k => exists q, length q = 16%nat /\
       k = (fill (sha (usize_be i ++ q)) (fst s), fill (sha (usize_be i ++ xored q delta)) (snd s))).
Proof.
  intros Hn Hs Hd. set (sz := repeat (s, s) n).
  apply padded_ext with (sender' := fun msg =>
    let! _ := lift (debug_assert p (Nat.eqb (n mod 8) 0)) in
    let! _ := validate_properties (mkProps n apricot_name) in
    let l := (n + K + S_)%nat in
    let w := K_BYTES in let h := l in
    let tw := (h / 8)%nat in let th := (w * 8)%nat in
    let! seed := coinflip_receiver sha 32 cu in
    let! m0 := lift (idx msg 0) in
    let msg_size := length (fst m0) in
    let! _ := send (be_bytes 2 (N.of_nat msg_size mod 2 ^ 16)) in
    let! payloads := boot (u8_vec_to_bool_vec delta) in
    let! t := lift (expand_payloads fill payloads th tw) in
    let chi := fill seed (w * h) in
    let! u := recv in
    let! q := lift (compute_q p delta t u th tw) in
    let! q_transposed := lift (transpose_matrix q (repeat 0 (w * h)) th tw w) in
    let! _ := lift (debug_assert p (Nat.eqb (w * h) (length chi))) in
    let! q_sum := lift (row_sum a q_transposed chi w h) in
    let! x_sum := recv in
    let! t_sum := recv in
    let! _ := lift (sender_check p a q_sum delta x_sum t_sum w) in
    let! d := lift (randomize sha fill p cores q_transposed delta w msg_size msg) in
    send d).
  { intros msgs Hm. destruct (sizes_equal _ _ _ Hm) as [Ln _]. unfold ap_sender. rewrite Ln. reflexivity. }
  apply (padded_bind sz ap_frames). intros ? ? ? _.
  apply (padded_bind sz ap_frames). intros ? ? ? _. cbv zeta.
  apply (padded_bind sz ap_frames). intros seed out1 rest1 _.
  apply padded_ext with (sender' := fun msg => 
    let! _ := send (be_bytes 2 (N.of_nat s mod 2 ^ 16)) in
    let! payloads := boot (u8_vec_to_bool_vec delta) in
    let! t := lift (expand_payloads fill payloads (K_BYTES * 8) ((n + K + S_) / 8)) in
    let! u := recv in
    let! q := lift (compute_q p delta t u (K_BYTES * 8) ((n + K + S_) / 8)) in
    let! q_transposed := lift (transpose_matrix q (repeat 0 (K_BYTES * (n + K + S_))) (K_BYTES * 8) ((n + K + S_) / 8) K_BYTES) in
    let! _ := lift (debug_assert p (Nat.eqb (K_BYTES * (n + K + S_)) (length (fill seed (K_BYTES * (n + K + S_)))))) in
    let! q_sum := lift (row_sum a q_transposed (fill seed (K_BYTES * (n + K + S_))) K_BYTES (n + K + S_)) in
    let! x_sum := recv in
    let! t_sum := recv in
    let! _ := lift (sender_check p a q_sum delta x_sum t_sum K_BYTES) in
    let! d := lift (randomize sha fill p cores q_transposed delta K_BYTES s msg) in
    send d).
  { intros msgs Hm. destruct (sizes_equal _ _ _ Hm) as [Ln Eq]. destruct msgs as [|m msgs]; [cbn in Ln; lia|].
    apply Forall_inv in Eq. destruct Eq as [E _]. rewrite <- E. reflexivity. }
  apply (padded_bind sz ap_frames). intros ? ? ? _.
  apply (padded_bind sz ap_frames). intros ? ? ? _.
  apply (padded_bind sz ap_frames). intros ? ? ? _.
  apply (padded_bind sz ap_frames). intros ? ? ? _.
  apply (padded_bind sz ap_frames). intros qm ? ? _.
  apply (padded_bind sz ap_frames). intros qt oq rq Et.
  assert (Lq : length qt = (16 * (n + 256))%nat).
  { cbn [lift feedr] in Et. assert (E : transpose_matrix qm (repeat 0 (K_BYTES * (n + K + S_))) (K_BYTES * 8) ((n + K + S_) / 8) K_BYTES = Ok qt) by congruence.
    rewrite (transpose_matrix_length _ _ _ _ _ _ E), repeat_length. unfold K_BYTES, K, S_. lia. }
  apply (padded_bind sz ap_frames). intros ? ? ? _.
  apply (padded_bind sz ap_frames). intros ? ? ? _.
  apply (padded_bind sz ap_frames). intros ? ? ? _.
  apply (padded_bind sz ap_frames). intros ? ? ? _.
  apply (padded_bind sz ap_frames). intros ? ? ? _.
  set (pads := map (fun r => (mask sha fill s (frow 16 qt r) r, mask sha fill s (zipWith N.lxor (frow 16 qt r) delta) r)) (seq 0 n)).
  apply padded_final with (pads := pads).
  - unfold pads, sz. now rewrite map_length, seq_length, repeat_length.
  - intros msgs rst Hm. destruct (sizes_equal _ _ _ Hm) as [Ln Eq].
    change K_BYTES with 16%nat.
    rewrite (randomize_ok sha fill fill_ok p cores cores_ok n (n + 256) s msgs (repeat false n) (repeat false 256) qt qt delta); auto using repeat_length.
    cbn [lift pbind send feed ret]. unfold ap_frames.
    match goal with |- (_, [concat ?x]) = (_, [concat ?y]) => assert (EE : x = y); [|now rewrite EE] end.
    unfold covered, pads. rewrite map_map.
    apply nth_ext with (d := []) (d' := []).
    { rewrite !map_length, combine_length, map_length, seq_length, Ln. lia. }
    intros i Hi. rewrite map_length, seq_length in Hi.
    rewrite (PClassic.nth_map_seq _ n i []) by exact Hi.
    rewrite (nth_indep _ [] (let c := cover (([], []) : bytes * bytes) (([], []) : bytes * bytes) in fst c ++ snd c)).
    2: { rewrite map_length, combine_length, map_length, seq_length, Ln. lia. }
    rewrite (map_nth (fun x => let c := cover (fst x) (snd x) in fst c ++ snd c) _ (([], []), ([], []))).
    rewrite combine_nth by (rewrite map_length, seq_length; exact Ln).
    erewrite (PClassic.nth_map_seq _ n i) by exact Hi. cbn [fst snd cover]. rewrite !xored_zip.
    unfold E0, E1, m_of. rewrite !(lxor_comm_zip (mask _ _ _ _ _)). reflexivity.
  - intros i s0 k Hsz Hk. assert (Hi : (i < n)%nat). { assert (i < length pads)%nat by (apply nth_error_Some; congruence). unfold pads in *. now rewrite map_length, seq_length in *. }
    assert (s0 = (s, s)). { apply nth_error_In in Hsz. now apply repeat_spec in Hsz. } subst s0.
    unfold pads in Hk. rewrite POt.nth_map_seq in Hk by exact Hi. injection Hk as <-. exists (frow 16 qt i).
    split; [apply frow_length; nia|]. rewrite xored_zip. reflexivity.
Qed.
End Ap.

(** ** The classic extension *)
Lemma or_at2_shape raw r c v raw' n w : or_at2 raw r c v = Ok raw' -> length raw = n /\ Forall (fun x : bytes => length x = w) raw ->
  length raw' = n /\ Forall (fun x : bytes => length x = w) raw'.
Proof.
  unfold or_at2. intros E [L F]. destruct (idx raw r) as [row| | |] eqn:Er; try discriminate. cbn [obind] in E.
  destruct (idx row c) as [o| | |]; try discriminate. cbn [obind] in E.
  destruct (set_idx row c _) as [row'| | |] eqn:Es; try discriminate. cbn [obind] in E.
  split; [rewrite (set_nth_length' _ _ _ _ E); exact L|].
  unfold set_idx in E. destruct (Nat.ltb r (length raw)) eqn:Hl; [|discriminate]. injection E as <-. apply Nat.ltb_lt in Hl.
  assert (Lr : length row' = w).
  { rewrite (set_nth_length' _ _ _ _ Es). unfold idx in Er. destruct (nth_error raw r) eqn:En; [|discriminate]. injection Er as <-.
    apply nth_error_In in En. rewrite Forall_forall in F. now apply F. }
  apply Forall_forall. intros x I. apply In_nth with (d := []) in I. destruct I as (k & Hk & <-). rewrite set_nth_length in Hk.
  destruct (Nat.eq_dec k r) as [->|N].
  - rewrite nth_set_nth_same; auto.
  - rewrite nth_set_nth_other by auto. rewrite Forall_forall in F. apply F, nth_In, Hk.
Qed.
Lemma transpose_rows m t : transpose m = Ok t -> Forall (fun x : bytes => length x = (length m / 8)%nat) t.
Proof.
  unfold transpose, dims. destruct (idx m 0) as [r0| | |]; try discriminate. cbn [obind]. intros E.
  set (w := (length m / 8)%nat).
  enough (I : length t = bv_len r0 /\ Forall (fun x : bytes => length x = w) t) by apply I.
  refine (foldM_preserve _ (fun t => length t = bv_len r0 /\ Forall (fun x : bytes => length x = w) t) _ _ _ _ E _).
  - clear E. intros s r s' _ Hs E. unfold transpose_row in E.
    refine (foldM_preserve _ (fun t => length t = bv_len r0 /\ Forall (fun x : bytes => length x = w) t) _ _ _ _ E Hs). clear E Hs s s'.
    intros s c s' _ Hs E. destruct (idx m r) as [b| | |]; try discriminate. cbn [obind] in E.
    destruct (idx b c) as [x| | |]; try discriminate. cbn [obind] in E. unfold transpose_byte in E.
    refine (foldM_preserve _ (fun t => length t = bv_len r0 /\ Forall (fun x : bytes => length x = w) t) _ _ _ _ E Hs). clear E Hs s s'.
    intros s i s' _ Hs E. cbv zeta in E. exact (or_at2_shape _ _ _ _ _ _ _ E Hs).
  - split; [apply repeat_length|]. apply Forall_forall. intros x I. apply repeat_spec in I. subst. apply repeat_length.
Qed.

Lemma feedr_bind_ok {A B} (q : proc A) (f : A -> proc B) ins b out rest : feedr (pbind q f) ins = (Ok b, out, rest) ->
  exists a o1 r1 o2, feedr q ins = (Ok a, o1, r1) /\ feedr (f a) r1 = (Ok b, o2, rest).
Proof.
  rewrite feedr_bind. destruct (feedr q ins) as [[o o1] r1]. destruct o as [a|e|r|]; try discriminate.
  destruct (feedr (f a) r1) as [[o' o2] r2] eqn:E. intros [= -> _ ->]. exists a, o1, r1, o2. split; [reflexivity|exact E].
Qed.

Section Cl.
Variable sha : bytes -> bytes.
Variables gen20 gen8 : bytes -> nat -> bytes.
Hypothesis gen8_ok : generator gen8.
Variables (p : profile) (a : option arch).

Lemma cote_rows delta boot l ins q out rest : array_ok 16 delta -> feedr (sender_cote gen20 delta boot l) ins = (Ok q, out, rest) ->
  Forall (fun x : bytes => length x = 16%nat) q.
Proof.
  intros [Ld _] H. unfold sender_cote in H.
  do 5 (apply feedr_bind_ok in H; destruct H as (? & ? & ? & ? & ? & H)).
  cbn [lift feedr] in H. assert (E : transpose x15 = Ok q) by congruence. clear H.
  assert (L : length x15 = 128%nat).
  { cbn [lift feedr] in H4. assert (E' : classic_q delta x11 (expand_rows gen20 l x3) = Ok x15) by congruence.
    unfold classic_q in E'. rewrite (mapM_length _ _ _ E'). rewrite combine_length, seq_length, bits_length, Ld. reflexivity. }
  pose proof (transpose_rows _ _ E) as T. rewrite L in T. exact T.
Qed.

Definition cl_frames (c : list (bytes * bytes)) : list bytes := [enc_rows (map fst c); enc_rows (map snd c)].
Lemma zip_pads (ks : list (bytes * bytes)) : forall msgs, length ks = length msgs ->
  zipM (classic_encrypt gen8 p) msgs ks =
  Ok (covered msgs (map (fun ks => (gen8 (fst (fst ks)) (fst (snd ks)), gen8 (snd (fst ks)) (snd (snd ks)))) (combine ks (sizes msgs)))).
Proof.
  induction ks as [|k ks IH]; intros [|m msgs] L; cbn [length] in L; try discriminate; [reflexivity|].
  cbn [zipM]. unfold classic_encrypt at 1. rewrite !xor_bytes_ok by (symmetry; apply gen8_ok). cbn [obind].
  rewrite IH by lia. cbn [obind]. change (sizes (m :: msgs)) with ((length (fst m), length (snd m)) :: sizes msgs).
  cbn [combine map fst snd]. unfold covered. cbn [combine map fst snd]. f_equal. f_equal. unfold cover. cbn [fst snd]. now rewrite !xored_zip.
Qed.

Lemma classic_sender_padded cu delta boot sz ins : array_ok 16 delta ->
  sends_padded sz (classic_sender sha gen20 gen8 p a cu delta boot) cl_frames ins
    (fun _ i s k => exists q, length q = 16%nat /\
       k = (gen8 (sha (le_bytes 8 (N.of_nat i) ++ q)) (fst s), gen8 (sha (le_bytes 8 (N.of_nat i) ++ xored q delta)) (snd s))).
Proof.
  intros Hd. set (n := length sz).
  apply padded_ext with (sender' := fun msg =>
    let! _ := lift (assert_ (Nat.leb BLOCK_SIZE n)) in
    let! _ := lift (assert_ (Nat.eqb (n mod BLOCK_SIZE) 0)) in
    let! _ := validate_properties (mkProps n apricot_name) in
    let! q := sender_cote gen20 delta boot (n + COMP_SEC + STAT_SEC)%nat in
    let! _ := sender_correlation sha gen20 p a cu (n + COMP_SEC + STAT_SEC)%nat q delta in
    sender_de_rot sha gen8 p q delta msg).
  { intros msgs Hm. unfold classic_sender. replace (length msgs) with n by (unfold n; rewrite <- Hm; apply sizes_length). reflexivity. }
  do 3 (apply (padded_bind sz cl_frames); intros ? ? ? _).
  apply (padded_bind sz cl_frames). intros q oq rq Eq. pose proof (cote_rows _ _ _ _ _ _ _ Hd Eq) as Rows. clear Eq.
  apply (padded_bind sz cl_frames). intros ? ? rr _.
  unfold sender_de_rot. cbv zeta.
  apply padded_ext with (sender' := fun msg =>
    let! _ := lift (if Nat.ltb (length q) n then Panic PSlice else Ok tt) in
    let! d := lift (zipM (classic_encrypt gen8 p) msg (map (fun jq => classic_keys sha delta (fst jq) (snd jq)) (combine (seq 0 (length (firstn n q))) (firstn n q)))) in
    let! _ := send (enc_rows (map fst d)) in
    send (enc_rows (map snd d))).
  { intros msgs Hm. replace (length msgs) with n by (unfold n; rewrite <- Hm; apply sizes_length). reflexivity. }
  apply (padded_bind sz cl_frames). intros ? ? ? El.
  assert (Lq : (n <= length q)%nat). { destruct (Nat.ltb_spec (length q) n); [discriminate|assumption]. } clear El.
  assert (Lf : length (firstn n q) = n) by (rewrite firstn_length; lia). rewrite Lf.
  set (ks := map (fun jq => classic_keys sha delta (fst jq) (snd jq)) (combine (seq 0 n) (firstn n q))).
  assert (Lk : length ks = n). { unfold ks. rewrite map_length, combine_length, seq_length, Lf. lia. }
  apply padded_final with (pads := map (fun ks => (gen8 (fst (fst ks)) (fst (snd ks)), gen8 (snd (fst ks)) (snd (snd ks)))) (combine ks sz)).
  - rewrite map_length, combine_length, Lk. unfold n. lia.
  - intros msgs rst Hm. rewrite zip_pads, Hm; [reflexivity|]. rewrite Lk. unfold n. rewrite <- Hm. apply sizes_length.
  - intros i s k Hs Hk. assert (Hi : (i < n)%nat) by (apply nth_error_Some; congruence).
    rewrite nth_error_map in Hk. destruct (nth_error (combine ks sz) i) as [[k0 s0]|] eqn:Ec; [|discriminate]. cbn in Hk. injection Hk as <-.
    assert (Ek : nth_error ks i = Some (classic_keys sha delta i (nth i q [])) /\ k0 = classic_keys sha delta i (nth i q []) /\ s0 = s).
    { assert (Ek : nth_error ks i = Some (classic_keys sha delta i (nth i q []))).
      { unfold ks. rewrite nth_error_map. rewrite <- Lf at 1.
        assert (X : nth_error (combine (seq 0 (length (firstn n q))) (firstn n q)) i = Some (i, nth i q [])).
        { rewrite (nth_error_nth_lt (combine (seq 0 (length (firstn n q))) (firstn n q)) i (0%nat, [] : bytes)) by (rewrite combine_length, seq_length; lia).
          rewrite combine_nth by apply seq_length. rewrite seq_nth by lia. rewrite nth_firstn by exact Hi. reflexivity. }
        rewrite X. reflexivity. }
      split; [exact Ek|].
      rewrite (nth_error_nth_lt (combine ks sz) i (([] : bytes, [] : bytes), (0%nat, 0%nat))) in Ec by (rewrite combine_length, Lk; unfold n in *; lia).
      rewrite combine_nth in Ec by exact Lk.
      rewrite (nth_error_nth_lt ks i ([] : bytes, [] : bytes)) in Ek by (rewrite Lk; exact Hi). rewrite (nth_error_nth_lt _ i (0%nat, 0%nat)) in Hs by exact Hi.
      split; congruence. }
    destruct Ek as (_ & -> & ->). exists (nth i q []). split.
    { rewrite Forall_forall in Rows. apply Rows, nth_In. lia. }
    unfold classic_keys. cbn [fst snd]. unfold bv_xor. now rewrite xored_zip.
Qed.
End Cl.
