(** The oblivious transfers hash no strings of 42 bytes. *)
From Coq Require Import List NArith Bool Arith Lia.
From Verif Require Import Base MUtil MWires MBitMatrix MPoly MPar MBincode MProc MOt MApricot MMany PBase PProc SpecOt SpecApricot SpecMany SpecKey.
Import ListNotations.
Open Scope N_scope.

Lemma peq_bind {A B} (q q' : proc A) (f f' : A -> proc B) : peq q q' -> (forall a, peq (f a) (f' a)) -> peq (pbind q f) (pbind q' f').
Proof.
  intros H Hf. induction H as [o|m k k' _ IH|k k' _ IH]; cbn; try (constructor; auto; fail). destruct o; auto; constructor.
Qed.
Lemma peq_lift {A} (o o' : outcome A) : o = o' -> peq (lift o) (lift o').
Proof. intros ->. apply peq_refl. Qed.
Lemma foldM_ext {A S} (f f' : S -> A -> outcome S) l : (forall s a, In a l -> f s a = f' s a) -> forall s, foldM f l s = foldM f' l s.
Proof.
  induction l as [|a l IH]; intros H s; cbn [foldM]; [reflexivity|]. rewrite H by now left. destruct (f' s a); cbn; auto.
  apply IH. intros; apply H. now right.
Qed.
Lemma update_rows_ext v h w f f' : (forall i row, f i row = f' i row) -> update_rows v h w f = update_rows v h w f'.
Proof. intros H. unfold update_rows. apply foldM_ext. intros s a _. unfold row_step. destruct (vector_row s a w); cbn; auto. now rewrite H. Qed.
Lemma par_rows_ext w k buf f f' : (forall i row, f i row = f' i row) -> par_rows w k buf f = par_rows w k buf f'.
Proof.
  intros H. unfold par_rows. destruct (chunks_mut (k * w) buf); cbn [obind]; auto.
  match goal with |- obind ?a _ = obind ?b _ => replace a with b; [reflexivity|] end.
  apply mapM_ext. intros c _. apply update_rows_ext. intros; auto.
Qed.
Lemma row_length v i w r : vector_row v i w = Ok r -> length r = w.
Proof.
  unfold vector_row. destruct (Nat.leb_spec (w * i + w) (length v)); [|discriminate]. intros [= <-].
  rewrite firstn_length, skipn_length. lia.
Qed.

Section Same.
Variables sha sha' : bytes -> bytes.
Hypothesis H42 : off42 sha sha'.
Lemma same_len (m : bytes) n : length m = n -> n <> 42%nat -> sha' m = sha m.
Proof. intros L N. apply H42. now rewrite L. Qed.

Lemma coin_sender_same n v : length v <> 42%nat -> peq (coinflip_sender sha' n v) (coinflip_sender sha n v).
Proof. intros L. unfold coinflip_sender. rewrite (H42 v L). apply peq_refl. Qed.
Lemma coin_receiver_same u : peq (coinflip_receiver sha' 32 u) (coinflip_receiver sha 32 u).
Proof.
  unfold coinflip_receiver. apply pbind_peq. intros c. apply pbind_peq. intros _. apply pbind_peq. intros v.
  destruct (Nat.eqb_spec (length v) 32) as [L|]; cbn [negb]; [|apply peq_refl].
  rewrite (same_len v 32) by (auto; lia). apply peq_refl.
Qed.
Section Base.
Variable gen : bytes -> nat -> bytes.
Variable G : curve.
Hypothesis HG : curve_ok G.
Variable p : profile.
Lemma point_same P : sha' (compress G P) = sha (compress G P).
Proof. apply (same_len _ 32); [apply (co_len G HG)|lia]. Qed.
Lemma co_sender_same rs ms : peq (co_sender sha' gen G p rs ms) (co_sender sha gen G p rs ms).
Proof.
  unfold co_sender. cbv zeta. do 4 (apply pbind_peq; intros ?). apply peq_bind; [|intros; apply peq_refl].
  apply peq_lift, mapM_ext. intros [i m] _. destruct (idx a1 i); cbn; auto.
  match goal with |- obind ?x _ = _ => destruct x; cbn; auto end. unfold co_encrypt. rewrite ?point_same.
  destruct (decompress G a3); cbn; auto. destruct (decompress G a4); cbn; auto. now rewrite !point_same.
Qed.
Lemma co_receiver_same rs cs : peq (co_receiver sha' gen G p rs cs) (co_receiver sha gen G p rs cs).
Proof.
  unfold co_receiver. cbv zeta. do 3 (apply pbind_peq; intros ?). apply peq_bind; [|intros; apply peq_refl].
  apply peq_lift, mapM_ext. intros [i m] _. destruct (idx cs i); cbn; auto. unfold co_answer.
  destruct (decompress G m); cbn; auto. now rewrite point_same.
Qed.
End Base.

Section Extension.
Variable fill : bytes -> nat -> bytes.
Variables (p : profile) (a : arch) (cores : nat).
Lemma hash_row_same r (row : bytes) : length row = 16%nat -> sha' (usize_be r ++ row) = sha (usize_be r ++ row).
Proof. intros L. apply (same_len _ 24); [|lia]. unfold usize_be. rewrite app_length, be_bytes_length, L. reflexivity. Qed.
Lemma randomize_same q delta s ms : randomize sha' fill p cores q delta K_BYTES s ms = randomize sha fill p cores q delta K_BYTES s ms.
Proof.
  unfold randomize. destruct (pick_suitable_thread_count cores (length ms)); cbn [obind]; auto. destruct (udiv (length ms) a0); cbn [obind]; auto.
  apply par_rows_ext. intros i row. unfold randomize_row. destruct (vector_row q i K_BYTES) as [qr| | |] eqn:E; cbn [obind]; auto.
  apply row_length in E. rewrite (hash_row_same i qr E). destruct (idx ms i); cbn [obind]; auto.
  destruct (vector_slice row 0 s); cbn [obind]; auto. destruct (xor_inplace p _ (fst a2)); cbn [obind]; auto.
  destruct (ap_xor p (repeat 0 K_BYTES) qr delta) as [qb| | |] eqn:F; cbn [obind]; auto. rewrite (hash_row_same i qb); [reflexivity|].
  unfold ap_xor in F. destruct (debug_assert p (length qr =? length delta)%nat); cbn [obind] in F; try discriminate F.
  destruct (debug_assert p (length qr =? length (repeat 0%N K_BYTES))%nat); cbn [obind] in F; try discriminate F.
  destruct (Nat.ltb_spec (length delta) (length qr)) as [|Hl]; cbn [orb] in F; [discriminate F|]. rewrite repeat_length, E in F.
  rewrite Nat.ltb_irrefl in F. injection F as <-.
  change (skipn K_BYTES (repeat 0 K_BYTES)) with (@nil N). rewrite app_nil_r, zipWith_length, E. change K_BYTES with 16%nat in *. lia.
Qed.
Lemma ap_sender_same cu delta boot boot' ms : (forall bs, peq (boot' bs) (boot bs)) ->
  peq (ap_sender sha' fill p a cores cu delta boot' ms) (ap_sender sha fill p a cores cu delta boot ms).
Proof.
  intros Hb. unfold ap_sender. cbv zeta. do 2 (apply pbind_peq; intros ?).
  apply peq_bind; [apply coin_receiver_same|]. intros seed. do 2 (apply pbind_peq; intros ?).
  apply peq_bind; [apply Hb|]. intros pay. do 9 (apply pbind_peq; intros ?). apply peq_bind; [|intros; apply peq_refl].
  apply peq_lift, randomize_same.
Qed.
Lemma compute_v_same t h : compute_v sha' p cores t K_BYTES h = compute_v sha p cores t K_BYTES h.
Proof.
  unfold compute_v. destruct (pick_suitable_thread_count cores h); cbn [obind]; auto. destruct (udiv h a0); cbn [obind]; auto.
  apply par_rows_ext. intros i row. destruct (vector_row t i K_BYTES) as [tr| | |] eqn:E; cbn [obind]; auto.
  apply row_length in E. now rewrite (hash_row_same i tr E).
Qed.
Lemma ap_receiver_same cv bonus seed0 seed1 boot boot' cs : length cv <> 42%nat -> (forall ms, peq (boot' ms) (boot ms)) ->
  peq (ap_receiver sha' fill p a cores cv bonus seed0 seed1 boot' cs) (ap_receiver sha fill p a cores cv bonus seed0 seed1 boot cs).
Proof.
  intros L Hb. unfold ap_receiver. cbv zeta. do 2 (apply pbind_peq; intros ?).
  apply peq_bind; [now apply coin_sender_same|]. intros seed. do 2 (apply pbind_peq; intros ?).
  apply peq_bind; [apply Hb|]. intros _. do 5 (apply pbind_peq; intros ?). apply pbind_peq. intros [x_sum t_sum].
  do 2 (apply pbind_peq; intros ?). apply peq_bind; [|intros; apply peq_refl]. apply peq_lift, compute_v_same.
Qed.
Lemma fk_same key c n : length key = 32%nat -> fk sha' fill key c n = fk sha fill key c n.
Proof. intros L. unfold fk. rewrite (same_len _ 36); [reflexivity| |lia]. rewrite app_length, be_bytes_length, L. reflexivity. Qed.
Lemma many_row_same keys ms d n i row : Forall (fun k => array_ok 32 (fst k) /\ array_ok 32 (snd k)) keys ->
  many_row sha' fill p keys ms d n i row = many_row sha fill p keys ms d n i row.
Proof.
  intros Hk. unfold many_row. destruct (idx ms i); cbn [obind]; auto. destruct (xor_bytes_inplace p row a0); cbn [obind]; auto.
  apply foldM_ext. intros s j _. cbv zeta. destruct (idx keys j) as [k| | |] eqn:E; cbn [obind]; auto.
  apply idx_inv, nth_error_In in E. pose proof (proj1 (Forall_forall _ _) Hk _ E) as [[L1 _] [L2 _]].
  rewrite fk_same; [reflexivity|]. destruct (_ =? 1); assumption.
Qed.
Lemma many_sender_same keys int int' ms d : Forall (fun k => array_ok 32 (fst k) /\ array_ok 32 (snd k)) keys ->
  (forall ms, peq (int' ms) (int ms)) -> peq (many_sender sha' fill p cores keys int' ms d) (many_sender sha fill p cores keys int ms d).
Proof.
  intros Hk Hi. unfold many_sender. apply pbind_peq. intros m0. apply peq_bind; [|intros y; apply peq_bind; [apply peq_refl|intros; apply Hi]].
  apply peq_lift. unfold many_y. destruct (shl_one p d) as [dm| | |]; cbn [obind]; auto.
  destruct (Nat.leb d 2). { apply update_rows_ext. intros. now apply many_row_same. }
  cbv zeta. match goal with |- obind ?x _ = _ => destruct x; cbn [obind]; auto end.
  match goal with |- obind ?x _ = _ => destruct x; cbn [obind]; auto end.
  match goal with |- obind ?x _ = _ => destruct x; cbn [obind]; auto end.
  match goal with |- obind ?x _ = obind ?y _ => replace x with y; [reflexivity|] end.
  apply mapM_ext. intros c _. apply update_rows_ext. intros. symmetry. now apply many_row_same.
Qed.
End Extension.
End Same.
