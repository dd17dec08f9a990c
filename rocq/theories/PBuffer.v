(** Proofs about MBuffer.v. *)
From Coq Require Import List NArith Bool Lia Arith.
From Verif Require Import Base MUtil MWires MBitMatrix MPar MApricot MBuffer SpecUtil PBase PUtil PBitMatrix.
Import ListNotations.
Open Scope N_scope.

Lemma zero_inplace_id v : zero_inplace v = v.
Proof. unfold zero_inplace. rewrite <- (map_id v) at 2. apply map_ext. intros x. apply N.lxor_0_r. Qed.

Lemma fold_push {A B} (f : A -> B) l : forall acc, fold_left (fun bits j => bits ++ [f j]) l acc = acc ++ map f l.
Proof. induction l as [|x l IH]; intros acc; cbn [fold_left map]; [now rewrite app_nil_r|]. rewrite IH, <- app_assoc. reflexivity. Qed.
Lemma unpack_ok b : unpack_bits_to_vec b = u8_vec_to_bool_vec b.
Proof.
  unfold unpack_bits_to_vec.
  assert (G : forall l acc, fold_left (fun bits i => fold_left (fun bits j => bits ++ [N.land (N.shiftr (nth i b 0) (N.of_nat j)) 1 =? 1]) (seq 0 8) bits) l acc
    = acc ++ flat_map (fun i => byte_bits (nth i b 0)) l).
  { induction l as [|i l IH]; intros acc; cbn [fold_left flat_map]; [now rewrite app_nil_r|].
    rewrite IH, (fold_push (fun j => N.land (N.shiftr (nth i b 0) (N.of_nat j)) 1 =? 1)), <- app_assoc. reflexivity. }
  rewrite G. cbn [app]. unfold u8_vec_to_bool_vec. clear G. induction b as [|x b IH]; [reflexivity|].
  cbn [length seq flat_map nth]. f_equal. rewrite <- IH. rewrite <- seq_shift, flat_map_concat_map, map_map, <- flat_map_concat_map. reflexivity.
Qed.
Lemma pack_unpack b : bytes_ok b -> pack_choices (unpack_bits_to_vec b) = b.
Proof.
  intros H. rewrite unpack_ok.
  assert (L : length (pack_choices (u8_vec_to_bool_vec b)) = length b).
  { rewrite pack_choices_length, bits_length, Nat.mul_comm. now apply Nat.div_mul. }
  apply (nth_ext _ _ 0 0 L). intros i Hi. rewrite L in Hi.
  assert (B : forall j, (j < 8)%nat -> bit_of (pack_choices (u8_vec_to_bool_vec b)) (i * 8 + j) = bit_of b (i * 8 + j)).
  { intros j Hj. rewrite pack_choices_bit; [apply bits_nth; lia|]. rewrite bits_length, (Nat.mul_comm 8 (length b)), Nat.div_mul by lia. lia. }
  assert (Hd : forall j, (j < 8)%nat -> ((i * 8 + j) / 8 = i /\ (i * 8 + j) mod 8 = j)%nat).
  { intros j Hj. split.
    - rewrite Nat.div_add_l, Nat.div_small by lia. lia.
    - rewrite Nat.add_comm, Nat.mod_add, Nat.mod_small by lia. reflexivity. }
  apply N.bits_inj. intros k. destruct (N.lt_ge_cases k 8) as [Hk|Hk].
  - specialize (B (N.to_nat k) ltac:(lia)). destruct (Hd (N.to_nat k) ltac:(lia)) as [D M]. unfold bit_of in B. rewrite D, M, N2Nat.id in B. exact B.
  - rewrite !testbit_byte; auto.
    + unfold bytes_ok in H. rewrite Forall_forall in H. apply H. now apply nth_In.
    + pose proof (pack_choices_ok (u8_vec_to_bool_vec b)) as P. unfold bytes_ok in P. rewrite Forall_forall in P. apply P. apply nth_In. now rewrite L.
Qed.

(** A worker's buffer is overwritten before it is read. *)
Lemma xor_overwrites p d d' q delta : length d = length q -> length d' = length q -> ap_xor p d q delta = ap_xor p d' q delta.
Proof.
  intros L L'. unfold ap_xor. rewrite L, L'. rewrite !skipn_all2 by lia. reflexivity.
Qed.
Lemma ap_xor_len p d q delta r : ap_xor p d q delta = Ok r -> length d = length q -> length r = length q.
Proof.
  unfold ap_xor. intros E L.
  destruct (debug_assert p (Nat.eqb (length q) (length delta))) as [[]| | |]; try discriminate. cbn [obind] in E.
  destruct (debug_assert p (Nat.eqb (length q) (length d))) as [[]| | |]; try discriminate. cbn [obind] in E.
  destruct (Nat.ltb_spec (length delta) (length q)) as [|H]; [discriminate|]. cbn [orb] in E.
  destruct (Nat.ltb (length d) (length q)); [discriminate|]. injection E as <-.
  rewrite app_length, zipWith_length, skipn_length. lia.
Qed.
Lemma vector_row_len v i w r : vector_row v i w = Ok r -> length r = w.
Proof.
  unfold vector_row. destruct (Nat.leb_spec (w * i + w) (length v)); [|discriminate]. intros E. injection E as <-.
  rewrite firstn_length, skipn_length. lia.
Qed.

Section Buffer.
Variable sha : bytes -> bytes.
Variable fill : bytes -> nat -> bytes.
Variable p : profile.
Variable cores : nat.
Variables (q delta : bytes) (w s : nat) (msg : list (bytes * bytes)).

Lemma row_buf r row buf : length buf = w ->
  (exists x buf', randomize_row_buf sha fill p q delta w s msg r row buf = Ok (x, buf') /\ length buf' = w /\
     randomize_row sha fill p q delta w s msg r row = Ok x) \/
  (exists e, randomize_row_buf sha fill p q delta w s msg r row buf = e /\
     (forall xb, e <> Ok xb) /\ randomize_row sha fill p q delta w s msg r row = obind e (fun xb => Ok (fst xb))).
Proof.
  intros Lb. unfold randomize_row_buf, randomize_row. rewrite zero_inplace_id.
  destruct (vector_row q r w) as [q_row| | |] eqn:Eq; cbn [obind]; try (right; eexists; split; [reflexivity|]; split; [discriminate|reflexivity]).
  apply vector_row_len in Eq.
  destruct (idx msg r) as [m| | |]; cbn [obind]; try (right; eexists; split; [reflexivity|]; split; [discriminate|reflexivity]).
  destruct (vector_slice row 0 s) as [p0| | |]; cbn [obind]; try (right; eexists; split; [reflexivity|]; split; [discriminate|reflexivity]).
  destruct (xor_inplace p (fill (sha (usize_be r ++ q_row)) (length p0)) (fst m)) as [e0| | |]; cbn [obind]; try (right; eexists; split; [reflexivity|]; split; [discriminate|reflexivity]).
  rewrite (xor_overwrites p (repeat 0 w) buf) by (rewrite ?repeat_length; congruence).
  destruct (ap_xor p buf q_row delta) as [b'| | |] eqn:Eb; cbn [obind]; try (right; eexists; split; [reflexivity|]; split; [discriminate|reflexivity]).
  apply ap_xor_len in Eb; [|congruence].
  destruct (vector_slice row s s) as [p1| | |]; cbn [obind]; try (right; eexists; split; [reflexivity|]; split; [discriminate|reflexivity]).
  destruct (xor_inplace p (fill (sha (usize_be r ++ b')) (length p1)) (snd m)) as [e1| | |]; cbn [obind]; try (right; eexists; split; [reflexivity|]; split; [discriminate|reflexivity]).
  left. exists (e0 ++ e1), b'. split; [reflexivity|]. split; [congruence|reflexivity].
Qed.

Lemma rows_buf o l pw : forall v buf, length buf = w ->
  obind (foldM (fun (st : bytes * bytes) i =>
    let* row := vector_row (fst st) i pw in
    let* n := randomize_row_buf sha fill p q delta w s msg (o + i)%nat row (snd st) in
    let* v := vector_row_set (fst st) i pw (fst n) in
    Ok (v, snd n)) l (v, buf)) (fun r => Ok (fst r)) =
  foldM (row_step pw (fun i row => randomize_row sha fill p q delta w s msg (o + i)%nat row)) l v.
Proof.
  induction l as [|i l IH]; intros v buf Lb; [reflexivity|]. cbn [foldM]. unfold row_step at 1. cbn [fst snd].
  destruct (vector_row v i pw) as [row| | |]; cbn [obind]; try reflexivity.
  destruct (row_buf (o + i) row buf Lb) as [(x & b' & E1 & Lb' & E2)|(e & E1 & Ne & E2)].
  - rewrite E1, E2. cbn [obind fst snd]. destruct (vector_row_set v i pw x) as [v'| | |]; cbn [obind]; try reflexivity. now apply IH.
  - rewrite E1, E2. destruct e as [xb| | |]; cbn [obind]; try reflexivity. now destruct (Ne xb).
Qed.

Lemma randomize_buf_ok : randomize_buf sha fill p cores q delta w s msg = randomize sha fill p cores q delta w s msg.
Proof.
  unfold randomize_buf, randomize, par_rows.
  destruct (pick_suitable_thread_count cores (length msg)) as [tc| | |]; cbn [obind]; try reflexivity.
  destruct (udiv (length msg) tc) as [k| | |]; cbn [obind]; try reflexivity.
  destruct (chunks_mut (k * (s * 2)) (repeat 0 (length msg * (s * 2)))) as [cs| | |]; cbn [obind]; try reflexivity.
  assert (E : forall c : nat * bytes,
    update_rows_buf (snd c) (length (snd c) / (s * 2)) (s * 2)
        (fun i row buf => randomize_row_buf sha fill p q delta w s msg (fst c * k + i)%nat row buf) (repeat 0 w) =
    update_rows (snd c) (length (snd c) / (s * 2)) (s * 2) (fun i row => randomize_row sha fill p q delta w s msg (fst c * k + i)%nat row)).
  { intros c. unfold update_rows_buf, update_rows. apply rows_buf. apply repeat_length. }
  assert (M : forall l : list (nat * bytes), mapM (fun c => update_rows_buf (snd c) (length (snd c) / (s * 2)) (s * 2)
        (fun i row buf => randomize_row_buf sha fill p q delta w s msg (fst c * k + i)%nat row buf) (repeat 0 w)) l =
    mapM (fun c => update_rows (snd c) (length (snd c) / (s * 2)) (s * 2) (fun i row => randomize_row sha fill p q delta w s msg (fst c * k + i)%nat row)) l).
  { induction l as [|c l IH]; [reflexivity|]. cbn [mapM]. now rewrite E, IH. }
  now rewrite M.
Qed.
End Buffer.
