(** The workers and the two multiplications, whatever they are given. *)
From Coq Require Import List NArith Bool Arith Lia.
From Verif Require Import Base MUtil MBitMatrix MPoly MPar MBincode MProc MOt MApricot.
From Verif Require Import SpecPoly SpecProc SpecOt SpecApricot PBase PProc PPoly PPar PBounds PKey3.
Import ListNotations.
Open Scope N_scope.

(** ** One row after the other *)
Fixpoint rowsM (w n c : nat) (buf : bytes) (work : nat -> bytes -> outcome bytes) : outcome bytes :=
  match n with
  | O => Ok []
  | S n' => let* r := work c (firstn w buf) in let* rest := rowsM w n' (S c) (skipn w buf) work in Ok (r ++ rest)
  end.
Lemma obind_assoc {A B C} (o : outcome A) (f : A -> outcome B) (g : B -> outcome C) :
  (let* y := (let* x := o in f x) in g y) = (let* x := o in let* y := f x in g y).
Proof. destruct o; reflexivity. Qed.

Lemma rowsM_app w n : forall m c buf work, length buf = (w * (m + n))%nat ->
  rowsM w (m + n) c buf work =
    (let* a := rowsM w m c (firstn (w * m) buf) work in let* b := rowsM w n (c + m) (skipn (w * m) buf) work in Ok (a ++ b)).
Proof.
  induction m as [|m IH]; intros c buf work L.
  - cbn [Nat.add rowsM obind]. rewrite Nat.mul_0_r, Nat.add_0_r. cbn [skipn]. destruct (rowsM w n c buf work); reflexivity.
  - cbn [Nat.add rowsM]. rewrite IH by (rewrite skipn_length; lia).
    assert (E1 : firstn w (firstn (w * S m) buf) = firstn w buf) by (rewrite firstn_firstn; f_equal; lia).
    assert (E2 : skipn w (firstn (w * S m) buf) = firstn (w * m) (skipn w buf)).
    { rewrite skipn_firstn_comm. f_equal. lia. }
    assert (E3 : skipn (w * m) (skipn w buf) = skipn (w * S m) buf) by (rewrite skipn_skipn'; f_equal; lia).
    rewrite E1, E2, E3, !obind_assoc. destruct (work c (firstn w buf)); cbn [obind]; auto.
    rewrite !obind_assoc. destruct (rowsM w m (S c) _ work); cbn [obind]; auto.
    replace (S c + m)%nat with (c + S m)%nat by lia. destruct (rowsM w n (c + S m) _ work); cbn [obind]; auto.
    now rewrite app_assoc.
Qed.

Section Rows.
Variable w : nat.
Variable work : nat -> bytes -> outcome bytes.
Hypothesis Hlen : forall i row r, length row = w -> work i row = Ok r -> length r = w.

Lemma update_rows_from c : forall n i pre rest, length pre = (w * i)%nat -> length rest = (w * n)%nat ->
  foldM (row_step w (fun i row => work (c + i)%nat row)) (seq i n) (pre ++ rest) = (let* r := rowsM w n (c + i) rest work in Ok (pre ++ r)).
Proof.
  induction n as [|n IH]; intros i pre rest Lp Lr.
  - destruct rest; [reflexivity|cbn in Lr; lia].
  - cbn [seq foldM rowsM]. unfold row_step at 1, vector_row.
    assert (B : Nat.leb (w * i + w) (length (pre ++ rest)) = true) by (apply Nat.leb_le; rewrite app_length; lia).
    rewrite B. cbn [obind]. assert (E : skipn (w * i) (pre ++ rest) = rest) by (rewrite <- Lp, skipn_app, skipn_all, Nat.sub_diag; reflexivity).
    rewrite E. assert (Lf : length (firstn w rest) = w) by (rewrite firstn_length; lia).
    destruct (work (c + i)%nat (firstn w rest)) as [r| | |] eqn:W; cbn [obind]; auto.
    unfold vector_row_set. rewrite B. cbn [obind].
    assert (E1 : firstn (w * i) (pre ++ rest) = pre).
    { rewrite <- Lp, firstn_app, Nat.sub_diag, firstn_all. cbn. apply app_nil_r. }
    assert (E2 : skipn (w * i + w) (pre ++ rest) = skipn w rest).
    { rewrite <- Lp, skipn_app. rewrite skipn_all2 by lia. cbn [app]. f_equal. lia. }
    rewrite E1, E2, app_assoc. rewrite IH.
    + replace (c + S i)%nat with (S (c + i)) by lia. destruct (rowsM w n _ _ work); cbn [obind]; auto. now rewrite app_assoc.
    + rewrite app_length, (Hlen _ _ _ Lf W). lia.
    + rewrite skipn_length. lia.
Qed.
Lemma update_rows_seq c n buf : length buf = (w * n)%nat ->
  update_rows buf n w (fun i row => work (c + i)%nat row) = rowsM w n c buf work.
Proof.
  intros L. unfold update_rows. pose proof (update_rows_from c n 0 [] buf) as H. cbn [app] in H.
  rewrite Nat.mul_0_r, Nat.add_0_r in H. rewrite (H eq_refl L). destruct (rowsM w n c buf work); reflexivity.
Qed.

Lemma par_rows_seq_from k : (1 <= k)%nat -> (1 <= w)%nat -> forall fuel rows buf c,
  length buf = (w * rows)%nat -> (rows <= fuel)%nat ->
  (let* rs := mapM (fun c : nat * bytes =>
      update_rows (snd c) (length (snd c) / w) w (fun i row => work (fst c * k + i)%nat row))
    (combine (seq c (length (chunks_fuel fuel (k * w) buf))) (chunks_fuel fuel (k * w) buf)) in Ok (concat rs))
  = rowsM w rows (c * k) buf work.
Proof.
  intros Hk Hw. induction fuel as [|fuel IH]; intros rows buf c L F.
  - assert (rows = 0)%nat by lia. subst. reflexivity.
  - destruct rows as [|rows0] eqn:Er.
    + destruct buf; [|cbn in L; lia]. reflexivity.
    + rewrite <- Er in *.
      rewrite chunks_cons by (intros ->; cbn in L; nia).
      set (m := Nat.min k rows).
      assert (Lf : length (firstn (k * w) buf) = (w * m)%nat) by (rewrite firstn_length; unfold m; nia).
      assert (Ef : firstn (k * w) buf = firstn (w * m) buf).
      { unfold m. destruct (Nat.min_spec k rows) as [[A ->]|[A ->]]; [f_equal; lia|]. rewrite !firstn_all2 by nia. reflexivity. }
      assert (Es : skipn (k * w) buf = skipn (w * m) buf).
      { unfold m. destruct (Nat.min_spec k rows) as [[A ->]|[A ->]]; [f_equal; lia|]. rewrite !skipn_all2 by nia. reflexivity. }
      cbn [length seq combine mapM fst snd].
      replace (length (firstn (k * w) buf) / w)%nat with m by (rewrite Lf, Nat.mul_comm, Nat.div_mul; lia).
      rewrite (update_rows_seq (c * k) m) by exact Lf. rewrite Ef, !obind_assoc.
      replace rows with (m + (rows - m))%nat by (unfold m; lia). rewrite rowsM_app by (rewrite L; f_equal; unfold m; lia).
      destruct (rowsM w m (c * k) (firstn (w * m) buf) work) as [r| | |]; cbn [obind]; auto.
      pose proof (IH (rows - m)%nat (skipn (k * w) buf) (S c)) as H.
      assert (E : rowsM w (rows - m) (c * k + m) (skipn (w * m) buf) work = rowsM w (rows - m) (S c * k) (skipn (w * m) buf) work).
      { destruct (Nat.min_spec k rows) as [[A B]|[A B]]; fold m in B; [f_equal; lia|]. rewrite B, Nat.sub_diag. reflexivity. }
      rewrite E, <- Es, <- H; [|rewrite skipn_length; unfold m; nia|unfold m; lia].
      rewrite !obind_assoc. destruct (mapM _ _) as [rs| | |]; reflexivity.
Qed.
Lemma par_rows_seq k rows buf : (1 <= k)%nat -> (1 <= w)%nat -> length buf = (w * rows)%nat ->
  par_rows w k buf work = rowsM w rows 0 buf work.
Proof.
  intros Hk Hw L. unfold par_rows, chunks_mut. rewrite (proj2 (Nat.eqb_neq _ _)) by nia. cbn [obind]. unfold enumerate.
  rewrite (par_rows_seq_from k Hk Hw (length buf) rows buf 0); [reflexivity|exact L|nia].
Qed.
(** Any two numbers of rows per worker. *)
Lemma par_rows_any k k' rows buf : (1 <= k)%nat -> (1 <= k')%nat -> length buf = (w * rows)%nat ->
  par_rows w k buf work = par_rows w k' buf work.
Proof.
  intros Hk Hk' L. destruct w as [|w0] eqn:Ew.
  - unfold par_rows. rewrite !Nat.mul_0_r. reflexivity.
  - rewrite <- Ew in *. rewrite !(par_rows_seq _ rows) by (auto; lia). reflexivity.
Qed.
End Rows.

Section Items.
Context {A : Type}.
Variable work : nat -> A -> outcome A.
Lemma items_app (f : nat * A -> outcome A) l l' : mapM f (l ++ l') = (let* a := mapM f l in let* b := mapM f l' in Ok (a ++ b)).
Proof.
  induction l as [|x l IH]; cbn [app mapM obind].
  - destruct (mapM f l'); reflexivity.
  - rewrite IH. destruct (f x); cbn [obind]; auto. rewrite !obind_assoc. destruct (mapM f l); cbn [obind]; auto.
    destruct (mapM f l'); reflexivity.
Qed.
Lemma items_shift c : forall (l : list A) s, mapM (fun ia => work (c + fst ia)%nat (snd ia)) (combine (seq s (length l)) l) =
  mapM (fun ia => work (fst ia) (snd ia)) (combine (seq (c + s) (length l)) l).
Proof.
  induction l as [|x l IH]; intros s; cbn [length seq combine mapM fst snd]; auto. rewrite IH.
  replace (c + S s)%nat with (S (c + s)) by lia. reflexivity.
Qed.
Lemma items_split : forall (l l' : list A) s,
  combine (seq s (length (l ++ l'))) (l ++ l') = combine (seq s (length l)) l ++ combine (seq (s + length l) (length l')) l'.
Proof.
  induction l as [|x l IH]; intros l' s; cbn [app length seq combine].
  - now rewrite Nat.add_0_r.
  - rewrite IH. replace (s + S (length l))%nat with (S s + length l)%nat by lia. reflexivity.
Qed.
Lemma par_items_seq_from k : (1 <= k)%nat -> forall fuel l c, (length l <= fuel)%nat ->
  (let* rs := mapM (fun c : nat * list A =>
      mapM (fun ia : nat * A => work (fst c * k + fst ia)%nat (snd ia)) (enumerate (snd c)))
    (combine (seq c (length (chunks_fuel fuel k l))) (chunks_fuel fuel k l)) in Ok (concat rs))
  = mapM (fun ia => work (fst ia) (snd ia)) (combine (seq (c * k) (length l)) l).
Proof.
  intros Hk. induction fuel as [|fuel IH]; intros l c F.
  - destruct l; [reflexivity|cbn in F; lia].
  - destruct l as [|x l0] eqn:El; [reflexivity|]. rewrite <- El in *.
    rewrite chunks_cons by (rewrite El; discriminate). cbn [length seq combine mapM fst snd].
    unfold enumerate at 1. rewrite items_shift, Nat.add_0_r.
    rewrite <- (firstn_skipn k l) at 3 4. rewrite items_split, items_app, !obind_assoc.
    destruct (mapM _ (combine (seq (c * k) (length (firstn k l))) (firstn k l))) as [r| | |]; cbn [obind]; auto.
    assert (0 < length l)%nat by (rewrite El; cbn; lia).
    assert (E : combine (seq (c * k + length (firstn k l)) (length (skipn k l))) (skipn k l) =
      combine (seq (S c * k) (length (skipn k l))) (skipn k l)).
    { rewrite firstn_length. destruct (Nat.le_gt_cases k (length l)); [do 2 f_equal; lia|]. rewrite skipn_all2 by lia. reflexivity. }
    rewrite E, <- IH by (rewrite skipn_length; lia). rewrite !obind_assoc. destruct (mapM _ _); reflexivity.
Qed.
Lemma par_items_any k k' l : (1 <= k)%nat -> (1 <= k')%nat -> par_items k l work = par_items k' l work.
Proof.
  intros Hk Hk'. unfold par_items, chunks_mut. rewrite !(proj2 (Nat.eqb_neq _ _)) by lia. cbn [obind].
  exact (eq_trans (par_items_seq_from k Hk (length l) l 0 (Nat.le_refl _)) (eq_sym (par_items_seq_from k' Hk' (length l) l 0 (Nat.le_refl _)))).
Qed.
End Items.

(** The number of rows per worker is positive or there is none, whatever the number of cores. *)
Lemma chunk_any {B} rows cores cores' (f : nat -> outcome B) : (1 <= cores)%nat -> (1 <= cores')%nat ->
  (forall k k', (1 <= k)%nat -> (1 <= k')%nat -> f k = f k') ->
  (let* tc := pick_suitable_thread_count cores rows in let* k := udiv rows tc in f k) =
  (let* tc := pick_suitable_thread_count cores' rows in let* k := udiv rows tc in f k).
Proof.
  intros Hc Hc' H. destruct (Nat.eq_dec rows 0) as [->|Hr].
  - unfold pick_suitable_thread_count. rewrite !(proj2 (Nat.ltb_lt 0 _)) by lia. reflexivity.
  - destruct (rows_in_chunk_ok cores rows Hc) as [tc [k [E [E1 Hk]]]]; [lia|].
    destruct (rows_in_chunk_ok cores' rows Hc') as [tc' [k' [E' [E1' Hk']]]]; [lia|].
    rewrite E, E'. cbn [obind]. rewrite E1, E1'. cbn [obind]. now apply H.
Qed.

(** ** The two multiplications *)
Lemma clmul64_lo a b : clmul64 a b = pmulx (lo64 a) b.
Proof. unfold clmul64. rewrite clmul64_prefix. reflexivity. Qed.
Lemma le_value_prefix b : bytes_ok b -> (16 <= length b)%nat -> le_value (firstn 16 b) < 2 ^ 128.
Proof. intros H L. apply le_value16_lt; [rewrite firstn_length; lia|]. unfold bytes_ok in *. apply Forall_forall. intros x Hx. apply (proj1 (Forall_forall _ _) H). rewrite <- (firstn_skipn 16 b). apply in_or_app. now left. Qed.
Lemma mul_acc_any acc x y : bytes_ok y -> ap_mul_acc_x86 acc x y = ap_mul_acc_arm64 acc x y.
Proof.
  intros Hy. unfold ap_mul_acc_x86, ap_mul_acc_arm64. destruct (read128 x) as [a| | |]; cbn [obind]; auto.
  unfold read128. destruct (Nat.leb_spec 16 (length y)) as [L|L]; cbn [obind]; auto.
  pose proof (le_value_prefix y Hy L) as Hb. set (b := le_value (firstn 16 y)) in *. clearbody b.
  unfold mm_clmulepi64. change (N.testbit 0 0) with false. change (N.testbit 0 4) with false.
  change (N.testbit 17 0) with true. change (N.testbit 17 4) with true. change (N.testbit 1 0) with true.
  change (N.testbit 1 4) with false. change (N.testbit 16 0) with false. change (N.testbit 16 4) with true. cbn iota.
  unfold lane, p64x2_of, p128_of, vextq1, mm_xor, mm_bslli_8, mm_bsrli_8. cbn [fst snd].
  rewrite !clmul64_lo. rewrite (N.lxor_comm (pmulx (lo64 (hi64 a)) (lo64 b))).
  assert (H1 : pmulx (lo64 (hi64 a)) (hi64 b) < 2 ^ 128) by (apply (pm_lt _ _ 64 64); [apply lo64_lt|now apply hi64_lt]).
  assert (He : N.lxor (pmulx (lo64 (lo64 a)) (hi64 b)) (pmulx (lo64 (hi64 a)) (lo64 b)) < 2 ^ 128).
  { apply lxor_lt2; apply (pm_lt _ _ 64 64); auto using lo64_lt, hi64_lt. }
  generalize dependent (N.lxor (pmulx (lo64 (lo64 a)) (hi64 b)) (pmulx (lo64 (hi64 a)) (lo64 b))).
  generalize dependent (pmulx (lo64 (hi64 a)) (hi64 b)). generalize (pmulx (lo64 (lo64 a)) (lo64 b)). intros c d H1 ef He.
  replace (join64 0 (hi64 ef)) with (N.shiftr ef 64) by reflexivity.
  replace (join64 (lo64 ef) 0) with (shl128 ef 64).
  - rewrite reduce_x86_ok; [reflexivity|]. apply lxor_lt2; [exact H1|].
    eapply lt_pow_le; [apply (shiftr_lt ef 64 64); exact He|lia].
  - rewrite join64_lxor by reflexivity. rewrite N.lxor_0_r. apply N.bits_inj. intros k.
    rewrite shl_bits, shl128_bits, lo64_bits. cmps; auto.
Qed.
Lemma ap_mul_acc_any a a' acc x y : bytes_ok y -> ap_mul_acc a acc x y = ap_mul_acc a' acc x y.
Proof. intros H. destruct a, a'; cbn; auto; [|symmetry]; now apply mul_acc_any. Qed.

Lemma row_bytes_ok v i w r : bytes_ok v -> vector_row v i w = Ok r -> bytes_ok r.
Proof.
  intros H. unfold vector_row. destruct (Nat.leb _ _); [|discriminate]. intros [= <-]. unfold bytes_ok in *.
  apply Forall_forall. intros x Hx. apply (proj1 (Forall_forall _ _) H). rewrite <- (firstn_skipn (w * i) v). apply in_or_app. right.
  rewrite <- (firstn_skipn w (skipn (w * i) v)). apply in_or_app. now left.
Qed.

Lemma slice_length v o n x : vector_slice v o n = Ok x -> length x = n.
Proof. unfold vector_slice. destruct (Nat.leb_spec (o + n) (length v)); [|discriminate]. intros [= <-]. rewrite firstn_length, skipn_length. lia. Qed.

(** ** The extension *)
Section Extension.
Variable sha : bytes -> bytes.
Variable fill : bytes -> nat -> bytes.
Hypothesis Hfill : generator fill.
Variable p : profile.
Variables a a' : arch.
Variables cores cores' : nat.
Hypothesis Hc : (1 <= cores)%nat.
Hypothesis Hc' : (1 <= cores')%nat.

Lemma row_sum_any m chi w h : bytes_ok chi -> row_sum a m chi w h = row_sum a' m chi w h.
Proof using.
  intros H. apply foldM_ext. intros acc i _. destruct (vector_row m i w); cbn [obind]; auto.
  destruct (vector_row chi i w) as [r| | |] eqn:E; cbn [obind]; auto. apply ap_mul_acc_any. now apply (row_bytes_ok chi i w).
Qed.
Lemma receiver_sums_any t chi padded w h : bytes_ok chi -> receiver_sums p a t chi padded w h = receiver_sums p a' t chi padded w h.
Proof using.
  intros H. apply foldM_ext. intros [x y] i _. destruct (vector_row chi i w) as [r| | |] eqn:E; cbn [obind]; auto.
  destruct (idx padded i); cbn [obind]; auto. match goal with |- obind ?q _ = _ => destruct q; cbn [obind]; auto end.
  destruct (vector_row t i w); cbn [obind]; auto. rewrite (ap_mul_acc_any a a'); [reflexivity|]. now apply (row_bytes_ok chi i w).
Qed.
Lemma sender_check_any q_sum delta x_sum t_sum w : bytes_ok delta ->
  sender_check p a q_sum delta x_sum t_sum w = sender_check p a' q_sum delta x_sum t_sum w.
Proof using. intros H. unfold sender_check. now rewrite (ap_mul_acc_any a a' q_sum x_sum delta H). Qed.

Lemma ok_xor_inplace d r x : xor_inplace p d r = Ok x -> length x = length d.
Proof using. intros E. pose proof (keeps_xor_inplace p d r) as H. rewrite E in H. exact H. Qed.
Lemma randomize_row_length q delta w s ms i row r : randomize_row sha fill p q delta w s ms i row = Ok r -> length r = (s * 2)%nat.
Proof using Hfill.
  unfold randomize_row. destruct (vector_row q i w); cbn [obind]; try discriminate. destruct (idx ms i); cbn [obind]; try discriminate.
  destruct (vector_slice row 0 s) as [x| | |] eqn:E1; cbn [obind]; try discriminate.
  destruct (xor_inplace p _ (fst _)) as [e0| | |] eqn:E2; cbn [obind]; try discriminate.
  destruct (ap_xor _ _ _ _); cbn [obind]; try discriminate.
  destruct (vector_slice row s s) as [y| | |] eqn:E3; cbn [obind]; try discriminate.
  destruct (xor_inplace p _ (snd _)) as [e1| | |] eqn:E4; cbn [obind]; try discriminate. intros [= <-].
  apply ok_xor_inplace in E2, E4. rewrite app_length, E2, E4, !(proj1 (Hfill _ _)), (slice_length _ _ _ _ E1), (slice_length _ _ _ _ E3). clear. lia.
Qed.
Lemma randomize_any q delta w s ms : randomize sha fill p cores q delta w s ms = randomize sha fill p cores' q delta w s ms.
Proof using Hc Hc' Hfill.
  unfold randomize. cbv zeta. apply chunk_any; auto. intros k k' Hk Hk'.
  apply par_rows_any with (rows := length ms); auto; [|rewrite repeat_length; lia].
  intros i row r _. apply randomize_row_length.
Qed.
Lemma compute_v_any t w h : compute_v sha p cores t w h = compute_v sha p cores' t w h.
Proof using Hc Hc'.
  unfold compute_v. apply chunk_any; auto. intros k k' Hk Hk'.
  apply par_rows_any with (rows := h); auto; [|now rewrite repeat_length].
  intros i row r L. destruct (vector_row t i w); cbn [obind]; try discriminate. intros E. apply ok_xor_inplace in E. lia.
Qed.
Lemma derandomize_any v packed d s n : derandomize fill p cores v packed d s n = derandomize fill p cores' v packed d s n.
Proof using Hc Hc'.
  unfold derandomize. destruct (udiv (length d / 2) n) as [m| | |]; cbn [obind]; auto. apply chunk_any; auto. intros k k' Hk Hk'. now apply par_items_any.
Qed.
Lemma ap_sender_any cu delta boot boot' ms : bytes_ok delta -> (forall bs, peq (boot bs) (boot' bs)) ->
  peq (ap_sender sha fill p a cores cu delta boot ms) (ap_sender sha fill p a' cores' cu delta boot' ms).
Proof using Hc Hc' Hfill.
  intros Hd Hb. unfold ap_sender. cbv zeta. do 5 (apply pbind_peq; intros ?).
  apply peq_bind; [apply Hb|]. intros pay. do 5 (apply pbind_peq; intros ?).
  apply peq_bind; [apply peq_lift, row_sum_any, Hfill|]. intros qs. do 2 (apply pbind_peq; intros ?).
  apply peq_bind; [apply peq_lift, sender_check_any, Hd|]. intros _.
  apply peq_bind; [apply peq_lift, randomize_any|intros; apply peq_refl].
Qed.
Lemma ap_receiver_any cv bonus seed0 seed1 boot boot' cs : (forall ms, peq (boot ms) (boot' ms)) ->
  peq (ap_receiver sha fill p a cores cv bonus seed0 seed1 boot cs) (ap_receiver sha fill p a' cores' cv bonus seed0 seed1 boot' cs).
Proof using Hc Hc' Hfill.
  intros Hb. unfold ap_receiver. cbv zeta. do 5 (apply pbind_peq; intros ?).
  apply peq_bind; [apply Hb|]. intros _. do 5 (apply pbind_peq; intros ?).
  apply peq_bind; [apply peq_lift, receiver_sums_any, Hfill|]. intros [x_sum t_sum].
  do 2 (apply pbind_peq; intros ?). apply peq_bind; [apply peq_lift, compute_v_any|]. intros v.
  apply pbind_peq. intros d. apply peq_lift, derandomize_any.
Qed.
End Extension.
