(** Facts about row-wise updates and workers. *)
From Coq Require Import List NArith Bool Lia Arith Permutation.
From Verif Require Import Base MUtil MPar SpecUtil SpecBitMatrix PBase.
Import ListNotations.
Open Scope N_scope.

(** Row i of a flat buffer of rows of w bytes. *)
Definition frow (w : nat) (v : bytes) (i : nat) : bytes := firstn w (skipn (w * i) v).

Lemma vector_row_ok v i w : (w * i + w <= length v)%nat -> vector_row v i w = Ok (frow w v i).
Proof. intros H. unfold vector_row. now rewrite (proj2 (Nat.leb_le _ _) H). Qed.
Lemma vector_row_set_ok v i w new : (w * i + w <= length v)%nat ->
  vector_row_set v i w new = Ok (firstn (w * i) v ++ new ++ skipn (w * i + w) v).
Proof. intros H. unfold vector_row_set. now rewrite (proj2 (Nat.leb_le _ _) H). Qed.
Lemma frow_length w v i : (w * i + w <= length v)%nat -> length (frow w v i) = w.
Proof. intros H. unfold frow. rewrite firstn_length, skipn_length. lia. Qed.
Lemma frow_ok w v i : bytes_ok v -> bytes_ok (frow w v i).
Proof. intros H. unfold frow. apply Forall_firstn, Forall_skipn, H. Qed.

Lemma skipn_skipn' {A} a b (l : list A) : skipn a (skipn b l) = skipn (b + a) l.
Proof. revert l; induction b as [|b IH]; intros l; cbn; auto. destruct l; [now rewrite skipn_nil|apply IH]. Qed.

Lemma concat_length_w w (g : nat -> bytes) s n : (forall i, (s <= i < s + n)%nat -> length (g i) = w) ->
  length (concat (map g (seq s n))) = (w * n)%nat.
Proof.
  revert s; induction n as [|n IH]; intros s H; cbn; [lia|].
  rewrite app_length, IH by (intros; apply H; lia). rewrite H by lia. lia.
Qed.
Lemma concat_ok (g : nat -> bytes) s n : (forall i, (s <= i < s + n)%nat -> bytes_ok (g i)) ->
  bytes_ok (concat (map g (seq s n))).
Proof.
  revert s; induction n as [|n IH]; intros s H; cbn; [constructor|].
  apply Forall_app; split; [apply H; lia|]. apply IH. intros; apply H; lia.
Qed.
Lemma frow_app_r w a b i : (length a <= w * i)%nat -> frow w (a ++ b) i = firstn w (skipn (w * i - length a) b).
Proof. intros H. unfold frow. rewrite skipn_app, skipn_all2 by lia. reflexivity. Qed.

Lemma frow_concat w (g : nat -> bytes) n i : (forall i, (i < n)%nat -> length (g i) = w) -> (i < n)%nat ->
  frow w (concat (map g (seq 0 n))) i = g i.
Proof.
  intros H Hi.
  replace n with (i + S (n - S i))%nat by lia.
  rewrite seq_app, map_app, concat_app. cbn [Nat.add].
  assert (L : length (concat (map g (seq 0 i))) = (w * i)%nat) by (apply concat_length_w; intros; apply H; lia).
  rewrite frow_app_r by lia. rewrite L, Nat.sub_diag. cbn [seq map concat skipn].
  rewrite firstn_app, (H i Hi), Nat.sub_diag, firstn_O, app_nil_r. apply firstn_all2. rewrite H; lia.
Qed.
Lemma frow_zeros w n i : (w * i + w <= n)%nat -> frow w (repeat 0 n) i = repeat 0 w.
Proof.
  intros H. unfold frow. replace n with (w * i + (w + (n - w - w * i)))%nat by lia.
  rewrite !repeat_app, skipn_app, skipn_all2 by (rewrite repeat_length; lia).
  rewrite repeat_length, Nat.sub_diag. cbn [app skipn].
  rewrite firstn_app, repeat_length, Nat.sub_diag, firstn_O, app_nil_r.
  apply firstn_all2. rewrite repeat_length. lia.
Qed.

Lemma update_rows_ok w h v f g : length v = (w * h)%nat ->
  (forall i, (i < h)%nat -> f i (frow w v i) = Ok (g i) /\ length (g i) = w) ->
  update_rows v h w f = Ok (concat (map g (seq 0 h))).
Proof.
  intros L H. unfold update_rows.
  assert (K : forall k, (k <= h)%nat ->
    foldM (row_step w f) (seq 0 k) v = Ok (concat (map g (seq 0 k)) ++ skipn (w * k) v)).
  { induction k as [|k IH]; intros Hk.
    - cbn. now rewrite Nat.mul_0_r.
    - rewrite seq_S, foldM_app, IH by lia. cbn [obind foldM Nat.add].
      assert (Lc : length (concat (map g (seq 0 k))) = (w * k)%nat).
      { apply concat_length_w. intros; apply H; lia. }
      assert (Lt : length (concat (map g (seq 0 k)) ++ skipn (w * k) v) = (w * h)%nat).
      { rewrite app_length, Lc, skipn_length. nia. }
      unfold row_step. rewrite vector_row_ok by (rewrite Lt; nia). cbn [obind].
      rewrite frow_app_r by lia. rewrite Lc, Nat.sub_diag. cbn [skipn].
      fold (frow w v k). destruct (H k ltac:(lia)) as [-> Lg]. cbn [obind].
      rewrite vector_row_set_ok by (rewrite Lt; nia). cbn [obind]. f_equal.
      rewrite map_app, concat_app. cbn [map concat]. rewrite app_nil_r.
      rewrite firstn_app, Lc, Nat.sub_diag, firstn_O, app_nil_r, firstn_all2 by lia.
      rewrite skipn_app, skipn_all2 by lia. cbn [app]. rewrite Lc.
      rewrite skipn_skipn'. replace (w * k + (w * k + w - w * k))%nat with (w * S k)%nat by lia.
      now rewrite <- app_assoc. }
  rewrite (K h (Nat.le_refl h)), skipn_all2 by lia. now rewrite app_nil_r.
Qed.

(** Chunks. *)
Lemma enum_from {A} s (l : list A) : forall i a, nth_error (combine (seq s (length l)) l) i = Some a ->
  fst a = (s + i)%nat /\ nth_error l i = Some (snd a).
Proof.
  revert s; induction l as [|x l IH]; intros s [|i] a; cbn; try discriminate.
  - intros [= <-]. cbn. split; [lia|reflexivity].
  - intros H. destruct (IH (S s) i a H). split; [lia|auto].
Qed.

Lemma chunks_cons {A} fuel k (l : list A) : l <> [] ->
  chunks_fuel (S fuel) k l = firstn k l :: chunks_fuel fuel k (skipn k l).
Proof. destruct l; [congruence|reflexivity]. Qed.
Lemma chunks_nil {A} fuel k : chunks_fuel fuel k (@nil A) = [].
Proof. destruct fuel; reflexivity. Qed.

Lemma frow_firstn w n v i : (w * i + w <= n)%nat -> frow w (firstn n v) i = frow w v i.
Proof.
  intros H. unfold frow. rewrite skipn_firstn_comm, firstn_firstn. f_equal. lia.
Qed.
Lemma frow_skipn w k v i : frow w (skipn (w * k) v) i = frow w v (k + i).
Proof. unfold frow. rewrite skipn_skipn'. do 2 f_equal. lia. Qed.

Lemma map_seq_shift {B} (g : nat -> B) a n : map (fun i => g (a + i)%nat) (seq 0 n) = map g (seq a n).
Proof.
  revert a; induction n as [|n IH]; intros a; cbn; auto. rewrite Nat.add_0_r. f_equal.
  rewrite <- (IH (S a)), <- seq_shift, map_map. apply map_ext. intros; f_equal; lia.
Qed.

Lemma par_rows_from k w work g : (1 <= k)%nat -> (1 <= w)%nat -> forall fuel rows buf c,
  length buf = (w * rows)%nat -> (rows <= fuel)%nat ->
  (forall i, (i < rows)%nat -> work (c * k + i)%nat (frow w buf i) = Ok (g (c * k + i)%nat) /\ length (g (c * k + i)%nat) = w) ->
  exists rs, mapM (fun c : nat * bytes =>
      update_rows (snd c) (length (snd c) / w) w (fun i row => work (fst c * k + i)%nat row))
    (combine (seq c (length (chunks_fuel fuel (k * w) buf))) (chunks_fuel fuel (k * w) buf)) = Ok rs /\
    concat rs = concat (map g (seq (c * k) rows)).
Proof.
  intros Hk Hw. induction fuel as [|fuel IH]; intros rows buf c L F H.
  - assert (rows = 0)%nat by lia. subst. exists []. split; reflexivity.
  - destruct rows as [|rows0] eqn:Er.
    + destruct buf; [|cbn in L; lia]. exists []. split; reflexivity.
    + rewrite <- Er in *.
      rewrite chunks_cons by (intros ->; cbn in L; nia).
      set (m := Nat.min k rows).
      assert (Lf : length (firstn (k * w) buf) = (w * m)%nat) by (rewrite firstn_length; unfold m; nia).
      assert (Ef : firstn (k * w) buf = firstn (w * m) buf).
      { unfold m. destruct (Nat.min_spec k rows) as [[A ->]|[A ->]]; [f_equal; lia|]. rewrite !firstn_all2 by nia. reflexivity. }
      destruct (IH (rows - m)%nat (skipn (k * w) buf) (S c)) as [rs [E1 E2]].
      * rewrite skipn_length. unfold m. nia.
      * unfold m. lia.
      * intros i Hi. assert (m = k) by (unfold m in *; lia).
        replace (k * w)%nat with (w * k)%nat by lia. rewrite frow_skipn.
        replace (S c * k + i)%nat with (c * k + (k + i))%nat by lia. apply H. lia.
      * exists (concat (map (fun i => g (c * k + i)%nat) (seq 0 m)) :: rs).
        cbn [length seq combine mapM snd fst].
        replace (length (firstn (k * w) buf) / w)%nat with m by (rewrite Lf, Nat.mul_comm, Nat.div_mul; lia).
        rewrite (update_rows_ok w m (firstn (k * w) buf) _ (fun i => g (c * k + i)%nat)).
        -- cbn [obind]. rewrite E1. cbn [obind]. split; [reflexivity|].
           cbn [concat]. rewrite E2, map_seq_shift.
           replace rows with (m + (rows - m))%nat at 2 by (unfold m; lia).
           rewrite seq_app, map_app, concat_app. f_equal.
           destruct (Nat.min_spec k rows) as [[A B]|[A B]]; fold m in B.
           ++ replace (S c * k)%nat with (c * k + m)%nat by lia. reflexivity.
           ++ rewrite B, Nat.sub_diag. reflexivity.
        -- exact Lf.
        -- intros i Hi. rewrite Ef, frow_firstn by nia. apply H. unfold m in Hi. lia.
Qed.

Lemma par_rows_ok w k work g rows buf : (1 <= k)%nat -> (1 <= w)%nat -> length buf = (w * rows)%nat ->
  (forall i, (i < rows)%nat -> work i (frow w buf i) = Ok (g i) /\ length (g i) = w) ->
  par_rows w k buf work = Ok (concat (map g (seq 0 rows))).
Proof.
  intros Hk Hw L H. unfold par_rows, chunks_mut.
  rewrite (proj2 (Nat.eqb_neq _ _)) by nia. cbn [obind]. unfold enumerate.
  destruct (par_rows_from k w work g Hk Hw (length buf) rows buf 0 L) as [rs [E1 E2]]; [nia|exact H|].
  rewrite E1. cbn [obind]. now rewrite E2.
Qed.

Lemma par_items_from {A} (d : A) k work (g : nat -> A) : (1 <= k)%nat -> forall fuel l c,
  (length l <= fuel)%nat -> (forall i, (i < length l)%nat -> work (c * k + i)%nat (nth i l d) = Ok (g (c * k + i)%nat)) ->
  exists rs, mapM (fun c : nat * list A =>
      mapM (fun ia : nat * A => work (fst c * k + fst ia)%nat (snd ia)) (enumerate (snd c)))
    (combine (seq c (length (chunks_fuel fuel k l))) (chunks_fuel fuel k l)) = Ok rs /\
    concat rs = map g (seq (c * k) (length l)).
Proof.
  intros Hk. induction fuel as [|fuel IH]; intros l c F H.
  - destruct l; [|cbn in F; lia]. exists []. split; reflexivity.
  - destruct l as [|x l0] eqn:El.
    + exists []. split; reflexivity.
    + rewrite <- El in *. rewrite chunks_cons by (rewrite El; discriminate).
      set (m := Nat.min k (length l)).
      assert (Lf : length (firstn k l) = m) by (rewrite firstn_length; reflexivity).
      assert (Lk : (0 < length l)%nat) by (rewrite El; cbn; lia).
      destruct (IH (skipn k l) (S c)) as [rs [E1 E2]].
      * rewrite skipn_length. lia.
      * intros i Hi. rewrite skipn_length in Hi. rewrite nth_skipn.
        replace (S c * k + i)%nat with (c * k + (k + i))%nat by lia. apply H. lia.
      * exists (map (fun i => g (c * k + i)%nat) (seq 0 m) :: rs).
        cbn [length seq combine mapM snd fst].
        assert (E : mapM (fun ia : nat * A => work (c * k + fst ia)%nat (snd ia)) (enumerate (firstn k l)) =
          Ok (map (fun i => g (c * k + i)%nat) (seq 0 m))).
        { unfold enumerate. rewrite Lf.
          assert (G : forall n s f, length f = n -> (forall i, (i < n)%nat -> work (c * k + (s + i))%nat (nth i f d) = Ok (g (c * k + (s + i))%nat)) ->
            mapM (fun ia : nat * A => work (c * k + fst ia)%nat (snd ia)) (combine (seq s n) f) = Ok (map (fun i => g (c * k + i)%nat) (seq s n))).
          { induction n as [|n IHn]; intros s [|y f] Lff Hf; cbn in Lff; try lia; cbn; auto.
            pose proof (Hf 0%nat ltac:(lia)) as H0. cbn in H0. rewrite Nat.add_0_r in H0. rewrite H0. cbn [obind].
            rewrite (IHn (S s) f) by (try lia; intros i Hi; replace (S s + i)%nat with (s + S i)%nat by lia; apply (Hf (S i)); lia).
            reflexivity. }
          apply G; [exact Lf|]. intros i Hi. cbn [Nat.add]. rewrite nth_firstn by (unfold m in Hi; lia). apply H. unfold m in Hi; lia. }
        rewrite E. cbn [obind]. rewrite E1. cbn [obind]. split; [reflexivity|].
        cbn [concat]. rewrite E2, skipn_length, map_seq_shift.
        replace (length l) with (m + (length l - m))%nat at 2 by (unfold m; lia).
        rewrite seq_app, map_app. f_equal.
        destruct (Nat.min_spec k (length l)) as [[A1 B]|[A1 B]]; fold m in B.
        -- rewrite B. replace (S c * k)%nat with (c * k + k)%nat by lia. reflexivity.
        -- replace (length l - k)%nat with 0%nat by lia. rewrite B, Nat.sub_diag. reflexivity.
Qed.
Lemma par_items_ok {A} (d : A) k work (g : nat -> A) l : (1 <= k)%nat ->
  (forall i, (i < length l)%nat -> work i (nth i l d) = Ok (g i)) ->
  par_items k l work = Ok (map g (seq 0 (length l))).
Proof.
  intros Hk H. unfold par_items, chunks_mut.
  rewrite (proj2 (Nat.eqb_neq _ _)) by lia. cbn [obind].
  destruct (par_items_from d k work g Hk (length l) l 0 (Nat.le_refl _) H) as [rs [E1 E2]].
  change (enumerate (chunks_fuel (length l) k l)) with (combine (seq 0 (length (chunks_fuel (length l) k l))) (chunks_fuel (length l) k l)).
  rewrite E1. cbn [obind]. now rewrite E2.
Qed.

Lemma threads_ok cores rows : (1 <= cores)%nat -> (1 <= rows)%nat ->
  exists tc, pick_suitable_thread_count cores rows = Ok tc /\ (1 <= tc <= rows)%nat.
Proof.
  intros Hc Hr. unfold pick_suitable_thread_count.
  destruct (Nat.ltb_spec rows cores) as [H|H]; [exists rows; split; [reflexivity|lia]|].
  rewrite (proj2 (Nat.eqb_neq _ _)) by lia.
  destruct (Nat.eqb_spec (rows mod cores) 0) as [E|E]; [exists cores; split; [reflexivity|lia]|].
  exists (rows / cores)%nat. split; [reflexivity|]. split; [apply Nat.div_le_lower_bound; lia|].
  apply Nat.div_le_upper_bound; nia.
Qed.
Lemma udiv_ok a b : (1 <= b)%nat -> udiv a b = Ok (a / b)%nat.
Proof. intros H. unfold udiv. now rewrite (proj2 (Nat.eqb_neq _ _)) by lia. Qed.
Lemma rows_in_chunk_ok cores rows : (1 <= cores)%nat -> (1 <= rows)%nat ->
  exists tc k, pick_suitable_thread_count cores rows = Ok tc /\ udiv rows tc = Ok k /\ (1 <= k)%nat.
Proof.
  intros Hc Hr. destruct (threads_ok cores rows Hc Hr) as [tc [E B]].
  exists tc, (rows / tc)%nat. split; [exact E|]. split; [apply udiv_ok; lia|].
  apply Nat.div_le_lower_bound; lia.
Qed.

(** ** Any order of the row operations *)
Lemma frow_set w (v : bytes) i j (new : bytes) : (w * i + w <= length v)%nat -> length new = w ->
  frow w (firstn (w * i) v ++ new ++ skipn (w * i + w) v) j = if Nat.eqb j i then new else frow w v j.
Proof.
  intros H L. assert (Lf : length (firstn (w * i) v) = (w * i)%nat) by (rewrite firstn_length; lia).
  destruct (Nat.eqb_spec j i) as [->|N].
  - rewrite frow_app_r by lia. rewrite Lf, Nat.sub_diag. cbn [skipn].
    rewrite firstn_app, L, Nat.sub_diag, firstn_O, app_nil_r. apply firstn_all2. lia.
  - destruct (Nat.lt_ge_cases j i) as [Hj|Hj].
    + unfold frow at 1. rewrite skipn_app, Lf.
      replace (w * j - w * i)%nat with 0%nat by nia. cbn [skipn].
      rewrite firstn_app. rewrite (skipn_length (w * j) (firstn (w * i) v)), Lf.
      replace (w - (w * i - w * j))%nat with 0%nat by nia. rewrite firstn_O, app_nil_r.
      apply (frow_firstn w (w * i) v j). nia.
    + rewrite frow_app_r by nia. rewrite Lf. rewrite skipn_app, L.
      rewrite (skipn_all2 new) by nia. cbn [app]. rewrite skipn_skipn'. unfold frow. do 2 f_equal. nia.
Qed.
Lemma set_length w (v : bytes) i (new : bytes) : (w * i + w <= length v)%nat -> length new = w ->
  length (firstn (w * i) v ++ new ++ skipn (w * i + w) v) = length v.
Proof. intros. rewrite !app_length, firstn_length, skipn_length. lia. Qed.
Lemma rows_eta w rows (v : bytes) : length v = (w * rows)%nat -> concat (map (frow w v) (seq 0 rows)) = v.
Proof.
  intros L. assert (K : forall k, (k <= rows)%nat -> concat (map (frow w v) (seq 0 k)) = firstn (w * k) v).
  { induction k as [|k IH]; intros Hk; [now rewrite Nat.mul_0_r|].
    rewrite seq_S, map_app, concat_app, IH by lia. cbn [Nat.add map concat]. rewrite app_nil_r.
    rewrite <- (firstn_skipn (w * k) v) at 3. rewrite firstn_app, firstn_length.
    rewrite (firstn_all2 (firstn (w * k) v)) by (rewrite firstn_length; lia).
    f_equal. unfold frow. f_equal. nia. }
  rewrite K by lia. apply firstn_all2. lia.
Qed.

Lemma any_order w rows (buf : bytes) work (g : nat -> bytes) order : length buf = (w * rows)%nat ->
  (forall i, (i < rows)%nat -> work i (frow w buf i) = Ok (g i) /\ length (g i) = w) ->
  Permutation order (seq 0 rows) ->
  foldM (row_step w work) order buf = Ok (concat (map g (seq 0 rows))).
Proof.
  intros L H P.
  assert (K : forall o done v, NoDup (done ++ o) -> (forall i, In i (done ++ o) -> (i < rows)%nat) ->
    length v = (w * rows)%nat ->
    (forall i, (i < rows)%nat -> (In i done -> frow w v i = g i) /\ (~ In i done -> frow w v i = frow w buf i)) ->
    exists v', foldM (row_step w work) o v = Ok v' /\ length v' = (w * rows)%nat /\
      (forall i, (i < rows)%nat -> In i (done ++ o) -> frow w v' i = g i)).
  { induction o as [|i o IH]; intros done v ND B Lv Hv; cbn [foldM].
    - exists v. split; [reflexivity|]. split; [exact Lv|]. rewrite app_nil_r. intros j Hj. apply Hv; auto.
    - assert (Hi : (i < rows)%nat) by (apply B, in_or_app; right; now left).
      assert (Ni : ~ In i done).
      { intros C. apply NoDup_remove_2 in ND. apply ND, in_or_app. now left. }
      unfold row_step at 1. rewrite vector_row_ok by (rewrite Lv; nia). cbn [obind].
      rewrite (proj2 (Hv i Hi) Ni). destruct (H i Hi) as [-> Lg]. cbn [obind].
      rewrite vector_row_set_ok by (rewrite Lv; nia). cbn [obind].
      destruct (IH (done ++ [i]) (firstn (w * i) v ++ g i ++ skipn (w * i + w) v)) as (v' & E & L' & G).
      + now rewrite <- app_assoc.
      + intros j Hj. apply B. now rewrite <- app_assoc in Hj.
      + rewrite set_length; auto. rewrite Lv; nia.
      + intros j Hj. rewrite frow_set by (auto; rewrite Lv; nia). destruct (Nat.eqb_spec j i) as [->|N].
        * split; auto. intros C. exfalso. apply C, in_or_app. right. now left.
        * split; intros C; apply Hv; auto.
          { apply in_app_or in C. destruct C as [C|[C|[]]]; auto. congruence. }
          { intros D. apply C, in_or_app. now left. }
      + exists v'. split; [exact E|]. split; [exact L'|]. intros j Hj Hin. apply G; auto. now rewrite <- app_assoc. }
  destruct (K order [] buf) as (v' & E & L' & G).
  - cbn. apply (Permutation_NoDup (Permutation_sym P)), seq_NoDup.
  - cbn. intros i Hi. apply (Permutation_in _ P), in_seq in Hi. lia.
  - exact L.
  - intros i Hi. split; [intros []|auto].
  - rewrite E. f_equal. rewrite <- (rows_eta w rows v' L'). f_equal. apply map_ext_in. intros i Hi. apply in_seq in Hi.
    apply G; [lia|]. cbn. apply (Permutation_in _ (Permutation_sym P)), in_seq. lia.
Qed.
