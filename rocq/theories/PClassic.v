(** The first version of the OT extension: an honest run. *)
From Coq Require Import List NArith Bool Lia Arith.
From Verif Require Import Base MUtil MWires MBitMatrix MPoly MPar MBincode MProc MOt MApricot MClassic.
From Verif Require Import SpecUtil SpecBitMatrix SpecPoly SpecBincode SpecOt SpecApricot SpecClassic.
From Verif Require Import PBase PUtil PBitMatrix PPoly PPar PBincode PProc POt PApricotA PApricot PApricotRun PApricotRun2.
Import ListNotations.
Open Scope N_scope.

Lemma nth_map_seq {A} (f : nat -> A) n i d : (i < n)%nat -> nth i (map f (seq 0 n)) d = f i.
Proof. intros H. rewrite (nth_indep _ d (f 0%nat)) by (now rewrite map_length, seq_length). rewrite map_nth, seq_nth; auto. Qed.
Lemma tabulate {A} (l : list A) d n : length l = n -> l = map (fun i => nth i l d) (seq 0 n).
Proof.
  intros <-. apply (nth_ext_eq _ _ d). { now rewrite map_length, seq_length. }
  intros i Hi. now rewrite nth_map_seq.
Qed.
Lemma combine_maps {A B C} (f : A -> B) (g : A -> C) l : combine (map f l) (map g l) = map (fun i => (f i, g i)) l.
Proof. induction l; cbn; congruence. Qed.
Lemma combine_seq {A B} (f : nat -> A) (g : nat * A -> B) n :
  map g (combine (seq 0 n) (map f (seq 0 n))) = map (fun i => g (i, f i)) (seq 0 n).
Proof. rewrite <- (map_id (seq 0 n)) at 1. rewrite combine_maps, map_map. reflexivity. Qed.
Lemma foldM_map {A B S} (f : S -> B -> outcome S) (g : A -> B) l s : foldM f (map g l) s = foldM (fun s a => f s (g a)) l s.
Proof. revert s. induction l as [|x l IH]; intros s; cbn; auto. destruct (f s (g x)); cbn; auto. Qed.
Lemma forall_map_seq {A} (P : A -> Prop) (f : nat -> A) n : (forall i, (i < n)%nat -> P (f i)) -> Forall P (map f (seq 0 n)).
Proof. intros H. apply Forall_forall. intros y Hy. apply in_map_iff in Hy. destruct Hy as (i & <- & Hi). apply in_seq in Hi. apply H. lia. Qed.

Lemma gf_mul_ok a p acc x y : length acc = 16%nat -> elem x -> elem y ->
  gf128_mul_acc a p acc x y = Ok (le_bytes 16 (N.lxor (le_value acc) (gmul (le_value x) (le_value y)))).
Proof.
  intros L [Lx Hx] [Ly Hy]. destruct a as [[|]|]; cbn [gf128_mul_acc].
  - now apply mul_acc_x86_ok. - now apply mul_acc_arm64_ok. - now apply mul_acc_generic_ok.
Qed.
Lemma poly_from_ok p v : elem v -> poly_from p v = Ok v.
Proof. intros [L H]. unfold poly_from, bv_len, BLOCK_SIZE. rewrite L, debug_ok by reflexivity. reflexivity. Qed.
Lemma bv_xor_ref_ok p d r : length d = length r -> bv_xor_assign_ref p d r = Ok (zipWith N.lxor d r).
Proof.
  intros L. unfold bv_xor_assign_ref. rewrite debug_ok by (apply Nat.eqb_eq; lia). cbn [obind].
  now rewrite (proj2 (Nat.ltb_ge _ _)) by lia.
Qed.
Lemma zip_xx x : zipWith N.lxor x x = repeat 0 (length x).
Proof. induction x as [|b x IH]; cbn; auto. rewrite N.lxor_nilpotent. now rewrite IH. Qed.

Lemma zip_back y t : length y = length t -> zipWith N.lxor (zipWith N.lxor y t) t = y.
Proof.
  revert t. induction y as [|b y IH]; intros [|c t] L; cbn in *; try discriminate; auto.
  rewrite IH by lia. rewrite N.lxor_assoc, N.lxor_nilpotent. now rewrite N.lxor_0_r.
Qed.

(** Sums over rows. *)
Lemma classic_row_sum_ok a p (Q C : nat -> bytes) h : (forall i, (i < h)%nat -> elem (Q i)) -> (forall i, (i < h)%nat -> elem (C i)) ->
  classic_row_sum p a (map Q (seq 0 h)) (map C (seq 0 h)) =
  Ok (le_bytes 16 (xsum (fun i => gmul (le_value (Q i)) (le_value (C i))) h)).
Proof.
  intros HQ HC. unfold classic_row_sum. rewrite combine_maps, foldM_map.
  match goal with |- foldM ?f _ _ = _ => assert (G : forall k, (k <= h)%nat -> foldM f (seq 0 k) (bv_zeros 128) =
    Ok (le_bytes 16 (xsum (fun i => gmul (le_value (Q i)) (le_value (C i))) k))) end.
  { induction k as [|k IH]; intros Hk; [reflexivity|]. rewrite seq_S, foldM_app, IH by lia. cbn [obind foldM Nat.add fst snd].
    rewrite !poly_from_ok by (auto; lia). cbn [obind]. rewrite gf_mul_ok by (try apply le_bytes_length; auto). cbn [obind].
    do 2 f_equal. cbn [xsum]. rewrite le_value16; [reflexivity|]. apply xsum_lt. intros i Hi.
    destruct (HQ i ltac:(lia)), (HC i ltac:(lia)). apply gmul_lt; now apply le_value16_lt. }
  now apply G.
Qed.
Lemma classic_sums_ok a p (x : list bool) (Q C : nat -> bytes) h : length x = h ->
  (forall i, (i < h)%nat -> elem (Q i)) -> (forall i, (i < h)%nat -> elem (C i)) ->
  classic_receiver_sums p a x (map Q (seq 0 h)) (map C (seq 0 h)) =
  Ok (le_bytes 16 (xsum (fun i => if nth i x false then le_value (C i) else 0) h),
      le_bytes 16 (xsum (fun i => gmul (le_value (Q i)) (le_value (C i))) h)).
Proof.
  intros Lx HQ HC. unfold classic_receiver_sums. rewrite (tabulate x false h Lx) at 1. rewrite !combine_maps, foldM_map.
  match goal with |- foldM ?f _ _ = _ => assert (G : forall k, (k <= h)%nat -> foldM f (seq 0 k) (bv_zeros 128, bv_zeros 128) =
    Ok (le_bytes 16 (xsum (fun i => if nth i x false then le_value (C i) else 0) k),
        le_bytes 16 (xsum (fun i => gmul (le_value (Q i)) (le_value (C i))) k))) end.
  { induction k as [|k IH]; intros Hk; [reflexivity|]. rewrite seq_S, foldM_app, IH by lia. cbn [obind foldM Nat.add fst snd].
    rewrite !poly_from_ok by (auto; lia). cbn [obind].
    assert (E : (if nth k x false then bv_xor_assign_ref p (le_bytes 16 (xsum (fun i => if nth i x false then le_value (C i) else 0) k)) (C k)
      else Ok (le_bytes 16 (xsum (fun i => if nth i x false then le_value (C i) else 0) k))) =
      Ok (le_bytes 16 (xsum (fun i => if nth i x false then le_value (C i) else 0) (S k)))).
    { cbn [xsum]. assert (X : xsum (fun i => if nth i x false then le_value (C i) else 0) k < 2 ^ 128).
      { apply xsum_lt. intros i Hi. destruct (nth i x false); [destruct (HC i ltac:(lia)); now apply le_value16_lt|lia]. }
      destruct (nth k x false); [|now rewrite N.lxor_0_r].
      destruct (HC k ltac:(lia)) as [L1 H1].
      rewrite bv_xor_ref_ok by (rewrite le_bytes_length; auto). f_equal.
      destruct (le_value_xor (le_bytes 16 (xsum (fun i => if nth i x false then le_value (C i) else 0) k)) (C k)) as [V B].
      { now rewrite le_bytes_length, L1. } { apply le_bytes_ok. } { exact H1. }
      rewrite le_value16 in V by exact X. rewrite <- V.
      rewrite elem_eta; auto. split; auto. rewrite zip_length; rewrite le_bytes_length; auto. }
    rewrite E. cbn [obind]. rewrite gf_mul_ok by (try apply le_bytes_length; auto). cbn [obind].
    do 3 f_equal. cbn [xsum]. rewrite le_value16; [reflexivity|]. apply xsum_lt. intros i Hi.
    destruct (HQ i ltac:(lia)), (HC i ltac:(lia)). apply gmul_lt; now apply le_value16_lt. }
  now apply G.
Qed.

(** The seeds the sender selected. *)
Lemma copy_seeds_ok s : seeds_ok s -> copy_seeds s = Ok s.
Proof.
  intros [L H]. unfold copy_seeds. rewrite (tabulate s [] 128 L) at 2. rewrite L. rewrite <- (map_id (seq 0 128)) at 1.
  rewrite combine_maps, foldM_map.
  match goal with |- foldM ?f _ _ = _ => assert (G : forall k, (k <= 128)%nat -> foldM f (seq 0 k) (repeat (repeat 0 32) 128) =
    Ok (firstn k s ++ repeat (repeat 0 32) (128 - k))) end.
  { induction k as [|k IH]; intros Hk; [reflexivity|]. rewrite seq_S, foldM_app, IH by lia. cbn [obind foldM Nat.add].
    assert (Lk : length (firstn k s) = k) by (rewrite firstn_length; lia).
    rewrite (idx_lt _ k ([] : bytes)) by (rewrite app_length, repeat_length, Lk; lia). cbn [obind].
    destruct (Forall_nth_in _ s k [] H) as [L32 _]; [lia|]. rewrite L32. cbn [Nat.eqb].
    rewrite set_idx_lt by (rewrite app_length, repeat_length, Lk; lia). cbn [obind].
    f_equal. rewrite set_nth_app_r by lia. rewrite Lk, Nat.sub_diag.
    replace (128 - k)%nat with (S (128 - S k)) by lia. cbn [repeat set_nth].
    assert (E : firstn (S k) s = firstn k s ++ [nth k s []]).
    { clear - Hk L. revert s L. assert (Hk' : (k < 128)%nat) by lia. revert Hk'. generalize 128%nat. clear Hk. induction k as [|k IH]; intros m Hk [|x s] L; cbn in L; try lia; [reflexivity|].
      cbn [firstn nth app]. f_equal. apply (IH (m - 1)%nat); lia. }
    rewrite E, <- app_assoc. reflexivity. }
  rewrite G by lia. rewrite firstn_all2 by lia. now rewrite app_nil_r.
Qed.

Section Run.
Variable gen20 : bytes -> nat -> bytes.
Hypothesis gen20_ok : generator gen20.
Variables (delta : bytes) (seed0 seed1 : list bytes).
Hypothesis delta_ok : array_ok 16 delta.
Hypothesis seed0_ok : seeds_ok seed0.
Hypothesis seed1_ok : seeds_ok seed1.
Variable x : list bool.
Let l : nat := length x.
Let tw : nat := (l / 8)%nat.
Hypothesis l8 : l = (8 * tw)%nat.
Hypothesis tw_ok : usize_ok tw.

Let R0 (i : nat) : bytes := gen20 (nth i seed0 []) tw.
Let R1 (i : nat) : bytes := gen20 (nth i seed1 []) tw.
Let X : bytes := pack_choices x.
Let Urow (i : nat) : bytes := zipWith N.lxor (zipWith N.lxor X (R0 i)) (R1 i).
Let Qrow (i : nat) : bytes := if bit_of delta i then zipWith N.lxor X (R0 i) else R0 i.
Let X_len : length X = tw.
Proof. apply pack_choices_length. Qed.
Let R0_len i : length (R0 i) = tw.
Proof. apply gen20_ok. Qed.
Let R1_len i : length (R1 i) = tw.
Proof. apply gen20_ok. Qed.

Lemma expand_rows_eq s : length s = 128%nat -> expand_rows gen20 l s = map (fun i => gen20 (nth i s []) tw) (seq 0 128).
Proof. intros L. unfold expand_rows. rewrite (tabulate s [] 128 L) at 1. rewrite map_map. reflexivity. Qed.

Lemma classic_u_ok pr : classic_u pr (monochrome x COMP_SEC) (expand_rows gen20 l seed0) (expand_rows gen20 l seed1) = Ok (map Urow (seq 0 128)).
Proof.
  unfold classic_u. rewrite !expand_rows_eq by (apply seed0_ok || apply seed1_ok).
  assert (Em : monochrome x COMP_SEC = map (fun _ => X) (seq 0 128)) by reflexivity.
  rewrite Em, !combine_maps, mapM_map. apply mapM_Ok. intros i _. cbn [fst snd].
  fold (R0 i) (R1 i). rewrite bv_xor_ref_ok by (rewrite X_len, R0_len; reflexivity). cbn [obind].
  apply bv_xor_ref_ok. rewrite zip_length; rewrite X_len; now rewrite ?R0_len, ?R1_len.
Qed.

Lemma u_rows_ok : rows_ok (map Urow (seq 0 128)).
Proof.
  split; [reflexivity|]. apply forall_map_seq. intros i Hi. split.
  - unfold usize_ok, Urow. rewrite !zipWith_length, X_len, R0_len, R1_len, !Nat.min_id. exact tw_ok.
  - unfold Urow. repeat apply xor_bytes_okay; try apply gen20_ok. apply pack_choices_ok.
Qed.


Lemma classic_q_ok pay : length pay = 128%nat ->
  (forall i, (i < 128)%nat -> nth i pay [] = if bit_of delta i then nth i seed1 [] else nth i seed0 []) ->
  classic_q delta (map Urow (seq 0 128)) (expand_rows gen20 l pay) = Ok (map Qrow (seq 0 128)).
Proof.
  intros L Sel. unfold classic_q. cbv zeta.
  assert (Lb : length (u8_vec_to_bool_vec delta) = 128%nat) by (rewrite bits_length, (proj1 delta_ok); reflexivity).
  rewrite (tabulate (u8_vec_to_bool_vec delta) false 128 Lb) at 2. rewrite Lb.
  rewrite <- (map_id (seq 0 128)) at 1. rewrite combine_maps, mapM_map. apply mapM_Ok. intros i Hi. apply in_seq in Hi.
  rewrite expand_rows_eq by exact L.
  rewrite bits_nth by (rewrite (proj1 delta_ok); lia).
  rewrite (idx_lt _ i ([] : bytes)) by (rewrite map_length, seq_length; lia). rewrite nth_map_seq by lia.
  rewrite (idx_lt _ i ([] : bytes)) by (rewrite map_length, seq_length; lia). rewrite nth_map_seq by lia.
  rewrite Sel by lia. unfold Qrow. destruct (bit_of delta i); cbn [obind]; [|reflexivity].
  f_equal. unfold bv_xor, Urow. fold (R1 i). apply zip_back. rewrite zip_length; rewrite X_len; now rewrite ?R0_len, ?R1_len.
Qed.

Lemma shaped_q : shaped (8 * 16) tw (map Qrow (seq 0 128)).
Proof.
  split; [reflexivity|]. apply forall_map_seq. intros i Hi. unfold Qrow. destruct (bit_of delta i).
  - split; [rewrite zip_length; rewrite X_len; now rewrite ?R0_len|]. apply xor_bytes_okay; [apply pack_choices_ok|apply gen20_ok].
  - apply gen20_ok.
Qed.
Lemma shaped_t : shaped (8 * 16) tw (expand_rows gen20 l seed0).
Proof.
  rewrite expand_rows_eq by apply seed0_ok. split; [reflexivity|]. apply forall_map_seq. intros i Hi. apply gen20_ok.
Qed.

(** The rows after transposing. *)
Lemma classic_rows : exists t q,
  transpose (expand_rows gen20 l seed0) = Ok t /\ length t = l /\ (forall i, (i < l)%nat -> elem (nth i t [])) /\
  transpose (map Qrow (seq 0 128)) = Ok q /\ length q = l /\ (forall i, (i < l)%nat -> elem (nth i q [])) /\
  forall i, (i < l)%nat -> nth i q [] = if nth i x false then zipWith N.lxor (nth i t []) delta else nth i t [].
Proof.
  destruct (transpose_ok _ 16 tw shaped_t ltac:(lia)) as (t & Et & St & Gt).
  destruct (transpose_ok _ 16 tw shaped_q ltac:(lia)) as (q & Eq & Sq & Gq).
  rewrite <- l8 in St, Sq, Gt, Gq. change (8 * 16)%nat with 128%nat in *.
  assert (Ht : forall i, (i < l)%nat -> elem (nth i t [])) by (intros i Hi; exact (shaped_nth _ _ _ i St Hi)).
  assert (Hq : forall i, (i < l)%nat -> elem (nth i q [])) by (intros i Hi; exact (shaped_nth _ _ _ i Sq Hi)).
  exists t, q. split; [exact Et|]. split; [apply St|]. split; [exact Ht|]. split; [exact Eq|]. split; [apply Sq|]. split; [exact Hq|].
  intros i Hi. destruct (Ht i Hi) as [Lt Bt]. destruct (Hq i Hi) as [Lq Bq]. destruct delta_ok as [Ld Bd].
  apply bytes_bit_ext.
  - rewrite Lq. destruct (nth i x false); [rewrite zip_length|]; congruence.
  - exact Bq.
  - destruct (nth i x false); [apply xor_bytes_okay|]; auto.
  - rewrite Lq. intros j Hj. change (8 * 16)%nat with 128%nat in Hj. specialize (Gt i j Hi Hj). specialize (Gq i j Hi Hj). unfold mbit in Gt, Gq. rewrite Gq.
    rewrite nth_map_seq by exact Hj. rewrite expand_rows_eq, nth_map_seq in Gt by (exact Hj || apply seed0_ok). fold (R0 j) in Gt.
    unfold Qrow. destruct (bit_of delta j) eqn:Ed.
    + rewrite bit_of_zip by (now rewrite X_len, R0_len). rewrite <- Gt. unfold X. rewrite pack_choices_bit by (fold l tw; lia).
      destruct (nth i x false); [|apply xorb_false_l]. rewrite bit_of_zip by congruence. rewrite Ed. apply xorb_comm.
    + rewrite <- Gt. destruct (nth i x false); [|reflexivity]. rewrite bit_of_zip by congruence. rewrite Ed. now rewrite xorb_false_r.
Qed.

(** The check succeeds. *)
Lemma chi_elem seed i : (i < l)%nat -> elem (firstn 16 (skipn (16 * i) (gen20 seed (16 * l)))).
Proof. intros Hi. destruct (gen20_ok seed (16 * l)%nat) as [L B]. apply (frow_elem _ i l); auto. Qed.

Lemma classic_check seed t q pr pr' ar ar' : length t = l -> (forall i, (i < l)%nat -> elem (nth i t [])) ->
  length q = l -> (forall i, (i < l)%nat -> elem (nth i q [])) ->
  (forall i, (i < l)%nat -> nth i q [] = if nth i x false then zipWith N.lxor (nth i t []) delta else nth i t []) ->
  exists q_sum x_sum t_sum,
    classic_row_sum pr ar q (classic_chi gen20 seed l) = Ok q_sum /\
    classic_receiver_sums pr' ar' x t (classic_chi gen20 seed l) = Ok (x_sum, t_sum) /\
    elem x_sum /\ elem t_sum /\ classic_verdict pr ar q_sum delta x_sum t_sum = Ok tt.
Proof.
  intros Lt Ht Lq Hq Rows. unfold classic_chi. change (list N) with bytes. set (C := fun i => firstn 16 (skipn (16 * i) (gen20 seed (16 * l))) : bytes).
  assert (HC : forall i, (i < l)%nat -> elem (C i)) by (intros; now apply chi_elem).
  rewrite (tabulate q [] l Lq), (tabulate t [] l Lt).
  pose proof (classic_row_sum_ok ar pr (fun i => nth i q []) C l Hq HC) as Z1.
  pose proof (classic_sums_ok ar' pr' x (fun i => nth i t []) C l eq_refl Ht HC) as Z2.
  assert (E16 : forall n, elem (le_bytes 16 n)) by (intros; split; [apply le_bytes_length|apply le_bytes_ok]).
  eexists _, _, _. split; [exact Z1|]. split; [exact Z2|]. clear Z1 Z2. split; [apply E16|]. split; [apply E16|].
  assert (Hd : elem delta) by exact delta_ok.
  assert (Hdv : le_value delta < 2 ^ 128) by (destruct Hd; now apply le_value16_lt).
  assert (Lt' : forall i, (i < l)%nat -> le_value (nth i t []) < 2 ^ 128) by (intros i Hi; destruct (Ht i Hi); now apply le_value16_lt).
  assert (LC : forall i, (i < l)%nat -> le_value (C i) < 2 ^ 128) by (intros i Hi; destruct (HC i Hi); now apply le_value16_lt).
  unfold classic_verdict. rewrite poly_from_ok by exact Hd. cbn [obind].
  rewrite gf_mul_ok by (auto; apply le_bytes_length). cbn [obind].
  set (xv := xsum (fun i => if nth i x false then le_value (C i) else 0) l).
  assert (Hx : xv < 2 ^ 128) by (apply xsum_lt; intros i Hi; destruct (nth i x false); [auto|lia]).
  assert (Hq' : xsum (fun i => gmul (le_value (nth i q [])) (le_value (C i))) l =
    N.lxor (xsum (fun i => gmul (le_value (nth i t [])) (le_value (C i))) l) (gmul xv (le_value delta))).
  { unfold xv. rewrite <- xsum_gmul; auto.
    - rewrite <- xsum_lxor. apply xsum_ext. intros i Hi. rewrite (Rows i Hi). destruct (nth i x false).
      + destruct (Ht i Hi) as [L1 B1]. destruct Hd as [Ld Bd].
        destruct (le_value_xor (nth i t []) delta) as [V _]; auto; [congruence|]. rewrite V.
        rewrite gmul_lxor_l by auto. f_equal. apply gmul_comm; [exact Hdv|exact (LC i Hi)].
      + rewrite gmul_0_l by auto. now rewrite N.lxor_0_r.
    - intros i Hi. destruct (nth i x false); [auto|lia]. }
  rewrite Hq'. rewrite !le_value16.
  - rewrite N.lxor_assoc, N.lxor_nilpotent, N.lxor_0_r, bytes_eqb_refl. reflexivity.
  - exact Hx.
  - apply lxor_lt2; [apply xsum_lt; intros; apply gmul_lt; auto|now apply gmul_lt].
Qed.
End Run.

Section Whole.
Variable sha : bytes -> bytes.
Variables gen20 gen8 : bytes -> nat -> bytes.
Hypothesis gen20_ok : generator gen20.
Hypothesis gen8_ok : generator gen8.
Variables (p p' : profile) (a a' : option arch).
Variables (cu cv delta : bytes) (bonus : list bool) (seed0 seed1 : list bytes).
Hypothesis cu_ok : array_ok 32 cu.
Hypothesis cv_ok : array_ok 32 cv.
Hypothesis delta_ok : array_ok 16 delta.
Hypothesis bonus_ok : length bonus = 192%nat.
Hypothesis seed0_ok : seeds_ok seed0.
Hypothesis seed1_ok : seeds_ok seed1.
Variables (bootS : list (bytes * bytes) -> proc unit) (bootR : list bool -> proc (list bytes)).
Hypothesis boot_ok : ot_correct seed_pairs bootS bootR.

Section Messages.
Variables (msgs : list (bytes * bytes)) (choices : list bool).
Let n : nat := length msgs.
Hypothesis len_ok : length choices = n.
Hypothesis msgs_ok : payload_ok msgs.
Variables (t q : list bytes) (l : nat).
Hypothesis n_l : (n <= l)%nat.
Hypothesis t_len : length t = l.
Hypothesis q_len : length q = l.
Hypothesis rows : forall i, (i < n)%nat -> nth i q [] = if nth i choices false then zipWith N.lxor (nth i t []) delta else nth i t [].
Hypothesis t_elem : forall i, (i < n)%nat -> elem (nth i t []).

Let key0 (i : nat) : bytes := sha (le_bytes 8 (N.of_nat i) ++ nth i q []).
Let key1 (i : nat) : bytes := sha (le_bytes 8 (N.of_nat i) ++ zipWith N.lxor (nth i q []) delta).
Let msg (i : nat) : bytes * bytes := nth i msgs ([], []).
Let c0 (i : nat) : bytes := zipWith N.lxor (fst (msg i)) (gen8 (key0 i) (length (fst (msg i)))).
Let c1 (i : nat) : bytes := zipWith N.lxor (snd (msg i)) (gen8 (key1 i) (length (snd (msg i)))).

Lemma xor_bytes_gen pr m k : xor_bytes pr m (gen8 k (length m)) = Ok (zipWith N.lxor m (gen8 k (length m))).
Proof.
  destruct (gen8_ok k (length m)) as [L _]. unfold xor_bytes. rewrite L, Nat.eqb_refl, debug_ok by reflexivity. cbn [obind].
  now rewrite Nat.ltb_irrefl.
Qed.
Lemma encrypt_all : zipM (classic_encrypt gen8 p) msgs
  (map (fun jq => classic_keys sha delta (fst jq) (snd jq)) (combine (seq 0 (length (firstn n q))) (firstn n q))) =
  Ok (map (fun i => (c0 i, c1 i)) (seq 0 n)).
Proof.
  assert (Lf : length (firstn n q) = n) by (rewrite firstn_length; lia).
  rewrite Lf. rewrite (tabulate (firstn n q) [] n Lf). rewrite combine_seq. cbn [fst snd].
  apply (zipM_seq _ (fun i => (c0 i, c1 i)) ([], []) ([], [])). { now rewrite map_length, seq_length. }
  intros i Hi. fold n in Hi. rewrite nth_map_seq by exact Hi. unfold classic_encrypt, classic_keys. cbn [fst snd].
  rewrite !xor_bytes_gen. cbn [obind]. rewrite nth_firstn by exact Hi. reflexivity.
Qed.
Lemma cipher_ok i : (i < n)%nat -> blob_ok (c0 i) /\ blob_ok (c1 i).
Proof.
  intros Hi. destruct msgs_ok as [_ F]. pose proof (Forall_nth_in _ msgs i ([], []) F Hi) as [[L0 B0] [L1 B1]].
  fold (msg i) in *. split; (split; [unfold usize_ok, c0, c1; rewrite zipWith_length, (proj1 (gen8_ok _ _)), Nat.min_id; assumption|]);
    apply xor_bytes_okay; auto; apply gen8_ok.
Qed.
Lemma d0_ok : rows_ok (map c0 (seq 0 n)).
Proof. split; [rewrite map_length, seq_length; apply msgs_ok|]. apply forall_map_seq. intros i Hi. now apply cipher_ok. Qed.
Lemma d1_ok : rows_ok (map c1 (seq 0 n)).
Proof. split; [rewrite map_length, seq_length; apply msgs_ok|]. apply forall_map_seq. intros i Hi. now apply cipher_ok. Qed.

Lemma combine_short {A B} (u : list A) (w : list B) : (length w <= length u)%nat -> combine u w = combine (firstn (length w) u) w.
Proof. revert w. induction u as [|y u IH]; intros [|z w] H; cbn in *; auto; try lia. f_equal. apply IH. lia. Qed.
Lemma decrypt_all :
  classic_decrypt gen8 p' (map (fun jt : nat * bytes => sha (le_bytes 8 (N.of_nat (fst jt)) ++ snd jt)) (combine (seq 0 (length t)) t))
    choices (map c0 (seq 0 n)) (map c1 (seq 0 n)) =
  Ok (map (fun i => selected (nth i choices false) (msg i)) (seq 0 n)).
Proof.
  rewrite t_len. rewrite (tabulate t [] l t_len). rewrite combine_seq. cbn [fst snd].
  unfold classic_decrypt. rewrite (tabulate choices false n len_ok) at 1. rewrite !combine_maps.
  rewrite combine_short by (rewrite !map_length, !seq_length; exact n_l).
  rewrite map_length, seq_length. rewrite firstn_map.
  assert (Es : firstn n (seq 0 l) = seq 0 n).
  { clear - n_l. clearbody n. replace l with (n + (l - n))%nat by lia. rewrite seq_app. rewrite firstn_app, seq_length, Nat.sub_diag. cbn [firstn].
    rewrite app_nil_r. apply firstn_all2. now rewrite seq_length. }
  rewrite Es, combine_maps, mapM_map. apply mapM_Ok. intros i Hi. apply in_seq in Hi. assert (Hi' : (i < n)%nat) by lia.
  specialize (rows i Hi'). destruct (t_elem i Hi') as [Lt _]. destruct delta_ok as [Ld _].
  assert (Ki : sha (le_bytes 8 (N.of_nat i) ++ nth i t []) = if nth i choices false then key1 i else key0 i).
  { unfold key0, key1. rewrite rows. destruct (nth i choices false); [|reflexivity]. do 2 f_equal.
    symmetry. apply zip_back. exact (eq_trans Lt (eq_sym Ld)). }
  rewrite Ki. unfold selected. destruct (nth i choices false); rewrite xor_bytes_gen; f_equal.
  - unfold c1. rewrite zip_length by (symmetry; apply gen8_ok). apply zip_back. symmetry. apply gen8_ok.
  - unfold c0. rewrite zip_length by (symmetry; apply gen8_ok). apply zip_back. symmetry. apply gen8_ok.
Qed.

Lemma de_rot_runs : runs (sender_de_rot sha gen8 p q delta msgs) (receiver_de_rot sha gen8 p' choices t) (Ok tt)
  (Ok (map (fun i => selected (nth i choices false) (msg i)) (seq 0 n))).
Proof.
  unfold sender_de_rot, receiver_de_rot. cbv zeta.
  apply runs_lift_l with (a := tt). { rewrite (proj2 (Nat.ltb_ge _ _)); [reflexivity|]. rewrite q_len. exact n_l. }
  eapply runs_lift_l; [exact encrypt_all|]. rewrite !map_map. cbn [fst snd].
  apply runs_send_recv. eapply runs_lift_r; [apply (deserialize_reads _ _ _ _ rt_rows d0_ok)|].
  apply runs_snd_rcv. cbn [pbind recv ret lift].
  change (fun i : nat => c1 i) with c1.   rewrite (deserialize_reads _ _ _ _ rt_rows d1_ok). cbn [pbind lift].
  rewrite decrypt_all. apply runs_done.
Qed.
Lemma de_rot_selects : is_selection msgs choices (map (fun i => selected (nth i choices false) (msg i)) (seq 0 n)).
Proof.
  split; [now rewrite map_length, seq_length|]. intros i m c Hm Hc.
  assert (Hi : (i < n)%nat) by (apply nth_error_Some; congruence).
  rewrite (nth_error_nth_lt _ i ([] : bytes)) by (now rewrite map_length, seq_length). rewrite nth_map_seq by exact Hi.
  unfold msg. now rewrite (nth_error_nth _ _ _ Hm), (nth_error_nth _ _ _ Hc).
Qed.
End Messages.

(** Both phases before the messages, for any padded choices [x] of a multiple of 8. *)
Lemma phases x : length x = (8 * (length x / 8))%nat -> usize_ok (length x / 8) ->
  exists t q, length t = length x /\ length q = length x /\ (forall i, (i < length x)%nat -> elem (nth i t [])) /\
    (forall i, (i < length x)%nat -> nth i q [] = if nth i x false then zipWith N.lxor (nth i t []) delta else nth i t []) /\
    runs (sender_cote gen20 delta bootR (length x)) (receiver_cote gen20 p' seed0 seed1 bootS x) (Ok q) (Ok t) /\
    runs (sender_correlation sha gen20 p a cu (length x) q delta) (receiver_correlation sha gen20 p' a' cv t x) (Ok tt) (Ok tt).
Proof.
  intros Hl8 Htw.
  destruct (boot_runs delta seed0 seed1 delta_ok seed0_ok seed1_ok bootS bootR boot_ok) as (pay & Rb & Lp & Selp).
  assert (Hps : seeds_ok pay).
  { split; auto. apply Forall_forall. intros y Hy. destruct (In_nth _ _ [] Hy) as (i & Hi & <-).
    assert (Hi' : (i < 128)%nat) by (rewrite <- Lp; exact Hi). rewrite Selp by auto. destruct seed0_ok as [L0 H0], seed1_ok as [L1 H1].
    destruct (bit_of delta i); apply Forall_nth_in; auto; lia. }
  destruct (classic_rows gen20 gen20_ok delta seed0 seed1 delta_ok seed0_ok x Hl8) as (t & q & Et & Lt & Ht & Eq & Lq & Hq & Rows).
  destruct (classic_check gen20 gen20_ok delta seed0 seed1 delta_ok x Hl8 (xor_arrays cv cu) t q p p' a a' Lt Ht Lq Hq Rows) as (qs & xs & ts & E1 & E2 & [Lxs Bxs] & [Lts Bts] & E3).
  exists t, q. split; [exact Lt|]. split; [exact Lq|]. split; [exact Ht|]. split; [exact Rows|]. split.
  - unfold sender_cote, receiver_cote. cbv zeta. eapply runs_bind; [exact Rb|].
    apply runs_lift_l with (a := pay); [now apply copy_seeds_ok|].
    eapply runs_lift_r; [apply classic_u_ok; auto|].
    apply runs_recv_send.
    eapply runs_lift_l. { apply (deserialize_reads _ _ _ _ rt_rows). apply u_rows_ok; auto. }
    eapply runs_lift_l; [apply classic_q_ok; auto|].
    rewrite Eq, Et. apply runs_done.
  - unfold sender_correlation, receiver_correlation. eapply runs_bind; [apply runs_flip, coinflip_runs; [apply cv_ok|apply cu_ok]|].
    cbv zeta. apply runs_lift_l with (a := qs); [exact E1|]. apply runs_lift_r with (a := (xs, ts)); [exact E2|].
    apply runs_recv_send. apply runs_lift_l with (a := xs).
    { apply (deserialize_reads _ _ _ _ rt_bytes). split; [unfold usize_ok; rewrite Lxs; reflexivity|exact Bxs]. }
    apply runs_flip, runs_snd_rcv, runs_flip. cbn [pbind recv ret lift].
    rewrite (deserialize_reads _ _ _ _ rt_bytes) by (split; [unfold usize_ok; rewrite Lts; reflexivity|exact Bts]). cbn [pbind lift]. rewrite E3. apply runs_done.
Qed.
Lemma classic_sizes (n : nat) : usize_ok n -> (0 < n)%nat -> (n mod 8 = 0)%nat ->
  (8 <= n)%nat /\ (n + 192 = 8 * ((n + 192) / 8))%nat /\ usize_ok ((n + 192) / 8).
Proof.
  intros U Hpos H8. assert (Hn8 : (8 <= n)%nat). { destruct (Nat.lt_ge_cases n 8); auto. rewrite Nat.mod_small in H8; lia. }
  assert (E : (n + 192 = 8 * ((n + 192) / 8))%nat).
  { apply Nat.div_exact; [lia|]. replace 192%nat with (24 * 8)%nat by lia. rewrite Nat.mod_add; [exact H8|lia]. }
  split; [exact Hn8|]. split; [exact E|]. unfold usize_ok in *. change (2 ^ 64) with 18446744073709551616 in *. lia.
Qed.
Lemma block_asserts n : (8 <= n)%nat -> (n mod 8 = 0)%nat ->
  assert_ (Nat.leb BLOCK_SIZE n) = Ok tt /\ assert_ (Nat.eqb (n mod BLOCK_SIZE) 0) = Ok tt.
Proof.
  intros H H8. unfold assert_, BLOCK_SIZE. rewrite (proj2 (Nat.leb_le _ _)) by exact H.
  rewrite (proj2 (Nat.eqb_eq _ _)) by exact H8. auto.
Qed.

Lemma classic_correct : ot_correct classic_ok (classic_sender sha gen20 gen8 p a cu delta bootR)
  (classic_receiver sha gen20 gen8 p' a' cv bonus seed0 seed1 bootS).
Proof.
  intros msgs choices Lc (Hpay & Hpos & H8).
  set (n := length msgs) in *. set (x := choices ++ bonus).
  assert (Lx : length x = (n + 192)%nat) by (unfold x; rewrite app_length; lia).
  destruct (classic_sizes n (proj1 Hpay) Hpos H8) as (Hn8 & Hl8 & Htw). rewrite <- Lx in Hl8, Htw.
  destruct (block_asserts n Hn8 H8) as [A1 A2].
  destruct (phases x Hl8 Htw) as (t & q & Lt & Lq & Ht & Rows & Rc & Rk).
  eexists. split.
  - unfold classic_sender, classic_receiver. rewrite Lc. fold n. fold x.
    apply runs_lift_l with (a := tt); [exact A1|]. apply runs_lift_l with (a := tt); [exact A2|].
    eapply runs_bind; [apply validate_same, apricot_props; apply Hpay|].
    apply runs_lift_r with (a := tt); [exact A1|]. apply runs_lift_r with (a := tt); [exact A2|].
    cbv zeta. replace (n + COMP_SEC + STAT_SEC)%nat with (length x) by (rewrite Lx; unfold COMP_SEC, STAT_SEC; lia).
    eapply runs_bind; [exact Rc|]. eapply runs_bind; [exact Rk|].
    apply (de_rot_runs msgs choices Lc Hpay t q (length x)); auto.
    + fold n. lia.
    + intros i Hi. fold n in Hi. pose proof (Rows i ltac:(lia)) as Z. unfold x in Z. rewrite app_nth1 in Z by lia. exact Z.
    + intros i Hi. apply Ht. fold n in Hi. lia.
  - apply (de_rot_selects msgs choices Lc).
Qed.

(** A sender that leaves out the last step's messages: the receiver returns nothing and no error. *)
Lemma classic_short choices : usize_ok (length choices) -> (0 < length choices)%nat -> (length choices mod 8 = 0)%nat ->
  runs (short_sender sha gen20 gen8 p a cu delta bootR (length choices))
       (classic_receiver sha gen20 gen8 p' a' cv bonus seed0 seed1 bootS choices) (Ok tt) (Ok []).
Proof.
  intros U Hpos H8. set (n := length choices) in *. set (x := choices ++ bonus).
  assert (Lx : length x = (n + 192)%nat) by (unfold x; rewrite app_length; lia).
  destruct (classic_sizes n U Hpos H8) as (Hn8 & Hl8 & Htw). rewrite <- Lx in Hl8, Htw.
  destruct (block_asserts n Hn8 H8) as [A1 A2].
  destruct (phases x Hl8 Htw) as (t & q & Lt & Lq & Ht & Rows & Rc & Rk).
  unfold short_sender, classic_receiver. fold n. fold x.
  eapply runs_bind; [apply validate_same, apricot_props, U|].
  apply runs_lift_r with (a := tt); [exact A1|]. apply runs_lift_r with (a := tt); [exact A2|].
  cbv zeta. replace (n + COMP_SEC + STAT_SEC)%nat with (length x) by (rewrite Lx; unfold COMP_SEC, STAT_SEC; lia).
  eapply runs_bind; [exact Rc|]. eapply runs_bind; [exact Rk|].
  unfold sender_de_rot, receiver_de_rot. cbv zeta. apply runs_lift_l with (a := tt); [reflexivity|].
  apply runs_lift_l with (a := []); [reflexivity|]. cbn [map].
  assert (E : deserialize dec_rows (enc_rows []) = Ok []) by (apply (deserialize_reads _ _ _ _ rt_rows); split; [reflexivity|constructor]).
  apply runs_send_recv. apply runs_lift_r with (a := []); [exact E|].
  apply runs_snd_rcv. cbn [pbind recv ret lift]. rewrite E. cbn [pbind lift].
  unfold classic_decrypt. cbn [combine].
  assert (C0 : combine choices (@nil (bytes * bytes)) = []) by (destruct choices; reflexivity). rewrite C0.
  match goal with |- context [combine ?v []] => assert (C1 : combine v (@nil (bool * (bytes * bytes))) = []) by (destruct v; reflexivity); rewrite C1 end.
  apply runs_done.
Qed.

(** A receiver that sends an x_sum of fewer than 16 bytes. *)
Lemma read128_short v : (length v < 16)%nat -> read128 v = UB.
Proof. intros H. unfold read128. now rewrite (proj2 (Nat.leb_gt _ _)) by exact H. Qed.
Lemma short_mul ar pr acc v d : (length v < 16)%nat -> elem d -> bytes_ok v -> pr = Release \/ ar = Some X86 ->
  gf128_mul_acc ar pr acc v d = UB.
Proof.
  intros H [Ld Bd] Bv Hc. destruct ar as [[|]|]; cbn [gf128_mul_acc].
  - unfold mul_acc_x86. now rewrite read128_short.
  - destruct Hc as [->|Hc]; [|discriminate]. unfold mul_acc_arm64. cbn [debug_assert is_debug obind]. now rewrite read128_short.
  - destruct Hc as [->|Hc]; [|discriminate]. unfold mul_acc_generic. cbn [debug_assert is_debug obind].
    assert (Z : clmul_generic 1 1 v d = UB).
    { unfold clmul_generic, read64. now rewrite (proj2 (Nat.leb_gt (8 * 1 + 8) _)) by (cbn; lia). }
    destruct (Nat.lt_ge_cases (length v) 8) as [S|S].
    { unfold clmul_generic at 1. unfold read64 at 1. now rewrite (proj2 (Nat.leb_gt (8 * 0 + 8) _)) by (cbn; lia). }
    assert (R : forall w, (8 <= length w)%nat -> bytes_ok w -> exists y, read64 w 0 = Ok y /\ y < 2 ^ 64).
    { intros w Lw Bw. unfold read64. rewrite (proj2 (Nat.leb_le (8 * 0 + 8) _)) by (cbn; lia). eexists. split; [reflexivity|].
      cbn [Nat.mul skipn]. pose proof (le_value_lt (firstn 8 w)) as B. rewrite firstn_length, Nat.min_l in B by lia. apply B.
      apply Forall_firstn. exact Bw. }
    destruct (R v S Bv) as (y & Ey & Hy). destruct (R d ltac:(lia) Bd) as (z & Ez & Hz).
    rewrite (clmul_generic_ok 0 0 v d y z Ey Ez Hy Hz). cbn [obind]. rewrite Z. reflexivity.
Qed.
Lemma classic_short_x_sum msgs u x_sum t_sum : classic_ok msgs -> shaped 128 ((length msgs + 192) / 8) u -> bytes_ok x_sum ->
  (length x_sum < 16)%nat -> blob_ok t_sum -> p = Release \/ a = Some X86 ->
  runs (classic_sender sha gen20 gen8 p a cu delta bootR msgs)
       (evil_classic sha cv seed0 seed1 bootS (length msgs) u x_sum t_sum) UB (Ok tt).
Proof.
  intros ((Un & Hm) & Hpos & H8) Su Bx Lxs Hts Hc. set (n := length msgs) in *.
  destruct (classic_sizes n Un Hpos H8) as (Hn8 & Hl8 & Htw). destruct (block_asserts n Hn8 H8) as [A1 A2].
  destruct (boot_runs delta seed0 seed1 delta_ok seed0_ok seed1_ok bootS bootR boot_ok) as (pay & Rb & Lp & Selp).
  assert (Hps : seeds_ok pay).
  { split; auto. apply Forall_forall. intros y Hy. destruct (In_nth _ _ [] Hy) as (i & Hi & <-).
    assert (Hi' : (i < 128)%nat) by (rewrite <- Lp; exact Hi). rewrite Selp by auto. destruct seed0_ok as [L0 H0], seed1_ok as [L1 H1].
    destruct (bit_of delta i); apply Forall_nth_in; auto; lia. }
  set (l := (n + 192)%nat) in *. set (tw := (l / 8)%nat) in *.
  set (T := fun i => gen20 (nth i pay []) tw).
  set (Q := fun i : nat => if bit_of delta i then zipWith N.lxor (nth i u []) (T i) else T i).
  assert (Eq : classic_q delta u (expand_rows gen20 l pay) = Ok (map Q (seq 0 128))).
  { unfold classic_q. cbv zeta.
    assert (Lb : length (u8_vec_to_bool_vec delta) = 128%nat) by (rewrite bits_length, (proj1 delta_ok); reflexivity).
    rewrite (tabulate (u8_vec_to_bool_vec delta) false 128 Lb) at 2. rewrite Lb.
    rewrite <- (map_id (seq 0 128)) at 1. rewrite combine_maps, mapM_map. apply mapM_Ok. intros i Hi. apply in_seq in Hi.
    assert (Ee : expand_rows gen20 l pay = map T (seq 0 128)).
    { unfold expand_rows. rewrite (tabulate pay [] 128 Lp) at 1. rewrite map_map. reflexivity. }
    rewrite Ee. rewrite bits_nth by (rewrite (proj1 delta_ok); lia).
    rewrite (idx_lt u i []) by (rewrite (proj1 Su); lia).
    rewrite (idx_lt _ i ([] : bytes)) by (rewrite map_length, seq_length; lia). rewrite nth_map_seq by lia.
    unfold Q. destruct (bit_of delta i); reflexivity. }
  assert (Sq : shaped (8 * 16) tw (map Q (seq 0 128))).
  { split; [reflexivity|]. apply forall_map_seq. intros i Hi. destruct (shaped_nth _ _ _ i Su Hi) as [Lu Bu].
    destruct (gen20_ok (nth i pay []) tw) as [LT BT]. fold (T i) in LT, BT. unfold Q. destruct (bit_of delta i).
    - split; [rewrite zip_length; congruence|now apply xor_bytes_okay].
    - auto. }
  destruct (transpose_ok _ 16 tw Sq ltac:(lia)) as (q & Etq & Sq' & _). rewrite <- Hl8 in Sq'.
  assert (Hq : forall i, (i < l)%nat -> elem (nth i q [])) by (intros i Hi; exact (shaped_nth _ _ _ i Sq' Hi)).
  assert (Ur : rows_ok u).
  { destruct Su as [Lu Fu]. split; [unfold usize_ok; rewrite Lu; reflexivity|]. eapply Forall_impl; [|exact Fu].
    intros row [Lr Br]. split; [unfold usize_ok; rewrite Lr; exact Htw|exact Br]. }
  set (seed := xor_arrays cv cu).
  set (C := fun i => firstn 16 (skipn (16 * i) (gen20 seed (16 * l))) : bytes).
  assert (HC : forall i, (i < l)%nat -> elem (C i)).
  { intros i Hi. destruct (gen20_ok seed (16 * l)%nat) as [L B]. apply (frow_elem _ i l); auto. }
  pose proof (classic_row_sum_ok a p (fun i => nth i q []) C l Hq HC) as Es.
  assert (Lq : length q = l) by apply Sq'. rewrite <- (tabulate q [] l Lq) in Es.
  unfold classic_sender, evil_classic. fold n.
  apply runs_lift_l with (a := tt); [exact A1|]. apply runs_lift_l with (a := tt); [exact A2|].
  eapply runs_bind; [apply validate_same, apricot_props, Un|].
  cbv zeta. replace (n + COMP_SEC + STAT_SEC)%nat with l by (unfold l, COMP_SEC, STAT_SEC; lia).
  unfold sender_cote, sender_correlation. apply runs_assoc_l. eapply runs_bind; [exact Rb|].
  apply runs_assoc_l. apply runs_lift_l with (a := pay); [now apply copy_seeds_ok|]. cbv zeta.
  apply runs_assoc_l. apply runs_recv_send. apply runs_assoc_l. apply runs_lift_l with (a := u); [apply (deserialize_reads _ _ _ _ rt_rows Ur)|].
  apply runs_assoc_l. eapply runs_lift_l; [exact Eq|]. apply runs_lift_l with (a := q); [exact Etq|].
  apply runs_assoc_l. eapply runs_bind; [apply runs_flip, coinflip_runs; [apply cv_ok|apply cu_ok]|].
  apply runs_assoc_l. eapply runs_lift_l; [exact Es|].
  apply runs_assoc_l. apply runs_recv_send. apply runs_assoc_l. apply runs_lift_l with (a := x_sum).
  { apply (deserialize_reads _ _ _ _ rt_bytes). split; [|exact Bx]. unfold usize_ok. change (2 ^ 64) with 18446744073709551616. lia. }
  apply runs_flip, runs_snd_rcv, runs_flip. cbn [pbind recv ret lift].
  rewrite (deserialize_reads _ _ _ _ rt_bytes Hts). cbn [pbind lift].
  unfold classic_verdict. rewrite poly_from_ok by exact delta_ok. cbn [obind]. rewrite short_mul by (auto; exact delta_ok). cbn [obind lift pbind].
  apply runs_done.
Qed.
End Whole.
