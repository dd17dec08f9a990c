(** Apricot: complete honest runs. *)
From Coq Require Import List NArith Bool Lia Arith.
From Verif Require Import Base MUtil MWires MBitMatrix MPoly MPar MBincode MProc MOt MApricot.
From Verif Require Import SpecUtil SpecBitMatrix SpecPoly SpecBincode SpecOt SpecApricot PBase PUtil PBitMatrix PPoly PPar PBincode PProc POt PApricotA PApricot.
Import ListNotations.
Open Scope N_scope.

(** Partial runs. *)
Definition leads {A B} (p : proc A) (q : proc B) (c : cfg A B) : Prop := reach (initial p q) c.
Lemma leads_bind {A B C D} (p : proc A) (q : proc B) (f : A -> proc C) (g : B -> proc D) a b c :
  runs p q (Ok a) (Ok b) -> leads (f a) (g b) c -> leads (pbind p f) (pbind q g) c.
Proof. intros H H'. eapply reach_trans; [exact (reach_map f g _ _ H)|exact H']. Qed.
Lemma leads_lift_l {A B C} (o : outcome A) a (f : A -> proc B) (q : proc C) c :
  o = Ok a -> leads (f a) q c -> leads (pbind (lift o) f) q c.
Proof. intros ->. auto. Qed.
Lemma leads_lift_r {A B C} (o : outcome A) a (f : A -> proc B) (q : proc C) c :
  o = Ok a -> leads q (f a) c -> leads q (pbind (lift o) f) c.
Proof. intros ->. auto. Qed.
Lemma leads_send_recv {B D} m (f : unit -> proc B) (g : bytes -> proc D) c :
  leads (f tt) (g m) c -> leads (pbind (send m) f) (pbind recv g) c.
Proof. intros H. eapply reach_L; [reflexivity|]. eapply reach_R; [reflexivity|]. exact H. Qed.
Lemma leads_recv_send {B D} m (f : bytes -> proc B) (g : unit -> proc D) c :
  leads (f m) (g tt) c -> leads (pbind recv f) (pbind (send m) g) c.
Proof. intros H. eapply reach_R; [reflexivity|]. eapply reach_L; [reflexivity|]. exact H. Qed.
Lemma leads_runs {A B} (p p' : proc A) (q q' : proc B) oa ob :
  leads p q (initial p' q') -> runs p' q' oa ob -> runs p q oa ob.
Proof. intros H H'. eapply reach_trans; [exact H|exact H']. Qed.

Lemma seed_pairs_combine s0 s1 : seeds_ok s0 -> seeds_ok s1 -> seed_pairs (combine s0 s1).
Proof.
  intros [L0 H0] [L1 H1]. split. { rewrite combine_length. lia. }
  apply Forall_forall. intros [x y] H. split; cbn.
  - apply in_combine_l in H. now apply (proj1 (Forall_forall _ _) H0).
  - apply in_combine_r in H. now apply (proj1 (Forall_forall _ _) H1).
Qed.
Lemma selection_payloads s0 s1 delta out : seeds_ok s0 -> seeds_ok s1 -> array_ok 16 delta ->
  is_selection (combine s0 s1) (u8_vec_to_bool_vec delta) out ->
  length out = 128%nat /\ forall i, (i < 128)%nat -> nth i out [] = if bit_of delta i then nth i s1 [] else nth i s0 [].
Proof.
  intros [L0 H0] [L1 H1] [Ld Hd] [Lo Ho]. rewrite bits_length, Ld in Lo. split; [exact Lo|].
  intros i Hi.
  assert (Em : nth_error (combine s0 s1) i = Some (nth i s0 [], nth i s1 [])).
  { rewrite (nth_error_nth_lt (combine s0 s1) i ([], [])) by (rewrite combine_length; lia). rewrite combine_nth by exact (eq_trans L0 (eq_sym L1)). reflexivity. }
  assert (Ec : nth_error (u8_vec_to_bool_vec delta) i = Some (bit_of delta i)).
  { rewrite (nth_error_nth_lt _ i false) by (rewrite bits_length, Ld; lia). rewrite bits_nth by (rewrite Ld; lia). reflexivity. }
  specialize (Ho i _ _ Em Ec). apply nth_error_nth with (d := []) in Ho. rewrite Ho. unfold selected. cbn. destruct (bit_of delta i); reflexivity.
Qed.

Lemma be2_size n : n < 2 ^ 16 -> announced_size (be_bytes 2 n) = Ok (N.to_nat n).
Proof.
  intros H. unfold announced_size, be_bytes. cbn [le_bytes rev app].
  unfold idx. cbn [nth_error unwrap obind]. do 2 f_equal.
  change (2 ^ 16) with 65536 in H. change 256 with (2 ^ 8).
  assert (D : n / 2 ^ 8 mod 2 ^ 8 = n / 2 ^ 8). { apply N.mod_small. apply N.div_lt_upper_bound; [discriminate|]. change (2 ^ 8 * 2 ^ 8) with 65536. exact H. }
  change (8 * N.of_nat 1) with 8. change (2 ^ (8 * N.of_nat 0)) with 1. rewrite N.div_1_r. rewrite D. apply N.bits_inj. intros k. rewrite N.lor_spec. destruct (N.lt_ge_cases k 8) as [L|L].
  - rewrite N.shiftl_spec_low, N.mod_pow2_bits_low by auto. reflexivity.
  - rewrite N.shiftl_spec_high', N.mod_pow2_bits_high, N.div_pow2_bits by auto. rewrite orb_false_r. f_equal. lia.
Qed.
(** The size the receiver reads: the sender's size modulo 2^16. *)
Definition short (s : nat) : nat := N.to_nat (N.of_nat s mod 2 ^ 16).
Lemma be2_value s : announced_size (be_bytes 2 (N.of_nat s mod 2 ^ 16)) = Ok (short s).
Proof. apply be2_size. apply N.mod_lt. discriminate. Qed.
Lemma short_small s : N.of_nat s < 2 ^ 16 -> short s = s.
Proof. intros H. unfold short. rewrite N.mod_small by exact H. apply Nat2N.id. Qed.
Lemma short_large s : 2 ^ 16 <= N.of_nat s -> (short s < s)%nat.
Proof.
  intros H. unfold short. pose proof (N.mod_lt (N.of_nat s) (2 ^ 16) ltac:(discriminate)). lia.
Qed.

Section Run.
Variable sha : bytes -> bytes.
Variable fill : bytes -> nat -> bytes.
Hypothesis sha_ok : hash32 sha.
Hypothesis fill_ok : generator fill.
Variables (p : profile) (a : arch) (cores : nat).
Hypothesis cores_ok : (1 <= cores)%nat.

(** ** The final phase *)
Section Final.
Variables (n l s : nat) (msgs : list (bytes * bytes)) (choices bonus : list bool) (t qt delta : bytes).
Hypothesis n_ok : length msgs = n.
Hypothesis c_ok : length choices = n.
Hypothesis n_pos : (1 <= n)%nat.
Hypothesis n_l : l = (n + 256)%nat.
Hypothesis b_ok : length bonus = 256%nat.
Hypothesis s_pos : (1 <= s)%nat.
Hypothesis sized : equal_sized s msgs.
Hypothesis t_ok : length t = (16 * l)%nat.
Hypothesis q_ok : length qt = (16 * l)%nat.
Hypothesis d_ok : array_ok 16 delta.

Definition mask (row : bytes) (r : nat) : bytes := fill (sha (usize_be r ++ row)) s.
Definition m_of (r : nat) : bytes * bytes := nth r msgs ([], []).
Definition E0 (r : nat) : bytes := zipWith N.lxor (mask (frow 16 qt r) r) (fst (m_of r)).
Definition E1 (r : nat) : bytes := zipWith N.lxor (mask (zipWith N.lxor (frow 16 qt r) delta) r) (snd (m_of r)).

Lemma m_len r : (r < n)%nat -> length (fst (m_of r)) = s /\ length (snd (m_of r)) = s.
Proof. intros H. apply (Forall_nth_in _ msgs r ([], []) sized). lia. Qed.
Lemma mask_len row r : length (mask row r) = s.
Proof. apply fill_ok. Qed.
Lemma E0_len r : (r < n)%nat -> length (E0 r) = s.
Proof. intros H. destruct (m_len r H). unfold E0. rewrite zipWith_length, mask_len. lia. Qed.
Lemma E1_len r : (r < n)%nat -> length (E1 r) = s.
Proof. intros H. destruct (m_len r H). unfold E1. rewrite zipWith_length, mask_len. lia. Qed.

Lemma randomize_ok : randomize sha fill p cores qt delta 16 s msgs = Ok (concat (map (fun r => E0 r ++ E1 r) (seq 0 n))).
Proof.
  unfold randomize. rewrite n_ok.
  destruct (rows_in_chunk_ok cores n cores_ok n_pos) as (tc & k & E & Ek & Hk). rewrite E. cbn [obind]. rewrite Ek. cbn [obind].
  destruct d_ok as [Ld _].
  apply par_rows_ok; auto; try lia. { rewrite repeat_length. lia. }
  intros r Hr. destruct (m_len r Hr) as [M0 M1]. unfold randomize_row.
  rewrite vector_row_ok by lia. cbn [obind].
  rewrite (idx_lt msgs r ([], [])) by lia. cbn [obind]. fold (m_of r).
  rewrite frow_zeros by nia.
  unfold vector_slice. rewrite repeat_length. rewrite !(proj2 (Nat.leb_le _ _)) by lia. cbn [obind].
  assert (La : length (firstn s (skipn 0 (repeat 0 (s * 2)))) = s) by (rewrite firstn_length, skipn_length, repeat_length; lia).
  assert (Lb : length (firstn s (skipn s (repeat 0 (s * 2)))) = s) by (rewrite firstn_length, skipn_length, repeat_length; lia).
  rewrite La. fold (mask (frow 16 qt r) r).
  rewrite xor_inplace_ok by (rewrite mask_len; lia). cbn [obind].
  assert (Lq : length (frow 16 qt r) = 16%nat) by (apply frow_length; lia).
  rewrite ap_xor_ok by (rewrite ?repeat_length; lia). cbn [obind].
  rewrite Lb. fold (mask (zipWith N.lxor (frow 16 qt r) delta) r).
  rewrite xor_inplace_ok by (rewrite mask_len; lia). cbn [obind].
  split; [reflexivity|]. rewrite app_length. fold (E0 r) (E1 r). rewrite E0_len, E1_len by auto. lia.
Qed.

Definition V (r : nat) : bytes := sha (usize_be r ++ frow 16 t r).
Lemma compute_v_ok : compute_v sha p cores t 16 l = Ok (concat (map V (seq 0 l))).
Proof.
  unfold compute_v. destruct (rows_in_chunk_ok cores l cores_ok ltac:(lia)) as (tc & k & E & Ek & Hk).
  rewrite E. cbn [obind]. rewrite Ek. cbn [obind].
  apply par_rows_ok; auto; try lia. { apply repeat_length. }
  intros r Hr. rewrite vector_row_ok by lia. cbn [obind]. fold (V r).
  assert (L : length (V r) = 32%nat) by apply sha_ok.
  rewrite frow_zeros by lia. rewrite xor_inplace_ok by (rewrite repeat_length; lia).
  split; [|exact L]. f_equal. rewrite <- L at 1. apply zip_zeros_l.
Qed.

Lemma D_slice r c : (r < n)%nat -> (c <= 1)%nat ->
  vector_slice (concat (map (fun r => E0 r ++ E1 r) (seq 0 n))) (r * s * 2 + c * s) s = Ok (if Nat.eqb c 0 then E0 r else E1 r).
Proof.
  intros Hr Hc. set (d := concat _).
  assert (Le : forall i, (i < n)%nat -> length (E0 i ++ E1 i) = (2 * s)%nat) by (intros; rewrite app_length, E0_len, E1_len; lia).
  assert (Ld : length d = (2 * s * n)%nat) by (apply concat_length_w; intros; apply Le; lia).
  unfold vector_slice. rewrite (proj2 (Nat.leb_le _ _)) by (rewrite Ld; nia). f_equal.
  pose proof (frow_concat (2 * s) (fun r => E0 r ++ E1 r) n r Le Hr) as F. fold d in F. unfold frow in F.
  transitivity (firstn s (skipn (c * s) (firstn (2 * s) (skipn (2 * s * r) d)))).
  - rewrite skipn_firstn_comm, firstn_firstn, skipn_skipn'. f_equal; [nia|]. f_equal. lia.
  - replace (firstn (2 * s) (skipn (2 * s * r) d)) with (E0 r ++ E1 r) by (symmetry; exact F). destruct c as [|c].
    + cbn [Nat.mul skipn Nat.eqb]. rewrite firstn_app, E0_len, Nat.sub_diag, firstn_O, app_nil_r by auto. apply firstn_all2. rewrite E0_len; auto.
    + assert (c = 0)%nat by lia. subst c. cbn [Nat.eqb]. rewrite Nat.mul_1_l, skipn_app, E0_len, Nat.sub_diag by auto.
      rewrite skipn_all2 by (rewrite E0_len; auto). cbn [app skipn]. apply firstn_all2. rewrite E1_len; auto.
Qed.

Lemma derandomize_ok : derandomize fill p cores (concat (map V (seq 0 l))) (pack_choices (choices ++ bonus))
   (concat (map (fun r => E0 r ++ E1 r) (seq 0 n))) s n =
   Ok (map (fun r => zipWith N.lxor (fill (V r) s) (if nth r choices false then E1 r else E0 r)) (seq 0 n)).
Proof.
  unfold derandomize. set (d := concat (map (fun r => E0 r ++ E1 r) (seq 0 n))).
  assert (Ld : length d = (2 * s * n)%nat).
  { apply concat_length_w. intros. rewrite app_length, E0_len, E1_len; lia. }
  assert (Lx : length (choices ++ bonus) = l) by (rewrite app_length; lia).
  rewrite udiv_ok by auto. cbn [obind]. rewrite Ld.
  replace (2 * s * n / 2 / n)%nat with s.
  2: { replace (2 * s * n)%nat with (s * n * 2)%nat by lia. rewrite !Nat.div_mul by lia. reflexivity. }
  destruct (rows_in_chunk_ok cores n cores_ok n_pos) as (tc & k & E & Ek & Hk). rewrite E. cbn [obind]. rewrite Ek. cbn [obind].
  etransitivity; [apply (par_items_ok [] k _ (fun r => zipWith N.lxor (fill (V r) s) (if nth r choices false then E1 r else E0 r)))|]; auto.
  - rewrite repeat_length. intros r Hr.
    assert (Ey : nth r (repeat (repeat 0 s) n) [] = repeat 0 s).
    { rewrite (nth_indep _ [] (repeat 0 s)) by (rewrite repeat_length; auto). apply nth_repeat. }
    rewrite Ey. unfold derandomize_row.
    assert (Lv : forall i, (i < l)%nat -> length (V i) = 32%nat) by (intros; apply sha_ok).
    rewrite vector_row_ok.
    2: { rewrite (concat_length_w 32) by (intros; apply Lv; lia). lia. }
    cbn [obind]. rewrite (frow_concat 32 V l r Lv) by lia. rewrite array_from_slice_ok by (apply Lv; lia). cbn [obind].
    assert (Hi : ((r - r mod 8) / 8 = r / 8)%nat).
    { pose proof (Nat.div_mod r 8 ltac:(lia)) as Edm. replace (r - r mod 8)%nat with (r / 8 * 8)%nat by lia. apply Nat.div_mul. lia. }
    assert (Hl8 : (r < 8 * (l / 8))%nat).
    { pose proof (Nat.div_mod l 8 ltac:(lia)). pose proof (Nat.mod_upper_bound l 8 ltac:(lia)). lia. }
    rewrite Hi. rewrite (idx_lt _ (r / 8) 0).
    2: { rewrite pack_choices_length, Lx. apply Nat.div_lt_upper_bound; lia. }
    cbn [obind]. rewrite land1_bit.
    change (N.testbit (nth (r / 8) (pack_choices (choices ++ bonus)) 0) (N.of_nat (r mod 8))) with (bit_of (pack_choices (choices ++ bonus)) r).
    rewrite pack_choices_bit by (rewrite Lx; exact Hl8). rewrite app_nth1 by lia.
    destruct (nth r choices false).
    + change (N.to_nat 1) with 1%nat. unfold d. rewrite D_slice by lia. cbn [obind Nat.eqb].
      rewrite repeat_length. apply xor_inplace_ok. rewrite (proj1 (fill_ok _ _)), E1_len; auto.
    + change (N.to_nat 0) with 0%nat. unfold d. rewrite D_slice by lia. cbn [obind Nat.eqb].
      rewrite repeat_length. apply xor_inplace_ok. rewrite (proj1 (fill_ok _ _)), E0_len; auto.
  - now rewrite repeat_length.
Qed.

(** With a smaller announced size the first row already panics. *)
Lemma derandomize_short s' : (s' < s)%nat -> exists r, derandomize fill p cores (concat (map V (seq 0 l))) (pack_choices (choices ++ bonus))
   (concat (map (fun r => E0 r ++ E1 r) (seq 0 n))) s' n = Panic r.
Proof.
  intros Hs'. unfold derandomize. set (d := concat (map (fun r => E0 r ++ E1 r) (seq 0 n))).
  assert (Ld : length d = (2 * s * n)%nat).
  { apply concat_length_w. intros. rewrite app_length, E0_len, E1_len; lia. }
  assert (Lx : length (choices ++ bonus) = l) by (rewrite app_length; lia).
  rewrite udiv_ok by auto. cbn [obind]. rewrite Ld.
  replace (2 * s * n / 2 / n)%nat with s.
  2: { replace (2 * s * n)%nat with (s * n * 2)%nat by lia. rewrite !Nat.div_mul by lia. reflexivity. }
  destruct (rows_in_chunk_ok cores n cores_ok n_pos) as (tc & k & E & Ek & Hk). rewrite E. cbn [obind]. rewrite Ek. cbn [obind].
  assert (F : exists r, derandomize_row fill p (concat (map V (seq 0 l))) (pack_choices (choices ++ bonus)) d s 0 (repeat 0 s') = Panic r).
  { unfold derandomize_row.
    assert (Lv : forall i, (i < l)%nat -> length (V i) = 32%nat) by (intros; apply sha_ok).
    rewrite vector_row_ok.
    2: { rewrite (concat_length_w 32) by (intros; apply Lv; lia). lia. }
    cbn [obind]. rewrite (frow_concat 32 V l 0 Lv) by lia. rewrite array_from_slice_ok by (apply Lv; lia). cbn [obind].
    change ((0 - 0 mod 8) / 8)%nat with 0%nat. rewrite (idx_lt _ 0 0).
    2: { rewrite pack_choices_length, Lx. apply Nat.div_str_pos. lia. }
    cbn [obind]. set (c := N.to_nat _).
    assert (Hc : (c <= 1)%nat). { unfold c. rewrite land1_bit. destruct (N.testbit _ _); cbn; lia. }
    unfold d. rewrite D_slice by lia. cbn [obind]. rewrite repeat_length.
    match goal with |- context [xor_inplace p _ ?y] => assert (Le : length y = s); [destruct (Nat.eqb c 0); [apply E0_len|apply E1_len]; lia|generalize dependent y; intros yy Le] end.
    unfold xor_inplace. rewrite Le. rewrite (proj1 (fill_ok _ _)).
    destruct p; cbn [debug_assert].
    - rewrite (proj2 (Nat.eqb_neq _ _)) by lia. cbn. eexists. reflexivity.
    - cbn [obind]. rewrite (proj2 (Nat.ltb_lt _ _)) by lia. eexists. reflexivity. }
  destruct F as [r F]. exists r.
  destruct n as [|n'] eqn:En; [lia|]. unfold par_items, chunks_mut.
  rewrite (proj2 (Nat.eqb_neq _ _)) by lia. cbn [obind]. rewrite repeat_length.
  rewrite chunks_cons by discriminate. destruct k as [|k']; [lia|].
  cbn [repeat firstn enumerate length seq combine mapM fst snd Nat.mul Nat.add].
  rewrite F. reflexivity.
Qed.

Hypothesis rows : forall r, (r < n)%nat -> frow 16 qt r =
    if nth r choices false then zipWith N.lxor (frow 16 t r) delta else frow 16 t r.
Lemma final_selection : is_selection msgs choices
  (map (fun r => zipWith N.lxor (fill (V r) s) (if nth r choices false then E1 r else E0 r)) (seq 0 n)).
Proof.
  split. { rewrite map_length, seq_length. auto. }
  intros r m c Em Ec.
  assert (Hr : (r < n)%nat) by (rewrite <- n_ok; apply nth_error_Some; congruence).
  rewrite nth_map_seq by auto. f_equal.
  apply nth_error_nth with (d := false) in Ec. rewrite Ec.
  assert (Em' : m_of r = m) by (now apply nth_error_nth).
  destruct (m_len r Hr) as [M0 M1]. rewrite Em' in M0, M1.
  pose proof (rows r Hr) as R. rewrite Ec in R. fold (mask (frow 16 t r) r).
  change (fill (V r) s) with (mask (frow 16 t r) r).
  assert (X : forall k m, length m = s -> zipWith N.lxor (mask k r) (zipWith N.lxor (mask k r) m) = m).
  { intros k m0 Lm. rewrite (zipWith_comm _ (mask k r) m0) by apply N.lxor_comm.
    rewrite zipWith_comm by apply N.lxor_comm. apply zipWith_xor_twice. rewrite mask_len. auto. }
  unfold selected. destruct c.
  - unfold E1. rewrite R, Em'. rewrite zipWith_xor_twice. 2: { rewrite frow_length by lia. symmetry. apply d_ok. }
    now apply X.
  - unfold E0. rewrite R, Em'. now apply X.
Qed.
End Final.
End Run.
