(** Steps and runs of the third version of the one-of-many key exchange. *)
From Coq Require Import List NArith Bool Lia Arith Permutation.
From Verif Require Import Base MUtil MWires MCircuit MGarble MPar MBincode MProc MOt MApricot MMany MFpake.
From Verif Require Import SpecUtil SpecWires SpecCircuit SpecGarble SpecBincode SpecOt SpecApricot SpecFpake SpecMany SpecMfpake.
From Verif Require Import PBase PUtil PWires PGarble PCircuit PCircuit2 PHalf PProc POt PPar PApricotRun PFpake CFpake CMfpake.
Import ListNotations.
Open Scope N_scope.

(** ** Three passwords *)
Fixpoint dist3 (a b c : bytes) : nat :=
  match a, b, c with
  | x :: a', y :: b', z :: c' => (weight (N.lxor x (N.lxor y z)) + dist3 a' b' c')%nat
  | _, _, _ => 0%nat
  end.
Lemma weight3_app a b c a' b' c' : length a = length b -> length a = length c ->
  weight3 (a ++ a') (b ++ b') (c ++ c') = (weight3 a b c + weight3 a' b' c')%nat.
Proof.
  revert b c. induction a as [|x a IH]; intros [|y b] [|z c] H H'; cbn [app weight3]; auto; try discriminate.
  rewrite IH by (cbn in *; lia). lia.
Qed.
Lemma weight3_map (f g h : N -> bool) l :
  weight3 (map f l) (map g l) (map h l) = length (filter (fun i => xorb (f i) (xorb (g i) (h i))) l).
Proof. induction l as [|i l IH]; [reflexivity|]. cbn [map weight3 filter]. rewrite IH. destruct (xorb _ _); reflexivity. Qed.
Lemma weight3_bits a : forall b c, length a = length b -> length a = length c ->
  weight3 (u8_vec_to_bool_vec a) (u8_vec_to_bool_vec b) (u8_vec_to_bool_vec c) = dist3 a b c.
Proof.
  induction a as [|x a IH]; intros [|y b] [|z c] H H'; try discriminate; [reflexivity|].
  unfold u8_vec_to_bool_vec in *. cbn [flat_map dist3]. rewrite weight3_app by reflexivity. rewrite IH by (cbn in *; lia).
  f_equal. rewrite !byte_bits_testbit, weight3_map. unfold weight. f_equal. apply filter_ext. intros i.
  now rewrite !N.lxor_spec.
Qed.
Lemma dist3_client a : forall m s, length m = length a -> length s = length a -> dist3 a m (xor m s) = distance a s.
Proof.
  induction a as [|x a IH]; intros [|y m] [|z s] H H'; try discriminate; auto.
  unfold xor in *. cbn [zipWith dist3 distance]. rewrite IH by (cbn in *; lia). f_equal. f_equal.
  now rewrite <- (N.lxor_assoc y y z), N.lxor_nilpotent, N.lxor_0_l.
Qed.
Lemma dist3_server a : forall m s, length m = length a -> length s = length a -> dist3 (xor m s) m a = distance s a.
Proof.
  induction a as [|x a IH]; intros [|y m] [|z s] H H'; try discriminate; auto.
  unfold xor in *. cbn [zipWith dist3 distance]. rewrite IH by (cbn in *; lia). f_equal. f_equal.
  apply N.bits_inj. intros k. rewrite !N.lxor_spec. destruct (N.testbit x k), (N.testbit y k), (N.testbit z k); reflexivity.
Qed.

(** ** Steps *)
(** The label pairs of inputs k .. k+n-1. *)
Definition seg (z : list (wire * wire)) (k n : nat) : list (wire * wire) := firstn n (skipn k z).
Lemma seg_length z k n : (k + n <= length z)%nat -> length (seg z k n) = n.
Proof. intros H. unfold seg. rewrite firstn_length, skipn_length. lia. Qed.
Lemma seg_nth z k n i d : (i < n)%nat -> nth i (seg z k n) d = nth (k + i) z d.
Proof. intros H. unfold seg. rewrite nth_firstn by lia. apply nth_skipn. Qed.
Lemma seg_binary z k n : all_binary z -> all_binary (seg z k n).
Proof. intros H. apply all_binary_firstn. now apply all_binary_skipn. Qed.
Lemma seg_split3 z n : length z = (n * 3)%nat -> seg z 0 n ++ seg z n n ++ seg z (n * 2) n = z.
Proof.
  intros H. unfold seg. rewrite <- (firstn_skipn n z) at 4. f_equal.
  rewrite <- (firstn_skipn n (skipn n z)) at 2. f_equal. rewrite skipn_skipn'. replace (n + n)%nat with (n * 2)%nat by lia.
  apply firstn_all2. rewrite skipn_length. lia.
Qed.
Lemma map_nth_seq {A B} (f : A -> B) (l : list A) d : map (fun i => f (nth i l d)) (seq 0 (length l)) = map f l.
Proof.
  apply (nth_ext _ _ (f d) (f d)). { now rewrite !map_length, seq_length. }
  intros i Hi. rewrite map_length, seq_length in Hi. rewrite (map_nth f).
  rewrite (nth_indep _ (f d) ((fun i => f (nth i l d)) 0%nat)) by now rewrite map_length, seq_length.
  rewrite (map_nth (fun i => f (nth i l d))), seq_nth by exact Hi. reflexivity.
Qed.
Lemma label_pairs_ok z k n : (k + n <= length z)%nat -> label_pairs z k n = Ok (label_messages (seg z k n)).
Proof.
  intros H. unfold label_pairs, label_messages. set (d := (wire_empty, wire_empty)).
  rewrite (mapM_Ok _ (fun i => (fun w : wire * wire => (wval (fst w), wval (snd w))) (nth i (seg z k n) d))).
  - pose proof (map_nth_seq (fun w : wire * wire => (wval (fst w), wval (snd w))) (seg z k n) d) as Q.
    rewrite (seg_length z k n H) in Q. f_equal. exact Q.
  - intros i Hi. apply in_seq in Hi. rewrite (idx_lt z (k + i) d) by lia. cbn [obind]. now rewrite seg_nth by lia.
Qed.
Lemma bit_at_ok v i : (i < length v * 8)%nat -> bit_at v i = Ok (nth i (u8_vec_to_bool_vec v) false).
Proof.
  intros H. unfold bit_at. rewrite (idx_lt v (i / 8) 0) by (apply Nat.div_lt_upper_bound; lia). cbn [obind].
  rewrite bits_nth by lia. unfold bit_of. f_equal. apply land1_testbit.
Qed.
Lemma choice_bits_ok v : choice_bits v (length v * 8) = Ok (u8_vec_to_bool_vec v).
Proof.
  unfold choice_bits. rewrite (mapM_Ok _ (fun i => (fun b : bool => b) (nth i (u8_vec_to_bool_vec v) false))).
  - rewrite <- bits_length8. f_equal. rewrite (map_nth_seq (fun b : bool => b)). apply map_id.
  - intros i Hi. apply in_seq in Hi. apply bit_at_ok. lia.
Qed.
Lemma pick_nth z bs i : (i < length z)%nat -> length bs = length z ->
  nth i (zipWith pick z bs) wire_empty = pick (nth i z (wire_empty, wire_empty)) (nth i bs false).
Proof. intros H L. apply zipWith_nth; lia. Qed.
Lemma pick_length z bs : length bs = length z -> length (zipWith pick z bs) = length z.
Proof. intros H. rewrite zipWith_length. lia. Qed.
Lemma nth_WF (l : list wire) i : Forall (WF 2) l -> (i < length l)%nat -> WF 2 (nth i l wire_empty).
Proof. intros F H. rewrite Forall_forall in F. apply F. now apply nth_In. Qed.

Lemma encode_flat_ok p z k v : let n := (length v * 8)%nat in (k + n <= length z)%nat -> all_binary z ->
  encode_flat p z k n v = Ok (concat (map (fun i => wval (nth i (zipWith pick (seg z k n) (u8_vec_to_bool_vec v)) wire_empty)) (seq 0 n))).
Proof.
  intros n H Hb. unfold encode_flat. pose proof (seg_length z k n H) as Ls.
  assert (Lb : length (u8_vec_to_bool_vec v) = n) by apply bits_length8.
  apply update_rows_ok. { rewrite repeat_length. lia. }
  intros i Hi. assert (HW : WF 2 (nth i (zipWith pick (seg z k n) (u8_vec_to_bool_vec v)) wire_empty)).
  { apply nth_WF; [apply picked_labels, seg_binary, Hb|]. rewrite pick_length; lia. }
  rewrite frow_zeros by (unfold LENGTH; lia). rewrite bit_at_ok by exact Hi. cbn [obind].
  rewrite (idx_lt z (k + i) (wire_empty, wire_empty)) by lia. cbn [obind].
  rewrite pick_nth in * by lia. rewrite seg_nth in * by lia.
  fold (pick (nth (k + i) z (wire_empty, wire_empty)) (nth i (u8_vec_to_bool_vec v) false)).
  destruct HW as (_ & Hl & _). split; [|exact Hl].
  rewrite xor_bytes_inplace_ok by (rewrite repeat_length; unfold LENGTH; lia). f_equal.
  replace LENGTH with (length (wval (pick (nth (k + i) z (wire_empty, wire_empty)) (nth i (u8_vec_to_bool_vec v) false)))) by exact Hl.
  apply xor_zeros.
Qed.
Lemma from_bytes_binary p w : WF 2 w -> from_bytes p (wval w) Binary = Ok w.
Proof. intros H. unfold from_bytes. assert (H' := H). destruct H' as (_ & Hl & _). rewrite Hl. cbn [Nat.eqb LENGTH]. now apply from_array_binary. Qed.
Lemma payload_ok_wires p ws n : length ws = n -> Forall (WF 2) ws -> payload_to_encoding p (map wval ws) n = Ok ws.
Proof.
  intros L F. unfold payload_to_encoding. rewrite (mapM_Ok _ (fun i => (fun w : wire => w) (nth i ws wire_empty))).
  - subst n. rewrite (map_nth_seq (fun w : wire => w)). now rewrite map_id.
  - intros i Hi. apply in_seq in Hi. rewrite (idx_lt _ i (wval wire_empty)) by (rewrite map_length; lia). cbn [obind].
    rewrite (map_nth wval). apply from_bytes_binary. apply nth_WF; auto. lia.
Qed.
Lemma bytes_ok_wires p ws n : length ws = n -> Forall (WF 2) ws ->
  bytes_to_encoding p (concat (map (fun i => wval (nth i ws wire_empty)) (seq 0 n))) n 32 = Ok ws.
Proof.
  intros L F. unfold bytes_to_encoding.
  assert (Hl : forall i, (i < n)%nat -> length (wval (nth i ws wire_empty)) = 32%nat).
  { intros i Hi. destruct (nth_WF ws i F) as (_ & Hl & _); [lia|exact Hl]. }
  rewrite (mapM_Ok _ (fun i => (fun w : wire => w) (nth i ws wire_empty))).
  - rewrite <- L. rewrite (map_nth_seq (fun w : wire => w)). now rewrite map_id.
  - intros i Hi. apply in_seq in Hi.
    rewrite vector_row_ok. 2: { rewrite (concat_length_w 32) by (intros; apply Hl; lia). nia. }
    cbn [obind]. rewrite (frow_concat 32 (fun i => wval (nth i ws wire_empty))) by (auto; lia). apply from_bytes_binary. apply nth_WF; auto. lia.
Qed.
Lemma seg_extension z k n : all_binary z -> (k + n <= length z)%nat -> (0 < n)%nat -> (n mod 8 = 0)%nat -> usize_ok n ->
  extension_ok (label_messages (seg z k n)).
Proof. intros Hz Hl H0 H8 Hu. apply labels_extension; rewrite ?seg_length by auto; auto. now apply seg_binary. Qed.

(** ** Runs *)
Section V3.
Variable sha : bytes -> bytes.
Hypothesis Hsha : hash32 sha.
Variables p p' : profile.
Variable g : garbling.
Hypothesis Hg : garbling_ok g.
Variable l : nat.
Hypothesis Hgl : good_length l.
Variables (passwords : list bytes) (mask pw password : bytes) (t : N).
Hypothesis Hp0 : exists p0, nth_error passwords 0 = Some p0 /\ length p0 = l.
Hypothesis Lm : length mask = l.
Hypothesis Lpw : length pw = l.
Hypothesis Lpass : length password = l.
Hypothesis Ht : t <= 65534.
Let n := (l * 8)%nat.
Let c := circ2 n t.
Let o := (5 * n + 1)%nat.
Let masked := xor mask pw.

Lemma first_password : exists p0, idx passwords 0 = Ok p0 /\ length p0 = l.
Proof. destruct Hp0 as (p0 & E & L). exists p0. unfold idx. now rewrite E. Qed.
Lemma masked_length : length masked = l.
Proof. unfold masked. rewrite xor_length; congruence. Qed.

Lemma v3_common : exists gc ek dk zs l0 l1, half_key sha p (g_rd g) (g_ri g) c gc ek dk zs l0 l1 /\
  all_binary zs /\ length zs = (n * 3)%nat /\ first_output c = o /\
  (forall a b d, length a = l -> length b = l -> length d = l ->
     forall gc2, same_garbled gc2 gc ->
     evaluate sha p' gc2 (zipWith pick (seg zs 0 n) (u8_vec_to_bool_vec a) ++ zipWith pick (seg zs n n) (u8_vec_to_bool_vec b) ++
       zipWith pick (seg zs (n * 2) n) (u8_vec_to_bool_vec d)) = Ok [if N.of_nat (dist3 a b d) <=? t then l1 else l0]) /\
  (forall p2 gc2 w, same_garbled gc2 gc -> evaluator_half_key sha p2 gc2 [w] = Ok (sha (dec_string o 1 w))).
Proof.
  destruct (good_supported _ Hgl) as (Hs & Hn & H1). fold n in Hs, Hn, H1.
  destruct (circ2_half sha p g n t Hsha Hg Hn Ht H1 Hs) as (gc & ek & dk & zs & l0 & l1 & H). fold c in H.
  exists gc, ek, dk, zs, l0, l1. split; [exact H|].
  pose proof (zs_binary _ _ _ _ _ _ _ _ _ _ H) as Hz.
  pose proof (hk_length _ _ _ _ _ _ _ _ _ _ _ H) as Lz. cbn [c circ2 num_inputs] in Lz.
  assert (Eo : first_output c = o) by (unfold first_output, o; cbn [c circ2 num_wires num_outputs]; lia).
  do 3 (split; [assumption|]). split.
  - intros a b d La Lb Ld gc2 Same.
    assert (Hbits : forall v, length v = l -> length (u8_vec_to_bool_vec v) = n) by (intros v Lv; rewrite bits_length8, Lv; reflexivity).
    rewrite <- !zipWith_app by (rewrite ?app_length, !seg_length, ?Hbits; auto; lia). rewrite seg_split3 by exact Lz.
    rewrite (hk_evaluate _ _ _ _ _ _ _ _ _ _ _ H); [| |exact Same].
    2: { rewrite !app_length, !Hbits by auto. cbn [c circ2 num_inputs]. lia. }
    assert (Ev : circuit_outputs c (bit_values (u8_vec_to_bool_vec a ++ u8_vec_to_bool_vec b ++ u8_vec_to_bool_vec d)) =
      [if N.of_nat (dist3 a b d) <=? t then 1 else 0]).
    { unfold bit_values. rewrite !map_app. fold (bit_values (u8_vec_to_bool_vec a)). fold (bit_values (u8_vec_to_bool_vec b)).
      fold (bit_values (u8_vec_to_bool_vec d)). unfold c. rewrite circ2_outputs by auto. rewrite weight3_bits by congruence. reflexivity. }
    rewrite Ev. cbn [nth]. destruct (N.of_nat (dist3 a b d) <=? t); reflexivity.
  - intros p2 gc2 w Same.
    assert (Hnw : usize_ok (num_wires c)) by (apply usize_small; cbn [c circ2 num_wires]; apply N.le_lt_trans with 400000; [lia|reflexivity]).
    assert (Hnw1 : (1 <= num_wires c)%nat) by (cbn [c circ2 num_wires]; lia).
    rewrite (evaluator_half_key_ok _ _ _ _ _ _ _ _ _ _ H p2 gc2 _ Same eq_refl Hnw1 Hnw). now rewrite Eo.
Qed.

Lemma common_labels gc ek dk zs l0 l1 : half_key sha p (g_rd g) (g_ri g) c gc ek dk zs l0 l1 -> first_output c = o -> labels_of sha p g c o l0 l1.
Proof.
  intros H Eo. destruct (hk_genuine _ _ _ _ _ _ _ _ _ _ _ H) as (s & Er & G0 & G1). rewrite Eo in *.
  exists ek, s. pose proof (hk_differ _ _ _ _ _ _ _ _ _ _ _ H). auto.
Qed.

Lemma n_facts : (0 < n)%nat /\ (n mod 8 = 0)%nat /\ usize_ok n /\ N.of_nat n <= 65534.
Proof.
  destruct (good_supported _ Hgl) as (_ & Hn & H1). fold n in Hn, H1.
  assert (H8 : (n mod 8 = 0)%nat) by (apply Nat.mod_mul; lia).
  assert (Hu : usize_ok n) by (apply usize_small; apply N.le_lt_trans with 65534; [lia|reflexivity]).
  repeat split; auto.
Qed.

(** First half: the server garbles. *)
Lemma v3_server_garbles ot1S ot1R ot2S ot2R dom manyS manyR d index :
  ot_correct extension_ok ot1S ot1R -> ot_correct extension_ok ot2S ot2R -> many_correct dom manyS manyR -> dom d ->
  password_list d l passwords -> nth_error passwords (N.to_nat index) = Some pw ->
  exists l0 l1, labels_of sha p g c o l0 l1 /\
  runs (garbler_server_v3 sha p mask g ot1S manyS ot2S passwords t)
       (evaluator_client_v3 sha p' ot1R manyR ot2R password (N.of_nat (2 ^ d)) index)
    (Ok (sha (dec_string o 1 l1), mask))
    (Ok (sha (dec_string o 1 (if N.of_nat (distance password pw) <=? t then l1 else l0)), masked)).
Proof.
  intros Hot1 Hot2 Hm Hd (Hd31 & Lp & Fp) Hi.
  destruct v3_common as (gc & ek & dk & zs & l0 & l1 & H & Hz & Lz & Eo & Hev & Hek).
  exists l0, l1. split; [eapply common_labels; eauto|].
  destruct n_facts as (Hn0 & Hn8 & Hnu & Hn). destruct first_password as (p0 & E0 & L0).
  assert (Hbits : forall v, length v = l -> length (u8_vec_to_bool_vec v) = n) by (intros v Lv; rewrite bits_length8, Lv; reflexivity).
  assert (Hpow : 2 ^ N.of_nat d = N.of_nat (2 ^ d)) by (now rewrite Nat2N.inj_pow).
  assert (Hlog : forall q w, 32 <= w <= 64 -> log2_ q w (N.of_nat (2 ^ d)) = Ok (N.of_nat d)).
  { intros q w Hw. rewrite <- Hpow. apply log2_pow2; [apply N.le_lt_trans with 64; [lia|reflexivity]|lia]. }
  unfold garbler_server_v3, evaluator_client_v3. rewrite Lpass. fold n.
  eapply runs_lift_l; [exact E0|]. cbv beta. rewrite L0. fold n.
  eapply runs_lift_l; [apply build_circuit_v2_eq; assumption|]. fold c.
  eapply runs_lift_l; [exact (garble_zipped_ok _ _ _ _ _ _ _ _ _ _ H)|]. cbv beta iota.
  apply runs_send_recv.
  destruct (sent_garbled _ _ _ _ _ _ _ _ _ _ Hg H) as (gc2 & Egc & Same).
  eapply runs_lift_r; [exact Egc|].
  eapply runs_lift_l; [apply label_pairs_ok; lia|].
  eapply runs_lift_r. { unfold n. rewrite <- Lpass. apply choice_bits_ok. }
  destruct (Hot1 (label_messages (seg zs 0 n)) (u8_vec_to_bool_vec password)) as (out1 & R1 & Sel1).
  { unfold label_messages. rewrite map_length, seg_length, Hbits; auto; lia. }
  { apply seg_extension; auto; lia. }
  apply selection_labels in Sel1; [|rewrite seg_length, Hbits; auto; lia].
  eapply runs_bind; [exact R1|].
  eapply runs_lift_l. { unfold n. rewrite <- Lm. apply encode_flat_ok; [|exact Hz]. rewrite Lm. fold n. lia. }
  apply runs_send_recv.
  eapply runs_lift_l. { rewrite Lp. apply Hlog. lia. }
  eapply runs_lift_r. { apply Hlog. lia. }
  eapply runs_lift_l. { apply mask_passwords_ok; auto. }
  rewrite Nat2N.id.
  eapply runs_bind.
  { apply (Hm d (map (xor mask) passwords) index masked); auto.
    - now rewrite map_length.
    - exists l. split; [destruct Hgl; lia|]. apply Forall_map. eapply Forall_impl; [|exact Fp]. intros y Hy. cbn beta. rewrite xor_length; congruence.
    - unfold masked. now apply map_nth_error. }
  eapply runs_lift_l; [apply label_pairs_ok; lia|].
  eapply runs_lift_r. { unfold n. rewrite <- masked_length. apply choice_bits_ok. }
  destruct (Hot2 (label_messages (seg zs (n * 2) n)) (u8_vec_to_bool_vec masked)) as (out2 & R2 & Sel2).
  { unfold label_messages. rewrite map_length, seg_length, Hbits; auto using masked_length; lia. }
  { apply seg_extension; auto; lia. }
  apply selection_labels in Sel2; [|rewrite seg_length, Hbits; auto using masked_length; lia].
  eapply runs_bind; [exact R2|].
  rewrite Lm. fold n.
  set (w1 := zipWith pick (seg zs 0 n) (u8_vec_to_bool_vec password)) in *.
  set (w2 := zipWith pick (seg zs n n) (u8_vec_to_bool_vec mask)) in *.
  set (w3 := zipWith pick (seg zs (n * 2) n) (u8_vec_to_bool_vec masked)) in *.
  assert (F1 : Forall (WF 2) w1) by (apply picked_labels, seg_binary, Hz).
  assert (F2 : Forall (WF 2) w2) by (apply picked_labels, seg_binary, Hz).
  assert (F3 : Forall (WF 2) w3) by (apply picked_labels, seg_binary, Hz).
  assert (L1 : length w1 = n) by (unfold w1; rewrite pick_length, seg_length; rewrite ?Hbits, ?seg_length; auto; lia).
  assert (L2 : length w2 = n) by (unfold w2; rewrite pick_length, seg_length; rewrite ?Hbits, ?seg_length; auto; lia).
  assert (L3 : length w3 = n) by (unfold w3; rewrite pick_length, seg_length; rewrite ?Hbits, ?seg_length; auto using masked_length; lia).
  eapply runs_lift_r. { rewrite Sel2. apply (idx_lt _ 0 (wval wire_empty)). rewrite map_length. lia. }
  rewrite (map_nth wval).
  assert (L30 : length (wval (nth 0 w3 wire_empty)) = 32%nat). { destruct (nth_WF w3 0 F3) as (_ & Q & _); [lia|exact Q]. }
  rewrite L30.
  eapply runs_lift_r. { rewrite Sel1. apply payload_ok_wires; auto. }
  eapply runs_lift_r. { apply bytes_ok_wires; auto. }
  eapply runs_lift_r. { rewrite Sel2. apply payload_ok_wires; auto. }
  eapply runs_lift_r. { apply Hev; [exact Lpass|exact Lm|exact masked_length|exact Same]. }
  unfold masked. rewrite dist3_client by congruence.
  eapply runs_lift_r. { apply Hek. exact Same. }
  eapply runs_lift_l. { rewrite (garbler_half_key_ok _ _ _ _ _ _ _ _ _ _ H), Eo. reflexivity. }
  apply runs_ret.
Qed.

(** Second half: the client garbles. *)
Lemma v3_client_garbles otS otR : ot_correct extension_ok otS otR ->
  exists l0 l1, labels_of sha p g c o l0 l1 /\
  runs (garbler_client_v3 sha p g otS password masked t) (evaluator_server_v3 sha p' otR passwords mask)
    (Ok (sha (dec_string o 1 l1)))
    (Ok (sha (dec_string o 1 (if N.of_nat (distance pw password) <=? t then l1 else l0)))).
Proof.
  intros Hot.
  destruct v3_common as (gc & ek & dk & zs & l0 & l1 & H & Hz & Lz & Eo & Hev & Hek).
  exists l0, l1. split; [eapply common_labels; eauto|].
  destruct n_facts as (Hn0 & Hn8 & Hnu & Hn). destruct first_password as (p0 & E0 & L0).
  assert (Hbits : forall v, length v = l -> length (u8_vec_to_bool_vec v) = n) by (intros v Lv; rewrite bits_length8, Lv; reflexivity).
  set (w1 := zipWith pick (seg zs 0 n) (u8_vec_to_bool_vec masked)).
  set (w2 := zipWith pick (seg zs n n) (u8_vec_to_bool_vec mask)).
  set (w3 := zipWith pick (seg zs (n * 2) n) (u8_vec_to_bool_vec password)).
  assert (F1 : Forall (WF 2) w1) by (apply picked_labels, seg_binary, Hz).
  assert (F2 : Forall (WF 2) w2) by (apply picked_labels, seg_binary, Hz).
  assert (F3 : Forall (WF 2) w3) by (apply picked_labels, seg_binary, Hz).
  assert (L1 : length w1 = n) by (unfold w1; rewrite pick_length, seg_length; rewrite ?Hbits, ?seg_length; auto using masked_length; lia).
  assert (L2 : length w2 = n) by (unfold w2; rewrite pick_length, seg_length; rewrite ?Hbits, ?seg_length; auto; lia).
  assert (L3 : length w3 = n) by (unfold w3; rewrite pick_length, seg_length; rewrite ?Hbits, ?seg_length; auto; lia).
  unfold garbler_client_v3, evaluator_server_v3. rewrite Lpass. fold n.
  eapply runs_lift_r; [exact E0|]. cbv beta. rewrite L0. fold n.
  eapply runs_lift_l; [apply build_circuit_v2_eq; assumption|]. fold c.
  eapply runs_lift_l; [exact (garble_zipped_ok _ _ _ _ _ _ _ _ _ _ H)|]. cbv beta iota.
  assert (E3 : map (fun i => (fun w : wire => w) (nth i w3 wire_empty)) (seq 0 n) = w3).
  { rewrite <- L3 at 1. now rewrite (map_nth_seq (fun w : wire => w)), map_id. }
  eapply runs_lift_l with (a := w3).
  { rewrite (mapM_Ok _ (fun i => (fun w : wire => w) (nth i w3 wire_empty))); [now rewrite E3|].
    intros i Hin. apply in_seq in Hin. rewrite bit_at_ok by lia. cbn [obind].
    rewrite (idx_lt zs (n * 2 + i) (wire_empty, wire_empty)) by lia. cbn [obind]. unfold w3.
    rewrite pick_nth by (rewrite ?seg_length, ?Hbits; auto; lia). rewrite seg_nth by lia. reflexivity. }
  apply runs_send_recv.
  destruct (sent_garbled _ _ _ _ _ _ _ _ _ _ Hg H) as (gc2 & Egc & Same).
  eapply runs_lift_r; [exact Egc|].
  apply runs_send_recv.
  eapply runs_lift_r. { apply sent_wires; [exact F3|rewrite L3; exact Hnu]. }
  eapply runs_lift_l; [apply label_pairs_ok; lia|].
  eapply runs_lift_r. { unfold n. rewrite <- Lm. apply choice_bits_ok. }
  destruct (Hot (label_messages (seg zs n n)) (u8_vec_to_bool_vec mask)) as (out & R & Sel).
  { unfold label_messages. rewrite map_length, seg_length, Hbits; auto; lia. }
  { apply seg_extension; auto; lia. }
  apply selection_labels in Sel; [|rewrite seg_length, Hbits; auto; lia].
  eapply runs_bind; [exact R|].
  eapply runs_lift_l. { apply (idx_lt _ 0 (wire_empty, wire_empty)). lia. }
  eapply runs_lift_l. { unfold n. rewrite <- masked_length. apply encode_flat_ok; [|exact Hz]. rewrite masked_length. fold n. lia. }
  apply runs_send_recv. rewrite masked_length. fold n.
  fold w1.
  eapply runs_lift_r. { rewrite Sel. fold w2. apply (idx_lt _ 0 (wval wire_empty)). rewrite map_length. lia. }
  rewrite (map_nth wval).
  assert (L20 : length (wval (nth 0 w2 wire_empty)) = 32%nat). { destruct (nth_WF w2 0 F2) as (_ & Q & _); [lia|exact Q]. }
  rewrite L20.
  eapply runs_lift_r. { rewrite Sel. apply payload_ok_wires; auto. }
  eapply runs_lift_r. { apply bytes_ok_wires; auto. }
  eapply runs_lift_r. { apply Hev; [exact masked_length|exact Lm|exact Lpass|exact Same]. }
  unfold masked. rewrite dist3_server by congruence.
  rewrite (garbler_half_key_ok _ _ _ _ _ _ _ _ _ _ H), Eo. rewrite Hek by exact Same. apply runs_done.
Qed.
End V3.
