(** The reading in the circuits of the key exchanges, and in the key exchanges. *)
From Coq Require Import List NArith Bool Arith Lia Permutation.
From Verif Require Import Base MUtil MWires MCircuit MGarble MPar MBincode MProc MMany MFpake SpecUtil SpecWires SpecCircuit SpecGarble SpecBincode SpecOt SpecApricot SpecFpake.
From Verif Require Import SpecMany SpecMfpake SpecSteal SpecSpy.
From Verif Require Import PBase PUtil PWires PWiresSpec PGarble PGarbleSpec PHalf PLeak PCircuit PCircuit2 PProc PFpake PSteal PSteal2 PSpy CMfpake PFpake3.
Import ListNotations.
Open Scope N_scope.

(** ** Bits and bytes *)
Lemma pack_bits a : bytes_ok a -> pack (u8_vec_to_bool_vec a) = a.
Proof.
  intros Ha. unfold pack. rewrite bits_length8, Nat.div_mul by lia. apply (nth_ext _ _ 0 0). { now rewrite map_length, seq_length. }
  intros b Hb. rewrite map_length, seq_length in Hb.
  rewrite (PCircuit.nth_map_seq (fun b => bits_value (firstn 8 (skipn (8 * b) (u8_vec_to_bool_vec a))))) by auto. cbn [plus].
  rewrite <- (bits_value_byte (nth b a 0)). 2:{ exact (proj1 (Forall_forall _ _) Ha _ (nth_In a 0 Hb)). }
  f_equal. clear Ha. revert b Hb. induction a as [|x a IH]; intros b Hb; [cbn in Hb; lia|]. destruct b as [|b].
  - reflexivity.
  - cbn [length] in Hb. cbn [nth]. rewrite <- (IH b ltac:(lia)). f_equal. change (u8_vec_to_bool_vec (x :: a)) with (byte_bits x ++ u8_vec_to_bool_vec a).
    replace (8 * S b)%nat with (length (byte_bits x) + 8 * b)%nat by (replace (length (byte_bits x)) with 8%nat by reflexivity; lia).
    rewrite skipn_app. rewrite skipn_all2 by lia. cbn [app]. f_equal. lia.
Qed.
Lemma byte_bits_xor x y : zipWith xorb (byte_bits x) (byte_bits y) = byte_bits (N.lxor x y).
Proof. rewrite !byte_bits_testbit. cbn [seq map zipWith]. now rewrite !N.lxor_spec. Qed.
Lemma zip_app {A B C} (f : A -> B -> C) a a' : forall b b', length a = length b -> zipWith f (a ++ a') (b ++ b') = zipWith f a b ++ zipWith f a' b'.
Proof. induction a as [|x a IH]; intros [|y b] b' Hl; try discriminate; [reflexivity|]. cbn [app zipWith]. f_equal. apply IH. now inversion Hl. Qed.
Lemma bits_xor a : forall b, length a = length b -> xor_list (u8_vec_to_bool_vec a) (u8_vec_to_bool_vec b) = u8_vec_to_bool_vec (xor a b).
Proof.
  induction a as [|x a IH]; intros [|y b] Hl; try discriminate; [reflexivity|].
  change (u8_vec_to_bool_vec (x :: a)) with (byte_bits x ++ u8_vec_to_bool_vec a). change (u8_vec_to_bool_vec (y :: b)) with (byte_bits y ++ u8_vec_to_bool_vec b).
  change (u8_vec_to_bool_vec (xor (x :: a) (y :: b))) with (byte_bits (N.lxor x y) ++ u8_vec_to_bool_vec (xor a b)).
  unfold xor_list in *. rewrite zip_app by reflexivity. rewrite IH by now inversion Hl. now rewrite byte_bits_xor.
Qed.
Lemma xor_bytes_range a : forall b, bytes_ok a -> bytes_ok b -> bytes_ok (xor a b).
Proof.
  induction a as [|x a IH]; intros [|y b] Ha Hb; try constructor.
  - inversion Ha; inversion Hb; subst. unfold byte_ok in *. now apply PWires.lxor_byte.
  - inversion Ha; inversion Hb; subst. now apply IH.
Qed.
Lemma xor_twice a : forall b, length a = length b -> xor b (xor a b) = a.
Proof.
  induction a as [|x a IH]; intros [|y b] Hl; try discriminate; [reflexivity|]. cbn [xor zipWith].
  change (N.lxor y (N.lxor x y) :: xor b (xor a b) = x :: a). f_equal; [|apply IH; now inversion Hl].
  rewrite (N.lxor_comm x y), <- N.lxor_assoc, N.lxor_nilpotent. apply N.lxor_0_l.
Qed.
Lemma xor_comm' a b : xor a b = xor b a.
Proof. revert b. induction a as [|x a IH]; intros [|y b]; try reflexivity. cbn [xor zipWith]. change (N.lxor x y :: xor a b = N.lxor y x :: xor b a). now rewrite IH, N.lxor_comm. Qed.

(** ** The circuit for two passwords *)
Section Circ1.
Variable sha : bytes -> bytes.
Hypothesis Hsha : hash32 sha.
Variables p p' : profile.
Variables (rd : N -> bytes) (ri : nat -> bytes).
Variables (n : nat) (t : N).
Hypothesis Hn : N.of_nat n <= 65534.
Hypothesis Hn1 : (2 <= n)%nat.
Hypothesis Hs : supported (cd1 n).
Hypothesis Ht : t <= 65534.

Lemma circ1_peek gc gc2 ek dk zs l0 l1 a b : good_samples (circ1 n t) rd ri -> half_key sha p rd ri (circ1 n t) gc ek dk zs l0 l1 ->
  same_garbled gc2 gc -> length a = n -> length b = n ->
  peek_all sha p' gc2 (2 * n) n (zipWith pick zs (a ++ b)) = Ok (xor_list a b).
Proof.
  intros Hsam H Same La Lb. set (c := circ1 n t) in *.
  assert (Hwf : wf_circuit c) by (apply circ1_wf; auto; lia).
  destruct (hk_state _ _ _ _ _ _ _ _ _ _ _ H) as (s & Er & Egc & HI & E0 & E1 & Hek & Hz).
  rewrite Hz by (rewrite app_length; cbn [c circ1 num_inputs]; lia).
  pose proof (Inv_profile sha p p' rd c _ s Hsha Hwf HI) as HI'.
  assert (Eb : bit_values (a ++ b) = bit_values a ++ bit_values b) by (unfold bit_values; apply map_app).
  assert (Hgl : gates c = xors1 n ++ tail_gates (2 * n) n (cd1 n) (t + 1)) by reflexivity.
  assert (Lx : length (xors1 n) = n) by (unfold xors1; now rewrite map_length, seq_length).
  assert (Hx : wf_inputs c (bit_values (a ++ b))) by (rewrite Eb; apply circ1_inputs; auto).
  rewrite Egc in Same.
  apply (peek_all_ok sha p' rd ri c Hsha Hsam Hwf s HI' gc2 Same _ Hx (2 * n) n Hn1).
  - intros i Hi. exists (n + i)%nat. rewrite Hgl, nth_error_app2 by lia. rewrite Lx. replace (n + i - n)%nat with i by lia. now apply tail_proj.
  - rewrite xor_list_length; congruence.
  - intros i Hi. rewrite Eb. unfold PGarble.v, c. rewrite circ1_values by auto. pose proof (xor_list_length a b ltac:(congruence)) as Lab.
    rewrite app_nth2 by (rewrite app_length, !bit_values_length; lia). rewrite app_length, !bit_values_length.
    rewrite app_nth1 by (rewrite bit_values_length; lia). replace (i + 2 * n - (length a + length b))%nat with i by lia. apply bit_values_nth.
Qed.
Lemma circ2_peek gc gc2 ek dk zs l0 l1 a b d : good_samples (circ2 n t) rd ri -> half_key sha p rd ri (circ2 n t) gc ek dk zs l0 l1 ->
  same_garbled gc2 gc -> length a = n -> length b = n -> length d = n ->
  peek_all sha p' gc2 (3 * n) n (zipWith pick zs (a ++ b ++ d)) = Ok (xor_list a (xor_list b d)).
Proof.
  intros Hsam H Same La Lb Ld. set (c := circ2 n t) in *.
  assert (Hwf : wf_circuit c) by (apply circ2_wf; auto; lia).
  destruct (hk_state _ _ _ _ _ _ _ _ _ _ _ H) as (s & Er & Egc & HI & E0 & E1 & Hek & Hz).
  rewrite Hz by (rewrite !app_length; cbn [c circ2 num_inputs]; lia).
  pose proof (Inv_profile sha p p' rd c _ s Hsha Hwf HI) as HI'.
  assert (Eb : bit_values (a ++ b ++ d) = bit_values a ++ bit_values b ++ bit_values d) by (unfold bit_values; now rewrite !map_app).
  assert (Hgl : gates c = xors2 n ++ tail_gates (3 * n) n (cd1 n) (t + 1)) by reflexivity.
  assert (Lx : length (xors2 n) = n) by (unfold xors2; now rewrite map_length, seq_length).
  assert (Hx : wf_inputs c (bit_values (a ++ b ++ d))) by (rewrite Eb; apply circ2_inputs; auto).
  rewrite Egc in Same. pose proof (xor_list_length b d ltac:(congruence)) as Lbd.
  apply (peek_all_ok sha p' rd ri c Hsha Hsam Hwf s HI' gc2 Same _ Hx (3 * n) n Hn1).
  - intros i Hi. exists (n + i)%nat. rewrite Hgl, nth_error_app2 by lia. rewrite Lx. replace (n + i - n)%nat with i by lia. now apply tail_proj.
  - rewrite xor_list_length; congruence.
  - intros i Hi. rewrite Eb. unfold PGarble.v, c. rewrite circ2_values by auto. pose proof (xor_list_length a (xor_list b d) ltac:(congruence)) as Lab.
    rewrite app_nth2 by (rewrite !app_length, !bit_values_length; lia). rewrite !app_length, !bit_values_length.
    rewrite app_nth1 by (rewrite bit_values_length; lia). replace (i + 3 * n - (length a + (length b + length d)))%nat with i by lia. apply bit_values_nth.
Qed.
End Circ1.

(** ** fPAKE *)
Section Run.
Variable sha : bytes -> bytes.
Hypothesis Hsha : hash32 sha.
Variables p p' : profile.
Variable g : garbling.
Hypothesis Hg : garbling_ok g.
Variable otS : list (bytes * bytes) -> proc unit.
Variable otR : list bool -> proc (list bytes).
Hypothesis Hot : ot_correct extension_ok otS otR.
Variables pw pw' : bytes.
Variable t : N.
Hypothesis Hlen : length pw' = length pw.
Hypothesis Hgood : good_length (length pw).
Hypothesis Ht : t <= 65534.
Hypothesis Hb : bytes_ok pw.
Hypothesis Hb' : bytes_ok pw'.
Let n := (length pw * 8)%nat.
Let c := circ1 n t.

Lemma spy_run : exists k k',
  runs (garbler sha p g otS pw t) (evaluator sha p' otR pw') (Ok k) (Ok k') /\
  runs (garbler sha p g otS pw t) (spying_evaluator sha p' otR pw') (Ok k) (Ok (k', pw)).
Proof.
  destruct (good_supported _ Hgood) as (Hs & Hn & H1). fold n in Hs, Hn, H1.
  assert (H2 : (2 <= n)%nat) by (unfold n in *; lia).
  destruct (circ1_half sha p g n t Hsha Hg Hn Ht H1 Hs) as (gc & ek & dk & zs & l0 & l1 & H). fold c in H.
  assert (Hsam : good_samples c (g_rd g) (g_ri g)).
  { apply samples_ok; auto. cbn [c circ1 input_domains]. apply Forall_forall. intros m Hm. now apply repeat_spec in Hm. }
  pose proof (zs_binary _ _ _ _ _ _ _ _ _ _ H) as Hz.
  pose proof (hk_length _ _ _ _ _ _ _ _ _ _ _ H) as Lz. cbn [c circ1 num_inputs] in Lz.
  assert (Lb : length (u8_vec_to_bool_vec pw) = n) by apply bits_length8.
  assert (Lb' : length (u8_vec_to_bool_vec pw') = n) by (rewrite bits_length8, Hlen; reflexivity).
  destruct (sent_garbled _ _ _ _ _ _ _ _ _ _ Hg H) as (gc2 & Egc & Same).
  assert (Hnw : usize_ok (num_wires c)) by (apply usize_small; cbn [c circ1 num_wires]; apply N.le_lt_trans with 300000; [lia|reflexivity]).
  assert (Hnw1 : (1 <= num_wires c)%nat) by (cbn [c circ1 num_wires]; lia).
  assert (Ev : exists w, evaluate sha p' gc2 (zipWith pick zs (u8_vec_to_bool_vec pw ++ u8_vec_to_bool_vec pw')) = Ok [w]).
  { eexists. apply (hk_evaluate _ _ _ _ _ _ _ _ _ _ _ H); [|exact Same]. rewrite app_length. cbn [c circ1 num_inputs]. lia. }
  destruct Ev as (w & Ev).
  pose proof (garble_zipped_ok _ _ _ _ _ _ _ _ _ _ H) as Ez.
  pose proof (garbler_half_key_ok _ _ _ _ _ _ _ _ _ _ H) as Ek.
  pose proof (evaluator_half_key_ok _ _ _ _ _ _ _ _ _ _ H p' gc2 w Same eq_refl Hnw1 Hnw) as Ek'.
  pose proof (circ1_peek sha Hsha p p' (g_rd g) (g_ri g) n t Hn H2 Hs Ht gc gc2 ek dk zs l0 l1 _ _ Hsam H Same Lb Lb') as Ep.
  set (k := sha (dec_string (first_output c) 1 l1)) in *. set (k' := sha (dec_string (first_output c) 1 w)) in *.
  exists k, k'. split.
  { apply (fpake_direct sha p p' g otS otR Hot pw pw' t Hlen) with (gc := gc) (gc2 := gc2) (zs := zs) (dk := dk) (out := [w]); auto.
    unfold n in H2. lia. }
  unfold garbler, spying_evaluator. rewrite Lb, Hlen. fold n.
  eapply runs_lift_l; [apply build_circuit_eq; assumption|]. fold c.
  eapply runs_lift_l; [exact Ez|]. cbv beta iota.
  eapply runs_lift_l. { unfold slice_to. rewrite (proj2 (Nat.leb_le _ _)) by lia. reflexivity. }
  eapply runs_lift_l. { unfold slice_from. rewrite (proj2 (Nat.leb_le _ _)) by lia. reflexivity. }
  set (own := firstn n zs). set (theirs := skipn n zs).
  assert (Lo : length own = n) by (unfold own; rewrite firstn_length; lia).
  assert (Lt : length theirs = n) by (unfold theirs; rewrite skipn_length; lia).
  assert (Hown : all_binary own) by now apply all_binary_firstn.
  assert (Hth : all_binary theirs) by now apply all_binary_skipn.
  assert (Hun : usize_ok n) by (apply usize_small; apply N.le_lt_trans with 65534; [lia|reflexivity]).
  destruct (Hot (label_messages theirs) (u8_vec_to_bool_vec pw')) as (outs & R & Sel).
  { unfold label_messages. rewrite map_length. lia. }
  { apply labels_extension; [exact Hth|unfold n in *; lia| |rewrite Lt; exact Hun]. rewrite Lt. apply Nat.mod_mul. lia. }
  apply selection_labels in Sel; [|lia].
  eapply runs_bind; [exact R|].
  eapply runs_lift_r. { rewrite Sel. apply received_labels. now apply picked_labels. }
  apply runs_send_recv.
  eapply runs_lift_r; [exact Egc|].
  eapply runs_lift_l. { apply bk_encode_pick. lia. }
  apply runs_send_recv.
  eapply runs_lift_r. { apply sent_wires; [now apply picked_labels|]. rewrite zipWith_length, Lo, Lb, Nat.min_id. exact Hun. }
  assert (Esplit : zipWith pick own (u8_vec_to_bool_vec pw) ++ zipWith pick theirs (u8_vec_to_bool_vec pw') = zipWith pick zs (u8_vec_to_bool_vec pw ++ u8_vec_to_bool_vec pw')).
  { rewrite <- zipWith_app by lia. unfold own, theirs. now rewrite firstn_skipn. }
  eapply runs_lift_r. { rewrite Esplit. exact Ev. }
  eapply runs_lift_r; [exact Ek'|].
  eapply runs_lift_r. { rewrite Esplit. exact Ep. }
  rewrite bits_xor by auto. rewrite pack_bits by now apply xor_bytes_range. rewrite xor_twice by auto.
  rewrite Ek. cbn [lift]. apply runs_done.
Qed.
End Run.

(** ** The third version *)
Section SpyV3.
Variable sha : bytes -> bytes.
Hypothesis Hsha : hash32 sha.
Variables p p' : profile.
Variable g : garbling.
Hypothesis Hg : garbling_ok g.
Variable l : nat.
Hypothesis Hgl : good_length l.
Variables (passwords : list bytes) (mask pw password : bytes) (t : N).
Hypothesis Hp0 : exists p0, nth_error passwords 0 = Some p0 /\ length p0 = l.
Hypothesis Lm : length mask = l.
Hypothesis Lpw : length pw = l.
Hypothesis Lpass : length password = l.
Hypothesis Ht : t <= 65534.
Let n := (l * 8)%nat.
Let c := circ2 n t.
Let o := (5 * n + 1)%nat.
Let masked := xor mask pw.

Hypothesis Hbm : bytes_ok mask.
Hypothesis Hbp : bytes_ok pw.
Hypothesis Hbw : bytes_ok password.
Lemma masked_eq : masked = xor mask pw.
Proof. reflexivity. Qed.
Lemma masked_len : length masked = l.
Proof. unfold masked. rewrite xor_length; congruence. Qed.
Lemma read3 gc ek dk zs l0 l1 : half_key sha p (g_rd g) (g_ri g) c gc ek dk zs l0 l1 -> length zs = (n * 3)%nat ->
  forall a b d, length a = l -> length b = l -> length d = l -> forall gc2, same_garbled gc2 gc ->
  peek_all sha p' gc2 (3 * n) n (zipWith pick (seg zs 0 n) (u8_vec_to_bool_vec a) ++ zipWith pick (seg zs n n) (u8_vec_to_bool_vec b) ++
    zipWith pick (seg zs (n * 2) n) (u8_vec_to_bool_vec d)) = Ok (u8_vec_to_bool_vec (xor a (xor b d))).
Proof.
  intros H Lz a b d La Lb Ld gc2 Same.
  destruct (good_supported _ Hgl) as (Hs & Hn & H1). fold n in Hs, Hn, H1. assert (H2 : (2 <= n)%nat) by (unfold n in *; lia).
  assert (Hsam : good_samples c (g_rd g) (g_ri g)).
  { apply samples_ok; auto. cbn [c circ2 input_domains]. apply Forall_forall. intros m Hm. now apply repeat_spec in Hm. }
  assert (Hbits : forall v, length v = l -> length (u8_vec_to_bool_vec v) = n) by (intros v Lv; rewrite bits_length8, Lv; reflexivity).
  rewrite <- !zipWith_app by (rewrite ?app_length, !seg_length, ?Hbits; auto; lia). rewrite seg_split3 by exact Lz.
  rewrite (circ2_peek sha Hsha p p' (g_rd g) (g_ri g) n t Hn H2 Hs Ht gc gc2 ek dk zs l0 l1) by auto.
  rewrite !bits_xor; [reflexivity|..]; rewrite ?xor_length; congruence.
Qed.
Lemma client_difference : xor password (pack (u8_vec_to_bool_vec (xor password (xor mask masked)))) = pw.
Proof.
  unfold masked. rewrite (xor_comm' mask pw), xor_twice by congruence.
  rewrite pack_bits by now apply xor_bytes_range. rewrite (xor_comm' password pw). apply xor_twice. congruence.
Qed.
Lemma server_difference : pack (u8_vec_to_bool_vec (xor masked (xor mask password))) = xor pw password.
Proof.
  rewrite pack_bits by (unfold masked; auto using xor_bytes_range). unfold masked. clear -Lm Lpw Lpass. revert pw password mask Lm Lpw Lpass.
  induction l as [|k IH]; intros [|x a] [|y b] [|z m] L1 L2 L3; try discriminate; [reflexivity|].
  cbn [xor zipWith]. change (N.lxor (N.lxor z x) (N.lxor z y) :: xor (xor m a) (xor m b) = N.lxor x y :: xor a b). f_equal; [|apply IH; cbn [length] in *; lia].
  rewrite (N.lxor_comm z x), N.lxor_assoc, <- (N.lxor_assoc z z), N.lxor_nilpotent. now rewrite N.lxor_0_l.
Qed.

(** First half: the server garbles. *)
Lemma spy_client_v3 ot1S ot1R ot2S ot2R dom manyS manyR d index :
  ot_correct extension_ok ot1S ot1R -> ot_correct extension_ok ot2S ot2R -> many_correct dom manyS manyR -> dom d ->
  password_list d l passwords -> nth_error passwords (N.to_nat index) = Some pw ->
  exists l0 l1, labels_of sha p g c o l0 l1 /\
  runs (garbler_server_v3 sha p mask g ot1S manyS ot2S passwords t)
       (spying_client_v3 sha p' ot1R manyR ot2R password (N.of_nat (2 ^ d)) index)
    (Ok (sha (dec_string o 1 l1), mask))
    (Ok (sha (dec_string o 1 (if N.of_nat (distance password pw) <=? t then l1 else l0)), masked, pw)).
Proof.
  intros Hot1 Hot2 Hm Hd (Hd31 & Lp & Fp) Hi.
  destruct (v3_common sha Hsha p p' g Hg l Hgl mask pw password t Lm Lpw Lpass Ht) as (gc & ek & dk & zs & l0 & l1 & H & Hz & Lz & Eo & Hev & Hek). fold n in Hev, Lz. fold c in H, Eo, Hek. fold o in Eo, Hek.
  exists l0, l1. split; [eapply common_labels; eauto|].
  destruct (n_facts l Hgl mask pw password t Lm Lpw Lpass Ht) as (Hn0 & Hn8 & Hnu & Hn). fold n in Hn0, Hn8, Hnu, Hn. destruct (first_password l passwords Hp0) as (p0 & E0 & L0).
  pose proof (read3 gc ek dk zs l0 l1 H Lz) as Hread.
  assert (Hbits : forall v, length v = l -> length (u8_vec_to_bool_vec v) = n) by (intros v Lv; rewrite bits_length8, Lv; reflexivity).
  assert (Hpow : 2 ^ N.of_nat d = N.of_nat (2 ^ d)) by (now rewrite Nat2N.inj_pow).
  assert (Hlog : forall q w, 32 <= w <= 64 -> log2_ q w (N.of_nat (2 ^ d)) = Ok (N.of_nat d)).
  { intros q w Hw. rewrite <- Hpow. apply log2_pow2; [apply N.le_lt_trans with 64; [lia|reflexivity]|lia]. }
  unfold garbler_server_v3, spying_client_v3. rewrite Lpass. fold n.
  eapply runs_lift_l; [exact E0|]. cbv beta. rewrite L0. fold n.
  eapply runs_lift_l; [apply build_circuit_v2_eq; assumption|]. fold c.
  eapply runs_lift_l; [exact (garble_zipped_ok _ _ _ _ _ _ _ _ _ _ H)|]. cbv beta iota.
  apply runs_send_recv.
  destruct (sent_garbled _ _ _ _ _ _ _ _ _ _ Hg H) as (gc2 & Egc & Same).
  eapply runs_lift_r; [exact Egc|].
  eapply runs_lift_l; [apply label_pairs_ok; lia|].
  eapply runs_lift_r. { unfold n. rewrite <- Lpass. apply choice_bits_ok. }
  destruct (Hot1 (label_messages (seg zs 0 n)) (u8_vec_to_bool_vec password)) as (out1 & R1 & Sel1).
  { unfold label_messages. rewrite map_length, seg_length, Hbits; auto; lia. }
  { apply seg_extension; auto; lia. }
  apply selection_labels in Sel1; [|rewrite seg_length, Hbits; auto; lia].
  eapply runs_bind; [exact R1|].
  eapply runs_lift_l. { unfold n. rewrite <- Lm. apply encode_flat_ok; [|exact Hz]. rewrite Lm. fold n. lia. }
  apply runs_send_recv.
  eapply runs_lift_l. { rewrite Lp. apply Hlog. lia. }
  eapply runs_lift_r. { apply Hlog. lia. }
  eapply runs_lift_l. { apply mask_passwords_ok; auto. }
  rewrite Nat2N.id.
  eapply runs_bind.
  { apply (Hm d (map (xor mask) passwords) index masked); auto.
    - now rewrite map_length.
    - exists l. split; [destruct Hgl; lia|]. apply Forall_map. eapply Forall_impl; [|exact Fp]. intros y Hy. cbn beta. rewrite xor_length; congruence.
    - unfold masked. now apply map_nth_error. }
  eapply runs_lift_l; [apply label_pairs_ok; lia|].
  eapply runs_lift_r. { unfold n. rewrite <- masked_len. apply choice_bits_ok. }
  destruct (Hot2 (label_messages (seg zs (n * 2) n)) (u8_vec_to_bool_vec masked)) as (out2 & R2 & Sel2).
  { unfold label_messages. rewrite map_length, seg_length, Hbits; auto using masked_len; lia. }
  { apply seg_extension; auto; lia. }
  apply selection_labels in Sel2; [|rewrite seg_length, Hbits; auto using masked_len; lia].
  eapply runs_bind; [exact R2|].
  rewrite Lm. fold n.
  set (w1 := zipWith pick (seg zs 0 n) (u8_vec_to_bool_vec password)) in *.
  set (w2 := zipWith pick (seg zs n n) (u8_vec_to_bool_vec mask)) in *.
  set (w3 := zipWith pick (seg zs (n * 2) n) (u8_vec_to_bool_vec masked)) in *.
  assert (F1 : Forall (WF 2) w1) by (apply picked_labels, seg_binary, Hz).
  assert (F2 : Forall (WF 2) w2) by (apply picked_labels, seg_binary, Hz).
  assert (F3 : Forall (WF 2) w3) by (apply picked_labels, seg_binary, Hz).
  assert (L1 : length w1 = n) by (unfold w1; rewrite pick_length, seg_length; rewrite ?Hbits, ?seg_length; auto; lia).
  assert (L2 : length w2 = n) by (unfold w2; rewrite pick_length, seg_length; rewrite ?Hbits, ?seg_length; auto; lia).
  assert (L3 : length w3 = n) by (unfold w3; rewrite pick_length, seg_length; rewrite ?Hbits, ?seg_length; auto using masked_len; lia).
  eapply runs_lift_r. { rewrite Sel2. apply (idx_lt _ 0 (wval wire_empty)). rewrite map_length. lia. }
  rewrite (map_nth wval).
  assert (L30 : length (wval (nth 0 w3 wire_empty)) = 32%nat). { destruct (nth_WF w3 0 F3) as (_ & Q & _); [lia|exact Q]. }
  rewrite L30.
  eapply runs_lift_r. { rewrite Sel1. apply payload_ok_wires; auto. }
  eapply runs_lift_r. { apply bytes_ok_wires; auto. }
  eapply runs_lift_r. { rewrite Sel2. apply payload_ok_wires; auto. }
  eapply runs_lift_r. { apply Hev; [exact Lpass|exact Lm|exact masked_len|exact Same]. }
  rewrite masked_eq, dist3_client by congruence. rewrite <- masked_eq.
  eapply runs_lift_r. { apply Hek. exact Same. }
  eapply runs_lift_r. { apply Hread; [exact Lpass|exact Lm|exact masked_len|exact Same]. }
  eapply runs_lift_l. { rewrite (garbler_half_key_ok _ _ _ _ _ _ _ _ _ _ H), Eo. reflexivity. }
  rewrite client_difference. apply runs_ret.
Qed.

(** Second half: the client garbles. *)
Lemma spy_server_v3 otS otR : ot_correct extension_ok otS otR ->
  exists l0 l1, labels_of sha p g c o l0 l1 /\
  runs (garbler_client_v3 sha p g otS password masked t) (spying_server_v3 sha p' otR passwords mask)
    (Ok (sha (dec_string o 1 l1)))
    (Ok (sha (dec_string o 1 (if N.of_nat (distance pw password) <=? t then l1 else l0)), xor pw password)).
Proof.
  intros Hot.
  destruct (v3_common sha Hsha p p' g Hg l Hgl mask pw password t Lm Lpw Lpass Ht) as (gc & ek & dk & zs & l0 & l1 & H & Hz & Lz & Eo & Hev & Hek). fold n in Hev, Lz. fold c in H, Eo, Hek. fold o in Eo, Hek.
  exists l0, l1. split; [eapply common_labels; eauto|].
  destruct (n_facts l Hgl mask pw password t Lm Lpw Lpass Ht) as (Hn0 & Hn8 & Hnu & Hn). fold n in Hn0, Hn8, Hnu, Hn. destruct (first_password l passwords Hp0) as (p0 & E0 & L0).
  pose proof (read3 gc ek dk zs l0 l1 H Lz) as Hread.
  assert (Hbits : forall v, length v = l -> length (u8_vec_to_bool_vec v) = n) by (intros v Lv; rewrite bits_length8, Lv; reflexivity).
  set (w1 := zipWith pick (seg zs 0 n) (u8_vec_to_bool_vec masked)).
  set (w2 := zipWith pick (seg zs n n) (u8_vec_to_bool_vec mask)).
  set (w3 := zipWith pick (seg zs (n * 2) n) (u8_vec_to_bool_vec password)).
  assert (F1 : Forall (WF 2) w1) by (apply picked_labels, seg_binary, Hz).
  assert (F2 : Forall (WF 2) w2) by (apply picked_labels, seg_binary, Hz).
  assert (F3 : Forall (WF 2) w3) by (apply picked_labels, seg_binary, Hz).
  assert (L1 : length w1 = n) by (unfold w1; rewrite pick_length, seg_length; rewrite ?Hbits, ?seg_length; auto using masked_len; lia).
  assert (L2 : length w2 = n) by (unfold w2; rewrite pick_length, seg_length; rewrite ?Hbits, ?seg_length; auto; lia).
  assert (L3 : length w3 = n) by (unfold w3; rewrite pick_length, seg_length; rewrite ?Hbits, ?seg_length; auto; lia).
  unfold garbler_client_v3, spying_server_v3. rewrite Lpass. fold n.
  eapply runs_lift_r; [exact E0|]. cbv beta. rewrite L0. fold n.
  eapply runs_lift_l; [apply build_circuit_v2_eq; assumption|]. fold c.
  eapply runs_lift_l; [exact (garble_zipped_ok _ _ _ _ _ _ _ _ _ _ H)|]. cbv beta iota.
  assert (E3 : map (fun i => (fun w : wire => w) (nth i w3 wire_empty)) (seq 0 n) = w3).
  { rewrite <- L3 at 1. now rewrite (map_nth_seq (fun w : wire => w)), map_id. }
  eapply runs_lift_l with (a := w3).
  { rewrite (mapM_Ok _ (fun i => (fun w : wire => w) (nth i w3 wire_empty))); [now rewrite E3|].
    intros i Hin. apply in_seq in Hin. rewrite bit_at_ok by lia. cbn [obind].
    rewrite (idx_lt zs (n * 2 + i) (wire_empty, wire_empty)) by lia. cbn [obind]. unfold w3.
    rewrite pick_nth by (rewrite ?seg_length, ?Hbits; auto; lia). rewrite seg_nth by lia. reflexivity. }
  apply runs_send_recv.
  destruct (sent_garbled _ _ _ _ _ _ _ _ _ _ Hg H) as (gc2 & Egc & Same).
  eapply runs_lift_r; [exact Egc|].
  apply runs_send_recv.
  eapply runs_lift_r. { apply sent_wires; [exact F3|rewrite L3; exact Hnu]. }
  eapply runs_lift_l; [apply label_pairs_ok; lia|].
  eapply runs_lift_r. { unfold n. rewrite <- Lm. apply choice_bits_ok. }
  destruct (Hot (label_messages (seg zs n n)) (u8_vec_to_bool_vec mask)) as (out & R & Sel).
  { unfold label_messages. rewrite map_length, seg_length, Hbits; auto; lia. }
  { apply seg_extension; auto; lia. }
  apply selection_labels in Sel; [|rewrite seg_length, Hbits; auto; lia].
  eapply runs_bind; [exact R|].
  eapply runs_lift_l. { apply (idx_lt _ 0 (wire_empty, wire_empty)). lia. }
  eapply runs_lift_l. { unfold n. rewrite <- masked_len. apply encode_flat_ok; [|exact Hz]. rewrite masked_len. fold n. lia. }
  apply runs_send_recv. rewrite masked_len. fold n.
  fold w1.
  eapply runs_lift_r. { rewrite Sel. fold w2. apply (idx_lt _ 0 (wval wire_empty)). rewrite map_length. lia. }
  rewrite (map_nth wval).
  assert (L20 : length (wval (nth 0 w2 wire_empty)) = 32%nat). { destruct (nth_WF w2 0 F2) as (_ & Q & _); [lia|exact Q]. }
  rewrite L20.
  eapply runs_lift_r. { rewrite Sel. apply payload_ok_wires; auto. }
  eapply runs_lift_r. { apply bytes_ok_wires; auto. }
  eapply runs_lift_r. { apply Hev; [exact masked_len|exact Lm|exact Lpass|exact Same]. }
  rewrite masked_eq, dist3_server by congruence.
  eapply runs_lift_r. { apply Hek. exact Same. }
  eapply runs_lift_r. { apply Hread; [exact masked_len|exact Lm|exact Lpass|exact Same]. }
  rewrite server_difference. rewrite (garbler_half_key_ok _ _ _ _ _ _ _ _ _ _ H), Eo. cbn [lift]. apply runs_done.
Qed.
End SpyV3.
