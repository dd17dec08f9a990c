(** The attack on the third version of the one-of-many key exchange. *)
From Coq Require Import List NArith Bool Arith Lia Permutation.
From Verif Require Import Base MUtil MWires MCircuit MGarble MPar MBincode MProc MOt MApricot MMany MFpake.
From Verif Require Import SpecUtil SpecWires SpecCircuit SpecGarble SpecBincode SpecOt SpecApricot SpecFpake SpecMany SpecMfpake SpecSteal SpecSteal3.
From Verif Require Import PBase PUtil PWires PWiresSpec PGarble PGarbleSpec PCircuit PCircuit2 PHalf PLeak PProc POt PPar PApricotRun PFpake CFpake CMfpake PFpake3 PSteal PSteal2.
Import ListNotations.
Open Scope N_scope.

(** ** The circuit for three passwords *)
Section Circ2.
Variable sha : bytes -> bytes.
Hypothesis Hsha : hash32 sha.
Variables p p' : profile.
Variables (rd : N -> bytes) (ri : nat -> bytes).
Variables (n tn : nat).
Let t := N.of_nat tn.
Let c := circ2 n t.
Hypothesis Hsam : good_samples c rd ri.
Hypothesis Hn : N.of_nat n <= 65534.
Hypothesis Hn1 : (1 <= n)%nat.
Hypothesis Heven : Nat.Even n.
Hypothesis Hs : supported (cd1 n).
Hypothesis Htn : (tn < n)%nat.
Hypothesis Hleak : leaky3 n ri.
Variables (gc gc2 : garbled) (ek : encoding_key) (dk : decoding_key) (zs : list (wire * wire)) (l0 l1 : wire).
Hypothesis H : half_key sha p rd ri c gc ek dk zs l0 l1.
Hypothesis Same : same_garbled gc2 gc.

Lemma circ2_steal a b d : length a = n -> length b = n -> length d = n ->
  steal sha p' gc2 (4 * n) n tn (zipWith pick zs (a ++ b ++ d)) = Ok (l1, weight3 a b d).
Proof.
  intros La Lb Ld. assert (Ht : t <= 65534) by (unfold t; lia).
  assert (Hwf : wf_circuit c) by (apply circ2_wf; auto).
  destruct (hk_state _ _ _ _ _ _ _ _ _ _ _ H) as (s & Er & Egc & HI & E0 & E1 & Hek & Hz).
  assert (Eo : first_output c = (3 * n + n + n + 1)%nat) by (unfold first_output; cbn [c circ2 num_wires num_outputs]; lia).
  rewrite Eo in E0, E1. rewrite Hz by (rewrite !app_length; cbn [c circ2 num_inputs]; lia).
  pose proof (Inv_profile sha p p' rd c _ s Hsha Hwf HI) as HI'. replace (4 * n)%nat with (3 * n + n)%nat by lia.
  assert (Eb : bit_values (a ++ b ++ d) = bit_values a ++ bit_values b ++ bit_values d) by (unfold bit_values; now rewrite !map_app).
  assert (H2 : Forall (fun m => m = 2) (input_domains c)).
  { cbn [c circ2 input_domains]. apply Forall_forall. intros m Hm. now apply repeat_spec in Hm. }
  assert (Hgl : gates c = xors2 n ++ tail_gates (3 * n) n (cd1 n) (t + 1)) by reflexivity.
  assert (Lx : length (xors2 n) = n) by (unfold xors2; now rewrite map_length, seq_length).
  assert (Hgate : forall i g, nth_error (tail_gates (3 * n) n (cd1 n) (t + 1)) i = Some g -> nth_error (gates c) (n + i) = Some g).
  { intros i g Hg. rewrite Hgl, nth_error_app2 by lia. rewrite Lx. now replace (n + i - n)%nat with i by lia. }
  rewrite E1. apply (steal_ok sha p' rd ri c Hsha Hsam Hwf s HI' (3 * n) n t Heven Hn1 Hs); auto.
  - intros i Hi. exists (n + i)%nat. apply Hgate. now apply tail_proj.
  - exists (n + (n + 1))%nat. apply Hgate. apply tail_less.
  - destruct Hleak as (i & Hi & Ei). exists i. split; [exact Hi|].
    assert (HW := HI'). destruct HW as (_ & HW & _ & _ & Hgood & _).
    assert (Hk : nth_error (gates c) i = Some (mkGate (i + 3 * n) 2 [i; i + n; i + 2 * n]%nat GAdd)).
    { rewrite Hgl, nth_error_app1 by lia. unfold xors2. now rewrite nth_error_map_seq by auto. }
    assert (Hgn : (i < length (gates c))%nat) by (apply nth_error_Some; congruence).
    specialize (Hgood i _ Hgn Hk). unfold good_gate in Hgood. cbn [g_kind g_inputs g_output g_domain] in Hgood.
    rewrite (Hgood i [i + n; i + 2 * n]%nat eq_refl). cbn [map psum fold_left]. unfold psum. cbn [fold_left].
    assert (Hid : length (input_domains c) = num_inputs c) by apply (wf_indoms c Hwf).
    assert (M : forall j, (j < n * 3)%nat -> WF 2 (wn (gs_wires s) j) /\ wn (gs_wires s) j = mkWire Binary (ri j)).
    { intros j Hj. split.
      - replace 2 with (modulus c j). { apply HW. cbn [c circ2 num_inputs]. lia. }
        unfold c. rewrite circ2_modulus by lia. destruct (Nat.ltb_spec j (4 * n)); [reflexivity|lia].
      - eapply run_input; eauto. }
    destruct (M i ltac:(lia)) as [W1 X1]. destruct (M (i + n)%nat ltac:(lia)) as [W2 X2]. destruct (M (i + 2 * n)%nat ltac:(lia)) as [W3 X3].
    rewrite !color_padd2 by auto using padd_WF, sup2. rewrite X1, X2, X3. unfold color. cbn [wdom wval]. change (LENGTH - 1)%nat with 31%nat.
    change 1 with (N.ones 1). rewrite !N.land_ones. change (2 ^ 1) with 2.
    rewrite <- (N.add_mod (nth 31 (ri i) 0)) by lia. rewrite <- N.add_mod by lia.
    apply N.even_spec in Ei as [q ->]. rewrite N.mul_comm. apply N.mod_mul. lia.
  - rewrite <- Egc. exact Same.
  - rewrite Eb. split.
    + rewrite !app_length, !bit_values_length. cbn [c circ2 num_inputs]. lia.
    + intros i Hi. unfold c. cbn [c circ2 num_inputs] in Hi. rewrite circ2_modulus by lia.
      destruct (Nat.ltb_spec i (4 * n)); [|lia]. rewrite <- Eb. apply bit_values_lt.
  - rewrite Eb. unfold PGarble.v, c. rewrite circ2_values by auto.
    set (pre := bit_values a ++ bit_values b ++ bit_values d). rewrite !app_assoc.
    assert (Hbd : length (xor_list b d) = n) by (rewrite xor_list_length; congruence).
    assert (Lp : length ((pre ++ bit_values (xor_list a (xor_list b d))) ++ bit_values (xor_list a (xor_list b d))) = (3 * n + n + n)%nat).
    { unfold pre. rewrite !app_length, !bit_values_length, xor_list_length by congruence. lia. }
    rewrite app_nth2 by lia. rewrite Lp, Nat.sub_diag. reflexivity.
  - pose proof (hk_differ _ _ _ _ _ _ _ _ _ _ _ H) as Hd. rewrite <- E0, <- E1. exact Hd.
Qed.
End Circ2.

(** ** The two halves *)
Section V3.
Variable sha : bytes -> bytes.
Hypothesis Hsha : hash32 sha.
Variables p p' : profile.
Variable g : garbling.
Hypothesis Hg : garbling_ok g.
Variable l : nat.
Hypothesis Hgl : good_length l.
Variables (passwords : list bytes) (mask pw password : bytes) (tn : nat).
Hypothesis Hp0 : exists p0, nth_error passwords 0 = Some p0 /\ length p0 = l.
Hypothesis Lm : length mask = l.
Hypothesis Lpw : length pw = l.
Hypothesis Lpass : length password = l.
Hypothesis Htn : (tn < l * 8)%nat.
Hypothesis Hleak : leaky3 (l * 8) (g_ri g).
Let t := N.of_nat tn.
Let n := (l * 8)%nat.
Let c := circ2 n t.
Let o := (5 * n + 1)%nat.
Let masked := xor mask pw.

Lemma masked_length' : length masked = l.
Proof. unfold masked. rewrite xor_length; congruence. Qed.
Lemma Ht : t <= 65534.
Proof. destruct (good_supported _ Hgl) as (_ & Hn & _). unfold t. lia. Qed.

Lemma v3_stolen gc gc2 ek dk zs l0 l1 a b d : half_key sha p (g_rd g) (g_ri g) c gc ek dk zs l0 l1 -> same_garbled gc2 gc ->
  length a = l -> length b = l -> length d = l ->
  steal sha p' gc2 (4 * n) n tn (zipWith pick (seg zs 0 n) (u8_vec_to_bool_vec a) ++ zipWith pick (seg zs n n) (u8_vec_to_bool_vec b) ++
       zipWith pick (seg zs (n * 2) n) (u8_vec_to_bool_vec d)) = Ok (l1, dist3 a b d).
Proof.
  intros H Same La Lb Ld. destruct (good_supported _ Hgl) as (Hs & Hn & H1). fold n in Hs, Hn, H1.
  pose proof (hk_length _ _ _ _ _ _ _ _ _ _ _ H) as Lz. cbn [c circ2 num_inputs] in Lz.
  assert (Hbits : forall v, length v = l -> length (u8_vec_to_bool_vec v) = n) by (intros v Lv; rewrite bits_length8, Lv; reflexivity).
  rewrite <- !zipWith_app by (rewrite ?app_length, !seg_length, ?Hbits; auto; lia). rewrite seg_split3 by exact Lz.
  rewrite <- weight3_bits by congruence.
  assert (H2 : Forall (fun m => m = 2) (input_domains c)).
  { cbn [c circ2 input_domains]. apply Forall_forall. intros m Hm. now apply repeat_spec in Hm. }
  apply (circ2_steal sha Hsha p p' (g_rd g) (g_ri g) n tn) with (gc := gc) (ek := ek) (dk := dk) (l0 := l0); auto.
  - now apply samples_ok.
  - exists (l * 4)%nat. unfold n. lia.
Qed.

(** First half: the attacker is the client. *)
Lemma v3_steal_client ot1S ot1R ot2S ot2R dom manyS manyR d index :
  ot_correct extension_ok ot1S ot1R -> ot_correct extension_ok ot2S ot2R -> many_correct dom manyS manyR -> dom d ->
  password_list d l passwords -> nth_error passwords (N.to_nat index) = Some pw ->
  exists k, length k = 32%nat /\
  runs (garbler_server_v3 sha p mask g ot1S manyS ot2S passwords t)
       (evil_evaluator_client_v3 sha p' ot1R manyR ot2R password d index tn)
    (Ok (k, mask)) (Ok (k, masked, distance password pw)).
Proof.
  intros Hot1 Hot2 Hm Hd (Hd31 & Lp & Fp) Hi.
  destruct (v3_common sha Hsha p p' g Hg l Hgl mask pw password t Lm Lpw Lpass Ht) as (gc & ek & dk & zs & l0 & l1 & H & Hz & Lz & Eo & _ & Hek). fold n in H, Lz, Eo, Hek. fold c in H, Eo. fold o in Eo, Hek.
  exists (sha (dec_string o 1 l1)). split; [apply Hsha|].
  destruct (n_facts l Hgl mask pw password t Lm Lpw Lpass Ht) as (Hn0 & Hn8 & Hnu & Hn). fold n in Hn0, Hn8, Hnu, Hn. pose proof Ht. destruct (first_password l passwords Hp0) as (p0 & E0 & L0).
  assert (Hbits : forall v, length v = l -> length (u8_vec_to_bool_vec v) = n) by (intros v Lv; rewrite bits_length8, Lv; reflexivity).
  assert (Hpow : 2 ^ N.of_nat d = N.of_nat (2 ^ d)) by (now rewrite Nat2N.inj_pow).
  assert (Hlog : forall q w, 32 <= w <= 64 -> log2_ q w (N.of_nat (2 ^ d)) = Ok (N.of_nat d)).
  { intros q w Hw. rewrite <- Hpow. apply log2_pow2; [apply N.le_lt_trans with 64; [lia|reflexivity]|lia]. }
  unfold garbler_server_v3, evil_evaluator_client_v3. rewrite Lpass. fold n.
  eapply runs_lift_l; [exact E0|]. cbv beta. rewrite L0. fold n.
  eapply runs_lift_l; [apply build_circuit_v2_eq; assumption|]. fold c.
  eapply runs_lift_l; [exact (garble_zipped_ok _ _ _ _ _ _ _ _ _ _ H)|]. cbv beta iota.
  apply runs_send_recv.
  destruct (sent_garbled _ _ _ _ _ _ _ _ _ _ Hg H) as (gc2 & Egc & Same).
  eapply runs_lift_r; [exact Egc|].
  eapply runs_lift_l; [apply label_pairs_ok; lia|].
  eapply runs_lift_r. { unfold n. rewrite <- Lpass. apply choice_bits_ok. }
  destruct (Hot1 (label_messages (seg zs 0 n)) (u8_vec_to_bool_vec password)) as (out1 & R1 & Sel1).
  { unfold label_messages. rewrite map_length, seg_length, Hbits; auto; lia. }
  { apply seg_extension; auto; lia. }
  apply selection_labels in Sel1; [|rewrite seg_length, Hbits; auto; lia].
  eapply runs_bind; [exact R1|].
  eapply runs_lift_l. { unfold n. rewrite <- Lm. apply encode_flat_ok; [|exact Hz]. rewrite Lm. fold n. lia. }
  apply runs_send_recv.
  eapply runs_lift_l. { rewrite Lp. apply Hlog. lia. }
  eapply runs_lift_l. { apply mask_passwords_ok; auto. }
  rewrite Nat2N.id.
  eapply runs_bind.
  { apply (Hm d (map (xor mask) passwords) index masked); auto.
    - now rewrite map_length.
    - exists l. split; [destruct Hgl; lia|]. apply Forall_map. eapply Forall_impl; [|exact Fp]. intros y Hy. cbn beta. rewrite xor_length; congruence.
    - unfold masked. now apply map_nth_error. }
  eapply runs_lift_l; [apply label_pairs_ok; lia|].
  eapply runs_lift_r. { unfold n. rewrite <- masked_length'. apply choice_bits_ok. }
  destruct (Hot2 (label_messages (seg zs (n * 2) n)) (u8_vec_to_bool_vec masked)) as (out2 & R2 & Sel2).
  { unfold label_messages. rewrite map_length, seg_length, Hbits; auto using masked_length'; lia. }
  { apply seg_extension; auto; lia. }
  apply selection_labels in Sel2; [|rewrite seg_length, Hbits; auto using masked_length'; lia].
  eapply runs_bind; [exact R2|].
  rewrite Lm. fold n.
  set (w1 := zipWith pick (seg zs 0 n) (u8_vec_to_bool_vec password)) in *.
  set (w2 := zipWith pick (seg zs n n) (u8_vec_to_bool_vec mask)) in *.
  set (w3 := zipWith pick (seg zs (n * 2) n) (u8_vec_to_bool_vec masked)) in *.
  assert (F1 : Forall (WF 2) w1) by (apply picked_labels, seg_binary, Hz).
  assert (F2 : Forall (WF 2) w2) by (apply picked_labels, seg_binary, Hz).
  assert (F3 : Forall (WF 2) w3) by (apply picked_labels, seg_binary, Hz).
  assert (L1 : length w1 = n) by (unfold w1; rewrite pick_length, seg_length; rewrite ?Hbits, ?seg_length; auto; lia).
  assert (L2 : length w2 = n) by (unfold w2; rewrite pick_length, seg_length; rewrite ?Hbits, ?seg_length; auto; lia).
  assert (L3 : length w3 = n) by (unfold w3; rewrite pick_length, seg_length; rewrite ?Hbits, ?seg_length; auto using masked_length'; lia).
  eapply runs_lift_r. { rewrite Sel1. apply payload_ok_wires; auto. }
  eapply runs_lift_r. { apply bytes_ok_wires; auto. }
  eapply runs_lift_r. { rewrite Sel2. apply payload_ok_wires; auto. }
  eapply runs_lift_r. { apply (v3_stolen gc gc2 ek dk zs l0 l1); auto using masked_length'. }
  cbv beta iota. unfold masked. rewrite dist3_client by congruence.
  eapply runs_lift_r. { apply Hek. exact Same. }
  eapply runs_lift_l. { rewrite (garbler_half_key_ok _ _ _ _ _ _ _ _ _ _ H), Eo. reflexivity. }
  apply runs_ret.
Qed.

(** Second half: the attacker is the server. *)
Lemma v3_steal_server otS otR : ot_correct extension_ok otS otR ->
  exists k, length k = 32%nat /\
  runs (garbler_client_v3 sha p g otS password masked t) (evil_evaluator_server_v3 sha p' otR mask tn)
    (Ok k) (Ok (k, distance pw password)).
Proof.
  intros Hot.
  destruct (v3_common sha Hsha p p' g Hg l Hgl mask pw password t Lm Lpw Lpass Ht) as (gc & ek & dk & zs & l0 & l1 & H & Hz & Lz & Eo & _ & Hek). fold n in H, Lz, Eo, Hek. fold c in H, Eo. fold o in Eo, Hek.
  exists (sha (dec_string o 1 l1)). split; [apply Hsha|].
  destruct (n_facts l Hgl mask pw password t Lm Lpw Lpass Ht) as (Hn0 & Hn8 & Hnu & Hn). fold n in Hn0, Hn8, Hnu, Hn. pose proof Ht.
  assert (Hbits : forall v, length v = l -> length (u8_vec_to_bool_vec v) = n) by (intros v Lv; rewrite bits_length8, Lv; reflexivity).
  set (w1 := zipWith pick (seg zs 0 n) (u8_vec_to_bool_vec masked)).
  set (w2 := zipWith pick (seg zs n n) (u8_vec_to_bool_vec mask)).
  set (w3 := zipWith pick (seg zs (n * 2) n) (u8_vec_to_bool_vec password)).
  assert (F1 : Forall (WF 2) w1) by (apply picked_labels, seg_binary, Hz).
  assert (F2 : Forall (WF 2) w2) by (apply picked_labels, seg_binary, Hz).
  assert (F3 : Forall (WF 2) w3) by (apply picked_labels, seg_binary, Hz).
  assert (L1 : length w1 = n) by (unfold w1; rewrite pick_length, seg_length; rewrite ?Hbits, ?seg_length; auto using masked_length'; lia).
  assert (L2 : length w2 = n) by (unfold w2; rewrite pick_length, seg_length; rewrite ?Hbits, ?seg_length; auto; lia).
  assert (L3 : length w3 = n) by (unfold w3; rewrite pick_length, seg_length; rewrite ?Hbits, ?seg_length; auto; lia).
  unfold garbler_client_v3, evil_evaluator_server_v3. rewrite Lpass, Lm. fold n.
  eapply runs_lift_l; [apply build_circuit_v2_eq; assumption|]. fold c.
  eapply runs_lift_l; [exact (garble_zipped_ok _ _ _ _ _ _ _ _ _ _ H)|]. cbv beta iota.
  assert (E3 : map (fun i => (fun w : wire => w) (nth i w3 wire_empty)) (seq 0 n) = w3).
  { rewrite <- L3 at 1. now rewrite (map_nth_seq (fun w : wire => w)), map_id. }
  eapply runs_lift_l with (a := w3).
  { rewrite (mapM_Ok _ (fun i => (fun w : wire => w) (nth i w3 wire_empty))); [now rewrite E3|].
    intros i Hin. apply in_seq in Hin. rewrite bit_at_ok by lia. cbn [obind].
    rewrite (idx_lt zs (n * 2 + i) (wire_empty, wire_empty)) by lia. cbn [obind]. unfold w3.
    rewrite pick_nth by (rewrite ?seg_length, ?Hbits; auto; lia). rewrite seg_nth by lia. reflexivity. }
  apply runs_send_recv.
  destruct (sent_garbled _ _ _ _ _ _ _ _ _ _ Hg H) as (gc2 & Egc & Same).
  eapply runs_lift_r; [exact Egc|].
  apply runs_send_recv.
  eapply runs_lift_r. { apply sent_wires; [exact F3|rewrite L3; exact Hnu]. }
  eapply runs_lift_l; [apply label_pairs_ok; lia|].
  eapply runs_lift_r. { unfold n. rewrite <- Lm. apply choice_bits_ok. }
  destruct (Hot (label_messages (seg zs n n)) (u8_vec_to_bool_vec mask)) as (out & R & Sel).
  { unfold label_messages. rewrite map_length, seg_length, Hbits; auto; lia. }
  { apply seg_extension; auto; lia. }
  apply selection_labels in Sel; [|rewrite seg_length, Hbits; auto; lia].
  eapply runs_bind; [exact R|].
  eapply runs_lift_l. { apply (idx_lt _ 0 (wire_empty, wire_empty)). lia. }
  eapply runs_lift_l. { unfold n. rewrite <- masked_length'. apply encode_flat_ok; [|exact Hz]. rewrite masked_length'. fold n. lia. }
  apply runs_send_recv. rewrite masked_length'. fold n.
  fold w1.
  eapply runs_lift_r. { rewrite Sel. apply payload_ok_wires; auto. }
  eapply runs_lift_r. { apply bytes_ok_wires; auto. }
  eapply runs_lift_r. { apply (v3_stolen gc gc2 ek dk zs l0 l1); auto using masked_length'. }
  cbv beta iota. unfold masked. rewrite dist3_server by congruence.
  rewrite (garbler_half_key_ok _ _ _ _ _ _ _ _ _ _ H), Eo. rewrite Hek by exact Same. cbn [lift pbind ret]. apply runs_done.
Qed.
End V3.
