(** The attack on the circuits of the key exchange, and on the key exchange itself. *)
From Coq Require Import List NArith Bool Arith Lia Permutation.
From Verif Require Import Base MUtil MWires MCircuit MGarble MBincode MProc MFpake SpecWires SpecCircuit SpecGarble SpecBincode SpecOt SpecApricot SpecFpake SpecSteal.
From Verif Require Import PBase PWires PWiresSpec PGarble PGarbleSpec PHalf PLeak PCircuit PCircuit2 PProc PFpake PSteal.

Import ListNotations.
Open Scope N_scope.

(** ** Zero labels of the inputs *)
Lemma garble_inputs_nth ri doms ws i : garble_inputs ri doms = Ok ws -> Forall (fun m => m = 2) doms -> (i < length doms)%nat ->
  nth i ws wire_empty = mkWire Binary (ri i).
Proof.
  unfold garble_inputs. intros E H2 Hi.
  assert (E2 : mapM (fun im : nat * N => wire_new (snd im) (ri (fst im))) (combine (seq 0 (length doms)) doms) =
    Ok (map (fun im : nat * N => mkWire Binary (ri (fst im))) (combine (seq 0 (length doms)) doms))).
  { apply mapM_Ok. intros [j m] Hin. apply in_combine_r in Hin. rewrite Forall_forall in H2. rewrite (H2 m Hin). reflexivity. }
  rewrite E2 in E. inversion E as [Ews]. set (f := fun im : nat * N => mkWire Binary (ri (fst im))).
  rewrite nth_indep with (d' := f (0%nat, 0)) by (rewrite map_length, combine_length, seq_length; lia).
  rewrite (map_nth f). rewrite combine_nth by now rewrite seq_length. unfold f. cbn [fst]. now rewrite seq_nth by auto.
Qed.
Lemma run_input sha p rd ri c ek st s i : garble_run sha p rd ri c = Ok (ek, st, s) -> ek_wires ek = firstn (num_inputs c) (gs_wires s) ->
  Forall (fun m => m = 2) (input_domains c) -> length (input_domains c) = num_inputs c -> (i < num_inputs c)%nat ->
  wn (gs_wires s) i = mkWire Binary (ri i).
Proof.
  intros E Hek H2 Hl Hi. unfold garble_run in E. apply obind_Ok in E as (dl & _ & E). apply obind_Ok in E as (ws & Ew & E).
  apply obind_Ok in E as (ins & Ei & E). apply obind_Ok in E as (st' & _ & E). apply obind_Ok in E as (s' & _ & E).
  inversion E; subst. cbn [ek_wires] in Hek. subst ins. destruct (Nat.leb _ _); [|discriminate]. inversion Ei as [E1].
  unfold wn. transitivity (nth i (firstn (num_inputs c) (gs_wires s)) wire_empty). { symmetry. apply nth_firstn. exact Hi. }
  rewrite <- E1. rewrite nth_firstn by exact Hi.
  eapply garble_inputs_nth; eauto. lia.
Qed.
Lemma color_padd2 a b : WF 2 a -> WF 2 b -> color (padd 2 a b) = (color a + color b) mod 2.
Proof.
  intros Ha Hb. pose proof sup2 as S2. rewrite !(color_last 2) by auto using padd_WF. unfold last_digit.
  rewrite <- !digit_dg by (auto using padd_WF; unfold ndigits; cbn; lia).
  rewrite digit_padd by (auto; unfold ndigits; cbn; lia). unfold dplus. cbn [N.eqb Pos.eqb]. apply lxor_mod2.
Qed.

(** ** The circuit for two passwords *)
Lemma tail_proj base n cd t1 i : (i < n)%nat -> nth_error (tail_gates base n cd t1) i = Some (mkGate (i + (base + n)) 2 [i + base]%nat (GProj (PMap cd))).
Proof. intros Hi. unfold tail_gates. rewrite nth_error_app1 by (rewrite map_length, seq_length; auto). now rewrite nth_error_map_seq by auto. Qed.
Lemma tail_less base n cd t1 : nth_error (tail_gates base n cd t1) (n + 1) = Some (mkGate (base + n + n + 1) cd [base + n + n]%nat (GProj (PLess t1))).
Proof.
  unfold tail_gates. rewrite nth_error_app2 by (rewrite map_length, seq_length; lia). rewrite map_length, seq_length.
  replace (n + 1 - n)%nat with 1%nat by lia. reflexivity.
Qed.

Section Circ1.
Variable sha : bytes -> bytes.
Hypothesis Hsha : hash32 sha.
Variables p p' : profile.
Variables (rd : N -> bytes) (ri : nat -> bytes).
Variables (n tn : nat).
Let t := N.of_nat tn.
Let c := circ1 n t.
Hypothesis Hsam : good_samples c rd ri.
Hypothesis Hn : N.of_nat n <= 65534.
Hypothesis Hn1 : (1 <= n)%nat.
Hypothesis Heven : Nat.Even n.
Hypothesis Hs : supported (cd1 n).
Hypothesis Htn : (tn < n)%nat.
Hypothesis Hleak : leaky n ri.
Variables (gc gc2 : garbled) (ek : encoding_key) (dk : decoding_key) (zs : list (wire * wire)) (l0 l1 : wire).
Hypothesis H : half_key sha p rd ri c gc ek dk zs l0 l1.
Hypothesis Same : same_garbled gc2 gc.

Lemma circ1_steal a b : length a = n -> length b = n ->
  steal sha p' gc2 (3 * n) n tn (zipWith pick zs (a ++ b)) = Ok (l1, hamming a b).
Proof.
  intros La Lb. assert (Ht : t <= 65534) by (unfold t; lia).
  assert (Hwf : wf_circuit c) by (apply circ1_wf; auto).
  destruct (hk_state _ _ _ _ _ _ _ _ _ _ _ H) as (s & Er & Egc & HI & E0 & E1 & Hek & Hz).
  assert (Eo : first_output c = (2 * n + n + n + 1)%nat) by (unfold first_output; cbn [c circ1 num_wires num_outputs]; lia).
  rewrite Eo in E0, E1. rewrite Hz by (rewrite app_length; cbn [c circ1 num_inputs]; lia).
  pose proof (Inv_profile sha p p' rd c _ s Hsha Hwf HI) as HI'. replace (3 * n)%nat with (2 * n + n)%nat by lia.
  assert (Eb : bit_values (a ++ b) = bit_values a ++ bit_values b) by (unfold bit_values; apply map_app).
  assert (H2 : Forall (fun m => m = 2) (input_domains c)).
  { cbn [c circ1 input_domains]. apply Forall_forall. intros m Hm. now apply repeat_spec in Hm. }
  assert (Hgl : gates c = xors1 n ++ tail_gates (2 * n) n (cd1 n) (t + 1)) by reflexivity.
  assert (Lx : length (xors1 n) = n) by (unfold xors1; now rewrite map_length, seq_length).
  assert (Hgate : forall i g, nth_error (tail_gates (2 * n) n (cd1 n) (t + 1)) i = Some g -> nth_error (gates c) (n + i) = Some g).
  { intros i g Hg. rewrite Hgl, nth_error_app2 by lia. rewrite Lx. now replace (n + i - n)%nat with i by lia. }
  rewrite E1. apply (steal_ok sha p' rd ri c Hsha Hsam Hwf s HI' (2 * n) n t Heven Hn1 Hs); auto.
  - intros i Hi. exists (n + i)%nat. apply Hgate. now apply tail_proj.
  - exists (n + (n + 1))%nat. apply Hgate. apply tail_less.
  - destruct Hleak as (i & Hi & Ei). exists i. split; [exact Hi|].
    assert (HW := HI'). destruct HW as (_ & HW & _ & _ & Hgood & _).
    assert (Hk : nth_error (gates c) i = Some (mkGate (i + 2 * n) 2 [i; i + n]%nat GAdd)).
    { rewrite Hgl, nth_error_app1 by lia. unfold xors1. now rewrite nth_error_map_seq by auto. }
    assert (Hgn : (i < length (gates c))%nat) by (apply nth_error_Some; congruence).
    specialize (Hgood i _ Hgn Hk). unfold good_gate in Hgood. cbn [g_kind g_inputs g_output g_domain] in Hgood.
    rewrite (Hgood i [i + n]%nat eq_refl). cbn [map psum fold_left]. unfold psum. cbn [fold_left].
    assert (Hid : length (input_domains c) = num_inputs c) by apply (wf_indoms c Hwf).
    assert (M : forall j, (j < n * 2)%nat -> WF 2 (wn (gs_wires s) j) /\ wn (gs_wires s) j = mkWire Binary (ri j)).
    { intros j Hj. split.
      - replace 2 with (modulus c j). { apply HW. cbn [c circ1 num_inputs]. lia. }
        unfold c. rewrite circ1_modulus by lia. destruct (Nat.ltb_spec j (3 * n)); [reflexivity|lia].
      - eapply run_input; eauto. }
    destruct (M i ltac:(lia)) as [W1 X1]. destruct (M (i + n)%nat ltac:(lia)) as [W2 X2].
    rewrite color_padd2 by auto. rewrite X1, X2. unfold color. cbn [wdom wval]. change (LENGTH - 1)%nat with 31%nat.
    change 1 with (N.ones 1). rewrite !N.land_ones. change (2 ^ 1) with 2.
    rewrite <- N.add_mod by lia. apply N.even_spec in Ei as [q ->]. rewrite N.mul_comm. apply N.mod_mul. lia.
  - rewrite <- Egc. exact Same.
  - rewrite Eb. split.
    + rewrite app_length, !bit_values_length. cbn [c circ1 num_inputs]. lia.
    + intros i Hi. unfold c. cbn [circ1 num_inputs] in Hi. unfold c. cbn [circ1 num_inputs] in Hi. rewrite circ1_modulus by (cbn [c circ1 num_inputs] in Hi; lia).
      destruct (Nat.ltb_spec i (3 * n)); [|cbn [c circ1 num_inputs] in *; lia]. rewrite <- Eb. apply bit_values_lt.
  - rewrite Eb. unfold PGarble.v, c. rewrite circ1_values by auto.
    set (pre := bit_values a ++ bit_values b). rewrite !app_assoc.
    assert (Lp : length ((pre ++ bit_values (xor_list a b)) ++ bit_values (xor_list a b)) = (2 * n + n + n)%nat).
    { unfold pre. rewrite !app_length, !bit_values_length, xor_list_length by congruence. lia. }
    rewrite app_nth2 by lia. rewrite Lp, Nat.sub_diag. reflexivity.
  - pose proof (hk_differ _ _ _ _ _ _ _ _ _ _ _ H) as Hd. rewrite <- E0, <- E1. exact Hd.
Qed.
End Circ1.

(** ** The half key *)
Section Run.
Variable sha : bytes -> bytes.
Hypothesis Hsha : hash32 sha.
Variables p p' : profile.
Variable g : garbling.
Hypothesis Hg : garbling_ok g.
Variable otS : list (bytes * bytes) -> proc unit.
Variable otR : list bool -> proc (list bytes).
Hypothesis Hot : ot_correct extension_ok otS otR.
Variables pw guess : bytes.
Variable tn : nat.
Hypothesis Hlen : length guess = length pw.
Hypothesis Hgood : good_length (length pw).
Hypothesis Htn : (tn < length pw * 8)%nat.
Hypothesis Hleak : leaky (length pw * 8) (g_ri g).
Let n := (length pw * 8)%nat.
Let t := N.of_nat tn.
Let c := circ1 n t.

Lemma steal_run : exists k, length k = 32%nat /\
  runs (garbler sha p g otS pw t) (evil_evaluator sha p' otR guess tn) (Ok k) (Ok (k, distance pw guess)).
Proof.
  destruct (good_supported _ Hgood) as (Hs & Hn & H1). fold n in Hs, Hn, H1. assert (Ht : t <= 65534) by (unfold t, n in *; lia).
  destruct (circ1_half sha p g n t Hsha Hg Hn Ht H1 Hs) as (gc & ek & dk & zs & l0 & l1 & H). fold c in H.
  assert (Eo : first_output c = (4 * n + 1)%nat) by (unfold first_output; cbn [c circ1 num_wires num_outputs]; lia).
  exists (sha (dec_string (4 * n + 1) 1 l1)). split; [apply Hsha|].
  pose proof (zs_binary _ _ _ _ _ _ _ _ _ _ H) as Hz.
  pose proof (hk_length _ _ _ _ _ _ _ _ _ _ _ H) as Lz. cbn [c circ1 num_inputs] in Lz.
  assert (Lb : length (u8_vec_to_bool_vec pw) = n) by apply bits_length8.
  assert (Lb' : length (u8_vec_to_bool_vec guess) = n) by (rewrite bits_length8, Hlen; reflexivity).
  unfold garbler, evil_evaluator. rewrite Lb, Hlen. fold n.
  eapply runs_lift_l; [apply build_circuit_eq; assumption|]. fold c.
  eapply runs_lift_l; [exact (garble_zipped_ok _ _ _ _ _ _ _ _ _ _ H)|]. cbv beta iota.
  eapply runs_lift_l. { unfold slice_to. rewrite (proj2 (Nat.leb_le _ _)) by lia. reflexivity. }
  eapply runs_lift_l. { unfold slice_from. rewrite (proj2 (Nat.leb_le _ _)) by lia. reflexivity. }
  set (own := firstn n zs). set (theirs := skipn n zs).
  assert (Lo : length own = n) by (unfold own; rewrite firstn_length; lia).
  assert (Lt : length theirs = n) by (unfold theirs; rewrite skipn_length; lia).
  assert (Hown : all_binary own) by now apply all_binary_firstn.
  assert (Hth : all_binary theirs) by now apply all_binary_skipn.
  assert (Hun : usize_ok n) by (apply usize_small; apply N.le_lt_trans with 65534; [lia|reflexivity]).
  destruct (Hot (label_messages theirs) (u8_vec_to_bool_vec guess)) as (out & R & Sel).
  { unfold label_messages. rewrite map_length. lia. }
  { apply labels_extension; [exact Hth|lia| |rewrite Lt; exact Hun]. rewrite Lt. apply Nat.mod_mul. lia. }
  apply selection_labels in Sel; [|lia].
  eapply runs_bind; [exact R|].
  eapply runs_lift_r. { rewrite Sel. apply received_labels. now apply picked_labels. }
  apply runs_send_recv.
  destruct (sent_garbled _ _ _ _ _ _ _ _ _ _ Hg H) as (gc2 & Egc & Same).
  eapply runs_lift_r; [exact Egc|].
  eapply runs_lift_l. { apply bk_encode_pick. lia. }
  apply runs_send_recv.
  eapply runs_lift_r. { apply sent_wires; [now apply picked_labels|]. rewrite zipWith_length, Lo, Lb, Nat.min_id. exact Hun. }
  assert (H2 : Forall (fun m => m = 2) (input_domains c)).
  { cbn [c circ1 input_domains]. apply Forall_forall. intros m Hm. now apply repeat_spec in Hm. }
  eapply runs_lift_r.
  { rewrite <- zipWith_app by lia. unfold own, theirs. rewrite firstn_skipn.
    apply (circ1_steal sha Hsha p p' (g_rd g) (g_ri g) n tn) with (gc := gc) (ek := ek) (dk := dk) (l0 := l0); auto.
    - now apply samples_ok.
    - exists (length pw * 4)%nat. unfold n. lia.
    - exact H. }
  cbv beta iota. rewrite hamming_bits by auto.
  rewrite (garbler_half_key_ok _ _ _ _ _ _ _ _ _ _ H).
  assert (Hnw : usize_ok (num_wires c)) by (apply usize_small; cbn [c circ1 num_wires]; apply N.le_lt_trans with 300000; [lia|reflexivity]).
  assert (Hnw1 : (1 <= num_wires c)%nat) by (cbn [c circ1 num_wires]; lia).
  rewrite (evaluator_half_key_ok _ _ _ _ _ _ _ _ _ _ H p' gc2 _ Same eq_refl Hnw1 Hnw).
  rewrite Eo. cbn [lift pbind ret]. apply runs_done.
Qed.
End Run.

Lemma weight_le b : (weight b <= 8)%nat.
Proof. unfold weight. pose proof (filter_len_le (N.testbit b) (map N.of_nat (seq 0 8))) as E. exact E. Qed.
Lemma distance_le a : forall b, (distance a b <= length a * 8)%nat.
Proof. induction a as [|x a IH]; intros [|y b]; cbn [distance length]; try lia. specialize (IH b). pose proof (weight_le (N.lxor x y)). lia. Qed.

(** ** The password from the distances *)
Lemma hamming_zeros a : hamming a (repeat false (length a)) = length (filter (fun b => b) a).
Proof. induction a as [|x a IH]; cbn [length repeat hamming filter]; auto. rewrite IH. now destruct x. Qed.
Lemma hamming_single a : forall i, (i < length a)%nat ->
  (hamming a (map (Nat.eqb i) (seq 0 (length a))) + (if nth i a false then 1 else 0) =
   hamming a (repeat false (length a)) + (if nth i a false then 0 else 1))%nat.
Proof.
  assert (G : forall a off i, (i < length a)%nat ->
    (hamming a (map (Nat.eqb (off + i)) (seq off (length a))) + (if nth i a false then 1 else 0) =
     hamming a (repeat false (length a)) + (if nth i a false then 0 else 1))%nat).
  { clear a. induction a as [|x a IH]; intros off i Hi; [inversion Hi|]. cbn [length] in Hi. cbn [length seq map repeat hamming]. destruct i as [|i].
    - rewrite Nat.add_0_r, Nat.eqb_refl. cbn [nth].
      assert (E : map (Nat.eqb off) (seq (S off) (length a)) = repeat false (length a)).
      { apply (nth_ext _ _ false false). { now rewrite map_length, seq_length, repeat_length. }
        intros j Hj. rewrite map_length, seq_length in Hj. rewrite nth_indep with (d' := Nat.eqb off 0) by now rewrite map_length, seq_length.
        rewrite map_nth, seq_nth by auto. rewrite nth_repeat. apply Nat.eqb_neq. lia. }
      rewrite E. destruct x; cbn [xorb]; lia.
    - cbn [nth]. specialize (IH (S off) i ltac:(lia)). replace (off + S i)%nat with (S off + i)%nat by lia.
      destruct (Nat.eqb_spec (S off + i) off); [lia|]. lia. }
  intros i Hi. apply (G a 0%nat i Hi).
Qed.
