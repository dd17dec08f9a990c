(** The half keys of fpake.rs. *)
From Coq Require Import List NArith Bool Arith Lia Permutation.
From Verif Require Import Base MUtil MWires MCircuit MGarble MPar MBincode MProc MMany MFpake.
From Verif Require Import SpecWires SpecCircuit SpecGarble SpecBincode SpecOt SpecApricot SpecFpake.
From Verif Require Import PBase PUtil PWires PWiresSpec PGarble PGarbleSpec PBinKey PBincode PCircuit PCircuit2 PHalf PProc.
Import ListNotations.
Open Scope N_scope.

(** ** Bits of passwords *)
Lemma byte_bits_testbit s : byte_bits s = map (N.testbit s) (map N.of_nat (seq 0 8)).
Proof.
  apply (nth_ext _ _ false false); [reflexivity|]. intros i Hi. rewrite byte_bits_length in Hi.
  rewrite byte_bits_nth by exact Hi. rewrite nth_indep with (d' := N.testbit s 0) by (cbn; lia).
  rewrite map_nth. f_equal. rewrite (map_nth N.of_nat _ 0%nat). now rewrite seq_nth by exact Hi.
Qed.
Lemma bits_length8 a : length (u8_vec_to_bool_vec a) = (length a * 8)%nat.
Proof. rewrite bits_length. lia. Qed.
Lemma hamming_map (f g : N -> bool) l : hamming (map f l) (map g l) = length (filter (fun i => xorb (f i) (g i)) l).
Proof. induction l as [|i l IH]; [reflexivity|]. cbn [map hamming filter]. rewrite IH. destruct (xorb _ _); reflexivity. Qed.
Lemma hamming_app a b a' b' : length a = length b -> hamming (a ++ a') (b ++ b') = (hamming a b + hamming a' b')%nat.
Proof.
  revert b. induction a as [|x a IH]; intros [|y b] H; cbn [app hamming]; auto; try discriminate.
  rewrite IH by (cbn in H; lia). lia.
Qed.
Lemma hamming_bits a : forall b, length a = length b -> hamming (u8_vec_to_bool_vec a) (u8_vec_to_bool_vec b) = distance a b.
Proof.
  induction a as [|x a IH]; intros [|y b] H; try discriminate; [reflexivity|].
  unfold u8_vec_to_bool_vec in *. cbn [flat_map distance]. rewrite hamming_app by reflexivity. rewrite IH by (cbn in H; lia).
  f_equal. rewrite !byte_bits_testbit, hamming_map. unfold weight. f_equal. apply filter_ext. intros i. symmetry. apply N.lxor_spec.
Qed.

(** ** The two circuits can be garbled and sent *)
Lemma good_supported l : good_length l -> supported (cd1 (l * 8)) /\ N.of_nat (l * 8) <= 65534 /\ (1 <= l * 8)%nat.
Proof. unfold good_length, supported, cd1. lia. Qed.

Lemma usize_small n : N.of_nat n < 2 ^ 32 -> usize_ok n.
Proof. unfold usize_ok. intros H. eapply N.lt_trans; [exact H|reflexivity]. Qed.

Section Tail.
Variables (n : nat) (t : N).
Hypothesis Hn : N.of_nat n <= 65534.
Hypothesis Ht : t <= 65534.
Lemma tail_inputs base nw : (base + 2 * n + 2 <= nw)%nat ->
  Forall (fun g => (length (g_inputs g) <= nw)%nat /\ match g_kind g with GProj (PLess t) => u16_ok t | _ => True end)
    (tail_gates base n (cd1 n) (t + 1)).
Proof.
  intros H. unfold tail_gates. apply Forall_forall. intros g Hg. apply in_app_iff in Hg as [Hg|Hg].
  - apply in_map_iff in Hg as (i & <- & _). cbn. split; [lia|exact I].
  - destruct Hg as [<-|[<-|[]]]; cbn; rewrite ?seq_length; split; try lia; unfold u16_ok; auto. lia.
Qed.
Lemma circ1_sendable : (1 <= n)%nat -> supported (cd1 n) -> circuit_ok (circ1 n t).
Proof.
  intros H1 Hs. apply wf_circuit_ok; [now apply circ1_wf| |].
  - apply usize_small. cbn [circ1 num_wires]. apply N.le_lt_trans with 300000; [lia|reflexivity].
  - cbn [circ1 gates num_wires]. apply Forall_app. split; [|apply tail_inputs; lia].
    apply Forall_forall. intros g Hg. apply in_map_iff in Hg as (i & <- & _). cbn. split; [lia|exact I].
Qed.
Lemma circ2_sendable : (1 <= n)%nat -> supported (cd1 n) -> circuit_ok (circ2 n t).
Proof.
  intros H1 Hs. apply wf_circuit_ok; [now apply circ2_wf| |].
  - apply usize_small. cbn [circ2 num_wires]. apply N.le_lt_trans with 400000; [lia|reflexivity].
  - cbn [circ2 gates num_wires]. apply Forall_app. split; [|apply tail_inputs; lia].
    apply Forall_forall. intros g Hg. apply in_map_iff in Hg as (i & <- & _). cbn. split; [lia|exact I].
Qed.
End Tail.

Lemma samples_ok c g : Forall (fun m => m = 2) (input_domains c) -> garbling_ok g -> good_samples c (g_rd g) (g_ri g).
Proof.
  intros H2 (Hrd & Hri & _). split; [exact Hrd|]. intros i m Hm. apply nth_error_In in Hm.
  rewrite Forall_forall in H2. rewrite (H2 m Hm). apply Hri.
Qed.
Lemma circ1_half sha p g n t : hash32 sha -> garbling_ok g -> N.of_nat n <= 65534 -> t <= 65534 -> (1 <= n)%nat -> supported (cd1 n) ->
  exists gc ek dk zs l0 l1, half_key sha p (g_rd g) (g_ri g) (circ1 n t) gc ek dk zs l0 l1.
Proof.
  intros Hh Hg Hn Ht H1 Hs. assert (H2 : Forall (fun m => m = 2) (input_domains (circ1 n t))).
  { cbn [circ1 input_domains]. apply Forall_forall. intros m Hm. now apply repeat_spec in Hm. }
  apply half_key_exists; auto.
  - now apply circ1_wf.
  - now apply samples_ok.
  - now apply circ1_sendable.
  - unfold first_output. cbn [circ1 num_wires num_outputs]. rewrite circ1_modulus by (auto; lia).
    replace (Nat.ltb _ _) with false by (symmetry; apply Nat.ltb_ge; lia).
    replace (Nat.ltb _ _) with false by (symmetry; apply Nat.ltb_ge; lia). reflexivity.
  - cbn [circ1 num_inputs]. lia.
Qed.
Lemma circ2_half sha p g n t : hash32 sha -> garbling_ok g -> N.of_nat n <= 65534 -> t <= 65534 -> (1 <= n)%nat -> supported (cd1 n) ->
  exists gc ek dk zs l0 l1, half_key sha p (g_rd g) (g_ri g) (circ2 n t) gc ek dk zs l0 l1.
Proof.
  intros Hh Hg Hn Ht H1 Hs. assert (H2 : Forall (fun m => m = 2) (input_domains (circ2 n t))).
  { cbn [circ2 input_domains]. apply Forall_forall. intros m Hm. now apply repeat_spec in Hm. }
  apply half_key_exists; auto.
  - now apply circ2_wf.
  - now apply samples_ok.
  - now apply circ2_sendable.
  - unfold first_output. cbn [circ2 num_wires num_outputs]. rewrite circ2_modulus by (auto; lia).
    replace (Nat.ltb _ _) with false by (symmetry; apply Nat.ltb_ge; lia).
    replace (Nat.ltb _ _) with false by (symmetry; apply Nat.ltb_ge; lia). reflexivity.
  - cbn [circ2 num_inputs]. lia.
Qed.

(** ** Steps of the protocols *)
Definition all_binary (z : list (wire * wire)) : Prop := Forall (fun z => WF 2 (fst z) /\ WF 2 (snd z)) z.

Section HK.
Variable sha : bytes -> bytes.
Variable p : profile.
Variable g : garbling.
Variable c : circuit.
Variables (gc : garbled) (ek : encoding_key) (dk : decoding_key) (zs : list (wire * wire)) (l0 l1 : wire).
Hypothesis Hg : garbling_ok g.
Hypothesis H : half_key sha p (g_rd g) (g_ri g) c gc ek dk zs l0 l1.

Lemma garble_zipped_ok : garble_zipped sha p g c = Ok (gc, zs, dk).
Proof.
  unfold garble_zipped. rewrite (hk_garble _ _ _ _ _ _ _ _ _ _ _ H). cbn [obind].
  destruct (hk_zipped _ _ _ _ _ _ _ _ _ _ _ H) as (bk & -> & E). cbn [obind]. rewrite E. reflexivity.
Qed.
Lemma garbler_half_key_ok : garbler_half_key dk = Ok (sha (dec_string (first_output c) 1 l1)).
Proof.
  unfold garbler_half_key. destruct (hk_key _ _ _ _ _ _ _ _ _ _ _ H) as (hs & -> & E). cbn [obind]. exact E.
Qed.
Lemma evaluator_half_key_ok p' gc2 w : same_garbled gc2 gc -> num_outputs c = 1%nat -> (1 <= num_wires c)%nat -> usize_ok (num_wires c) ->
  evaluator_half_key sha p' gc2 [w] = Ok (sha (dec_string (first_output c) 1 w)).
Proof.
  intros (Ec & _) H1 Hn Hs. unfold evaluator_half_key. rewrite Ec, (hk_circuit _ _ _ _ _ _ _ _ _ _ _ H).
  unfold usub. destruct (N.leb_spec 1 (N.of_nat (num_wires c))); [|lia]. cbn [obind idx nth_error unwrap].
  unfold dec_string, first_output, u16_be. rewrite H1. do 4 f_equal. lia.
Qed.
Lemma sent_garbled : exists gc2, deserialize dec_garbled (enc_garbled (g_order g gc)) = Ok gc2 /\ same_garbled gc2 gc.
Proof.
  destruct Hg as (_ & _ & Ho). destruct (Ho gc) as (Ec & Pf & Ph).
  destruct (rt_garbled_any_order gc (g_order g gc) [] (hk_ok _ _ _ _ _ _ _ _ _ _ _ H)) as (g2 & E & S).
  { split; [now symmetry|]. split; now apply Permutation_sym. }
  exists g2. split; [|exact S]. unfold deserialize. rewrite app_nil_r in E. now rewrite E.
Qed.
Lemma zs_binary : all_binary zs.
Proof. exact (hk_labels _ _ _ _ _ _ _ _ _ _ _ H). Qed.
End HK.

Lemma picked_labels z bits : all_binary z -> Forall (WF 2) (zipWith pick z bits).
Proof.
  revert bits. induction z as [|w z IH]; intros [|b bits] Hz; cbn [zipWith]; constructor; inversion Hz as [|a l [H0 H1] Hz' Q]; subst; auto.
  unfold pick. now destruct b.
Qed.
Lemma sent_wires ws : Forall (WF 2) ws -> usize_ok (length ws) -> deserialize dec_wires (enc_wires ws) = Ok ws.
Proof.
  intros Hw Hl. unfold deserialize. pose proof (rt_wires ws [] ) as E. rewrite app_nil_r in E. rewrite E; [reflexivity|].
  split; [exact Hl|]. eapply Forall_impl; [|exact Hw]. intros w. apply WF_wire_ok. exact sup2.
Qed.
Lemma selection_labels z cs out : length cs = length z -> is_selection (label_messages z) cs out ->
  out = map wval (zipWith pick z cs).
Proof.
  intros Hl [Lo Hs]. assert (Ll : length (label_messages z) = length z) by apply map_length.
  apply (nth_ext _ _ [] (wval wire_empty)). { rewrite map_length, zipWith_length, <- Hl, Nat.min_id. exact Lo. }
  intros i Hi. assert (Hi' : (i < length cs)%nat) by (rewrite <- Lo; exact Hi). rewrite (map_nth wval). rewrite (zipWith_nth _ _ _ _ (wire_empty, wire_empty) false) by lia.
  assert (E1 : nth_error (label_messages z) i = Some (wval (fst (nth i z (wire_empty, wire_empty))), wval (snd (nth i z (wire_empty, wire_empty))))).
  { unfold label_messages. erewrite map_nth_error; [reflexivity|]. apply nth_error_nth_lt. lia. }
  assert (E2 : nth_error cs i = Some (nth i cs false)) by (apply nth_error_nth_lt; lia).
  specialize (Hs i _ _ E1 E2). rewrite (nth_error_nth _ _ _ Hs). unfold selected, pick. now destruct (nth i cs false).
Qed.
Lemma from_array_binary p w : WF 2 w -> from_array p (wval w) Binary = Ok w.
Proof. intros (Hd & _). unfold from_array. f_equal. apply wire_ext; simpl; auto. Qed.
Lemma received_labels p ws : Forall (WF 2) ws ->
  mapM (fun b => let* b := to_array p b in from_array p b Binary) (map wval ws) = Ok ws.
Proof.
  intros Hw. rewrite mapM_map. rewrite (mapM_Ok _ (fun w => w)); [now rewrite map_id|].
  intros w Hin. rewrite Forall_forall in Hw. specialize (Hw w Hin). unfold to_array.
  destruct Hw as (Hd & Hl & Hb & Hx). rewrite Hl. change (Nat.eqb 32 LENGTH) with true. rewrite debug_assert_true. cbn [obind].
  apply from_array_binary. repeat split; auto.
Qed.
Lemma labels_extension z : all_binary z -> (0 < length z)%nat -> (length z mod 8 = 0)%nat -> usize_ok (length z) ->
  extension_ok (label_messages z).
Proof.
  intros Hz H0 H8 Hu. unfold extension_ok. unfold label_messages. rewrite map_length.
  split; [exact Hu|]. split; [exact H0|]. split; [exact H8|]. exists 32%nat. split; [lia|]. split; [reflexivity|].
  apply Forall_map. eapply Forall_impl; [|exact Hz]. intros w [(_ & L0 & _) (_ & L1 & _)]. cbn [fst snd]. auto.
Qed.
Lemma all_binary_firstn n z : all_binary z -> all_binary (firstn n z).
Proof. apply Forall_firstn. Qed.
Lemma all_binary_skipn n z : all_binary z -> all_binary (skipn n z).
Proof. apply Forall_skipn. Qed.

(** ** A run of garbler and evaluator *)
Section Run.
Variable sha : bytes -> bytes.
Hypothesis Hsha : hash32 sha.
Variables p p' : profile.
Variable g : garbling.
Hypothesis Hg : garbling_ok g.
Variable otS : list (bytes * bytes) -> proc unit.
Variable otR : list bool -> proc (list bytes).
Hypothesis Hot : ot_correct extension_ok otS otR.
Variables pw pw' : bytes.
Variable t : N.
Hypothesis Hlen : length pw' = length pw.
Hypothesis Hgood : good_length (length pw).
Hypothesis Ht : t <= 65534.
Let n := (length pw * 8)%nat.
Let c := circ1 n t.

Lemma fpake_run : exists ek s l0 l1,
  garble_run sha p (g_rd g) (g_ri g) c = Ok (ek, (4 * n + 1)%nat, s) /\
  genuine c (g_rd g) (gs_wires s) (4 * n + 1) 0 l0 /\ genuine c (g_rd g) (gs_wires s) (4 * n + 1) 1 l1 /\ wval l0 <> wval l1 /\
  runs (garbler sha p g otS pw t) (evaluator sha p' otR pw')
    (Ok (sha (dec_string (4 * n + 1) 1 l1)))
    (Ok (sha (dec_string (4 * n + 1) 1 (if N.of_nat (distance pw pw') <=? t then l1 else l0)))).
Proof.
  destruct (good_supported _ Hgood) as (Hs & Hn & H1). fold n in Hs, Hn, H1.
  destruct (circ1_half sha p g n t Hsha Hg Hn Ht H1 Hs) as (gc & ek & dk & zs & l0 & l1 & H). fold c in H.
  assert (Eo : first_output c = (4 * n + 1)%nat) by (unfold first_output; cbn [c circ1 num_wires num_outputs]; lia).
  destruct (hk_genuine _ _ _ _ _ _ _ _ _ _ _ H) as (s & Er & G0 & G1). rewrite Eo in Er, G0, G1.
  exists ek, s, l0, l1. split; [exact Er|]. split; [exact G0|]. split; [exact G1|].
  split; [exact (hk_differ _ _ _ _ _ _ _ _ _ _ _ H)|].
  pose proof (zs_binary _ _ _ _ _ _ _ _ _ _ H) as Hz.
  pose proof (hk_length _ _ _ _ _ _ _ _ _ _ _ H) as Lz. cbn [c circ1 num_inputs] in Lz.
  assert (Lb : length (u8_vec_to_bool_vec pw) = n) by apply bits_length8.
  assert (Lb' : length (u8_vec_to_bool_vec pw') = n) by (rewrite bits_length8, Hlen; reflexivity).
  unfold garbler, evaluator. rewrite Lb.
  eapply runs_lift_l; [apply build_circuit_eq; assumption|]. fold c.
  eapply runs_lift_l; [exact (garble_zipped_ok _ _ _ _ _ _ _ _ _ _ H)|]. cbv beta iota.
  eapply runs_lift_l. { unfold slice_to. rewrite (proj2 (Nat.leb_le _ _)) by lia. reflexivity. }
  eapply runs_lift_l. { unfold slice_from. rewrite (proj2 (Nat.leb_le _ _)) by lia. reflexivity. }
  set (own := firstn n zs). set (theirs := skipn n zs).
  assert (Lo : length own = n) by (unfold own; rewrite firstn_length; lia).
  assert (Lt : length theirs = n) by (unfold theirs; rewrite skipn_length; lia).
  assert (Hown : all_binary own) by now apply all_binary_firstn.
  assert (Hth : all_binary theirs) by now apply all_binary_skipn.
  assert (Hun : usize_ok n) by (apply usize_small; apply N.le_lt_trans with 65534; [lia|reflexivity]).
  destruct (Hot (label_messages theirs) (u8_vec_to_bool_vec pw')) as (out & R & Sel).
  { unfold label_messages. rewrite map_length. lia. }
  { apply labels_extension; [exact Hth|lia| |rewrite Lt; exact Hun]. rewrite Lt. apply Nat.mod_mul. lia. }
  apply selection_labels in Sel; [|lia].
  eapply runs_bind; [exact R|].
  eapply runs_lift_r. { rewrite Sel. apply received_labels. now apply picked_labels. }
  apply runs_send_recv.
  destruct (sent_garbled _ _ _ _ _ _ _ _ _ _ Hg H) as (gc2 & Egc & Same).
  eapply runs_lift_r; [exact Egc|].
  eapply runs_lift_l. { apply bk_encode_pick. lia. }
  apply runs_send_recv.
  eapply runs_lift_r. { apply sent_wires; [now apply picked_labels|]. rewrite zipWith_length, Lo, Lb, Nat.min_id. exact Hun. }
  eapply runs_lift_r.
  { rewrite <- zipWith_app by lia. unfold own, theirs. rewrite firstn_skipn.
    apply (hk_evaluate _ _ _ _ _ _ _ _ _ _ _ H); [|exact Same]. rewrite app_length. cbn [c circ1 num_inputs]. lia. }
  assert (Ev : circuit_outputs c (bit_values (u8_vec_to_bool_vec pw ++ u8_vec_to_bool_vec pw')) =
    [if N.of_nat (distance pw pw') <=? t then 1 else 0]).
  { unfold bit_values. rewrite map_app. fold (bit_values (u8_vec_to_bool_vec pw)). fold (bit_values (u8_vec_to_bool_vec pw')).
    unfold c. rewrite circ1_outputs by assumption. rewrite hamming_bits by auto. reflexivity. }
  rewrite Ev. cbn [nth].
  assert (El : forall b : bool, (if (if b then 1 else 0) =? 1 then l1 else l0) = if b then l1 else l0) by (intros [|]; reflexivity).
  rewrite El. rewrite (garbler_half_key_ok _ _ _ _ _ _ _ _ _ _ H).
  assert (Hnw : usize_ok (num_wires c)) by (apply usize_small; cbn [c circ1 num_wires]; apply N.le_lt_trans with 300000; [lia|reflexivity]).
  assert (Hnw1 : (1 <= num_wires c)%nat) by (cbn [c circ1 num_wires]; lia).
  rewrite (evaluator_half_key_ok _ _ _ _ _ _ _ _ _ _ H p' gc2 _ Same eq_refl Hnw1 Hnw).
  rewrite Eo. apply runs_done.
Qed.
End Run.

(** ** Runs of any circuit of the same shape, with the outcome of each step given *)
Section Direct.
Variable sha : bytes -> bytes.
Variables p p' : profile.
Variable g : garbling.
Variable otS : list (bytes * bytes) -> proc unit.
Variable otR : list bool -> proc (list bytes).
Hypothesis Hot : ot_correct extension_ok otS otR.
Variables pw pw' : bytes.
Variable t : N.
Hypothesis Hlen : length pw' = length pw.
Hypothesis Hpos : (1 <= length pw)%nat.
Hypothesis Hn : N.of_nat (length pw * 8) <= 65534.
Hypothesis Ht : t <= 65534.
Let n := (length pw * 8)%nat.

Lemma fpake_direct gc gc2 zs dk out k k' :
  garble_zipped sha p g (circ1 n t) = Ok (gc, zs, dk) -> all_binary zs -> length zs = (n * 2)%nat ->
  deserialize dec_garbled (enc_garbled (g_order g gc)) = Ok gc2 ->
  evaluate sha p' gc2 (zipWith pick zs (u8_vec_to_bool_vec pw ++ u8_vec_to_bool_vec pw')) = Ok out ->
  garbler_half_key dk = Ok k -> evaluator_half_key sha p' gc2 out = Ok k' ->
  runs (garbler sha p g otS pw t) (evaluator sha p' otR pw') (Ok k) (Ok k').
Proof.
  intros Eg Hz Lz Egc Ev Ek Ek'. fold n in Hn.
  assert (Lb : length (u8_vec_to_bool_vec pw) = n) by apply bits_length8.
  assert (Lb' : length (u8_vec_to_bool_vec pw') = n) by (rewrite bits_length8, Hlen; reflexivity).
  unfold garbler, evaluator. rewrite Lb.
  eapply runs_lift_l; [apply build_circuit_eq; assumption|].
  eapply runs_lift_l; [exact Eg|]. cbv beta iota.
  eapply runs_lift_l. { unfold slice_to. rewrite (proj2 (Nat.leb_le _ _)) by lia. reflexivity. }
  eapply runs_lift_l. { unfold slice_from. rewrite (proj2 (Nat.leb_le _ _)) by lia. reflexivity. }
  set (own := firstn n zs). set (theirs := skipn n zs).
  assert (Lo : length own = n) by (unfold own; rewrite firstn_length; lia).
  assert (Lt : length theirs = n) by (unfold theirs; rewrite skipn_length; lia).
  assert (Hown : all_binary own) by now apply all_binary_firstn.
  assert (Hth : all_binary theirs) by now apply all_binary_skipn.
  assert (Hun : usize_ok n) by (apply usize_small; apply N.le_lt_trans with 65534; [lia|reflexivity]).
  destruct (Hot (label_messages theirs) (u8_vec_to_bool_vec pw')) as (outs & R & Sel).
  { unfold label_messages. rewrite map_length. lia. }
  { apply labels_extension; [exact Hth|unfold n in *; lia| |rewrite Lt; exact Hun]. rewrite Lt. apply Nat.mod_mul. lia. }
  apply selection_labels in Sel; [|lia].
  eapply runs_bind; [exact R|].
  eapply runs_lift_r. { rewrite Sel. apply received_labels. now apply picked_labels. }
  apply runs_send_recv.
  eapply runs_lift_r; [exact Egc|].
  eapply runs_lift_l. { apply bk_encode_pick. lia. }
  apply runs_send_recv.
  eapply runs_lift_r. { apply sent_wires; [now apply picked_labels|]. rewrite zipWith_length, Lo, Lb, Nat.min_id. exact Hun. }
  eapply runs_lift_r.
  { rewrite <- zipWith_app by lia. unfold own, theirs. rewrite firstn_skipn. exact Ev. }
  rewrite Ek, Ek'. apply runs_done.
Qed.
End Direct.
