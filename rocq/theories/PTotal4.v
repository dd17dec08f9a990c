(** In release mode the third version of the one-of-many exchange always ends with a key on each side. *)
From Coq Require Import List NArith Bool Lia Arith Permutation.
From Verif Require Import Base MUtil MWires MCircuit MGarble MPar MBincode MProc MOt MApricot MMany MFpake.
From Verif Require Import SpecUtil SpecWires SpecCircuit SpecGarble SpecBincode SpecOt SpecApricot SpecFpake SpecMany SpecMfpake SpecTotal.
From Verif Require Import PBase PUtil PWires PGarble PBincode PCircuit PCircuit2 PHalf PProc POt PPar PApricotRun PFpake PTotal PTotal2 PTotal3 CFpake CMfpake PFpake3.
Import ListNotations.
Open Scope N_scope.

(** ** The shape of the circuit of [build_circuit_v2] *)
Lemma shape3_ins n : forall i, (i < n)%nat -> [i; (i + n)%nat; (i + 2 * n)%nat] <> [] /\ Forall (fun j => (j < 3 * n)%nat) [i; (i + n)%nat; (i + 2 * n)%nat].
Proof. intros i Hi. split; [discriminate|]. constructor; [lia|]. constructor; [lia|]. constructor; [lia|constructor]. Qed.
Section Three.
Variables (n : nat) (m t1 : N).
Hypothesis Hn : (1 <= n)%nat.
Hypothesis Hm : 0 < m < 65535.
Hypothesis Ht : t1 < 65536.
Notation c := (shape 3 n (fun i => [i; i + n; i + 2 * n]%nat) m t1).
Lemma shape3_ok : usize_ok (5 * n + 2) -> circuit_ok c.
Proof.
  intros Hu. unfold circuit_ok. cbn [shape num_wires num_inputs num_outputs].
  split; [exact Hu|]. split; [eapply usize_le; [|exact Hu]; lia|]. split; [eapply usize_le; [|exact Hu]; lia|]. split.
  - split. { rewrite shape_glength. eapply usize_le; [|exact Hu]; lia. }
    apply Forall_forall. intros gt Hin. apply In_nth_error in Hin as [k Hk].
    assert (Hkl : (k < 2 * n + 2)%nat) by (rewrite <- (shape_glength 3 n (fun i => [i; i + n; i + 2 * n]%nat) m t1); apply nth_error_Some; congruence).
    assert (U : forall i, (i < 5 * n + 2)%nat -> usize_ok i) by (intros i Hi; eapply usize_le; [|exact Hu]; lia).
    destruct (shape_cases 3 n (fun i => [i; i + n; i + 2 * n]%nat) m t1 k gt Hk) as [[? ->]|[[? ->]|[[? ->]|[? ->]]]];
      unfold gate_ok; cbn [g_output g_domain g_inputs g_kind kind_ok]; unfold u16_ok; (split; [apply U; lia|]); (split; [lia|]);
      (split; [|try exact I; lia]); (split; [rewrite ?seq_length; cbn [length]; apply U; lia|]); apply Forall_forall.
    + intros i [<-|[<-|[<-|[]]]]; apply U; lia.
    + intros i [<-|[]]; apply U; lia.
    + intros i Hi. apply in_seq in Hi. apply U. lia.
    + intros i [<-|[]]; apply U; lia.
  - cbn [shape input_domains]. split. { rewrite repeat_length. eapply usize_le; [|exact Hu]; lia. }
    apply Forall_forall. intros x Hx. apply repeat_spec in Hx. subst. reflexivity.
Qed.
Lemma shape3_decoded d : decoded c (5 * n + 2 - 1) (length (gates c)) d -> exists h0 h1, d = [[h0; h1]] /\ length h1 = 32%nat.
Proof.
  intros [E F]. rewrite firstn_all in E.
  assert (Ef : filter (fun gt => Nat.leb (5 * n + 2 - 1) (g_output gt)) (gates c) = [mkGate ((3 + 2) * n + 1) m [(3 + 2) * n]%nat (GProj (PLess t1))]).
  { unfold shape. cbn [gates]. rewrite !filter_app.
    assert (No : forall (f : nat -> gate) k, (forall i, (i < k)%nat -> (g_output (f i) < 5 * n)%nat) -> filter (fun gt => Nat.leb (5 * n + 2 - 1) (g_output gt)) (map f (seq 0 k)) = []).
    { intros f k H. assert (H' : forall i, In i (seq 0 k) -> (g_output (f i) < 5 * n)%nat) by (intros i Hi; apply in_seq in Hi; apply H; lia).
      clear H. induction (seq 0 k) as [|i l IH]; [reflexivity|]. cbn [map filter]. rewrite IH by (intros; apply H'; now right).
      destruct (Nat.leb_spec (5 * n + 2 - 1) (g_output (f i))) as [Q|Q]; [|reflexivity]. specialize (H' i (or_introl eq_refl)). lia. }
    rewrite !No by (intros; cbn [g_output]; lia). cbn [app filter g_output].
    destruct (Nat.leb_spec (5 * n + 2 - 1) ((3 + 2) * n)) as [Q|Q]; [lia|]. destruct (Nat.leb_spec (5 * n + 2 - 1) ((3 + 2) * n + 1)) as [Q'|Q']; [reflexivity|lia]. }
  rewrite Ef in E. cbn in E. destruct d as [|x [|y d]]; try discriminate. cbn in E. injection E as E.
  destruct x as [|h0 [|h1 [|h2 x]]]; try discriminate. exists h0, h1. split; [reflexivity|].
  inversion F as [|? ? F1 _]; subst. inversion F1 as [|? ? _ F2]; subst. now inversion F2.
Qed.
End Three.

(** The circuit of [build_circuit], for the first version. *)
Lemma v1_made sha g l t : hash32 sha -> any_coins g -> (1 <= l)%nat -> usize_ok (l * 64) -> let n := (l * 8)%nat in
  exists c gc zs dk gc2 h1, build_circuit Release n t = Ok c /\ garble_zipped sha Release g c = Ok (gc, zs, dk) /\
  all_binary zs /\ length zs = (n * 2)%nat /\ deserialize dec_garbled (enc_garbled (g_order g gc)) = Ok gc2 /\
  garbler_half_key dk = Ok h1 /\ length h1 = 32%nat /\
  forall ws, length ws = (n * 2)%nat -> Forall (WF 2) ws -> exists out k,
     evaluate sha Release gc2 ws = Ok out /\ evaluator_half_key sha Release gc2 out = Ok k /\ length k = 32%nat.
Proof.
  intros Hs Hg Hl Hu n.
  assert (Hn : (1 <= n)%nat) by (unfold n; lia). assert (Hsize : usize_ok (4 * n + 2)) by (eapply usize_le; [|exact Hu]; unfold n; lia).
  set (q := N.of_nat n mod 65536). assert (Hq : q < 65534).
  { unfold q, n. rewrite Nat2N.inj_mul, N.mul_comm. change (N.of_nat 8) with 8. replace 65536 with (8 * 8192) by reflexivity.
    rewrite N.mul_mod_distr_l by discriminate. assert (N.of_nat l mod 8192 < 8192) by (apply N.mod_lt; discriminate). lia. }
  set (t1 := (t + 1) mod 65536). assert (Ht : t1 < 65536) by (apply N.mod_lt; discriminate).
  set (c := shape 2 n (fun i => [i; i + n]%nat) (q + 1) t1).
  assert (Eb : build_circuit Release n t = Ok c).
  { unfold build_circuit. rewrite !uadd_release. cbn [obind]. change (2 ^ 16) with 65536. fold q t1. rewrite (N.mod_small (q + 1)) by lia. reflexivity. }
  assert (Hc : garblable c) by (apply shape_garblable; [exact Hn|lia|lia|apply shape_ins]).
  assert (Hm : matched c) by (apply shape_matched; [exact Hn|lia|lia|apply shape_ins]).
  assert (H2 : forall x, In x (input_domains c) -> x = 2) by (intros x Hx; now apply repeat_spec in Hx).
  assert (Hne : In 2 (input_domains c)). { unfold c, shape. cbn [input_domains]. destruct (n * 2)%nat as [|j] eqn:E; [lia|]. now left. }
  assert (Hok : circuit_ok c) by (apply shape_ok; auto; lia).
  destruct (zipped_any sha Hs g Hg c Hc Hm H2 Hne Hok) as (gc & zs & dk & Eg & Hz & Lz & Gok & Ec & Dk & Ev).
  change (num_inputs c) with (n * 2)%nat in *. change (num_outputs c) with 1%nat in *. change (num_wires c) with (4 * n + 2)%nat in *.
  destruct (shape_decoded n (q + 1) t1 Hn ltac:(lia) Ht (dk_hashes dk) Dk) as (h0 & h1 & Ed & Lh).
  assert (exists gc2, deserialize dec_garbled (enc_garbled (g_order g gc)) = Ok gc2 /\ same_garbled gc2 gc) as (gc2 & Egc & Same).
  { destruct Hg as (_ & _ & Ho). destruct (Ho gc) as (O1 & O2 & O3). destruct (rt_garbled_any_order gc (g_order g gc) [] Gok) as (g2 & E & S).
    { split; [now symmetry|]. split; now apply Permutation.Permutation_sym. }
    exists g2. split; [|exact S]. unfold deserialize. rewrite app_nil_r in E. now rewrite E. }
  exists c, gc, zs, dk, gc2, h1. split; [exact Eb|]. split; [exact Eg|]. split; [exact Hz|]. split; [exact Lz|]. split; [exact Egc|].
  split; [unfold garbler_half_key; rewrite Ed; reflexivity|]. split; [exact Lh|].
  intros ws Lw Fw. destruct (Ev gc2 ws Same Lw Fw) as (out & Eo & Lo').
  destruct out as [|w [|w' out]]; try discriminate.
  exists [w], (sha (be_bytes 8 (N.of_nat (4 * n + 1)) ++ u16_be 1 ++ wval w)). split; [exact Eo|]. split; [|apply Hs].
  unfold evaluator_half_key. destruct Same as (-> & _). rewrite Ec. change (num_wires c) with (4 * n + 2)%nat.
  unfold usub. destruct (N.leb_spec 1 (N.of_nat (4 * n + 2))); [|lia]. cbn [obind idx nth_error unwrap].
  replace (N.of_nat (4 * n + 2) - 1) with (N.of_nat (4 * n + 1)) by lia. reflexivity.
Qed.

Section V3.
Variable sha : bytes -> bytes.
Hypothesis Hs : hash32 sha.
Variable g : garbling.
Hypothesis Hg : any_coins g.
Variable l : nat.
Hypothesis Hl : (1 <= l)%nat.
Hypothesis Hu : usize_ok (l * 64).
Variable t : N.
Let n := (l * 8)%nat.

Lemma v3_made : exists c gc zs dk gc2 h1, build_circuit_v2 Release n t = Ok c /\ garble_zipped sha Release g c = Ok (gc, zs, dk) /\
  all_binary zs /\ length zs = (n * 3)%nat /\ deserialize dec_garbled (enc_garbled (g_order g gc)) = Ok gc2 /\
  garbler_half_key dk = Ok h1 /\ length h1 = 32%nat /\
  forall a b d, length a = l -> length b = l -> length d = l -> exists out k,
     evaluate sha Release gc2 (zipWith pick (seg zs 0 n) (u8_vec_to_bool_vec a) ++ zipWith pick (seg zs n n) (u8_vec_to_bool_vec b) ++
       zipWith pick (seg zs (n * 2) n) (u8_vec_to_bool_vec d)) = Ok out /\
     evaluator_half_key sha Release gc2 out = Ok k /\ length k = 32%nat.
Proof.
  assert (Hn : (1 <= n)%nat) by (unfold n; lia). assert (Hsize : usize_ok (5 * n + 2)) by (eapply usize_le; [|exact Hu]; unfold n; lia).
  set (q := N.of_nat n mod 65536). assert (Hq : q < 65534).
  { unfold q, n. rewrite Nat2N.inj_mul, N.mul_comm. change (N.of_nat 8) with 8. replace 65536 with (8 * 8192) by reflexivity.
    rewrite N.mul_mod_distr_l by discriminate. assert (N.of_nat l mod 8192 < 8192) by (apply N.mod_lt; discriminate). lia. }
  set (t1 := (t + 1) mod 65536). assert (Ht : t1 < 65536) by (apply N.mod_lt; discriminate).
  set (c := shape 3 n (fun i => [i; i + n; i + 2 * n]%nat) (q + 1) t1).
  assert (Eb : build_circuit_v2 Release n t = Ok c).
  { unfold build_circuit_v2. rewrite !uadd_release. cbn [obind]. change (2 ^ 16) with 65536. fold q t1. rewrite (N.mod_small (q + 1)) by lia. reflexivity. }
  assert (Hc : garblable c) by (apply shape_garblable; [exact Hn|lia|lia|apply shape3_ins]).
  assert (Hm : matched c) by (apply shape_matched; [exact Hn|lia|lia|apply shape3_ins]).
  assert (H2 : forall x, In x (input_domains c) -> x = 2) by (intros x Hx; now apply repeat_spec in Hx).
  assert (Hne : In 2 (input_domains c)). { unfold c, shape. cbn [input_domains]. destruct (n * 3)%nat as [|j] eqn:E; [lia|]. now left. }
  assert (Hok : circuit_ok c) by (apply shape3_ok; auto; lia).
  destruct (zipped_total sha Hs g Hg c Hc Hm H2 Hne Hok) as (gc & zs & dk & Eg & Hz & Lz & Gok & Ec & Dk & Ev).
  change (num_inputs c) with (n * 3)%nat in *. change (num_outputs c) with 1%nat in *. change (num_wires c) with (5 * n + 2)%nat in *.
  destruct (shape3_decoded n (q + 1) t1 Hn ltac:(lia) Ht (dk_hashes dk) Dk) as (h0 & h1 & Ed & Lh).
  assert (exists gc2, deserialize dec_garbled (enc_garbled (g_order g gc)) = Ok gc2 /\ same_garbled gc2 gc) as (gc2 & Egc & Same).
  { destruct Hg as (_ & _ & Ho). destruct (Ho gc) as (O1 & O2 & O3). destruct (rt_garbled_any_order gc (g_order g gc) [] Gok) as (g2 & E & S).
    { split; [now symmetry|]. split; now apply Permutation.Permutation_sym. }
    exists g2. split; [|exact S]. unfold deserialize. rewrite app_nil_r in E. now rewrite E. }
  exists c, gc, zs, dk, gc2, h1. split; [exact Eb|]. split; [exact Eg|]. split; [exact Hz|]. split; [exact Lz|]. split; [exact Egc|].
  split; [unfold garbler_half_key; rewrite Ed; reflexivity|]. split; [exact Lh|].
  intros a b d La Lb Ld.
  assert (Hbits : forall v, length v = l -> length (u8_vec_to_bool_vec v) = n) by (intros v Lv; rewrite bits_length8, Lv; reflexivity).
  rewrite <- !zipWith_app by (rewrite ?app_length, !seg_length, ?Hbits; auto; lia). rewrite seg_split3 by exact Lz.
  destruct (Ev gc2 (u8_vec_to_bool_vec a ++ u8_vec_to_bool_vec b ++ u8_vec_to_bool_vec d) Same) as (out & Eo & Lo').
  { rewrite !app_length, !Hbits by auto. lia. }
  destruct out as [|w [|w' out]]; try discriminate.
  exists [w], (sha (be_bytes 8 (N.of_nat (5 * n + 1)) ++ u16_be 1 ++ wval w)). split; [exact Eo|]. split; [|apply Hs].
  unfold evaluator_half_key. destruct Same as (-> & _). rewrite Ec. change (num_wires c) with (5 * n + 2)%nat.
  unfold usub. destruct (N.leb_spec 1 (N.of_nat (5 * n + 2))); [|lia]. cbn [obind idx nth_error unwrap].
  replace (N.of_nat (5 * n + 2) - 1) with (N.of_nat (5 * n + 1)) by lia. reflexivity.
Qed.

Variables (passwords : list bytes) (mask pw password : bytes).
Hypothesis Hp0 : exists p0, nth_error passwords 0 = Some p0 /\ length p0 = l.
Hypothesis Lm : length mask = l.
Hypothesis Lpw : length pw = l.
Hypothesis Lpass : length password = l.
Let masked := xor mask pw.

Lemma release_server_garbles ot1S ot1R ot2S ot2R dom manyS manyR d index :
  ot_correct extension_ok ot1S ot1R -> ot_correct extension_ok ot2S ot2R -> many_correct dom manyS manyR -> dom d ->
  password_list d l passwords -> nth_error passwords (N.to_nat index) = Some pw ->
  exists k k', length k = 32%nat /\ length k' = 32%nat /\
  runs (garbler_server_v3 sha Release mask g ot1S manyS ot2S passwords t)
       (evaluator_client_v3 sha Release ot1R manyR ot2R password (N.of_nat (2 ^ d)) index)
    (Ok (k, mask)) (Ok (k', masked)).
Proof.
  intros Hot1 Hot2 Hm Hd (Hd31 & Lp & Fp) Hi.
  destruct v3_made as (c & gc & zs & dk & gc2 & k & Eb & Eg & Hz & Lz & Egc & Ek & Lk & Hev).
  assert (Lmasked : length masked = l) by (unfold masked; rewrite xor_length; congruence).
  destruct (Hev password mask masked Lpass Lm Lmasked) as (out & k' & Eo & Ek' & Lk'). exists k, k'. split; [exact Lk|]. split; [exact Lk'|].
  assert (Hn0 : (0 < n)%nat) by (unfold n; lia). assert (Hn8 : (n mod 8 = 0)%nat) by (apply Nat.mod_mul; lia).
  assert (Hnu : usize_ok n) by (eapply usize_le; [|exact Hu]; unfold n; lia).
  assert (exists p0, idx passwords 0 = Ok p0 /\ length p0 = l) as (p0 & E0 & L0) by (destruct Hp0 as (p0 & E & L); exists p0; unfold idx; now rewrite E).
  assert (Hbits : forall v, length v = l -> length (u8_vec_to_bool_vec v) = n) by (intros v Lv; rewrite bits_length8, Lv; reflexivity).
  assert (Hpow : 2 ^ N.of_nat d = N.of_nat (2 ^ d)) by (now rewrite Nat2N.inj_pow).
  assert (Hlog : forall q w, 32 <= w <= 64 -> log2_ q w (N.of_nat (2 ^ d)) = Ok (N.of_nat d)).
  { intros q w Hw. rewrite <- Hpow. apply log2_pow2; [apply N.le_lt_trans with 64; [lia|reflexivity]|lia]. }
  unfold garbler_server_v3, evaluator_client_v3. rewrite Lpass. fold n.
  eapply runs_lift_l; [exact E0|]. cbv beta. rewrite L0. fold n.
  eapply runs_lift_l; [exact Eb|].
  eapply runs_lift_l; [exact Eg|]. cbv beta iota.
  apply runs_send_recv.
  eapply runs_lift_r; [exact Egc|].
  eapply runs_lift_l; [apply label_pairs_ok; lia|].
  eapply runs_lift_r. { unfold n. rewrite <- Lpass. apply choice_bits_ok. }
  destruct (Hot1 (label_messages (seg zs 0 n)) (u8_vec_to_bool_vec password)) as (out1 & R1 & Sel1).
  { unfold label_messages. rewrite map_length, seg_length, Hbits; auto; lia. }
  { apply seg_extension; auto; lia. }
  apply selection_labels in Sel1; [|rewrite seg_length, Hbits; auto; lia].
  eapply runs_bind; [exact R1|].
  eapply runs_lift_l. { unfold n. rewrite <- Lm. apply encode_flat_ok; [|exact Hz]. rewrite Lm. fold n. lia. }
  apply runs_send_recv.
  eapply runs_lift_l. { rewrite Lp. apply Hlog. lia. }
  eapply runs_lift_r. { apply Hlog. lia. }
  eapply runs_lift_l. { apply mask_passwords_ok; auto. }
  rewrite Nat2N.id.
  eapply runs_bind.
  { apply (Hm d (map (xor mask) passwords) index masked); auto.
    - now rewrite map_length.
    - exists l. split; [lia|]. apply Forall_map. eapply Forall_impl; [|exact Fp]. intros y Hy. cbn beta. rewrite xor_length; congruence.
    - unfold masked. now apply map_nth_error. }
  eapply runs_lift_l; [apply label_pairs_ok; lia|].
  eapply runs_lift_r. { unfold n. rewrite <- Lmasked. apply choice_bits_ok. }
  destruct (Hot2 (label_messages (seg zs (n * 2) n)) (u8_vec_to_bool_vec masked)) as (out2 & R2 & Sel2).
  { unfold label_messages. rewrite map_length, seg_length, Hbits; auto; lia. }
  { apply seg_extension; auto; lia. }
  apply selection_labels in Sel2; [|rewrite seg_length, Hbits; auto; lia].
  eapply runs_bind; [exact R2|].
  rewrite Lm. fold n.
  set (w1 := zipWith pick (seg zs 0 n) (u8_vec_to_bool_vec password)) in *.
  set (w2 := zipWith pick (seg zs n n) (u8_vec_to_bool_vec mask)) in *.
  set (w3 := zipWith pick (seg zs (n * 2) n) (u8_vec_to_bool_vec masked)) in *.
  assert (F1 : Forall (WF 2) w1) by (apply picked_labels, seg_binary, Hz).
  assert (F2 : Forall (WF 2) w2) by (apply picked_labels, seg_binary, Hz).
  assert (F3 : Forall (WF 2) w3) by (apply picked_labels, seg_binary, Hz).
  assert (L1 : length w1 = n) by (unfold w1; rewrite pick_length, seg_length; rewrite ?Hbits, ?seg_length; auto; lia).
  assert (L2 : length w2 = n) by (unfold w2; rewrite pick_length, seg_length; rewrite ?Hbits, ?seg_length; auto; lia).
  assert (L3 : length w3 = n) by (unfold w3; rewrite pick_length, seg_length; rewrite ?Hbits, ?seg_length; auto; lia).
  eapply runs_lift_r. { rewrite Sel2. apply (idx_lt _ 0 (wval wire_empty)). rewrite map_length. lia. }
  rewrite (map_nth wval).
  assert (L30 : length (wval (nth 0 w3 wire_empty)) = 32%nat). { destruct (nth_WF w3 0 F3) as (_ & Q & _); [lia|exact Q]. }
  rewrite L30.
  eapply runs_lift_r. { rewrite Sel1. apply payload_ok_wires; auto. }
  eapply runs_lift_r. { apply bytes_ok_wires; auto. }
  eapply runs_lift_r. { rewrite Sel2. apply payload_ok_wires; auto. }
  eapply runs_lift_r; [exact Eo|].
  eapply runs_lift_r; [exact Ek'|].
  eapply runs_lift_l; [exact Ek|].
  apply runs_ret.
Qed.

Lemma release_client_garbles otS otR : ot_correct extension_ok otS otR ->
  exists k k', length k = 32%nat /\ length k' = 32%nat /\
  runs (garbler_client_v3 sha Release g otS password masked t) (evaluator_server_v3 sha Release otR passwords mask) (Ok k) (Ok k').
Proof.
  intros Hot.
  destruct v3_made as (c & gc & zs & dk & gc2 & k & Eb & Eg & Hz & Lz & Egc & Ek & Lk & Hev).
  assert (Lmasked : length masked = l) by (unfold masked; rewrite xor_length; congruence).
  destruct (Hev masked mask password Lmasked Lm Lpass) as (out0 & k' & Eo & Ek' & Lk'). exists k, k'. split; [exact Lk|]. split; [exact Lk'|].
  assert (Hn0 : (0 < n)%nat) by (unfold n; lia). assert (Hn8 : (n mod 8 = 0)%nat) by (apply Nat.mod_mul; lia).
  assert (Hnu : usize_ok n) by (eapply usize_le; [|exact Hu]; unfold n; lia).
  assert (exists p0, idx passwords 0 = Ok p0 /\ length p0 = l) as (p0 & E0 & L0) by (destruct Hp0 as (p0 & E & L); exists p0; unfold idx; now rewrite E).
  assert (Hbits : forall v, length v = l -> length (u8_vec_to_bool_vec v) = n) by (intros v Lv; rewrite bits_length8, Lv; reflexivity).
  set (w1 := zipWith pick (seg zs 0 n) (u8_vec_to_bool_vec masked)) in *.
  set (w2 := zipWith pick (seg zs n n) (u8_vec_to_bool_vec mask)) in *.
  set (w3 := zipWith pick (seg zs (n * 2) n) (u8_vec_to_bool_vec password)) in *.
  assert (F1 : Forall (WF 2) w1) by (apply picked_labels, seg_binary, Hz).
  assert (F2 : Forall (WF 2) w2) by (apply picked_labels, seg_binary, Hz).
  assert (F3 : Forall (WF 2) w3) by (apply picked_labels, seg_binary, Hz).
  assert (L1 : length w1 = n) by (unfold w1; rewrite pick_length, seg_length; rewrite ?Hbits, ?seg_length; auto; lia).
  assert (L2 : length w2 = n) by (unfold w2; rewrite pick_length, seg_length; rewrite ?Hbits, ?seg_length; auto; lia).
  assert (L3 : length w3 = n) by (unfold w3; rewrite pick_length, seg_length; rewrite ?Hbits, ?seg_length; auto; lia).
  unfold garbler_client_v3, evaluator_server_v3. rewrite Lpass. fold n.
  eapply runs_lift_r; [exact E0|]. cbv beta. rewrite L0. fold n.
  eapply runs_lift_l; [exact Eb|].
  eapply runs_lift_l; [exact Eg|]. cbv beta iota.
  assert (E3 : map (fun i => (fun w : wire => w) (nth i w3 wire_empty)) (seq 0 n) = w3).
  { rewrite <- L3 at 1. now rewrite (map_nth_seq (fun w : wire => w)), map_id. }
  eapply runs_lift_l with (a := w3).
  { rewrite (mapM_Ok _ (fun i => (fun w : wire => w) (nth i w3 wire_empty))); [now rewrite E3|].
    intros i Hin. apply in_seq in Hin. rewrite bit_at_ok by (unfold n in Hin; lia). cbn [obind].
    rewrite (idx_lt zs (n * 2 + i) (wire_empty, wire_empty)) by lia. cbn [obind]. unfold w3.
    rewrite pick_nth by (rewrite ?seg_length, ?Hbits; auto; lia). rewrite seg_nth by lia. reflexivity. }
  apply runs_send_recv.
  eapply runs_lift_r; [exact Egc|].
  apply runs_send_recv.
  eapply runs_lift_r. { apply sent_wires; [exact F3|rewrite L3; exact Hnu]. }
  eapply runs_lift_l; [apply label_pairs_ok; lia|].
  eapply runs_lift_r. { unfold n. rewrite <- Lm. apply choice_bits_ok. }
  destruct (Hot (label_messages (seg zs n n)) (u8_vec_to_bool_vec mask)) as (out & R & Sel).
  { unfold label_messages. rewrite map_length, seg_length, Hbits; auto; lia. }
  { apply seg_extension; auto; lia. }
  apply selection_labels in Sel; [|rewrite seg_length, Hbits; auto; lia].
  eapply runs_bind; [exact R|].
  eapply runs_lift_l. { apply (idx_lt _ 0 (wire_empty, wire_empty)). lia. }
  eapply runs_lift_l. { unfold n. rewrite <- Lmasked. apply encode_flat_ok; [|exact Hz]. rewrite Lmasked. fold n. lia. }
  apply runs_send_recv. rewrite Lmasked. fold n.
  fold w1.
  eapply runs_lift_r. { rewrite Sel. fold w2. apply (idx_lt _ 0 (wval wire_empty)). rewrite map_length. lia. }
  rewrite (map_nth wval).
  assert (L20 : length (wval (nth 0 w2 wire_empty)) = 32%nat). { destruct (nth_WF w2 0 F2) as (_ & Q & _); [lia|exact Q]. }
  rewrite L20.
  eapply runs_lift_r. { rewrite Sel. apply payload_ok_wires; auto. }
  eapply runs_lift_r. { apply bytes_ok_wires; auto. }
  eapply runs_lift_r; [exact Eo|].
  rewrite Ek, Ek'. apply runs_done.
Qed.
End V3.
