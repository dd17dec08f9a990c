(** The attacks of SpecTell3. *)
From Coq Require Import List NArith Bool Arith Lia Permutation.
From Verif Require Import Base MUtil MWires MCircuit MGarble MPar MBincode MProc MOt MApricot MMany MFpake.
From Verif Require Import SpecUtil SpecWires SpecCircuit SpecGarble SpecBincode SpecOt SpecApricot SpecFpake SpecMany SpecMfpake SpecSteal SpecSteal3 SpecTell SpecForce SpecTell3.
From Verif Require Import PBase PUtil PWires PWiresSpec PGarble PGarbleSpec PCircuit PCircuit2 PHalf PLeak PProc POt PPar PApricotRun PBincode PFpake CFpake CMfpake PFpake3 PSteal PSteal2 PSteal3 PTell PForce.
Import ListNotations.
Open Scope N_scope.

(** ** The sum when there are zeros on either side *)
Lemma zero_WF : WF 2 zero_label.
Proof. exact zeros_WF. Qed.
Lemma zero_labels_WF m : Forall (WF 2) (repeat zero_label m).
Proof. apply Forall_forall. intros x Hx. apply repeat_spec in Hx. subst x. apply zero_WF. Qed.
Lemma sum_surrounded y ys a b w x : Forall (WF 2) (y :: ys) -> w :: x = repeat zero_label a ++ (y :: ys) ++ repeat zero_label b ->
  wval (psum 2 x w) = wval (psum 2 ys y).
Proof.
  intros HF E.
  assert (HF2 : Forall (WF 2) (w :: x)).
  { rewrite E. apply Forall_app. split; [apply zero_labels_WF|]. apply Forall_app. split; [exact HF|apply zero_labels_WF]. }
  inversion HF as [|? ? Hy Hys]; subst. inversion HF2 as [|? ? Hw Hx]; subst.
  destruct (psum_WF 2 _ w sup2 Hw Hx) as (_ & L1 & _). destruct (psum_WF 2 _ y sup2 Hy Hys) as (_ & L2 & _).
  apply (nth_ext _ _ 0 0); [congruence|]. intros j Hj. rewrite L1 in Hj. apply N.bits_inj. intros k.
  rewrite !psum_bits by auto. set (f := fun v => N.testbit (nth j (wval v) 0) k).
  change (fold_left xorb (map f x) (f w) = fold_left xorb (map f ys) (f y)).
  assert (T : forall v l, fold_left xorb (map f l) (f v) = fold_left xorb (map f (v :: l)) false) by (intros; cbn [map fold_left]; now rewrite xorb_false_l).
  rewrite !T, E.
  assert (Z : forall m, Forall (eq false) (map f (repeat zero_label m))).
  { intros m. apply Forall_map, Forall_forall. intros v Hv. apply repeat_spec in Hv. subst v. unfold f, zero_label. cbn [wval]. rewrite nth_repeat. symmetry. apply N.bits_0. }
  rewrite !map_app, !fold_left_app. rewrite (fold_false _ _ (Z a)). now rewrite (fold_false _ _ (Z b)).
Qed.

Lemma map_zeros : forall n k, map (fun i => wval (nth i (repeat zero_label (k + n)) wire_empty)) (seq k n) = repeat (repeat 0 32) n.
Proof.
  induction n as [|n IH]; intros k; [reflexivity|]. cbn [seq map]. replace (k + S n)%nat with (S k + n)%nat by lia. rewrite IH. cbn [repeat]. f_equal.
  rewrite nth_indep with (d' := zero_label) by (rewrite repeat_length; lia). now rewrite nth_repeat.
Qed.
Lemma flat_zeros n : repeat 0 (n * 32) = concat (map (fun i => wval (nth i (repeat zero_label n) wire_empty)) (seq 0 n)).
Proof.
  pose proof (map_zeros n 0) as E. cbn [plus] in E. rewrite E. clear E. induction n as [|n IH]; [reflexivity|]. cbn [Nat.mul]. rewrite repeat_app, IH. reflexivity.
Qed.
Lemma zeros_encoding p n : bytes_to_encoding p (repeat 0 (n * 32)) n 32 = Ok (repeat zero_label n).
Proof. rewrite flat_zeros. apply bytes_ok_wires; [apply repeat_length|apply zero_labels_WF]. Qed.

Lemma own_ok k o : N.of_nat (k + o) <= 1000000 -> garbled_ok (mkGC (forcing_circuit k o) [] []).
Proof.
  intros Hko. assert (U : forall j, (j <= k + o + 1)%nat -> usize_ok j).
  { intros j Hj. apply usize_small. apply N.le_lt_trans with 1000001; [lia|reflexivity]. }
  assert (E0 : forall A (P : A -> Prop), vec_ok P []) by (intros; split; [apply U; cbn; lia|constructor]).
  split; [|split; (split; [apply E0|constructor])].
  cbn [gc_circuit]. unfold circuit_ok, forcing_circuit. cbn [num_wires num_inputs num_outputs gates input_domains].
  split; [apply U; lia|]. split; [apply U; lia|]. split; [apply U; lia|]. split.
  - split; [apply U; cbn; lia|]. constructor; [|constructor]. unfold gate_ok. cbn [g_output g_domain g_inputs g_kind].
    split; [apply U; lia|]. split; [reflexivity|]. split; [|exact I]. split; [apply U; rewrite seq_length; lia|].
    apply Forall_forall. intros i Hi. apply in_seq in Hi. apply U. lia.
  - split; [apply U; rewrite repeat_length; lia|]. apply Forall_forall. intros x Hx. apply repeat_spec in Hx. subst x. reflexivity.
Qed.
Lemma own_half_key sha p k o gc w : gc_circuit gc = forcing_circuit k o -> evaluator_half_key sha p gc [w] = Ok (sha (dec_string o 1 w)).
Proof.
  intros Ec. unfold evaluator_half_key. rewrite Ec. cbn [forcing_circuit num_wires]. unfold usub.
  replace (1 <=? N.of_nat (o + 1)) with true by (symmetry; apply N.leb_le; lia). cbn [obind]. change (idx [w] 0) with (Ok w : outcome wire). cbn [obind].
  unfold dec_string, u16_be. replace (N.of_nat (o + 1) - 1) with (N.of_nat o) by lia. reflexivity.
Qed.

(** ** The two halves *)
Section Own.
Variable sha : bytes -> bytes.
Variable p : profile.
Variable zs : list (wire * wire).
Variable secret : bytes.
Variable v : bytes.
Hypothesis Hz : all_binary zs.
Hypothesis Hl : (1 <= length secret <= 4095)%nat.
Let n := (length secret * 8)%nat.
Hypothesis Lz : length zs = n.
Hypothesis Hv : forall y ys, zipWith pick zs (u8_vec_to_bool_vec secret) = y :: ys -> wval (psum 2 ys y) = v.
Variable o : nat.

Lemma own_nonempty : exists y ys, zipWith pick zs (u8_vec_to_bool_vec secret) = y :: ys /\ Forall (WF 2) (y :: ys) /\ length (y :: ys) = n.
Proof.
  assert (Lb : length (u8_vec_to_bool_vec secret) = n) by apply bits_length8.
  destruct (zipWith pick zs (u8_vec_to_bool_vec secret)) as [|y ys] eqn:E.
  - apply (f_equal (@length _)) in E. rewrite zipWith_length in E. cbn in E. unfold n in *. lia.
  - exists y, ys. split; [reflexivity|]. rewrite <- E. split; [now apply picked_labels|]. rewrite zipWith_length. lia.
Qed.
Lemma own_usize : usize_ok n.
Proof. apply usize_small. apply N.le_lt_trans with 65534; [unfold n; lia|reflexivity]. Qed.
Lemma own_extension : extension_ok (label_messages zs).
Proof. apply labels_extension; [exact Hz|unfold n in *; lia| |rewrite Lz; apply own_usize]. rewrite Lz. apply Nat.mod_mul. lia. Qed.

(** Second half: the mask of the server. *)
Lemma own_client_runs otS otR passwords p0 : ot_correct extension_ok otS otR ->
  nth_error passwords 0 = Some p0 -> length p0 = length secret ->
  (2 * n <= o)%nat -> N.of_nat o <= 200000 ->
  runs (own_garbler_client otS zs o) (evaluator_server_v3 sha p otR passwords secret) (Ok tt) (Ok (sha (be_bytes 8 (N.of_nat o) ++ be_bytes 2 1 ++ v))).
Proof.
  intros Hot E0 L0 Ho Ho'.
  assert (Lb : length (u8_vec_to_bool_vec secret) = n) by apply bits_length8.
  unfold own_garbler_client, evaluator_server_v3. rewrite Lz.
  destruct passwords as [|q rest]; [discriminate|]. cbn [nth_error] in E0. injection E0 as ->. eapply runs_lift_r; [reflexivity|]. cbv beta. rewrite L0. fold n.
  apply runs_send_recv.
  destruct (rt_garbled _ [] (own_ok (2 * n) o ltac:(unfold n in *; lia))) as (gc2 & Egc & Same). rewrite app_nil_r in Egc.
  eapply runs_lift_r. { unfold deserialize. rewrite Egc. reflexivity. }
  apply runs_send_recv.
  eapply runs_lift_r. { apply sent_wires; [constructor|]. cbn [length]. apply usize_small. reflexivity. }
  eapply runs_lift_r. { apply choice_bits_ok. }
  destruct (Hot (label_messages zs) (u8_vec_to_bool_vec secret)) as (out & R & Sel).
  { unfold label_messages. rewrite map_length. lia. }
  { apply own_extension. }
  apply selection_labels in Sel; [|lia].
  eapply runs_bind; [exact R|].
  apply runs_send_recv.
  destruct own_nonempty as (y & ys & Ep & FW & Ln). rewrite Ep in Sel. pose proof (Hv y ys Ep) as Ev.
  eapply runs_lift_r. { rewrite Sel. reflexivity. }
  assert (Ly : length (wval y) = 32%nat) by (inversion FW as [|? ? (_ & Q & _)]; exact Q). rewrite Ly.
  eapply runs_lift_r. { rewrite Sel. apply payload_ok_wires; auto. }
  eapply runs_lift_r. { apply zeros_encoding. }
  destruct Same as (Ec & _). cbn [gc_circuit] in Ec. rewrite app_nil_r.
  destruct (repeat zero_label n ++ y :: ys) as [|w x] eqn:Ewx. { destruct (repeat zero_label n); discriminate. }
  assert (Fwx : Forall (WF 2) (w :: x)) by (rewrite <- Ewx; apply Forall_app; split; [apply zero_labels_WF|exact FW]).
  assert (Lwx : length (w :: x) = (2 * n)%nat) by (rewrite <- Ewx, app_length, repeat_length; lia).
  eapply runs_lift_r. { apply (forced_evaluates sha p (2 * n) o gc2 Ho Ec); auto. }
  rewrite (own_half_key sha p (2 * n) o gc2 _ Ec). unfold dec_string.
  rewrite (sum_surrounded y ys n 0 w x FW), Ev by (cbn [repeat]; now rewrite app_nil_r). apply runs_done.
Qed.

(** First half: the password of the client. *)
Lemma own_server_runs ot1S ot1R ot2S ot2R dom manyS manyR d index :
  ot_correct extension_ok ot1S ot1R -> ot_correct extension_ok ot2S ot2R -> many_correct dom manyS manyR -> dom d -> (d <= 31)%nat ->
  index < 2 ^ N.of_nat d -> (3 * n <= o)%nat -> N.of_nat o <= 200000 ->
  runs (own_garbler_server ot1S manyS ot2S zs o d) (evaluator_client_v3 sha p ot1R manyR ot2R secret (N.of_nat (2 ^ d)) index)
    (Ok tt) (Ok (sha (be_bytes 8 (N.of_nat o) ++ be_bytes 2 1 ++ v), repeat 0 (length secret))).
Proof.
  intros Hot1 Hot2 Hm Hd Hd31 Hi Ho Ho'.
  assert (Lb : length (u8_vec_to_bool_vec secret) = n) by apply bits_length8.
  assert (Hpow : 2 ^ N.of_nat d = N.of_nat (2 ^ d)) by (now rewrite Nat2N.inj_pow).
  unfold own_garbler_server, evaluator_client_v3. rewrite Lz. fold n.
  apply runs_send_recv.
  destruct (rt_garbled _ [] (own_ok (3 * n) o ltac:(unfold n in *; lia))) as (gc2 & Egc & Same). rewrite app_nil_r in Egc.
  eapply runs_lift_r. { unfold deserialize. rewrite Egc. reflexivity. }
  eapply runs_lift_r. { apply choice_bits_ok. }
  destruct (Hot1 (label_messages zs) (u8_vec_to_bool_vec secret)) as (out & R & Sel).
  { unfold label_messages. rewrite map_length. lia. }
  { apply own_extension. }
  apply selection_labels in Sel; [|lia].
  eapply runs_bind; [exact R|].
  apply runs_send_recv.
  eapply runs_lift_r. { rewrite <- Hpow. apply log2_pow2; [reflexivity|lia]. }
  rewrite Nat2N.id. replace (n / 8)%nat with (length secret) by (unfold n; now rewrite Nat.div_mul by lia).
  eapply runs_bind.
  { apply (Hm d (repeat (repeat 0 (length secret)) (2 ^ d)) index (repeat 0 (length secret))); auto.
    - now rewrite repeat_length.
    - exists (length secret). split; [lia|]. apply Forall_forall. intros q Hq. apply repeat_spec in Hq. subst q. apply repeat_length.
    - apply nth_error_repeat. rewrite Hpow in Hi. lia. }
  set (zz := repeat (zero_label, zero_label) n).
  assert (Hzz : all_binary zz).
  { unfold all_binary, zz. apply Forall_forall. intros q Hq. apply repeat_spec in Hq. subst q. cbn [fst snd]. split; apply zero_WF. }
  assert (Lzz : length zz = n) by apply repeat_length.
  assert (Lb0 : length (u8_vec_to_bool_vec (repeat 0 (length secret))) = n) by (rewrite bits_length8, repeat_length; reflexivity).
  eapply runs_lift_r. { unfold n. rewrite <- (repeat_length 0 (length secret)) at 2. apply choice_bits_ok. }
  destruct (Hot2 (label_messages zz) (u8_vec_to_bool_vec (repeat 0 (length secret)))) as (out2 & R2 & Sel2).
  { unfold label_messages. rewrite map_length. lia. }
  { apply labels_extension; [exact Hzz|unfold n in *; lia| |rewrite Lzz; apply own_usize]. rewrite Lzz. apply Nat.mod_mul. lia. }
  apply selection_labels in Sel2; [|lia].
  assert (Epz : zipWith pick zz (u8_vec_to_bool_vec (repeat 0 (length secret))) = repeat zero_label n).
  { unfold zz. revert Lb0. generalize (u8_vec_to_bool_vec (repeat 0 (length secret))). clear.
    induction n as [|m IH]; intros [|b bits] L; try discriminate; [reflexivity|]. cbn [repeat zipWith]. rewrite IH by (cbn in L; lia). now destruct b. }
  rewrite Epz in Sel2.
  eapply runs_bind; [exact R2|].
  destruct own_nonempty as (y & ys & Ep & FW & Ln). rewrite Ep in Sel. pose proof (Hv y ys Ep) as Ev.
  assert (Em : exists m, n = S m) by (exists (n - 1)%nat; unfold n; lia). destruct Em as [m Em].
  eapply runs_lift_r. { rewrite Sel2, Em. reflexivity. }
  cbn [zero_label wval]. rewrite repeat_length.
  eapply runs_lift_r. { rewrite Sel. apply payload_ok_wires; auto. }
  eapply runs_lift_r. { apply zeros_encoding. }
  eapply runs_lift_r. { rewrite Sel2. apply payload_ok_wires; [apply repeat_length|apply zero_labels_WF]. }
  destruct Same as (Ec & _). cbn [gc_circuit] in Ec. rewrite <- repeat_app. cbn [app].
  eapply runs_lift_r.
  { apply (forced_evaluates sha p (3 * n) o gc2 Ho Ec).
    - change (y :: ys ++ repeat zero_label (n + n)) with ((y :: ys) ++ repeat zero_label (n + n)). apply Forall_app. split; [exact FW|apply zero_labels_WF].
    - cbn [length] in Ln |- *. rewrite app_length, repeat_length. lia. }
  eapply runs_lift_r. { apply (own_half_key sha p (3 * n) o gc2 _ Ec). }
  unfold dec_string. rewrite (sum_surrounded y ys 0 (n + n) y (ys ++ repeat zero_label (n + n)) FW), Ev by reflexivity. apply runs_ret.
Qed.
End Own.

(** ** What the labels lead to *)
Lemma telling_value secret y ys : bytes_ok secret -> (1 <= length secret <= 32)%nat ->
  zipWith pick (telling_labels (length secret * 8)) (u8_vec_to_bool_vec secret) = y :: ys ->
  wval (psum 2 ys y) = secret ++ repeat 0 (32 - length secret).
Proof.
  intros Hok Hl E. rewrite telling_picked in E. assert (Em : exists m, (length secret * 8 = S m)%nat) by (exists (length secret * 8 - 1)%nat; lia). destruct Em as [m Em].
  pose proof (tell_sum secret Hok Hl) as T. rewrite Em in E, T. cbn [seq map] in E. injection E as <- <-. replace (S m - 1)%nat with m in T by lia. exact T.
Qed.
Lemma forcing_value secret l y ys : WF 2 l -> (1 <= length secret)%nat ->
  zipWith pick (forcing_labels (length secret * 8) l) (u8_vec_to_bool_vec secret) = y :: ys -> wval (psum 2 ys y) = wval l.
Proof.
  intros Hl H1 E. assert (Lb : length (u8_vec_to_bool_vec secret) = (length secret * 8)%nat) by apply bits_length8.
  destruct (u8_vec_to_bool_vec secret) as [|b bits]. { cbn in Lb. lia. }
  unfold forcing_labels in E. cbn [zipWith] in E.
  assert (Q : forall (a : wire) m bs, length bs = m -> zipWith pick (repeat (a, a) m) bs = repeat a m).
  { clear. induction m as [|m IH]; intros [|c bs] L; try discriminate; [reflexivity|]. cbn [repeat zipWith]. rewrite IH by (cbn in L; lia). now destruct c. }
  rewrite Q in E by (cbn in Lb; lia). injection E as <- <-. replace (pick (l, l) b) with l by now destruct b. now apply zeros_sum.
Qed.
Lemma forcing_labels_ok m l : (1 <= m)%nat -> WF 2 l -> all_binary (forcing_labels m l) /\ length (forcing_labels m l) = m.
Proof.
  intros Hm Hl. split.
  - unfold all_binary, forcing_labels. constructor; [auto|]. apply Forall_forall. intros x Hx. apply repeat_spec in Hx. subst x. split; apply zeros_WF.
  - unfold forcing_labels. cbn [length]. rewrite repeat_length. lia.
Qed.

(** ** The label of 1 *)
Section Read.
Variable sha : bytes -> bytes.
Hypothesis Hsha : hash32 sha.
Variables p p' : profile.
Variable g : garbling.
Hypothesis Hg : garbling_ok g.
Variable l : nat.
Hypothesis Hgl : good_length l.
Variables (passwords : list bytes) (mask pw password : bytes) (t : N).
Hypothesis Hp0 : exists p0, nth_error passwords 0 = Some p0 /\ length p0 = l.
Hypothesis Lm : length mask = l.
Hypothesis Lpw : length pw = l.
Hypothesis Lpass : length password = l.
Hypothesis Ht : t <= 65534.
Let n := (l * 8)%nat.
Let c := circ2 n t.
Let o := (5 * n + 1)%nat.
Let masked := xor mask pw.
Variable F : garbled -> list wire -> outcome wire.
Hypothesis HF : forall gc gc2 ek dk zs l0 l1, half_key sha p (g_rd g) (g_ri g) c gc ek dk zs l0 l1 -> same_garbled gc2 gc ->
  F gc2 (zipWith pick (seg zs 0 n) (u8_vec_to_bool_vec password) ++ zipWith pick (seg zs n n) (u8_vec_to_bool_vec mask) ++
       zipWith pick (seg zs (n * 2) n) (u8_vec_to_bool_vec masked)) = Ok l1.

Lemma reading_v3 ot1S ot1R ot2S ot2R dom manyS manyR d index :
  ot_correct extension_ok ot1S ot1R -> ot_correct extension_ok ot2S ot2R -> many_correct dom manyS manyR -> dom d ->
  password_list d l passwords -> nth_error passwords (N.to_nat index) = Some pw ->
  exists lab, WF 2 lab /\
  runs (garbler_server_v3 sha p mask g ot1S manyS ot2S passwords t) (reading_client_v3 p' F ot1R manyR ot2R password d index)
    (Ok (sha (dec_string o 1 lab), mask)) (Ok lab).
Proof.
  intros Hot1 Hot2 Hm Hd (Hd31 & Lp & Fp) Hi.
  assert (Lx : length masked = l) by (unfold masked; rewrite xor_length; congruence).
  destruct (v3_common sha Hsha p p' g Hg l Hgl mask pw password t Lm Lpw Lpass Ht) as (gc & ek & dk & zs & l0 & l1 & H & Hz & Lz & Eo & _ & Hek). fold n in H, Lz, Eo, Hek. fold c in H, Eo. fold o in Eo, Hek.
  exists l1. split.
  { destruct (hk_state _ _ _ _ _ _ _ _ _ _ _ H) as (s & _ & _ & HI & _ & -> & _). destruct HI as (_ & HW & _). rewrite Eo.
    destruct (good_supported _ Hgl) as (Hs & Hn & H1). fold n in Hs, Hn, H1.
    assert (Em : modulus c o = 2).
    { unfold c, o. rewrite circ2_modulus by lia. destruct (Nat.ltb_spec (5 * n + 1) (4 * n)); [lia|]. destruct (Nat.ltb_spec (5 * n + 1) (5 * n + 1)); [lia|reflexivity]. }
    unfold G. rewrite Em. apply lab_WF; [exact (proj1 Hg)|exact sup2|]. rewrite <- Em. apply HW. cbn [c circ2 num_inputs gates].
    rewrite app_length. unfold xors2, tail_gates. rewrite app_length, !map_length, !seq_length. cbn [length]. unfold o. lia. }
  destruct (n_facts l Hgl mask pw password t Lm Lpw Lpass Ht) as (Hn0 & Hn8 & Hnu & Hn). fold n in Hn0, Hn8, Hnu, Hn. destruct (first_password l passwords Hp0) as (p0 & E0 & L0).
  assert (Hbits : forall v, length v = l -> length (u8_vec_to_bool_vec v) = n) by (intros v Lv; rewrite bits_length8, Lv; reflexivity).
  assert (Hpow : 2 ^ N.of_nat d = N.of_nat (2 ^ d)) by (now rewrite Nat2N.inj_pow).
  assert (Hlog : forall q w, 32 <= w <= 64 -> log2_ q w (N.of_nat (2 ^ d)) = Ok (N.of_nat d)).
  { intros q w Hw. rewrite <- Hpow. apply log2_pow2; [apply N.le_lt_trans with 64; [lia|reflexivity]|lia]. }
  unfold garbler_server_v3, reading_client_v3. rewrite Lpass. fold n.
  eapply runs_lift_l; [exact E0|]. cbv beta. rewrite L0. fold n.
  eapply runs_lift_l; [apply build_circuit_v2_eq; assumption|]. fold c.
  eapply runs_lift_l; [exact (garble_zipped_ok _ _ _ _ _ _ _ _ _ _ H)|]. cbv beta iota.
  apply runs_send_recv.
  destruct (sent_garbled _ _ _ _ _ _ _ _ _ _ Hg H) as (gc2 & Egc & Same).
  eapply runs_lift_r; [exact Egc|].
  eapply runs_lift_l; [apply label_pairs_ok; lia|].
  eapply runs_lift_r. { unfold n. rewrite <- Lpass. apply choice_bits_ok. }
  destruct (Hot1 (label_messages (seg zs 0 n)) (u8_vec_to_bool_vec password)) as (out1 & R1 & Sel1).
  { unfold label_messages. rewrite map_length, seg_length, Hbits; auto; lia. }
  { apply seg_extension; auto; lia. }
  apply selection_labels in Sel1; [|rewrite seg_length, Hbits; auto; lia].
  eapply runs_bind; [exact R1|].
  eapply runs_lift_l. { unfold n. rewrite <- Lm. apply encode_flat_ok; [|exact Hz]. rewrite Lm. fold n. lia. }
  apply runs_send_recv.
  eapply runs_lift_l. { rewrite Lp. apply Hlog. lia. }
  eapply runs_lift_l. { apply mask_passwords_ok; auto. }
  rewrite Nat2N.id.
  eapply runs_bind.
  { apply (Hm d (map (xor mask) passwords) index masked); auto.
    - now rewrite map_length.
    - exists l. split; [destruct Hgl; lia|]. apply Forall_map. eapply Forall_impl; [|exact Fp]. intros y Hy. cbn beta. rewrite xor_length; congruence.
    - unfold masked. now apply map_nth_error. }
  eapply runs_lift_l; [apply label_pairs_ok; lia|].
  eapply runs_lift_r. { unfold n. rewrite <- Lx. apply choice_bits_ok. }
  destruct (Hot2 (label_messages (seg zs (n * 2) n)) (u8_vec_to_bool_vec masked)) as (out2 & R2 & Sel2).
  { unfold label_messages. rewrite map_length, seg_length, Hbits; auto; lia. }
  { apply seg_extension; auto; lia. }
  apply selection_labels in Sel2; [|rewrite seg_length, Hbits; auto; lia].
  eapply runs_bind; [exact R2|].
  rewrite Lm. fold n.
  set (w1 := zipWith pick (seg zs 0 n) (u8_vec_to_bool_vec password)) in *.
  set (w2 := zipWith pick (seg zs n n) (u8_vec_to_bool_vec mask)) in *.
  set (w3 := zipWith pick (seg zs (n * 2) n) (u8_vec_to_bool_vec masked)) in *.
  assert (F1 : Forall (WF 2) w1) by (apply picked_labels, seg_binary, Hz).
  assert (F2 : Forall (WF 2) w2) by (apply picked_labels, seg_binary, Hz).
  assert (F3 : Forall (WF 2) w3) by (apply picked_labels, seg_binary, Hz).
  assert (L1 : length w1 = n) by (unfold w1; rewrite pick_length, seg_length; rewrite ?Hbits, ?seg_length; auto; lia).
  assert (L2 : length w2 = n) by (unfold w2; rewrite pick_length, seg_length; rewrite ?Hbits, ?seg_length; auto; lia).
  assert (L3 : length w3 = n) by (unfold w3; rewrite pick_length, seg_length; rewrite ?Hbits, ?seg_length; auto; lia).
  eapply runs_lift_r. { rewrite Sel1. apply payload_ok_wires; auto. }
  eapply runs_lift_r. { apply bytes_ok_wires; auto. }
  eapply runs_lift_r. { rewrite Sel2. apply payload_ok_wires; auto. }
  replace (F gc2 (w1 ++ w2 ++ w3)) with (Ok l1 : outcome wire) by (symmetry; apply (HF gc gc2 ek dk zs l0 l1); auto).
  eapply runs_lift_l. { rewrite (garbler_half_key_ok _ _ _ _ _ _ _ _ _ _ H), Eo. reflexivity. }
  apply runs_ret.
Qed.
End Read.
