(** Assembly of the garbling lemmas into statements about garble/encode/evaluate/decode. *)
From Coq Require Import List NArith Bool Arith Lia.
From Verif Require Import Base MUtil MWires MCircuit MGarble SpecWires SpecCircuit SpecGarble PBase PWires PWiresSpec PGarble PCircuit.
Import ListNotations.
Open Scope N_scope.

Lemma value_label_unique m w0 d k l1 l2 : supported m -> value_label m w0 d k l1 -> value_label m w0 d k l2 -> l1 = l2.
Proof.
  intros Hs [H1 E1] [H2 E2]. apply label_WF in H1, H2; auto.
  apply (WF_eq m); auto. apply (nth_ext _ _ 0 0).
  - destruct H1 as (_ & L1 & _), H2 as (_ & L2 & _). now rewrite !dg_length.
  - intros i Hi. assert (Hi' : (i < ndigits m)%nat). { destruct H1 as (_ & L1 & _). now rewrite dg_length in Hi. }
    rewrite <- !(digit_dg m) by auto. now rewrite E1, E2.
Qed.
Lemma genuine_unique c rd zeros o k l1 l2 : supported (modulus c o) ->
  genuine c rd zeros o k l1 -> genuine c rd zeros o k l2 -> l1 = l2.
Proof. intros Hs (d1 & E1 & H1) (d2 & E2 & H2). rewrite E1 in E2. inversion E2; subst. eapply value_label_unique; eauto. Qed.

(** ** The two decoders *)
Lemma decoders_agree_loop sha256 d z : forall i y, (i + length z = length y)%nat ->
  decode_loop sha256 d z i y = (let* ys := dk_decode_loop sha256 d z i in Ok (firstn i y ++ ys)).
Proof.
  induction z as [|w z IH]; intros i y Hl; cbn [decode_loop dk_decode_loop].
  - cbn [obind]. simpl in Hl. rewrite app_nil_r, firstn_all2 by lia. reflexivity.
  - destruct (idx (dk_hashes d) i) as [hs| | |]; cbn [obind]; auto.
    destruct (decode_search _ _ _ _ _) as [[k|]| | |]; cbn [obind]; auto.
    simpl in Hl. rewrite set_idx_lt by lia. cbn [obind]. rewrite IH by (rewrite set_nth_length; lia).
    destruct (dk_decode_loop sha256 d z (S i)); cbn [obind]; auto.
    rewrite firstn_set_nth by lia. now rewrite <- app_assoc.
Qed.
Lemma decoders_agree sha256 d z : length z = length (dk_hashes d) -> decode sha256 d z = dk_decode sha256 d z.
Proof.
  intros Hl. unfold decode, dk_decode. rewrite decoders_agree_loop by (rewrite repeat_length; auto).
  destruct (dk_decode_loop sha256 d z 0); auto.
Qed.

Section S.
Variable sha256 : bytes -> bytes.
Variable p : profile.
Variable rd : N -> bytes.
Variable ri : nat -> bytes.
Variable c : circuit.
Hypothesis Hsha : hash32 sha256.
Hypothesis Hsam : good_samples c rd ri.
Hypothesis Hwf : wf_circuit c.

Lemma lab_value m w k : supported m -> WF m w -> k < m -> value_label m w (D rd m) k (lab rd m w k).
Proof.
  intros Hs Hw Hk. destruct Hsam as [Hrd _]. pose proof (D_WF rd Hrd m Hs) as HD.
  split. { apply label_WF; auto. apply lab_WF; auto. }
  intros i Hi. pose proof (pmul_WF m Hs (D rd m) k HD) as HM.
  rewrite (digit_dg m _ i (lab_WF rd Hrd m w k Hs Hw) Hi). unfold lab. rewrite padd_dg by auto.
  pose proof (dg_length m (wval w)) as L1. pose proof (dg_length m (wval (pmul m (D rd m) k))) as L2.
  rewrite (nth_zipWith _ 0 0) by (rewrite ?L1, ?L2; try apply Hw; try apply HM; auto; destruct Hw as (_ & -> & _); destruct HM as (_ & -> & _); auto).
  rewrite <- !(digit_dg m) by auto. f_equal.
  rewrite (digit_dg m _ i HM Hi), pmul_dg by auto.
  rewrite nth_indep with (d' := dtimes m 0 k).
  2:{ rewrite map_length, dg_length; auto. apply HD. }
  rewrite (map_nth (fun x => dtimes m x k)). now rewrite <- (digit_dg m) by auto.
Qed.
Lemma modsup o : (o < num_wires c)%nat -> supported (modulus c o).
Proof. destruct Hsam as [Hrd Hri]. intros. eapply modulus_supported; eauto. Qed.
Lemma lab_genuine s o k : Inv sha256 p rd c (length (gates c)) s -> (o < num_wires c)%nat -> k < modulus c o ->
  genuine c rd (gs_wires s) o k (lab rd (modulus c o) (wn (gs_wires s) o) k).
Proof.
  intros HI Ho Hk. pose proof (modsup o Ho) as Hs. destruct Hsam as [Hrd Hri].
  exists (D rd (modulus c o)). split. { now apply D_ok. }
  apply lab_value; auto. eapply ws_WF; eauto.
Qed.

Lemma garble_facts : exists gc ek dk s,
  garble sha256 p rd ri c = Ok (gc, ek, dk) /\
  garble_run sha256 p rd ri c = Ok (ek, first_output c, s) /\
  gc = mkGC c (gs_f s) (gs_half s) /\ dk = mkDK (gs_d s) (first_output c) /\
  Inv sha256 p rd c (length (gates c)) s /\ ek_wires ek = firstn (num_inputs c) (gs_wires s) /\
  (forall g, In g (gates c) -> has rd (ek_delta ek) (g_domain g) /\ has rd (ek_delta ek) (output_domain g)).
Proof.
  destruct Hsam as [Hrd Hri].
  destruct (garble_run_ok sha256 p rd ri Hsha Hrd c Hwf Hri) as (ek & s & E & HI & Hek & Hdl).
  exists (mkGC c (gs_f s) (gs_half s)), ek, (mkDK (gs_d s) (first_output c)), s.
  unfold garble. rewrite E. cbn [obind]. auto 10.
Qed.

Lemma garbled_correct x : wf_inputs c x ->
  exists gc ek dk s xs zs,
    garble sha256 p rd ri c = Ok (gc, ek, dk) /\ garble_run sha256 p rd ri c = Ok (ek, first_output c, s) /\
    encode p ek x = Ok xs /\ evaluate sha256 p gc xs = Ok zs /\
    length xs = num_inputs c /\ length zs = num_outputs c /\
    (forall i, (i < num_inputs c)%nat -> genuine c rd (gs_wires s) i (nth i x 0) (nth i xs wire_empty)) /\
    (forall j, (j < num_outputs c)%nat ->
       genuine c rd (gs_wires s) (first_output c + j) (nth j (circuit_outputs c x) 0) (nth j zs wire_empty)) /\
    ((decode sha256 dk zs = Ok (circuit_outputs c x) /\ dk_decode sha256 dk zs = Ok (circuit_outputs c x)) \/
     exists j k l, (j < num_outputs c)%nat /\ k < modulus c (first_output c + j) /\ k <> nth j (circuit_outputs c x) 0 /\
       genuine c rd (gs_wires s) (first_output c + j) k l /\
       clash sha256 (dec_string (first_output c + j) k (nth j zs wire_empty)) (dec_string (first_output c + j) k l)).
Proof.
  intros Hx. destruct garble_facts as (gc & ek & dk & s & Eg & Er & -> & -> & HI & Hek & Hdl).
  assert (Hsam' := Hsam). destruct Hsam' as [Hrd Hri].
  pose proof (wf_wires c Hwf) as Hnw. pose proof (wf_outs c Hwf) as Hno.
  assert (Hvl : forall i, (i < num_wires c)%nat -> v c x i < modulus c i) by (intros; eapply v_lt; eauto).
  assert (Ev : forall j, nth j (circuit_outputs c x) 0 = v c x (first_output c + j)).
  { intros j. unfold circuit_outputs, v, first_output. apply nth_skipn. }
  assert (Eo : circuit_outputs c x = map (v c x) (seq (first_output c) (num_outputs c))).
  { apply (nth_ext _ _ 0 (v c x 0)).
    - unfold circuit_outputs. rewrite skipn_length, map_length, seq_length, (V_length c Hwf x Hx). lia.
    - intros j Hj. rewrite Ev, map_nth. unfold circuit_outputs in Hj.
      rewrite skipn_length, (V_length c Hwf x Hx) in Hj. rewrite seq_nth by lia. reflexivity. }
  exists (mkGC c (gs_f s) (gs_half s)), ek, (mkDK (gs_d s) (first_output c)), s,
    (map (L rd c x s) (seq 0 (num_inputs c))), (map (L rd c x s) (seq (first_output c) (num_outputs c))).
  split; auto. split; auto. split. { eapply encode_ok; eauto. } split. { eapply evaluate_ok; eauto. }
  rewrite !map_length, !seq_length. split; auto. split; auto.
  assert (HL : forall o, (o < num_wires c)%nat -> genuine c rd (gs_wires s) o (v c x o) (L rd c x s o)).
  { intros o Ho. apply lab_genuine; auto. }
  assert (Hnz : forall j, (j < num_outputs c)%nat ->
    nth j (map (L rd c x s) (seq (first_output c) (num_outputs c))) wire_empty = L rd c x s (first_output c + j)).
  { intros j Hj. rewrite nth_indep with (d' := L rd c x s 0) by (rewrite map_length, seq_length; auto).
    now rewrite map_nth, seq_nth by auto. }
  split. { intros i Hi. rewrite nth_indep with (d' := L rd c x s 0) by (rewrite map_length, seq_length; auto).
    rewrite map_nth, seq_nth by auto. replace (nth i x 0) with (v c x i) by (eapply v_input; eauto). apply HL. lia. }
  split. { intros j Hj. rewrite Hnz, Ev by auto. apply HL. unfold first_output. lia. }
  assert (Hgl : length (gs_d s) = num_outputs c) by (eapply gs_d_length; eauto).
  destruct (decode_hit sha256 p rd ri Hrd c Hwf Hri s HI (v c x) (num_outputs c) 0 (repeat 0 (num_outputs c))) as [E|E]; auto.
  - now rewrite repeat_length.
  - left. rewrite Nat.add_0_r in E. fold (first_output c) in E. cbn [firstn app] in E. rewrite Eo.
    assert (E' : decode sha256 {| dk_hashes := gs_d s; dk_offset := first_output c |}
      (map (L rd c x s) (seq (first_output c) (num_outputs c))) = Ok (map (v c x) (seq (first_output c) (num_outputs c)))).
    { unfold decode. cbn [dk_hashes]. rewrite Hgl. exact E. }
    split; auto. rewrite <- decoders_agree; auto. cbn [dk_hashes]. now rewrite map_length, seq_length.
  - right. destruct E as (j & Hj & k & Hk & Hne & Hc). fold (first_output c) in *.
    assert (Ho : (first_output c + j < num_wires c)%nat) by (unfold first_output; lia).
    exists j, k, (G rd c s (first_output c + j) k). rewrite Hnz, Ev by auto. split; auto. split; auto. split; auto.
    split; auto. apply lab_genuine; auto.
Qed.

Lemma decode_genuine : exists gc ek dk s,
  garble sha256 p rd ri c = Ok (gc, ek, dk) /\ garble_run sha256 p rd ri c = Ok (ek, first_output c, s) /\
  (forall z r, decode sha256 dk z = Ok r ->
    (length z <= num_outputs c)%nat /\ length r = num_outputs c /\
    forall j w, nth_error z j = Some w ->
      nth j r 0 < modulus c (first_output c + j) /\
      exists l, genuine c rd (gs_wires s) (first_output c + j) (nth j r 0) l /\
        (wval w = wval l \/
         clash sha256 (dec_string (first_output c + j) (nth j r 0) w) (dec_string (first_output c + j) (nth j r 0) l))) /\
  (forall z, (length z <= num_outputs c)%nat ->
     (forall j w, nth_error z j = Some w -> wire_domain w = modulus c (first_output c + j)) ->
     (exists r, decode sha256 dk z = Ok r) \/ decode sha256 dk z = Err EDecode).
Proof.
  destruct garble_facts as (gc & ek & dk & s & Eg & Er & -> & -> & HI & Hek & Hdl).
  assert (Hsam' := Hsam). destruct Hsam' as [Hrd Hri].
  pose proof (wf_wires c Hwf) as Hnw. pose proof (wf_outs c Hwf) as Hno.
  assert (Hgl : length (gs_d s) = num_outputs c) by (eapply gs_d_length; eauto).
  do 4 eexists. split; [exact Eg|]. split; [exact Er|]. split.
  - intros z r E. unfold decode in E. cbn [dk_hashes] in E. rewrite Hgl in E.
    eapply decode_loop_sound in E; eauto. 2:{ apply repeat_length. }
    destruct E as (Hl & Hr & _ & Hin). split; [lia|]. split; auto.
    intros j w Hw. specialize (Hin j w Hw). cbv zeta in Hin. cbn [Nat.add] in Hin. fold (first_output c) in Hin.
    destruct Hin as [Hk Hor]. split; auto.
    assert (Hj : (j < length z)%nat) by (apply nth_error_Some; congruence).
    eexists. split; [|exact Hor]. apply lab_genuine; auto. unfold first_output; lia.
  - intros z Hl Hd. unfold decode. cbn [dk_hashes]. rewrite Hgl.
    assert (Hgen : forall z i y, length y = num_outputs c -> (i + length z <= num_outputs c)%nat ->
       (forall j w, nth_error z j = Some w -> wire_domain w = modulus c (first_output c + (i + j))) ->
       (exists r, decode_loop sha256 (mkDK (gs_d s) (first_output c)) z i y = Ok r) \/
       decode_loop sha256 (mkDK (gs_d s) (first_output c)) z i y = Err EDecode).
    { clear z Hl Hd. induction z as [|w z IH]; intros i y Hy Hz Hd; cbn [decode_loop]; eauto.
      cbn [dk_hashes dk_offset]. simpl in Hz.
      erewrite (gs_d_idx sha256 p rd ri) by (eauto; lia). cbn [obind]. fold (first_output c).
      assert (Hw := Hd 0%nat w eq_refl). rewrite Nat.add_0_r in Hw. rewrite Hw.
      assert (Hs : forall ks, (forall k, In k ks -> (k < N.to_nat (modulus c (first_output c + i)))%nat) ->
        exists o, decode_search sha256 (first_output c + i) w (decvals sha256 rd c (gs_wires s) (first_output c + i)) ks = Ok o).
      { induction ks as [|k ks IHk]; intros Hks; cbn [decode_search]; eauto.
        rewrite (decvals_idx sha256 rd c s) by (apply Hks; simpl; auto). cbn [obind].
        destruct (bytes_eqb _ _); eauto. apply IHk. intros; apply Hks; simpl; auto. }
      destruct (Hs (seq 0 (N.to_nat (modulus c (first_output c + i))))) as [[k|] E].
      { intros k Hk. apply in_seq in Hk. lia. }
      - rewrite E. cbn [obind]. rewrite set_idx_lt by lia. cbn [obind]. apply IH.
        now rewrite set_nth_length. lia. intros j w' Hj. specialize (Hd (S j) w' Hj). now rewrite Nat.add_succ_comm.
      - rewrite E. cbn [obind]. auto. }
    apply Hgen. apply repeat_length. lia. exact Hd.
Qed.

(** An AND gate fed twice by the same input wire: tables and active label give the offset. *)
Lemma and_leak x k g a l d : wf_inputs c x -> nth_error (gates c) k = Some g -> g_kind g = GAnd ->
  g_inputs g = a :: a :: l -> (a < num_inputs c)%nat -> wire_delta 2 (rd 2) = Ok d ->
  exists gc ek dk xs tg te,
    garble sha256 p rd ri c = Ok (gc, ek, dk) /\ encode p ek x = Ok xs /\
    alookup Nat.eqb (g_output g) (gc_half gc) = Some (tg, te) /\
    (color (nth a xs wire_empty) = 1 -> forall i, (i < 32)%nat ->
       N.lxor (nth i (wval (nth a xs wire_empty)) 0) (N.lxor (nth i (wval tg) 0) (nth i (wval te) 0)) = nth i (wval d) 0).
Proof.
  intros Hx Hk Hkind Hin Ha Hd. destruct garble_facts as (gc & ek & dk & s & Eg & Er & -> & -> & HI & Hek & Hdl).
  assert (Hsam' := Hsam). destruct Hsam' as [Hrd Hri].
  pose proof (wf_wires c Hwf) as Hnw. pose proof sup2 as S2.
  destruct (wf_gates c Hwf k g Hk) as (Ho & Hins & Ht & Hs). unfold gate_typed in Ht. rewrite Hkind in Ht.
  destruct Ht as (a' & b' & l' & E' & Hma & Hmb & Hd2). rewrite Hin in E'. inversion E'; subst a' b' l'.
  assert (HWa : WF 2 (wn (gs_wires s) a)). { rewrite <- Hma. eapply ws_WF; eauto. lia. }
  pose proof (D_WF rd Hrd 2 S2) as HD. destruct (D_ok rd Hrd 2 S2) as [ED _]. rewrite ED in Hd. inversion Hd; subst d.
  assert (Hgood := HI). destruct Hgood as (_ & _ & _ & _ & Hgood & _).
  assert (Hkl : (k < length (gates c))%nat) by (apply nth_error_Some; congruence).
  specialize (Hgood k g Hkl Hk). unfold good_gate in Hgood. rewrite Hkind in Hgood.
  destruct (Hgood a a l Hin) as [_ Htab].
  do 6 eexists. split; [exact Eg|]. split; [eapply encode_ok; eauto|]. split; [exact Htab|].
  rewrite nth_indep with (d' := L rd c x s 0) by (rewrite map_length, seq_length; auto).
  rewrite map_nth, seq_nth by auto. cbn [Nat.add]. unfold L. rewrite Hma.
  assert (Hv : v c x a < 2). { rewrite <- Hma. eapply v_lt; eauto. lia. }
  set (wa := wn (gs_wires s) a) in *. set (va := v c x a) in *. intros Hc i Hi.
  unfold lab in Hc. rewrite color_shift in Hc by (auto using D_delta). fold (lab rd 2 wa va) in *.
  pose proof (color_lt 2 wa S2 HWa) as Hcw.
  assert (Hh : forall w j, WF 2 (hh sha256 w j)) by (intros; now apply hh_WF).
  assert (HWd : WF 2 (padd 2 wa (D rd 2))) by auto using padd_WF.
  unfold and_tg, and_te. set (j := S (ands c k)).
  rewrite !nth_padd2 by auto using padd_WF.
  assert (va = 0 \/ va = 1) as [E|E] by lia; rewrite E in *.
  - rewrite lab2_0 by auto. assert (Ec : color wa = 1).
    { rewrite N.add_0_r, N.mod_small in Hc by lia. lia. }
    rewrite Ec. cbn [N.eqb Pos.eqb negb].
    rewrite !nth_padd2 by auto using padd_WF. rewrite !N.lxor_assoc.
    set (A := nth i (wval wa) 0). set (H1 := nth i (wval (hh sha256 wa j)) 0).
    set (H2 := nth i (wval (hh sha256 (padd 2 wa (D rd 2)) j)) 0). set (DD := nth i (wval (D rd 2)) 0).
    apply N.bits_inj. intros q. rewrite !N.lxor_spec. destruct (N.testbit A q), (N.testbit H1 q), (N.testbit H2 q), (N.testbit DD q); reflexivity.
  - rewrite lab2_1 by auto. assert (Ec : color wa = 0).
    { destruct (N.eq_dec (color wa) 0); auto. assert (color wa = 1) by lia. rewrite H in Hc. discriminate. }
    rewrite Ec. cbn [N.eqb negb].
    rewrite !nth_padd2 by auto using padd_WF. rewrite !N.lxor_assoc.
    set (A := nth i (wval wa) 0). set (H1 := nth i (wval (hh sha256 wa j)) 0).
    set (H2 := nth i (wval (hh sha256 (padd 2 wa (D rd 2)) j)) 0). set (DD := nth i (wval (D rd 2)) 0).
    apply N.bits_inj. intros q. rewrite !N.lxor_spec. destruct (N.testbit A q), (N.testbit H1 q), (N.testbit H2 q), (N.testbit DD q); reflexivity.
Qed.
End S.
