(** Binary encoding keys. *)
From Coq Require Import List NArith Bool Arith Lia.
From Verif Require Import Base MUtil MWires MCircuit MGarble SpecWires SpecCircuit PBase PWires PWiresSpec PGarble PCircuit.
Import ListNotations.
Open Scope N_scope.

Section B.
Variable p : profile.
Variable ws : list wire.
Variable dl : deltas.
Variable d : wire.
Hypothesis Hws : Forall (label 2) ws.
Hypothesis Hd : label 2 d.
Hypothesis Hdl : alookup N.eqb 2 dl = Some d.
Notation bk := (mkBK ws (map (fun w => padd 2 w d) ws)).

Lemma ws_WF2 : Forall (WF 2) ws.
Proof. eapply Forall_impl; [|exact Hws]. intros w H. apply label_WF; auto using sup2. Qed.
Lemma d_WF2 : WF 2 d. Proof. apply label_WF; auto using sup2. Qed.

Lemma binary_of_ek_ok : binary_of_ek p (mkEK ws dl) = Ok bk.
Proof.
  unfold binary_of_ek. cbn [ek_wires ek_delta].
  replace (forallb _ ws) with true.
  2:{ symmetry. apply forallb_forall. intros w Hw. apply N.eqb_eq. apply wire_domain_WF. auto using sup2.
      pose proof ws_WF2 as HF. rewrite Forall_forall in HF. auto. }
  cbn [assert_ obind]. unfold dlookup. rewrite Hdl. cbn [unwrap obind].
  rewrite (mapM_Ok _ (fun w => padd 2 w d)). reflexivity.
  intros w Hw. apply wadd_ok; auto using sup2, d_WF2. pose proof ws_WF2 as HF. rewrite Forall_forall in HF. auto.
Qed.
Lemma bk_encode_ok bits : length bits = length ws ->
  bk_encode bk bits = encode p (mkEK ws dl) (bit_values bits).
Proof.
  intros Hl. unfold bk_encode, encode. cbn [bk_zeros bk_ones ek_wires ek_delta].
  rewrite bit_values_length, <- Hl, Nat.eqb_refl, debug_assert_true. cbn [assert_ obind].
  pose proof ws_WF2 as HF. pose proof sup2 as S2. pose proof d_WF2 as HD.
  set (h := fun i => if nth i bits false then padd 2 (nth i ws wire_empty) d else nth i ws wire_empty).
  assert (HW : forall i, (i < length ws)%nat -> WF 2 (nth i ws wire_empty)).
  { intros i Hi. rewrite Forall_forall in HF. apply HF. now apply nth_In. }
  rewrite (zipM_seq _ h wire_empty 0).
  - rewrite (mapM_Ok _ (fun ib : nat * bool => h (fst ib))).
    + rewrite <- (map_map fst h). f_equal. f_equal. rewrite Hl.
      rewrite <- Hl. clear. generalize 0%nat. induction bits; intros; simpl; auto. now rewrite IHbits.
    + intros [i b] Hin. cbn [fst].
      assert (Hin' := Hin). apply in_combine_l in Hin'. apply in_seq in Hin'.
      assert (Eb : b = nth i bits false).
      { apply (In_nth _ _ (0%nat, false)) in Hin as (j & Hj & Ej). rewrite combine_length, seq_length in Hj.
        rewrite combine_nth in Ej by apply seq_length. inversion Ej. rewrite seq_nth by lia. reflexivity. }
      unfold h. rewrite <- Eb. destruct b.
      * rewrite (idx_lt _ _ (padd 2 wire_empty d)) by (rewrite map_length; lia).
        now rewrite (map_nth (fun w => padd 2 w d)).
      * now rewrite (idx_lt _ _ wire_empty) by lia.
  - now rewrite bit_values_length.
  - intros i Hi. specialize (HW i Hi). rewrite (wire_domain_WF 2) by auto. unfold dlookup. rewrite Hdl. cbn [unwrap obind].
    rewrite bit_values_nth. unfold h. destruct (nth i bits false).
    + rewrite (wmul_ok p 2) by (auto; lia). cbn [obind]. rewrite pmul_1 by auto. rewrite (wadd_ok p 2) by auto. reflexivity.
    + rewrite (wmul_ok p 2) by (auto; lia). cbn [obind]. rewrite (wadd_ok p 2) by auto using pmul_WF. now rewrite padd_pmul_0 by auto.
Qed.
Lemma zipped_ok : exists z, zipped bk = Ok z /\ unzipped z = bk /\ length z = length ws.
Proof.
  unfold zipped. cbn [bk_zeros bk_ones].
  set (h := fun i => (nth i ws wire_empty, padd 2 (nth i ws wire_empty) d)).
  exists (map h (seq 0 (length ws))). split.
  - apply mapM_Ok. intros i Hi. apply in_seq in Hi. rewrite (idx_lt _ _ wire_empty) by lia. cbn [obind].
    rewrite (idx_lt _ _ (padd 2 wire_empty d)) by (rewrite map_length; lia). cbn [obind].
    now rewrite (map_nth (fun w => padd 2 w d)).
  - split. 2:{ now rewrite map_length, seq_length. }
    unfold unzipped. rewrite !map_map. unfold h. cbn [fst snd].
    rewrite (map_seq_nth ws) by auto. f_equal.
    rewrite <- (map_map (fun i => nth i ws wire_empty) (fun w => padd 2 w d)). now rewrite (map_seq_nth ws) by auto.
Qed.
Lemma ek_of_binary_ok : ws <> [] -> exists dl', ek_of_binary p bk = Ok (mkEK ws dl') /\
  alookup N.eqb 2 dl' = Some d.
Proof.
  intros Hne. unfold ek_of_binary. cbn [bk_zeros bk_ones]. pose proof ws_WF2 as HF. pose proof d_WF2 as HD. pose proof sup2 as S2.
  destruct ws as [|w0 ws']; [congruence|]. cbn [map idx nth_error unwrap obind].
  assert (Hw0 : WF 2 w0) by now inversion HF.
  assert (Hs0 : WF 2 (padd 2 w0 d)) by auto using padd_WF.
  rewrite (wadd_ok p 2 w0 (padd 2 w0 d)) by auto. cbn [obind].
  assert (E : padd 2 w0 (padd 2 w0 d) = d).
  { apply (WF2_ext (fun _ => [])); auto. { now apply padd_WF. }
    intros i Hi. rewrite !(nth_padd2 (fun _ => [])) by auto. rewrite <- N.lxor_assoc, N.lxor_nilpotent. reflexivity. }
  rewrite E. eexists. split; [reflexivity|]. reflexivity.
Qed.
End B.
