(** The attack of SpecSteal succeeds. *)
From Coq Require Import List NArith Bool Arith Lia Permutation.
From Verif Require Import Base MUtil MWires MCircuit MGarble MBincode MProc MFpake SpecWires SpecCircuit SpecGarble SpecBincode SpecSteal.
From Verif Require Import PBase PWires PWiresSpec PGarble PGarbleSpec PHalf PLeak PCircuit.
Import ListNotations.
Open Scope N_scope.

(** ** Which label is which *)
Lemma same_label_refl a : same_label a a = true.
Proof. apply bytes_eqb_eq. reflexivity. Qed.
Lemma same_label_neq a b : wval a <> wval b -> same_label a b = false.
Proof. intros H. destruct (same_label a b) eqn:E; auto. apply bytes_eqb_eq in E. contradiction. Qed.

Section Rotated.
Local Open Scope nat_scope.
Variables (n v T : nat) (l0 l1 : wire).
Hypothesis Hne : wval l0 <> wval l1.
Hypothesis Hv : v < n + 1.
Hypothesis HT : 1 <= T <= n.
Hypothesis Heven : Nat.Even n.
Definition rotated : list wire := map (fun j => if Nat.ltb ((v + j) mod (n + 1)) T then l1 else l0) (seq 0 (n + 1)).

Lemma rotation : map (fun j => (v + j) mod (n + 1)) (seq 0 (n + 1)) = seq v (n + 1 - v) ++ seq 0 v.
Proof.
  replace (seq 0 (n + 1)) with (seq 0 ((n + 1 - v) + v)) by (f_equal; lia). rewrite seq_app, map_app. f_equal.
  - rewrite (map_ext_in _ (fun j => v + j)).
    + apply (nth_ext _ _ 0 0). { now rewrite map_length, !seq_length. }
      intros i Hi. rewrite map_length, seq_length in Hi. rewrite nth_indep with (d' := v + 0) by now rewrite map_length, seq_length.
      rewrite (map_nth (fun j => v + j)). rewrite !seq_nth by auto. lia.
    + intros j Hj. apply in_seq in Hj. apply Nat.mod_small. lia.
  - rewrite (map_ext_in _ (fun j => j - (n + 1 - v))).
    + apply (nth_ext _ _ 0 0). { now rewrite map_length, !seq_length. }
      intros i Hi. rewrite map_length, seq_length in Hi. rewrite nth_indep with (d' := 0 - (n + 1 - v)) by now rewrite map_length, seq_length.
      rewrite (map_nth (fun j => j - (n + 1 - v))). rewrite !seq_nth by auto. lia.
    + intros j Hj. apply in_seq in Hj. replace (v + j) with (j - (n + 1 - v) + 1 * (n + 1)) by lia.
      rewrite Nat.mod_add by lia. apply Nat.mod_small. lia.
Qed.
Lemma count_seq k : forall a, length (filter (fun x => Nat.ltb x T) (seq a k)) = min k (T - a).
Proof.
  induction k as [|k IH]; intros a; cbn [seq filter]; [reflexivity|].
  destruct (Nat.ltb_spec a T); cbn [length]; rewrite IH; lia.
Qed.
Lemma filter_map_length {A B} (f : A -> B) (q : B -> bool) l : length (filter q (map f l)) = length (filter (fun x => q (f x)) l).
Proof. induction l as [|a l IH]; cbn [map filter]; auto. destruct (q (f a)); cbn [length]; now rewrite IH. Qed.
Lemma filter_split {A} (q : A -> bool) l : length (filter q l) + length (filter (fun x => negb (q x)) l) = length l.
Proof. induction l as [|a l IH]; cbn [filter length]; auto. destruct (q a); cbn [negb length]; lia. Qed.
Lemma count_below : length (filter (fun j => Nat.ltb ((v + j) mod (n + 1)) T) (seq 0 (n + 1))) = T.
Proof.
  rewrite <- (filter_map_length (fun j => (v + j) mod (n + 1)) (fun x => Nat.ltb x T)). rewrite rotation.
  rewrite filter_app, app_length, !count_seq. lia.
Qed.
Lemma count_l1 : count_label l1 rotated = T.
Proof.
  unfold count_label, rotated. rewrite filter_map_length. etransitivity; [|exact count_below]. f_equal. apply filter_ext.
  intros j. destruct (Nat.ltb _ T). { apply same_label_refl. } apply same_label_neq. congruence.
Qed.
Lemma count_l0 : count_label l0 rotated = n + 1 - T.
Proof.
  unfold count_label, rotated. rewrite filter_map_length.
  pose proof (filter_split (fun j => Nat.ltb ((v + j) mod (n + 1)) T) (seq 0 (n + 1))) as E. rewrite count_below, seq_length in E.
  rewrite (filter_ext _ (fun j => negb (Nat.ltb ((v + j) mod (n + 1)) T))); [lia|].
  intros j. destruct (Nat.ltb _ T); cbn [negb]. { now apply same_label_neq. } apply same_label_refl.
Qed.
Lemma rotated_nth j : j < n + 1 -> nth j rotated wire_empty = if Nat.ltb ((v + j) mod (n + 1)) T then l1 else l0.
Proof.
  intros Hj. unfold rotated. set (f := fun j => _). rewrite nth_indep with (d' := f 0) by now rewrite map_length, seq_length.
  rewrite (map_nth f). rewrite seq_nth by auto. reflexivity.
Qed.
Lemma in_rotated l : In l rotated -> l = l0 \/ l = l1.
Proof. intros H. apply in_map_iff in H as (j & <- & _). destruct (Nat.ltb _ _); auto. Qed.

Lemma find_l1 : find (fun l => Nat.eqb (count_label l rotated) T) rotated = Some l1.
Proof.
  destruct (find _ rotated) as [l|] eqn:E.
  - apply find_some in E as [Hin Hc]. apply Nat.eqb_eq in Hc. destruct (in_rotated l Hin) as [-> | ->]; auto.
    rewrite count_l0 in Hc. destruct Heven. lia.
  - exfalso. assert (Hin : In l1 rotated).
    { set (j := (n + 1 - v) mod (n + 1)). assert (Hj : j < n + 1) by (apply Nat.mod_upper_bound; lia).
      assert (E1 : nth j rotated wire_empty = l1).
      { rewrite rotated_nth by exact Hj. unfold j. rewrite Nat.add_mod_idemp_r by lia. replace (v + (n + 1 - v)) with (1 * (n + 1)) by lia.
        rewrite Nat.mod_mul by lia. destruct (Nat.ltb_spec 0 T); [reflexivity|lia]. }
      rewrite <- E1. apply nth_In. unfold rotated. now rewrite map_length, seq_length. }
    apply (find_none _ _ E) in Hin. rewrite count_l1, Nat.eqb_refl in Hin. discriminate.
Qed.

Lemma test_at j : j < n + 1 ->
  same_label l1 (nth j rotated wire_empty) && negb (same_label l1 (nth ((j + n) mod (n + 1)) rotated wire_empty)) = Nat.eqb ((v + j) mod (n + 1)) 0.
Proof.
  intros Hj. rewrite rotated_nth by exact Hj. rewrite rotated_nth by (apply Nat.mod_upper_bound; lia).
  rewrite Nat.add_mod_idemp_r by lia. set (x := (v + j) mod (n + 1)). assert (Hx : x < n + 1) by (apply Nat.mod_upper_bound; lia).
  assert (E : (v + (j + n)) mod (n + 1) = if Nat.eqb x 0 then n else x - 1).
  { rewrite Nat.add_assoc, <- Nat.add_mod_idemp_l by lia. fold x. destruct (Nat.eqb_spec x 0) as [->|].
    - apply Nat.mod_small. lia.
    - replace (x + n) with (x - 1 + 1 * (n + 1)) by lia. rewrite Nat.mod_add by lia. apply Nat.mod_small. lia. }
  rewrite E. assert (S0 : same_label l1 l0 = false) by (apply same_label_neq; congruence).
  destruct (Nat.eqb_spec x 0) as [E0|E0].
  - rewrite E0. destruct (Nat.ltb_spec 0 T); [|lia]. destruct (Nat.ltb_spec n T); [lia|]. rewrite same_label_refl, S0. reflexivity.
  - destruct (Nat.ltb_spec x T); [|now rewrite S0]. destruct (Nat.ltb_spec (x - 1) T); [|lia]. rewrite same_label_refl. reflexivity.
Qed.
Lemma find_start : exists j, find (fun j => same_label l1 (nth j rotated wire_empty) && negb (same_label l1 (nth ((j + n) mod (n + 1)) rotated wire_empty)))
    (seq 0 (n + 1)) = Some j /\ (n + 1 - j) mod (n + 1) = v.
Proof.
  destruct (find _ (seq 0 (n + 1))) as [j|] eqn:E.
  - exists j. split; [reflexivity|]. apply find_some in E as [Hin Ht]. apply in_seq in Hin. rewrite test_at in Ht by lia.
    apply Nat.eqb_eq in Ht. apply Nat.mod_divide in Ht; [|lia]. destruct Ht as [q Hq].
    assert (q = 0 \/ q = 1) as [-> | ->] by nia.
    + assert (j = 0) by lia. subst j. assert (v = 0) by lia. rewrite Nat.sub_0_r, Nat.mod_same by lia. auto.
    + replace (n + 1 - j) with v by lia. now apply Nat.mod_small.
  - exfalso. set (j := (n + 1 - v) mod (n + 1)). assert (Hj : j < n + 1) by (apply Nat.mod_upper_bound; lia).
    assert (Hin : In j (seq 0 (n + 1))) by (apply in_seq; lia). apply (find_none _ _ E) in Hin. rewrite test_at in Hin by exact Hj.
    apply Nat.eqb_neq in Hin. apply Hin. unfold j. rewrite Nat.add_mod_idemp_r by lia. replace (v + (n + 1 - v)) with (1 * (n + 1)) by lia.
    apply Nat.mod_mul. lia.
Qed.
End Rotated.

(** ** Colours of multiples of the offset *)
Lemma color_multiple rd m k : (forall m, supported m -> valid_sample m (rd m)) -> supported m -> m <> 2 -> color (pmul m (D rd m) k) = k mod m.
Proof.
  intros Hrd Hs H2. pose proof (D_delta rd Hrd m Hs) as [HD E1]. pose proof (supported_2 m Hs).
  rewrite (color_last m) by auto using pmul_WF.
  assert (Hi : (ndigits m - 1 < ndigits m)%nat) by (unfold ndigits; destruct (wide m); lia).
  unfold last_digit in *. rewrite <- digit_dg in * by auto using pmul_WF.
  rewrite digit_pmul by auto. unfold dtimes. destruct (N.eqb_spec m 2); [contradiction|].
  rewrite N.mod_mod by lia. rewrite N.mul_mod, E1, N.mul_1_l by lia. apply N.mod_mod. lia.
Qed.

(** ** The labels the attacker computes *)
Section Steal.
Variable sha : bytes -> bytes.
Variable p : profile.
Variable rd : N -> bytes.
Variable ri : nat -> bytes.
Variable c : circuit.
Hypothesis Hsha : hash32 sha.
Hypothesis Hsam : good_samples c rd ri.
Hypothesis Hwf : wf_circuit c.
Variable s : gstate.
Hypothesis HI : Inv sha p rd c (length (gates c)) s.
Variables (Q n : nat) (t : N).
Hypothesis Heven : Nat.Even n.
Hypothesis Hn1 : (1 <= n)%nat.
Let cd : N := N.of_nat n + 1.
Hypothesis Hcd : supported cd.
Hypothesis Hproj : forall i, (i < n)%nat -> exists k, nth_error (gates c) k = Some (mkGate (i + (Q + n)) 2 [i + Q]%nat (GProj (PMap cd))).
Hypothesis Hless : exists k, nth_error (gates c) k = Some (mkGate (Q + n + n + 1) cd [Q + n + n]%nat (GProj (PLess (t + 1)))).
Hypothesis Hcol : exists i, (i < n)%nat /\ color (wn (gs_wires s) (i + Q)) = 0.
Variable gc : garbled.
Hypothesis Hgc : same_garbled gc (mkGC c (gs_f s) (gs_half s)).
Notation ws := (gs_wires s).
Notation D := (D rd).

Lemma Hrd' : forall m, supported m -> valid_sample m (rd m).
Proof. apply Hsam. Qed.

Lemma proj_table k g kk i l : nth_error (gates c) k = Some g -> g_kind g = GProj kk -> g_inputs g = i :: l ->
  exists tbl, alookup Nat.eqb (g_output g) (gc_f gc) = Some tbl /\
    table_ok sha p rd (g_output g) (g_domain g) (proj_domain kk) kk (wn ws i) (wn ws (g_output g)) tbl /\
    supported (g_domain g) /\ supported (proj_domain kk) /\ modulus c i = g_domain g /\ WF (g_domain g) (wn ws i) /\
    WF (proj_domain kk) (wn ws (g_output g)) /\ (g_output g < num_wires c)%nat /\ (i < num_wires c)%nat.
Proof using Hsam Hwf HI Hgc.
  clear Hproj Hless Hcol Heven Hn1 Hcd cd n Q t.
  intros Hk Ek Ei. destruct (wf_gates c Hwf k g Hk) as (Eo & Hins & Hty & Hsup).
  unfold gate_typed in Hty. rewrite Ek in Hty. destruct Hty as (i' & l' & Ei' & Hmod & Hpd). rewrite Ei in Ei'. inversion Ei'; subst i' l'.
  destruct HI as (Hlw & HW & _ & _ & Hgood & _). assert (Hkl : (k < length (gates c))%nat) by (apply nth_error_Some; congruence).
  specialize (Hgood k g Hkl Hk). unfold good_gate in Hgood. rewrite Ek in Hgood. destruct (Hgood i l Ei) as (tbl & Et & T).
  destruct Hgc as (_ & Hf & _). exists tbl. split. { rewrite Hf. exact Et. } split; [exact T|].
  rewrite Ei in Hins. inversion Hins as [|? ? Hi _ QQ]; subst. pose proof (wf_wires c Hwf) as Hnw.
  split; [exact Hsup|]. split; [exact Hpd|]. split; [exact Hmod|]. split. { rewrite <- Hmod. apply HW. lia. }
  split. { pose proof (modulus_out ri c Hwf (proj2 Hsam) k g Hk) as Em. rewrite <- Eo in Em. unfold output_domain in Em. rewrite Ek in Em.
    replace (proj_domain kk) with (modulus c (g_output g)) by (rewrite Em; destruct kk; reflexivity). apply HW. lia. }
  lia.
Qed.

Lemma cd_ne2 : cd <> 2.
Proof. unfold cd. destruct Heven. lia. Qed.

Definition row_of (o : nat) : wire := if color (wn ws (o - n)) =? 0 then pmul cd (D cd) (cd - 2) else pmul cd (D cd) 0.
Lemma rows_ok : mapM (first_row gc) (seq (Q + n) n) = Ok (map row_of (seq (Q + n) n)).
Proof.
  apply mapM_Ok. intros o Ho. apply in_seq in Ho. destruct (Hproj (o - (Q + n))) as (k & Hk); [lia|].
  destruct (proj_table k _ (PMap cd) _ [] Hk eq_refl eq_refl) as (tbl & Et & T & S1 & S2 & _ & Hwi & _). cbn [g_output g_domain proj_domain] in *.
  replace (o - (Q + n) + (Q + n))%nat with o in * by lia. replace (o - (Q + n) + Q)%nat with (o - n)%nat in * by lia.
  unfold first_row. rewrite Et. cbn [unwrap obind]. unfold idx, row_of. pose proof cd_ne2 as Hc2. pose proof (supported_2 _ S2) as Hc3.
  destruct (N.eqb_spec (color (wn ws (o - n))) 0) as [E|E].
  - rewrite (row0_offset sha p rd Hsha Hrd' _ _ _ _ _ _ S1 S2 Hc2 Hwi E T). cbn [unwrap]. do 2 f_equal.
    rewrite (N.mod_small 2) by lia. apply N.mod_small. lia.
  - rewrite (row0_zero sha p rd Hsha Hrd' _ _ _ (PMap cd) _ _ _ S1 S2 Hc2 eq_refl Hwi E T). reflexivity.
Qed.

Lemma stolen_offset_ok : stolen_offset p gc (Q + n) n = Ok (D cd).
Proof.
  unfold stolen_offset. rewrite rows_ok. cbn [obind]. pose proof cd_ne2 as Hc2. pose proof (supported_2 _ Hcd) as Hc3.
  pose proof (D_WF rd Hrd' cd Hcd) as HD.
  destruct (find _ _) as [r|] eqn:E.
  - apply find_some in E as [Hin Hr]. apply in_map_iff in Hin as (o & <- & Ho). unfold row_of in *.
    destruct (color (wn ws (o - n)) =? 0).
    + assert (Hh : N.of_nat n / 2 < cd). { apply N.div_lt_upper_bound; unfold cd; lia. }
      rewrite (wmul_ok p cd) by auto using pmul_WF. f_equal. rewrite pmul_pmul by (auto; lia).
      assert (Em : ((cd - 2) * (N.of_nat n / 2)) mod cd = 1).
      { destruct Heven as [h Eh]. assert (En : N.of_nat n = 2 * N.of_nat h) by lia.
        unfold cd. rewrite En, (N.mul_comm 2 (N.of_nat h)), N.div_mul by lia.
        replace ((N.of_nat h * 2 + 1 - 2) * N.of_nat h) with (1 + (N.of_nat h - 1) * (N.of_nat h * 2 + 1)) by nia.
        rewrite N.mod_add by lia. apply N.mod_small. lia. }
      rewrite Em. now apply pmul_1.
    + rewrite color_multiple, N.mod_small in Hr by (auto using Hrd'; lia). discriminate.
  - exfalso. destruct Hcol as (i & Hi & Ec). assert (Hin : In (row_of (i + (Q + n))) (map row_of (seq (Q + n) n))).
    { apply in_map, in_seq. lia. }
    apply (find_none _ _ E) in Hin. unfold row_of in Hin. replace (i + (Q + n) - n)%nat with (i + Q)%nat in Hin by lia.
    rewrite Ec in Hin. cbn [N.eqb] in Hin. rewrite color_multiple, N.mod_small in Hin by (auto using Hrd'; lia).
    apply negb_false_iff, N.eqb_eq in Hin. pose proof (supported_2 _ Hcd). lia.
Qed.

Variable x : list N.
Hypothesis Hx : wf_inputs c x.
Notation L := (L rd c x s).
Notation n0 := (num_inputs c).

Lemma all_labels_ok : exists es, all_labels sha p gc (map L (seq 0 n0)) = Ok es /\
  forall i, (i < num_wires c)%nat -> nth_error es i = Some (Some (L i)).
Proof using Hsha Hsam Hwf HI Hgc Hx.
  clear Hproj Hless Hcol Heven Hn1 Hcd cd n Q t.
  assert (Hri := proj2 Hsam). pose proof Hrd' as Hrd. destruct Hgc as (Ec & Hf & Hh). unfold all_labels. rewrite Ec. cbn [gc_circuit].
  pose proof (wf_wires c Hwf) as Hnw.
  destruct (foldM_inv (fun (ws : list (option wire)) i => let* xi := idx (map L (seq 0 n0)) i in set_idx ws i (Some xi))
     (fun q es => length es = num_wires c /\ forall i, (i < q)%nat -> nth_error es i = Some (Some (L i)))
     (seq 0 n0) (repeat None (num_wires c))) as (es & Ees & Hl & Hes).
  - split. apply repeat_length. intros; lia.
  - intros q a es Hq [Hl Hes].
    assert (Hq' : (q < n0)%nat). { rewrite <- (seq_length n0 0). apply nth_error_Some. congruence. }
    assert (a = q). { rewrite (nth_error_nth' _ 0%nat) in Hq by (rewrite seq_length; auto).
      rewrite seq_nth in Hq by auto. inversion Hq; auto. } subst a.
    rewrite (idx_lt _ _ (L 0)) by (rewrite map_length, seq_length; auto). cbn [obind].
    rewrite map_nth, seq_nth by auto. simpl Nat.add.
    rewrite set_idx_lt by lia. eexists; split; [reflexivity|]. split. { now rewrite set_nth_length. }
    intros i Hi. rewrite set_nth_nth_error by lia.
    destruct (Nat.eqb_spec i q) as [->|]; auto. apply Hes; lia.
  - rewrite Ees. cbn [obind]. rewrite seq_length in Hes.
    rewrite (foldM_ext (eval_garbled_gate sha p gc) (eval_garbled_gate sha p (mkGC c (gs_f s) (gs_half s)))).
    2:{ intros [[ws' j0] j1] gt. unfold eval_garbled_gate. destruct (g_kind gt); auto. now rewrite (Hf (g_output gt)). now rewrite (Hh (g_output gt)). }
    destruct (foldM_inv (eval_garbled_gate sha p (mkGC c (gs_f s) (gs_half s))) (EI rd c x s) (gates c) (es, 0%nat, 0%nat)) as (st & Est & HEI).
    + unfold EI. rewrite Nat.add_0_r. auto.
    + intros. eapply eval_gate_ok; eauto.
    + rewrite Est. cbn [obind]. destruct st as [[es' j0] j1]. destruct HEI as (Hl' & _ & _ & Hes').
      cbn [obind]. exists es'. split; [reflexivity|]. intros i Hi. apply Hes'. lia.
Qed.

Notation l0 := (G rd c s (Q + n + n + 1) 0).
Notation l1 := (G rd c s (Q + n + n + 1) 1).
Variable v : nat.
Hypothesis Hv : PGarble.v c x (Q + n + n) = N.of_nat v.

Lemma stolen_labels_ok T : t + 1 = N.of_nat T -> (v < n + 1)%nat /\ stolen_labels sha p gc (Q + n) n (map L (seq 0 n0)) = Ok (rotated n v T l0 l1).
Proof.
  intros HT. destruct Hless as (k & Hk).
  destruct (proj_table k _ (PLess (t + 1)) _ [] Hk eq_refl eq_refl) as (tbl & Et & Ht & S1 & S2 & Hmod & Hwi & Hwo & Hout & Hi).
  cbn [g_output g_domain proj_domain] in *.
  assert (Hri := proj2 Hsam). pose proof Hrd' as Hrd. pose proof (D_WF rd Hrd cd Hcd) as HD. pose proof (supported_2 _ Hcd) as Hc3.
  assert (Hvlt : N.of_nat v < cd). { rewrite <- Hv, <- Hmod. eapply v_lt; eauto. }
  split. { unfold cd in Hvlt. lia. }
  unfold stolen_labels. rewrite stolen_offset_ok. cbn [obind].
  destruct all_labels_ok as (es & -> & Hes). cbn [obind].
  assert (Er : read_init es (Q + n + n) = Ok (L (Q + n + n))) by (eapply read_init_ok; apply Hes; exact Hi). rewrite Er. cbn [obind].
  rewrite Et. cbn [unwrap obind].
  assert (EL : L (Q + n + n) = lab rd cd (wn ws (Q + n + n)) (N.of_nat v)) by (unfold PGarble.L; rewrite Hmod, Hv; reflexivity).
  unfold rotated. rewrite (mapM_Ok _ (fun j => if Nat.ltb ((v + j) mod (n + 1)) T then l1 else l0)); [reflexivity|].
  intros j Hj. apply in_seq in Hj. assert (Hj' : N.of_nat j < cd) by (unfold cd; lia).
  rewrite (wmul_ok p cd) by auto. cbn [obind]. rewrite EL.
  rewrite (wadd_ok p cd) by auto using pmul_WF, lab_WF. cbn [obind].
  set (xx := (N.of_nat v + N.of_nat j) mod cd). assert (Hxx : xx < cd) by (apply N.mod_lt; lia).
  assert (Elab : padd cd (lab rd cd (wn ws (Q + n + n)) (N.of_nat v)) (pmul cd (D cd) (N.of_nat j)) = lab rd cd (wn ws (Q + n + n)) xx).
  { unfold lab. rewrite padd_assoc by auto using pmul_WF. now rewrite pmul_add by auto. }
  rewrite Elab.
  pose proof (decrypt_row sha p rd Hsha Hrd p _ _ _ (PLess (t + 1)) _ _ _ xx S1 S2 eq_refl Hwi Hwo Hxx (fun _ => eq_refl) Ht) as Ed.
  rewrite Ed. f_equal. cbn [proj_val].
  assert (Emo : modulus c (Q + n + n + 1) = 2).
  { destruct (wf_gates c Hwf k _ Hk) as (Eo & _). cbn [g_output] in Eo. rewrite Eo. rewrite (modulus_out ri c Hwf (proj2 Hsam) k _ Hk). reflexivity. }
  assert (Ex : xx = N.of_nat ((v + j) mod (n + 1))).
  { unfold xx, cd. rewrite <- Nat2N.inj_add. change 1 with (N.of_nat 1). rewrite <- Nat2N.inj_add. symmetry. apply Nnat.Nat2N.inj_mod || apply Nat2N.inj_mod. }
  rewrite Ex, HT. unfold G. rewrite Emo.
  destruct (Nat.ltb_spec ((v + j) mod (n + 1)) T), (N.ltb_spec (N.of_nat ((v + j) mod (n + 1))) (N.of_nat T)); auto; lia.
Qed.

Lemma steal_ok tn : t = N.of_nat tn -> (tn < n)%nat -> wval l0 <> wval l1 ->
  steal sha p gc (Q + n) n tn (map L (seq 0 n0)) = Ok (l1, v).
Proof.
  intros Etn Htn Hne. destruct (stolen_labels_ok (tn + 1)) as [Hvl E]; [lia|]. unfold steal. rewrite E. cbn [obind].
  rewrite find_l1 by (auto; lia). cbn [unwrap obind].
  destruct (find_start n v (tn + 1) l0 l1 Hne Hvl) as (j & Ej & Ev); [lia|]. rewrite Ej. cbn [unwrap obind]. now rewrite Ev.
Qed.
End Steal.
