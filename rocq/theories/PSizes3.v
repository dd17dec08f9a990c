(** The size of the garbled circuit of the third version (C107). *)
From Coq Require Import List NArith Bool Arith Lia Permutation.
From Verif Require Import Base MUtil MWires MCircuit MGarble MPar MBincode MProc MOt MApricot MMany MFpake MChannel MMain.
From Verif Require Import SpecWires SpecCircuit SpecGarble SpecBincode SpecOt SpecApricot SpecMany SpecMfpake SpecFpake SpecWhole SpecSizes SpecSizes3.
From Verif Require Import PBase PUtil PWires PWiresSpec PGarble PGarbleSpec PBinKey PBincode PCircuit PHalf PFpake PPar PProc PEnds PHang PBounds PWhole PSizes PSizes2 PCircuit2.
Import ListNotations.
Open Scope N_scope.

Lemma circuit_size2 n t : length (enc_circuit (circ2 n t)) = (98 + 96 * n)%nat.
Proof.
  unfold enc_circuit. rewrite !app_length, !len_usize. unfold enc_vec at 1. rewrite app_length, len_usize.
  rewrite (vec_size enc_u16 2) by (apply Forall_forall; intros; apply len_uint).
  unfold circ2. cbn [gates input_domains]. rewrite repeat_length. unfold tail_gates, xors2. rewrite !flat_map_app, !app_length.
  rewrite (flat_size enc_gate 46) by (apply Forall_forall; intros g Hg; apply in_map_iff in Hg as (i & <- & _); rewrite gate_size; reflexivity).
  rewrite (flat_size enc_gate 36) by (apply Forall_forall; intros g Hg; apply in_map_iff in Hg as (i & <- & _); rewrite gate_size; reflexivity).
  cbn [flat_map]. rewrite app_nil_r, app_length, !gate_size. cbn [g_inputs g_kind length enc_kind enc_proj]. rewrite !map_length, !seq_length.
  unfold enc_tag, enc_u16. rewrite !app_length, !len_uint. lia.
Qed.

Lemma circ2_projs n t o : proj_out (gates (circ2 n t)) o <-> In o (seq (4 * n) n ++ [5 * n + 1]%nat).
Proof.
  unfold proj_out, circ2, tail_gates, xors2. cbn [gates]. rewrite in_app_iff, in_seq. cbn [In]. split.
  - intros (g & k & Hg & <- & Ek). apply in_app_iff in Hg as [Hg|Hg]; [apply in_map_iff in Hg as (i & <- & _); discriminate|].
    apply in_app_iff in Hg as [Hg|[<-|[<-|[]]]]; [|discriminate|cbn [g_output]; right; left; lia].
    apply in_map_iff in Hg as (i & <- & Hi). apply in_seq in Hi. cbn [g_output]. left. lia.
  - intros [H|[<-|[]]].
    + exists (mkGate o 2 [o - n]%nat (GProj (PMap (cd1 n)))), (PMap (cd1 n)). split; [|split; reflexivity].
      apply in_app_iff. right. apply in_app_iff. left. apply in_map_iff. exists (o - 4 * n)%nat. split; [|apply in_seq; lia].
      f_equal; [lia|]. f_equal. lia.
    + exists (mkGate (5 * n + 1) (cd1 n) [5 * n]%nat (GProj (PLess (t + 1)))), (PLess (t + 1)). split; [|split; reflexivity].
      apply in_app_iff. right. apply in_app_iff. right. right. left. f_equal; [lia|]. f_equal. lia.
Qed.
Section Size2.
Variable sha : bytes -> bytes.
Variable p : profile.
Variable g : garbling.
Hypothesis Hh : hash32 sha.
Hypothesis Hg : garbling_ok g.
Variables (l : nat) (t : N).
Hypothesis Hl : good_length l.
Hypothesis Ht : t <= 65534.
Let n := (l * 8)%nat.
Let c := circ2 n t.
Definition table_size2 (o : nat) : nat := if Nat.eqb o (5 * n + 1) then (16 + (n + 1) * 36)%nat else (16 + 2 * count_label l)%nat.

Lemma tables_size2 gc ek dk zs l0 l1 : half_key sha p (g_rd g) (g_ri g) c gc ek dk zs l0 l1 ->
  length (enc_map enc_wires (gc_f gc)) = (24 + n * (16 + 2 * count_label l) + (n + 1) * 36)%nat /\ gc_half gc = [].
Proof.
  intros H. destruct (good_supported l Hl) as (Hsup & Hn & Hn1). fold n in Hsup, Hn, Hn1.
  assert (Hwf : wf_circuit c) by (apply circ2_wf; auto).
  destruct (hk_state _ _ _ _ _ _ _ _ _ _ _ H) as (s & Er & -> & HI & _). cbn [gc_f gc_half].
  assert (Hsam : good_samples c (g_rd g) (g_ri g)).
  { apply samples_ok; [|exact Hg]. unfold c, circ2. cbn [input_domains]. apply Forall_forall. intros m Hm. now apply repeat_spec in Hm. }
  destruct (garble_run_keys sha p (g_rd g) (g_ri g) c ek _ s Er) as (N1 & N2 & K1 & K2 & _ & _).
  destruct HI as (_ & HW & _ & _ & Hgood & _). pose proof (wf_wires c Hwf) as Hnw.
  assert (HWw : forall i, (i < num_wires c)%nat -> WF (modulus c i) (wn (gs_wires s) i)) by (intros; apply HW; lia).
  assert (T : forall o k gt, In gt (gates c) -> g_output gt = o -> g_kind gt = GProj k ->
     exists tbl, alookup Nat.eqb o (gs_f s) = Some tbl /\ length tbl = N.to_nat (g_domain gt) /\ Forall (WF (proj_domain k)) tbl).
  { intros o k gt Hin Eo Ek. apply In_nth_error in Hin as [j Hj]. assert (Hjl : (j < length (gates c))%nat) by (apply nth_error_Some; congruence).
    specialize (Hgood j gt Hjl Hj). unfold good_gate in Hgood. rewrite Ek in Hgood.
    destruct (wf_gates c Hwf j gt Hj) as (Eout & Hins & Hty & Hs). unfold gate_typed in Hty. rewrite Ek in Hty.
    destruct Hty as (i & l' & Ei & Hmod & Hpd). destruct (Hgood i l' Ei) as (tbl & Et & Htbl).
    assert (Hi : (i < g_output gt)%nat) by (rewrite Ei in Hins; now inversion Hins).
    exists tbl. rewrite <- Eo. split; [exact Et|]. split; [apply Htbl|].
    eapply (table_WF sha p (g_rd g)); [exact Hh|apply Hg|exact Hs|exact Hpd| | |exact Htbl].
    - rewrite <- Hmod. apply HWw. lia.
    - assert (Em : modulus c (g_output gt) = proj_domain k).
      { unfold modulus, wire_moduli. rewrite app_nth2 by (rewrite (wf_indoms c Hwf); lia).
        rewrite (wf_indoms c Hwf), Eout. replace (num_inputs c + j - num_inputs c)%nat with j by lia.
        erewrite nth_error_nth; [|apply map_nth_error; exact Hj]. unfold output_domain. rewrite Ek. reflexivity. }
      rewrite <- Em. apply HWw. lia. }
  split.
  2:{ destruct (gs_half s) as [|[o x] r]; [reflexivity|]. exfalso. destruct (K2 o) as (gt & Hin & _ & Ek); [now left|].
      unfold c, circ2, tail_gates, xors2 in Hin. cbn [gates] in Hin. rewrite !in_app_iff, !in_map_iff in Hin.
      destruct Hin as [(i & <- & _)|[(i & <- & _)|[<-|[<-|[]]]]]; discriminate. }
  assert (P : Permutation (keys (gs_f s)) ((5 * n + 1)%nat :: seq (4 * n) n)).
  { apply NoDup_Permutation; [exact N1|constructor; [rewrite in_seq; lia|apply seq_NoDup]|]. intros o. split.
    - intros Ho. apply K1 in Ho. apply circ2_projs in Ho. apply in_app_iff in Ho. cbn [In] in *. tauto.
    - intros Ho. assert (Hp : proj_out (gates c) o) by (apply circ2_projs, in_app_iff; cbn [In] in *; tauto).
      destruct Hp as (gt & k & Hin & Eo & Ek). destruct (T o k gt Hin Eo Ek) as (tbl & Et & _).
      apply (alookup_in (gs_f s) N1) in Et. apply in_map_iff. now exists (o, tbl). }
  unfold enc_map, enc_vec. rewrite app_length, len_usize.
  rewrite (flat_map_sum _ (fun kv : nat * list wire => table_size2 (fst kv))).
  - rewrite <- (map_map fst table_size2). fold (keys (gs_f s)). rewrite (sum_perm _ _ _ P).
    cbn [map]. unfold list_sum at 1. cbn [fold_right]. fold (list_sum (map table_size2 (seq (4 * n) n))).
    rewrite (sum_const _ (16 + 2 * count_label l)).
    + rewrite seq_length. unfold table_size2. rewrite Nat.eqb_refl. lia.
    + intros o Ho. apply in_seq in Ho. unfold table_size2. destruct (Nat.eqb_spec o (5 * n + 1)); [lia|reflexivity].
  - intros [o tbl] Hin. cbn [fst]. unfold enc_entry. cbn [fst snd]. rewrite app_length, len_usize.
    pose proof (proj2 (alookup_in (gs_f s) N1 o tbl) Hin) as El.
    assert (Ho : proj_out (gates c) o) by (apply K1, in_map_iff; now exists (o, tbl)).
    destruct Ho as (gt & k & Hgt & Eo & Ek). destruct (T o k gt Hgt Eo Ek) as (tbl' & Et & Lt & Ft).
    rewrite El in Et. injection Et as <-. rewrite (wires_size _ _ Ft), Lt. unfold table_size2.
    unfold c, circ2, tail_gates, xors2 in Hgt. cbn [gates] in Hgt. rewrite !in_app_iff, !in_map_iff in Hgt.
    destruct Hgt as [(i & <- & _)|[(i & <- & Hi)|[<-|[<-|[]]]]]; try discriminate; cbn [g_kind g_output g_domain] in *; injection Ek as <-; subst o.
    + apply in_seq in Hi. destruct (Nat.eqb_spec (i + (3 * n + n)) (5 * n + 1)); [lia|]. cbn [proj_domain].
      unfold n. rewrite label_size_count by exact Hl. change (N.to_nat 2) with 2%nat. lia.
    + destruct (Nat.eqb_spec (3 * n + n + n + 1) (5 * n + 1)); [|lia]. cbn [proj_domain]. rewrite label_size2. unfold cd1. lia.
Qed.
Lemma garbled_size3_ok gc ek dk zs l0 l1 : half_key sha p (g_rd g) (g_ri g) c gc ek dk zs l0 l1 ->
  length (enc_garbled (g_order g gc)) = garbled_size3 l.
Proof.
  intros H. destruct (tables_size2 _ _ _ _ _ _ H) as [Lf Lh]. destruct Hg as (_ & _ & Ho). destruct (Ho gc) as (Ec & Pf & Ph).
  unfold enc_garbled. rewrite !app_length, Ec, (hk_circuit _ _ _ _ _ _ _ _ _ _ _ H). unfold c. rewrite circuit_size2.
  rewrite Lh in Ph. apply Permutation_sym, Permutation_nil in Ph. rewrite Ph.
  assert (E : length (enc_map enc_wires (gc_f (g_order g gc))) = length (enc_map enc_wires (gc_f gc))).
  { unfold enc_map, enc_vec. rewrite !app_length, !len_usize. f_equal. apply Permutation_length. now apply Permutation_flat_map. }
  rewrite E, Lf. unfold enc_map, enc_vec. cbn [flat_map]. rewrite app_nil_r, len_usize. unfold garbled_size3, n. lia.
Qed.
End Size2.

