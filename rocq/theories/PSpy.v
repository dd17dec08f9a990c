(** The reading of SpecSpy succeeds. *)
From Coq Require Import List NArith Bool Arith Lia Permutation.
From Verif Require Import Base MUtil MWires MCircuit MGarble MBincode MProc MFpake SpecUtil SpecWires SpecCircuit SpecGarble SpecBincode SpecSteal SpecSpy.
From Verif Require Import PBase PUtil PWires PWiresSpec PGarble PGarbleSpec PHalf PLeak PCircuit PCircuit2 PSteal PSteal2.
Import ListNotations.
Open Scope N_scope.

Lemma colour_of_color m w : supported m -> WF m w -> colour_of m w = color w.
Proof.
  intros Hm Hw. rewrite (color_last m) by auto. unfold last_digit, colour_of. rewrite digit_dg; [reflexivity|exact Hw|].
  unfold ndigits. destruct (wide m); lia.
Qed.

(** ** Rows of comparisons *)
Section Less.
Variable sha256 : bytes -> bytes.
Variable p : profile.
Variable rd : N -> bytes.
Hypothesis Hsha : hash32 sha256.
Hypothesis Hrd : forall m, supported m -> valid_sample m (rd m).
Notation D := (D rd).

(** Any other colour than 0: row 0 is 0xff...ff. *)
Lemma row0_less_ones out m t wi w tbl : supported m -> WF m wi -> color wi <> 0 ->
  table_ok sha256 p rd out m 2 (PLess t) wi w tbl ->
  exists r, nth_error tbl 0 = Some r /\ WF 2 r /\ forall i, (i < 32)%nat -> nth i (wval r) 0 = 255.
Proof.
  intros Hm Hwi Hc (Hl & Ht & Hz). pose proof (color_lt m wi Hm Hwi) as Hlt. pose proof sup2 as S2.
  specialize (Ht (m - color wi) ltac:(lia)). replace (color wi + (m - color wi)) with (1 * m) in Ht by lia.
  rewrite N.mod_mul in Ht by lia. change (N.to_nat 0) with 0%nat in Ht. pose proof (D_WF rd Hrd 2 S2) as HD.
  unfold zero_of in Hz. rewrite (lab_minus rd Hrd) in Ht by auto.
  set (h := hw sha256 p out (psub m wi (pmul m (D m) (color wi))) 2) in *. assert (Hh : WF 2 h) by (now apply hw_WF with (rd := rd)).
  set (e := pmul 2 (D 2) _) in *. assert (He : WF 2 e) by (unfold e; auto using pmul_WF).
  assert (Hw : WF 2 w) by (rewrite Hz; auto using pneg_WF, padd_WF).
  eexists. split; [exact Ht|]. split; [auto using padd_WF|].
  intros i Hi. rewrite !nth_padd2 by auto using padd_WF. rewrite Hz, pneg2_nth by auto using padd_WF. rewrite nth_padd2 by auto.
  generalize (nth i (wval h) 0) (nth i (wval e) 0). intros a b.
  apply N.bits_inj. intros k. rewrite !N.lxor_spec. destruct (N.testbit a k), (N.testbit b k), (N.testbit 255 k); reflexivity.
Qed.
End Less.

Section Spy.
Variable sha : bytes -> bytes.
Variable p : profile.
Variable rd : N -> bytes.
Variable ri : nat -> bytes.
Variable c : circuit.
Hypothesis Hsha : hash32 sha.
Hypothesis Hsam : good_samples c rd ri.
Hypothesis Hwf : wf_circuit c.
Variable s : gstate.
Hypothesis HI : Inv sha p rd c (length (gates c)) s.
Variable gc : garbled.
Hypothesis Hgc : same_garbled gc (mkGC c (gs_f s) (gs_half s)).
Variable x : list N.
Hypothesis Hx : wf_inputs c x.
Notation ws := (gs_wires s).
Notation D := (D rd).
Notation L := (L rd c x s).
Notation V := (PGarble.v c x).

Lemma row_colour k g n i l : nth_error (gates c) k = Some g -> g_kind g = GProj (PMap n) -> g_inputs g = i :: l ->
  n <> 2 -> g_domain g mod n <> 0 ->
  exists r, first_row gc (g_output g) = Ok r /\ (supported n /\ WF n r) /\ (color r <> 0 <-> color (wn ws i) = 0).
Proof.
  intros Hk Ek Ei H2 Hm0.
  destruct (proj_table sha p rd ri c Hsam Hwf s HI gc Hgc k g (PMap n) i l Hk Ek Ei) as (tbl & Et & T & S1 & S2 & Hmod & Hwi & _).
  cbn [proj_domain] in *. pose proof (Hrd' rd ri c Hsam) as Hrd. pose proof (supported_2 _ S2) as Hn2.
  unfold first_row. rewrite Et. cbn [unwrap obind]. unfold idx.
  destruct (N.eq_dec (color (wn ws i)) 0) as [E|E].
  - rewrite (row0_offset sha p rd Hsha Hrd _ _ _ _ _ _ S1 S2 H2 Hwi E T). cbn [unwrap]. eexists. split; [reflexivity|]. split; [auto using pmul_WF, D_WF|].
    rewrite color_multiple by auto. pose proof (N.mod_lt (g_domain g) n ltac:(lia)).
    rewrite N.mod_mod by lia. rewrite N.mod_small by lia. split; [auto|lia].
  - rewrite (row0_zero sha p rd Hsha Hrd _ _ _ (PMap n) _ _ _ S1 S2 H2 eq_refl Hwi E T). cbn [unwrap]. eexists. split; [reflexivity|]. split; [auto using pmul_WF, D_WF|].
    rewrite color_multiple by auto. rewrite N.mod_0_l by lia. split; [contradiction|contradiction].
Qed.
Lemma row_colour_less k g t i l : nth_error (gates c) k = Some g -> g_kind g = GProj (PLess t) -> g_inputs g = i :: l ->
  0 < t <= g_domain g ->
  exists r, first_row gc (g_output g) = Ok r /\ WF 2 r /\ (color r = 0 <-> color (wn ws i) = 0).
Proof.
  intros Hk Ek Ei Htm.
  destruct (proj_table sha p rd ri c Hsam Hwf s HI gc Hgc k g (PLess t) i l Hk Ek Ei) as (tbl & Et & T & S1 & S2 & Hmod & Hwi & Hwo & _).
  cbn [proj_domain] in *. pose proof (Hrd' rd ri c Hsam) as Hrd.
  unfold first_row. rewrite Et. cbn [unwrap obind]. unfold idx.
  pose proof (D_delta rd Hrd 2 sup2) as [HD E1].
  destruct (N.eq_dec (color (wn ws i)) 0) as [E|E].
  - destruct (row0_less sha p rd Hsha Hrd _ _ _ _ _ _ 31 S1 Hwi E Htm ltac:(lia) T) as (r & Er & Hr). rewrite Er. cbn [unwrap]. exists r. split; [reflexivity|].
    assert (Hrw : WF 2 r). { destruct T as (Hl & Ht & _). pose proof (supported_2 _ S1). specialize (Ht 0 ltac:(lia)).
      rewrite E, N.add_0_r, N.mod_small in Ht by lia. change (N.to_nat 0) with 0%nat in Ht. rewrite Er in Ht. inversion Ht.
      apply padd_WF; auto using sup2, pmul_WF. apply padd_WF; auto using sup2. apply (hw_WF sha p rd Hsha Hrd). apply sup2. }
    split; [exact Hrw|]. split; [auto|]. intros _.
    rewrite (color_last 2) by auto using sup2. unfold last_digit. change (ndigits 2 - 1)%nat with 31%nat. change (dg 2 (wval r)) with (wval r).
    unfold last_digit in E1. change (ndigits 2 - 1)%nat with 31%nat in E1. change (dg 2 (wval (D 2))) with (wval (D 2)) in E1.
    assert (Ex : nth 31 (wval r) 0 = N.lxor 255 (nth 31 (wval (D 2)) 0)).
    { rewrite <- Hr, N.lxor_assoc, N.lxor_nilpotent. now rewrite N.lxor_0_r. }
    rewrite Ex, lxor_mod2. change 255 with (1 + 127 * 2). rewrite <- N.add_mod_idemp_r by lia. rewrite E1. reflexivity.
  - destruct (row0_less_ones sha p rd Hsha Hrd _ _ _ _ _ _ S1 Hwi E T) as (r & Er & Hrw & Hr). rewrite Er. cbn [unwrap]. exists r. split; [reflexivity|]. split; [exact Hrw|].
    rewrite (color_last 2) by auto using sup2. unfold last_digit. change (ndigits 2 - 1)%nat with 31%nat. change (dg 2 (wval r)) with (wval r).
    rewrite Hr by lia. split; [discriminate|contradiction].
Qed.

Lemma label_colour i : (i < num_wires c)%nat -> supported (modulus c i) ->
  color (L i) = (color (wn ws i) + V i) mod modulus c i /\ (color (L i) = V i <-> color (wn ws i) = 0).
Proof.
  intros Hi Hs. pose proof (Hrd' rd ri c Hsam) as Hrd.
  assert (HW : WF (modulus c i) (wn ws i)) by (eapply ws_WF; eauto).
  assert (Hv : V i < modulus c i) by (eapply v_lt; eauto; apply Hsam).
  assert (E : color (L i) = (color (wn ws i) + V i) mod modulus c i) by (unfold PGarble.L, lab; apply color_shift; auto using D_delta).
  split; [exact E|]. rewrite E. pose proof (color_lt _ _ Hs HW) as Hc. pose proof (supported_2 _ Hs). split.
  - intros Q. destruct (N.lt_ge_cases (color (wn ws i) + V i) (modulus c i)).
    + rewrite N.mod_small in Q by auto. lia.
    + exfalso. replace (color (wn ws i) + V i) with (color (wn ws i) + V i - modulus c i + 1 * modulus c i) in Q by lia.
      rewrite N.mod_add in Q by lia. rewrite N.mod_small in Q by lia. lia.
  - intros ->. rewrite N.add_0_l. now apply N.mod_small.
Qed.

Lemma gate_input k g kk i l : nth_error (gates c) k = Some g -> g_kind g = GProj kk -> g_inputs g = i :: l ->
  (i < num_wires c)%nat /\ modulus c i = g_domain g /\ supported (g_domain g).
Proof.
  intros Hk Ek Ei. destruct (proj_table sha p rd ri c Hsam Hwf s HI gc Hgc k g kk i l Hk Ek Ei) as (tbl & _ & _ & S1 & _ & Hmod & _ & _ & _ & Hi). auto.
Qed.

Lemma peek_ok k g n i l r : nth_error (gates c) k = Some g -> g_kind g = GProj (PMap n) -> g_inputs g = i :: l ->
  n <> 2 -> g_domain g = 2 -> 2 mod n <> 0 -> first_row gc (g_output g) = Ok r -> peek (L i) r = (V i =? 1).
Proof.
  intros Hk Ek Ei H2 Hd Hm0 Er. destruct (gate_input k g (PMap n) i l Hk Ek Ei) as (Hi & Hmod & Hs).
  destruct (row_colour k g n i l Hk Ek Ei H2) as (r' & Er' & _ & Hr); [now rewrite Hd|]. rewrite Er in Er'. inversion Er'; subst r'.
  destruct (label_colour i Hi) as [Hl _]; [now rewrite Hmod|]. rewrite Hmod, Hd in Hl.
  assert (Hv : V i < 2). { rewrite <- Hd, <- Hmod. eapply v_lt; eauto; apply Hsam. }
  assert (Hc : color (wn ws i) < 2).
  { rewrite <- Hd. apply color_lt; auto. rewrite <- Hmod. eapply ws_WF; eauto. }
  unfold peek. rewrite Hl.
  assert (color (wn ws i) = 0 \/ color (wn ws i) = 1) as [E|E] by lia; assert (V i = 0 \/ V i = 1) as [F|F] by lia;
    rewrite E, F in *; destruct (N.eqb_spec (color r) 0) as [G|G]; try reflexivity; exfalso; try (apply Hr in G; lia); try (apply (proj2 Hr); auto).
Qed.

Section Block.
Variables (Q n : nat).
Hypothesis Hn1 : (2 <= n)%nat.
Hypothesis Hproj : forall i, (i < n)%nat -> exists k, nth_error (gates c) k = Some (mkGate (i + (Q + n)) 2 [i + Q]%nat (GProj (PMap (N.of_nat n + 1)))).
Lemma peek_all_ok bits : length bits = n -> (forall i, (i < n)%nat -> V (i + Q) = if nth i bits false then 1 else 0) ->
  peek_all sha p gc Q n (map L (seq 0 (num_inputs c))) = Ok bits.
Proof.
  intros Lb Hb. unfold peek_all.
  destruct (all_labels_ok sha p rd ri c Hsha Hsam Hwf s HI gc Hgc x Hx) as (es & -> & Hes). cbn [obind].
  rewrite (mapM_Ok _ (fun i => nth i bits false)).
  { f_equal. apply (nth_ext _ _ false false). { now rewrite map_length, seq_length. }
    intros i Hi. rewrite map_length, seq_length in Hi. rewrite (PCircuit.nth_map_seq (fun i => nth i bits false)) by auto. reflexivity. }
  intros i Hi. apply in_seq in Hi. destruct (Hproj i) as (k & Hk); [lia|].
  destruct (gate_input k _ _ _ _ Hk eq_refl eq_refl) as (Hi' & _ & _).
  assert (Er : read_init es (i + Q) = Ok (L (i + Q))) by (eapply read_init_ok; apply Hes; exact Hi'). rewrite Er. cbn [obind].
  assert (H2 : 2 mod (N.of_nat n + 1) <> 0) by (rewrite N.mod_small; lia).
  destruct (row_colour k _ _ _ _ Hk eq_refl eq_refl) as (r & Efr & _ & _); [lia|exact H2|]. cbn [g_output] in Efr. rewrite Efr. cbn [obind].
  rewrite (peek_ok k _ _ _ _ r Hk eq_refl eq_refl) by (auto; lia). rewrite Hb by lia. now destruct (nth i bits false).
Qed.
End Block.
End Spy.

Section Values.
Variable sha : bytes -> bytes.
Variable p : profile.
Variable rd : N -> bytes.
Variable ri : nat -> bytes.
Variable c : circuit.
Hypothesis Hsha : hash32 sha.
Hypothesis Hsam : good_samples c rd ri.
Hypothesis Hwf : wf_circuit c.
Variable x : list N.
Hypothesis Hx : wf_inputs c x.
Variables (gc : garbled) (ek : encoding_key) (dk : decoding_key) (xs : list wire).
Hypothesis Eg : garble sha p rd ri c = Ok (gc, ek, dk).
Hypothesis Ex : encode p ek x = Ok xs.

Lemma values_state : exists s, Inv sha p rd c (length (gates c)) s /\ same_garbled gc (mkGC c (gs_f s) (gs_half s)) /\
  xs = map (L rd c x s) (seq 0 (num_inputs c)).
Proof.
  destruct (garble_facts sha p rd ri c Hsha Hsam Hwf) as (gc' & ek' & dk' & s & Eg' & Er & Egc & _ & HI & Hek & Hdl).
  rewrite Eg in Eg'. inversion Eg'; subst gc' ek' dk'. exists s. split; [exact HI|]. split. { repeat split; auto. }
  assert (Q : encode p ek x = Ok (map (L rd c x s) (seq 0 (num_inputs c)))).
  { assert (Hri := proj2 Hsam). pose proof (Hrd' rd ri c Hsam) as Hrd. eapply encode_ok; eauto. }
  congruence.
Qed.

Lemma values_read : exists ws, all_labels sha p gc xs = Ok ws /\
  (forall k g n i l, nth_error (gates c) k = Some g -> g_kind g = GProj (PMap n) -> g_inputs g = i :: l ->
    n <> 2 -> g_domain g mod n <> 0 ->
    exists w r, nth_error ws i = Some (Some w) /\ first_row gc (g_output g) = Ok r /\
      (colour_of n r <> 0 <-> colour_of (g_domain g) w = nth i (circuit_values c x) 0)) /\
  (forall k g t i l, nth_error (gates c) k = Some g -> g_kind g = GProj (PLess t) -> g_inputs g = i :: l ->
    0 < t <= g_domain g ->
    exists w r, nth_error ws i = Some (Some w) /\ first_row gc (g_output g) = Ok r /\
      (colour_of 2 r = 0 <-> colour_of (g_domain g) w = nth i (circuit_values c x) 0)).
Proof.
  destruct values_state as (s & HI & Same & ->).
  destruct (all_labels_ok sha p rd ri c Hsha Hsam Hwf s HI gc Same x Hx) as (es & E & Hes). exists es. split; [exact E|].
  assert (Hl : forall k g kk i l, nth_error (gates c) k = Some g -> g_kind g = GProj kk -> g_inputs g = i :: l ->
    nth_error es i = Some (Some (L rd c x s i)) /\
      (colour_of (g_domain g) (L rd c x s i) = nth i (circuit_values c x) 0 <-> color (wn (gs_wires s) i) = 0)).
  { intros k g kk i l Hk Ek Ei. destruct (gate_input sha p rd ri c Hsam Hwf s HI gc Same k g kk i l Hk Ek Ei) as (Hi & Hmod & Hs).
    split; [now apply Hes|]. destruct (label_colour sha p rd ri c Hsam Hwf s HI x Hx i Hi) as [_ Hc]; [now rewrite Hmod|].
    rewrite colour_of_color; [exact Hc|exact Hs|]. rewrite <- Hmod. assert (Hri := proj2 Hsam). pose proof (Hrd' rd ri c Hsam) as Hrd. eapply L_WF; eauto. }
  split.
  - intros k g n i l Hk Ek Ei H2 Hm. destruct (Hl k g (PMap n) i l Hk Ek Ei) as [Hw Hc].
    destruct (row_colour sha p rd ri c Hsha Hsam Hwf s HI gc Same k g n i l Hk Ek Ei H2 Hm) as (r & Er & (Sn & Wr) & Hr).
    exists (L rd c x s i), r. split; [exact Hw|]. split; [exact Er|]. rewrite Hc, colour_of_color by auto. exact Hr.
  - intros k g t i l Hk Ek Ei Ht. destruct (Hl k g (PLess t) i l Hk Ek Ei) as [Hw Hc].
    destruct (row_colour_less sha p rd ri c Hsha Hsam Hwf s HI gc Same k g t i l Hk Ek Ei Ht) as (r & Er & Wr & Hr).
    exists (L rd c x s i), r. split; [exact Hw|]. split; [exact Er|]. rewrite Hc, colour_of_color by auto using sup2. exact Hr.
Qed.
End Values.
