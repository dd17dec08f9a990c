(** What row 0 of a projection table is. *)
From Coq Require Import List NArith Bool Arith Lia.
From Verif Require Import Base MUtil MWires MCircuit MGarble SpecWires SpecCircuit SpecGarble PBase PWires PWiresSpec PGarble PGarbleSpec.
Import ListNotations.
Open Scope N_scope.

(** ** Components *)
Section Digits.
Variable m : N.
Hypothesis Hs : supported m.
Lemma digit_padd a b i : WF m a -> WF m b -> (i < ndigits m)%nat -> digit m (padd m a b) i = dplus m (digit m a i) (digit m b i).
Proof.
  intros Ha Hb Hi. rewrite !digit_dg by auto using padd_WF. rewrite padd_dg by auto.
  apply nth_zipWith. rewrite dg_length; auto. apply Ha. rewrite !dg_length; auto. apply Hb. apply Ha.
Qed.
Lemma digit_pmul a k i : WF m a -> (i < ndigits m)%nat -> digit m (pmul m a k) i = dtimes m (digit m a i) k.
Proof.
  intros Ha Hi. rewrite !digit_dg by auto using pmul_WF. rewrite pmul_dg by auto.
  rewrite nth_indep with (d' := dtimes m 0 k). 2:{ rewrite map_length, dg_length; auto. apply Ha. }
  apply (map_nth (fun x => dtimes m x k)).
Qed.
Lemma pmul_add0 d a b : WF m d -> a < m -> b < m -> (a + b) mod m = 0 -> padd m (pmul m d a) (pmul m d b) = pmul m d 0.
Proof. intros Hd Ha Hb E. rewrite pmul_add by auto. now rewrite E. Qed.
End Digits.

Section Leak.
Variable sha256 : bytes -> bytes.
Variable p : profile.
Variable rd : N -> bytes.
Hypothesis Hsha : hash32 sha256.
Hypothesis Hrd : forall m, supported m -> valid_sample m (rd m).
Notation D := (D rd).
Notation hw := (hw sha256 p).
Notation lab := (lab rd).
Notation table_ok := (table_ok sha256 p rd).

Lemma hw_WF out w n : supported n -> WF n (hw out w n).
Proof. intros Hn. destruct (hash_wire_ok sha256 p Hsha out w (D n) n Hn (D_WF rd Hrd n Hn)); auto. Qed.

Lemma neg_cancel n h e : supported n -> n <> 2 -> WF n h -> WF n e ->
  padd n e (padd n h (pneg n (padd n h e))) = pmul n (D n) 0.
Proof.
  intros Hn H2 Hh He. pose proof (D_WF rd Hrd n Hn) as HD.
  assert (Hhe : WF n (padd n h e)) by auto using padd_WF. assert (Hng : WF n (pneg n (padd n h e))) by auto using pneg_WF.
  assert (HZ : WF n (pmul n (D n) 0)) by auto using pmul_WF.
  rewrite <- (padd_assoc n Hn e h) by auto. rewrite (padd_comm n Hn e h) by auto.
  pose proof (padd_pneg n (padd n h e) (pmul n (D n) 0) Hn H2 Hhe HZ) as E.
  rewrite (padd_comm n Hn (pmul n (D n) 0)) in E by auto. rewrite padd_pmul_0 in E by auto. exact E.
Qed.

(** Colour 0: row 0 is a public multiple of the offset. *)
Lemma row0_offset out m n wi w tbl : supported m -> supported n -> n <> 2 -> WF m wi -> color wi = 0 ->
  table_ok out m n (PMap n) wi w tbl -> nth_error tbl 0 = Some (pmul n (D n) ((n - m mod n) mod n)).
Proof.
  intros Hm Hn H2 Hwi Hc (Hl & Ht & Hz). pose proof (supported_2 _ Hm). pose proof (supported_2 _ Hn).
  specialize (Ht 0 ltac:(lia)). rewrite Hc, N.add_0_r, N.mod_small in Ht by lia. change (N.to_nat 0) with 0%nat in Ht. rewrite Ht. f_equal.
  unfold zero_of in Hz. rewrite Hc, N.sub_0_r in Hz. cbn [proj_val] in *. rewrite (N.mod_small 0) by lia.
  pose proof (D_WF rd Hrd m Hm) as HDm. pose proof (D_WF rd Hrd n Hn) as HD.
  assert (El : psub m wi (pmul m (D m) 0) = lab m wi 0).
  { unfold PGarble.lab. rewrite padd_pmul_0 by auto. rewrite <- (padd_pmul_0 m Hm wi (D m)) at 1 by auto.
    rewrite (padd_comm m Hm) by auto using pmul_WF. apply psub_padd; auto using pmul_WF. }
  rewrite El in Hz. set (h := hw out (lab m wi 0) n) in *. assert (Hh : WF n h) by now apply hw_WF.
  pose proof (N.mod_lt m n ltac:(lia)) as Hlt.
  set (e := pmul n (D n) (m mod n)) in *. assert (He : WF n e) by (unfold e; auto using pmul_WF).
  assert (Hw : WF n w) by (rewrite Hz; auto using pneg_WF, padd_WF).
  rewrite padd_pmul_0 by auto using padd_WF.
  apply (padd_cancel_l n Hn e); auto using padd_WF, pmul_WF.
  rewrite Hz. rewrite neg_cancel by auto. symmetry. unfold e. apply pmul_add0; auto.
  { apply N.mod_lt. lia. }
  rewrite N.add_mod_idemp_r by lia. replace (m mod n + (n - m mod n)) with (1 * n) by lia. apply N.mod_mul. lia.
Qed.

Lemma lab_minus m wi : supported m -> WF m wi -> color wi <> 0 -> lab m wi (m - color wi) = psub m wi (pmul m (D m) (color wi)).
Proof.
  intros Hm Hwi Hc. pose proof (color_lt m wi Hm Hwi) as Hlt. pose proof (D_WF rd Hrd m Hm) as HD.
  set (cD := pmul m (D m) (color wi)). assert (HcD : WF m cD) by (unfold cD; auto using pmul_WF).
  assert (HP : WF m (psub m wi cD)) by auto using psub_WF.
  unfold PGarble.lab. rewrite <- (padd_psub m Hm wi cD) at 1 by auto.
  rewrite padd_assoc by auto using pmul_WF. unfold cD at 2. rewrite pmul_add0; [|auto..|].
  - apply padd_pmul_0; auto.
  - lia.
  - replace (color wi + (m - color wi)) with (1 * m) by lia. apply N.mod_mul. lia.
Qed.

(** Any other colour: row 0 is zero. *)
Lemma row0_zero out m n k wi w tbl : supported m -> supported n -> n <> 2 -> n = proj_domain k -> WF m wi -> color wi <> 0 ->
  table_ok out m n k wi w tbl -> nth_error tbl 0 = Some (pmul n (D n) 0).
Proof.
  intros Hm Hn H2 Hk Hwi Hc (Hl & Ht & Hz). pose proof (color_lt m wi Hm Hwi) as Hlt.
  specialize (Ht (m - color wi) ltac:(lia)). replace (color wi + (m - color wi)) with (1 * m) in Ht by lia.
  rewrite N.mod_mul in Ht by lia. change (N.to_nat 0) with 0%nat in Ht. rewrite Ht. f_equal.
  pose proof (D_WF rd Hrd n Hn) as HD. unfold zero_of in Hz. rewrite lab_minus by auto.
  set (h := hw out (psub m wi (pmul m (D m) (color wi))) n) in *. assert (Hh : WF n h) by now apply hw_WF.
  clear Ht. set (e := pmul n (D n) _) in *. assert (He : WF n e) by (unfold e; auto using pmul_WF).
  assert (Hw : WF n w) by (rewrite Hz; auto using pneg_WF, padd_WF).
  rewrite padd_comm by auto using padd_WF. rewrite Hz. now apply neg_cancel.
Qed.

(** Modulus 2: negation is the complement, and row 0 of a comparison is the complement of the offset. *)
Lemma pneg2_nth a i : WF 2 a -> (i < 32)%nat -> nth i (wval (pneg 2 a)) 0 = N.lxor 255 (nth i (wval a) 0).
Proof.
  intros (_ & Hl & _) Hi. unfold pneg, of_digits. cbn [wval]. change (undg 2) with (fun l : list N => l). change (dg 2 (wval a)) with (wval a).
  cbv beta. rewrite nth_indep with (d' := N.lxor 255 0) by (rewrite map_length, Hl; auto).
  change (2 =? 2) with true. cbv iota. apply (map_nth (fun x => N.lxor 255 x)).
Qed.
Lemma row0_less out m t wi w tbl i : supported m -> WF m wi -> color wi = 0 -> 0 < t <= m -> (i < 32)%nat ->
  table_ok out m 2 (PLess t) wi w tbl ->
  exists r, nth_error tbl 0 = Some r /\ N.lxor (nth i (wval r) 0) (nth i (wval (D 2)) 0) = 255.
Proof.
  intros Hm Hwi Hc Ht0 Hi (Hl & Ht & Hz). pose proof (supported_2 _ Hm). pose proof sup2 as S2.
  specialize (Ht 0 ltac:(lia)). rewrite Hc, N.add_0_r, N.mod_small in Ht by lia. change (N.to_nat 0) with 0%nat in Ht.
  eexists. split; [exact Ht|].
  unfold zero_of in Hz. rewrite Hc, N.sub_0_r in Hz. cbn [proj_val] in *.
  destruct (N.ltb_spec m t); [lia|]. destruct (N.ltb_spec 0 t); [|lia].
  pose proof (D_WF rd Hrd m Hm) as HDm. pose proof (D_WF rd Hrd 2 S2) as HD.
  assert (El : psub m wi (pmul m (D m) 0) = lab m wi 0).
  { unfold PGarble.lab. rewrite padd_pmul_0 by auto. rewrite <- (padd_pmul_0 m Hm wi (D m)) at 1 by auto.
    rewrite (padd_comm m Hm) by auto using pmul_WF. apply psub_padd; auto using pmul_WF. }
  rewrite El in Hz. set (h := hw out (lab m wi 0) 2) in *. assert (Hh : WF 2 h) by now apply hw_WF.
  rewrite padd_pmul_0 in Hz by auto. assert (Hw : WF 2 w) by (rewrite Hz; auto using pneg_WF, padd_WF).
  rewrite pmul_1 by auto. rewrite nth_padd2 by auto using padd_WF. rewrite nth_padd2 by auto.
  rewrite Hz, pneg2_nth by auto.
  rewrite !N.lxor_assoc, N.lxor_nilpotent, N.lxor_0_r. rewrite N.lxor_comm, N.lxor_assoc, N.lxor_nilpotent. apply N.lxor_0_r.
Qed.

(** ** Decrypting with any label of the input wire *)
Lemma decrypt_row p' out m n k wi w tbl x : supported m -> supported n -> n = proj_domain k -> WF m wi -> WF n w -> x < m ->
  (forall w', hw out w' n = PGarble.hw sha256 p' out w' n) ->
  table_ok out m n k wi w tbl ->
  (let* cipher := idx tbl (N.to_nat (color (lab m wi x))) in
   let* h := hash_wire sha256 p' out (lab m wi x) cipher in wsub p' cipher h) = Ok (lab n w (proj_val k x)).
Proof.
  intros Hm Hn Hk Hwi Hw Hx Hp (Hl & Ht & _). pose proof (D_WF rd Hrd n Hn) as HD.
  assert (Hc : color (lab m wi x) = (color wi + x) mod m) by (unfold PGarble.lab; apply color_shift; auto using D_delta).
  rewrite Hc. unfold idx. rewrite (Ht x Hx). cbn [unwrap obind]. set (ct := padd n _ _).
  assert (Hh : WF n (hw out (lab m wi x) n)) by now apply hw_WF.
  assert (Hct : WF n ct) by (apply padd_WF; auto using padd_WF, pmul_WF).
  destruct (hash_wire_ok sha256 p' Hsha out (lab m wi x) ct n Hn Hct) as [-> _]. cbn [obind]. rewrite <- Hp.
  rewrite (wsub_ok p' n) by auto. f_equal. unfold ct.
  rewrite padd_assoc by auto using pmul_WF. rewrite psub_padd by auto using padd_WF, pmul_WF. reflexivity.
Qed.
End Leak.

(** ** The tables of a garbled circuit *)
Section Circ.
Variable sha256 : bytes -> bytes.
Variable p : profile.
Variable rd : N -> bytes.
Variable ri : nat -> bytes.
Variable c : circuit.
Hypothesis Hsha : hash32 sha256.
Hypothesis Hsam : good_samples c rd ri.
Hypothesis Hwf : wf_circuit c.
Variables (gc : garbled) (ek : encoding_key) (dk : decoding_key) (s : gstate).
Hypothesis Eg : garble sha256 p rd ri c = Ok (gc, ek, dk).
Hypothesis Er : garble_run sha256 p rd ri c = Ok (ek, first_output c, s).

Lemma run_inv : gc = mkGC c (gs_f s) (gs_half s) /\ Inv sha256 p rd c (length (gates c)) s.
Proof.
  destruct (garble_facts sha256 p rd ri c Hsha Hsam Hwf) as (gc' & ek' & dk' & s' & Eg' & Er' & Egc & _ & HI & _).
  rewrite Eg in Eg'. rewrite Er in Er'. inversion Eg'; inversion Er'; subst. auto.
Qed.

Lemma table_found k g kind i l : nth_error (gates c) k = Some g -> g_kind g = GProj kind -> g_inputs g = i :: l ->
  exists tbl, alookup Nat.eqb (g_output g) (gc_f gc) = Some tbl.
Proof.
  intros Hk Ek Ei. destruct run_inv as [Egc HI]. destruct HI as (_ & _ & _ & _ & Hgood & _).
  assert (Hkl : (k < length (gates c))%nat) by (apply nth_error_Some; congruence).
  specialize (Hgood k g Hkl Hk). unfold good_gate in Hgood. rewrite Ek in Hgood. destruct (Hgood i l Ei) as (tbl & Et & _).
  exists tbl. rewrite Egc. exact Et.
Qed.

Section Gate.
Variables (k : nat) (g : gate) (kind : projkind) (i : nat) (l : list nat) (tbl : list wire).
Hypothesis Hk : nth_error (gates c) k = Some g.
Hypothesis Ek : g_kind g = GProj kind.
Hypothesis Ei : g_inputs g = i :: l.
Hypothesis Et : alookup Nat.eqb (g_output g) (gc_f gc) = Some tbl.
Notation wi := (nth i (gs_wires s) wire_empty).

Lemma gate_table : supported (g_domain g) /\ supported (proj_domain kind) /\ WF (g_domain g) wi /\
  table_ok sha256 p rd (g_output g) (g_domain g) (proj_domain kind) kind wi (nth (g_output g) (gs_wires s) wire_empty) tbl.
Proof.
  destruct run_inv as [Egc HI]. destruct (wf_gates c Hwf k g Hk) as (Eo & Hins & Hty & Hsup).
  unfold gate_typed in Hty. rewrite Ek in Hty. destruct Hty as (i' & l' & Ei' & Hmod & Hpd). rewrite Ei in Ei'. inversion Ei'; subst i' l'.
  destruct HI as (Hlw & HW & _ & _ & Hgood & _). assert (Hkl : (k < length (gates c))%nat) by (apply nth_error_Some; congruence).
  specialize (Hgood k g Hkl Hk). unfold good_gate in Hgood. rewrite Ek in Hgood. destruct (Hgood i l Ei) as (tbl' & Et' & T).
  rewrite Egc in Et. cbn [gc_f] in Et. rewrite Et in Et'. inversion Et'; subst tbl'.
  rewrite Ei in Hins. inversion Hins as [|? ? Hi _ Q]; subst.
  split; [exact Hsup|]. split; [exact Hpd|]. split; [|exact T]. rewrite <- Hmod. apply HW. lia.
Qed.

Lemma leak_map n d : kind = PMap n -> n <> 2 -> wire_delta n (rd n) = Ok d -> colour_of (g_domain g) wi = 0 ->
  exists r, nth_error tbl 0 = Some r /\
    forall j, (j < ndigits n)%nat -> dplus n (digit n r j) (dtimes n (digit n d j) (g_domain g mod n)) = 0.
Proof.
  intros Ekk H2 Ed Hc. destruct gate_table as (Hm & Hn & Hwi & T). rewrite Ekk in Hn, T. cbn [proj_domain] in *. destruct Hsam as [Hrd _].
  assert (Ec : color wi = 0). { rewrite (color_last (g_domain g)) by auto. unfold last_digit. unfold colour_of in Hc.
    rewrite digit_dg in Hc; [exact Hc|exact Hwi|]. unfold ndigits. destruct (wide (g_domain g)); lia. }
  eexists. split. { exact (row0_offset sha256 p rd Hsha Hrd _ _ _ _ _ _ Hm Hn H2 Hwi Ec T). }
  assert (EdD : D rd n = d) by (unfold D; now rewrite Ed). pose proof (D_WF rd Hrd n Hn) as HD. rewrite EdD in *.
  pose proof (supported_2 _ Hn). pose proof (N.mod_lt (g_domain g) n ltac:(lia)) as Hlt.
  intros j Hj. rewrite <- digit_pmul by auto. rewrite <- digit_padd by auto using pmul_WF.
  rewrite pmul_add0; auto.
  - rewrite digit_pmul by auto. apply dtimes_0; auto.
  - apply N.mod_lt. lia.
  - rewrite N.add_mod_idemp_l by lia. replace (n - g_domain g mod n + g_domain g mod n) with (1 * n) by lia. apply N.mod_mul. lia.
Qed.
Lemma leak_less t d : kind = PLess t -> 0 < t <= g_domain g -> wire_delta 2 (rd 2) = Ok d -> colour_of (g_domain g) wi = 0 ->
  exists r, nth_error tbl 0 = Some r /\ forall j, (j < 32)%nat -> N.lxor (nth j (wval r) 0) (nth j (wval d) 0) = 255.
Proof.
  intros Ekk Ht Ed Hc. destruct gate_table as (Hm & Hn & Hwi & T). rewrite Ekk in Hn, T. cbn [proj_domain] in *. destruct Hsam as [Hrd _].
  assert (Ec : color wi = 0). { rewrite (color_last (g_domain g)) by auto. unfold last_digit. unfold colour_of in Hc.
    rewrite digit_dg in Hc; [exact Hc|exact Hwi|]. unfold ndigits. destruct (wide (g_domain g)); lia. }
  assert (EdD : D rd 2 = d) by (unfold D; now rewrite Ed). rewrite <- EdD.
  destruct (row0_less sha256 p rd Hsha Hrd _ _ _ _ _ _ 0 Hm Hwi Ec Ht ltac:(lia) T) as (r & Er0 & _).
  exists r. split; [exact Er0|]. intros j Hj.
  destruct (row0_less sha256 p rd Hsha Hrd _ _ _ _ _ _ j Hm Hwi Ec Ht Hj T) as (r' & Er' & E). congruence.
Qed.
End Gate.
End Circ.
