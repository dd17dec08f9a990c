(** A garbled circuit with one binary output, sent over the wire and evaluated by the peer: which
    half-keys the two sides get. *)
From Coq Require Import List NArith Bool Arith Lia Permutation.
From Verif Require Import Base MUtil MWires MCircuit MGarble MBincode SpecWires SpecCircuit SpecGarble SpecBincode.
From Verif Require Import PBase PWires PWiresSpec PGarble PGarbleSpec PBinKey PBincode PCircuit.
Import ListNotations.
Open Scope N_scope.

(** ** The build profile does not matter on valid data *)
Lemma from_array_profile p p' m v : supported m -> length v = 32%nat -> bytes_ok v ->
  from_array p v (dom_of m) = from_array p' v (dom_of m).
Proof.
  intros Hs Hl Hb. unfold from_array. destruct (dom_of m) eqn:E; auto.
  destruct p, p'; auto.
  - destruct (from_array_WF Debug m v Hs Hl Hb) as (w & Ew & _). rewrite E in Ew. cbn [from_array] in Ew.
    rewrite Ew. symmetry. revert Ew. unfold wmap16. destruct (mapM _ _); cbn [obind]; try discriminate.
    destruct (debug_assert Debug _); cbn [obind]; try discriminate. auto.
  - destruct (from_array_WF Debug m v Hs Hl Hb) as (w & Ew & _). rewrite E in Ew. cbn [from_array] in Ew.
    rewrite Ew. revert Ew. unfold wmap16. destruct (mapM _ _); cbn [obind]; try discriminate.
    destruct (debug_assert Debug _); cbn [obind]; try discriminate. auto.
Qed.
Lemma hw_profile sha p p' out w n : hash32 sha -> supported n -> hw sha p out w n = hw sha p' out w n.
Proof. intros Hh Hn. unfold hw. destruct (Hh (usize_be out ++ wval w)). now rewrite (from_array_profile p p'). Qed.
Lemma Inv_profile sha p p' rd c k s : hash32 sha -> wf_circuit c -> Inv sha p rd c k s -> Inv sha p' rd c k s.
Proof.
  intros Hh Hwf (H1 & H2 & H3 & H4 & H5 & H6). repeat (split; [assumption|]). split; [|exact H6].
  intros k' g Hk Hg. specialize (H5 k' g Hk Hg). unfold good_gate in *. destruct (g_kind g) as [| |kk|] eqn:Ek; auto.
  intros i l Hi. destruct (H5 i l Hi) as (tbl & E & Hl & Ht & Hz). exists tbl. split; [exact E|]. split; [exact Hl|].
  assert (Hpd : supported (proj_domain kk)).
  { destruct (wf_gates c Hwf k' g Hg) as (_ & _ & T & _). unfold gate_typed in T. rewrite Ek in T.
    destruct T as (? & ? & ? & ? & ?). assumption. }
  split.
  - intros x Hx. specialize (Ht x Hx). rewrite (hw_profile sha p' p); auto.
  - unfold zero_of in *. rewrite (hw_profile sha p' p); auto.
Qed.

(** ** Evaluation only looks keys up *)
Lemma foldM_ext {A S} (f g : S -> A -> outcome S) l : (forall s a, f s a = g s a) -> forall s, foldM f l s = foldM g l s.
Proof. intros H. induction l as [|a l IH]; intros s; cbn [foldM]; auto. rewrite H. destruct (g s a); cbn [obind]; auto. Qed.
Lemma evaluate_same sha p g g' x : same_garbled g g' -> evaluate sha p g x = evaluate sha p g' x.
Proof.
  intros (Hc & Hf & Hh). unfold evaluate. rewrite Hc.
  destruct (debug_assert _ _); cbn [obind]; auto. destruct (foldM _ _ (repeat _ _)); cbn [obind]; auto.
  rewrite (foldM_ext (eval_garbled_gate sha p g) (eval_garbled_gate sha p g')); auto.
  intros [[ws j0] j1] gt. unfold eval_garbled_gate. destruct (g_kind gt); auto.
  - now rewrite (Hf (g_output gt)).
  - now rewrite (Hh (g_output gt)).
Qed.

(** ** The garbled circuit can be sent *)
Definition keys {V} (m : list (nat * V)) : list nat := map fst m.
Lemma ainsert_keys {V} k (v : V) m : NoDup (keys m) ->
  NoDup (keys (ainsert Nat.eqb k v m)) /\ (length (ainsert Nat.eqb k v m) <= S (length m))%nat /\
  forall o, In o (keys (ainsert Nat.eqb k v m)) -> o = k \/ In o (keys m).
Proof.
  intros ND. unfold ainsert, keys. cbn [map fst length].
  assert (I : forall o, In o (map fst (filter (fun kv : nat * V => negb (Nat.eqb k (fst kv))) m)) -> In o (map fst m) /\ o <> k).
  { intros o Ho. apply in_map_iff in Ho as ([k' v'] & <- & Hin). apply filter_In in Hin as [Hin Hk]. split.
    - apply in_map_iff. eauto.
    - cbn [fst] in *. intros ->. now rewrite Nat.eqb_refl in Hk. }
  split. { constructor. { intros H. now apply I in H. }
    clear I. unfold keys in ND. induction m as [|[k' v'] m IH]; cbn [filter map fst]; [constructor|].
    inversion ND as [|x y Hn ND' Q]; subst x y. destruct (negb _); cbn [map fst]; auto. constructor; auto.
    intros H. apply Hn. apply in_map_iff in H as (kv & E & Hin). apply filter_In in Hin as [Hin _]. apply in_map_iff. eauto. }
  split. { clear. induction m; cbn [filter length]; [lia|]. destruct (negb _); cbn [length]; lia. }
  intros o [->|Ho]; [now left|]. right. now apply I in Ho.
Qed.

Section Keys.
Variable sha : bytes -> bytes.
Variable p : profile.
Definition proj_out (gs : list gate) (o : nat) : Prop := exists g k, In g gs /\ g_output g = o /\ g_kind g = GProj k.
Definition and_out_ (gs : list gate) (o : nat) : Prop := exists g, In g gs /\ g_output g = o /\ g_kind g = GAnd.

Lemma garble_gate_maps dl start s g s' : garble_gate sha p dl start s g = Ok s' ->
  (gs_f s' = gs_f s \/ exists k t, g_kind g = GProj k /\ gs_f s' = ainsert Nat.eqb (g_output g) t (gs_f s)) /\
  (gs_half s' = gs_half s \/ exists t, g_kind g = GAnd /\ gs_half s' = ainsert Nat.eqb (g_output g) t (gs_half s)).
Proof.
  unfold garble_gate. intros E. apply obind_Ok in E as (s1 & E1 & E).
  assert (gs_f s' = gs_f s1 /\ gs_half s' = gs_half s1) as [-> ->].
  { destruct (Nat.leb start (g_output g)).
    - apply obind_Ok in E as (v & _ & E). inversion E; auto.
    - inversion E; auto. }
  clear E. unfold garble_label in E1. destruct (g_kind g) as [|c|k|].
  - apply obind_Ok in E1 as (? & _ & E1). apply obind_Ok in E1 as (? & _ & E1). inversion E1; auto.
  - apply obind_Ok in E1 as (? & _ & E1). apply obind_Ok in E1 as (? & _ & E1). apply obind_Ok in E1 as (? & _ & E1). inversion E1; auto.
  - apply obind_Ok in E1 as ([w t] & _ & E1). inversion E1; subst s1. cbn [gs_f gs_half]. split; [right; exists k, t; auto|auto].
  - apply obind_Ok in E1 as ([w t] & _ & E1). inversion E1; subst s1. cbn [gs_f gs_half]. split; [auto|right; exists t; auto].
Qed.

Lemma garble_keys dl start gs : forall s s', foldM (garble_gate sha p dl start) gs s = Ok s' ->
  NoDup (keys (gs_f s)) -> NoDup (keys (gs_half s)) ->
  NoDup (keys (gs_f s')) /\ NoDup (keys (gs_half s')) /\
  (forall o, In o (keys (gs_f s')) -> In o (keys (gs_f s)) \/ proj_out gs o) /\
  (forall o, In o (keys (gs_half s')) -> In o (keys (gs_half s)) \/ and_out_ gs o) /\
  (length (gs_f s') <= length (gs_f s) + length gs)%nat /\ (length (gs_half s') <= length (gs_half s) + length gs)%nat.
Proof.
  induction gs as [|g gs IH]; intros s s' E Nf Nh; cbn [foldM] in E.
  { inversion E; subst s'. cbn [length]. repeat (split; [assumption|]). split; [now left|]. split; [now left|]. lia. }
  apply obind_Ok in E as (s1 & E1 & E).
  destruct (garble_gate_maps dl start s g s1 E1) as [Cf Ch].
  assert (A1 : NoDup (keys (gs_f s1)) /\ (length (gs_f s1) <= S (length (gs_f s)))%nat /\
     (forall o, In o (keys (gs_f s1)) -> (o = g_output g /\ exists k, g_kind g = GProj k) \/ In o (keys (gs_f s)))).
  { destruct Cf as [->|(k & t & Ek & ->)].
    - split; [exact Nf|]. split; [lia|]. now right.
    - destruct (ainsert_keys (g_output g) t (gs_f s) Nf) as (I1 & I2 & I3). split; [exact I1|]. split; [exact I2|].
      intros o Ho. destruct (I3 o Ho); eauto. }
  assert (A2 : NoDup (keys (gs_half s1)) /\ (length (gs_half s1) <= S (length (gs_half s)))%nat /\
     (forall o, In o (keys (gs_half s1)) -> (o = g_output g /\ g_kind g = GAnd) \/ In o (keys (gs_half s)))).
  { destruct Ch as [->|(t & Ek & ->)].
    - split; [exact Nh|]. split; [lia|]. now right.
    - destruct (ainsert_keys (g_output g) t (gs_half s) Nh) as (I1 & I2 & I3). split; [exact I1|]. split; [exact I2|].
      intros o Ho. destruct (I3 o Ho); eauto. }
  destruct A1 as (N1 & L1 & K1), A2 as (N2 & L2 & K2).
  destruct (IH s1 s' E N1 N2) as (R1 & R2 & R3 & R4 & R5 & R6).
  split; [exact R1|]. split; [exact R2|]. split.
  { intros o Ho. destruct (R3 o Ho) as [H|(g' & k & Hg & Ho' & Hk)].
    - destruct (K1 o H) as [[-> [k Hk]]|]; auto. right. exists g, k. split; [now left|auto].
    - right. exists g', k. split; [now right|auto]. }
  split. { intros o Ho. destruct (R4 o Ho) as [H|(g' & Hg & Ho' & Hk)].
    - destruct (K2 o H) as [[-> Hk]|]; auto. right. exists g. split; [now left|auto].
    - right. exists g'. split; [now right|auto]. }
  cbn [length]. lia.
Qed.
End Keys.

Lemma WF_wire_ok m w : supported m -> WF m w -> wire_ok w.
Proof.
  intros Hs (Hd & Hl & Hb & _). split; [|auto]. rewrite Hd. unfold dom_of, domain_ok, byte_ok, u16_ok.
  unfold supported in Hs. repeat match goal with |- context [if ?b then _ else _] => destruct b eqn:? end; auto;
    rewrite ?N.ltb_lt, ?N.ltb_ge, ?N.eqb_neq, ?N.eqb_eq in *; try lia.
Qed.

(* part 2 *)
Lemma supported_u16 m : supported m -> u16_ok m.
Proof. unfold supported, u16_ok. lia. Qed.
Lemma usize_le n m : (n <= m)%nat -> usize_ok m -> usize_ok n.
Proof. unfold usize_ok. lia. Qed.

(** Every well formed circuit of reasonable size can be sent. *)
Lemma wf_circuit_ok c : wf_circuit c -> usize_ok (num_wires c) ->
  Forall (fun g => (length (g_inputs g) <= num_wires c)%nat /\
    match g_kind g with GProj (PLess t) => u16_ok t | _ => True end) (gates c) -> circuit_ok c.
Proof.
  intros Hwf Hn Hg. pose proof (wf_wires c Hwf) as Hw. pose proof (wf_outs c Hwf) as Ho.
  pose proof (wf_indoms c Hwf) as Hi. unfold circuit_ok.
  split; [exact Hn|]. split; [eapply usize_le; [|exact Hn]; lia|]. split; [eapply usize_le; [|exact Hn]; lia|].
  split.
  - split; [eapply usize_le; [|exact Hn]; lia|]. rewrite Forall_forall in *. intros g Hin. specialize (Hg g Hin).
    destruct Hg as [Hl Ht]. apply In_nth_error in Hin as [k Hk].
    destruct (wf_gates c Hwf k g Hk) as (Eo & Hins & Hty & Hsup).
    assert (k < length (gates c))%nat by (apply nth_error_Some; congruence).
    unfold gate_ok. split; [eapply usize_le; [|exact Hn]; lia|]. split; [now apply supported_u16|].
    split. { split; [eapply usize_le; [exact Hl|exact Hn]|]. rewrite Forall_forall in *. intros i Hii.
      eapply usize_le; [|exact Hn]. specialize (Hins i Hii). lia. }
    unfold kind_ok, gate_typed in *. destruct (g_kind g) as [|q|[m|t]|]; auto.
    + destruct Hty as (_ & _ & _ & _ & Hq). unfold supported, u16_ok in *. lia.
    + destruct Hty as (_ & _ & _ & _ & Hq). now apply supported_u16.
  - split; [eapply usize_le; [|exact Hn]; lia|]. eapply Forall_impl; [|exact (wf_insupp c Hwf)].
    intros m. apply supported_u16.
Qed.

Section Sendable.
Variable sha : bytes -> bytes.
Variable p : profile.
Variable rd : N -> bytes.
Variable ri : nat -> bytes.
Variable c : circuit.
Hypothesis Hsha : hash32 sha.
Hypothesis Hwf : wf_circuit c.
Hypothesis Hsam : good_samples c rd ri.

Lemma garble_run_keys ek st s : garble_run sha p rd ri c = Ok (ek, st, s) ->
  NoDup (keys (gs_f s)) /\ NoDup (keys (gs_half s)) /\
  (forall o, In o (keys (gs_f s)) -> proj_out (gates c) o) /\
  (forall o, In o (keys (gs_half s)) -> and_out_ (gates c) o) /\
  (length (gs_f s) <= length (gates c))%nat /\ (length (gs_half s) <= length (gates c))%nat.
Proof.
  unfold garble_run. intros E.
  apply obind_Ok in E as (dl & _ & E). apply obind_Ok in E as (ws & _ & E). apply obind_Ok in E as (ins & _ & E).
  apply obind_Ok in E as (st' & _ & E). apply obind_Ok in E as (s' & Ef & E). inversion E; subst s'.
  destruct (garble_keys sha p _ _ _ _ _ Ef) as (R1 & R2 & R3 & R4 & R5 & R6).
  { constructor. } { constructor. } cbn [gs_f gs_half keys map length] in *.
  split; [exact R1|]. split; [exact R2|]. split. { intros o Ho. destruct (R3 o Ho); [contradiction|auto]. }
  split. { intros o Ho. destruct (R4 o Ho); [contradiction|auto]. } auto.
Qed.

Lemma table_wires_ok out m n k wi w tbl : supported m -> supported n -> WF m wi -> WF n w ->
  table_ok sha p rd out m n k wi w tbl -> wires_ok tbl.
Proof.
  intros Hm Hn Hwi Hw (Hl & Ht & _). destruct Hsam as [Hrd _]. split.
  { rewrite Hl. unfold usize_ok, supported in *. lia. }
  apply Forall_forall. intros t Hin. apply In_nth_error in Hin as [j Hj].
  assert (Hjl : (j < N.to_nat m)%nat) by (rewrite <- Hl; apply nth_error_Some; congruence).
  assert (Hm0 : 0 < m) by (unfold supported in Hm; lia).
  set (cc := color wi mod m). assert (Hcc : cc < m) by (apply N.mod_lt; lia).
  set (x := (N.of_nat j + (m - cc)) mod m). assert (Hx : x < m) by (apply N.mod_lt; lia).
  assert (Ej : (color wi + x) mod m = N.of_nat j).
  { unfold x. rewrite N.add_mod_idemp_r by lia. rewrite <- N.add_mod_idemp_l by lia. fold cc.
    replace (cc + (N.of_nat j + (m - cc))) with (N.of_nat j + 1 * m) by lia. rewrite N.mod_add by lia. apply N.mod_small. lia. }
  specialize (Ht x Hx). rewrite Ej, Nat2N.id, Hj in Ht. inversion Ht as [E]. apply (WF_wire_ok n); [exact Hn|].
  destruct (hash_wire_ok sha p Hsha out (lab rd m wi x) (D rd n) n Hn (D_WF rd Hrd n Hn)) as [_ Hh].
  apply padd_WF; auto. { apply padd_WF; auto. } apply pmul_WF; auto. now apply D_WF.
Qed.

Lemma garbled_sendable ek st s : garble_run sha p rd ri c = Ok (ek, st, s) ->
  Inv sha p rd c (length (gates c)) s -> circuit_ok c -> garbled_ok (mkGC c (gs_f s) (gs_half s)).
Proof.
  intros E HI Hc. destruct (garble_run_keys ek st s E) as (N1 & N2 & K1 & K2 & L1 & L2).
  destruct HI as (_ & HW & _ & _ & Hgood & _).
  assert (Hc' := Hc). destruct Hc' as (_ & _ & _ & [Hgl Hgs] & _). pose proof (wf_wires c Hwf) as Hnw.
  assert (HWw : forall i, (i < num_wires c)%nat -> WF (modulus c i) (wn (gs_wires s) i)) by (intros; apply HW; lia).
  unfold garbled_ok. cbn [gc_circuit gc_f gc_half]. split; [exact Hc|]. split; (split; [split|]); try assumption.
  - eapply usize_le; [exact L1|exact Hgl].
  - apply Forall_forall. intros [o t] Hin. cbn [fst snd].
    assert (Hk : In o (keys (gs_f s))) by (apply in_map_iff; exists (o, t); auto).
    destruct (K1 o Hk) as (g & k & Hg & Eo & Ek). rewrite Forall_forall in Hgs.
    split. { rewrite <- Eo. now apply Hgs. }
    pose proof (proj2 (alookup_in (gs_f s) N1 o t) Hin) as El.
    apply In_nth_error in Hg as [j Hj]. assert (Hjl : (j < length (gates c))%nat) by (apply nth_error_Some; congruence).
    specialize (Hgood j g Hjl Hj). unfold good_gate in Hgood. rewrite Ek in Hgood.
    destruct (wf_gates c Hwf j g Hj) as (Eout & Hins & Hty & Hsup). unfold gate_typed in Hty. rewrite Ek in Hty.
    destruct Hty as (i & l & Ei & Hmod & Hpd).
    destruct (Hgood i l Ei) as (tbl & Et & Htbl). rewrite Eo, El in Et. inversion Et; subst tbl.
    assert (Hi : (i < g_output g)%nat) by (rewrite Ei in Hins; now inversion Hins).
    eapply table_wires_ok; [exact Hsup|exact Hpd| | |exact Htbl].
    + rewrite <- Hmod. apply HWw. lia.
    + assert (Em : modulus c (g_output g) = proj_domain k).
      { unfold modulus, wire_moduli. rewrite app_nth2 by (rewrite (wf_indoms c Hwf); lia).
        rewrite (wf_indoms c Hwf), Eout. replace (num_inputs c + j - num_inputs c)%nat with j by lia.
        erewrite nth_error_nth; [|apply map_nth_error; exact Hj]. unfold output_domain. rewrite Ek. reflexivity. }
      rewrite <- Em. apply HWw. lia.
  - eapply usize_le; [exact L2|exact Hgl].
  - apply Forall_forall. intros [o t] Hin. cbn [fst snd].
    assert (Hk : In o (keys (gs_half s))) by (apply in_map_iff; exists (o, t); auto).
    destruct (K2 o Hk) as (g & Hg & Eo & Ek). rewrite Forall_forall in Hgs.
    split. { rewrite <- Eo. now apply Hgs. }
    pose proof (proj2 (alookup_in (gs_half s) N2 o t) Hin) as El.
    apply In_nth_error in Hg as [j Hj]. assert (Hjl : (j < length (gates c))%nat) by (apply nth_error_Some; congruence).
    specialize (Hgood j g Hjl Hj). unfold good_gate in Hgood. rewrite Ek in Hgood.
    destruct (wf_gates c Hwf j g Hj) as (Eout & Hins & Hty & Hsup). unfold gate_typed in Hty. rewrite Ek in Hty.
    destruct Hty as (a & b & l & Ei & Hma & Hmb & _).
    destruct (Hgood a b l Ei) as [_ Et]. rewrite Eo, El in Et. inversion Et; subst t. cbn [fst snd].
    rewrite Ei in Hins. inversion Hins as [|? ? Ha Hins' Q]; subst. inversion Hins' as [|? ? Hb _ Q]; subst.
    assert (HWa : WF 2 (wn (gs_wires s) a)) by (rewrite <- Hma; apply HWw; lia).
    assert (HWb : WF 2 (wn (gs_wires s) b)) by (rewrite <- Hmb; apply HWw; lia).
    destruct Hsam as [Hrd _].
    split; apply (WF_wire_ok 2); auto using sup2.
    + apply and_tg_WF; auto.
    + apply and_te_WF; auto.
Qed.
End Sendable.

(** ** Half keys *)
Definition pick (z : wire * wire) (b : bool) : wire := if b then snd z else fst z.
Lemma bk_encode_pick z bits : length bits = length z -> bk_encode (unzipped z) bits = Ok (zipWith pick z bits).
Proof.
  intros Hl. unfold bk_encode, unzipped. cbn [bk_zeros bk_ones]. rewrite map_length, Hl, Nat.eqb_refl. cbn [assert_ obind].
  rewrite (mapM_Ok _ (fun ib : nat * bool => pick (nth (fst ib) z (wire_empty, wire_empty)) (snd ib))).
  - f_equal. rewrite <- Hl. apply (nth_ext _ _ wire_empty wire_empty).
    + rewrite map_length, combine_length, seq_length, zipWith_length. lia.
    + intros i Hi. rewrite map_length, combine_length, seq_length in Hi.
      rewrite (zipWith_nth _ _ _ _ (wire_empty, wire_empty) false) by lia.
      erewrite nth_indep by (rewrite map_length, combine_length, seq_length; lia).
      rewrite (map_nth _ _ (0%nat, false)). rewrite combine_nth by (now rewrite seq_length). cbn [fst snd].
      rewrite seq_nth by lia. reflexivity.
  - intros [i b] Hin. apply in_combine_l in Hin. apply in_seq in Hin. cbn [fst snd]. unfold pick.
    destruct b; rewrite (idx_lt _ _ wire_empty) by (rewrite map_length; lia); f_equal.
    + rewrite nth_indep with (d' := snd (wire_empty, wire_empty)) by (rewrite map_length; lia). apply (map_nth snd).
    + rewrite nth_indep with (d' := fst (wire_empty, wire_empty)) by (rewrite map_length; lia). apply (map_nth fst).
Qed.

Record half_key (sha : bytes -> bytes) (p : profile) (rd : N -> bytes) (ri : nat -> bytes) (c : circuit)
  (gc : garbled) (ek : encoding_key) (dk : decoding_key) (zs : list (wire * wire)) (l0 l1 : wire) : Prop := {
  hk_garble : garble sha p rd ri c = Ok (gc, ek, dk);
  hk_ok : garbled_ok gc;
  hk_circuit : gc_circuit gc = c;
  hk_zipped : exists bk, binary_of_ek p ek = Ok bk /\ zipped bk = Ok zs;
  hk_length : length zs = num_inputs c;
  hk_labels : Forall (fun z => WF 2 (fst z) /\ WF 2 (snd z)) zs;
  hk_key : exists hs, idx (dk_hashes dk) 0 = Ok hs /\ idx hs 1 = Ok (sha (dec_string (first_output c) 1 l1));
  hk_genuine : exists s, garble_run sha p rd ri c = Ok (ek, first_output c, s) /\
    genuine c rd (gs_wires s) (first_output c) 0 l0 /\ genuine c rd (gs_wires s) (first_output c) 1 l1;
  hk_differ : wval l0 <> wval l1;
  hk_len0 : length (wval l0) = 32%nat;
  hk_len1 : length (wval l1) = 32%nat;
  hk_evaluate : forall p' bits gc2, length bits = num_inputs c -> same_garbled gc2 gc ->
    evaluate sha p' gc2 (zipWith pick zs bits) =
    Ok [if nth 0 (circuit_outputs c (bit_values bits)) 0 =? 1 then l1 else l0];
  hk_state : exists s, garble_run sha p rd ri c = Ok (ek, first_output c, s) /\ gc = mkGC c (gs_f s) (gs_half s) /\
    Inv sha p rd c (length (gates c)) s /\ l0 = G rd c s (first_output c) 0 /\ l1 = G rd c s (first_output c) 1 /\
    ek_wires ek = firstn (num_inputs c) (gs_wires s) /\
    forall bits, length bits = num_inputs c -> zipWith pick zs bits = map (L rd c (bit_values bits) s) (seq 0 (num_inputs c)) }.

Lemma wire_ext (a b : wire) : wdom a = wdom b -> wval a = wval b -> a = b.
Proof. destruct a, b. simpl. intros -> ->. reflexivity. Qed.

Section HalfKey.
Variable sha : bytes -> bytes.
Variable p : profile.
Variable rd : N -> bytes.
Variable ri : nat -> bytes.
Variable c : circuit.
Hypothesis Hsha : hash32 sha.
Hypothesis Hwf : wf_circuit c.
Hypothesis Hsam : good_samples c rd ri.
Hypothesis Hok : circuit_ok c.
Hypothesis Hone : num_outputs c = 1%nat.
Hypothesis Hbin : modulus c (first_output c) = 2.
Hypothesis Hin2 : Forall (fun m => m = 2) (input_domains c).
Hypothesis Hin0 : (0 < num_inputs c)%nat.

Lemma input_modulus i : (i < num_inputs c)%nat -> modulus c i = 2.
Proof.
  intros Hi. unfold modulus, wire_moduli. pose proof (wf_indoms c Hwf). rewrite app_nth1 by lia.
  rewrite Forall_forall in Hin2. apply Hin2. apply nth_In. lia.
Qed.
Lemma bits_wf bits : length bits = num_inputs c -> wf_inputs c (bit_values bits).
Proof.
  intros Hl. split. { now rewrite bit_values_length. } intros i Hi. rewrite input_modulus by auto. rewrite bit_values_nth.
  destruct (nth i bits false); lia.
Qed.

Lemma half_key_exists : exists gc ek dk zs l0 l1, half_key sha p rd ri c gc ek dk zs l0 l1.
Proof.
  destruct (garble_facts sha p rd ri c Hsha Hsam Hwf) as (gc & ek & dk & s & Eg & Er & Egc & Edk & HI & Hek & Hdl).
  assert (Hs2 := Hsam). destruct Hs2 as [Hrd Hri]. pose proof sup2 as S2.
  pose proof (wf_wires c Hwf) as Hnw. pose proof (wf_outs c Hwf) as Hno. pose proof (wf_indoms c Hwf) as Hid.
  assert (Ho : (first_output c < num_wires c)%nat) by (unfold first_output; lia).
  set (o := first_output c) in *.
  pose proof (ws_WF sha p rd c Hwf s HI) as HWs.
  set (ws := firstn (num_inputs c) (gs_wires s)).
  assert (Hlw : length (gs_wires s) = num_wires c). { destruct HI as (Hl & _). lia. }
  assert (Hlws : length ws = num_inputs c). { unfold ws. rewrite firstn_length. lia. }
  assert (HW2 : Forall (WF 2) ws).
  { apply Forall_forall. intros w Hw. apply In_nth with (d := wire_empty) in Hw as (i & Hi & <-). rewrite Hlws in Hi.
    unfold ws. rewrite nth_firstn by auto. rewrite <- (input_modulus i) by auto. apply HWs. lia. }
  assert (HL2 : Forall (label 2) ws) by (eapply Forall_impl; [|exact HW2]; intros w Hw; apply label_WF; auto).
  assert (HD : WF 2 (D rd 2)) by (apply D_WF; auto).
  assert (HDl : label 2 (D rd 2)) by (apply label_WF; auto).
  assert (Hd2 : alookup N.eqb 2 (ek_delta ek) = Some (D rd 2)).
  { destruct (wf_inused c Hwf 2) as (g & Hg & Hor).
    { rewrite Forall_forall in Hin2. destruct (input_domains c) as [|m l] eqn:E. { cbn [length] in Hid. lia. }
      left. apply Hin2. now left. }
    destruct (Hdl g Hg) as [H1 H2]. destruct Hor as [Hor|Hor]; rewrite Hor in *; assumption. }
  assert (Eek : ek = mkEK ws (ek_delta ek)). { destruct ek as [w d]. cbn [ek_wires ek_delta] in *. now rewrite Hek. }
  pose proof (binary_of_ek_ok p ws (ek_delta ek) (D rd 2) HL2 HDl Hd2) as Ebk. rewrite <- Eek in Ebk.
  destruct (zipped_ok ws (D rd 2)) as (zs & Ez & Euz & Hlz).
  set (l0 := G rd c s o 0). set (l1 := G rd c s o 1).
  assert (HWo : WF 2 (wn (gs_wires s) o)). { rewrite <- Hbin. apply HWs. exact Ho. }
  assert (HWl : forall k, WF 2 (G rd c s o k)). { intros k. unfold G. rewrite Hbin. apply lab_WF; auto. }
  assert (Hne : wval l0 <> wval l1).
  { intros E. assert (El : l0 = l1). { pose proof (HWl 0) as (Ed0 & _). pose proof (HWl 1) as (Ed1 & _). fold l0 in Ed0. fold l1 in Ed1.
      apply wire_ext; [congruence|exact E]. }
    assert (Ec : color l0 = color l1) by congruence. unfold l0, l1, G, lab in Ec. rewrite Hbin in Ec.
    rewrite !(color_shift 2) in Ec by (auto using D_delta; lia).
    revert Ec. generalize (color (wn (gs_wires s) o)). intros k.
    rewrite <- (N.add_mod_idemp_l k 0), <- (N.add_mod_idemp_l k 1) by lia. pose proof (N.mod_lt k 2 ltac:(lia)).
    assert (E2 : k mod 2 = 0 \/ k mod 2 = 1) by lia. destruct E2 as [-> | ->]; vm_compute; discriminate. }
  assert (Exs : forall bits, length bits = num_inputs c -> zipWith pick zs bits = map (L rd c (bit_values bits) s) (seq 0 (num_inputs c))).
  { intros bits Hlb. pose proof (bits_wf bits Hlb) as Hx.
    assert (E1 : bk_encode (unzipped zs) bits = Ok (zipWith pick zs bits)) by (apply bk_encode_pick; lia).
      rewrite Euz in E1. rewrite (bk_encode_ok p ws (ek_delta ek) (D rd 2) HL2 HDl Hd2 bits) in E1 by lia.
      rewrite <- Eek in E1. erewrite encode_ok in E1 by eauto. inversion E1. reflexivity. }
  exists gc, ek, dk, zs, l0, l1. constructor.
  - exact Eg.
  - rewrite Egc. eapply garbled_sendable; eauto.
  - now rewrite Egc.
  - eexists. split; [exact Ebk|exact Ez].
  - congruence.
  - apply Forall_forall. intros z Hz.
    assert (E1 : map fst zs = ws) by (pose proof (f_equal bk_zeros Euz) as Q; exact Q).
    assert (E2 : map snd zs = map (fun w => padd 2 w (D rd 2)) ws) by (pose proof (f_equal bk_ones Euz) as Q; exact Q).
    rewrite Forall_forall in HW2. split.
    + apply HW2. rewrite <- E1. now apply in_map.
    + assert (Hs : In (snd z) (map snd zs)) by now apply in_map. rewrite E2 in Hs. apply in_map_iff in Hs as (w & <- & Hw).
      apply padd_WF; auto.
  - rewrite Edk. cbn [dk_hashes]. exists (decvals sha rd c (gs_wires s) o). split.
    + erewrite gs_d_idx by (eauto; lia). now rewrite Nat.add_0_r.
    + rewrite decvals_idx by (rewrite Hbin; vm_compute; lia). reflexivity.
  - exists s. split; [exact Er|]. split; (eapply lab_genuine; [exact Hsam|exact Hwf|exact HI|exact Ho|fold o; rewrite Hbin; lia]).
  - exact Hne.
  - destruct (HWl 0) as (_ & Hl & _). exact Hl.
  - destruct (HWl 1) as (_ & Hl & _). exact Hl.
  - intros p' bits gc2 Hlb Hsame. rewrite (evaluate_same sha p' gc2 gc _ Hsame).
    pose proof (bits_wf bits Hlb) as Hx.
    rewrite Exs, Egc by exact Hlb.
    rewrite (evaluate_ok sha p' rd ri Hsha Hrd c Hwf Hri (bit_values bits) Hx s (Inv_profile sha p p' rd c _ s Hsha Hwf HI)).
    rewrite Hone. cbn [seq map].
    assert (Eo : (num_wires c - 1)%nat = o) by (unfold o, first_output; lia). rewrite Eo. do 2 f_equal.
    assert (Ev : nth 0 (circuit_outputs c (bit_values bits)) 0 = v c (bit_values bits) o).
    { unfold circuit_outputs, v. fold (first_output c). fold o. rewrite nth_skipn. now rewrite Nat.add_0_r. }
    rewrite Ev. assert (Hv : v c (bit_values bits) o < 2) by (rewrite <- Hbin; eapply v_lt; eauto).
    unfold L, l0, l1, G. assert (Hv2 : v c (bit_values bits) o = 0 \/ v c (bit_values bits) o = 1) by lia.
    destruct Hv2 as [-> | ->]; reflexivity.
  - exists s. repeat (split; [assumption || reflexivity|]). exact Exs.
Qed.
End HalfKey.
