(** A garbled circuit without projections hides its inputs. *)
From Coq Require Import List NArith Bool Arith Lia.
From Verif Require Import Base MUtil MWires MCircuit MGarble SpecWires SpecCircuit SpecGarble SpecPrivate SpecBincode PBase PWires PWiresSpec PGarble PGarbleSpec PLeak PHalf.
Import ListNotations.
Open Scope N_scope.

(** ** Order of the half gates *)
Definition and_keys (gs : list gate) (l : list nat) : list nat :=
  fold_left (fun l g => if is_and g then g_output g :: filter (fun k => negb (Nat.eqb (g_output g) k)) l else l) gs l.
Lemma keys_ainsert {V} k (v : V) m : keys (ainsert Nat.eqb k v m) = k :: filter (fun k' => negb (Nat.eqb k k')) (keys m).
Proof.
  unfold ainsert, keys. cbn [map fst]. f_equal. induction m as [|[k' v'] m IH]; [reflexivity|].
  cbn [filter map fst]. destruct (negb (Nat.eqb k k')); cbn [map fst]; now rewrite IH.
Qed.
Lemma gate_half sha p dl start s g s' : garble_gate sha p dl start s g = Ok s' ->
  keys (gs_half s') = (if is_and g then g_output g :: filter (fun k => negb (Nat.eqb (g_output g) k)) (keys (gs_half s)) else keys (gs_half s)) /\
  ((forall k, g_kind g <> GProj k) -> gs_f s' = gs_f s).
Proof.
  unfold garble_gate. intros E. apply obind_Ok in E as (s1 & E1 & E).
  assert (gs_half s' = gs_half s1 /\ gs_f s' = gs_f s1) as [-> ->].
  { destruct (Nat.leb start (g_output g)).
    - apply obind_Ok in E as (v & _ & E). inversion E; auto.
    - inversion E; auto. }
  clear E. unfold garble_label in E1. unfold is_and. destruct (g_kind g) as [|c|k|].
  - apply obind_Ok in E1 as (? & _ & E1). apply obind_Ok in E1 as (? & _ & E1). inversion E1; auto.
  - apply obind_Ok in E1 as (? & _ & E1). apply obind_Ok in E1 as (? & _ & E1). apply obind_Ok in E1 as (? & _ & E1). inversion E1; auto.
  - apply obind_Ok in E1 as ([w t] & _ & E1). inversion E1; subst s1. cbn [gs_f gs_half]. split; [reflexivity|]. intros H. now destruct (H k).
  - apply obind_Ok in E1 as ([w t] & _ & E1). inversion E1; subst s1. cbn [gs_f gs_half]. split; [apply keys_ainsert|auto].
Qed.
Lemma fold_half sha p dl start gs : (forall g k, In g gs -> g_kind g <> GProj k) -> forall s s',
  foldM (garble_gate sha p dl start) gs s = Ok s' ->
  keys (gs_half s') = and_keys gs (keys (gs_half s)) /\ gs_f s' = gs_f s.
Proof.
  induction gs as [|g gs IH]; intros Hp s s' E; cbn [foldM] in E.
  { inversion E; subst; auto. }
  apply obind_Ok in E as (s1 & E1 & E). destruct (gate_half _ _ _ _ _ _ _ E1) as [K1 F1].
  destruct (IH (fun g' k H => Hp g' k (or_intror H)) s1 s' E) as [K F].
  rewrite K, F, K1, F1; [auto|]. intros k. apply Hp. now left.
Qed.
Lemma run_half sha p rd ri c ek st s : projection_free c -> garble_run sha p rd ri c = Ok (ek, st, s) ->
  keys (gs_half s) = and_keys (gates c) [] /\ gs_f s = [].
Proof.
  intros Hp E. unfold garble_run in E. apply obind_Ok in E as (dl & _ & E). apply obind_Ok in E as (ws & _ & E).
  apply obind_Ok in E as (ins & _ & E). apply obind_Ok in E as (st' & _ & E). apply obind_Ok in E as (s' & Es & E).
  inversion E; subst s'. now apply (fold_half sha p dl st' (gates c) Hp _ _) in Es.
Qed.
Lemma run_start sha p rd ri c ek st s : garble_run sha p rd ri c = Ok (ek, st, s) -> exists dl ws,
  garble_deltas rd (gates c) = Ok dl /\ garble_inputs ri (input_domains c) = Ok ws /\
  ek_delta ek = dl /\ ek_wires ek = firstn (num_inputs c) ws.
Proof.
  intros E. unfold garble_run in E. apply obind_Ok in E as (dl & Ed & E). apply obind_Ok in E as (ws & Ew & E).
  apply obind_Ok in E as (ins & Ei & E). apply obind_Ok in E as (st' & _ & E). apply obind_Ok in E as (s' & Es & E).
  destruct (Nat.leb _ _) eqn:El in Ei; [|discriminate]. inversion Ei. inversion E. subst. cbn [ek_delta ek_wires]. eauto 8.
Qed.
Lemma alookup_keys {V} (m m' : list (nat * V)) : NoDup (keys m) -> keys m = keys m' ->
  (forall o, In o (keys m) -> alookup Nat.eqb o m = alookup Nat.eqb o m') -> m = m'.
Proof.
  revert m'. induction m as [|[k v] m IH]; intros [|[k' v'] m'] ND E H; try discriminate; [reflexivity|].
  unfold keys in *. cbn [map fst] in *. inversion E; subst k'. inversion ND as [|? ? Hn ND']; subst.
  pose proof (H k (or_introl eq_refl)) as Hk. unfold alookup in Hk. cbn [find fst] in Hk. 
  f_equal.
  - cbn in Hk. rewrite Nat.eqb_refl in Hk. cbn in Hk. congruence.
  - apply IH; auto. intros o Ho. specialize (H o (or_intror Ho)). cbn in H.
    destruct (Nat.eqb_spec o k) as [Eo|]; [subst; contradiction|]. exact H.
Qed.

(** ** The other world *)
Section Swap.
Variable rd : N -> bytes.
Variable c : circuit.
Variables x x' : list N.
Notation D := (D rd).
Notation n0 := (num_inputs c).

Definition hit_gate (s : gstate) (q : bytes) (k : nat) : bool :=
  match nth_error (gates c) k with
  | Some g =>
      match g_kind g, g_inputs g with
      | GAnd, a :: b :: _ =>
          (bytes_eqb (wval (padd 2 (L rd c x s a) (D 2)) ++ usize_be (S (ands c k))) q && negb (v c x b =? v c x' b)) ||
          (bytes_eqb (wval (padd 2 (L rd c x s b) (D 2)) ++ usize_be (S (ands c k))) q && negb (v c x a =? v c x' a))
      | _, _ => false
      end
  | None => false
  end.
Definition hit (s : gstate) (q : bytes) : bool := existsb (hit_gate s q) (seq 0 (length (gates c))).
Definition swap_sha (sha : bytes -> bytes) (s : gstate) (q : bytes) : bytes :=
  if hit s q then wval (padd 2 (mkWire Binary (sha q)) (D 2)) else sha q.
Definition swap_ri (ri : nat -> bytes) (i : nat) : bytes :=
  if Nat.ltb i n0 then
    let m := modulus c i in
    wval (psub m (lab rd m (mkWire (dom_of m) (ri i)) (nth i x 0)) (pmul m (D m) (nth i x' 0)))
  else ri i.
Definition swap (p : profile) (w : (bytes -> bytes) * (nat -> bytes)) : (bytes -> bytes) * (nat -> bytes) :=
  match garble_run (fst w) p rd (snd w) c with
  | Ok (_, _, s) => (swap_sha (fst w) s, swap_ri (snd w))
  | _ => w
  end.
End Swap.

Section TwoWorlds.
Variable p : profile.
Variable rd : N -> bytes.
Variable c : circuit.
Hypothesis Hwf : wf_circuit c.
Hypothesis Hpf : projection_free c.
Hypothesis Hus : usize_ok (num_wires c).
Hypothesis Hrd : forall m, supported m -> valid_sample m (rd m).
Variables x x' : list N.
Hypothesis Hx : wf_inputs c x.
Hypothesis Hx' : wf_inputs c x'.
Variable sha : bytes -> bytes.
Variable ri : nat -> bytes.
Hypothesis Hsha : hash32 sha.
Hypothesis Hri : forall i m, nth_error (input_domains c) i = Some m -> valid_sample m (ri i).
Variables (ek : encoding_key) (s : gstate).
Hypothesis Er : garble_run sha p rd ri c = Ok (ek, first_output c, s).
Hypothesis HI : Inv sha p rd c (length (gates c)) s.
Hypothesis Hap : apart c rd (gs_wires s).
Notation D := (D rd).
Notation n0 := (num_inputs c).
Notation sha' := (swap_sha rd c x x' sha s).
Notation ri' := (swap_ri rd c x x' ri).
Notation v1 := (v c x).
Notation v2 := (v c x').
Notation L1 := (L rd c x s).

Lemma D2_WF : WF 2 (D 2). Proof. apply D_WF; auto using sup2. Qed.

Lemma swap_hash32 : hash32 sha'.
Proof.
  intros q. unfold swap_sha. destruct (hit rd c x x' s q); [|apply Hsha].
  destruct (Hsha q) as [Hl Hb].
  assert (Hw : WF 2 (padd 2 (mkWire Binary (sha q)) (D 2))).
  { apply padd_WF; auto using sup2, D2_WF. split; auto. split; auto. split; auto. split; auto. }
  destruct Hw as (_ & Hl' & Hb' & _). auto.
Qed.

Lemma input_mod i m : nth_error (input_domains c) i = Some m -> (i < n0)%nat /\ modulus c i = m /\ supported m.
Proof.
  intros E. assert (Hi : (i < length (input_domains c))%nat) by (apply nth_error_Some; congruence).
  pose proof (wf_indoms c Hwf). split; [lia|]. unfold modulus, wire_moduli. rewrite app_nth1 by lia.
  rewrite (nth_error_nth _ _ _ E). split; [reflexivity|]. eapply Forall_forall; [apply (wf_insupp c Hwf)|]. eapply nth_error_In; eauto.
Qed.
Lemma sample_WF m r : supported m -> valid_sample m r -> WF m (mkWire (dom_of m) r).
Proof. intros Hs Hv. apply label_WF; auto. apply Hv. now apply domain_new_supported. Qed.
Lemma WF_sample m w : supported m -> WF m w -> valid_sample m (wval w).
Proof.
  intros Hs Hw d Hd. rewrite domain_new_supported in Hd by auto. inversion Hd; subst d. apply label_WF; auto.
  destruct Hw as (E & H). destruct w as [d v]. simpl in *. subst d. split; auto.
Qed.
Lemma WF_wire m w : WF m w -> mkWire (dom_of m) (wval w) = w.
Proof. intros (E & _). destruct w. simpl in *. now subst. Qed.

(** Zero labels of the inputs. *)
Definition w0 (i : nat) : wire := mkWire (dom_of (modulus c i)) (ri i).
Definition w0' (i : nat) : wire := psub (modulus c i) (lab rd (modulus c i) (w0 i) (nth i x 0)) (pmul (modulus c i) (D (modulus c i)) (nth i x' 0)).
Lemma input_mod' i : (i < n0)%nat -> nth_error (input_domains c) i = Some (modulus c i) /\ supported (modulus c i).
Proof.
  intros Hi. pose proof (wf_indoms c Hwf). destruct (nth_error (input_domains c) i) as [m|] eqn:E.
  - destruct (input_mod i m E) as (_ & <- & H1). auto.
  - apply nth_error_None in E. lia.
Qed.
Lemma w0_WF i : (i < n0)%nat -> WF (modulus c i) (w0 i).
Proof. intros Hi. destruct (input_mod' i Hi) as [E Hs]. apply sample_WF; auto. Qed.
Lemma w0'_WF i : (i < n0)%nat -> WF (modulus c i) (w0' i).
Proof. intros Hi. destruct (input_mod' i Hi) as [E Hs]. apply psub_WF; auto using lab_WF, w0_WF, pmul_WF, D_WF. Qed.
Lemma ri'_in i : (i < n0)%nat -> ri' i = wval (w0' i).
Proof. intros Hi. unfold swap_ri. destruct (Nat.ltb_spec i n0); [reflexivity|lia]. Qed.
Lemma swap_samples : forall i m, nth_error (input_domains c) i = Some m -> valid_sample m (ri' i).
Proof.
  intros i m E. destruct (input_mod i m E) as (Hi & <- & Hs). rewrite ri'_in by auto. apply WF_sample; auto using w0'_WF.
Qed.

Lemma inputs_are r st' ek' s' sh : hash32 sh -> (forall i m, nth_error (input_domains c) i = Some m -> valid_sample m (r i)) ->
  garble_run sh p rd r c = Ok (ek', st', s') -> forall i, (i < n0)%nat -> wn (gs_wires s') i = mkWire (dom_of (modulus c i)) (r i).
Proof.
  intros Hsh Hr E i Hi. destruct (run_start _ _ _ _ _ _ _ _ E) as (dl & ws & _ & Ew & _ & Ek).
  destruct (garble_run_ok sh p rd r Hsh Hrd c Hwf Hr) as (ek2 & s2 & E2 & _ & Hek & _). rewrite E in E2. inversion E2; subst ek2 s2.
  assert (Ewi : nth_error ws i = Some (mkWire (dom_of (modulus c i)) (r i))).
  { unfold garble_inputs in Ew. destruct (input_mod' i Hi) as [Em Hs].
    assert (G : forall l off ws, mapM (fun im : nat * N => wire_new (snd im) (r (fst im))) (combine (seq off (length l)) l) = Ok ws ->
      forall i m, nth_error l i = Some m -> supported m -> nth_error ws i = Some (mkWire (dom_of m) (r (off + i)%nat))).
    { clear. induction l as [|a l IH]; intros off ws E i m Hi Hs; [destruct i; discriminate|].
      cbn [length seq combine mapM fst snd] in E. apply obind_Ok in E as (w & E1 & E). apply obind_Ok in E as (l' & E2 & E).
      inversion E; subst ws. destruct i as [|i]; cbn [nth_error] in *.
      - inversion Hi; subst a. rewrite Nat.add_0_r. unfold wire_new in E1. rewrite domain_new_supported in E1 by auto.
        cbn [obind] in E1. inversion E1; reflexivity.
      - rewrite (IH _ _ E2 i m Hi Hs). do 3 f_equal. lia. }
    exact (G _ _ _ Ew i _ Em Hs). }
  rewrite Ek in Hek. assert (En : nth i (firstn n0 ws) wire_empty = nth i (firstn n0 (gs_wires s')) wire_empty) by now rewrite Hek.
  rewrite !nth_firstn in En by auto. unfold wn. rewrite <- En. now apply nth_error_nth.
Qed.

(** ** Numbers of AND gates *)
Lemma ands_le k : (ands c k <= k)%nat.
Proof.
  unfold ands. assert (H : forall l : list gate, (length (filter is_and l) <= length l)%nat).
  { induction l; cbn [filter length]; [lia|]. destruct (is_and a); cbn [length]; lia. }
  specialize (H (firstn k (gates c))). rewrite firstn_length in H. lia.
Qed.
Lemma ands_mono k k' : (k <= k')%nat -> (ands c k <= ands c k')%nat.
Proof.
  intros H. unfold ands. replace k' with (k + (k' - k))%nat by lia.
  assert (G : forall n k (l : list gate), (length (filter is_and (firstn k l)) <= length (filter is_and (firstn (k + n) l)))%nat).
  { clear. intros n k. induction k as [|k IH]; intros l; [cbn; lia|]. destruct l as [|a l]; [cbn; lia|].
    cbn [firstn Nat.add filter]. specialize (IH l). destruct (is_and a); cbn [length]; lia. }
  apply G.
Qed.
Lemma ands_inj k k' g g' : nth_error (gates c) k = Some g -> nth_error (gates c) k' = Some g' -> is_and g = true -> is_and g' = true ->
  ands c k = ands c k' -> k = k'.
Proof.
  intros Hk Hk' Hg Hg' E. destruct (Nat.lt_trichotomy k k') as [H|[H|H]]; auto; exfalso.
  - pose proof (ands_S ri c Hri k g Hk) as SS. rewrite Hg in SS. pose proof (ands_mono (S k) k' H). lia.
  - pose proof (ands_S ri c Hri k' g' Hk') as SS. rewrite Hg' in SS. pose proof (ands_mono (S k') k H). lia.
Qed.
Lemma tweak_inj k k' : (k < length (gates c))%nat -> (k' < length (gates c))%nat ->
  usize_be (S (ands c k)) = usize_be (S (ands c k')) -> ands c k = ands c k'.
Proof.
  intros Hk Hk' E. pose proof (ands_le k). pose proof (ands_le k'). pose proof (wf_wires c Hwf) as Hn. unfold usize_ok in Hus.
  assert (N.of_nat (S (ands c k)) = N.of_nat (S (ands c k'))); [|lia].
  apply (be_bytes_inj 8); [..|exact E]; change (2 ^ (8 * N.of_nat 8)) with (2 ^ 64); lia.
Qed.

Lemma WF2_len w : WF 2 w -> length (wval w) = 32%nat.
Proof. intros (_ & H & _). exact H. Qed.
Lemma app_eqb (a b : bytes) j j' : length a = length b -> bytes_eqb (a ++ j) (b ++ j') = bytes_eqb a b && bytes_eqb j j'.
Proof.
  intros Hl. apply eq_true_iff_eq. rewrite andb_true_iff, !bytes_eqb_eq. split.
  - revert b Hl. induction a as [|u a IH]; intros [|w b] Hl E; try discriminate; [auto|]. inversion E; subst. cbn [length] in Hl.
    destruct (IH b ltac:(lia) H1). subst. auto.
  - intros [-> ->]. reflexivity.
Qed.

Section And.
Variables (k : nat) (g : gate) (a b : nat) (l : list nat).
Hypothesis Hk : nth_error (gates c) k = Some g.
Hypothesis Ek : g_kind g = GAnd.
Hypothesis Ei : g_inputs g = a :: b :: l.
Notation j := (S (ands c k)).
Notation nA := (padd 2 (L1 a) (D 2)).
Notation nB := (padd 2 (L1 b) (D 2)).

Lemma and_facts : (a < n0 + k)%nat /\ (b < n0 + k)%nat /\ modulus c a = 2 /\ modulus c b = 2 /\ (k < length (gates c))%nat.
Proof.
  destruct (wf_gates c Hwf k g Hk) as (Ho & Hins & Ht & _). unfold gate_typed in Ht. rewrite Ek in Ht.
  destruct Ht as (a' & b' & l' & E & Ha & Hb & _). rewrite Ei in E. inversion E; subst a' b' l'.
  rewrite Ei in Hins. inversion Hins as [|? ? H1 Hins']; subst. inversion Hins' as [|? ? H2 _]; subst.
  assert (k < length (gates c))%nat by (apply nth_error_Some; congruence). repeat split; auto; lia.
Qed.
Lemma wires_lt i : (i < n0 + k)%nat -> (i < num_wires c)%nat.
Proof. intros H. pose proof and_facts. rewrite (wf_wires c Hwf). lia. Qed.
Lemma L1_WF i : (i < n0 + k)%nat -> modulus c i = 2 -> WF 2 (L1 i).
Proof. intros Hi E. rewrite <- E. eapply L_WF; eauto using wires_lt. Qed.
Lemma v_bit y i : wf_inputs c y -> (i < n0 + k)%nat -> modulus c i = 2 -> v c y i < 2.
Proof. intros Hy Hi E. rewrite <- E. eapply v_lt; eauto using wires_lt. Qed.
Lemma wn_WF i : (i < n0 + k)%nat -> modulus c i = 2 -> WF 2 (wn (gs_wires s) i).
Proof. intros Hi E. rewrite <- E. eapply ws_WF; eauto using wires_lt. Qed.
Lemma L1_lab i : modulus c i = 2 -> L1 i = lab rd 2 (wn (gs_wires s) i) (v1 i).
Proof. intros E. unfold L. now rewrite E. Qed.
Lemma nL_lab i : (i < n0 + k)%nat -> modulus c i = 2 -> padd 2 (L1 i) (D 2) = lab rd 2 (wn (gs_wires s) i) (1 - v1 i).
Proof.
  intros Hi E. rewrite L1_lab by auto. pose proof (v_bit x i Hx Hi E) as Hv. pose proof (wn_WF i Hi E) as Hw.
  assert (v1 i = 0 \/ v1 i = 1) as [-> | ->] by lia; change (1 - 0) with 1; change (1 - 1) with 0.
  - rewrite lab2_0, lab2_1 by auto. reflexivity.
  - rewrite lab2_0, lab2_1 by auto. apply WF2_ext; auto using padd_WF, sup2, D2_WF.
    intros i' Hi'. rewrite !nth_padd2 by auto using padd_WF, sup2, D2_WF. rewrite N.lxor_assoc, N.lxor_nilpotent. apply N.lxor_0_r.
Qed.
Lemma samples : good_samples c rd ri. Proof. split; auto. Qed.
Lemma apart_labs u w : u < 2 -> w < 2 -> wval (lab rd 2 (wn (gs_wires s) a) u) <> wval (lab rd 2 (wn (gs_wires s) b) w).
Proof.
  intros Hu Hw. destruct and_facts as (Ha & Hb & Ma & Mb & _).
  assert (Ga : genuine c rd (gs_wires s) a u (lab rd (modulus c a) (wn (gs_wires s) a) u)).
  { eapply lab_genuine; eauto using samples, wires_lt. now rewrite Ma. }
  assert (Gb : genuine c rd (gs_wires s) b w (lab rd (modulus c b) (wn (gs_wires s) b) w)).
  { eapply lab_genuine; eauto using samples, wires_lt. now rewrite Mb. }
  rewrite Ma in Ga. rewrite Mb in Gb. exact (Hap g a b l (nth_error_In _ _ Hk) Ek Ei u w _ _ Hu Hw Ga Gb).
Qed.
Lemma flip_differs i : (i < n0 + k)%nat -> modulus c i = 2 -> wval (padd 2 (L1 i) (D 2)) <> wval (L1 i).
Proof.
  intros Hi E H. rewrite nL_lab, L1_lab in H by auto. pose proof (v_bit x i Hx Hi E) as Hv. pose proof (wn_WF i Hi E) as Hw.
  assert (1 - v1 i = v1 i); [|lia].
  apply (label_inj 2 (wn (gs_wires s) i) (D 2)); auto using sup2, D_delta; [lia|].
  apply wire_ext; [|exact H].
  change (wdom (lab rd 2 (wn (gs_wires s) i) (1 - v1 i)) = wdom (lab rd 2 (wn (gs_wires s) i) (v1 i))).
  destruct (lab_WF rd Hrd 2 (wn (gs_wires s) i) (1 - v1 i) sup2 Hw) as [-> _].
  destruct (lab_WF rd Hrd 2 (wn (gs_wires s) i) (v1 i) sup2 Hw) as [-> _]. reflexivity.
Qed.

Lemma hit_at w : length w = 32%nat -> hit rd c x x' s (w ++ usize_be j) =
  (bytes_eqb (wval nA) w && negb (v1 b =? v2 b)) || (bytes_eqb (wval nB) w && negb (v1 a =? v2 a)).
Proof.
  intros Hl. destruct and_facts as (Ha & Hb & Ma & Mb & Hkl).
  assert (HWA : WF 2 nA) by (apply padd_WF; auto using sup2, L1_WF, D2_WF).
  assert (HWB : WF 2 nB) by (apply padd_WF; auto using sup2, L1_WF, D2_WF).
  assert (Own : hit_gate rd c x x' s (w ++ usize_be j) k =
    (bytes_eqb (wval nA) w && negb (v1 b =? v2 b)) || (bytes_eqb (wval nB) w && negb (v1 a =? v2 a))).
  { unfold hit_gate. rewrite Hk, Ek, Ei. rewrite !app_eqb by (rewrite Hl; auto using WF2_len).
    replace (bytes_eqb (usize_be j) (usize_be j)) with true by (symmetry; now apply bytes_eqb_eq). now rewrite !andb_true_r. }
  rewrite <- Own. unfold hit. apply eq_true_iff_eq. rewrite existsb_exists. split.
  - intros (k' & Hin & Hh). destruct (Nat.eq_dec k' k) as [->|Hne]; auto. exfalso.
    apply in_seq in Hin. unfold hit_gate in Hh. destruct (nth_error (gates c) k') as [g'|] eqn:Hk'; [|discriminate].
    destruct (g_kind g') eqn:Ek'; try discriminate. destruct (g_inputs g') as [|a' [|b' l']] eqn:Ei'; try discriminate.
    assert (Hgen : forall u, length u = 32%nat -> bytes_eqb (u ++ usize_be (S (ands c k'))) (w ++ usize_be j) = false).
    { intros u Hu. rewrite app_eqb by congruence. destruct (bytes_eqb (usize_be (S (ands c k'))) (usize_be j)) eqn:E; [|now rewrite andb_false_r].
      exfalso. apply bytes_eqb_eq in E. apply tweak_inj in E; [|lia|lia]. apply Hne. eapply ands_inj; eauto; unfold is_and; [now rewrite Ek'|now rewrite Ek]. }
    destruct (wf_gates c Hwf k' g' Hk') as (Ho' & Hins & Ht & _). unfold gate_typed in Ht. rewrite Ek' in Ht.
    destruct Ht as (a2 & b2 & l2 & E2 & Ma' & Mb' & _). rewrite Ei' in E2. inversion E2; subst a2 b2 l2.
    rewrite Ei' in Hins. inversion Hins as [|? ? H1 Hins']; subst. inversion Hins' as [|? ? H2 _]; subst.
    pose proof (wf_wires c Hwf) as Hn.
    assert (W : forall i, (i < g_output g')%nat -> modulus c i = 2 -> length (wval (padd 2 (L1 i) (D 2))) = 32%nat).
    { intros i Hi E. apply WF2_len. apply padd_WF; auto using sup2, D2_WF. rewrite <- E. eapply L_WF; eauto. lia. }
    rewrite !Hgen in Hh by auto. discriminate.
  - intros H. exists k. split; [apply in_seq; lia|exact H].
Qed.
Lemma bytes_neq u w : u <> w -> bytes_eqb u w = false.
Proof. intros H. destruct (bytes_eqb u w) eqn:E; auto. apply bytes_eqb_eq in E. contradiction. Qed.
Lemma bytes_same u : bytes_eqb u u = true.
Proof. now apply bytes_eqb_eq. Qed.

Lemma four_points :
  hit rd c x x' s (wval (L1 a) ++ usize_be j) = false /\
  hit rd c x x' s (wval (L1 b) ++ usize_be j) = false /\
  hit rd c x x' s (wval nA ++ usize_be j) = negb (v1 b =? v2 b) /\
  hit rd c x x' s (wval nB ++ usize_be j) = negb (v1 a =? v2 a).
Proof.
  destruct and_facts as (Ha & Hb & Ma & Mb & Hkl). pose proof (v_bit x a Hx Ha Ma) as Va. pose proof (v_bit x b Hx Hb Mb) as Vb.
  pose proof (flip_differs a Ha Ma) as Fa. pose proof (flip_differs b Hb Mb) as Fb.
  assert (HWA : WF 2 nA) by (apply padd_WF; auto using sup2, L1_WF, D2_WF).
  assert (HWB : WF 2 nB) by (apply padd_WF; auto using sup2, L1_WF, D2_WF).
  assert (X1 : wval nB <> wval (L1 a)). { rewrite nL_lab, L1_lab by auto. intros E. symmetry in E. revert E. apply apart_labs; lia. }
  assert (X2 : wval nA <> wval (L1 b)). { rewrite nL_lab, L1_lab by auto. apply apart_labs; lia. }
  assert (X3 : wval nA <> wval nB). { rewrite !nL_lab by auto. apply apart_labs; lia. }
  rewrite !hit_at by auto using WF2_len, L1_WF.
  rewrite !bytes_same, (bytes_neq _ _ Fa), (bytes_neq _ _ Fb), (bytes_neq _ _ X1), (bytes_neq _ _ X2), (bytes_neq _ _ X3).
  rewrite (bytes_neq (wval nB) (wval nA)) by congruence. cbn [andb orb]. rewrite orb_false_r. auto.
Qed.
End And.

(** ** The two AND gates *)
Lemma padd_DD w : WF 2 w -> padd 2 (padd 2 w (D 2)) (D 2) = w.
Proof.
  intros Hw. apply (WF2_ext ri); auto using padd_WF, sup2, D2_WF.
  intros i' Hi'. rewrite !(nth_padd2 ri) by auto using padd_WF, sup2, D2_WF. rewrite N.lxor_assoc, N.lxor_nilpotent. apply N.lxor_0_r.
Qed.
Lemma pair_form sh w u j : hash32 sh -> WF 2 w -> u < 2 ->
  padd 2 (hh sh w j) (hh sh (padd 2 w (D 2)) j) = padd 2 (hh sh (lab rd 2 w u) j) (hh sh (padd 2 (lab rd 2 w u) (D 2)) j).
Proof.
  intros Hh Hw Hu. assert (u = 0 \/ u = 1) as [-> | ->] by lia.
  - now rewrite lab2_0 by auto.
  - rewrite lab2_1 by auto. rewrite padd_DD by auto. apply padd_comm; auto using sup2, hh_WF.
Qed.
Ltac xors := first [reflexivity |
  apply (WF2_ext ri); [auto 12 using padd_WF, sup2, D2_WF | auto 12 using padd_WF, sup2, D2_WF |];
  let i := fresh "i" in let Hi := fresh "Hi" in intros i Hi;
  repeat (rewrite (nth_padd2 ri) by auto 12 using padd_WF, sup2, D2_WF);
  apply N.bits_inj; intro; rewrite ?N.lxor_spec;
  repeat match goal with |- context [N.testbit ?a ?n] => destruct (N.testbit a n) end; reflexivity].

Lemma tables_same wa wb wa2 wb2 va vb va2 vb2 j :
  WF 2 wa -> WF 2 wb -> WF 2 wa2 -> WF 2 wb2 -> va < 2 -> vb < 2 -> va2 < 2 -> vb2 < 2 ->
  lab rd 2 wa va = lab rd 2 wa2 va2 -> lab rd 2 wb vb = lab rd 2 wb2 vb2 ->
  hh sha' (lab rd 2 wa va) j = hh sha (lab rd 2 wa va) j ->
  hh sha' (lab rd 2 wb vb) j = hh sha (lab rd 2 wb vb) j ->
  hh sha' (padd 2 (lab rd 2 wa va) (D 2)) j =
    (if negb (vb =? vb2) then padd 2 (hh sha (padd 2 (lab rd 2 wa va) (D 2)) j) (D 2) else hh sha (padd 2 (lab rd 2 wa va) (D 2)) j) ->
  hh sha' (padd 2 (lab rd 2 wb vb) (D 2)) j =
    (if negb (va =? va2) then padd 2 (hh sha (padd 2 (lab rd 2 wb vb) (D 2)) j) (D 2) else hh sha (padd 2 (lab rd 2 wb vb) (D 2)) j) ->
  and_tg sha rd wa wb j = and_tg sha' rd wa2 wb2 j /\ and_te sha rd wa wb j = and_te sha' rd wa2 wb2 j.
Proof.
  intros Ha Hb Ha2 Hb2 Va Vb Va2 Vb2 EA EB H1 H2 H3 H4. pose proof swap_hash32 as Hs'. pose proof D2_WF as HD. pose proof sup2 as S2.
  assert (HH : forall w j, WF 2 (hh sha w j)) by (intros; now apply hh_WF).
  split.
  - unfold and_tg. rewrite (pair_form sha wa va) by auto. rewrite (pair_form sha' wa2 va2) by auto. rewrite <- EA, H1, H3.
    set (P := hh sha (lab rd 2 wa va) j). set (Q := hh sha (padd 2 (lab rd 2 wa va) (D 2)) j).
    assert (HP : WF 2 P) by apply HH. assert (HQ : WF 2 Q) by apply HH. clearbody P Q.
    assert (Cb : (color wb + vb) mod 2 = (color wb2 + vb2) mod 2).
    { rewrite <- (color_shift 2 wb (D 2) vb), <- (color_shift 2 wb2 (D 2) vb2) by auto using D_delta. f_equal. exact EB. }
    pose proof (color_lt 2 wb S2 Hb) as C1. pose proof (color_lt 2 wb2 S2 Hb2) as C2.
    assert (vb = 0 \/ vb = 1) as Eb by lia. assert (vb2 = 0 \/ vb2 = 1) as Eb2 by lia.
    assert (color wb = 0 \/ color wb = 1) as Ec by lia. assert (color wb2 = 0 \/ color wb2 = 1) as Ec2 by lia.
    destruct Eb as [-> | ->], Eb2 as [-> | ->], Ec as [E1 | E1], Ec2 as [E2 | E2]; rewrite E1, E2 in *; try discriminate Cb;
      cbn [N.eqb negb Pos.eqb]; xors.
  - unfold and_te. rewrite (pair_form sha wb vb) by auto. rewrite (pair_form sha' wb2 vb2) by auto. rewrite <- EB, H2, H4.
    set (P := hh sha (lab rd 2 wb vb) j). set (Q := hh sha (padd 2 (lab rd 2 wb vb) (D 2)) j).
    assert (HP : WF 2 P) by apply HH. assert (HQ : WF 2 Q) by apply HH. clearbody P Q. clear H1 H2 H3 H4.
    assert (va = 0 \/ va = 1) as Ea by lia. assert (va2 = 0 \/ va2 = 1) as Ea2 by lia.
    destruct Ea as [-> | ->], Ea2 as [-> | ->]; cbn [N.eqb negb Pos.eqb]; rewrite ?lab2_0, ?lab2_1 in EA by auto.
    + rewrite EA. reflexivity.
    + rewrite EA. xors.
    + rewrite <- EA. xors.
    + assert (E : wa = wa2). { rewrite <- (padd_DD wa), <- (padd_DD wa2) by auto. now rewrite EA. } rewrite E. reflexivity.
Qed.

Lemma hh_swap w j : hh sha' w j = (if hit rd c x x' s (wval w ++ usize_be j) then padd 2 (hh sha w j) (D 2) else hh sha w j).
Proof.
  unfold hh, swap_sha. destruct (hit rd c x x' s (wval w ++ usize_be j)); [|reflexivity].
  apply (WF_wire 2). apply padd_WF; auto using sup2, D2_WF. exact (hh_WF sha Hsha w j).
Qed.

Section Second.
Variables (ek2 : encoding_key) (s2 : gstate).
Hypothesis Er2 : garble_run sha' p rd ri' c = Ok (ek2, first_output c, s2).
Hypothesis HI2 : Inv sha' p rd c (length (gates c)) s2.
Notation L2 := (L rd c x' s2).

Lemma sum_labels sh y st r : Inv sh p rd c (length (gates c)) st -> wf_inputs c y ->
  (forall i m, nth_error (input_domains c) i = Some m -> valid_sample m (r i)) ->
  forall k g i l, nth_error (gates c) k = Some g -> g_kind g = GAdd -> g_inputs g = i :: l ->
  L rd c y st (n0 + k) = psum (g_domain g) (map (L rd c y st) l) (L rd c y st i).
Proof.
  intros HIs Hy Hr k g i l Hk Ek Ei. destruct (wf_gates c Hwf k g Hk) as (Ho & Hins & Ht & Hs). rewrite Forall_forall in Hins.
  assert (Hkl : (k < length (gates c))%nat) by (apply nth_error_Some; congruence). pose proof (wf_wires c Hwf) as Hnw.
  pose proof HIs as (_ & _ & _ & _ & Hgood & _). specialize (Hgood k g Hkl Hk). unfold good_gate in Hgood. rewrite Ek in Hgood.
  specialize (Hgood i l Ei). unfold gate_typed in Ht. rewrite Ek in Ht. destruct Ht as [_ Hm].
  assert (Mi : modulus c i = g_domain g) by (apply Hm; rewrite Ei; now left).
  assert (Hi : (i < num_wires c)%nat) by (assert (In i (g_inputs g)) by (rewrite Ei; now left); specialize (Hins i H); lia).
  assert (Vi : v c y i < g_domain g) by (rewrite <- Mi; eapply v_lt; eauto).
  assert (Wi : WF (g_domain g) (wn (gs_wires st) i)) by (rewrite <- Mi; eapply ws_WF; eauto).
  assert (ELi : L rd c y st i = padd (g_domain g) (wn (gs_wires st) i) (pmul (g_domain g) (D (g_domain g)) (v c y i))) by (unfold L, lab; now rewrite Mi).
  rewrite ELi.
  assert (HJ : forall j, In j l -> modulus c j = g_domain g /\ (j < num_wires c)%nat).
  { intros j Hj. assert (Hin : In j (g_inputs g)) by (rewrite Ei; now right). split; [now apply Hm|]. specialize (Hins j Hin). lia. }
  rewrite (psum_labels sh p rd r Hrd c Hwf Hr y Hy st HIs (g_domain g) l _ _ Hs Wi Vi HJ).
  unfold L, lab. rewrite (modulus_out ri c Hwf Hri k g Hk). unfold output_domain. rewrite Ek. rewrite <- Ho, Hgood. f_equal. f_equal.
  rewrite Ho, (v_gate c Hwf y Hy k g Hk). unfold gate_value. rewrite Ek, Ei. reflexivity.
Qed.
Lemma mul_labels sh y st r : Inv sh p rd c (length (gates c)) st -> wf_inputs c y ->
  (forall i m, nth_error (input_domains c) i = Some m -> valid_sample m (r i)) ->
  forall k g q i l, nth_error (gates c) k = Some g -> g_kind g = GMul q -> g_inputs g = i :: l ->
  L rd c y st (n0 + k) = pmul (g_domain g) (L rd c y st i) q.
Proof.
  intros HIs Hy Hr k g q i l Hk Ek Ei. destruct (wf_gates c Hwf k g Hk) as (Ho & Hins & Ht & Hs). rewrite Forall_forall in Hins.
  assert (Hkl : (k < length (gates c))%nat) by (apply nth_error_Some; congruence). pose proof (wf_wires c Hwf) as Hnw.
  pose proof HIs as (_ & _ & _ & _ & Hgood & _). specialize (Hgood k g Hkl Hk). unfold good_gate in Hgood. rewrite Ek in Hgood.
  specialize (Hgood i l Ei). unfold gate_typed in Ht. rewrite Ek in Ht. destruct Ht as (i' & l' & E' & Mi & Hq). rewrite Ei in E'. inversion E'; subst i' l'.
  assert (Hi : (i < num_wires c)%nat) by (assert (In i (g_inputs g)) by (rewrite Ei; now left); specialize (Hins i H); lia).
  assert (Vi : v c y i < g_domain g) by (rewrite <- Mi; eapply v_lt; eauto).
  assert (Wi : WF (g_domain g) (wn (gs_wires st) i)) by (rewrite <- Mi; eapply ws_WF; eauto).
  unfold L, lab. rewrite Mi, (modulus_out ri c Hwf Hri k g Hk). unfold output_domain. rewrite Ek.
  rewrite pmul_padd, pmul_pmul by auto using pmul_WF, D_WF. rewrite <- Ho, Hgood. f_equal. f_equal.
  rewrite Ho, (v_gate c Hwf y Hy k g Hk). unfold gate_value. rewrite Ek, Ei. reflexivity.
Qed.

Lemma and_step k g a b l : nth_error (gates c) k = Some g -> g_kind g = GAnd -> g_inputs g = a :: b :: l ->
  L1 a = L2 a -> L1 b = L2 b ->
  L1 (n0 + k) = L2 (n0 + k) /\
  and_tg sha rd (wn (gs_wires s) a) (wn (gs_wires s) b) (S (ands c k)) = and_tg sha' rd (wn (gs_wires s2) a) (wn (gs_wires s2) b) (S (ands c k)) /\
  and_te sha rd (wn (gs_wires s) a) (wn (gs_wires s) b) (S (ands c k)) = and_te sha' rd (wn (gs_wires s2) a) (wn (gs_wires s2) b) (S (ands c k)).
Proof.
  intros Hk Ek Ei EA EB. destruct (and_facts k g a b l Hk Ek Ei) as (Ha & Hb & Ma & Mb & Hkl).
  destruct (four_points k g a b l Hk Ek Ei) as (P1 & P2 & P3 & P4).
  destruct (wf_gates c Hwf k g Hk) as (Ho & _ & _ & _).
  pose proof (wires_lt k g a b l Hk Ek Ei) as Hlt. pose proof (Hlt a Ha) as Ha'. pose proof (Hlt b Hb) as Hb'.
  pose proof swap_hash32 as Hs'. pose proof swap_samples as Hr'.
  assert (Wa : WF 2 (wn (gs_wires s) a)) by (rewrite <- Ma; eapply ws_WF; eauto).
  assert (Wb : WF 2 (wn (gs_wires s) b)) by (rewrite <- Mb; eapply ws_WF; eauto).
  assert (Wa2 : WF 2 (wn (gs_wires s2) a)) by (rewrite <- Ma; eapply ws_WF; eauto).
  assert (Wb2 : WF 2 (wn (gs_wires s2) b)) by (rewrite <- Mb; eapply ws_WF; eauto).
  assert (Va : v1 a < 2) by (rewrite <- Ma; eapply v_lt; eauto). assert (Vb : v1 b < 2) by (rewrite <- Mb; eapply v_lt; eauto).
  assert (Va2 : v2 a < 2) by (rewrite <- Ma; eapply v_lt; eauto). assert (Vb2 : v2 b < 2) by (rewrite <- Mb; eapply v_lt; eauto).
  assert (LA : L1 a = lab rd 2 (wn (gs_wires s) a) (v1 a)) by (unfold L; now rewrite Ma).
  assert (LB : L1 b = lab rd 2 (wn (gs_wires s) b) (v1 b)) by (unfold L; now rewrite Mb).
  assert (LA2 : L2 a = lab rd 2 (wn (gs_wires s2) a) (v2 a)) by (unfold L; now rewrite Ma).
  assert (LB2 : L2 b = lab rd 2 (wn (gs_wires s2) b) (v2 b)) by (unfold L; now rewrite Mb).
  assert (T : and_tg sha rd (wn (gs_wires s) a) (wn (gs_wires s) b) (S (ands c k)) = and_tg sha' rd (wn (gs_wires s2) a) (wn (gs_wires s2) b) (S (ands c k)) /\
    and_te sha rd (wn (gs_wires s) a) (wn (gs_wires s) b) (S (ands c k)) = and_te sha' rd (wn (gs_wires s2) a) (wn (gs_wires s2) b) (S (ands c k))).
  { apply (tables_same _ _ _ _ (v1 a) (v1 b) (v2 a) (v2 b)); auto; try congruence; rewrite <- ?LA, <- ?LB, hh_swap, ?P1, ?P2, ?P3, ?P4; reflexivity. }
  split; [|exact T]. destruct T as [Tg Te].
  pose proof (half_gate sha rd ri Hsha Hrd _ _ (v1 a) (v1 b) (S (ands c k)) (S (ands c k)) Wa Wb Va Vb) as G1.
  pose proof (half_gate sha' rd ri Hs' Hrd _ _ (v2 a) (v2 b) (S (ands c k)) (S (ands c k)) Wa2 Wb2 Va2 Vb2) as G2.
  cbv zeta in G1, G2. rewrite <- LA, <- LB in G1. rewrite <- LA2, <- LB2, <- EA, <- EB, <- Tg, <- Te in G2.
  assert (H1 : hh sha' (L1 a) (S (ands c k)) = hh sha (L1 a) (S (ands c k))) by now rewrite hh_swap, P1.
  assert (H2 : hh sha' (L1 b) (S (ands c k)) = hh sha (L1 b) (S (ands c k))) by now rewrite hh_swap, P2.
  rewrite H1, H2 in G2. rewrite G1 in G2. clear G1 H1 H2.
  pose proof HI as (_ & _ & _ & _ & Hg1 & _). specialize (Hg1 k g Hkl Hk). unfold good_gate in Hg1. rewrite Ek in Hg1. destruct (Hg1 a b l Ei) as [O1 _].
  pose proof HI2 as (_ & _ & _ & _ & Hg2 & _). specialize (Hg2 k g Hkl Hk). unfold good_gate in Hg2. rewrite Ek in Hg2. destruct (Hg2 a b l Ei) as [O2 _].
  rewrite <- O1, <- O2 in G2.
  assert (Mo : modulus c (n0 + k) = 2) by (rewrite (modulus_out ri c Hwf Hri k g Hk); unfold output_domain; now rewrite Ek).
  unfold L. rewrite Mo, <- Ho.
  assert (Q1 : v1 (g_output g) = v1 a * v1 b). { rewrite Ho, (v_gate c Hwf x Hx k g Hk). unfold gate_value. rewrite Ek, Ei. reflexivity. }
  assert (Q2 : v2 (g_output g) = v2 a * v2 b). { rewrite Ho, (v_gate c Hwf x' Hx' k g Hk). unfold gate_value. rewrite Ek, Ei. reflexivity. }
  rewrite Q1, Q2. exact G2.
Qed.

Lemma labels_same i : (i < num_wires c)%nat -> L1 i = L2 i.
Proof.
  induction i as [i IH] using (well_founded_induction lt_wf). intros Hi. pose proof (wf_wires c Hwf) as Hnw.
  pose proof swap_hash32 as Hs'. pose proof swap_samples as Hr'.
  destruct (Nat.lt_ge_cases i n0) as [Hin|Hge].
  - destruct (input_mod' i Hin) as [Em Hs].
    assert (E1 : wn (gs_wires s) i = w0 i) by exact (inputs_are ri _ _ _ sha Hsha Hri Er i Hin).
    assert (E2 : wn (gs_wires s2) i = w0' i).
    { rewrite (inputs_are ri' _ _ _ sha' Hs' Hr' Er2 i Hin), ri'_in by auto. apply WF_wire. now apply w0'_WF. }
    unfold L. rewrite E1, E2, (v_input ri c Hri x Hx i Hin), (v_input ri c Hri x' Hx' i Hin). unfold w0', lab at 2.
    rewrite padd_psub; auto using lab_WF, w0_WF, pmul_WF, D_WF.
  - destruct (nth_error (gates c) (i - n0)) as [g|] eqn:Hk. 2:{ apply nth_error_None in Hk. lia. }
    remember (i - n0)%nat as k eqn:Ekk. assert (Eik : i = (n0 + k)%nat) by lia. rewrite Eik in *. clear Eik Ekk.
    destruct (wf_gates c Hwf k g Hk) as (Ho & Hins & Ht & Hs). rewrite Forall_forall in Hins.
    assert (IH' : forall j, In j (g_inputs g) -> L1 j = L2 j) by (intros j Hj; specialize (Hins j Hj); apply IH; lia).
    unfold gate_typed in Ht. destruct (g_kind g) as [|q|kk|] eqn:Ek.
    + destruct Ht as [Hne _]. destruct (g_inputs g) as [|j l] eqn:Ei; [now destruct Hne|].
      rewrite (sum_labels sha x s ri HI Hx Hri k g j l Hk Ek Ei), (sum_labels sha' x' s2 ri' HI2 Hx' Hr' k g j l Hk Ek Ei).
      rewrite (IH' j) by now left. f_equal. apply map_ext_in. intros u Hu. apply IH'. now right.
    + destruct Ht as (j & l & Ei & _).
      rewrite (mul_labels sha x s ri HI Hx Hri k g q j l Hk Ek Ei), (mul_labels sha' x' s2 ri' HI2 Hx' Hr' k g q j l Hk Ek Ei).
      rewrite (IH' j); [reflexivity|]. rewrite Ei. now left.
    + exfalso. exact (Hpf g kk (nth_error_In _ _ Hk) Ek).
    + destruct Ht as (a & b & l & Ei & _). apply (and_step k g a b l Hk Ek Ei); apply IH'; rewrite Ei; [now left|right; now left].
Qed.

Lemma half_same : gs_half s = gs_half s2.
Proof.
  destruct (run_half _ _ _ _ _ _ _ _ Hpf Er) as [K1 _]. destruct (run_half _ _ _ _ _ _ _ _ Hpf Er2) as [K2 _].
  assert (ND : NoDup (keys (gs_half s)) /\ forall o, In o (keys (gs_half s)) -> and_out_ (gates c) o).
  { clear Er2 HI2 K2. pose proof Er as E. unfold garble_run in E. apply obind_Ok in E as (dl & _ & E). apply obind_Ok in E as (ws & _ & E).
    apply obind_Ok in E as (ins & _ & E). apply obind_Ok in E as (st' & _ & E). apply obind_Ok in E as (s' & Es & E). inversion E; subst s'.
    destruct (garble_keys sha p dl st' (gates c) _ _ Es) as (_ & N & _ & K & _); [constructor|constructor|]. split; [exact N|].
    intros o Ho. destruct (K o Ho) as [[]|H]; exact H. }
  destruct ND as [ND KA]. apply alookup_keys; [exact ND|congruence|].
  intros o Ho. destruct (KA o Ho) as (g & Hg & <- & Ek). apply In_nth_error in Hg as (k & Hk).
  destruct (wf_gates c Hwf k g Hk) as (Hout & Hins & Ht & _). rewrite Forall_forall in Hins. unfold gate_typed in Ht. rewrite Ek in Ht. destruct Ht as (a & b & l & Ei & _).
  assert (Hkl : (k < length (gates c))%nat) by (apply nth_error_Some; congruence). pose proof (wf_wires c Hwf) as Hnw.
  assert (La : L1 a = L2 a) by (apply labels_same; assert (In a (g_inputs g)) by (rewrite Ei; now left); specialize (Hins a H); lia).
  assert (Lb : L1 b = L2 b) by (apply labels_same; assert (In b (g_inputs g)) by (rewrite Ei; right; now left); specialize (Hins b H); lia).
  destruct (and_step k g a b l Hk Ek Ei La Lb) as (_ & Tg & Te).
  pose proof HI as (_ & _ & _ & _ & Hg1 & _). specialize (Hg1 k g Hkl Hk). unfold good_gate in Hg1. rewrite Ek in Hg1. destruct (Hg1 a b l Ei) as [_ O1].
  pose proof HI2 as (_ & _ & _ & _ & Hg2 & _). specialize (Hg2 k g Hkl Hk). unfold good_gate in Hg2. rewrite Ek in Hg2. destruct (Hg2 a b l Ei) as [_ O2].
  rewrite O1, O2, Tg, Te. reflexivity.
Qed.

(** The hash of decoding strings is unchanged: they have 42 bytes. *)
Lemma hit_len q : length q <> 40%nat -> hit rd c x x' s q = false.
Proof.
  intros Hq. unfold hit. apply not_true_is_false. intros H. apply existsb_exists in H as (k & Hin & H). apply in_seq in Hin.
  unfold hit_gate in H. destruct (nth_error (gates c) k) as [g|] eqn:Hk; [|discriminate].
  destruct (g_kind g) eqn:Ek; try discriminate. destruct (g_inputs g) as [|a [|b l]] eqn:Ei; try discriminate.
  destruct (and_facts k g a b l Hk Ek Ei) as (Ha & Hb & Ma & Mb & Hkl).
  assert (W : forall i, (i < n0 + k)%nat -> modulus c i = 2 -> bytes_eqb (wval (padd 2 (L1 i) (D 2)) ++ usize_be (S (ands c k))) q = false).
  { intros i Hi E. apply bytes_neq. intros <-. apply Hq. rewrite app_length, WF2_len.
    - unfold usize_be. now rewrite be_bytes_length.
    - apply padd_WF; auto using sup2, D2_WF. eapply L1_WF; eauto. }
  rewrite !W in H by auto. discriminate.
Qed.
Hypothesis Hout : circuit_outputs c x = circuit_outputs c x'.
Lemma outs_v o : (first_output c <= o)%nat -> v1 o = v2 o.
Proof.
  intros Ho. unfold v. replace o with (first_output c + (o - first_output c))%nat by lia.
  unfold circuit_outputs in Hout. fold (first_output c) in Hout. rewrite <- !nth_skipn. now rewrite Hout.
Qed.
Lemma d_same : gs_d s = gs_d s2.
Proof.
  pose proof swap_hash32 as Hs'. pose proof swap_samples as Hr'. pose proof (wf_wires c Hwf) as Hnw. pose proof (wf_outs c Hwf) as Hno.
  assert (L1' : length (gs_d s) = num_outputs c) by (eapply gs_d_length; eauto).
  assert (L2' : length (gs_d s2) = num_outputs c) by (eapply gs_d_length; eauto).
  pose proof HI as (_ & _ & _ & _ & _ & _ & D1). pose proof HI2 as (_ & _ & _ & _ & _ & _ & D2).
  apply (nth_ext _ _ [] []); [congruence|]. intros i Hi.
  rewrite (nth_error_nth _ _ [] (D1 i ltac:(lia))), (nth_error_nth _ _ [] (D2 i ltac:(lia))).
  fold (first_output c). set (o := (first_output c + i)%nat). assert (Ho : (o < num_wires c)%nat) by (unfold o, first_output; lia).
  assert (Ew : wn (gs_wires s) o = wn (gs_wires s2) o).
  { pose proof (labels_same o Ho) as E. unfold L in E. rewrite (outs_v o ltac:(unfold o; lia)) in E. unfold lab in E.
    assert (Hs : supported (modulus c o)) by (eapply modulus_supported; eauto).
    assert (W1 : WF (modulus c o) (wn (gs_wires s) o)) by (eapply ws_WF; eauto). assert (W2 : WF (modulus c o) (wn (gs_wires s2) o)) by (eapply ws_WF; eauto).
    rewrite (padd_comm _ Hs (wn (gs_wires s) o)), (padd_comm _ Hs (wn (gs_wires s2) o)) in E by auto using pmul_WF, D_WF.
    apply (padd_cancel_l _ Hs) in E; auto using pmul_WF, D_WF. }
  unfold decvals. rewrite Ew. apply map_ext. intros k. unfold hash, swap_sha. rewrite hit_len; [reflexivity|].
  rewrite !app_length. unfold usize_be, u16_be. rewrite !be_bytes_length.
  assert (Hl : length (wval (lab rd (modulus c o) (wn (gs_wires s2) o) (N.of_nat k))) = 32%nat).
  { assert (Hs : supported (modulus c o)) by (eapply modulus_supported; eauto).
    destruct (lab_WF rd Hrd (modulus c o) (wn (gs_wires s2) o) (N.of_nat k) Hs) as (_ & H & _); [eapply ws_WF; eauto|exact H]. }
  lia.
Qed.
End Second.
End TwoWorlds.

(** ** Assembly *)
Section All.
Variable p : profile.
Variable rd : N -> bytes.
Variable c : circuit.
Hypothesis Hwf : wf_circuit c.
Hypothesis Hpf : projection_free c.
Hypothesis Hus : usize_ok (num_wires c).

Lemma swap_ok x x' w : wf_inputs c x -> wf_inputs c x' -> circuit_outputs c x = circuit_outputs c x' -> fair p rd c w ->
  fair p rd c (swap rd c x x' p w) /\
  (exists r, view p rd c x w = Ok r /\ view p rd c x' (swap rd c x x' p w) = Ok r) /\
  same_world (swap rd c x' x p (swap rd c x x' p w)) w /\
  (forall q, fst (swap rd c x x' p w) q <> fst w q -> unheld p rd c x w q).
Proof.
  intros Hx Hx' Hout (Hsha & Hsam & Hfair). destruct w as [sha ri]. cbn [fst snd] in *. assert (Hsam' := Hsam). destruct Hsam' as [Hrd Hri].
  destruct (garble_facts sha p rd ri c Hsha Hsam Hwf) as (gc & ek & dk & s & Eg & Er & Egc & Edk & HI & Hek & Hdl).
  pose proof (Hfair _ _ _ Er) as Hap.
  assert (Esw : swap rd c x x' p (sha, ri) = (swap_sha rd c x x' sha s, swap_ri rd c x x' ri)) by (unfold swap; cbn [fst snd]; now rewrite Er).
  pose proof (swap_hash32 rd c Hrd x x' sha Hsha s) as Hsha2.
  pose proof (swap_samples rd c Hwf Hrd x x' ri Hri) as Hri2.
  set (sha2 := swap_sha rd c x x' sha s) in *. set (ri2 := swap_ri rd c x x' ri) in *.
  assert (Hsam2 : good_samples c rd ri2) by (split; auto).
  destruct (garble_facts sha2 p rd ri2 c Hsha2 Hsam2 Hwf) as (gc2 & ek2 & dk2 & s2 & Eg2 & Er2 & Egc2 & Edk2 & HI2 & Hek2 & Hdl2).
  pose proof (labels_same p rd c Hwf Hpf Hus Hrd x x' Hx Hx' sha ri Hsha Hri ek s Er HI Hap ek2 s2 Er2 HI2) as HL.
  pose proof (half_same p rd c Hwf Hpf Hus Hrd x x' Hx Hx' sha ri Hsha Hri ek s Er HI Hap ek2 s2 Er2 HI2) as HH.
  pose proof (d_same p rd c Hwf Hpf Hus Hrd x x' Hx Hx' sha ri Hsha Hri ek s Er HI Hap ek2 s2 Er2 HI2 Hout) as HD.
  destruct (run_half _ _ _ _ _ _ _ _ Hpf Er) as [_ F1]. destruct (run_half _ _ _ _ _ _ _ _ Hpf Er2) as [_ F2].
  assert (V1 : encode p ek x = Ok (map (L rd c x s) (seq 0 (num_inputs c)))) by (eapply encode_ok; eauto).
  assert (V2 : encode p ek2 x' = Ok (map (L rd c x' s2) (seq 0 (num_inputs c)))) by (eapply encode_ok; eauto).
  pose proof (wf_wires c Hwf) as Hnw.
  assert (VL : map (L rd c x' s2) (seq 0 (num_inputs c)) = map (L rd c x s) (seq 0 (num_inputs c))).
  { apply map_ext_in. intros i Hi. apply in_seq in Hi. symmetry. apply HL. lia. }
  assert (Bit : forall y i, wf_inputs c y -> (i < num_wires c)%nat -> modulus c i = 2 -> v c y i < 2).
  { intros y i Hy Hi Em. rewrite <- Em. eapply v_lt; eauto. }
  rewrite Esw. cbn [fst snd]. split; [|split; [|split]].
  - split; [exact Hsha2|]. split; [exact Hsam2|]. intros ek' st' s' E'. cbn [fst snd] in E'. rewrite Er2 in E'. inversion E'; subst ek' st' s'. clear E'.
    intros g a b l Hg Ek Ei u w y z Hu Hw Gy Gz. apply In_nth_error in Hg as (k & Hk).
    destruct (and_facts c Hwf ri Hri k g a b l Hk Ek Ei) as (Ha & Hb & Ma & Mb & Hkl).
    assert (T : forall i u y, (i < num_wires c)%nat -> modulus c i = 2 -> u < 2 -> genuine c rd (gs_wires s2) i u y ->
      exists u', u' < 2 /\ genuine c rd (gs_wires s) i u' y).
    { clear u w y z Hu Hw Gy Gz. intros i u y Hi Em Hu G.
      assert (Ey : y = lab rd 2 (wn (gs_wires s2) i) u).
      { apply (genuine_unique c rd (gs_wires s2) i u); [rewrite Em; exact sup2|exact G|]. rewrite <- Em. eapply lab_genuine; eauto. now rewrite Em. }
      pose proof (Bit x i Hx Hi Em) as B1. pose proof (Bit x' i Hx' Hi Em) as B2.
      pose proof (HL i Hi) as E. unfold L in E. rewrite Em in E.
      assert (W1 : WF 2 (wn (gs_wires s) i)) by (rewrite <- Em; eapply ws_WF; eauto).
      assert (W2 : WF 2 (wn (gs_wires s2) i)) by (rewrite <- Em; eapply ws_WF; eauto).
      set (t := (u + v c x i + v c x' i) mod 2). assert (Ht : t < 2) by (apply N.mod_lt; lia). exists t. split; [exact Ht|].
      assert (Et : y = lab rd 2 (wn (gs_wires s) i) t).
      { rewrite Ey. assert (v c x i = 0 \/ v c x i = 1) as K1 by lia. assert (v c x' i = 0 \/ v c x' i = 1) as K2 by lia.
        assert (u = 0 \/ u = 1) as K3 by lia. unfold t. destruct K1 as [K1|K1], K2 as [K2|K2]; rewrite K1, K2 in *;
        rewrite ?lab2_0, ?lab2_1 in E by auto; destruct K3 as [-> | ->];
        match goal with |- context [?a mod 2] => let r := eval vm_compute in (a mod 2) in change (a mod 2) with r end;
        rewrite ?lab2_0, ?lab2_1 by auto; try congruence.
        all: try (rewrite E; rewrite (padd_DD rd Hrd ri) by auto; reflexivity).
        all: try (rewrite <- E; rewrite (padd_DD rd Hrd ri) by auto; reflexivity).
        all: rewrite <- (padd_DD rd Hrd ri (wn (gs_wires s) i)), <- (padd_DD rd Hrd ri (wn (gs_wires s2) i)) by auto; rewrite E; reflexivity. }
      rewrite Et, <- Em. eapply lab_genuine; eauto. now rewrite Em. }
    destruct (T a u y) as (u' & Hu' & Gy'); auto; [lia|]. destruct (T b w z) as (w' & Hw' & Gz'); auto; [lia|].
    exact (Hap g a b l (nth_error_In _ _ Hk) Ek Ei u' w' y z Hu' Hw' Gy' Gz').
  - exists (gc, dk, map (L rd c x s) (seq 0 (num_inputs c))). unfold view. cbn [fst snd].
    rewrite Eg, Eg2. cbn [obind]. rewrite V1, V2. cbn [obind]. split; [reflexivity|]. rewrite VL, Egc, Egc2, Edk, Edk2, HH, HD, F1, F2. reflexivity.
  - unfold swap. cbn [fst snd]. rewrite Er2. unfold same_world. cbn [fst snd]. split.
    + intros q. assert (Eh : hit rd c x' x s2 q = hit rd c x x' s q).
      { unfold hit. apply eq_true_iff_eq. rewrite !existsb_exists.
        assert (Eg1 : forall k, hit_gate rd c x' x s2 q k = hit_gate rd c x x' s q k).
        { intros k. unfold hit_gate. destruct (nth_error (gates c) k) as [g|] eqn:Hk; [|reflexivity]. destruct (g_kind g) eqn:Ek; try reflexivity.
          destruct (g_inputs g) as [|a [|b l]] eqn:Ei; try reflexivity.
          destruct (and_facts c Hwf ri Hri k g a b l Hk Ek Ei) as (Ha & Hb & Ma & Mb & Hkl).
          rewrite (HL a), (HL b) by lia. now rewrite (N.eqb_sym (v c x' b)), (N.eqb_sym (v c x' a)). }
        split; intros (k & Hk & H); exists k; (split; [exact Hk|]); [rewrite <- Eg1|rewrite Eg1]; exact H. }
      unfold swap_sha at 1. rewrite Eh. unfold sha2, swap_sha. destruct (hit rd c x x' s q); [|reflexivity].
      assert (Wq : WF 2 (mkWire Binary (sha q))). { destruct (Hsha q). split; auto. split; auto. split; auto. split; auto. }
      pose proof (padd_WF 2 sup2 _ _ Wq (D2_WF rd Hrd)) as Wp.
      change (mkWire Binary (wval (padd 2 (mkWire Binary (sha q)) (D rd 2)))) with (mkWire (dom_of 2) (wval (padd 2 (mkWire Binary (sha q)) (D rd 2)))).
      rewrite (WF_wire 2) by exact Wp. rewrite (padd_DD rd Hrd ri) by exact Wq. reflexivity.
    + intros i. unfold swap_ri at 1. destruct (Nat.ltb_spec i (num_inputs c)) as [Hi|Hi].
      2:{ unfold ri2, swap_ri. destruct (Nat.ltb_spec i (num_inputs c)); [lia|reflexivity]. }
      cbv zeta. destruct (input_mod' rd c Hwf Hrd ri Hri i Hi) as [Em Hs].
      unfold ri2. rewrite (ri'_in rd c x x' ri Hri i Hi). rewrite (WF_wire (modulus c i)) by now apply w0'_WF.
      pose proof (w0_WF rd c Hwf Hrd ri Hri i Hi) as W0. pose proof (w0'_WF rd c Hwf Hrd x x' ri Hri i Hi) as W0'.
      pose proof (D_WF rd Hrd _ Hs) as WD.
      unfold lab. unfold w0' at 1. rewrite padd_psub by auto using lab_WF, pmul_WF.
      unfold lab. rewrite (padd_comm _ Hs) by auto using pmul_WF. rewrite psub_padd by auto using pmul_WF. reflexivity.
  - intros q Hq. unfold sha2, swap_sha in Hq. destruct (hit rd c x x' s q) eqn:Eh; [|now destruct Hq].
    unfold hit in Eh. apply existsb_exists in Eh as (k & _ & Eh). unfold hit_gate in Eh.
    destruct (nth_error (gates c) k) as [g|] eqn:Hk; [|discriminate]. destruct (g_kind g) eqn:Ek; try discriminate.
    destruct (g_inputs g) as [|a [|b l]] eqn:Ei; try discriminate.
    destruct (and_facts c Hwf ri Hri k g a b l Hk Ek Ei) as (Ha & Hb & Ma & Mb & Hkl).
    assert (Gn : forall i, (i < num_inputs c + k)%nat -> modulus c i = 2 ->
      genuine c rd (gs_wires s) i (1 - nth i (circuit_values c x) 0) (padd 2 (L rd c x s i) (D rd 2))).
    { intros i Hi Em. erewrite (nL_lab p rd c Hwf Hrd x Hx sha ri Hri s HI k g a b l Hk Ek Ei) by auto.
      change (nth i (circuit_values c x) 0) with (v c x i). rewrite <- Em. eapply lab_genuine; eauto; [lia|]. rewrite Em. lia. }
    apply orb_true_iff in Eh as [Eh|Eh]; apply andb_true_iff in Eh as [Eh _]; apply bytes_eqb_eq in Eh; subst q.
    + exists ek, (first_output c), s, g, a, (S (ands c k)), (padd 2 (L rd c x s a) (D rd 2)).
      cbn [fst snd]. split; [exact Er|]. split; [eapply nth_error_In; eauto|]. split; [exact Ek|]. split; [rewrite Ei; now left|]. split; [auto|reflexivity].
    + exists ek, (first_output c), s, g, b, (S (ands c k)), (padd 2 (L rd c x s b) (D rd 2)).
      cbn [fst snd]. split; [exact Er|]. split; [eapply nth_error_In; eauto|]. split; [exact Ek|]. split; [rewrite Ei; right; now left|]. split; [auto|reflexivity].
Qed.
End All.
