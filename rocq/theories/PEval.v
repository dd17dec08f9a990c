(** When [Circuit::eval] is right. *)
From Coq Require Import List NArith Bool Arith Lia.
From Verif Require Import Base MUtil MWires MCircuit SpecWires SpecCircuit SpecEval PBase PWires PGarble PCircuit.
Import ListNotations.
Open Scope N_scope.

Section Eval.
Variables (p : profile) (c : circuit) (x : list N).
Hypothesis Hnw : num_wires c = (num_inputs c + length (gates c))%nat.
Hypothesis Hlx : length x = num_inputs c.
Hypothesis Hord : forall k g, nth_error (gates c) k = Some g ->
  g_output g = (num_inputs c + k)%nat /\ Forall (fun i => (i < g_output g)%nat) (g_inputs g).
Let vals := circuit_values c x.
Let step := fun ws g => let* v := eval_gate p ws g in set_idx ws (g_output g) v.
Let init := foldM (fun ws ix => set_idx ws (fst ix) (snd ix)) (combine (seq 0 (length x)) x) (repeat 0 (num_wires c)).

Lemma vals_length : length vals = num_wires c.
Proof. unfold vals, circuit_values. rewrite run_gates_length. lia. Qed.
Lemma eval_gate_ext ws ws' g : (forall i, In i (g_inputs g) -> nth_error ws i = nth_error ws' i) -> eval_gate p ws g = eval_gate p ws' g.
Proof.
  intros H. unfold eval_gate. destruct (g_kind g) as [|k|k|].
  - f_equal. revert H. generalize 0. induction (g_inputs g) as [|i l IH]; intros a H; cbn [foldM]; [reflexivity|].
    unfold idx at 1 3. rewrite (H i) by now left. destruct (unwrap PIndex (nth_error ws' i)); cbn [obind]; auto.
    destruct (uadd p 16 a a0); cbn [obind]; auto. apply IH. intros; apply H. now right.
  - destruct (g_inputs g) as [|i l]; cbn; auto. unfold idx. now rewrite (H i) by now left.
  - destruct (g_inputs g) as [|i l]; cbn; auto. unfold idx. now rewrite (H i) by now left.
  - destruct (g_inputs g) as [|i l]; cbn; auto. unfold idx. now rewrite (H i) by now left.
Qed.
Lemma init_ok : exists ws, init = Ok ws /\ length ws = num_wires c /\ forall i, (i < num_inputs c)%nat -> nth_error ws i = nth_error vals i.
Proof.
  destruct (foldM_inv (fun ws (ix : nat * N) => set_idx ws (fst ix) (snd ix))
    (fun q ws => length ws = num_wires c /\ forall i, (i < q)%nat -> nth_error ws i = nth_error vals i)
    (combine (seq 0 (length x)) x) (repeat 0 (num_wires c))) as (ws & E & Hl & Hws).
  - split. apply repeat_length. intros; lia.
  - intros q [i xi] ws Hq [Hl Hws]. cbn [fst snd].
    assert (Hql : (q < length x)%nat).
    { assert (nth_error (combine (seq 0 (length x)) x) q <> None) as H by congruence.
      apply nth_error_Some in H. rewrite combine_length, seq_length in H. lia. }
    rewrite (nth_error_nth' _ (0%nat, 0)) in Hq by (rewrite combine_length, seq_length; lia).
    rewrite combine_nth in Hq by apply seq_length. rewrite seq_nth in Hq by auto.
    inversion Hq; subst i xi. rewrite set_idx_lt by lia.
    eexists; split; [reflexivity|]. split. now rewrite set_nth_length.
    intros i Hi. rewrite set_nth_nth_error by lia. destruct (Nat.eqb_spec i q) as [->|].
    + pose proof vals_length. rewrite (nth_error_nth' vals 0) by lia. f_equal. cbn. unfold vals, circuit_values. symmetry. apply run_gates_prefix. auto.
    + apply Hws. lia.
  - rewrite combine_length, seq_length, Nat.min_id in Hws. exists ws. split; [exact E|]. split; [exact Hl|]. rewrite <- Hlx. exact Hws.
Qed.
(** The later gates leave the earlier wires alone. *)
Lemma steps_keep : forall gs k ws ws', (forall j g, nth_error gs j = Some g -> g_output g = (k + j)%nat) -> foldM step gs ws = Ok ws' ->
  length ws' = length ws /\ forall i, (i < k)%nat -> nth_error ws' i = nth_error ws i.
Proof.
  induction gs as [|g gs IH]; intros k ws ws' Ho E; cbn [foldM] in E.
  - injection E as <-. auto.
  - unfold step at 1 in E. destruct (eval_gate p ws g) as [v| | |]; cbn [obind] in E; try discriminate E.
    destruct (set_idx ws (g_output g) v) as [ws1| | |] eqn:S1; cbn [obind] in E; try discriminate E.
    pose proof (Ho 0%nat g eq_refl) as H0.
    destruct (IH (S k) ws1 ws') as [L H]; [|exact E|].
    { intros j g' Hj. rewrite (Ho (S j) g' Hj). lia. }
    unfold set_idx in S1. destruct (Nat.ltb_spec (g_output g) (length ws)); [|discriminate S1]. injection S1 as <-.
    rewrite set_nth_length in L. split; [exact L|]. intros i Hi. rewrite H by lia. rewrite set_nth_nth_error by lia.
    destruct (Nat.eqb_spec i (g_output g)); [lia|reflexivity].
Qed.
Lemma eval_iff : eval p c x = Ok vals <->
  (forall g, In g (gates c) -> eval_gate p vals g = Ok (gate_value g (map (fun i => nth i vals 0) (g_inputs g)))).
Proof.
  assert (Hv : forall k g, nth_error (gates c) k = Some g -> nth_error vals (num_inputs c + k) = Some (gate_value g (map (fun i => nth i vals 0) (g_inputs g)))).
  { intros k g Hk. destruct (Hord k g Hk) as [Ho Hi]. assert ((k < length (gates c))%nat) by (apply nth_error_Some; congruence).
    pose proof vals_length. rewrite (nth_error_nth' _ 0) by lia. f_equal. unfold vals, circuit_values. rewrite <- Hlx. apply run_gates_nth; auto.
    rewrite Hlx, <- Ho. exact Hi. }
  destruct init_ok as (ws & Ei & Li & Hi). unfold eval. fold init. rewrite Ei. cbn [obind]. fold step. split.
  - intros E g Hg. apply In_nth_error in Hg as [k Hk]. pose proof (nth_error_split _ _ Hk) as (g1 & g2 & Eg & Lk).
    rewrite Eg, foldM_app in E. destruct (foldM step g1 ws) as [w1| | |] eqn:E1; cbn [obind foldM] in E; try discriminate E.
    unfold step at 1 in E. destruct (eval_gate p w1 g) as [y| | |] eqn:Ey; cbn [obind] in E; try discriminate E.
    destruct (Hord k g Hk) as [Ho Hin].
    destruct (set_idx w1 (g_output g) y) as [w2| | |] eqn:E2; cbn [obind] in E; try discriminate E.
    unfold set_idx in E2. destruct (Nat.ltb_spec (g_output g) (length w1)) as [Hlt|]; [|discriminate E2]. injection E2 as <-.
    assert (Hsk : forall j g', nth_error g2 j = Some g' -> g_output g' = (S (num_inputs c + k) + j)%nat).
    { intros j g' Hj. assert (Hj' : nth_error (gates c) (S (k + j)) = Some g').
      { rewrite Eg, nth_error_app2 by lia. replace (S (k + j) - length g1)%nat with (S j) by lia. exact Hj. }
      rewrite (proj1 (Hord _ _ Hj')). lia. }
    destruct (steps_keep _ _ _ _ Hsk E) as [_ K2].
    assert (A : forall i, In i (g_inputs g) -> nth_error vals i = nth_error w1 i).
    { intros i I. rewrite Forall_forall in Hin. specialize (Hin i I). rewrite K2 by lia. rewrite set_nth_nth_error by lia.
      destruct (Nat.eqb_spec i (g_output g)); [lia|reflexivity]. }
    rewrite (eval_gate_ext _ _ _ A), Ey. f_equal. specialize (Hv k g Hk). rewrite K2 in Hv by lia.
    rewrite set_nth_nth_error, <- Ho, Nat.eqb_refl in Hv by lia. now injection Hv.
  - intros Hg. destruct (foldM_inv step
      (fun q ws => length ws = num_wires c /\ forall i, (i < num_inputs c + q)%nat -> nth_error ws i = nth_error vals i)
      (gates c) ws) as (ws' & E' & Hl' & Hws').
    + split; auto. intros; apply Hi. lia.
    + clear ws Ei Li Hi. intros k g ws Hk [Hl Hws]. destruct (Hord k g Hk) as [Ho Hin]. rewrite Forall_forall in Hin.
      assert (Hkl : (k < length (gates c))%nat) by (apply nth_error_Some; congruence).
      unfold step. rewrite (eval_gate_ext ws vals) by (intros i I; apply Hws; specialize (Hin i I); lia).
      rewrite Hg by (eapply nth_error_In; eauto). cbn [obind]. rewrite set_idx_lt by lia. eexists; split; [reflexivity|].
      split. now rewrite set_nth_length. intros i Hi'. rewrite set_nth_nth_error by lia. rewrite Ho.
      destruct (Nat.eqb_spec i (num_inputs c + k)) as [->|]; [now rewrite (Hv k g Hk)|]. apply Hws. lia.
    + rewrite E'. f_equal. apply (nth_ext _ _ 0 0). rewrite vals_length; lia. intros i Hi'.
      pose proof vals_length. assert (Z : nth_error ws' i = nth_error vals i) by (apply Hws'; lia).
      rewrite !(nth_error_nth' _ 0) in Z by lia. now injection Z.
Qed.
End Eval.

Lemma sum_step p ws (vs : nat -> N) l acc : (forall i, In i l -> nth_error ws i = Some (vs i)) -> acc < 65536 ->
  foldM (fun acc i => let* x := idx ws i in uadd p 16 acc x) l acc =
  let s := acc + fold_right N.add 0 (map vs l) in
  if s <? 65536 then Ok s else if is_debug p then Panic POverflow else Ok (s mod 65536).
Proof.
  revert acc. induction l as [|i l IH]; intros acc H Ha; cbn [foldM map fold_right]; cbv zeta.
  - rewrite N.add_0_r. destruct (N.ltb_spec acc 65536); [reflexivity|lia].
  - unfold idx at 1. rewrite (H i) by (simpl; auto). cbn [unwrap obind]. unfold uadd at 1. change (2 ^ 16) with 65536.
    destruct (N.ltb_spec (acc + vs i) 65536) as [A|A]; cbn [obind].
    + rewrite IH by (auto; intros; apply H; simpl; auto). cbv zeta. now rewrite <- N.add_assoc.
    + destruct (N.ltb_spec (acc + (vs i + fold_right N.add 0 (map vs l))) 65536); [lia|].
      destruct (is_debug p) eqn:P; cbn [obind]; [reflexivity|].
      assert (M : (acc + vs i) mod 65536 < 65536) by (apply N.mod_lt; lia).
      rewrite IH by (auto; intros; apply H; simpl; auto). cbv zeta.
      pose proof (N.add_mod_idemp_l (acc + vs i) (fold_right N.add 0 (map vs l)) 65536 ltac:(lia)) as Q.
      rewrite <- N.add_assoc in Q.
      destruct (N.ltb_spec ((acc + vs i) mod 65536 + fold_right N.add 0 (map vs l)) 65536) as [B|B].
      * rewrite N.mod_small in Q by exact B. now rewrite Q.
      * now rewrite Q.
Qed.

Lemma zero_sample m : supported m -> valid_sample m (repeat 0 32).
Proof.
  intros Hs d E. split; [exact E|]. split; [reflexivity|]. split; [repeat constructor|]. intros _ i _. apply supported_2 in Hs.
  unfold digit. cbn [wval]. rewrite !nth_repeat. destruct (wide m); lia.
Qed.
Lemma values_bound c x : wf_circuit c -> wf_inputs c x -> forall i, (i < num_wires c)%nat -> nth i (circuit_values c x) 0 < modulus c i.
Proof.
  intros W X i Hi. refine (v_lt (fun _ => repeat 0 32) (fun _ => repeat 0 32) _ c W _ x X i Hi).
  - intros m Hs. now apply zero_sample.
  - intros j m Hj. apply zero_sample. pose proof (wf_insupp c W) as F. rewrite Forall_forall in F. apply F. eapply nth_error_In; eauto.
Qed.
Lemma eval_exact p c x : wf_circuit c -> wf_inputs c x ->
  (eval p c x = Ok (circuit_values c x) <-> forall g, In g (gates c) -> eval_right_gate p c x g).
Proof.
  intros W X. pose proof X as [Lx Hx].
  assert (Hord : forall k g, nth_error (gates c) k = Some g ->
    g_output g = (num_inputs c + k)%nat /\ Forall (fun i => (i < g_output g)%nat) (g_inputs g)).
  { intros k g Hk. destruct (wf_gates c W k g Hk) as (A & B & _). auto. }
  rewrite (eval_iff p c x (wf_wires c W) Lx Hord).
  assert (G : forall g, In g (gates c) ->
    (eval_gate p (circuit_values c x) g = Ok (gate_value g (map (fun i => nth i (circuit_values c x) 0) (g_inputs g))) <-> eval_right_gate p c x g)).
  2:{ split; intros H g Hg; apply G; auto. }
  intros g Hg. apply In_nth_error in Hg as [k Hk]. destruct (wf_gates c W k g Hk) as (Ho & Hin & Ht & Hs).
  assert (Hkl : (k < length (gates c))%nat) by (apply nth_error_Some; congruence).
  set (v := fun i => nth i (circuit_values c x) 0).
  assert (Hr : forall i, In i (g_inputs g) -> nth_error (circuit_values c x) i = Some (v i)).
  { intros i I. rewrite Forall_forall in Hin. specialize (Hin i I). apply nth_error_nth'.
    unfold circuit_values. rewrite run_gates_length. lia. }
  unfold eval_gate, gate_value, eval_right_gate, gate_typed in *. fold v. change (fun i => nth i (circuit_values c x) 0) with v.
  apply supported_2 in Hs. destruct (g_kind g) as [|q|k'|].
  - rewrite (sum_step p _ v) by (auto; lia). cbv zeta. rewrite N.add_0_l. set (s := fold_right N.add 0 (map v (g_inputs g))).
    destruct (N.ltb_spec s 65536); cbn [obind].
    + unfold urem. destruct (N.eqb_spec (g_domain g) 0); [lia|]. split; auto.
    + unfold is_debug. destruct p; cbn [obind]; unfold urem; destruct (N.eqb_spec (g_domain g) 0); try lia.
      * split; [discriminate|]. intros [Z|[Z _]]; [lia|discriminate].
      * split; [intros Z; right; split; congruence|]. intros [Z|[_ Z]]; [lia|congruence].
  - destruct Ht as (i & l & Ei & Hm & Hq). rewrite Ei in *. cbn [hd_error unwrap obind map nth]. unfold idx. rewrite (Hr i) by (simpl; auto).
    cbn [unwrap obind]. unfold umul. change (2 ^ 16) with 65536. fold (v i). set (t := v i * q). cbv zeta.
    destruct (N.ltb_spec t 65536).
    + assert (Q : t mod 65536 = t) by (apply N.mod_small; auto). split.
      * intros Z. injection Z as Z. left. split; [auto|]. rewrite Z. apply N.mod_lt. lia.
      * intros [[_ Z]|[_ Z]]; [now rewrite N.mod_small|congruence].
    + unfold is_debug. destruct p.
      * split; [discriminate|]. intros [[Z _]|[Z _]]; [lia|discriminate].
      * split; [intros Z; right; split; congruence|]. intros [[Z _]|[_ Z]]; [lia|congruence].
  - destruct Ht as (i & l & Ei & Hm & Hq). rewrite Ei in *. cbn [hd_error unwrap obind map nth]. unfold idx. rewrite (Hr i) by (simpl; auto).
    cbn [unwrap obind project]. split; auto. intros _. destruct k' as [m|t]; cbn [project proj_domain] in *; [|reflexivity].
    apply supported_2 in Hq. unfold urem. destruct (N.eqb_spec m 0); [lia|reflexivity].
  - destruct Ht as (i & j & l & Ei & Hi & Hj & Hd). rewrite Ei in *. cbn [hd_error unwrap obind map nth]. unfold idx. rewrite (Hr i) by (simpl; auto).
    cbn [unwrap obind]. fold (v i) (v j).
    assert (B : forall a, In a (i :: j :: l) -> modulus c a = 2 -> v a < 2).
    { intros a Ia Ma. rewrite <- Ma. apply values_bound; auto. rewrite Forall_forall in Hin. specialize (Hin a Ia). rewrite (wf_wires c W). lia. }
    assert (Bi : v i < 2) by (apply B; simpl; auto). assert (Bj : v j < 2) by (apply B; simpl; auto).
    assert (v i = 0 \/ v i = 1) as [Z|Z] by lia; assert (v j = 0 \/ v j = 1) as [Y|Y] by lia; rewrite Z, Y; cbn;
      split; auto; intros E; try discriminate E; destruct E; discriminate.
Qed.
