(** The circuits of circuit.rs can be garbled in release mode. *)
From Coq Require Import List NArith Bool Lia Arith.
From Verif Require Import Base MUtil MWires MCircuit MGarble SpecWires SpecCircuit SpecTotal PBase PWires PCircuit PBitVector PMany PTotal.
Import ListNotations.
Open Scope N_scope.

(** The shape of both circuits: r times n inputs, n gates that add input bits, n projections, the sum and the comparison. *)
Section Shape.
Variables (r n : nat) (ins : nat -> list nat) (m t1 : N).
Definition shape : circuit :=
  mkCircuit ((r + 2) * n + 2) (n * r) 1
    (map (fun i => mkGate (i + r * n) 2 (ins i) GAdd) (seq 0 n) ++
     map (fun i => mkGate (i + (r + 1) * n) 2 [i + r * n]%nat (GProj (PMap m))) (seq 0 n) ++
     [mkGate ((r + 2) * n) m (seq ((r + 1) * n) n) GAdd; mkGate ((r + 2) * n + 1) m [(r + 2) * n]%nat (GProj (PLess t1))])
    (repeat 2 (n * r)).
Lemma shape_cases k g : nth_error (gates shape) k = Some g ->
  (k < n)%nat /\ g = mkGate (k + r * n) 2 (ins k) GAdd \/
  (n <= k < 2 * n)%nat /\ g = mkGate (k + r * n) 2 [k - n + r * n]%nat (GProj (PMap m)) \/
  (k = 2 * n)%nat /\ g = mkGate ((r + 2) * n) m (seq ((r + 1) * n) n) GAdd \/
  (k = 2 * n + 1)%nat /\ g = mkGate ((r + 2) * n + 1) m [(r + 2) * n]%nat (GProj (PLess t1)).
Proof.
  intros Hk. unfold shape in Hk. cbn [gates] in Hk. destruct (Nat.lt_ge_cases k n) as [H1|H1].
  - rewrite nth_error_app1 in Hk by (rewrite map_length, seq_length; auto).
    rewrite nth_error_map_seq in Hk by auto. inversion Hk; subst g. left. split; auto.
  - rewrite nth_error_app2 in Hk by (rewrite map_length, seq_length; auto). rewrite map_length, seq_length in Hk. right.
    destruct (Nat.lt_ge_cases (k - n) n) as [H2|H2].
    + rewrite nth_error_app1 in Hk by (rewrite map_length, seq_length; auto).
      rewrite nth_error_map_seq in Hk by auto. inversion Hk; subst g. left. split; [lia|]. f_equal. lia.
    + rewrite nth_error_app2 in Hk by (rewrite map_length, seq_length; auto). rewrite map_length, seq_length in Hk. right.
      destruct (k - n - n)%nat as [|[|j]] eqn:Ej; cbn [nth_error] in Hk; [| |destruct j; discriminate]; inversion Hk; subst g.
      * left. split; [lia|reflexivity].
      * right. split; [lia|reflexivity].
Qed.
Lemma shape_moduli : wire_moduli shape = repeat 2 ((r + 1) * n) ++ repeat m (n + 1) ++ [2].
Proof.
  unfold wire_moduli, shape. cbn [input_domains gates]. rewrite !map_app, !map_map. cbn [map output_domain g_kind g_domain].
  assert (E : forall (x : N) k, map (fun _ : nat => x) (seq 0 k) = repeat x k).
  { intros x k. rewrite <- (seq_length k 0) at 2. generalize (seq 0 k). induction l; simpl; congruence. }
  unfold output_domain. cbn [g_kind g_domain]. rewrite !E.
  replace ((r + 1) * n)%nat with (n * r + n)%nat by lia. rewrite !repeat_app. rewrite <- !app_assoc. reflexivity.
Qed.
Lemma shape_low i : (i < (r + 1) * n)%nat -> modulus shape i = 2.
Proof. intros H. unfold modulus. rewrite shape_moduli, app_nth1 by (rewrite repeat_length; auto). now apply nth_repeat_lt. Qed.
Lemma shape_high i : ((r + 1) * n <= i < (r + 2) * n + 1)%nat -> modulus shape i = m.
Proof.
  intros H. unfold modulus. rewrite shape_moduli, app_nth2 by (rewrite repeat_length; lia). rewrite repeat_length.
  rewrite app_nth1 by (rewrite repeat_length; lia). apply nth_repeat_lt. lia.
Qed.
Lemma shape_glength : length (gates shape) = (2 * n + 2)%nat.
Proof. unfold shape. cbn [gates]. rewrite !app_length, !map_length, !seq_length. cbn [length]. lia. Qed.
Hypothesis Hn : (1 <= n)%nat.
Hypothesis Hr : (1 <= r)%nat.
Hypothesis Hm : 0 < m < 65535.
Hypothesis Hins : forall i, (i < n)%nat -> ins i <> [] /\ Forall (fun j => (j < r * n)%nat) (ins i).
Lemma seq_ne {A} (l : list A) k : length l = k -> (1 <= k)%nat -> l <> [].
Proof. intros L H ->. cbn in L. lia. Qed.
Lemma shape_garblable : garblable shape.
Proof.
  split; [cbn; now rewrite repeat_length|]. split; [cbn; apply Forall_forall; intros x Hx; apply repeat_spec in Hx; subst; lia|].
  split; [cbn [shape num_outputs num_wires]; lia|]. intros k g Hk. unfold gate_fits. cbn [shape num_inputs].
  destruct (shape_cases k g Hk) as [[H ->]|[[H ->]|[[H ->]|[H ->]]]]; cbn [g_output g_inputs g_domain g_kind].
  - destruct (Hins k H) as [A B]. split; [lia|]. split; [eapply Forall_impl; [|exact B]; intros j Hj; cbv beta in Hj; lia|].
    split; [exact A|]. split; [lia|exact I].
  - split; [lia|]. split; [constructor; [lia|constructor]|]. split; [discriminate|]. split; [lia|exact Hm].
  - split; [lia|]. split; [apply Forall_forall; intros j Hj; apply in_seq in Hj; lia|]. split; [apply (seq_ne _ n); [apply seq_length|exact Hn]|]. split; [lia|exact I].
  - split; [lia|]. split; [constructor; [lia|constructor]|]. split; [discriminate|]. split; [lia|exact I].
Qed.
Lemma shape_matched : matched shape.
Proof.
  split; [rewrite shape_glength; cbn [shape num_wires num_inputs]; lia|]. split.
  - intros x Hx. apply repeat_spec in Hx. subst x. split; [lia|]. exists (mkGate (0 + r * n) 2 (ins 0%nat) GAdd). split; [|reflexivity].
    unfold shape. cbn [gates]. apply in_or_app. left. apply in_map_iff. exists 0%nat. split; [reflexivity|]. apply in_seq. lia.
  - intros g Hg. apply In_nth_error in Hg as (k & Hk). destruct (shape_cases k g Hk) as [[H ->]|[[H ->]|[[H ->]|[H ->]]]]; cbn [g_output g_inputs g_domain g_kind].
    + split; [lia|]. split; [|exact I]. intros i Hi. apply shape_low. destruct (Hins k H) as [_ B]. rewrite Forall_forall in B. specialize (B i Hi). cbv beta in B. lia.
    + split; [lia|]. split; [|left; lia]. intros i [<-|[]]. apply shape_low. lia.
    + split; [lia|]. split; [|exact I]. intros i Hi. apply in_seq in Hi. apply shape_high. lia.
    + split; [lia|]. split; [|exact I]. intros i [<-|[]]. apply shape_high. lia.
Qed.
End Shape.

Lemma uadd_release w a b : uadd Release w a b = Ok ((a + b) mod 2 ^ w).
Proof.
  unfold uadd. destruct (N.ltb_spec (a + b) (2 ^ w)); [|reflexivity]. now rewrite N.mod_small.
Qed.
Lemma build_total n t : (1 <= n)%nat -> N.of_nat n mod 65536 < 65534 ->
  exists c, build_circuit Release n t = Ok c /\ garblable c /\ matched c /\ num_inputs c = (2 * n)%nat /\ num_outputs c = 1%nat /\
    (forall m, In m (input_domains c) -> m = 2).
Proof.
  intros Hn Hm. unfold build_circuit. rewrite !uadd_release. cbn [obind]. change (2 ^ 16) with 65536.
  set (q := N.of_nat n mod 65536) in *. rewrite (N.mod_small (q + 1)) by lia. set (t1 := (t + 1) mod 65536).
  exists (shape 2 n (fun i => [i; i + n]%nat) (q + 1) t1). split.
  { reflexivity. }
  assert (Hins : forall i, (i < n)%nat -> [i; (i + n)%nat] <> [] /\ Forall (fun j => (j < 2 * n)%nat) [i; (i + n)%nat]).
  { intros i Hi. split; [discriminate|]. constructor; [lia|]. constructor; [lia|constructor]. }
  split; [apply shape_garblable; auto; lia|]. split; [apply shape_matched; auto; lia|]. split; [cbn [shape num_inputs]; lia|]. split; [reflexivity|].
  intros x Hx. now apply repeat_spec in Hx.
Qed.
Lemma build_total_v2 n t : (1 <= n)%nat -> N.of_nat n mod 65536 < 65534 ->
  exists c, build_circuit_v2 Release n t = Ok c /\ garblable c /\ matched c /\ num_inputs c = (3 * n)%nat /\ num_outputs c = 1%nat /\
    (forall m, In m (input_domains c) -> m = 2).
Proof.
  intros Hn Hm. unfold build_circuit_v2. rewrite !uadd_release. cbn [obind]. change (2 ^ 16) with 65536.
  set (q := N.of_nat n mod 65536) in *. rewrite (N.mod_small (q + 1)) by lia. set (t1 := (t + 1) mod 65536).
  exists (shape 3 n (fun i => [i; i + n; i + 2 * n]%nat) (q + 1) t1). split.
  { reflexivity. }
  assert (Hins : forall i, (i < n)%nat -> [i; (i + n)%nat; (i + 2 * n)%nat] <> [] /\ Forall (fun j => (j < 3 * n)%nat) [i; (i + n)%nat; (i + 2 * n)%nat]).
  { intros i Hi. split; [discriminate|]. constructor; [lia|]. constructor; [lia|]. constructor; [lia|constructor]. }
  split; [apply shape_garblable; auto; lia|]. split; [apply shape_matched; auto; lia|]. split; [cbn [shape num_inputs]; lia|]. split; [reflexivity|].
  intros x Hx. now apply repeat_spec in Hx.
Qed.

(** Garbling, encoding and evaluation together. *)
Lemma release_runs sha rd ri c : hash32 sha -> garblable c -> matched c -> drawn c rd ri ->
  exists gc ek dk, garble sha Release rd ri c = Ok (gc, ek, dk) /\
  forall x, length x = num_inputs c -> exists ws out, encode Release ek x = Ok ws /\ evaluate sha Release gc ws = Ok out /\ length out = num_outputs c.
Proof.
  intros Hs Hc Hm [Hrd Hri]. destruct (garble_tot sha Hs rd ri Hrd c Hc Hm Hri) as ([[gc ek] dk] & E & M & _). cbn [fst snd] in M.
  exists gc, ek, dk. split; [exact E|]. intros x Lx. destruct (encode_tot rd ri Hrd c Hc Hm Hri gc ek M x Lx) as (ws & Ew & Tw).
  destruct (evaluate_tot sha Hs ri c Hc Hm Hri gc ek M ws Tw) as (out & Eo & Lo). exists ws, out. auto.
Qed.

(** The two sizes whose modulus is 65535 or wraps to 0. *)
Lemma stuck_gate sha rd ri c i k : In (mkGate i 2 k (GProj (PMap 0))) (gates c) -> forall r, garble sha Release rd ri c <> Ok r.
Proof.
  intros Hin r H. apply in_split in Hin as (l & l' & E). unfold garble, garble_run in H.
  apply obind_Ok in H as (x & H & _). apply obind_Ok in H as (dl & _ & H). apply obind_Ok in H as (ws & _ & H).
  apply obind_Ok in H as (is & _ & H). apply obind_Ok in H as (start & _ & H). apply obind_Ok in H as (s & H & _).
  rewrite E in H. apply foldM_step in H as (s1 & s2 & H). unfold garble_gate in H. apply obind_Ok in H as (s3 & H & _).
  unfold garble_label in H. cbn [g_kind] in H. apply obind_Ok in H as (wt & H & _). unfold garble_proj in H.
  do 8 (apply obind_Ok in H as (? & _ & H)). apply obind_Ok in H as (py & H & _). discriminate H.
Qed.
Lemma bad_gate sha rd ri c i k : In (mkGate i 2 k (GProj (PMap 65535))) (gates c) -> forall r, garble sha Release rd ri c <> Ok r.
Proof.
  intros Hin r H. apply in_split in Hin as (l & l' & E). unfold garble, garble_run in H.
  apply obind_Ok in H as (x & H & _). apply obind_Ok in H as (dl & H & _). unfold garble_deltas in H.
  rewrite E, foldM_app in H. apply obind_Ok in H as (dl1 & H1 & H). cbn [foldM g_kind g_domain] in H.
  apply obind_Ok in H as (dl3 & H & _). apply obind_Ok in H as (dl2 & H2 & H).
  assert (Inv : forall d d' m, (forall v, alookup N.eqb 65535 d <> Some v) -> ensure_delta rd d m = Ok d' -> forall v, alookup N.eqb 65535 d' <> Some v).
  { intros d d' m Hd Em v Hv. unfold ensure_delta in Em. destruct (alookup N.eqb m d) as [u|]; [injection Em as <-; now apply (Hd v)|].
    apply obind_Ok in Em as (w & Ew & Em). injection Em as <-. destruct (N.eq_dec 65535 m) as [<-|Hne].
    - discriminate Ew.
    - rewrite (alookup_ainsert_other N.eqb 65535 m w d N.eqb_eq Hne) in Hv. now apply (Hd v). }
  assert (Fold : forall l d d', (forall v, alookup N.eqb 65535 d <> Some v) ->
    foldM (fun dl g => let* dl := ensure_delta rd dl (g_domain g) in
      match g_kind g with GProj (PMap t) => ensure_delta rd dl t | GProj (PLess _) => ensure_delta rd dl 2 | _ => Ok dl end) l d = Ok d' ->
    forall v, alookup N.eqb 65535 d' <> Some v).
  { clear - Inv. induction l as [|g l IH]; intros d d' Hd F; cbn [foldM] in F; [injection F as <-; exact Hd|].
    apply obind_Ok in F as (d1 & F1 & F). apply obind_Ok in F1 as (d2 & F2 & F1). apply (IH d1 d'); [|exact F].
    destruct (g_kind g) as [| |[q|q]|]; try (injection F1 as <-; eapply Inv; eassumption).
    - eapply Inv; [|exact F1]. eapply Inv; eassumption.
    - eapply Inv; [|exact F1]. eapply Inv; eassumption. }
  assert (N1 : forall v, alookup N.eqb 65535 dl1 <> Some v) by (apply (Fold l [] dl1); [discriminate|exact H1]).
  assert (N2 : forall v, alookup N.eqb 65535 dl2 <> Some v) by (eapply Inv; eassumption).
  unfold ensure_delta in H. destruct (alookup N.eqb 65535 dl2) as [u|] eqn:Eu; [now apply (N2 u)|]. discriminate H.
Qed.
Lemma build_stuck sha rd ri n t : (1 <= n)%nat -> 65534 <= N.of_nat n mod 65536 ->
  (exists c, build_circuit Release n t = Ok c /\ forall r, garble sha Release rd ri c <> Ok r) /\
  (exists c, build_circuit_v2 Release n t = Ok c /\ forall r, garble sha Release rd ri c <> Ok r).
Proof.
  intros Hn Hm. pose proof (N.mod_lt (N.of_nat n) 65536 ltac:(discriminate)) as Hl.
  assert (E : (N.of_nat n mod 65536 + 1) mod 65536 = 65535 \/ (N.of_nat n mod 65536 + 1) mod 65536 = 0).
  { set (q := N.of_nat n mod 65536) in *. destruct (N.eq_dec q 65534) as [->|Hq]; [left; reflexivity|right; replace q with 65535 by lia; reflexivity]. }
  assert (G : forall c i, (In (mkGate i 2 [(i - n)%nat] (GProj (PMap ((N.of_nat n mod 65536 + 1) mod 65536)))) (gates c)) -> forall r, garble sha Release rd ri c <> Ok r).
  { intros c i Hin. destruct E as [E|E]; rewrite E in Hin; [eapply bad_gate|eapply stuck_gate]; exact Hin. }
  split; unfold build_circuit, build_circuit_v2; rewrite !uadd_release; cbn [obind]; change (2 ^ 16) with 65536; eexists; (split; [reflexivity|]).
  - apply (G _ (0 + 3 * n)%nat). cbn [gates]. apply in_or_app. right. apply in_or_app. left. apply in_map_iff. exists 0%nat. split; [|apply in_seq; lia].
    f_equal. f_equal. lia.
  - apply (G _ (0 + 4 * n)%nat). cbn [gates]. apply in_or_app. right. apply in_or_app. left. apply in_map_iff. exists 0%nat. split; [|apply in_seq; lia].
    f_equal. f_equal. lia.
Qed.
