(** The circuits of build_circuit_v2: values, verification, well-formedness. *)
From Coq Require Import List NArith Bool Arith Lia.
From Verif Require Import Base MWires MCircuit SpecWires SpecCircuit PBase PWires PGarble PCircuit.
Import ListNotations.
Open Scope N_scope.

Section V2.
Variables (n : nat) (t : N) (p : profile).
Hypothesis Hn : (N.of_nat n <= 65534).
Hypothesis Ht : t <= 65534.
Definition xors2 : list gate := map (fun i => mkGate (i + 3 * n) 2 [i; i + n; i + 2 * n]%nat GAdd) (seq 0 n).
Definition circ2 : circuit :=
  mkCircuit (5 * n + 2) (n * 3) 1 (xors2 ++ tail_gates (3 * n) n (cd1 n) (t + 1)) (repeat 2 (n * 3)).
Lemma build_circuit_v2_eq : build_circuit_v2 p n t = Ok circ2.
Proof.
  unfold build_circuit_v2, uadd. rewrite (N.mod_small _ 65536) by lia. change (2 ^ 16) with 65536.
  destruct (N.ltb_spec (N.of_nat n + 1) 65536); [|lia]. cbn [obind].
  destruct (N.ltb_spec (t + 1) 65536); [|lia]. cbn [obind].
  unfold circ2, xors2, tail_gates, cd1.
  replace (3 * n + n)%nat with (4 * n)%nat by lia. replace (4 * n + n)%nat with (5 * n)%nat by lia. reflexivity.
Qed.
Lemma circ2_values a b c : length a = n -> length b = n -> length c = n ->
  circuit_values circ2 (bit_values a ++ bit_values b ++ bit_values c) =
  (bit_values a ++ bit_values b ++ bit_values c) ++ bit_values (xor_list a (xor_list b c)) ++ bit_values (xor_list a (xor_list b c)) ++
    [N.of_nat (weight3 a b c); if N.of_nat (weight3 a b c) <=? t then 1 else 0].
Proof.
  intros Ha Hb Hc. unfold circuit_values, circ2. cbn [gates]. rewrite run_gates_app.
  pose proof (bit_values_length a). pose proof (bit_values_length b). pose proof (bit_values_length c).
  assert (Hbc : length (xor_list b c) = n) by (rewrite xor_list_length; congruence).
  rewrite (run_layer0 xors2).
  2:{ intros g Hg. apply in_map_iff in Hg as (i & <- & Hi). apply in_seq in Hi.
      cbn [g_inputs]. constructor; [|constructor; [|constructor; auto]]; rewrite !app_length; lia. }
  assert (E : map (fun g => gate_value g (map (fun i => nth i (bit_values a ++ bit_values b ++ bit_values c) 0) (g_inputs g))) xors2
     = bit_values (xor_list a (xor_list b c))).
  { unfold xors2. rewrite map_map. unfold gate_value. cbn [g_kind g_inputs g_domain map nth fold_right].
    rewrite <- (map_seq_nth (bit_values (xor_list a (xor_list b c))) 0 n).
    2:{ rewrite bit_values_length, xor_list_length; congruence. }
    apply map_ext_in. intros i Hi. apply in_seq in Hi.
    rewrite app_nth1 by lia. rewrite app_nth2 by lia. rewrite app_nth1 by lia. rewrite app_nth2 by lia. rewrite app_nth2 by lia.
    replace (i + n - length (bit_values a))%nat with i by lia.
    replace (i + 2 * n - length (bit_values a) - length (bit_values b))%nat with i by lia.
    rewrite !bit_values_nth. unfold xor_list in *.
    rewrite (zipWith_nth _ _ _ _ false false) by lia. rewrite (zipWith_nth _ _ _ _ false false) by lia.
    destruct (nth i a false), (nth i b false), (nth i c false); reflexivity. }
  rewrite E. replace (3 * n)%nat with (length (bit_values a ++ bit_values b ++ bit_values c)) by (rewrite !app_length; lia).
  pose proof (xor_list_length a (xor_list b c) ltac:(congruence)) as Hx.
  replace n with (length (xor_list a (xor_list b c))) at 1 by congruence.
  rewrite tail_values by (unfold cd1; congruence).
  rewrite <- !app_assoc. do 5 f_equal. rewrite weight3_filter by congruence. f_equal. f_equal.
  destruct (N.ltb_spec (N.of_nat (length (filter (fun b => b) (xor_list a (xor_list b c))))) (t + 1)),
    (N.leb_spec (N.of_nat (length (filter (fun b => b) (xor_list a (xor_list b c))))) t); auto; lia.
Qed.

Lemma circ2_outputs a b c : length a = n -> length b = n -> length c = n ->
  circuit_outputs circ2 (bit_values a ++ bit_values b ++ bit_values c) = [if N.of_nat (weight3 a b c) <=? t then 1 else 0].
Proof.
  intros Ha Hb Hc. unfold circuit_outputs. rewrite circ2_values by auto. cbn [circ2 num_wires num_outputs].
  assert (Hbc : length (xor_list b c) = n) by (rewrite xor_list_length; congruence).
  pose proof (xor_list_length a (xor_list b c) ltac:(congruence)).
  set (pre := (bit_values a ++ bit_values b ++ bit_values c) ++ bit_values (xor_list a (xor_list b c)) ++ bit_values (xor_list a (xor_list b c)) ++ [N.of_nat (weight3 a b c)]).
  replace ((bit_values a ++ bit_values b ++ bit_values c) ++ _) with (pre ++ [if N.of_nat (weight3 a b c) <=? t then 1 else 0])
    by (unfold pre; rewrite <- !app_assoc; reflexivity).
  rewrite skipn_app. replace (5 * n + 2 - 1 - length pre)%nat with 0%nat.
  - rewrite skipn_all2. reflexivity. unfold pre. rewrite !app_length, !bit_values_length. simpl. lia.
  - unfold pre. rewrite !app_length, !bit_values_length. simpl. lia.
Qed.

Lemma circ2_eval_ok a b c k g : length a = n -> length b = n -> length c = n -> nth_error (gates circ2) k = Some g ->
  g_output g = (n * 3 + k)%nat /\ Forall (fun i => (i < g_output g)%nat) (g_inputs g) /\ eval_ok_gate circ2 (bit_values a ++ bit_values b ++ bit_values c) g.
Proof.
  intros Ha Hb Hc Hk.
  assert (Hbc : length (xor_list b c) = n) by (rewrite xor_list_length; congruence). assert (Hlt : (k < length (gates circ2))%nat) by (apply nth_error_Some; congruence).
  unfold circ2 in Hk, Hlt. cbn [gates] in Hk, Hlt. unfold tail_gates, xors2 in Hk, Hlt.
  rewrite !app_length, !map_length, !seq_length in Hlt. cbn [length] in Hlt.
  unfold eval_ok_gate. rewrite circ2_values by auto. set (vals := _ ++ _).
  assert (Hv2 : forall i, (i < 4 * n)%nat -> nth i vals 0 < 2).
  { intros i Hi. unfold vals. rewrite app_assoc. rewrite app_nth1.
    2:{ rewrite !app_length, !bit_values_length, xor_list_length by congruence. lia. }
    rewrite <- !app_assoc.
    replace (bit_values a ++ bit_values b ++ bit_values c ++ bit_values (xor_list a (xor_list b c))) with (bit_values (a ++ b ++ c ++ xor_list a (xor_list b c))).
    apply bit_values_lt. unfold bit_values. now rewrite !map_app. }
  destruct (Nat.lt_ge_cases k n) as [H1|H1].
  - rewrite nth_error_app1 in Hk by (rewrite map_length, seq_length; auto).
    rewrite nth_error_map_seq in Hk by auto. inversion Hk; subst g. cbn [g_output g_inputs g_kind g_domain map fold_right].
    split; [lia|]. split. { constructor; [|constructor; [|constructor; auto]]; lia. } split; [lia|].
    pose proof (Hv2 (k + 2 * n)%nat ltac:(lia)). pose proof (Hv2 k ltac:(lia)). pose proof (Hv2 (k + n)%nat ltac:(lia)).
    change (n + (n + 0))%nat with (2 * n)%nat. lia.
  - rewrite nth_error_app2 in Hk by (rewrite map_length, seq_length; auto).
    rewrite map_length, seq_length in Hk.
    destruct (Nat.lt_ge_cases (k - n) n) as [H2|H2].
    + rewrite nth_error_app1 in Hk by (rewrite map_length, seq_length; auto).
      rewrite nth_error_map_seq in Hk by auto. inversion Hk; subst g. cbn [g_output g_inputs g_kind g_domain].
      split; [lia|]. split. { constructor; auto. lia. } split; [discriminate|]. unfold cd1; lia.
    + rewrite nth_error_app2 in Hk by (rewrite map_length, seq_length; auto).
      rewrite map_length, seq_length in Hk.
      destruct (k - n - n)%nat as [|[|j]] eqn:Ej; cbn [nth_error] in Hk; [| |destruct j; discriminate];
        inversion Hk; subst g; cbn [g_output g_inputs g_kind g_domain].
      * split; [lia|]. split. { apply Forall_forall. intros i Hi. apply in_seq in Hi. lia. }
        split; [unfold cd1; lia|].
        assert (E : map (fun i => nth i vals 0) (seq (3 * n + n) n) = bit_values (xor_list a (xor_list b c))).
        { unfold vals. rewrite app_assoc.
          replace (3 * n + n)%nat with (length ((bit_values a ++ bit_values b ++ bit_values c) ++ bit_values (xor_list a (xor_list b c)))).
          apply slice_nth. rewrite bit_values_length, xor_list_length; congruence.
          rewrite !app_length, !bit_values_length, xor_list_length by congruence. lia. }
        change (n + (n + (n + 0)) + n)%nat with (3 * n + n)%nat. rewrite E, fold_sum_bits. pose proof (filter_len_le (fun b => b) (xor_list a (xor_list b c))).
        rewrite xor_list_length in H by congruence. lia.
      * split; [lia|]. split. { constructor; auto. lia. } discriminate.
Qed.

Lemma circ2_eval a b c : length a = n -> length b = n -> length c = n ->
  eval p circ2 (bit_values a ++ bit_values b ++ bit_values c) = Ok (circuit_values circ2 (bit_values a ++ bit_values b ++ bit_values c)).
Proof.
  intros Ha Hb Hc. apply eval_correct.
  - unfold circ2, tail_gates, xors2. cbn [num_wires num_inputs gates].
    rewrite !app_length, !map_length, !seq_length. simpl. lia.
  - rewrite !app_length, !bit_values_length. cbn [circ2 num_inputs]. lia.
  - intros k g Hk. cbn [circ2 num_inputs]. now apply circ2_eval_ok.
Qed.

Lemma circ2_mentions w : mentions (gates circ2) w <-> (w < 5 * n + 2)%nat.
Proof.
  unfold mentions, circ2, tail_gates, xors2. cbn [gates]. split.
  - intros (g & Hg & Hw). apply in_app_iff in Hg as [Hg|Hg]; [|apply in_app_iff in Hg as [Hg|Hg]].
    + apply in_map_iff in Hg as (i & <- & Hi). apply in_seq in Hi. cbn [g_inputs g_output] in Hw. simpl in Hw. lia.
    + apply in_map_iff in Hg as (i & <- & Hi). apply in_seq in Hi. cbn [g_inputs g_output] in Hw. simpl in Hw. lia.
    + destruct Hg as [<-|[<-|[]]]; cbn [g_inputs g_output] in Hw.
      * rewrite in_seq in Hw. lia.
      * simpl in Hw. lia.
  - intros Hw.
    destruct (Nat.lt_ge_cases w n); [|destruct (Nat.lt_ge_cases w (2 * n)); [|destruct (Nat.lt_ge_cases w (3 * n)); [|destruct (Nat.lt_ge_cases w (4 * n));
      [|destruct (Nat.lt_ge_cases w (5 * n))]]]].
    + exists (mkGate (w + 3 * n) 2 [w; w + n; w + 2 * n]%nat GAdd). split; [|simpl; auto].
      apply in_app_iff. left. apply in_map_iff. exists w. split; auto. apply in_seq; lia.
    + exists (mkGate ((w - n) + 3 * n) 2 [w - n; (w - n) + n; (w - n) + 2 * n]%nat GAdd). split; [|simpl; lia].
      apply in_app_iff. left. apply in_map_iff. exists (w - n)%nat. split; auto. apply in_seq; lia.
    + exists (mkGate ((w - 2 * n) + 3 * n) 2 [w - 2 * n; (w - 2 * n) + n; (w - 2 * n) + 2 * n]%nat GAdd). split; [|simpl; lia].
      apply in_app_iff. left. apply in_map_iff. exists (w - 2 * n)%nat. split; auto. apply in_seq; lia.
    + exists (mkGate ((w - 3 * n) + 3 * n) 2 [w - 3 * n; (w - 3 * n) + n; (w - 3 * n) + 2 * n]%nat GAdd). split; [|simpl; lia].
      apply in_app_iff. left. apply in_map_iff. exists (w - 3 * n)%nat. split; auto. apply in_seq; lia.
    + exists (mkGate (3 * n + n + n) (cd1 n) (seq (3 * n + n) n) GAdd). split.
      { rewrite !in_app_iff. right; right. simpl; auto. } left. cbn [g_inputs]. apply in_seq. lia.
    + exists (mkGate (3 * n + n + n + 1) (cd1 n) [3 * n + n + n]%nat (GProj (PLess (t + 1)))). split.
      { rewrite !in_app_iff. right; right. simpl; auto. } cbn [g_inputs g_output]. simpl. lia.
Qed.

Lemma circ2_outs : map g_output (gates circ2) = seq (3 * n) (2 * n + 2).
Proof.
  unfold circ2, tail_gates, xors2. cbn [gates]. rewrite !map_app, !map_map. cbn [map g_output].
  replace (2 * n + 2)%nat with (n + (n + 2))%nat by lia. rewrite !seq_app.
  apply f_equal2; [|apply f_equal2].
  - apply map_add_seq. intros; lia.
  - apply map_add_seq. intros; lia.
  - cbn [seq]. replace (3 * n + n + n + 1)%nat with (S (3 * n + n + n)) by lia. reflexivity.
Qed.

Lemma circ2_verify : verify_circuit circ2 = Ok tt.
Proof.
  destruct (verify_char circ2) as (u & Hnd & Hu & Hv & _). apply Hv. split.
  - rewrite <- (count_wires_unique _ _ Hnd Hu).
    rewrite (count_wires_unique (gates circ2) (seq 0 (5 * n + 2))).
    + now rewrite seq_length.
    + apply seq_NoDup.
    + intros w. rewrite circ2_mentions, in_seq. lia.
  - rewrite circ2_outs. apply seq_NoDup.
Qed.

(** Moduli and well-formedness. *)
Lemma circ2_moduli : wire_moduli circ2 = repeat 2 (4 * n) ++ repeat (cd1 n) (n + 1) ++ [2].
Proof.
  unfold wire_moduli, circ2, tail_gates, xors2. cbn [input_domains gates].
  rewrite !map_app, !map_map. cbn [map output_domain g_kind g_domain].
  assert (E : forall (x : N) k, map (fun _ : nat => x) (seq 0 k) = repeat x k).
  { intros x k. rewrite <- (seq_length k 0) at 2. generalize (seq 0 k). induction l; simpl; congruence. }
  unfold output_domain. cbn [g_kind g_domain]. rewrite !E.
  replace (4 * n)%nat with (n * 3 + n)%nat by lia. rewrite !repeat_app. rewrite <- !app_assoc. reflexivity.
Qed.
Lemma circ2_modulus i : (i < 5 * n + 2)%nat ->
  modulus circ2 i = if Nat.ltb i (4 * n) then 2 else if Nat.ltb i (5 * n + 1) then (cd1 n) else 2.
Proof.
  intros Hi. unfold modulus. rewrite circ2_moduli. destruct (Nat.ltb_spec i (4 * n)).
  - rewrite app_nth1 by (rewrite repeat_length; auto). now apply nth_repeat_lt.
  - rewrite app_nth2 by (rewrite repeat_length; auto). rewrite repeat_length.
    destruct (Nat.ltb_spec i (5 * n + 1)).
    + rewrite app_nth1 by (rewrite repeat_length; lia). apply nth_repeat_lt. lia.
    + rewrite app_nth2 by (rewrite repeat_length; lia). rewrite repeat_length.
      replace (i - 4 * n - (n + 1))%nat with 0%nat by lia. reflexivity.
Qed.

Lemma circ2_wf : (1 <= n)%nat -> supported (cd1 n) -> wf_circuit circ2.
Proof.
  intros H1 Hs. assert (S2 : supported 2) by (left; lia).
  assert (Hgl : length (gates circ2) = (2 * n + 2)%nat) by (rewrite <- (map_length g_output), circ2_outs, seq_length; auto).
  constructor.
  - cbn [circ2 input_domains num_inputs]. apply repeat_length.
  - rewrite Hgl. cbn [circ2 num_wires num_inputs]. lia.
  - rewrite Hgl. cbn [circ2 num_outputs]. lia.
  - intros k g Hk.
    destruct (circ2_eval_ok (repeat false n) (repeat false n) (repeat false n) k g (repeat_length _ _) (repeat_length _ _) (repeat_length _ _) Hk) as (Ho & Hi & _).
    cbn [circ2 num_inputs]. split; auto. split; auto. clear Ho Hi.
    assert (Hlt : (k < length (gates circ2))%nat) by (apply nth_error_Some; congruence). rewrite Hgl in Hlt.
    unfold circ2 in Hk. cbn [gates] in Hk. unfold tail_gates, xors2 in Hk.
    destruct (Nat.lt_ge_cases k n) as [Hk1|Hk1].
    + rewrite nth_error_app1 in Hk by (rewrite map_length, seq_length; auto).
      rewrite nth_error_map_seq in Hk by auto. inversion Hk; subst g. unfold gate_typed. cbn [g_kind g_domain g_inputs].
      split; auto. split; [discriminate|]. intros i [<-|[<-|[<-|[]]]]; rewrite circ2_modulus by lia;
      match goal with |- context [Nat.ltb ?x ?y] => destruct (Nat.ltb_spec x y) end; auto; lia.
    + rewrite nth_error_app2 in Hk by (rewrite map_length, seq_length; auto).
      rewrite map_length, seq_length in Hk.
      destruct (Nat.lt_ge_cases (k - n) n) as [Hk2|Hk2].
      * rewrite nth_error_app1 in Hk by (rewrite map_length, seq_length; auto).
        rewrite nth_error_map_seq in Hk by auto. inversion Hk; subst g. unfold gate_typed. cbn [g_kind g_domain g_inputs].
        split; auto. eexists _, _. split; [reflexivity|]. split; auto. rewrite circ2_modulus by lia.
        match goal with |- context [Nat.ltb ?x ?y] => destruct (Nat.ltb_spec x y) end; auto; lia.
      * rewrite nth_error_app2 in Hk by (rewrite map_length, seq_length; auto).
        rewrite map_length, seq_length in Hk.
        destruct (k - n - n)%nat as [|[|j]] eqn:Ej; cbn [nth_error] in Hk; [| |destruct j; discriminate]; inversion Hk; subst g;
          unfold gate_typed; cbn [g_inputs g_kind g_domain].
        -- split; auto. split. { destruct n; [lia|]. discriminate. }
           intros i Hi. apply in_seq in Hi. rewrite circ2_modulus by lia.
           destruct (Nat.ltb_spec i (4 * n)); [lia|]. destruct (Nat.ltb_spec i (5 * n + 1)); auto; lia.
        -- split; auto. eexists _, _. split; [reflexivity|]. split; auto. rewrite circ2_modulus by lia.
           match goal with |- context [Nat.ltb ?x ?y] => destruct (Nat.ltb_spec x y) end; [lia|].
           match goal with |- context [Nat.ltb ?x ?y] => destruct (Nat.ltb_spec x y) end; auto; lia.
  - cbn [circ2 input_domains]. apply Forall_repeat. auto.
  - intros m Hm. cbn [circ2 input_domains] in Hm. apply repeat_spec in Hm. subst m.
    exists (mkGate (0 + 3 * n) 2 [0; 0 + n; 0 + 2 * n]%nat GAdd). split; [|left; reflexivity].
    cbn [circ2 gates]. apply in_app_iff. left. apply in_map_iff. exists 0%nat. split; auto. apply in_seq. lia.
Qed.
Lemma circ2_inputs a b c : length a = n -> length b = n -> length c = n -> wf_inputs circ2 (bit_values a ++ bit_values b ++ bit_values c).
Proof.
  intros Ha Hb Hc. split. { rewrite !app_length, !bit_values_length. cbn [circ2 num_inputs]. lia. }
  cbn [circ2 num_inputs]. intros i Hi. rewrite circ2_modulus by lia. destruct (Nat.ltb_spec i (4 * n)); [|lia].
  replace (bit_values a ++ bit_values b ++ bit_values c) with (bit_values (a ++ b ++ c)) by (unfold bit_values; now rewrite !map_app).
  apply bit_values_lt.
Qed.
End V2.
