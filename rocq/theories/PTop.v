(** The circuit with any bound in its last gate, and the half keys for the greatest threshold. *)
From Coq Require Import List NArith Bool Arith Lia Permutation.
From Verif Require Import Base MUtil MWires MCircuit MGarble MPar MBincode MProc MMany MFpake.
From Verif Require Import SpecWires SpecCircuit SpecGarble SpecBincode SpecOt SpecApricot SpecFpake SpecLong.
From Verif Require Import PBase PUtil PWires PWiresSpec PGarble PGarbleSpec PBinKey PBincode PCircuit PHalf PProc PFpake PLong.
Import ListNotations.
Open Scope N_scope.

Section Top.
Variables (n : nat) (cd k1 : N).
Definition circK : circuit :=
  mkCircuit (4 * n + 2) (n * 2) 1 (xors1 n ++ tail_gates (2 * n) n cd k1) (repeat 2 (n * 2)).
Lemma circK_values a b : length a = n -> length b = n -> 2 <= cd ->
  circuit_values circK (bit_values a ++ bit_values b) =
  (bit_values a ++ bit_values b) ++ bit_values (xor_list a b) ++ bit_values (xor_list a b) ++
    [N.of_nat (hamming a b) mod cd; if N.of_nat (hamming a b) mod cd <? k1 then 1 else 0].
Proof.
  intros Ha Hb Hcd. unfold circuit_values, circK. cbn [gates]. rewrite run_gates_app.
  pose proof (bit_values_length a). pose proof (bit_values_length b).
  rewrite (run_layer0 (xors1 n)).
  2:{ intros g Hg. apply in_map_iff in Hg as (i & <- & Hi). apply in_seq in Hi.
      cbn [g_inputs]. constructor; [|constructor; auto]; rewrite app_length; lia. }
  assert (E : map (fun g => gate_value g (map (fun i => nth i (bit_values a ++ bit_values b) 0) (g_inputs g))) (xors1 n)
     = bit_values (xor_list a b)).
  { unfold xors1. rewrite map_map. unfold gate_value. cbn [g_kind g_inputs g_domain map nth fold_right].
    rewrite <- (map_seq_nth (bit_values (xor_list a b)) 0 n).
    2:{ rewrite bit_values_length, xor_list_length; congruence. }
    apply map_ext_in. intros i Hi. apply in_seq in Hi.
    rewrite app_nth1 by lia. rewrite app_nth2 by lia. replace (i + n - length (bit_values a))%nat with i by lia.
    rewrite !bit_values_nth. unfold xor_list.
    rewrite (zipWith_nth _ _ _ _ false false) by lia.
    destruct (nth i a false), (nth i b false); reflexivity. }
  rewrite E. replace (2 * n)%nat with (length (bit_values a ++ bit_values b)) by (rewrite app_length; lia).
  pose proof (xor_list_length a b ltac:(congruence)) as Hx.
  replace n with (length (xor_list a b)) at 1 by congruence.
  rewrite tail_values_mod by exact Hcd.
  rewrite <- !app_assoc. do 4 f_equal. rewrite hamming_filter. reflexivity.
Qed.
Lemma circK_outputs a b : length a = n -> length b = n -> 2 <= cd ->
  circuit_outputs circK (bit_values a ++ bit_values b) = [if N.of_nat (hamming a b) mod cd <? k1 then 1 else 0].
Proof.
  intros Ha Hb Hcd. unfold circuit_outputs. rewrite circK_values by auto. cbn [circK num_wires num_outputs].
  pose proof (xor_list_length a b ltac:(congruence)).
  set (pre := (bit_values a ++ bit_values b) ++ bit_values (xor_list a b) ++ bit_values (xor_list a b) ++ [N.of_nat (hamming a b) mod cd]).
  replace ((bit_values a ++ bit_values b) ++ _) with (pre ++ [if N.of_nat (hamming a b) mod cd <? k1 then 1 else 0])
    by (unfold pre; rewrite <- !app_assoc; reflexivity).
  rewrite skipn_app. replace (4 * n + 2 - 1 - length pre)%nat with 0%nat.
  - rewrite skipn_all2. reflexivity. unfold pre. rewrite !app_length, !bit_values_length. simpl. lia.
  - unfold pre. rewrite !app_length, !bit_values_length. simpl. lia.
Qed.
Lemma circK_gate k g : nth_error (gates circK) k = Some g ->
  g_output g = (n * 2 + k)%nat /\ Forall (fun i => (i < g_output g)%nat) (g_inputs g).
Proof.
  intros Hk. assert (Hlt : (k < length (gates circK))%nat) by (apply nth_error_Some; congruence).
  unfold circK in Hk, Hlt. cbn [gates] in Hk, Hlt. unfold tail_gates, xors1 in Hk, Hlt.
  rewrite !app_length, !map_length, !seq_length in Hlt. cbn [length] in Hlt.
  destruct (Nat.lt_ge_cases k n) as [H1|H1].
  - rewrite nth_error_app1 in Hk by (rewrite map_length, seq_length; auto).
    rewrite nth_error_map_seq in Hk by auto. inversion Hk; subst g. cbn [g_output g_inputs g_kind g_domain map fold_right].
    split; [lia|]. constructor; [|constructor; auto]; lia.
  - rewrite nth_error_app2 in Hk by (rewrite map_length, seq_length; auto).
    rewrite map_length, seq_length in Hk.
    destruct (Nat.lt_ge_cases (k - n) n) as [H2|H2].
    + rewrite nth_error_app1 in Hk by (rewrite map_length, seq_length; auto).
      rewrite nth_error_map_seq in Hk by auto. inversion Hk; subst g. cbn [g_output g_inputs g_kind g_domain].
      split; [lia|]. constructor; auto. lia.
    + rewrite nth_error_app2 in Hk by (rewrite map_length, seq_length; auto).
      rewrite map_length, seq_length in Hk.
      destruct (k - n - n)%nat as [|[|j]] eqn:Ej; cbn [nth_error] in Hk; [| |destruct j; discriminate];
        inversion Hk; subst g; cbn [g_output g_inputs g_kind g_domain].
      * split; [lia|]. apply Forall_forall. intros i Hi. apply in_seq in Hi. lia.
      * split; [lia|]. constructor; auto. lia.
Qed.
Lemma circK_outs : map g_output (gates circK) = seq (2 * n) (2 * n + 2).
Proof.
  unfold circK, tail_gates, xors1. cbn [gates]. rewrite !map_app, !map_map. cbn [map g_output].
  replace (2 * n + 2)%nat with (n + (n + 2))%nat by lia. rewrite !seq_app.
  apply f_equal2; [|apply f_equal2].
  - apply map_add_seq. intros; lia.
  - apply map_add_seq. intros; lia.
  - cbn [seq]. replace (2 * n + n + n + 1)%nat with (S (2 * n + n + n)) by lia. reflexivity.
Qed.
Lemma circK_moduli : wire_moduli circK = repeat 2 (3 * n) ++ repeat cd (n + 1) ++ [2].
Proof.
  unfold wire_moduli, circK, tail_gates, xors1. cbn [input_domains gates].
  rewrite !map_app, !map_map. cbn [map output_domain g_kind g_domain].
  assert (E : forall (x : N) k, map (fun _ : nat => x) (seq 0 k) = repeat x k).
  { intros x k. rewrite <- (seq_length k 0) at 2. generalize (seq 0 k). induction l; simpl; congruence. }
  unfold output_domain. cbn [g_kind g_domain]. rewrite !E.
  replace (3 * n)%nat with (n * 2 + n)%nat by lia. rewrite !repeat_app. rewrite <- !app_assoc. reflexivity.
Qed.
Lemma circK_modulus i : (i < 4 * n + 2)%nat ->
  modulus circK i = if Nat.ltb i (3 * n) then 2 else if Nat.ltb i (4 * n + 1) then cd else 2.
Proof.
  intros Hi. unfold modulus. rewrite circK_moduli. destruct (Nat.ltb_spec i (3 * n)).
  - rewrite app_nth1 by (rewrite repeat_length; auto). now apply nth_repeat_lt.
  - rewrite app_nth2 by (rewrite repeat_length; auto). rewrite repeat_length.
    destruct (Nat.ltb_spec i (4 * n + 1)).
    + rewrite app_nth1 by (rewrite repeat_length; lia). apply nth_repeat_lt. lia.
    + rewrite app_nth2 by (rewrite repeat_length; lia). rewrite repeat_length.
      replace (i - 3 * n - (n + 1))%nat with 0%nat by lia. reflexivity.
Qed.
Lemma circK_wf : (1 <= n)%nat -> supported cd -> wf_circuit circK.
Proof.
  intros H1 Hs. assert (S2 : supported 2) by (left; lia).
  assert (Hgl : length (gates circK) = (2 * n + 2)%nat) by (rewrite <- (map_length g_output), circK_outs, seq_length; auto).
  constructor.
  - cbn [circK input_domains num_inputs]. apply repeat_length.
  - rewrite Hgl. cbn [circK num_wires num_inputs]. lia.
  - rewrite Hgl. cbn [circK num_outputs]. lia.
  - intros k g Hk.
    destruct (circK_gate k g Hk) as (Ho & Hi).
    cbn [circK num_inputs]. split; auto. split; auto. clear Ho Hi.
    assert (Hlt : (k < length (gates circK))%nat) by (apply nth_error_Some; congruence). rewrite Hgl in Hlt.
    unfold circK in Hk. cbn [gates] in Hk. unfold tail_gates, xors1 in Hk.
    destruct (Nat.lt_ge_cases k n) as [Hk1|Hk1].
    + rewrite nth_error_app1 in Hk by (rewrite map_length, seq_length; auto).
      rewrite nth_error_map_seq in Hk by auto. inversion Hk; subst g. unfold gate_typed. cbn [g_kind g_domain g_inputs].
      split; auto. split; [discriminate|]. intros i [<-|[<-|[]]]; rewrite circK_modulus by lia.
      destruct (Nat.ltb_spec k (3 * n)); auto; lia. destruct (Nat.ltb_spec (k + n) (3 * n)); auto; lia.
    + rewrite nth_error_app2 in Hk by (rewrite map_length, seq_length; auto).
      rewrite map_length, seq_length in Hk.
      destruct (Nat.lt_ge_cases (k - n) n) as [Hk2|Hk2].
      * rewrite nth_error_app1 in Hk by (rewrite map_length, seq_length; auto).
        rewrite nth_error_map_seq in Hk by auto. inversion Hk; subst g. unfold gate_typed. cbn [g_kind g_domain g_inputs].
        split; auto. eexists _, _. split; [reflexivity|]. split; auto. rewrite circK_modulus by lia.
        match goal with |- context [Nat.ltb ?x ?y] => destruct (Nat.ltb_spec x y) end; auto; lia.
      * rewrite nth_error_app2 in Hk by (rewrite map_length, seq_length; auto).
        rewrite map_length, seq_length in Hk.
        destruct (k - n - n)%nat as [|[|j]] eqn:Ej; cbn [nth_error] in Hk; [| |destruct j; discriminate]; inversion Hk; subst g;
          unfold gate_typed; cbn [g_inputs g_kind g_domain].
        -- split; auto. split. { destruct n; [lia|]. discriminate. }
           intros i Hi. apply in_seq in Hi. rewrite circK_modulus by lia.
           destruct (Nat.ltb_spec i (3 * n)); [lia|]. destruct (Nat.ltb_spec i (4 * n + 1)); auto; lia.
        -- split; auto. eexists _, _. split; [reflexivity|]. split; auto. rewrite circK_modulus by lia.
           match goal with |- context [Nat.ltb ?x ?y] => destruct (Nat.ltb_spec x y) end; [lia|].
           match goal with |- context [Nat.ltb ?x ?y] => destruct (Nat.ltb_spec x y) end; auto; lia.
  - cbn [circK input_domains]. apply Forall_repeat. auto.
  - intros m Hm. cbn [circK input_domains] in Hm. apply repeat_spec in Hm. subst m.
    exists (mkGate (0 + 2 * n) 2 [0; 0 + n]%nat GAdd). split; [|left; reflexivity].
    cbn [circK gates]. apply in_app_iff. left. apply in_map_iff. exists 0%nat. split; auto. apply in_seq. lia.
Qed.
Lemma circK_inputs a b : length a = n -> length b = n -> wf_inputs circK (bit_values a ++ bit_values b).
Proof.
  intros Ha Hb. split. { rewrite app_length, !bit_values_length. cbn [circK num_inputs]. lia. }
  cbn [circK num_inputs]. intros i Hi. rewrite circK_modulus by lia. destruct (Nat.ltb_spec i (3 * n)); [|lia].
  replace (bit_values a ++ bit_values b) with (bit_values (a ++ b)) by (unfold bit_values; now rewrite map_app).
  apply bit_values_lt.
Qed.
End Top.

Lemma circK_sendable n cd k1 : (1 <= n)%nat -> supported cd -> k1 <= 65535 -> usize_ok (4 * n + 2) -> circuit_ok (circK n cd k1).
Proof.
  intros H1 Hs Ht Hu. apply wf_circuit_ok; [now apply circK_wf|exact Hu|].
  cbn [circK gates num_wires]. apply Forall_app. split.
  - apply Forall_forall. intros g Hg. apply in_map_iff in Hg as (i & <- & _). cbn. split; [lia|exact I].
  - unfold tail_gates. apply Forall_forall. intros g Hg. apply in_app_iff in Hg as [Hg|Hg].
    + apply in_map_iff in Hg as (i & <- & _). cbn. split; [lia|exact I].
    + destruct Hg as [<-|[<-|[]]]; cbn; rewrite ?seq_length; split; try lia; unfold u16_ok; auto. lia.
Qed.
Lemma circK_half sha p g n cd k1 : hash32 sha -> garbling_ok g -> k1 <= 65535 -> (1 <= n)%nat -> supported cd -> usize_ok (4 * n + 2) ->
  exists gc ek dk zs l0 l1, half_key sha p (g_rd g) (g_ri g) (circK n cd k1) gc ek dk zs l0 l1.
Proof.
  intros Hh Hg Ht H1 Hs Hu. assert (H2 : Forall (fun m => m = 2) (input_domains (circK n cd k1))).
  { cbn [circK input_domains]. apply Forall_forall. intros m Hm. now apply repeat_spec in Hm. }
  apply half_key_exists; auto.
  - now apply circK_wf.
  - now apply samples_ok.
  - now apply circK_sendable.
  - unfold first_output. cbn [circK num_wires num_outputs]. rewrite circK_modulus by (auto; lia).
    replace (Nat.ltb _ _) with false by (symmetry; apply Nat.ltb_ge; lia).
    replace (Nat.ltb _ _) with false by (symmetry; apply Nat.ltb_ge; lia). reflexivity.
  - cbn [circK num_inputs]. lia.
Qed.
(** In release builds [threshold + 1] is 0 for the greatest threshold. *)
Lemma build_circuit_top n : N.of_nat n mod 65536 + 1 < 65536 ->
  build_circuit Release n 65535 = Ok (circK n (N.of_nat n mod 65536 + 1) 0).
Proof.
  intros Hn. unfold build_circuit, uadd. change (2 ^ 16) with 65536.
  destruct (N.ltb_spec (N.of_nat n mod 65536 + 1) 65536); [|lia]. cbn [obind].
  change (65535 + 1 <? 65536) with false. cbv iota. change ((65535 + 1) mod 65536) with 0. cbn [obind].
  unfold circK, xors1, tail_gates.
  replace (2 * n + n)%nat with (3 * n)%nat by lia. replace (3 * n + n)%nat with (4 * n)%nat by lia. reflexivity.
Qed.

(** ** A run of garbler and evaluator with the greatest threshold *)
Section RunTop.
Variable sha : bytes -> bytes.
Hypothesis Hsha : hash32 sha.
Variables p' : profile.
Variable g : garbling.
Hypothesis Hg : garbling_ok g.
Variable otS : list (bytes * bytes) -> proc unit.
Variable otR : list bool -> proc (list bytes).
Hypothesis Hot : ot_correct extension_ok otS otR.
Variables pw pw' : bytes.
Hypothesis Hlen : length pw' = length pw.
Hypothesis Hgood : workable_length (length pw).
Let n := (length pw * 8)%nat.
Let cd := sum_modulus (length pw).
Let c := circK n cd 0.

Lemma fpake_run_top : exists ek s l0 l1,
  garble_run sha Release (g_rd g) (g_ri g) c = Ok (ek, (4 * n + 1)%nat, s) /\
  genuine c (g_rd g) (gs_wires s) (4 * n + 1) 0 l0 /\ genuine c (g_rd g) (gs_wires s) (4 * n + 1) 1 l1 /\ wval l0 <> wval l1 /\
  runs (garbler sha Release g otS pw 65535) (evaluator sha p' otR pw')
    (Ok (sha (dec_string (4 * n + 1) 1 l1)))
    (Ok (sha (dec_string (4 * n + 1) 1 l0))).
Proof.
  destruct (workable _ Hgood) as (H1 & Hs & H2 & Hlt & Hun & Hnw). fold n in H1, Hun, Hnw. fold cd in Hs, H2, Hlt.
  destruct (circK_half sha Release g n cd 0 Hsha Hg (N.le_0_l _) H1 Hs Hnw) as (gc & ek & dk & zs & l0 & l1 & H). fold c in H.
  assert (Eo : first_output c = (4 * n + 1)%nat) by (unfold first_output; cbn [c circK num_wires num_outputs]; lia).
  destruct (hk_genuine _ _ _ _ _ _ _ _ _ _ _ H) as (s & Er & G0 & G1). rewrite Eo in Er, G0, G1.
  exists ek, s, l0, l1. split; [exact Er|]. split; [exact G0|]. split; [exact G1|].
  split; [exact (hk_differ _ _ _ _ _ _ _ _ _ _ _ H)|].
  pose proof (zs_binary _ _ _ _ _ _ _ _ _ _ H) as Hz.
  pose proof (hk_length _ _ _ _ _ _ _ _ _ _ _ H) as Lz. cbn [c circK num_inputs] in Lz.
  assert (Lb : length (u8_vec_to_bool_vec pw) = n) by apply bits_length8.
  assert (Lb' : length (u8_vec_to_bool_vec pw') = n) by (rewrite bits_length8, Hlen; reflexivity).
  unfold garbler, evaluator. rewrite Lb.
  eapply runs_lift_l; [exact (build_circuit_top n Hlt)|]. change (circK n (N.of_nat n mod 65536 + 1) 0) with c.
  eapply runs_lift_l; [exact (garble_zipped_ok _ _ _ _ _ _ _ _ _ _ H)|]. cbv beta iota.
  eapply runs_lift_l. { unfold slice_to. rewrite (proj2 (Nat.leb_le _ _)) by lia. reflexivity. }
  eapply runs_lift_l. { unfold slice_from. rewrite (proj2 (Nat.leb_le _ _)) by lia. reflexivity. }
  set (own := firstn n zs). set (theirs := skipn n zs).
  assert (Lo : length own = n) by (unfold own; rewrite firstn_length; lia).
  assert (Lt : length theirs = n) by (unfold theirs; rewrite skipn_length; lia).
  assert (Hown : all_binary own) by now apply all_binary_firstn.
  assert (Hth : all_binary theirs) by now apply all_binary_skipn.
  destruct (Hot (label_messages theirs) (u8_vec_to_bool_vec pw')) as (out & R & Sel).
  { unfold label_messages. rewrite map_length. lia. }
  { apply labels_extension; [exact Hth|lia| |rewrite Lt; exact Hun]. rewrite Lt. apply Nat.mod_mul. lia. }
  apply selection_labels in Sel; [|lia].
  eapply runs_bind; [exact R|].
  eapply runs_lift_r. { rewrite Sel. apply received_labels. now apply picked_labels. }
  apply runs_send_recv.
  destruct (sent_garbled _ _ _ _ _ _ _ _ _ _ Hg H) as (gc2 & Egc & Same).
  eapply runs_lift_r; [exact Egc|].
  eapply runs_lift_l. { apply bk_encode_pick. lia. }
  apply runs_send_recv.
  eapply runs_lift_r. { apply sent_wires; [now apply picked_labels|]. rewrite zipWith_length, Lo, Lb, Nat.min_id. exact Hun. }
  eapply runs_lift_r.
  { rewrite <- zipWith_app by lia. unfold own, theirs. rewrite firstn_skipn.
    apply (hk_evaluate _ _ _ _ _ _ _ _ _ _ _ H); [|exact Same]. rewrite app_length. cbn [c circK num_inputs]. lia. }
  assert (Ev : circuit_outputs c (bit_values (u8_vec_to_bool_vec pw ++ u8_vec_to_bool_vec pw')) =
    [0]).
  { unfold bit_values. rewrite map_app. fold (bit_values (u8_vec_to_bool_vec pw)). fold (bit_values (u8_vec_to_bool_vec pw')).
    unfold c. rewrite circK_outputs by assumption. rewrite hamming_bits by auto.
    now rewrite (proj2 (N.ltb_ge _ _)) by apply N.le_0_l. }
  rewrite Ev. cbn [nth].
  change (if 0 =? 1 then l1 else l0) with l0. rewrite (garbler_half_key_ok _ _ _ _ _ _ _ _ _ _ H).
  assert (Hnw1 : (1 <= num_wires c)%nat) by (cbn [c circK num_wires]; lia).
  rewrite (evaluator_half_key_ok _ _ _ _ _ _ _ _ _ _ H p' gc2 _ Same eq_refl Hnw1 Hnw).
  rewrite Eo. apply runs_done.
Qed.
End RunTop.
