(** The circuit with any modulus for the sum, and the half keys for long passwords. *)
From Coq Require Import List NArith Bool Arith Lia Permutation.
From Verif Require Import Base MUtil MWires MCircuit MGarble MPar MBincode MProc MMany MFpake.
From Verif Require Import SpecWires SpecCircuit SpecGarble SpecBincode SpecOt SpecApricot SpecFpake SpecLong.
From Verif Require Import PBase PUtil PWires PWiresSpec PGarble PGarbleSpec PBinKey PBincode PCircuit PHalf PProc PFpake.
Import ListNotations.
Open Scope N_scope.

Lemma tail_values_mod u d cd t1 : let n := length d in 2 <= cd ->
  run_gates (tail_gates (length u) n cd t1) (u ++ bit_values d) =
  (u ++ bit_values d) ++ bit_values d ++
    [N.of_nat (length (filter (fun b => b) d)) mod cd;
     if N.of_nat (length (filter (fun b => b) d)) mod cd <? t1 then 1 else 0].
Proof.
  intros n Hcd. unfold tail_gates. rewrite run_gates_app.
  pose proof (bit_values_length d) as Hbl. fold n in Hbl.
  rewrite (run_layer0 (map _ (seq 0 n))).
  2:{ intros g Hg. apply in_map_iff in Hg as (i & <- & Hi). apply in_seq in Hi.
      cbn [g_inputs]. constructor; auto. rewrite app_length. lia. }
  assert (E : map (fun g => gate_value g (map (fun i => nth i (u ++ bit_values d) 0) (g_inputs g)))
     (map (fun i => mkGate (i + (length u + n)) 2 [(i + length u)%nat] (GProj (PMap cd))) (seq 0 n)) = bit_values d).
  { rewrite map_map. unfold gate_value. cbn [g_kind g_inputs map nth].
    transitivity (map (fun i => nth i (bit_values d) 0) (seq 0 n)); [|now apply map_seq_nth]. apply map_ext_in. intros i Hi. apply in_seq in Hi.
    rewrite app_nth2 by lia. rewrite Nat.add_sub. apply N.mod_small.
    pose proof (bit_values_lt d i). lia. }
  rewrite E. cbn [run_gates]. unfold gate_value. cbn [g_kind g_inputs g_domain map nth].
  assert (Es : map (fun i => nth i ((u ++ bit_values d) ++ bit_values d) 0) (seq (length u + n) n) = bit_values d).
  { replace (length u + n)%nat with (length (u ++ bit_values d)) by (rewrite app_length; lia).
    pose proof (slice_nth (u ++ bit_values d) (bit_values d) [] 0 n) as HS. rewrite app_nil_r in HS. auto. }
  rewrite Es. rewrite fold_sum_bits.
  rewrite app_nth2 by (rewrite !app_length; lia).
  replace (length u + n + n - length ((u ++ bit_values d) ++ bit_values d))%nat with 0%nat by (rewrite !app_length; lia).
  cbn [nth]. rewrite <- !app_assoc. reflexivity.
Qed.

Section Long.
Variables (n : nat) (cd t : N).
Definition circL : circuit :=
  mkCircuit (4 * n + 2) (n * 2) 1 (xors1 n ++ tail_gates (2 * n) n cd (t + 1)) (repeat 2 (n * 2)).
Lemma circL_values a b : length a = n -> length b = n -> 2 <= cd ->
  circuit_values circL (bit_values a ++ bit_values b) =
  (bit_values a ++ bit_values b) ++ bit_values (xor_list a b) ++ bit_values (xor_list a b) ++
    [N.of_nat (hamming a b) mod cd; if N.of_nat (hamming a b) mod cd <=? t then 1 else 0].
Proof.
  intros Ha Hb Hcd. unfold circuit_values, circL. cbn [gates]. rewrite run_gates_app.
  pose proof (bit_values_length a). pose proof (bit_values_length b).
  rewrite (run_layer0 (xors1 n)).
  2:{ intros g Hg. apply in_map_iff in Hg as (i & <- & Hi). apply in_seq in Hi.
      cbn [g_inputs]. constructor; [|constructor; auto]; rewrite app_length; lia. }
  assert (E : map (fun g => gate_value g (map (fun i => nth i (bit_values a ++ bit_values b) 0) (g_inputs g))) (xors1 n)
     = bit_values (xor_list a b)).
  { unfold xors1. rewrite map_map. unfold gate_value. cbn [g_kind g_inputs g_domain map nth fold_right].
    rewrite <- (map_seq_nth (bit_values (xor_list a b)) 0 n).
    2:{ rewrite bit_values_length, xor_list_length; congruence. }
    apply map_ext_in. intros i Hi. apply in_seq in Hi.
    rewrite app_nth1 by lia. rewrite app_nth2 by lia. replace (i + n - length (bit_values a))%nat with i by lia.
    rewrite !bit_values_nth. unfold xor_list.
    rewrite (zipWith_nth _ _ _ _ false false) by lia.
    destruct (nth i a false), (nth i b false); reflexivity. }
  rewrite E. replace (2 * n)%nat with (length (bit_values a ++ bit_values b)) by (rewrite app_length; lia).
  pose proof (xor_list_length a b ltac:(congruence)) as Hx.
  replace n with (length (xor_list a b)) at 1 by congruence.
  rewrite tail_values_mod by exact Hcd.
  rewrite <- !app_assoc. do 4 f_equal. rewrite hamming_filter. f_equal. f_equal.
  destruct (N.ltb_spec (N.of_nat (length (filter (fun b => b) (xor_list a b))) mod cd) (t + 1)),
    (N.leb_spec (N.of_nat (length (filter (fun b => b) (xor_list a b))) mod cd) t); auto; lia.
Qed.
Lemma circL_outputs a b : length a = n -> length b = n -> 2 <= cd ->
  circuit_outputs circL (bit_values a ++ bit_values b) = [if N.of_nat (hamming a b) mod cd <=? t then 1 else 0].
Proof.
  intros Ha Hb Hcd. unfold circuit_outputs. rewrite circL_values by auto. cbn [circL num_wires num_outputs].
  pose proof (xor_list_length a b ltac:(congruence)).
  set (pre := (bit_values a ++ bit_values b) ++ bit_values (xor_list a b) ++ bit_values (xor_list a b) ++ [N.of_nat (hamming a b) mod cd]).
  replace ((bit_values a ++ bit_values b) ++ _) with (pre ++ [if N.of_nat (hamming a b) mod cd <=? t then 1 else 0])
    by (unfold pre; rewrite <- !app_assoc; reflexivity).
  rewrite skipn_app. replace (4 * n + 2 - 1 - length pre)%nat with 0%nat.
  - rewrite skipn_all2. reflexivity. unfold pre. rewrite !app_length, !bit_values_length. simpl. lia.
  - unfold pre. rewrite !app_length, !bit_values_length. simpl. lia.
Qed.
Lemma circL_gate k g : nth_error (gates circL) k = Some g ->
  g_output g = (n * 2 + k)%nat /\ Forall (fun i => (i < g_output g)%nat) (g_inputs g).
Proof.
  intros Hk. assert (Hlt : (k < length (gates circL))%nat) by (apply nth_error_Some; congruence).
  unfold circL in Hk, Hlt. cbn [gates] in Hk, Hlt. unfold tail_gates, xors1 in Hk, Hlt.
  rewrite !app_length, !map_length, !seq_length in Hlt. cbn [length] in Hlt.
  destruct (Nat.lt_ge_cases k n) as [H1|H1].
  - rewrite nth_error_app1 in Hk by (rewrite map_length, seq_length; auto).
    rewrite nth_error_map_seq in Hk by auto. inversion Hk; subst g. cbn [g_output g_inputs g_kind g_domain map fold_right].
    split; [lia|]. constructor; [|constructor; auto]; lia.
  - rewrite nth_error_app2 in Hk by (rewrite map_length, seq_length; auto).
    rewrite map_length, seq_length in Hk.
    destruct (Nat.lt_ge_cases (k - n) n) as [H2|H2].
    + rewrite nth_error_app1 in Hk by (rewrite map_length, seq_length; auto).
      rewrite nth_error_map_seq in Hk by auto. inversion Hk; subst g. cbn [g_output g_inputs g_kind g_domain].
      split; [lia|]. constructor; auto. lia.
    + rewrite nth_error_app2 in Hk by (rewrite map_length, seq_length; auto).
      rewrite map_length, seq_length in Hk.
      destruct (k - n - n)%nat as [|[|j]] eqn:Ej; cbn [nth_error] in Hk; [| |destruct j; discriminate];
        inversion Hk; subst g; cbn [g_output g_inputs g_kind g_domain].
      * split; [lia|]. apply Forall_forall. intros i Hi. apply in_seq in Hi. lia.
      * split; [lia|]. constructor; auto. lia.
Qed.
Lemma circL_outs : map g_output (gates circL) = seq (2 * n) (2 * n + 2).
Proof.
  unfold circL, tail_gates, xors1. cbn [gates]. rewrite !map_app, !map_map. cbn [map g_output].
  replace (2 * n + 2)%nat with (n + (n + 2))%nat by lia. rewrite !seq_app.
  apply f_equal2; [|apply f_equal2].
  - apply map_add_seq. intros; lia.
  - apply map_add_seq. intros; lia.
  - cbn [seq]. replace (2 * n + n + n + 1)%nat with (S (2 * n + n + n)) by lia. reflexivity.
Qed.
Lemma circL_moduli : wire_moduli circL = repeat 2 (3 * n) ++ repeat cd (n + 1) ++ [2].
Proof.
  unfold wire_moduli, circL, tail_gates, xors1. cbn [input_domains gates].
  rewrite !map_app, !map_map. cbn [map output_domain g_kind g_domain].
  assert (E : forall (x : N) k, map (fun _ : nat => x) (seq 0 k) = repeat x k).
  { intros x k. rewrite <- (seq_length k 0) at 2. generalize (seq 0 k). induction l; simpl; congruence. }
  unfold output_domain. cbn [g_kind g_domain]. rewrite !E.
  replace (3 * n)%nat with (n * 2 + n)%nat by lia. rewrite !repeat_app. rewrite <- !app_assoc. reflexivity.
Qed.
Lemma circL_modulus i : (i < 4 * n + 2)%nat ->
  modulus circL i = if Nat.ltb i (3 * n) then 2 else if Nat.ltb i (4 * n + 1) then cd else 2.
Proof.
  intros Hi. unfold modulus. rewrite circL_moduli. destruct (Nat.ltb_spec i (3 * n)).
  - rewrite app_nth1 by (rewrite repeat_length; auto). now apply nth_repeat_lt.
  - rewrite app_nth2 by (rewrite repeat_length; auto). rewrite repeat_length.
    destruct (Nat.ltb_spec i (4 * n + 1)).
    + rewrite app_nth1 by (rewrite repeat_length; lia). apply nth_repeat_lt. lia.
    + rewrite app_nth2 by (rewrite repeat_length; lia). rewrite repeat_length.
      replace (i - 3 * n - (n + 1))%nat with 0%nat by lia. reflexivity.
Qed.
Lemma circL_wf : (1 <= n)%nat -> supported cd -> wf_circuit circL.
Proof.
  intros H1 Hs. assert (S2 : supported 2) by (left; lia).
  assert (Hgl : length (gates circL) = (2 * n + 2)%nat) by (rewrite <- (map_length g_output), circL_outs, seq_length; auto).
  constructor.
  - cbn [circL input_domains num_inputs]. apply repeat_length.
  - rewrite Hgl. cbn [circL num_wires num_inputs]. lia.
  - rewrite Hgl. cbn [circL num_outputs]. lia.
  - intros k g Hk.
    destruct (circL_gate k g Hk) as (Ho & Hi).
    cbn [circL num_inputs]. split; auto. split; auto. clear Ho Hi.
    assert (Hlt : (k < length (gates circL))%nat) by (apply nth_error_Some; congruence). rewrite Hgl in Hlt.
    unfold circL in Hk. cbn [gates] in Hk. unfold tail_gates, xors1 in Hk.
    destruct (Nat.lt_ge_cases k n) as [Hk1|Hk1].
    + rewrite nth_error_app1 in Hk by (rewrite map_length, seq_length; auto).
      rewrite nth_error_map_seq in Hk by auto. inversion Hk; subst g. unfold gate_typed. cbn [g_kind g_domain g_inputs].
      split; auto. split; [discriminate|]. intros i [<-|[<-|[]]]; rewrite circL_modulus by lia.
      destruct (Nat.ltb_spec k (3 * n)); auto; lia. destruct (Nat.ltb_spec (k + n) (3 * n)); auto; lia.
    + rewrite nth_error_app2 in Hk by (rewrite map_length, seq_length; auto).
      rewrite map_length, seq_length in Hk.
      destruct (Nat.lt_ge_cases (k - n) n) as [Hk2|Hk2].
      * rewrite nth_error_app1 in Hk by (rewrite map_length, seq_length; auto).
        rewrite nth_error_map_seq in Hk by auto. inversion Hk; subst g. unfold gate_typed. cbn [g_kind g_domain g_inputs].
        split; auto. eexists _, _. split; [reflexivity|]. split; auto. rewrite circL_modulus by lia.
        match goal with |- context [Nat.ltb ?x ?y] => destruct (Nat.ltb_spec x y) end; auto; lia.
      * rewrite nth_error_app2 in Hk by (rewrite map_length, seq_length; auto).
        rewrite map_length, seq_length in Hk.
        destruct (k - n - n)%nat as [|[|j]] eqn:Ej; cbn [nth_error] in Hk; [| |destruct j; discriminate]; inversion Hk; subst g;
          unfold gate_typed; cbn [g_inputs g_kind g_domain].
        -- split; auto. split. { destruct n; [lia|]. discriminate. }
           intros i Hi. apply in_seq in Hi. rewrite circL_modulus by lia.
           destruct (Nat.ltb_spec i (3 * n)); [lia|]. destruct (Nat.ltb_spec i (4 * n + 1)); auto; lia.
        -- split; auto. eexists _, _. split; [reflexivity|]. split; auto. rewrite circL_modulus by lia.
           match goal with |- context [Nat.ltb ?x ?y] => destruct (Nat.ltb_spec x y) end; [lia|].
           match goal with |- context [Nat.ltb ?x ?y] => destruct (Nat.ltb_spec x y) end; auto; lia.
  - cbn [circL input_domains]. apply Forall_repeat. auto.
  - intros m Hm. cbn [circL input_domains] in Hm. apply repeat_spec in Hm. subst m.
    exists (mkGate (0 + 2 * n) 2 [0; 0 + n]%nat GAdd). split; [|left; reflexivity].
    cbn [circL gates]. apply in_app_iff. left. apply in_map_iff. exists 0%nat. split; auto. apply in_seq. lia.
Qed.
Lemma circL_inputs a b : length a = n -> length b = n -> wf_inputs circL (bit_values a ++ bit_values b).
Proof.
  intros Ha Hb. split. { rewrite app_length, !bit_values_length. cbn [circL num_inputs]. lia. }
  cbn [circL num_inputs]. intros i Hi. rewrite circL_modulus by lia. destruct (Nat.ltb_spec i (3 * n)); [|lia].
  replace (bit_values a ++ bit_values b) with (bit_values (a ++ b)) by (unfold bit_values; now rewrite map_app).
  apply bit_values_lt.
Qed.
End Long.

Lemma build_circuit_long p n t : N.of_nat n mod 65536 + 1 < 65536 -> t <= 65534 ->
  build_circuit p n t = Ok (circL n (N.of_nat n mod 65536 + 1) t).
Proof.
  intros Hn Ht. unfold build_circuit, uadd. change (2 ^ 16) with 65536.
  destruct (N.ltb_spec (N.of_nat n mod 65536 + 1) 65536); [|lia]. cbn [obind].
  destruct (N.ltb_spec (t + 1) 65536); [|lia]. cbn [obind].
  unfold circL, xors1, tail_gates.
  replace (2 * n + n)%nat with (3 * n)%nat by lia. replace (3 * n + n)%nat with (4 * n)%nat by lia. reflexivity.
Qed.
Lemma circL_sendable n cd t : (1 <= n)%nat -> supported cd -> t <= 65534 -> usize_ok (4 * n + 2) -> circuit_ok (circL n cd t).
Proof.
  intros H1 Hs Ht Hu. apply wf_circuit_ok; [now apply circL_wf|exact Hu|].
  cbn [circL gates num_wires]. apply Forall_app. split.
  - apply Forall_forall. intros g Hg. apply in_map_iff in Hg as (i & <- & _). cbn. split; [lia|exact I].
  - unfold tail_gates. apply Forall_forall. intros g Hg. apply in_app_iff in Hg as [Hg|Hg].
    + apply in_map_iff in Hg as (i & <- & _). cbn. split; [lia|exact I].
    + destruct Hg as [<-|[<-|[]]]; cbn; rewrite ?seq_length; split; try lia; unfold u16_ok; auto. lia.
Qed.
Lemma circL_half sha p g n cd t : hash32 sha -> garbling_ok g -> t <= 65534 -> (1 <= n)%nat -> supported cd -> usize_ok (4 * n + 2) ->
  exists gc ek dk zs l0 l1, half_key sha p (g_rd g) (g_ri g) (circL n cd t) gc ek dk zs l0 l1.
Proof.
  intros Hh Hg Ht H1 Hs Hu. assert (H2 : Forall (fun m => m = 2) (input_domains (circL n cd t))).
  { cbn [circL input_domains]. apply Forall_forall. intros m Hm. now apply repeat_spec in Hm. }
  apply half_key_exists; auto.
  - now apply circL_wf.
  - now apply samples_ok.
  - now apply circL_sendable.
  - unfold first_output. cbn [circL num_wires num_outputs]. rewrite circL_modulus by (auto; lia).
    replace (Nat.ltb _ _) with false by (symmetry; apply Nat.ltb_ge; lia).
    replace (Nat.ltb _ _) with false by (symmetry; apply Nat.ltb_ge; lia). reflexivity.
  - cbn [circL num_inputs]. lia.
Qed.
Lemma workable l : workable_length l -> (1 <= l * 8)%nat /\ supported (sum_modulus l) /\ 2 <= sum_modulus l /\ sum_modulus l < 65536 /\
  usize_ok (l * 8) /\ usize_ok (4 * (l * 8) + 2).
Proof.
  intros (H1 & Hs & Hu). split; [lia|]. split; [exact Hs|]. unfold supported in Hs.
  unfold usize_ok in *. change (2 ^ 64) with 18446744073709551616 in *. lia.
Qed.

(** ** A run of garbler and evaluator: the distance is taken modulo [cd] *)
Section RunLong.
Variable sha : bytes -> bytes.
Hypothesis Hsha : hash32 sha.
Variables p p' : profile.
Variable g : garbling.
Hypothesis Hg : garbling_ok g.
Variable otS : list (bytes * bytes) -> proc unit.
Variable otR : list bool -> proc (list bytes).
Hypothesis Hot : ot_correct extension_ok otS otR.
Variables pw pw' : bytes.
Variable t : N.
Hypothesis Hlen : length pw' = length pw.
Hypothesis Hgood : workable_length (length pw).
Hypothesis Ht : t <= 65534.
Let n := (length pw * 8)%nat.
Let cd := sum_modulus (length pw).
Let c := circL n cd t.

Lemma fpake_run_long : exists ek s l0 l1,
  garble_run sha p (g_rd g) (g_ri g) c = Ok (ek, (4 * n + 1)%nat, s) /\
  genuine c (g_rd g) (gs_wires s) (4 * n + 1) 0 l0 /\ genuine c (g_rd g) (gs_wires s) (4 * n + 1) 1 l1 /\ wval l0 <> wval l1 /\
  runs (garbler sha p g otS pw t) (evaluator sha p' otR pw')
    (Ok (sha (dec_string (4 * n + 1) 1 l1)))
    (Ok (sha (dec_string (4 * n + 1) 1 (if N.of_nat (distance pw pw') mod cd <=? t then l1 else l0)))).
Proof.
  destruct (workable _ Hgood) as (H1 & Hs & H2 & Hlt & Hun & Hnw). fold n in H1, Hun, Hnw. fold cd in Hs, H2, Hlt.
  destruct (circL_half sha p g n cd t Hsha Hg Ht H1 Hs Hnw) as (gc & ek & dk & zs & l0 & l1 & H). fold c in H.
  assert (Eo : first_output c = (4 * n + 1)%nat) by (unfold first_output; cbn [c circL num_wires num_outputs]; lia).
  destruct (hk_genuine _ _ _ _ _ _ _ _ _ _ _ H) as (s & Er & G0 & G1). rewrite Eo in Er, G0, G1.
  exists ek, s, l0, l1. split; [exact Er|]. split; [exact G0|]. split; [exact G1|].
  split; [exact (hk_differ _ _ _ _ _ _ _ _ _ _ _ H)|].
  pose proof (zs_binary _ _ _ _ _ _ _ _ _ _ H) as Hz.
  pose proof (hk_length _ _ _ _ _ _ _ _ _ _ _ H) as Lz. cbn [c circL num_inputs] in Lz.
  assert (Lb : length (u8_vec_to_bool_vec pw) = n) by apply bits_length8.
  assert (Lb' : length (u8_vec_to_bool_vec pw') = n) by (rewrite bits_length8, Hlen; reflexivity).
  unfold garbler, evaluator. rewrite Lb.
  eapply runs_lift_l; [exact (build_circuit_long p n t Hlt Ht)|]. change (circL n (N.of_nat n mod 65536 + 1) t) with c.
  eapply runs_lift_l; [exact (garble_zipped_ok _ _ _ _ _ _ _ _ _ _ H)|]. cbv beta iota.
  eapply runs_lift_l. { unfold slice_to. rewrite (proj2 (Nat.leb_le _ _)) by lia. reflexivity. }
  eapply runs_lift_l. { unfold slice_from. rewrite (proj2 (Nat.leb_le _ _)) by lia. reflexivity. }
  set (own := firstn n zs). set (theirs := skipn n zs).
  assert (Lo : length own = n) by (unfold own; rewrite firstn_length; lia).
  assert (Lt : length theirs = n) by (unfold theirs; rewrite skipn_length; lia).
  assert (Hown : all_binary own) by now apply all_binary_firstn.
  assert (Hth : all_binary theirs) by now apply all_binary_skipn.
  destruct (Hot (label_messages theirs) (u8_vec_to_bool_vec pw')) as (out & R & Sel).
  { unfold label_messages. rewrite map_length. lia. }
  { apply labels_extension; [exact Hth|lia| |rewrite Lt; exact Hun]. rewrite Lt. apply Nat.mod_mul. lia. }
  apply selection_labels in Sel; [|lia].
  eapply runs_bind; [exact R|].
  eapply runs_lift_r. { rewrite Sel. apply received_labels. now apply picked_labels. }
  apply runs_send_recv.
  destruct (sent_garbled _ _ _ _ _ _ _ _ _ _ Hg H) as (gc2 & Egc & Same).
  eapply runs_lift_r; [exact Egc|].
  eapply runs_lift_l. { apply bk_encode_pick. lia. }
  apply runs_send_recv.
  eapply runs_lift_r. { apply sent_wires; [now apply picked_labels|]. rewrite zipWith_length, Lo, Lb, Nat.min_id. exact Hun. }
  eapply runs_lift_r.
  { rewrite <- zipWith_app by lia. unfold own, theirs. rewrite firstn_skipn.
    apply (hk_evaluate _ _ _ _ _ _ _ _ _ _ _ H); [|exact Same]. rewrite app_length. cbn [c circL num_inputs]. lia. }
  assert (Ev : circuit_outputs c (bit_values (u8_vec_to_bool_vec pw ++ u8_vec_to_bool_vec pw')) =
    [if N.of_nat (distance pw pw') mod cd <=? t then 1 else 0]).
  { unfold bit_values. rewrite map_app. fold (bit_values (u8_vec_to_bool_vec pw)). fold (bit_values (u8_vec_to_bool_vec pw')).
    unfold c. rewrite circL_outputs by assumption. rewrite hamming_bits by auto. reflexivity. }
  rewrite Ev. cbn [nth].
  assert (El : forall b : bool, (if (if b then 1 else 0) =? 1 then l1 else l0) = if b then l1 else l0) by (intros [|]; reflexivity).
  rewrite El. rewrite (garbler_half_key_ok _ _ _ _ _ _ _ _ _ _ H).
  assert (Hnw1 : (1 <= num_wires c)%nat) by (cbn [c circL num_wires]; lia).
  rewrite (evaluator_half_key_ok _ _ _ _ _ _ _ _ _ _ H p' gc2 _ Same eq_refl Hnw1 Hnw).
  rewrite Eo. apply runs_done.
Qed.
End RunLong.
