(** The garbler that makes the half key of its peer a digest of the peer's password. *)
From Coq Require Import List NArith Bool Arith Lia Permutation.
From Verif Require Import Base MUtil MWires MCircuit MGarble MBincode MProc MFpake SpecUtil SpecWires SpecCircuit SpecGarble SpecBincode SpecOt SpecApricot SpecFpake SpecSteal SpecTell.
From Verif Require Import PBase PUtil PWires PWiresSpec PGarble PHalf PLeak PProc PCircuit PBincode PFpake.
Import ListNotations.
Open Scope N_scope.

(** ** The sum of binary labels *)
Lemma digit2 w j : digit 2 w j = nth j (wval w) 0.
Proof. reflexivity. Qed.
Lemma psum_bits l : forall w j k, WF 2 w -> Forall (WF 2) l -> (j < 32)%nat ->
  N.testbit (nth j (wval (psum 2 l w)) 0) k = fold_left xorb (map (fun v => N.testbit (nth j (wval v) 0) k) l) (N.testbit (nth j (wval w) 0) k).
Proof.
  induction l as [|v l IH]; intros w j k Hw Hl Hj; [reflexivity|]. inversion Hl as [|? ? Hv Hl' E]; subst.
  unfold psum in *. cbn [fold_left map]. rewrite IH by auto using padd_WF, sup2. f_equal.
  rewrite <- (digit2 (padd 2 w v)). rewrite digit_padd by auto using sup2. unfold dplus. cbn [N.eqb Pos.eqb]. rewrite !digit2. apply N.lxor_spec.
Qed.
Lemma xor_single (f : nat -> bool) i0 : forall m a b, (forall i, (a <= i < a + m)%nat -> i <> i0 -> f i = false) ->
  fold_left xorb (map f (seq a m)) b = xorb b (if (Nat.leb a i0 && Nat.ltb i0 (a + m))%bool then f i0 else false).
Proof.
  induction m as [|m IH]; intros a b H; cbn [seq map fold_left].
  - replace (Nat.leb a i0 && Nat.ltb i0 (a + 0))%bool with false. now destruct b.
    symmetry. apply andb_false_iff. destruct (Nat.leb_spec a i0); [right; apply Nat.ltb_ge; lia|now left].
  - rewrite IH by (intros i Hi Hne; apply H; lia). destruct (Nat.eq_dec a i0) as [->|Hne].
    + rewrite (proj2 (Nat.leb_gt (Datatypes.S i0) i0)) by lia. rewrite Nat.leb_refl, (proj2 (Nat.ltb_lt i0 (i0 + Datatypes.S m))) by lia. cbn [andb]. destruct b, (f i0); reflexivity.
    + rewrite (H a) by lia. replace (Nat.leb (Datatypes.S a) i0) with (Nat.leb a i0).
      2: { destruct (Nat.leb_spec a i0), (Nat.leb_spec (Datatypes.S a) i0); auto; lia. }
      replace (a + Datatypes.S m)%nat with (Datatypes.S a + m)%nat by lia. now destruct b.
Qed.

Section Sum.
Variable sha : bytes -> bytes.
Variable p : profile.
Variable n : nat.
Variable gc : garbled.
Hypothesis Hgc : gc_circuit gc = telling_circuit n.

Lemma sum_evaluates w x : Forall (WF 2) (w :: x) -> length (w :: x) = n -> evaluate sha p gc (w :: x) = Ok [psum 2 x w].
Proof.
  intros HW Hl. set (xs := w :: x) in *. unfold evaluate. rewrite Hgc. cbn [telling_circuit num_inputs num_wires num_outputs gates].
  rewrite Hl, Nat.eqb_refl, debug_assert_true. cbn [obind].
  destruct (foldM_inv (fun (ws : list (option wire)) i => let* xi := idx xs i in set_idx ws i (Some xi))
     (fun q es => length es = (n + 1)%nat /\ forall i, (i < q)%nat -> nth_error es i = Some (nth_error xs i))
     (seq 0 n) (repeat None (n + 1))) as (es & Ees & Le & Hes).
  - split. apply repeat_length. intros; lia.
  - intros q a es Hq [Le Hes].
    assert (Hq' : (q < n)%nat). { rewrite <- (seq_length n 0). apply nth_error_Some. congruence. }
    assert (a = q). { rewrite (nth_error_nth' _ 0%nat) in Hq by (rewrite seq_length; auto).
      rewrite seq_nth in Hq by auto. inversion Hq; auto. } subst a.
    rewrite (idx_lt _ _ w) by lia. cbn [obind].
    rewrite set_idx_lt by lia. eexists; split; [reflexivity|]. split. { now rewrite set_nth_length. }
    intros i Hi. rewrite set_nth_nth_error by lia.
    destruct (Nat.eqb_spec i q) as [->|]; [|apply Hes; lia]. now rewrite (nth_error_nth' _ w) by lia.
  - rewrite Ees. cbn [obind foldM]. rewrite seq_length in Hes.
    unfold eval_garbled_gate. cbn [g_kind g_inputs g_output].
    rewrite (mapM_Ok _ (fun i => nth i xs w)).
    2: { intros i Hi. apply in_seq in Hi. unfold read_init, idx. rewrite Hes by lia. cbn [unwrap obind].
         now rewrite (nth_error_nth' _ w) by lia. }
    cbn [obind]. rewrite <- Hl. rewrite (map_seq_nth xs w (length xs) eq_refl). unfold xs at 1.
    inversion HW as [|? ? Hw Hx E]; subst.
    rewrite (wsum_ok p 2) by auto using sup2. cbn [obind]. rewrite set_idx_lt by lia. cbn [obind].
    replace (Nat.leb 1 (length xs + 1)) with true by (symmetry; apply Nat.leb_le; lia).
    replace (length xs + 1 - 1)%nat with (length xs) by lia.
    assert (Q : forall (l : list (option wire)) k v, length l = (k + 1)%nat -> skipn k (set_nth l k v) = [v]).
    { clear. induction l as [|a l IH]; intros k v L. { cbn in L. lia. } destruct k; cbn [set_nth skipn].
      - destruct l; [reflexivity|cbn in L; lia]. - apply IH. cbn in L. lia. }
    rewrite Q by (rewrite Le; lia). reflexivity.
Qed.
End Sum.

(** ** The labels of a password *)
Definition tell (pw : bytes) (i : nat) : wire := if bit_of pw i then mkWire Binary (probe 32 i) else mkWire Binary (repeat 0 32).
Lemma probe_nth len i j : (j < len)%nat -> nth j (probe len i) 0 = if Nat.eqb j (i / 8) then 2 ^ N.of_nat (i mod 8) else 0.
Proof.
  intros Hj. unfold probe. rewrite nth_indep with (d' := (fun b => if Nat.eqb b (i / 8) then 2 ^ N.of_nat (i mod 8) else 0) 0%nat) by now rewrite map_length, seq_length.
  rewrite (map_nth (fun b => if Nat.eqb b (i / 8) then 2 ^ N.of_nat (i mod 8) else 0)), seq_nth by auto. reflexivity.
Qed.
Lemma probe_WF i : WF 2 (mkWire Binary (probe 32 i)).
Proof.
  split; [reflexivity|]. cbn [wval]. split. { unfold probe. now rewrite map_length, seq_length. }
  assert (B : bytes_ok (probe 32 i)).
  { apply Forall_forall. intros x Hx. apply in_map_iff in Hx as (b & <- & _). destruct (Nat.eqb b (i / 8)); [|reflexivity].
    pose proof (Nat.mod_upper_bound i 8 ltac:(lia)). unfold byte_ok. change 256 with (2 ^ 8). apply N.pow_lt_mono_r; lia. }
  split; [exact B|]. split; [reflexivity|exact B].
Qed.
Lemma zeros_WF : WF 2 (mkWire Binary (repeat 0 32)).
Proof. assert (B : bytes_ok (repeat 0 32)). 2: { split; [reflexivity|]. split; [reflexivity|]. split; [exact B|]. split; [reflexivity|exact B]. } apply Forall_forall. intros x Hx. apply repeat_spec in Hx. now subst x. Qed.
Lemma telling_binary n : all_binary (telling_labels n).
Proof.
  unfold all_binary, telling_labels. apply Forall_map, Forall_forall. intros i _. cbn [fst snd]. split; [apply zeros_WF|apply probe_WF].
Qed.
Lemma telling_picked pw : zipWith pick (telling_labels (length pw * 8)) (u8_vec_to_bool_vec pw) = map (tell pw) (seq 0 (length pw * 8)).
Proof.
  assert (Lb : length (u8_vec_to_bool_vec pw) = (length pw * 8)%nat) by apply bits_length8.
  assert (Lt : length (telling_labels (length pw * 8)) = (length pw * 8)%nat) by (unfold telling_labels; now rewrite map_length, seq_length).
  set (d := (mkWire Binary (repeat 0 32), mkWire Binary (probe 32 0))).
  apply (nth_ext _ _ (pick d false) (tell pw 0)). { rewrite zipWith_length, map_length, seq_length. lia. }
  intros i Hi. rewrite zipWith_length in Hi. rewrite map_nth, seq_nth by lia. rewrite (zipWith_nth _ _ _ _ d false) by lia.
  unfold telling_labels, d. rewrite (map_nth (fun i => (mkWire Binary (repeat 0 32), mkWire Binary (probe 32 i)))), seq_nth by lia.
  rewrite bits_nth by lia. cbn [plus]. unfold pick, tell. cbn [fst snd]. destruct (bit_of pw i); reflexivity.
Qed.
Lemma tell_WF pw i : WF 2 (tell pw i).
Proof. unfold tell. destruct (bit_of pw i); [apply probe_WF|apply zeros_WF]. Qed.
Lemma tell_bit pw i j k : (j < 32)%nat ->
  N.testbit (nth j (wval (tell pw i)) 0) (N.of_nat k) = (bit_of pw i && Nat.eqb j (i / 8) && Nat.eqb k (i mod 8))%bool.
Proof.
  intros Hj. unfold tell. destruct (bit_of pw i); cbn [wval andb].
  - rewrite probe_nth by exact Hj. destruct (Nat.eqb_spec j (i / 8)); cbn [andb]; [|apply N.bits_0].
    rewrite N.pow2_bits_eqb. destruct (Nat.eqb_spec k (i mod 8)) as [->|Hne]; [apply N.eqb_refl|]. apply N.eqb_neq. intros Q. apply Nat2N.inj in Q. lia.
  - rewrite nth_repeat. apply N.bits_0.
Qed.

Lemma byte_high x k : byte_ok x -> 8 <= k -> N.testbit x k = false.
Proof.
  intros Hx Hk. destruct (N.eq_dec x 0) as [->|Hne]; [apply N.bits_0|]. apply N.bits_above_log2.
  apply N.lt_le_trans with 8; [|exact Hk]. apply N.log2_lt_pow2; [lia|exact Hx].
Qed.
Lemma tell_sum pw : bytes_ok pw -> (1 <= length pw <= 32)%nat ->
  wval (psum 2 (map (tell pw) (seq 1 (length pw * 8 - 1))) (tell pw 0)) = pw ++ repeat 0 (32 - length pw).
Proof.
  intros Hok Hl. set (n := (length pw * 8)%nat). set (w := psum 2 _ _).
  assert (HF : Forall (WF 2) (map (tell pw) (seq 1 (n - 1)))) by (apply Forall_map, Forall_forall; intros; apply tell_WF).
  assert (HW : WF 2 w) by (apply psum_WF; auto using sup2, tell_WF).
  destruct HW as (_ & Lw & Bw & _).
  apply (nth_ext _ _ 0 0). { rewrite app_length, repeat_length. lia. }
  intros j Hj. rewrite Lw in Hj. apply N.bits_inj. intros k.
  assert (Hpad : byte_ok (nth j (pw ++ repeat 0 (32 - length pw)) 0)).
  { destruct (Nat.lt_ge_cases j (length pw)) as [C|C].
    - rewrite app_nth1 by exact C. exact (proj1 (Forall_forall _ _) Hok _ (nth_In pw 0 C)).
    - rewrite app_nth2, nth_repeat by exact C. reflexivity. }
  destruct (N.lt_ge_cases k 8) as [Hk|Hk].
  2: { rewrite !byte_high by (auto; apply (proj1 (Forall_forall _ _) Bw); apply nth_In; lia). reflexivity. }
  replace k with (N.of_nat (N.to_nat k)) by lia. set (kk := N.to_nat k). assert (Hkk : (kk < 8)%nat) by lia.
  unfold w. rewrite psum_bits by auto using tell_WF. rewrite map_map, tell_bit by exact Hj.
  rewrite (map_ext _ (fun i => (bit_of pw i && Nat.eqb j (i / 8) && Nat.eqb kk (i mod 8))%bool)) by (intros; now apply tell_bit).
  set (f := fun i => (bit_of pw i && Nat.eqb j (i / 8) && Nat.eqb kk (i mod 8))%bool). change (_ && _ && _)%bool with (f 0%nat).
  assert (E : fold_left xorb (map f (seq 1 (n - 1))) (f 0%nat) = fold_left xorb (map f (seq 0 n)) false).
  { replace n with (Datatypes.S (n - 1)) at 2 by (unfold n; lia). cbn [seq map fold_left]. now rewrite xorb_false_l. }
  rewrite E. rewrite (xor_single f (8 * j + kk)).
  2: { intros i _ Hne. unfold f. destruct (Nat.eqb_spec j (i / 8)); [|now rewrite andb_false_r]. destruct (Nat.eqb_spec kk (i mod 8)); [|now rewrite andb_false_r].
       exfalso. apply Hne. pose proof (Nat.div_mod i 8 ltac:(lia)). lia. }
  rewrite xorb_false_l. cbn [Nat.leb andb plus].
  assert (Ed : ((8 * j + kk) / 8 = j)%nat) by (rewrite Nat.mul_comm, Nat.div_add_l, Nat.div_small by lia; lia).
  assert (Em : ((8 * j + kk) mod 8 = kk)%nat) by (rewrite Nat.mul_comm, Nat.add_comm, Nat.mod_add, Nat.mod_small by lia; lia).
  unfold f, bit_of. rewrite Ed, Em, !Nat.eqb_refl, !andb_true_r.
  destruct (Nat.ltb_spec (8 * j + kk) n) as [C|C].
  - rewrite app_nth1 by (unfold n in C; lia). reflexivity.
  - rewrite app_nth2, nth_repeat by (unfold n in C; lia). symmetry. apply N.bits_0.
Qed.

(** ** The run *)
Section Run.
Variable sha : bytes -> bytes.
Variable p : profile.
Variable otS : list (bytes * bytes) -> proc unit.
Variable otR : list bool -> proc (list bytes).
Hypothesis Hot : ot_correct extension_ok otS otR.
Variable pw : bytes.
Hypothesis Hok : bytes_ok pw.
Hypothesis Hlen : (1 <= length pw <= 32)%nat.
Let n := (length pw * 8)%nat.

Lemma small_usize k : (k <= 300)%nat -> usize_ok k.
Proof. intros H. apply usize_small. apply N.le_lt_trans with 300; [lia|reflexivity]. Qed.
Lemma telling_ok : garbled_ok (mkGC (telling_circuit n) [] []).
Proof.
  assert (Hn : (n <= 256)%nat) by (unfold n; lia).
  assert (E0 : forall A (P : A -> Prop), vec_ok P []) by (intros; split; [apply small_usize; cbn; lia|constructor]).
  split; [|split; (split; [apply E0|constructor])].
  cbn [gc_circuit]. unfold circuit_ok, telling_circuit. cbn [num_wires num_inputs num_outputs gates input_domains].
  split; [apply small_usize; lia|]. split; [apply small_usize; lia|]. split; [apply small_usize; lia|]. split.
  - split; [apply small_usize; cbn; lia|]. constructor; [|constructor]. unfold gate_ok. cbn [g_output g_domain g_inputs g_kind].
    split; [apply small_usize; lia|]. split; [reflexivity|]. split; [|exact I]. split; [apply small_usize; rewrite seq_length; lia|].
    apply Forall_forall. intros i Hi. apply in_seq in Hi. apply small_usize. lia.
  - split; [apply small_usize; rewrite repeat_length; lia|]. apply Forall_forall. intros x Hx. apply repeat_spec in Hx. subst x. reflexivity.
Qed.

Lemma telling_runs : runs (telling_garbler otS n) (evaluator sha p otR pw) (Ok tt) (Ok (told sha pw)).
Proof.
  assert (Lb : length (u8_vec_to_bool_vec pw) = n) by apply bits_length8.
  assert (Lt : length (telling_labels n) = n) by (unfold telling_labels; now rewrite map_length, seq_length).
  unfold telling_garbler, evaluator.
  destruct (Hot (label_messages (telling_labels n)) (u8_vec_to_bool_vec pw)) as (out & R & Sel).
  { unfold label_messages. rewrite map_length. lia. }
  { apply labels_extension; [apply telling_binary|unfold n in *; lia| |rewrite Lt; apply small_usize; unfold n; lia]. rewrite Lt. apply Nat.mod_mul. lia. }
  apply selection_labels in Sel; [|lia].
  eapply runs_bind; [exact R|].
  eapply runs_lift_r. { rewrite Sel. apply received_labels. apply picked_labels, telling_binary. }
  apply runs_send_recv.
  destruct (rt_garbled _ [] telling_ok) as (gc2 & Egc & Same). rewrite app_nil_r in Egc.
  eapply runs_lift_r. { unfold deserialize. rewrite Egc. reflexivity. }
  apply runs_send_recv.
  eapply runs_lift_r. { apply sent_wires; [constructor|apply small_usize; cbn; lia]. }
  cbn [app]. replace (zipWith pick (telling_labels n) (u8_vec_to_bool_vec pw)) with (map (tell pw) (seq 0 n)) by (symmetry; apply telling_picked).
  assert (Hm : exists m, n = S m) by (exists (n - 1)%nat; unfold n; lia). destruct Hm as [m En].
  destruct Same as (Ec & _). cbn [gc_circuit] in Ec. rewrite En in Ec |- *.
  eapply runs_lift_r.
  { cbn [seq map]. apply (sum_evaluates sha p _ gc2 Ec).
    - constructor; [apply tell_WF|]. apply Forall_map, Forall_forall. intros; apply tell_WF.
    - cbn [length]. now rewrite map_length, seq_length. }
  unfold evaluator_half_key. rewrite Ec. cbn [telling_circuit num_wires]. unfold usub.
  replace (1 <=? N.of_nat (S m + 1)) with true by (symmetry; apply N.leb_le; lia). cbn [obind idx nth_error unwrap].
  pose proof (tell_sum pw Hok Hlen) as E. fold n in E. rewrite En in E. replace (S m - 1)%nat with m in E by lia. rewrite E.
  unfold told, told_string. fold n. rewrite En. unfold u16_be. replace (N.of_nat (S m + 1) - 1) with (N.of_nat (S m)) by lia. apply runs_done.
Qed.
End Run.

(** Passwords of one length with the same digest are the same, or the digest collides. *)
Lemma told_inj a b : length a = length b -> told_string a = told_string b -> a = b.
Proof.
  intros L E. unfold told_string in E. rewrite L in E. apply app_inv_head in E. apply app_inv_head in E. now apply app_inv_tail in E.
Qed.
