(** The client that decides what the server's key is. *)
From Coq Require Import List NArith Bool Arith Lia Permutation.
From Verif Require Import Base MUtil MWires MCircuit MGarble MBincode MProc MFpake SpecUtil SpecWires SpecCircuit SpecGarble SpecBincode SpecOt SpecApricot SpecFpake SpecSteal SpecForce.
From Verif Require Import PBase PUtil PWires PWiresSpec PGarble PHalf PLeak PProc PCircuit PBincode PFpake PSteal PSteal2 PTell.
Import ListNotations.
Open Scope N_scope.

(** ** The circuit that has a given label for its output *)
Section Sum.
Variable sha : bytes -> bytes.
Variable p : profile.
Variables n o : nat.
Variable gc : garbled.
Hypothesis Hno : (n <= o)%nat.
Hypothesis Hgc : gc_circuit gc = forcing_circuit n o.

Lemma forced_evaluates w x : Forall (WF 2) (w :: x) -> length (w :: x) = n -> evaluate sha p gc (w :: x) = Ok [psum 2 x w].
Proof.
  intros HW Hl. set (xs := w :: x) in *. unfold evaluate. rewrite Hgc. cbn [forcing_circuit num_inputs num_wires num_outputs gates].
  rewrite Hl, Nat.eqb_refl, debug_assert_true. cbn [obind].
  destruct (foldM_inv (fun (ws : list (option wire)) i => let* xi := idx xs i in set_idx ws i (Some xi))
     (fun q es => length es = (o + 1)%nat /\ forall i, (i < q)%nat -> nth_error es i = Some (nth_error xs i))
     (seq 0 n) (repeat None (o + 1))) as (es & Ees & Le & Hes).
  - split. apply repeat_length. intros; lia.
  - intros q a es Hq [Le Hes].
    assert (Hq' : (q < n)%nat). { rewrite <- (seq_length n 0). apply nth_error_Some. congruence. }
    assert (a = q). { rewrite (nth_error_nth' _ 0%nat) in Hq by (rewrite seq_length; auto).
      rewrite seq_nth in Hq by auto. inversion Hq; auto. } subst a.
    rewrite (idx_lt _ _ w) by lia. cbn [obind].
    rewrite set_idx_lt by lia. eexists; split; [reflexivity|]. split. { now rewrite set_nth_length. }
    intros i Hi. rewrite set_nth_nth_error by lia.
    destruct (Nat.eqb_spec i q) as [->|]; [|apply Hes; lia]. now rewrite (nth_error_nth' _ w) by lia.
  - rewrite Ees. cbn [obind foldM]. rewrite seq_length in Hes.
    unfold eval_garbled_gate. cbn [g_kind g_inputs g_output].
    rewrite (mapM_Ok _ (fun i => nth i xs w)).
    2: { intros i Hi. apply in_seq in Hi. unfold read_init, idx. rewrite Hes by lia. cbn [unwrap obind].
         now rewrite (nth_error_nth' _ w) by lia. }
    cbn [obind]. rewrite (map_seq_nth xs w n) by now symmetry. unfold xs at 1.
    inversion HW as [|? ? Hw Hx E]; subst.
    rewrite (wsum_ok p 2) by auto using sup2. cbn [obind]. rewrite set_idx_lt by lia. cbn [obind].
    replace (Nat.leb 1 (o + 1)) with true by (symmetry; apply Nat.leb_le; lia).
    replace (o + 1 - 1)%nat with o by lia.
    assert (Q : forall (l : list (option wire)) k v, length l = (k + 1)%nat -> skipn k (set_nth l k v) = [v]).
    { clear. induction l as [|a l IH]; intros k v L. { cbn in L. lia. } destruct k; cbn [set_nth skipn].
      - destruct l; [reflexivity|cbn in L; lia]. - apply IH. cbn in L. lia. }
    rewrite Q by (rewrite Le; lia). reflexivity.
Qed.
End Sum.

Lemma fold_false (l : list bool) : forall b, Forall (eq false) l -> fold_left xorb l b = b.
Proof. induction l as [|a l IH]; intros b H; [reflexivity|]. inversion H; subst. cbn [fold_left]. now rewrite xorb_false_r, IH. Qed.
Lemma zeros_sum w m : WF 2 w -> wval (psum 2 (repeat (mkWire Binary (repeat 0 32)) m) w) = wval w.
Proof.
  intros Hw. assert (HF : Forall (WF 2) (repeat (mkWire Binary (repeat 0 32)) m)) by (apply Forall_forall; intros x Hx; apply repeat_spec in Hx; subst x; apply zeros_WF).
  pose proof (psum_WF 2 _ w sup2 Hw HF) as HW. destruct HW as (_ & Lw & _). assert (Hw' := Hw). destruct Hw' as (_ & Lw' & _).
  apply (nth_ext _ _ 0 0); [congruence|]. intros j Hj. rewrite Lw in Hj. apply N.bits_inj. intros k.
  rewrite psum_bits by auto. apply fold_false. apply Forall_map, Forall_forall. intros x Hx. apply repeat_spec in Hx. subst x. cbn [wval].
  rewrite nth_repeat. symmetry. apply N.bits_0.
Qed.

Section Run.
Variable sha : bytes -> bytes.
Variable p : profile.
Variable otS : list (bytes * bytes) -> proc unit.
Variable otR : list bool -> proc (list bytes).
Hypothesis Hot : ot_correct extension_ok otS otR.
Variable pw : bytes.
Hypothesis Hlen : (1 <= length pw <= 4095)%nat.
Let n := (length pw * 8)%nat.
Variable o : nat.
Hypothesis Ho : (n <= o)%nat.
Hypothesis Ho' : (o <= 40 * length pw)%nat.
Variable l : wire.
Hypothesis Hl : WF 2 l.

Lemma large_usize k : (k <= n + o + 1)%nat -> usize_ok k.
Proof. intros H. apply usize_small. apply N.le_lt_trans with 300000; [unfold n in *; lia|reflexivity]. Qed.
Lemma forcing_ok : garbled_ok (mkGC (forcing_circuit n o) [] []).
Proof.
  assert (E0 : forall A (P : A -> Prop), vec_ok P []) by (intros; split; [apply large_usize; cbn; lia|constructor]).
  split; [|split; (split; [apply E0|constructor])].
  cbn [gc_circuit]. unfold circuit_ok, forcing_circuit. cbn [num_wires num_inputs num_outputs gates input_domains].
  split; [apply large_usize; lia|]. split; [apply large_usize; lia|]. split; [apply large_usize; lia|]. split.
  - split; [apply large_usize; cbn; lia|]. constructor; [|constructor]. unfold gate_ok. cbn [g_output g_domain g_inputs g_kind].
    split; [apply large_usize; lia|]. split; [reflexivity|]. split; [|exact I]. split; [apply large_usize; rewrite seq_length; lia|].
    apply Forall_forall. intros i Hi. apply in_seq in Hi. apply large_usize. lia.
  - split; [apply large_usize; rewrite repeat_length; lia|]. apply Forall_forall. intros x Hx. apply repeat_spec in Hx. subst x. reflexivity.
Qed.
Lemma forcing_binary : all_binary (forcing_labels n l).
Proof.
  unfold all_binary, forcing_labels. constructor; [auto|]. apply Forall_forall. intros x Hx. apply repeat_spec in Hx. subst x. split; apply zeros_WF.
Qed.
Lemma pick_same (a : wire) m : forall bits, length bits = m -> zipWith pick (repeat (a, a) m) bits = repeat a m.
Proof. induction m as [|m IH]; intros [|b bits] L; try discriminate; [reflexivity|]. cbn [repeat zipWith]. rewrite IH by (cbn in L; lia). now destruct b. Qed.

Lemma forcing_runs : runs (forcing_garbler otS n o l) (evaluator sha p otR pw) (Ok tt) (Ok (sha (dec_string o 1 l))).
Proof.
  assert (Lb : length (u8_vec_to_bool_vec pw) = n) by apply bits_length8.
  assert (Lt : length (forcing_labels n l) = n) by (unfold forcing_labels; cbn [length]; rewrite repeat_length; unfold n; lia).
  unfold forcing_garbler, evaluator.
  destruct (Hot (label_messages (forcing_labels n l)) (u8_vec_to_bool_vec pw)) as (out & R & Sel).
  { unfold label_messages. rewrite map_length. lia. }
  { apply labels_extension; [apply forcing_binary|unfold n in *; lia| |rewrite Lt; apply large_usize; unfold n; lia]. rewrite Lt. apply Nat.mod_mul. lia. }
  apply selection_labels in Sel; [|lia].
  eapply runs_bind; [exact R|].
  eapply runs_lift_r. { rewrite Sel. apply received_labels. apply picked_labels, forcing_binary. }
  apply runs_send_recv.
  destruct (rt_garbled _ [] forcing_ok) as (gc2 & Egc & Same). rewrite app_nil_r in Egc.
  eapply runs_lift_r. { unfold deserialize. rewrite Egc. reflexivity. }
  apply runs_send_recv.
  eapply runs_lift_r. { apply sent_wires; [constructor|apply large_usize; cbn; lia]. }
  cbn [app]. destruct Same as (Ec & _). cbn [gc_circuit] in Ec.
  destruct (u8_vec_to_bool_vec pw) as [|b bits]. { cbn in Lb. unfold n in Lb. lia. }
  unfold forcing_labels. cbn [zipWith]. rewrite pick_same by (cbn in Lb; lia).
  replace (pick (l, l) b) with l by (now destruct b).
  eapply runs_lift_r.
  { apply (forced_evaluates sha p n o gc2 Ho Ec).
    - constructor; [exact Hl|]. apply Forall_forall. intros x Hx. apply repeat_spec in Hx. subst x. apply zeros_WF.
    - cbn [length]. rewrite repeat_length. unfold n. lia. }
  unfold evaluator_half_key. rewrite Ec. cbn [forcing_circuit num_wires]. unfold usub.
  replace (1 <=? N.of_nat (o + 1)) with true by (symmetry; apply N.leb_le; lia). cbn [obind idx nth_error unwrap].
  rewrite zeros_sum by exact Hl. unfold dec_string, u16_be. replace (N.of_nat (o + 1) - 1) with (N.of_nat o) by lia. apply runs_done.
Qed.
End Run.

(** ** The label of 1 *)
Section Read.
Variable sha : bytes -> bytes.
Hypothesis Hsha : hash32 sha.
Variables p p' : profile.
Variable g : garbling.
Hypothesis Hg : garbling_ok g.
Variable otS : list (bytes * bytes) -> proc unit.
Variable otR : list bool -> proc (list bytes).
Hypothesis Hot : ot_correct extension_ok otS otR.
Variables (pw pw' : bytes) (t : N).
Hypothesis Hlen : length pw' = length pw.
Hypothesis Hgood : good_length (length pw).
Hypothesis Ht : t <= 65534.
Let n := (length pw * 8)%nat.
Let c := circ1 n t.
Variable F : garbled -> list wire -> outcome wire.
Hypothesis HF : forall gc gc2 ek dk zs l0 l1, half_key sha p (g_rd g) (g_ri g) c gc ek dk zs l0 l1 -> same_garbled gc2 gc ->
  F gc2 (zipWith pick zs (u8_vec_to_bool_vec pw ++ u8_vec_to_bool_vec pw')) = Ok l1.

Lemma reading_runs : exists l, WF 2 l /\
  runs (garbler sha p g otS pw t) (reading_evaluator p' F otR pw') (Ok (sha (dec_string (4 * n + 1) 1 l))) (Ok l).
Proof.
  destruct (good_supported _ Hgood) as (Hs & Hn & H1). fold n in Hs, Hn, H1.
  destruct (circ1_half sha p g n t Hsha Hg Hn Ht H1 Hs) as (gc & ek & dk & zs & l0 & l1 & H). fold c in H.
  assert (Eo : first_output c = (4 * n + 1)%nat) by (unfold first_output; cbn [c circ1 num_wires num_outputs]; lia).
  exists l1. split.
  { destruct (hk_state _ _ _ _ _ _ _ _ _ _ _ H) as (s & _ & _ & HI & _ & -> & _). destruct HI as (_ & HW & _). rewrite Eo.
    assert (Em : modulus c (4 * n + 1) = 2).
    { unfold c. rewrite circ1_modulus by lia. destruct (Nat.ltb_spec (4 * n + 1) (3 * n)); [lia|]. destruct (Nat.ltb_spec (4 * n + 1) (4 * n + 1)); [lia|reflexivity]. }
    unfold G. rewrite Em. apply lab_WF; [exact (proj1 Hg)|exact sup2|]. rewrite <- Em. apply HW. cbn [c circ1 num_inputs gates].
    rewrite app_length. unfold xors1, tail_gates. rewrite app_length, !map_length, !seq_length. cbn [length]. lia. }
  pose proof (zs_binary _ _ _ _ _ _ _ _ _ _ H) as Hz.
  pose proof (hk_length _ _ _ _ _ _ _ _ _ _ _ H) as Lz. cbn [c circ1 num_inputs] in Lz.
  assert (Lb : length (u8_vec_to_bool_vec pw) = n) by apply bits_length8.
  assert (Lb' : length (u8_vec_to_bool_vec pw') = n) by (rewrite bits_length8, Hlen; reflexivity).
  unfold garbler, reading_evaluator. rewrite Lb.
  eapply runs_lift_l; [apply build_circuit_eq; assumption|]. fold c.
  eapply runs_lift_l; [exact (garble_zipped_ok _ _ _ _ _ _ _ _ _ _ H)|]. cbv beta iota.
  eapply runs_lift_l. { unfold slice_to. rewrite (proj2 (Nat.leb_le _ _)) by lia. reflexivity. }
  eapply runs_lift_l. { unfold slice_from. rewrite (proj2 (Nat.leb_le _ _)) by lia. reflexivity. }
  set (own := firstn n zs). set (theirs := skipn n zs).
  assert (Lo : length own = n) by (unfold own; rewrite firstn_length; lia).
  assert (Lt : length theirs = n) by (unfold theirs; rewrite skipn_length; lia).
  assert (Hown : all_binary own) by now apply all_binary_firstn.
  assert (Hth : all_binary theirs) by now apply all_binary_skipn.
  assert (Hun : usize_ok n) by (apply usize_small; apply N.le_lt_trans with 65534; [lia|reflexivity]).
  destruct (Hot (label_messages theirs) (u8_vec_to_bool_vec pw')) as (out & R & Sel).
  { unfold label_messages. rewrite map_length. lia. }
  { apply labels_extension; [exact Hth|lia| |rewrite Lt; exact Hun]. rewrite Lt. apply Nat.mod_mul. lia. }
  apply selection_labels in Sel; [|lia].
  eapply runs_bind; [exact R|].
  eapply runs_lift_r. { rewrite Sel. apply received_labels. now apply picked_labels. }
  apply runs_send_recv.
  destruct (sent_garbled _ _ _ _ _ _ _ _ _ _ Hg H) as (gc2 & Egc & Same).
  eapply runs_lift_r; [exact Egc|].
  eapply runs_lift_l. { apply bk_encode_pick. lia. }
  apply runs_send_recv.
  eapply runs_lift_r. { apply sent_wires; [now apply picked_labels|]. rewrite zipWith_length, Lo, Lb, Nat.min_id. exact Hun. }
  replace (F gc2 (zipWith pick own (u8_vec_to_bool_vec pw) ++ zipWith pick theirs (u8_vec_to_bool_vec pw'))) with (Ok l1 : outcome wire).
  2: { symmetry. rewrite <- zipWith_app by lia. unfold own, theirs. rewrite firstn_skipn. apply (HF gc gc2 ek dk zs l0 l1); auto. }
  rewrite (garbler_half_key_ok _ _ _ _ _ _ _ _ _ _ H), Eo. apply runs_done.
Qed.
End Read.
