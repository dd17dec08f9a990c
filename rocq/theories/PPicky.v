(** Failures that depend on the password. *)
From Coq Require Import List NArith Bool Arith Lia.
From Verif Require Import Base MUtil MWires MCircuit MGarble MBincode MProc MFpake SpecUtil SpecWires SpecCircuit SpecOt SpecApricot SpecBincode SpecHostile SpecPicky.
From Verif Require Import PBase PUtil PWires PGarble PBincode PHalf PProc PFpake PHostile.
Import ListNotations.
Open Scope N_scope.

Definition plain_wire (b : bool) : wire := mkWire Binary (plain_label b).
Lemma plain_WF b : WF 2 (plain_wire b).
Proof. destruct b; repeat split; auto; repeat constructor. Qed.
Lemma plain_pick bs : zipWith pick (repeat (plain_wire false, plain_wire true) (length bs)) bs = map plain_wire bs.
Proof. induction bs as [|[] bs IH]; cbn [length repeat zipWith map]; [reflexivity| |]; rewrite IH; reflexivity. Qed.

Lemma load_inputs (x : list wire) m : (length x <= m)%nat ->
  foldM (fun ws i => let* xi := idx x i in set_idx ws i (Some xi)) (seq 0 (length x)) (repeat None m) =
  Ok (map Some x ++ repeat None (m - length x)).
Proof.
  intros Hm.
  assert (G : forall y z, x = y ++ z -> foldM (fun ws i => let* xi := idx x i in set_idx ws i (Some xi)) (seq (length y) (length z))
     (map Some y ++ repeat None (m - length y)) = Ok (map Some x ++ repeat None (m - length x))).
  { intros y z. revert y. induction z as [|a z IH]; intros y E; cbn [length seq foldM].
    - subst x. now rewrite app_nil_r.
    - assert (Lx : length x = (length y + S (length z))%nat) by (subst x; now rewrite app_length).
      unfold idx at 1. subst x. rewrite nth_error_app2, Nat.sub_diag by lia. cbn [nth_error unwrap obind]. unfold set_idx at 1.
      rewrite app_length, map_length, repeat_length, (proj2 (Nat.ltb_lt _ _)) by lia. cbn [obind].
      assert (Es : set_nth (map Some y ++ repeat None (m - length y)) (length y) (Some a) = map Some (y ++ [a]) ++ repeat None (m - length (y ++ [a]))).
      { rewrite map_app, <- app_assoc, app_length. cbn [length map app]. replace (m - length y)%nat with (S (m - (length y + 1))) by lia.
        cbn [repeat]. generalize (repeat (@None wire) (m - (length y + 1))). clear. intros t.
        induction y as [|b y IH]; [reflexivity|]. cbn [map app length set_nth]. f_equal. exact IH. }
      rewrite Es. specialize (IH (y ++ [a])). rewrite <- app_assoc in IH. specialize (IH eq_refl).
      rewrite app_length, Nat.add_1_r in IH. rewrite app_length, Nat.add_1_r. exact IH. }
  specialize (G [] x eq_refl). cbn [length map app] in G. now rewrite Nat.sub_0_r in G.
Qed.

(** What evaluation gives when bit i is 0. *)
Definition picked sha p (n : nat) : wire := psub 2 (plain_wire false) (hw sha p n (plain_wire false) 2).
Lemma evaluate_half sha p n i gc2 bs : hash32 sha -> length bs = n -> (i < n)%nat -> same_garbled gc2 (half_table n i) ->
  evaluate sha p gc2 (map plain_wire bs) = if nth i bs false then Panic PIndex else Ok [picked sha p n].
Proof.
  intros Hs L Hi (Ec & Ef & _). unfold evaluate. rewrite Ec. cbn [gc_circuit half_table num_inputs num_wires num_outputs gates].
  rewrite map_length, L, Nat.eqb_refl, debug_assert_true. cbn [obind].
  pose proof (load_inputs (map plain_wire bs) (n + 1)) as F. rewrite map_length, L in F. rewrite F by lia. clear F. cbn [obind foldM].
  replace (n + 1 - n)%nat with 1%nat by lia. cbn [repeat].
  unfold eval_garbled_gate. cbn [g_kind g_inputs g_output]. rewrite (Ef n). unfold idx at 1. cbn [nth_error unwrap obind]. unfold read_init at 1, idx at 1.
  rewrite nth_error_app1 by (rewrite !map_length; lia). rewrite map_map.
  rewrite (map_nth_error (fun x => Some (plain_wire x)) i bs (nth_error_nth_lt bs i false ltac:(rewrite L; exact Hi))). cbn [unwrap obind gc_f half_table alookup].
  rewrite Nat.eqb_refl. cbn [unwrap obind]. destruct (nth i bs false); [reflexivity|].
  change (N.to_nat (color (plain_wire false))) with 0%nat. cbn [idx nth_error unwrap obind].
  assert (S2 : supported 2) by (left; lia).
  destruct (hash_wire_ok sha p Hs n (plain_wire false) (plain_wire false) 2 S2 (plain_WF false)) as [E W].
  change (mkWire Binary (plain_label false)) with (plain_wire false). rewrite E. cbn [obind].
  rewrite (wsub_ok p 2 _ _ S2 (plain_WF false) W). cbn [obind]. fold (picked sha p n).
  unfold set_idx at 1. rewrite app_length, !map_length. cbn [length]. rewrite (proj2 (Nat.ltb_lt _ _)) by lia. cbn [obind].
  replace (Nat.leb 1 (n + 1)) with true by (symmetry; apply Nat.leb_le; lia).
  replace (n + 1 - 1)%nat with n by lia.
  assert (Es : skipn n (set_nth (map (fun b => Some (plain_wire b)) bs ++ [None]) n (Some (picked sha p n))) = [Some (picked sha p n)]).
  { rewrite <- L. clear. generalize (picked sha p (length bs)). intros w. induction bs as [|b bs IH]; [reflexivity|]. exact IH. }
  rewrite Es. reflexivity.
Qed.

Lemma half_table_ok n i : (i < n)%nat -> usize_ok (n + 1) -> garbled_ok (half_table n i).
Proof.
  intros Hi Hn. split; [apply hostile_circuit_ok; auto; [unfold usize_ok in *; lia|reflexivity]|]. cbn [half_table gc_f gc_half].
  split; (split; [split; [reflexivity|]|]).
  - constructor; [|constructor]. cbn. split; [unfold usize_ok in *; lia|]. split; [reflexivity|]. constructor; [|constructor].
    apply WF_wire_ok with (m := 2); [left; lia|]. apply (plain_WF false).
  - repeat constructor; simpl; tauto.
  - constructor.
  - constructor.
Qed.

Lemma picky_run sha p otS otR pw i : hash32 sha -> ot_correct extension_ok otS otR -> (i < length pw * 8)%nat -> usize_ok (length pw * 8 + 1) ->
  runs (picky_garbler otS (length pw * 8) i) (evaluator sha p otR pw) (Ok tt)
    (if bit_of pw i then Panic PIndex
     else Ok (sha (be_bytes 8 (N.of_nat (length pw * 8)) ++ u16_be 1 ++ wval (picked sha p (length pw * 8))))).
Proof.
  intros Hs Hot Hi Hu. set (n := (length pw * 8)%nat) in *.
  destruct (rt_garbled_any_order (half_table n i) (half_table n i) [] (half_table_ok n i Hi Hu)) as (gc2 & E & S); [repeat split; auto|]. rewrite app_nil_r in E.
  assert (Lb : length (u8_vec_to_bool_vec pw) = n) by apply bits_length8.
  unfold picky_garbler, evaluator.
  assert (Em : repeat (plain_label false, plain_label true) n = label_messages (repeat (plain_wire false, plain_wire true) n)).
  { unfold label_messages. rewrite map_rep. reflexivity. }
  rewrite Em.
  destruct (Hot (label_messages (repeat (plain_wire false, plain_wire true) n)) (u8_vec_to_bool_vec pw)) as (out & R & Sel).
  { unfold label_messages. now rewrite map_length, repeat_length. }
  { apply labels_extension; rewrite ?repeat_length; auto; [|unfold n; lia|unfold n; apply Nat.mod_mul; lia|unfold usize_ok in *; lia].
    apply Forall_rep. split; apply plain_WF. }
  apply selection_labels in Sel; [|now rewrite repeat_length]. rewrite <- Lb, plain_pick in Sel.
  eapply runs_bind; [exact R|].
  eapply runs_lift_r. { rewrite Sel. apply received_labels. apply Forall_forall. intros w Hw. apply in_map_iff in Hw as (b & <- & _). apply plain_WF. }
  apply runs_send_recv.
  eapply runs_lift_r. { unfold deserialize. rewrite E. reflexivity. }
  apply (runs_peq_l (pbind (send (enc_wires [])) ret)); [apply pbind_ret|]. apply runs_send_recv.
  eapply runs_lift_r. { apply sent_wires; [constructor|]. reflexivity. }
  cbn [app]. rewrite (evaluate_half sha p n i gc2 _ Hs Lb Hi S), (bits_nth pw i) by (unfold n in *; lia).
  destruct (bit_of pw i); cbn [lift pbind]; [apply runs_done|].
  unfold evaluator_half_key. destruct S as (-> & _). cbn [gc_circuit half_table num_wires].
  assert (U : usub p 64 (N.of_nat (n + 1)) 1 = Ok (N.of_nat n)).
  { unfold usub. rewrite (proj2 (N.leb_le _ _)) by lia. f_equal. lia. }
  rewrite U. cbn [obind idx nth_error unwrap lift]. apply runs_done.
Qed.
