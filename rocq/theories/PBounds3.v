(** Short labels are read outside of their frame (C100). *)
From Coq Require Import List NArith Bool Arith Lia.
From Verif Require Import Base MUtil MWires MCircuit MGarble MPar MBincode MProc MOt MApricot MFpake SpecWires SpecCircuit SpecBincode SpecOt SpecApricot SpecFpake SpecMfpake SpecHostile SpecBounds SpecEnds.
From Verif Require Import PBase PUtil PPar PBincode PProc PFpake PFpake3 PEnds PHostile PBounds PBounds2 CMfpake.
Import ListNotations.
Open Scope N_scope.

Definition zero_pairs (n : nat) : list (bytes * bytes) := repeat (repeat 0 32, repeat 0 32) n.
Lemma zero_ot otS otR v : ot_correct extension_ok otS otR -> (0 < length v)%nat -> usize_ok (length v * 8) ->
  runs (otS (zero_pairs (length v * 8))) (otR (u8_vec_to_bool_vec v)) (Ok tt) (Ok (map wval (repeat zero_wire (length v * 8)))).
Proof.
  intros Hot H0 Hu. set (n := (length v * 8)%nat) in *.
  assert (Lb : length (u8_vec_to_bool_vec v) = n) by apply bits_length8.
  assert (Em : zero_pairs n = label_messages (repeat (zero_wire, zero_wire) n)).
  { unfold label_messages. rewrite map_rep. reflexivity. }
  rewrite Em.
  destruct (Hot (label_messages (repeat (zero_wire, zero_wire) n)) (u8_vec_to_bool_vec v)) as (out & R & Sel).
  { unfold label_messages. now rewrite map_length, repeat_length. }
  { apply labels_extension; rewrite ?repeat_length; auto; [|unfold n; lia|unfold n; apply Nat.mod_mul; lia].
    apply Forall_rep. split; apply zero_WF. }
  apply selection_labels in Sel; [|now rewrite repeat_length]. rewrite <- Lb, zip_rep in Sel. rewrite Sel, Lb in R. exact R.
Qed.
Lemma zero_first n : (0 < n)%nat -> idx (map wval (repeat zero_wire n)) 0 = Ok (wval zero_wire).
Proof. destruct n; [lia|]. reflexivity. Qed.
Lemma zero_labels p n : payload_to_encoding p (map wval (repeat zero_wire n)) n = Ok (repeat zero_wire n).
Proof. apply payload_ok_wires; [apply repeat_length|]. apply Forall_rep, zero_WF. Qed.

Lemma stingy_client_run sha p otS otR passwords p0 mask gc short : ot_correct extension_ok otS otR ->
  nth_error passwords 0 = Some p0 -> (0 < length p0)%nat -> length mask = length p0 -> usize_ok (length p0 * 8) -> garbled_ok gc ->
  (length short < 32 * (length p0 * 8))%nat ->
  runs (stingy_client otS (length p0 * 8) gc short) (evaluator_server_v3 sha p otR passwords mask) (Ok tt) UB.
Proof.
  intros Hot E0 H0 Lm Hu Hgc Hs.
  destruct (rt_garbled_any_order gc gc [] Hgc) as (gc2 & E & Sg); [repeat split; auto|]. rewrite app_nil_r in E.
  unfold stingy_client, evaluator_server_v3.
  eapply runs_lift_r. { instantiate (1 := p0). unfold idx. etransitivity; [apply (f_equal (unwrap PIndex) E0)|reflexivity]. } cbv zeta.
  apply runs_send_recv. eapply runs_lift_r. { unfold deserialize. rewrite E. reflexivity. }
  apply runs_send_recv. eapply runs_lift_r. { apply sent_wires; [constructor|]. reflexivity. }
  rewrite <- Lm. rewrite <- Lm in H0, Hu, Hs. eapply runs_lift_r; [apply choice_bits_ok|].
  eapply runs_bind; [now apply zero_ot|].
  apply (runs_peq_l (pbind (send short) ret)); [apply pbind_ret|]. apply runs_send_recv.
  eapply runs_lift_r; [apply zero_first; lia|]. eapply runs_lift_r; [apply zero_labels|].
  replace (bytes_to_encoding _ _ _ _) with (@UB (list wire)); [apply runs_done|].
  symmetry. apply (flat_outside sha); [lia|]. right. split; [reflexivity|exact Hs].
Qed.
Lemma stingy_server_run sha p dom manyS manyR ot1S ot1R ot2S ot2R d passwords pw password index gc short :
  ot_correct extension_ok ot1S ot1R -> ot_correct extension_ok ot2S ot2R -> many_correct dom manyS manyR -> dom d ->
  password_list d (length password) passwords -> nth_error passwords (N.to_nat index) = Some pw ->
  (0 < length password)%nat -> usize_ok (length password * 8) -> garbled_ok gc ->
  (length short < 32 * (length password * 8))%nat ->
  runs (stingy_server ot1S manyS ot2S (length password * 8) d passwords gc short)
       (evaluator_client_v3 sha p ot1R manyR ot2R password (N.of_nat (2 ^ d)) index) (Ok tt) UB.
Proof.
  intros H1 H2 Hm Hd (Hd31 & Lp & Fp) Hi H0 Hu Hgc Hs.
  assert (Lpw : length pw = length password) by (rewrite Forall_forall in Fp; apply Fp; eapply nth_error_In; eauto).
  destruct (rt_garbled_any_order gc gc [] Hgc) as (gc2 & E & Sg); [repeat split; auto|]. rewrite app_nil_r in E.
  assert (Hlog : log2_ p 32 (N.of_nat (2 ^ d)) = Ok (N.of_nat d)).
  { assert (Hpow : 2 ^ N.of_nat d = N.of_nat (2 ^ d)) by (now rewrite Nat2N.inj_pow).
    rewrite <- Hpow. apply log2_pow2; [reflexivity|lia]. }
  unfold stingy_server, evaluator_client_v3. cbv zeta.
  apply runs_send_recv. eapply runs_lift_r. { unfold deserialize. rewrite E. reflexivity. }
  eapply runs_lift_r; [apply choice_bits_ok|].
  eapply runs_bind; [now apply zero_ot|].
  apply runs_send_recv. eapply runs_lift_r; [exact Hlog|]. rewrite Nat2N.id.
  eapply runs_bind. { apply (Hm d passwords index pw); auto. exists (length password). split; [lia|exact Fp]. }
  rewrite <- Lpw. rewrite <- Lpw in H0, Hu, Hs. eapply runs_lift_r; [apply choice_bits_ok|].
  apply (runs_peq_l (pbind (ot2S (zero_pairs (length pw * 8))) ret)); [apply pbind_ret|].
  eapply runs_bind; [now apply zero_ot|].
  eapply runs_lift_r; [apply zero_first; lia|]. eapply runs_lift_r; [apply zero_labels|].
  replace (bytes_to_encoding _ _ _ _) with (@UB (list wire)); [apply runs_done|].
  symmetry. apply (flat_outside sha); [lia|]. right. split; [reflexivity|exact Hs].
Qed.

Lemma evaluator_bounds sha fill gen G p a cores rs cv bonus seed0 seed1 pw ins : generator fill ->
  length seed0 = 128%nat -> length seed1 = 128%nat -> safe_circuit 133 ins ->
  fst (feed (evaluator sha p (ap_receiver sha fill p a cores cv bonus seed0 seed1 (co_sender sha gen G p rs)) pw) ins) <> UB.
Proof.
  intros Hf L0 L1 H. apply (holds_feed (circuit_cond 133) _ (fun j _ => j = 135%nat) 0).
  - apply holds_evaluator. eapply holds_weak; [now apply holds_ap_receiver|]. cbn beta. rewrite combine_length, L0, L1. intros; assumption.
  - cbn [Nat.add]. intros j m Hj -> gc Hgc. now apply (H m gc).
Qed.
Lemma server_v3_bounds sha fill gen G p a cores rs cv bonus seed0 seed1 pws mask ins : generator fill ->
  length seed0 = 128%nat -> length seed1 = 128%nat -> safe_circuit 0 ins -> long_frame 135 (32 * (length (hd [] pws) * 8)) ins ->
  fst (feed (evaluator_server_v3 sha p (ap_receiver sha fill p a cores cv bonus seed0 seed1 (co_sender sha gen G p rs)) pws mask) ins) <> UB.
Proof.
  intros Hf L0 L1 H H2. apply (holds_feed (server_cond (length (hd [] pws) * 8)) _ (fun _ _ => True) 0).
  - apply holds_server_v3. intros cs. eapply holds_weak; [now apply holds_ap_receiver|]. cbn beta. rewrite combine_length, L0, L1. intros; assumption.
  - cbn [Nat.add]. intros j m Hj. split; [intros -> gc Hgc; now apply (H m gc)|]. intros ->. now apply H2.
Qed.
