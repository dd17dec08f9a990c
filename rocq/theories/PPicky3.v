(** The peers of SpecPicky3. *)
From Coq Require Import List NArith Bool Arith Lia.
From Verif Require Import Base MUtil MWires MCircuit MGarble MBincode MProc MOt MApricot MMany MFpake.
From Verif Require Import SpecUtil SpecWires SpecCircuit SpecGarble SpecBincode SpecOt SpecApricot SpecFpake SpecMany SpecMfpake SpecHostile SpecPicky SpecPicky3 SpecTell3.
From Verif Require Import PBase PUtil PWires PGarble PBincode PHalf PProc PFpake PHostile CMfpake PFpake3 PPicky PTell3.
Import ListNotations.
Open Scope N_scope.

Lemma plain_messages n : repeat (plain_label false, plain_label true) n = label_messages (repeat (plain_wire false, plain_wire true) n).
Proof. unfold label_messages. rewrite map_rep. reflexivity. Qed.
Lemma zero_plain : zero_label = plain_wire false.
Proof. reflexivity. Qed.
Lemma zeros_plain n : repeat zero_label n = map plain_wire (repeat false n).
Proof. rewrite zero_plain, map_rep. reflexivity. Qed.
Lemma plain_wires_WF bs : Forall (WF 2) (map plain_wire bs).
Proof. apply Forall_forall. intros w Hw. apply in_map_iff in Hw as (b & <- & _). apply plain_WF. Qed.

Section Picky.
Variable sha : bytes -> bytes.
Hypothesis Hs : hash32 sha.
Variable p : profile.
Variable secret : bytes.
Hypothesis Hl : (1 <= length secret <= 4095)%nat.
Let n := (length secret * 8)%nat.
Variable i : nat.
Hypothesis Hi : (i < n)%nat.

Lemma picky_extension : extension_ok (label_messages (repeat (plain_wire false, plain_wire true) n)).
Proof.
  assert (U : usize_ok n) by (apply usize_small; apply N.le_lt_trans with 65534; [unfold n; lia|reflexivity]).
  apply labels_extension; rewrite ?repeat_length; auto; [|unfold n; lia|unfold n; apply Nat.mod_mul; lia].
  apply Forall_rep. split; apply plain_WF.
Qed.
Lemma picky_ot otS otR bits : ot_correct extension_ok otS otR -> length bits = n ->
  exists out, runs (otS (repeat (plain_label false, plain_label true) n)) (otR bits) (Ok tt) (Ok out) /\ out = map wval (map plain_wire bits).
Proof.
  intros Hot L. rewrite plain_messages. destruct (Hot (label_messages (repeat (plain_wire false, plain_wire true) n)) bits) as (out & R & Sel).
  { unfold label_messages. now rewrite map_length, repeat_length. }
  { apply picky_extension. }
  exists out. split; [exact R|]. apply selection_labels in Sel; [|now rewrite repeat_length]. rewrite <- L, plain_pick in Sel. exact Sel.
Qed.
Lemma half_key_of m j gc2 w : same_garbled gc2 (half_table m j) ->
  evaluator_half_key sha p gc2 [w] = Ok (sha (be_bytes 8 (N.of_nat m) ++ u16_be 1 ++ wval w)).
Proof.
  intros S. unfold evaluator_half_key. destruct S as (-> & _). cbn [gc_circuit half_table num_wires].
  assert (U : usub p 64 (N.of_nat (m + 1)) 1 = Ok (N.of_nat m)).
  { unfold usub. rewrite (proj2 (N.leb_le _ _)) by lia. f_equal. lia. }
  rewrite U. reflexivity.
Qed.
Lemma sent_half m j : (j < m)%nat -> N.of_nat m <= 1000000 ->
  exists gc2, deserialize dec_garbled (enc_garbled (half_table m j)) = Ok gc2 /\ same_garbled gc2 (half_table m j).
Proof.
  intros Hj Hm. assert (U : usize_ok (m + 1)) by (apply usize_small; apply N.le_lt_trans with 1000001; [lia|reflexivity]).
  destruct (rt_garbled_any_order (half_table m j) (half_table m j) [] (half_table_ok m j Hj U)) as (gc2 & E & S); [repeat split; auto|].
  rewrite app_nil_r in E. exists gc2. split; [|exact S]. unfold deserialize. now rewrite E.
Qed.

(** Second half: the mask of the server. *)
Lemma picky_client_runs otS otR passwords p0 : ot_correct extension_ok otS otR ->
  nth_error passwords 0 = Some p0 -> length p0 = length secret ->
  runs (picky_garbler_client otS n i) (evaluator_server_v3 sha p otR passwords secret) (Ok tt)
    (if bit_of secret i then Panic PIndex else Ok (sha (be_bytes 8 (N.of_nat (2 * n)) ++ u16_be 1 ++ wval (picked sha p (2 * n))))).
Proof.
  intros Hot E0 L0. assert (Lb : length (u8_vec_to_bool_vec secret) = n) by apply bits_length8.
  unfold picky_garbler_client, evaluator_server_v3.
  destruct passwords as [|q rest]; [discriminate|]. cbn [nth_error] in E0. injection E0 as ->. eapply runs_lift_r; [reflexivity|]. cbv beta. rewrite L0. fold n.
  destruct (sent_half (2 * n) (n + i)) as (gc2 & E & S); [lia|unfold n in *; lia|].
  apply runs_send_recv. eapply runs_lift_r; [exact E|].
  apply runs_send_recv.
  eapply runs_lift_r. { apply sent_wires; [constructor|]. cbn [length]. apply usize_small. reflexivity. }
  eapply runs_lift_r. { apply choice_bits_ok. }
  destruct (picky_ot otS otR _ Hot Lb) as (out & R & Sel).
  eapply runs_bind; [exact R|].
  apply runs_send_recv.
  assert (Ln : exists b bs, u8_vec_to_bool_vec secret = b :: bs).
  { destruct (u8_vec_to_bool_vec secret) as [|b bs]; [cbn in Lb; unfold n in *; lia|eauto]. }
  destruct Ln as (b & bs & Eb).
  eapply runs_lift_r. { rewrite Sel, Eb. reflexivity. }
  replace (length (wval (plain_wire b))) with 32%nat by (now destruct b).
  eapply runs_lift_r. { rewrite Sel. apply payload_ok_wires; [now rewrite map_length|apply plain_wires_WF]. }
  eapply runs_lift_r. { apply zeros_encoding. }
  rewrite app_nil_r, zeros_plain, <- map_app.
  rewrite (evaluate_half sha p (2 * n) (n + i) gc2 _ Hs) by (auto; rewrite ?app_length, ?repeat_length; lia).
  rewrite app_nth2 by (rewrite repeat_length; lia). rewrite repeat_length. replace (n + i - n)%nat with i by lia.
  rewrite bits_nth by (unfold n in *; lia).
  destruct (bit_of secret i); cbn [lift pbind]; [apply runs_done|].
  rewrite (half_key_of (2 * n) (n + i) gc2 _ S). apply runs_done.
Qed.

(** First half: the password of the client. *)
Lemma picky_server_runs ot1S ot1R ot2S ot2R dom manyS manyR d index :
  ot_correct extension_ok ot1S ot1R -> ot_correct extension_ok ot2S ot2R -> many_correct dom manyS manyR -> dom d -> (d <= 31)%nat ->
  index < 2 ^ N.of_nat d ->
  runs (picky_garbler_server ot1S manyS ot2S n i d) (evaluator_client_v3 sha p ot1R manyR ot2R secret (N.of_nat (2 ^ d)) index) (Ok tt)
    (if bit_of secret i then Panic PIndex
     else Ok (sha (be_bytes 8 (N.of_nat (3 * n)) ++ u16_be 1 ++ wval (picked sha p (3 * n))), repeat 0 (length secret))).
Proof.
  intros Hot1 Hot2 Hm Hd Hd31 Hix. assert (Lb : length (u8_vec_to_bool_vec secret) = n) by apply bits_length8.
  assert (Hpow : 2 ^ N.of_nat d = N.of_nat (2 ^ d)) by (now rewrite Nat2N.inj_pow).
  unfold picky_garbler_server, evaluator_client_v3. fold n.
  destruct (sent_half (3 * n) i) as (gc2 & E & S); [lia|unfold n in *; lia|].
  apply runs_send_recv. eapply runs_lift_r; [exact E|].
  eapply runs_lift_r. { apply choice_bits_ok. }
  destruct (picky_ot ot1S ot1R _ Hot1 Lb) as (out & R & Sel).
  eapply runs_bind; [exact R|].
  apply runs_send_recv.
  eapply runs_lift_r. { rewrite <- Hpow. apply log2_pow2; [reflexivity|lia]. }
  rewrite Nat2N.id. replace (n / 8)%nat with (length secret) by (unfold n; now rewrite Nat.div_mul by lia).
  eapply runs_bind.
  { apply (Hm d (repeat (repeat 0 (length secret)) (2 ^ d)) index (repeat 0 (length secret))); auto.
    - now rewrite repeat_length.
    - exists (length secret). split; [lia|]. apply Forall_rep. apply repeat_length.
    - apply nth_error_repeat. rewrite Hpow in Hix. lia. }
  assert (Lz : length (u8_vec_to_bool_vec (repeat 0 (length secret))) = n) by (rewrite bits_length8, repeat_length; reflexivity).
  eapply runs_lift_r. { unfold n. rewrite <- (repeat_length 0 (length secret)) at 2. apply choice_bits_ok. }
  destruct (picky_ot ot2S ot2R _ Hot2 Lz) as (out2 & R2 & Sel2).
  eapply runs_bind; [exact R2|].
  set (zb := u8_vec_to_bool_vec (repeat 0 (length secret))) in *.
  assert (Ln : exists b bs, zb = b :: bs). { destruct zb as [|b bs]; [cbn in Lz; unfold n in *; lia|eauto]. }
  destruct Ln as (b & bs & Eb).
  eapply runs_lift_r. { rewrite Sel2, Eb. reflexivity. }
  replace (length (wval (plain_wire b))) with 32%nat by (now destruct b).
  eapply runs_lift_r. { rewrite Sel. apply payload_ok_wires; [now rewrite map_length|apply plain_wires_WF]. }
  eapply runs_lift_r. { apply zeros_encoding. }
  eapply runs_lift_r. { rewrite Sel2. apply payload_ok_wires; [now rewrite map_length|apply plain_wires_WF]. }
  rewrite zeros_plain, <- !map_app.
  rewrite (evaluate_half sha p (3 * n) i gc2 _ Hs) by (auto; rewrite ?app_length, ?repeat_length; lia).
  rewrite app_nth1 by lia. rewrite bits_nth by (unfold n in *; lia).
  destruct (bit_of secret i); cbn [lift pbind]; [apply runs_done|].
  rewrite (half_key_of (3 * n) i gc2 _ S). apply runs_done.
Qed.
End Picky.
