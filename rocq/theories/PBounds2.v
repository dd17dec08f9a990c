(** No undefined behaviour in the evaluators, for all frames of the peer (C100). *)
From Coq Require Import List NArith Bool Arith Lia.
From Verif Require Import Base MUtil MWires MCircuit MGarble MPar MBincode MProc MOt MApricot MFpake SpecOt SpecHostile SpecBounds SpecEnds.
From Verif Require Import PBase PPar PProc PEnds PHostile PBounds.
Import ListNotations.
Open Scope N_scope.

Lemma gentle_usize : gentle dec_usize.
Proof. intros l. unfold dec_usize. apply mild_bind; [apply gentle_uint|]. intros [n t]. apply mild_ok. Qed.
Lemma gentle_domain : gentle dec_domain.
Proof.
  intros l. unfold dec_domain. apply mild_bind; [apply gentle_uint|]. intros [t l1].
  destruct (t =? 0); [apply mild_ok|]. destruct (t =? 1); [apply mild_bind; [apply gentle_uint|intros [m l2]; apply mild_ok]|].
  destruct (t =? 2); [apply mild_bind; [apply gentle_uint|intros [m l2]; apply mild_ok]|].
  destruct (t =? 3); [apply mild_ok|]. destruct (t =? 4); [apply mild_ok|apply mild_err].
Qed.
Lemma gentle_wire : gentle dec_wire.
Proof.
  intros l. unfold dec_wire. apply mild_bind; [apply gentle_domain|]. intros [d l1].
  apply mild_bind; [apply mild_take|]. intros [v l2]. apply mild_ok.
Qed.
Lemma gentle_wires : gentle dec_wires.
Proof. apply gentle_vec, gentle_wire. Qed.
Lemma gentle_kind : gentle dec_kind.
Proof.
  intros l. unfold dec_kind. apply mild_bind; [apply gentle_uint|]. intros [t l1].
  destruct (t =? 0); [apply mild_ok|]. destruct (t =? 1); [apply mild_bind; [apply gentle_uint|intros [m l2]; apply mild_ok]|].
  destruct (t =? 2).
  - apply mild_bind; [|intros [k l2]; apply mild_ok]. unfold dec_proj. apply mild_bind; [apply gentle_uint|]. intros [t' l2].
    destruct (t' =? 0); [apply mild_bind; [apply gentle_uint|intros [m l3]; apply mild_ok]|].
    destruct (t' =? 1); [apply mild_bind; [apply gentle_uint|intros [m l3]; apply mild_ok]|apply mild_err].
  - destruct (t =? 3); [apply mild_ok|apply mild_err].
Qed.
Lemma gentle_gate : gentle dec_gate.
Proof.
  intros l. unfold dec_gate. apply mild_bind; [apply gentle_usize|]. intros [o l1].
  apply mild_bind; [apply gentle_uint|]. intros [d l2]. apply mild_bind; [apply gentle_vec, gentle_usize|]. intros [i l3].
  apply mild_bind; [apply gentle_kind|]. intros [k l4]. apply mild_ok.
Qed.
Lemma gentle_circuit : gentle dec_circuit.
Proof.
  intros l. unfold dec_circuit. do 3 (apply mild_bind; [apply gentle_usize|]; intros [? ?]).
  apply mild_bind; [apply gentle_vec, gentle_gate|]. intros [g l4]. apply mild_bind; [apply gentle_vec, gentle_uint|]. intros [d l5]. apply mild_ok.
Qed.
Lemma gentle_map {V} (d : parser V) : gentle d -> gentle (dec_map d).
Proof.
  intros Hd l. unfold dec_map. apply mild_bind; [|intros [es l1]; apply mild_ok]. apply gentle_vec. intros l'. unfold dec_entry.
  apply mild_bind; [apply gentle_usize|]. intros [k l1]. apply mild_bind; [apply Hd|]. intros [v l2]. apply mild_ok.
Qed.
Lemma gentle_garbled : gentle dec_garbled.
Proof.
  intros l. unfold dec_garbled. apply mild_bind; [apply gentle_circuit|]. intros [c l1].
  apply mild_bind; [apply gentle_map, gentle_wires|]. intros [f l2]. apply mild_bind; [|intros [h l3]; apply mild_ok].
  apply gentle_map. intros l'. unfold dec_wire2. apply mild_bind; [apply gentle_wire|]. intros [x l3].
  apply mild_bind; [apply gentle_wire|]. intros [y l4]. apply mild_ok.
Qed.

Section Evaluators.
Variable sha : bytes -> bytes.
Variable p : profile.

Lemma keeps_from_binary b : keeps (fun _ => True) (from_array p b Binary).
Proof. exact I. Qed.
Lemma keeps_from_bytes b : keeps (fun _ => length b = 32%nat) (from_bytes p b Binary).
Proof. unfold from_bytes. destruct (Nat.eqb_spec (length b) LENGTH); [exact e|exact I]. Qed.
Lemma keeps_to_array b : keeps (fun _ => True) (to_array p b).
Proof. unfold to_array. eapply keeps_bind; [apply keeps_assert|]. intros _ _. destruct (Nat.eqb (length b) LENGTH); exact I. Qed.
Lemma keeps_half_key gc out : keeps (fun _ => True) (evaluator_half_key sha p gc out).
Proof.
  unfold evaluator_half_key. apply (keeps_bind (fun _ => True)); [apply safe_usub|]. intros o _.
  eapply keeps_bind; [apply keeps_idx|]. intros w _. exact I.
Qed.
Lemma keeps_evaluate gc x : written_first (gc_circuit gc) -> keeps (fun _ => True) (evaluate sha p gc x).
Proof. intros W. exact (safe_evaluate sha p gc W x). Qed.

(** The frame at position [k], if it is a circuit, writes wires before they are read. *)
Definition circuit_cond (k : nat) (i : nat) (m : bytes) : Prop :=
  i = k -> forall gc, deserialize dec_garbled m = Ok gc -> written_first (gc_circuit gc).

Lemma holds_evaluator k ot pw : holds (circuit_cond k) 0 (ot (u8_vec_to_bool_vec pw)) (fun j _ => j = k) ->
  holds (circuit_cond k) 0 (evaluator sha p ot pw) (fun j _ => j = S (S k)).
Proof.
  intros Hot. unfold evaluator. eapply holds_bind; [exact Hot|]. intros ? enc ->.
  eapply holds_bind; [apply holds_lift, (keeps_mapM _ (fun _ _ => True))|].
  { intros b _. eapply keeps_bind; [apply keeps_to_array|]. intros b' _. apply keeps_from_binary. }
  intros ? ours [-> _]. eapply holds_bind; [apply holds_recv|]. intros ? m [-> Cm]. specialize (Cm eq_refl).
  eapply holds_bind; [apply holds_lift, keeps_deserialize, gentle_garbled|]. intros ? gc [-> Dm]. specialize (Cm gc Dm).
  eapply holds_bind; [apply holds_recv|]. intros ? m' [-> _].
  eapply holds_bind; [apply holds_lift, keeps_deserialize, gentle_wires|]. intros ? theirs [-> _].
  eapply holds_bind; [apply holds_lift; now apply keeps_evaluate|]. intros ? out [-> _].
  eapply holds_weak; [apply holds_lift, keeps_half_key|cbn beta; tauto].
Qed.

Lemma keeps_payload pay n : keeps (fun _ => forall i, (i < n)%nat -> exists b, nth_error pay i = Some b /\ length b = 32%nat) (payload_to_encoding p pay n).
Proof.
  unfold payload_to_encoding.
  eapply keeps_weak; [apply (keeps_mapM _ (fun i _ => exists b, nth_error pay i = Some b /\ length b = 32%nat))|].
  - intros i _. eapply keeps_bind; [apply keeps_idx|]. intros b Hb. eapply keeps_weak; [apply keeps_from_bytes|]. intros w L. now exists b.
  - cbn beta. intros ws HF i Hi. clear - HF Hi.
    assert (G : forall s l m, Forall2 (fun i (_ : wire) => exists b, nth_error pay i = Some b /\ length b = 32%nat) (seq s l) m ->
      forall i, (s <= i < s + l)%nat -> exists b, nth_error pay i = Some b /\ length b = 32%nat).
    { intros s l. revert s. induction l as [|l IH]; intros s m H j Hj; [lia|]. cbn in H. inversion H; subst.
      destruct (Nat.eq_dec j s) as [->|]; [assumption|]. apply (IH (S s) l'); [assumption|lia]. }
    apply (G _ _ _ HF). lia.
Qed.
Lemma keeps_flat b n : (32 * n <= length b)%nat -> keeps (fun _ => True) (bytes_to_encoding p b n 32).
Proof.
  intros H. unfold bytes_to_encoding. eapply keeps_weak; [apply (keeps_mapM _ (fun _ _ => True))|intros; exact I].
  intros i Hi. apply in_seq in Hi. eapply keeps_bind; [apply keeps_vector_row; apply (inside _ _ n); [lia|assumption]|].
  intros r _. eapply keeps_weak; [apply keeps_from_bytes|intros; exact I].
Qed.
Lemma keeps_flat_none b w : keeps (fun _ => True) (bytes_to_encoding p b 0 w).
Proof. exact I. Qed.
Lemma keeps_choices v n : keeps (fun _ => True) (choice_bits v n).
Proof.
  unfold choice_bits. eapply keeps_weak; [apply (keeps_mapM _ (fun _ _ => True))|intros; exact I]. intros i _. unfold bit_at.
  eapply keeps_bind; [apply keeps_idx|]. intros b _. exact I.
Qed.

(** Frames of the v3 server in the second half: circuit, labels, OT, labels. *)
Definition server_cond (bits : nat) (i : nat) (m : bytes) : Prop :=
  circuit_cond 0 i m /\ (i = 135%nat -> (32 * bits <= length m)%nat).
Lemma holds_server_v3 ot pws mask :
  (forall cs, holds (server_cond (length (hd [] pws) * 8)) 2 (ot cs) (fun j _ => j = 135%nat)) ->
  holds (server_cond (length (hd [] pws) * 8)) 0 (evaluator_server_v3 sha p ot pws mask) (fun _ _ => True).
Proof.
  intros Hot. unfold evaluator_server_v3. eapply holds_bind; [apply holds_lift, keeps_idx|]. intros ? p0 [-> E0].
  destruct pws as [|pw pws]; [discriminate|]. cbn in E0. injection E0 as ->. cbn [hd] in *. cbv zeta. set (bits := (length p0 * 8)%nat) in *.
  eapply holds_bind; [apply holds_recv|]. intros ? m [-> [Cm _]]. specialize (Cm eq_refl).
  eapply holds_bind; [apply holds_lift, keeps_deserialize, gentle_garbled|]. intros ? gc [-> Dm]. specialize (Cm gc Dm).
  eapply holds_bind; [apply holds_recv|]. intros ? m' [-> _].
  eapply holds_bind; [apply holds_lift, keeps_deserialize, gentle_wires|]. intros ? client [-> _].
  eapply holds_bind; [apply holds_lift, keeps_choices|]. intros ? cs [-> _].
  eapply holds_bind; [apply Hot|]. intros ? em ->.
  eapply holds_bind; [apply holds_recv|]. intros ? se [-> [_ Cs]]. specialize (Cs eq_refl).
  eapply holds_bind; [apply holds_lift, keeps_idx|]. intros ? row0 [-> Hr]. cbn beta in Hr.
  eapply holds_bind; [apply holds_lift, keeps_payload|]. intros ? me [-> Hp].
  eapply (holds_bind _ _ _ (fun _ _ => True)).
  { eapply holds_weak; [apply holds_lift|intros; exact I]. instantiate (1 := fun _ => True).
    destruct bits as [|b] eqn:Eb; [apply keeps_flat_none|].
    destruct (Hp 0%nat ltac:(lia)) as (r & Hr' & Lr). pose proof (eq_trans (eq_sym Hr) Hr') as E. injection E as <-. rewrite Lr. apply keeps_flat. exact Cs. }
  intros ? server _.
  eapply (holds_bind _ _ _ (fun _ _ => True)); [eapply holds_weak; [apply holds_lift; now apply keeps_evaluate|intros; exact I]|].
  intros ? out _. eapply holds_weak; [apply holds_lift, keeps_half_key|intros; exact I].
Qed.

(** ** Short labels *)
Lemma flat_outside b n w : (0 < n)%nat -> (length b < w)%nat \/ w = 32%nat /\ (length b < 32 * n)%nat -> bytes_to_encoding p b n w = UB.
Proof.
  intros Hn H. unfold bytes_to_encoding.
  assert (R0 : (length b < w)%nat -> vector_row b 0 w = UB).
  { intros L. unfold vector_row. replace (Nat.leb _ _) with false by (symmetry; apply Nat.leb_gt; lia). reflexivity. }
  destruct H as [H|[-> H]].
  - destruct n as [|n]; [lia|]. cbn [seq mapM]. now rewrite R0.
  - assert (G : forall k s, (length b < 32 * (s + k))%nat -> (0 < k)%nat ->
      mapM (fun i => let* r := vector_row b i 32 in from_bytes p r Binary) (seq s k) = UB).
    { induction k as [|k IH]; intros s L Hk; [lia|]. cbn [seq mapM].
      destruct (Nat.le_gt_cases (32 * s + 32) (length b)) as [I|O].
      - rewrite vector_row_ok by exact I. cbn [obind]. unfold from_bytes. rewrite frow_length by exact I. cbn [Nat.eqb LENGTH from_array obind].
        rewrite IH; [reflexivity|lia|lia].
      - unfold vector_row. replace (Nat.leb _ _) with false by (symmetry; apply Nat.leb_gt; lia). reflexivity. }
    apply G; lia.
Qed.
End Evaluators.
