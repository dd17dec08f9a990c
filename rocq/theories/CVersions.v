(** C127: sides that run different versions of the one-of-many exchange. *)
From Coq Require Import List NArith Bool Lia Arith Permutation.
From Verif Require Import Base MUtil MWires MCircuit MGarble MPar MBincode MProc MOt MApricot MMany MFpake MLegacy.
From Verif Require Import SpecUtil SpecWires SpecCircuit SpecGarble SpecBincode SpecOt SpecApricot SpecFpake SpecMany SpecMfpake SpecKinds.
From Verif Require Import PBase PUtil PWires PGarble PCircuit PCircuit2 PHalf PProc PHang PHangOt POt PMany PIndex PFpake PFpake3 PLegacy PVersions.
From Verif Require Import CCircuit CGarble COt CApricot CMany CUtil CFpake CMfpake CFpake3 CLegacy CCrash CRelease.
Import ListNotations.
Open Scope N_scope.

(** ** The 1-out-of-n OT against a peer that is one frame ahead or behind *)
Lemma name_28 n : length (enc_props (mkProps n chou_orlandi)) = 28%nat.
Proof. reflexivity. Qed.
Section Frames.
Variable sha : bytes -> bytes.
Variables fill gen fill' gen' : bytes -> nat -> bytes.
Variables G G' : curve.
Variables p p' : profile.
Variable cores : nat.
Hypothesis Hf : generator fill.
Variables (keys : list (bytes * bytes)) (rm rm' : nat -> N) (d : nat).
Hypothesis Lk : length keys = d.
Hypothesis Hd : (1 <= d <= 31)%nat.
Hypothesis Hfit : fits cores d.
Notation manyS ms := (many_sender sha fill p cores keys (co_sender sha gen G p rm) ms d).
Notation manyR i := (many_receiver sha fill' p' (co_receiver sha gen' G' p' rm') i d).
Notation points := (map (fun i => compress G (smul G (rm i) (base G))) (seq 0 d)).
Lemma many_y_exists messages s : (1 <= s)%nat -> length messages = (2 ^ d)%nat -> Forall (fun m : bytes => length m = s) messages ->
  exists m0 y, idx messages 0 = Ok m0 /\ many_y sha fill p cores keys messages d (length m0) = Ok y.
Proof.
  intros Hs Lm Sm. pose proof (pow2_pos d) as Q. destruct messages as [|m0 rest] eqn:Em; [cbn in Lm; lia|].
  assert (L0 : length m0 = s) by (inversion Sm; auto). rewrite <- Em in *.
  exists m0. eexists. split; [rewrite Em; reflexivity|]. rewrite L0.
  apply (y_ok sha fill Hf p cores keys messages d s); auto; try lia. now apply fits_guard.
Qed.
Lemma many_sender_waits {B} (f : unit -> proc B) messages m0 y m : idx messages 0 = Ok m0 -> many_y sha fill p cores keys messages d (length m0) = Ok y ->
  kept failing (pbind (manyS messages) f) [m] true (y :: enc_props (mkProps d chou_orlandi) :: points) true.
Proof.
  intros E0 Ey. unfold many_sender. apply kept_a. eapply kept_ok; [exact E0|]. apply kept_a. eapply kept_ok; [exact Ey|]. apply kept_a. apply kept_send.
  pose proof (co_sender_waits sha gen G p rm keys f m) as K. rewrite Lk in K. apply K. lia.
Qed.

(** The receiver reads a frame of its own before the OT. *)
Lemma late_receiver {B} (g : bytes -> proc B) i : kept failing (pbind (manyR i) g) (enc_props (mkProps d chou_orlandi) :: points) true [enc_props (mkProps d chou_orlandi)] true.
Proof.
  unfold many_receiver. apply kept_a.
  eapply kept_ok; [apply many_choices_small; lia|]. apply kept_a. apply kept_recv; [cbn; auto|].
  apply kept_a. destruct d as [|d0]; [lia|]. cbn [seq map].
  pose proof (@co_receiver_short sha gen' G' p' B rm' (index_bits i (S d0))) as K. rewrite index_bits_length in K. apply K.
  rewrite map_length, seq_length. lia.
Qed.
Lemma late {A B} (f : unit -> proc A) (k : bytes -> proc B) messages s : (1 <= s)%nat -> length messages = (2 ^ d)%nat ->
  Forall (fun m : bytes => length m = s) messages ->
  (forall e, kept failing (k e) (enc_props (mkProps d chou_orlandi) :: points) true [enc_props (mkProps d chou_orlandi)] true) ->
  ends_in failing failing (pbind (manyS messages) f) (pbind recv k).
Proof.
  intros Hs Lm Sm Hk. destruct (many_y_exists messages s Hs Lm Sm) as (m0 & y & E0 & Ey).
  exists [enc_props (mkProps d chou_orlandi)], true, (y :: enc_props (mkProps d chou_orlandi) :: points), true. split.
  - now apply (many_sender_waits f messages m0).
  - apply kept_recv; [cbn; auto|]. apply Hk.
Qed.
(** The sender sends a frame of its own before the OT. *)
Lemma early {A B} (k : unit -> proc A) (g : bytes -> proc B) e i y :
  kept failing (k tt) [enc_props (mkProps d chou_orlandi)] true (y :: enc_props (mkProps d chou_orlandi) :: points) true ->
  ends_in failing failing (pbind (send e) k) (pbind (manyR i) g).
Proof.
  intros Hk.
  exists [enc_props (mkProps d chou_orlandi)], true, (e :: y :: enc_props (mkProps d chou_orlandi) :: points), true. split.
  - apply kept_send. exact Hk.
  - unfold many_receiver. apply kept_a. eapply kept_ok; [apply many_choices_small; lia|]. apply kept_a. apply kept_recv; [cbn; auto|].
    apply kept_a.
    pose proof (@co_receiver_wrong sha gen' G' p' B rm' (index_bits i d)) as K. rewrite index_bits_length in K. apply K; [lia|]. rewrite name_28. discriminate.
Qed.
End Frames.

(** ** The halves of the versions *)
Section Halves.
Variable sha : bytes -> bytes.
Variables fill gen : bytes -> nat -> bytes.
Variable G : curve.
Variables p p' : profile.
Variables a a' : arch.
Variables cores cores' : nat.
Variables g g' : garbling.
Hypothesis Hs : hash32 sha.
Hypothesis Hf : generator fill.
Hypothesis Hgen : generator gen.
Hypothesis HG : curve_ok G.
Hypothesis Hc : (1 <= cores)%nat.
Hypothesis Hc' : (1 <= cores')%nat.
Hypothesis Hg : garbling_ok g.
Hypothesis Hg' : garbling_ok g'.
Variables (l d : nat) (t t' : N) (passwords : list bytes) (mask mask' password : bytes) (index : N).
Hypothesis Hgl : good_length l.
Hypothesis Ht : t <= 65534.
Hypothesis Ht' : t' <= 65534.
Hypothesis Hd : (1 <= d)%nat.
Hypothesis Hlist : password_list d l passwords.
Hypothesis Lm : length mask = l.
Hypothesis Lm' : length mask' = l.
Hypothesis Lpass : length password = l.
Hypothesis Hfit : fits cores d.
Notation ext_s r rs := (sender_with sha fill p a cores r (co_receiver sha gen G p rs)).
Notation ext_r r rs := (receiver_with sha fill p a cores r (co_sender sha gen G p rs)).
Notation ext_s' r rs := (sender_with sha fill p' a' cores' r (co_receiver sha gen G p' rs)).
Notation ext_r' r rs := (receiver_with sha fill p' a' cores' r (co_sender sha gen G p' rs)).
Notation many_s keys rm := (fun d ms => many_sender sha fill p cores keys (co_sender sha gen G p rm) ms d).
Notation many_r rm := (fun d i => many_receiver sha fill p' (co_receiver sha gen G p' rm) i d).

Lemma hang_ext_s pr ar co r rs ms : hangup (sender_with sha fill pr ar co r (co_receiver sha gen G pr rs) ms).
Proof. apply hang_ap_sender. intros. apply hang_co_receiver. Qed.
Lemma hang_ext_r pr ar co r rs cs : hangup (receiver_with sha fill pr ar co r (co_sender sha gen G pr rs) cs).
Proof. apply hang_ap_receiver. intros. apply hang_co_sender. Qed.
Lemma first_of_list : exists p0, idx passwords 0 = Ok p0 /\ length p0 = l.
Proof.
  destruct Hlist as (_ & Lp & F). destruct passwords as [|p0 ps]; [cbn in Lp; pose proof (Nat.pow_nonzero 2 d); lia|].
  exists p0. split; [reflexivity|]. now inversion F.
Qed.
Lemma log_of q w : 32 <= w <= 64 -> log2_ q w (N.of_nat (2 ^ d)) = Ok (N.of_nat d).
Proof.
  intros Hw. destruct Hlist as (Hd31 & _). rewrite Nnat.Nat2N.inj_pow. change (N.of_nat 2) with 2.
  apply log2_pow2; [apply N.le_lt_trans with 64; [lia|reflexivity]|lia].
Qed.
Lemma masked_list m : length m = l -> length (map (xor m) passwords) = (2 ^ d)%nat /\ Forall (fun x : bytes => length x = l) (map (xor m) passwords).
Proof.
  intros E. destruct Hlist as (_ & Lp & Fp). split; [now rewrite map_length|].
  apply Forall_map. eapply Forall_impl; [|exact Fp]. intros y Hy. cbn beta. rewrite xor_length; congruence.
Qed.
Lemma bits_of (v : bytes) : length v = l -> length (u8_vec_to_bool_vec v) = (l * 8)%nat.
Proof. intros Lv. rewrite bits_length8, Lv. reflexivity. Qed.
Lemma flat_length ws : Forall (WF 2) ws -> length (concat (map wval ws)) = (length ws * 32)%nat.
Proof.
  intros Fw. induction Fw as [|w ws (_ & Hw & _) Fw IH]; cbn [map concat length]; auto.
  etransitivity; [apply app_length|]. etransitivity; [exact (f_equal2 Nat.add Hw IH)|]. lia.
Qed.
Lemma usize_bits : usize_ok (l * 8).
Proof. destruct (good_supported _ Hgl) as (_ & Hn & _). apply usize_small. apply N.le_lt_trans with 65534; [lia|reflexivity]. Qed.

(** First half: a server of the first version and a client of a later one. *)
Lemma half_1_3 {A B} (f : bytes -> proc A) (h : bytes * bytes -> proc B) r rs rr keys rm rm' ot2 : coins_ok r -> length keys = d ->
  ends_in failing failing
    (pbind (garbler_server_v1 sha p g (ext_s r rs) (many_s keys rm) passwords t) f)
    (pbind (evaluator_client_v3 sha p' (ext_r' r rr) (many_r rm') ot2 password (N.of_nat (2 ^ d)) index) h).
Proof.
  intros Hr Lk. destruct first_of_list as (p0 & E0 & L0). destruct (good_supported _ Hgl) as (Hsup & Hn & Hn1). pose proof Hlist as (Hd31 & Lp & Fp).
  destruct (circ1_half sha p g (l * 8) t Hs Hg Hn Ht Hn1 Hsup) as (gc & ek & dk & zs & l0 & l1 & H).
  pose proof (hk_length _ _ _ _ _ _ _ _ _ _ _ H) as Lz. cbn [circ1 num_inputs] in Lz.
  pose proof (zs_binary _ _ _ _ _ _ _ _ _ _ H) as Hz. pose proof usize_bits as Hun.
  pose proof (C35_extension_over_base_OT sha fill gen G p p' a a' cores cores' r rs rr Hs Hf Hgen HG Hc Hc' Hr) as Hot1.
  unfold garbler_server_v1, evaluator_client_v3. rewrite Lpass.
  apply ends_assoc_l. eapply ends_lift_l; [exact E0|]. cbv beta zeta. rewrite L0.
  apply ends_assoc_l. eapply ends_lift_l; [apply build_circuit_eq; assumption|].
  apply ends_assoc_l. eapply ends_lift_l; [exact (garble_zipped_ok _ _ _ _ _ _ _ _ _ _ H)|]. cbv beta iota.
  apply ends_assoc_l, ends_assoc_r, ends_send_recv; [cbn; auto|].
  destruct (sent_garbled _ _ _ _ _ _ _ _ _ _ Hg H) as (gc2 & Egc & Same).
  apply ends_assoc_r. eapply ends_lift_r; [exact Egc|].
  apply ends_assoc_l. eapply ends_lift_l; [apply label_pairs_ok; lia|].
  apply ends_assoc_r. eapply ends_lift_r. { rewrite <- Lpass. apply choice_bits_ok. }
  destruct (Hot1 (label_messages (seg zs 0 (l * 8))) (u8_vec_to_bool_vec password)) as (out1 & R1 & _).
  { unfold label_messages. rewrite map_length, seg_length, (bits_of _ Lpass); auto; lia. }
  { apply seg_extension; auto; try lia. }
  apply ends_assoc_l, ends_assoc_r. eapply ends_after; [cbn; auto|cbn; auto|cbn; auto|cbn; auto|apply hang_ext_s|apply hang_ext_r|exact R1|].
  apply ends_assoc_l. eapply ends_lift_l. { rewrite Lp. apply log_of. lia. }
  apply ends_assoc_l. eapply ends_lift_l. { unfold slice_from. rewrite (proj2 (Nat.leb_le _ _)) by lia. reflexivity. }
  set (enc := fun v => concat (map wval (zipWith pick (seg zs (l * 8) (l * 8)) (u8_vec_to_bool_vec v)))).
  apply ends_assoc_l. eapply ends_lift_l with (a := map enc passwords).
  { apply mapM_Ok. intros v Hv. rewrite Forall_forall in Fp. specialize (Fp v Hv).
    pose proof (flat_labels_ok zs (l * 8) v) as Q. cbv zeta in Q. rewrite Fp in Q. apply Q. lia. }
  rewrite Nnat.Nat2N.id. apply ends_assoc_l, ends_assoc_r.
  eapply (late sha fill gen fill gen G p cores Hf keys rm rm d Lk (conj Hd Hd31) Hfit) with (s := (l * 8 * 32)%nat).
  - lia.
  - now rewrite map_length.
  - apply Forall_map. eapply Forall_impl; [|exact Fp]. intros v Hv. cbn beta in *. unfold enc.
    assert (Lw : length (zipWith pick (seg zs (l * 8) (l * 8)) (u8_vec_to_bool_vec v)) = (l * 8)%nat) by (rewrite pick_length, seg_length; rewrite ?seg_length, ?(bits_of v Hv); auto; lia).
    assert (Fw : Forall (WF 2) (zipWith pick (seg zs (l * 8) (l * 8)) (u8_vec_to_bool_vec v))) by (apply picked_labels, seg_binary, Hz).
    rewrite (flat_length _ Fw), Lw. reflexivity.
  - intros e. apply kept_a. eapply kept_ok; [apply log_of; lia|]. rewrite Nnat.Nat2N.id. apply kept_a. apply (late_receiver sha gen fill gen G G p' cores keys rm rm' d Lk (conj Hd Hd31) Hfit).
Qed.
(** First half: a server of a later version and a client of the first. *)
Lemma half_3_1 {A B} (f : bytes * bytes -> proc A) (h : bytes -> proc B) r rs rr keys rm rm' ot2 : coins_ok r -> length keys = d ->
  ends_in failing failing
    (pbind (garbler_server_v3 sha p mask g (ext_s r rs) (many_s keys rm) ot2 passwords t) f)
    (pbind (evaluator_client_v1 sha p' (ext_r' r rr) (many_r rm') password (N.of_nat (2 ^ d)) index) h).
Proof.
  intros Hr Lk. destruct first_of_list as (p0 & E0 & L0). destruct (good_supported _ Hgl) as (Hsup & Hn & Hn1). pose proof Hlist as (Hd31 & Lp & Fp).
  destruct (circ2_half sha p g (l * 8) t Hs Hg Hn Ht Hn1 Hsup) as (gc & ek & dk & zs & l0 & l1 & H).
  pose proof (hk_length _ _ _ _ _ _ _ _ _ _ _ H) as Lz. cbn [circ2 num_inputs] in Lz.
  pose proof (zs_binary _ _ _ _ _ _ _ _ _ _ H) as Hz. pose proof usize_bits as Hun.
  pose proof (C35_extension_over_base_OT sha fill gen G p p' a a' cores cores' r rs rr Hs Hf Hgen HG Hc Hc' Hr) as Hot1.
  unfold garbler_server_v3, evaluator_client_v1. rewrite Lpass.
  apply ends_assoc_l. eapply ends_lift_l; [exact E0|]. cbv beta zeta. rewrite L0.
  apply ends_assoc_l. eapply ends_lift_l; [apply build_circuit_v2_eq; assumption|].
  apply ends_assoc_l. eapply ends_lift_l; [exact (garble_zipped_ok _ _ _ _ _ _ _ _ _ _ H)|]. cbv beta iota.
  apply ends_assoc_l, ends_assoc_r, ends_send_recv; [cbn; auto|].
  destruct (sent_garbled _ _ _ _ _ _ _ _ _ _ Hg H) as (gc2 & Egc & Same).
  apply ends_assoc_r. eapply ends_lift_r; [exact Egc|].
  apply ends_assoc_l. eapply ends_lift_l; [apply label_pairs_ok; lia|].
  apply ends_assoc_r. eapply ends_lift_r. { rewrite <- Lpass. apply choice_bits_ok. }
  destruct (Hot1 (label_messages (seg zs 0 (l * 8))) (u8_vec_to_bool_vec password)) as (out1 & R1 & _).
  { unfold label_messages. rewrite map_length, seg_length, (bits_of _ Lpass); auto; lia. }
  { apply seg_extension; auto; try lia. }
  apply ends_assoc_l, ends_assoc_r. eapply ends_after; [cbn; auto|cbn; auto|cbn; auto|cbn; auto|apply hang_ext_s|apply hang_ext_r|exact R1|].
  apply ends_assoc_l. eapply ends_lift_l. { rewrite <- Lm. apply encode_flat_ok; [|exact Hz]. rewrite Lm. lia. }
  apply ends_assoc_r. eapply ends_lift_r. { apply log_of. lia. }
  apply ends_assoc_l, ends_assoc_r. rewrite Nnat.Nat2N.id.
  destruct (masked_list mask Lm) as [Lms Fms].
  destruct (many_y_exists sha fill gen fill gen p cores Hf keys rm rm d Lk (conj Hd Hd31) Hfit (map (xor mask) passwords) l) as (m0 & y & Ez & Ey); auto. { destruct Hgl; lia. }
  eapply (early sha gen fill gen G G p' keys rm rm' d Lk (conj Hd Hd31)) with (y := y).
  apply kept_a. eapply kept_ok. { rewrite Lp. apply log_of. lia. }
  apply kept_a. eapply kept_ok. { apply mask_passwords_ok; auto. }
  rewrite Nnat.Nat2N.id. apply kept_a. apply (many_sender_waits sha fill gen fill gen G p cores keys rm rm d Lk (conj Hd Hd31)) with (m0 := m0); auto.
Qed.

(** Second half: a client of the second version and a server of the third. *)
Lemma second_2_3 {A B} (f : bytes -> proc A) (h : bytes -> proc B) r rs rr rm : coins_ok r ->
  ends_in failing failing
    (pbind (garbler_client_v2 sha p' g' (ext_s' r rs) (many_r rm) password index (N.of_nat (2 ^ d)) t') f)
    (pbind (evaluator_server_v3 sha p (ext_r r rr) passwords mask) h).
Proof.
  intros Hr. destruct first_of_list as (p0 & E0 & L0). destruct (good_supported _ Hgl) as (Hsup & Hn & Hn1). pose proof Hlist as (Hd31 & Lp & Fp).
  destruct (circ2_half sha p' g' (l * 8) t' Hs Hg' Hn Ht' Hn1 Hsup) as (gc & ek & dk & zs & l0 & l1 & H).
  pose proof (hk_length _ _ _ _ _ _ _ _ _ _ _ H) as Lz. cbn [circ2 num_inputs] in Lz.
  pose proof (zs_binary _ _ _ _ _ _ _ _ _ _ H) as Hz. pose proof usize_bits as Hun.
  pose proof (C35_extension_over_base_OT sha fill gen G p' p a' a cores' cores r rs rr Hs Hf Hgen HG Hc' Hc Hr) as Hot1.
  unfold garbler_client_v2, evaluator_server_v3. rewrite Lpass.
  apply ends_assoc_r. eapply ends_lift_r; [exact E0|]. cbv beta zeta. rewrite L0.
  apply ends_assoc_l. eapply ends_lift_l; [apply build_circuit_v2_eq; assumption|].
  apply ends_assoc_l. eapply ends_lift_l; [exact (garble_zipped_ok _ _ _ _ _ _ _ _ _ _ H)|]. cbv beta iota.
  set (w3 := zipWith pick (seg zs (l * 8 * 2) (l * 8)) (u8_vec_to_bool_vec password)).
  assert (F3 : Forall (WF 2) w3) by (apply picked_labels, seg_binary, Hz).
  assert (L3 : length w3 = (l * 8)%nat) by (unfold w3; rewrite pick_length, seg_length; rewrite ?(bits_of _ Lpass), ?seg_length; auto; lia).
  apply ends_assoc_l. eapply ends_lift_l with (a := w3). { pose proof (seg_pick_ok zs (l * 8 * 2) password) as Q. cbv zeta in Q. rewrite Lpass in Q. apply Q. lia. }
  apply ends_assoc_l, ends_assoc_r, ends_send_recv; [cbn; auto|].
  destruct (sent_garbled _ _ _ _ _ _ _ _ _ _ Hg' H) as (gc2 & Egc & Same).
  apply ends_assoc_r. eapply ends_lift_r; [exact Egc|].
  apply ends_assoc_l, ends_assoc_r, ends_send_recv; [cbn; auto|].
  apply ends_assoc_r. eapply ends_lift_r. { apply sent_wires; [exact F3|rewrite L3; exact Hun]. }
  apply ends_assoc_l. eapply ends_lift_l; [apply label_pairs_ok; lia|].
  apply ends_assoc_r. eapply ends_lift_r. { rewrite <- Lm. apply choice_bits_ok. }
  destruct (Hot1 (label_messages (seg zs (l * 8) (l * 8))) (u8_vec_to_bool_vec mask)) as (out1 & R1 & _).
  { unfold label_messages. rewrite map_length, seg_length, (bits_of _ Lm); auto; lia. }
  { apply seg_extension; auto; try lia. }
  apply ends_assoc_l, ends_assoc_r. eapply ends_after; [cbn; auto|cbn; auto|cbn; auto|cbn; auto|apply hang_ext_s|apply hang_ext_r|exact R1|].
  apply ends_assoc_l. eapply ends_lift_l. { apply log_of. lia. }
  exists [], true, [], true. split.
  - apply kept_a. unfold many_receiver. rewrite Nnat.Nat2N.id. apply kept_a. eapply kept_ok; [apply many_choices_small; lia|].
    apply kept_a. apply kept_wait. cbn; auto.
  - apply kept_a. apply kept_wait. cbn; auto.
Qed.
(** Second half: a client of the third version and a server of the second. *)
Lemma second_3_2 (f : bytes -> bytes) {B} (h : bytes -> proc B) r rs rr keys rm masked : coins_ok r -> length keys = d -> length masked = l ->
  one_result
    (pbind (garbler_client_v3 sha p' g' (ext_s' r rs) password masked t') (fun x => ret (f x)))
    (pbind (evaluator_server_v2 sha p mask' (ext_r r rr) (many_s keys rm) passwords) h).
Proof.
  intros Hr Lk Lmk. destruct first_of_list as (p0 & E0 & L0). destruct (good_supported _ Hgl) as (Hsup & Hn & Hn1). pose proof Hlist as (Hd31 & Lp & Fp).
  destruct (circ2_half sha p' g' (l * 8) t' Hs Hg' Hn Ht' Hn1 Hsup) as (gc & ek & dk & zs & l0 & l1 & H).
  pose proof (hk_length _ _ _ _ _ _ _ _ _ _ _ H) as Lz. cbn [circ2 num_inputs] in Lz.
  pose proof (zs_binary _ _ _ _ _ _ _ _ _ _ H) as Hz. pose proof usize_bits as Hun.
  pose proof (C35_extension_over_base_OT sha fill gen G p' p a' a cores' cores r rs rr Hs Hf Hgen HG Hc' Hc Hr) as Hot1.
  unfold garbler_client_v3, evaluator_server_v2. rewrite Lpass.
  apply one_assoc_r. eapply one_lift_r; [exact E0|]. cbv beta zeta. rewrite L0.
  apply one_assoc_l. eapply one_lift_l; [apply build_circuit_v2_eq; assumption|].
  apply one_assoc_l. eapply one_lift_l; [exact (garble_zipped_ok _ _ _ _ _ _ _ _ _ _ H)|]. cbv beta iota.
  set (w3 := zipWith pick (seg zs (l * 8 * 2) (l * 8)) (u8_vec_to_bool_vec password)).
  assert (F3 : Forall (WF 2) w3) by (apply picked_labels, seg_binary, Hz).
  assert (L3 : length w3 = (l * 8)%nat) by (unfold w3; rewrite pick_length, seg_length; rewrite ?(bits_of _ Lpass), ?seg_length; auto; lia).
  apply one_assoc_l. eapply one_lift_l with (a := w3). { pose proof (seg_pick_ok zs (l * 8 * 2) password) as Q. cbv zeta in Q. rewrite Lpass in Q. apply Q. lia. }
  apply one_assoc_l, one_assoc_r, one_send_recv.
  destruct (sent_garbled _ _ _ _ _ _ _ _ _ _ Hg' H) as (gc2 & Egc & Same).
  apply one_assoc_r. eapply one_lift_r; [exact Egc|].
  apply one_assoc_l, one_assoc_r, one_send_recv.
  apply one_assoc_r. eapply one_lift_r. { apply sent_wires; [exact F3|rewrite L3; exact Hun]. }
  apply one_assoc_l. eapply one_lift_l; [apply label_pairs_ok; lia|].
  apply one_assoc_r. eapply one_lift_r. { rewrite <- Lm'. apply choice_bits_ok. }
  apply one_assoc_r. eapply one_lift_r. { apply mask_passwords_ok; auto. }
  destruct (Hot1 (label_messages (seg zs (l * 8) (l * 8))) (u8_vec_to_bool_vec mask')) as (out1 & R1 & _).
  { unfold label_messages. rewrite map_length, seg_length, (bits_of _ Lm'); auto; lia. }
  { apply seg_extension; auto; try lia. }
  apply one_assoc_l, one_assoc_r. eapply one_after; [apply hang_ext_s|apply hang_ext_r|exact R1|].
  apply one_assoc_l. eapply one_lift_l. { apply (idx_lt _ 0 (wire_empty, wire_empty)). lia. }
  apply one_assoc_l. eapply one_lift_l. { rewrite <- Lmk. apply encode_flat_ok; [|exact Hz]. rewrite Lmk. lia. }
  apply one_assoc_r. eapply one_lift_r. { rewrite Lp. apply log_of. lia. } rewrite Nnat.Nat2N.id.
  rewrite (garbler_half_key_ok _ _ _ _ _ _ _ _ _ _ H).
  destruct (masked_list mask' Lm') as [Lms Fms].
  destruct (many_y_exists sha fill gen fill gen p cores Hf keys rm rm d Lk (conj Hd Hd31) Hfit (map (xor mask') passwords) l) as (m0 & y & Ez & Ey); auto. { destruct Hgl; lia. }
  split.
  - eexists (_ :: _ :: _), true, [_], true. split; [apply kept_a, kept_send; exact I|].
    apply kept_a. apply (many_sender_waits sha fill gen fill gen G p cores keys rm rm d Lk (conj Hd Hd31)) with (m0 := m0); [exact Ez|exact Ey].
  - eexists. eexists. split; [eapply reach_L; [reflexivity|]; apply reach_refl|reflexivity].
Qed.
End Halves.

(** ** The programs *)
Notation ext_s sha fill gen G p a cores r rs := (sender_with sha fill p a cores r (co_receiver sha gen G p rs)).
Notation ext_r sha fill gen G p a cores r rs := (receiver_with sha fill p a cores r (co_sender sha gen G p rs)).
Notation many_s sha fill gen G p cores keys rm := (fun d ms => many_sender sha fill p cores keys (co_sender sha gen G p rm) ms d).
Notation many_r sha fill gen G p rm := (fun d i => many_receiver sha fill p (co_receiver sha gen G p rm) i d).

(** A server of the first version: whatever comes after the first 1-out-of-n OT, no side gets a key. *)
Theorem C127_v1_server_v3_client : forall sha fill gen G p p' a a' cores cores' g g' l d t t' passwords password index r rs rr keys rm rm' otS ot2 ot3,
  hash32 sha -> generator fill -> generator gen -> curve_ok G -> (1 <= cores)%nat -> (1 <= cores')%nat -> garbling_ok g ->
  good_length l -> t <= 65534 -> (1 <= d)%nat -> password_list d l passwords -> length password = l -> fits cores d ->
  coins_ok r -> length keys = d ->
  no_result (server_v1 sha p g (ext_s sha fill gen G p a cores r rs) (many_s sha fill gen G p cores keys rm) otS passwords t)
    (client_v3 sha p' g' (ext_r sha fill gen G p' a' cores' r rr) (many_r sha fill gen G p' rm') ot2 ot3 password (N.of_nat (2 ^ d)) index t').
Proof.
  intros. apply ends_in_no_result. unfold server_v1, client_v3.
  eapply (half_1_3 sha fill gen G p p' a a' cores cores' g) with (l := l) (t' := 0) (mask := password) (mask' := password); auto; lia.
Qed.
Print Assumptions C127_v1_server_v3_client.
Theorem C127_v1_server_v2_client : forall sha fill gen G p p' a a' cores cores' g g' l d t t' passwords password index r rs rr keys rm rm' otS ot2 ot3 many',
  hash32 sha -> generator fill -> generator gen -> curve_ok G -> (1 <= cores)%nat -> (1 <= cores')%nat -> garbling_ok g ->
  good_length l -> t <= 65534 -> (1 <= d)%nat -> password_list d l passwords -> length password = l -> fits cores d ->
  coins_ok r -> length keys = d ->
  no_result (server_v1 sha p g (ext_s sha fill gen G p a cores r rs) (many_s sha fill gen G p cores keys rm) otS passwords t)
    (client_v2 sha p' g' (ext_r sha fill gen G p' a' cores' r rr) (many_r sha fill gen G p' rm') ot2 ot3 many' password (N.of_nat (2 ^ d)) index t').
Proof.
  intros. apply ends_in_no_result. unfold server_v1, client_v2, evaluator_client_v2. apply ends_assoc_r.
  eapply (half_1_3 sha fill gen G p p' a a' cores cores' g) with (l := l) (t' := 0) (mask := password) (mask' := password); auto; lia.
Qed.
Print Assumptions C127_v1_server_v2_client.

(** A client of the first version. *)
Theorem C127_v3_server_v1_client : forall sha fill gen G p p' a a' cores cores' g g' l d t t' passwords mask password index r rs rr keys rm rm' rand ot2 ot3 otC,
  hash32 sha -> generator fill -> generator gen -> curve_ok G -> (1 <= cores)%nat -> (1 <= cores')%nat -> garbling_ok g ->
  good_length l -> t <= 65534 -> (1 <= d)%nat -> password_list d l passwords -> length mask = l -> length password = l -> fits cores d ->
  coins_ok r -> length keys = d ->
  no_result (server_v3 sha p mask g (ext_s sha fill gen G p a cores r rs) (many_s sha fill gen G p cores keys rm) ot2 ot3 passwords t)
    (client_v1 sha p' rand g' (ext_r sha fill gen G p' a' cores' r rr) (many_r sha fill gen G p' rm') otC password (N.of_nat (2 ^ d)) index t').
Proof.
  intros. apply ends_in_no_result. unfold server_v3, client_v1.
  eapply (half_3_1 sha fill gen G p p' a a' cores cores' g) with (l := l) (t' := 0) (mask' := password); auto; lia.
Qed.
Print Assumptions C127_v3_server_v1_client.
Theorem C127_v2_server_v1_client : forall sha fill gen G p p' a a' cores cores' g g' l d t t' passwords mask mask' password index r rs rr keys rm rm' rand ot2 ot3 many' otC,
  hash32 sha -> generator fill -> generator gen -> curve_ok G -> (1 <= cores)%nat -> (1 <= cores')%nat -> garbling_ok g ->
  good_length l -> t <= 65534 -> (1 <= d)%nat -> password_list d l passwords -> length mask = l -> length password = l -> fits cores d ->
  coins_ok r -> length keys = d ->
  no_result (server_v2 sha p mask mask' g (ext_s sha fill gen G p a cores r rs) (many_s sha fill gen G p cores keys rm) ot2 ot3 many' passwords t)
    (client_v1 sha p' rand g' (ext_r sha fill gen G p' a' cores' r rr) (many_r sha fill gen G p' rm') otC password (N.of_nat (2 ^ d)) index t').
Proof.
  intros. apply ends_in_no_result. unfold server_v2, client_v1, garbler_server_v2. apply ends_assoc_l.
  eapply (half_3_1 sha fill gen G p p' a a' cores cores' g) with (l := l) (t' := 0) (mask' := password); auto; lia.
Qed.
Print Assumptions C127_v2_server_v1_client.

Lemma many_ok sha fill gen G p p' cores keys rm rm' d : generator fill -> generator gen -> curve_ok G -> key_pairs keys -> length keys = d -> fits cores d ->
  many_correct (fun n => n = d) (many_s sha fill gen G p cores keys rm) (many_r sha fill gen G p' rm').
Proof.
  intros Hf Hgen HG Hk Lk Hfit n ms i m -> L Hs Hn.
  destruct (C42_one_of_many_over_base_OT sha fill gen G p p' cores keys rm rm' ms d i) as (m' & E & R); auto.
  - assert (Hlt : (N.to_nat i < length ms)%nat) by (apply nth_error_Some; congruence). rewrite L in Hlt. lia.
  - rewrite Hn in E. inversion E. subst. exact R.
Qed.
Lemma hang_garbler_v3 sha p mask g ot1 many ot2 pws t : (forall ms, hangup (ot1 ms)) -> (forall d ms, hangup (many d ms)) ->
  (forall ms, hangup (ot2 ms)) -> hangup (garbler_server_v3 sha p mask g ot1 many ot2 pws t).
Proof. intros H1 Hm H2. unfold garbler_server_v3. cbv zeta. hang; first [apply H1|apply Hm|apply H2]. Qed.
Lemma hang_evaluator_v3 sha p ot1 many ot2 pw n i : (forall cs, hangup (ot1 cs)) -> (forall d i, hangup (many d i)) ->
  (forall cs, hangup (ot2 cs)) -> hangup (evaluator_client_v3 sha p ot1 many ot2 pw n i).
Proof. intros H1 Hm H2. unfold evaluator_client_v3. cbv zeta. hang; first [apply H1|apply Hm|apply H2]. Qed.

(** The third version's server and the second version's client: their first halves agree; then both wait. *)
Theorem C127_v3_server_v2_client : forall sha fill gen G p p' a a' cores cores' g g' l d t t' passwords mask pw password index
    r1 rs1 rr1 r2 rs2 rr2 r3 rs3 rr3 keys rm rm1 rm2,
  hash32 sha -> generator fill -> generator gen -> curve_ok G -> (1 <= cores)%nat -> (1 <= cores')%nat -> garbling_ok g -> garbling_ok g' ->
  good_length l -> t <= 65534 -> t' <= 65534 -> (1 <= d)%nat -> password_list d l passwords -> length mask = l -> length password = l -> fits cores d ->
  nth_error passwords (N.to_nat index) = Some pw -> coins_ok r1 -> coins_ok r2 -> coins_ok r3 -> key_pairs keys -> length keys = d ->
  no_result
    (server_v3 sha p mask g (ext_s sha fill gen G p a cores r1 rs1) (many_s sha fill gen G p cores keys rm) (ext_s sha fill gen G p a cores r2 rs2)
       (ext_r sha fill gen G p a cores r3 rs3) passwords t)
    (client_v2 sha p' g' (ext_r sha fill gen G p' a' cores' r1 rr1) (many_r sha fill gen G p' rm1) (ext_r sha fill gen G p' a' cores' r2 rr2)
       (ext_s sha fill gen G p' a' cores' r3 rr3) (many_r sha fill gen G p' rm2) password (N.of_nat (2 ^ d)) index t').
Proof.
  intros sha fill gen G p p' a a' cores cores' g g' l d t t' passwords mask pw password index r1 rs1 rr1 r2 rs2 rr2 r3 rs3 rr3 keys rm rm1 rm2
    Hs Hf Hgen HG Hc Hc' Hg Hg' Hgl Ht Ht' Hd Hpl Lm Lp Hfit Hi Hr1 Hr2 Hr3 Hk Lk. apply ends_in_no_result.
  destruct (C51_server_garbles sha p p' g (fun n => n = d) (many_s sha fill gen G p cores keys rm) (many_r sha fill gen G p' rm1)
      (ext_s sha fill gen G p a cores r1 rs1) (ext_r sha fill gen G p' a' cores' r1 rr1)
      (ext_s sha fill gen G p a cores r2 rs2) (ext_r sha fill gen G p' a' cores' r2 rr2) d l passwords mask index pw password t) as (l0 & l1 & _ & R);
    auto using C35_extension_over_base_OT, many_ok.
  unfold server_v3, client_v2, evaluator_client_v2. apply ends_assoc_r.
  eapply ends_after; [cbn; auto|cbn; auto|cbn; auto|cbn; auto| | |exact R|].
  { apply hang_garbler_v3; intros; try apply hang_ext_s. apply hang_many_sender. intros. apply hang_co_sender. }
  { apply hang_evaluator_v3; intros; try apply hang_ext_r. apply hang_many_receiver. intros. apply hang_co_receiver. }
  cbv beta iota. cbn [pbind ret]. apply ends_flip.
  eapply (second_2_3 sha fill gen G p p' a a' cores cores' g') with (l := l) (t := 0) (mask' := mask); auto; lia.
Qed.
Print Assumptions C127_v3_server_v2_client.

(** The second version's server and the third version's client: the client gets a key, the server never. *)
Theorem C127_v2_server_v3_client_refuted : forall sha fill gen G p p' a a' cores cores' g g' l d t t' passwords mask mask' pw password index
    r1 rs1 rr1 r2 rs2 rr2 r3 rs3 rr3 keys rm keys' rm' rm1,
  hash32 sha -> generator fill -> generator gen -> curve_ok G -> (1 <= cores)%nat -> (1 <= cores')%nat -> garbling_ok g -> garbling_ok g' ->
  good_length l -> t <= 65534 -> t' <= 65534 -> (1 <= d)%nat -> password_list d l passwords -> length mask = l -> length mask' = l -> length password = l -> fits cores d ->
  nth_error passwords (N.to_nat index) = Some pw -> coins_ok r1 -> coins_ok r2 -> coins_ok r3 -> key_pairs keys -> length keys = d -> length keys' = d ->
  let server := server_v2 sha p mask mask' g (ext_s sha fill gen G p a cores r1 rs1) (many_s sha fill gen G p cores keys rm) (ext_s sha fill gen G p a cores r2 rs2)
       (ext_r sha fill gen G p a cores r3 rs3) (many_s sha fill gen G p cores keys' rm') passwords t in
  let client := client_v3 sha p' g' (ext_r sha fill gen G p' a' cores' r1 rr1) (many_r sha fill gen G p' rm1) (ext_r sha fill gen G p' a' cores' r2 rr2)
       (ext_s sha fill gen G p' a' cores' r3 rr3) password (N.of_nat (2 ^ d)) index t' in
  (exists c key, reach (initial client server) c /\ left_ c = Done (Ok key)) /\
  (forall k c key, steps k (initial client server) c -> right_ c <> Done (Ok key)).
Proof.
  intros sha fill gen G p p' a a' cores cores' g g' l d t t' passwords mask mask' pw password index r1 rs1 rr1 r2 rs2 rr2 r3 rs3 rr3 keys rm keys' rm' rm1
    Hs Hf Hgen HG Hc Hc' Hg Hg' Hgl Ht Ht' Hd Hpl Lm Lm' Lp Hfit Hi Hr1 Hr2 Hr3 Hk Lk Lk' server client.
  assert (H : one_result client server).
  { destruct (C51_server_garbles sha p p' g (fun n => n = d) (many_s sha fill gen G p cores keys rm) (many_r sha fill gen G p' rm1)
      (ext_s sha fill gen G p a cores r1 rs1) (ext_r sha fill gen G p' a' cores' r1 rr1)
      (ext_s sha fill gen G p a cores r2 rs2) (ext_r sha fill gen G p' a' cores' r2 rr2) d l passwords mask index pw password t) as (l0 & l1 & _ & R);
      auto using C35_extension_over_base_OT, many_ok.
    unfold server, client, server_v2, client_v3, garbler_server_v2. apply one_assoc_r.
    eapply one_after; [| |apply runs_flip; exact R|].
    { apply hang_evaluator_v3; intros; try apply hang_ext_r. apply hang_many_receiver. intros. apply hang_co_receiver. }
    { apply hang_garbler_v3; intros; try apply hang_ext_s. apply hang_many_sender. intros. apply hang_co_sender. }
    cbv beta iota. cbn [pbind ret].
    eapply (second_3_2 sha fill gen G p p' a a' cores cores' g') with (l := l) (d := d) (t := 0) (mask := mask); auto; try lia.
    rewrite xor_length; [exact Lm|]. rewrite Lm. symmetry. destruct Hpl as (_ & _ & F). rewrite Forall_forall in F. apply F. eapply nth_error_In; exact Hi. }
  destruct H as [E X]. split; [exact X|]. intros k c key S Hd'. destruct (ends_in_steps _ _ _ _ I I E k c S) as [_ H2]. exact (H2 _ Hd').
Qed.
Print Assumptions C127_v2_server_v3_client_refuted.

Definition C127_list : list bytes := [[1; 2]; [3; 4]; [5; 6]; [7; 8]].
Lemma C127_list_ok : password_list 2 2 C127_list.
Proof. split; [lia|]. split; [reflexivity|]. repeat constructor. Qed.
Example C127_v1_v3_case : no_result
  (server_v1 toy Debug demo_garbling (demo_sender Debug) (demo_many Debug) (demo_receiver Debug) C127_list 1)
  (client_v3 toy Release demo_garbling (demo_receiver Release) (demo_one Release) (demo_receiver Release) (demo_sender Release) [5; 7] (N.of_nat (2 ^ 2)) 2 1).
Proof.
  apply (C127_v1_server_v3_client toy toy_gen toy_gen toy_curve) with (l := 2%nat) (d := 2%nat);
    try exact toy_hash32; auto using toy_gen_ok, toy_curve_ok, demo_garbling_ok, C127_list_ok, toy_coins_ok; try (unfold good_length; lia); try discriminate; try (left; lia).
Qed.
Example C127_v1_v2_case : no_result
  (server_v1 toy Debug demo_garbling (demo_sender Debug) (demo_many Debug) (demo_receiver Debug) C127_list 1)
  (client_v2 toy Release demo_garbling (demo_receiver Release) (demo_one Release) (demo_receiver Release) (demo_sender Release) (demo_one Release) [5; 7] (N.of_nat (2 ^ 2)) 2 1).
Proof.
  apply (C127_v1_server_v2_client toy toy_gen toy_gen toy_curve) with (l := 2%nat) (d := 2%nat);
    try exact toy_hash32; auto using toy_gen_ok, toy_curve_ok, demo_garbling_ok, C127_list_ok, toy_coins_ok; try (unfold good_length; lia); try discriminate; try (left; lia).
Qed.
Example C127_v3_v1_case : no_result
  (server_v3 toy Debug [17; 4] demo_garbling (demo_sender Debug) (demo_many Debug) (demo_sender Debug) (demo_receiver Debug) C127_list 1)
  (client_v1 toy Release demo_keys demo_garbling (demo_receiver Release) (demo_one Release) (demo_sender Release) [5; 7] (N.of_nat (2 ^ 2)) 2 1).
Proof.
  apply (C127_v3_server_v1_client toy toy_gen toy_gen toy_curve) with (l := 2%nat) (d := 2%nat);
    try exact toy_hash32; auto using toy_gen_ok, toy_curve_ok, demo_garbling_ok, C127_list_ok, toy_coins_ok; try (unfold good_length; lia); try discriminate; try (left; lia).
Qed.
Example C127_v2_v1_case : no_result
  (server_v2 toy Debug [17; 4] [3; 200] demo_garbling (demo_sender Debug) (demo_many Debug) (demo_sender Debug) (demo_receiver Debug) (demo_many Debug) C127_list 1)
  (client_v1 toy Release demo_keys demo_garbling (demo_receiver Release) (demo_one Release) (demo_sender Release) [5; 7] (N.of_nat (2 ^ 2)) 2 1).
Proof.
  apply (C127_v2_server_v1_client toy toy_gen toy_gen toy_curve) with (l := 2%nat) (d := 2%nat);
    try exact toy_hash32; auto using toy_gen_ok, toy_curve_ok, demo_garbling_ok, C127_list_ok, toy_coins_ok; try (unfold good_length; lia); try discriminate; try (left; lia).
Qed.
Notation demo_ext_s p := (ext_s toy toy_gen toy_gen toy_curve p X86 4 toy_coins (fun _ => 1)).
Notation demo_ext_r p := (ext_r toy toy_gen toy_gen toy_curve p X86 4 toy_coins (fun _ => 1)).
Example C127_v3_v2_case : no_result
  (server_v3 toy Debug [17; 4] demo_garbling (demo_ext_s Debug) (demo_many Debug) (demo_ext_s Debug) (demo_ext_r Debug) C127_list 1)
  (client_v2 toy Release demo_garbling (demo_ext_r Release) (demo_one Release) (demo_ext_r Release) (demo_ext_s Release) (demo_one Release) [5; 7] (N.of_nat (2 ^ 2)) 2 1).
Proof.
  apply (C127_v3_server_v2_client toy toy_gen toy_gen toy_curve Debug Release X86 X86 4 4 demo_garbling demo_garbling 2 2 1 1 C127_list [17; 4] [5; 6] [5; 7] 2
    toy_coins (fun _ => 1) (fun _ => 1) toy_coins (fun _ => 1) (fun _ => 1) toy_coins (fun _ => 1) (fun _ => 1) (toy_keys 2) (fun _ => 1) (fun _ => 1) (fun _ => 1));
    [exact toy_hash32|exact toy_gen_ok|exact toy_gen_ok|exact toy_curve_ok|lia|lia|exact demo_garbling_ok|exact demo_garbling_ok|unfold good_length; lia
    |discriminate|discriminate|lia|exact C127_list_ok|reflexivity|reflexivity|left; lia|reflexivity|exact toy_coins_ok|exact toy_coins_ok|exact toy_coins_ok
    |apply toy_keys_ok; lia|reflexivity].
Qed.
Example C127_v2_v3_case :
  let server := server_v2 toy Debug [17; 4] [3; 200] demo_garbling (demo_ext_s Debug) (demo_many Debug) (demo_ext_s Debug) (demo_ext_r Debug) (demo_many Debug) C127_list 1 in
  let client := client_v3 toy Release demo_garbling (demo_ext_r Release) (demo_one Release) (demo_ext_r Release) (demo_ext_s Release) [5; 7] (N.of_nat (2 ^ 2)) 2 1 in
  (exists c key, reach (initial client server) c /\ left_ c = Done (Ok key)) /\
  (forall k c key, steps k (initial client server) c -> right_ c <> Done (Ok key)).
Proof.
  apply (C127_v2_server_v3_client_refuted toy toy_gen toy_gen toy_curve Debug Release X86 X86 4 4 demo_garbling demo_garbling 2 2 1 1 C127_list [17; 4] [3; 200] [5; 6] [5; 7] 2
    toy_coins (fun _ => 1) (fun _ => 1) toy_coins (fun _ => 1) (fun _ => 1) toy_coins (fun _ => 1) (fun _ => 1) (toy_keys 2) (fun _ => 1) (toy_keys 2) (fun _ => 1) (fun _ => 1));
    [exact toy_hash32|exact toy_gen_ok|exact toy_gen_ok|exact toy_curve_ok|lia|lia|exact demo_garbling_ok|exact demo_garbling_ok|unfold good_length; lia
    |discriminate|discriminate|lia|exact C127_list_ok|reflexivity|reflexivity|reflexivity|left; lia|reflexivity|exact toy_coins_ok|exact toy_coins_ok|exact toy_coins_ok
    |apply toy_keys_ok; lia|reflexivity|reflexivity].
Qed.
