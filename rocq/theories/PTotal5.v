(** In release mode the two older versions of the one-of-many exchange always end with a key on each side. *)
From Coq Require Import List NArith Bool Lia Arith Permutation.
From Verif Require Import Base MUtil MWires MCircuit MGarble MPar MBincode MProc MOt MApricot MMany MFpake MLegacy.
From Verif Require Import SpecUtil SpecWires SpecCircuit SpecGarble SpecBincode SpecOt SpecApricot SpecFpake SpecMany SpecMfpake SpecLegacy SpecTotal.
From Verif Require Import PBase PUtil PWires PGarble PBincode PCircuit PCircuit2 PHalf PProc POt PPar PApricotRun PFpake PTotal3 CFpake CMfpake PFpake3 PTotal4 PLegacy.
Import ListNotations.
Open Scope N_scope.

Section V1.
Variable sha : bytes -> bytes.
Hypothesis Hs : hash32 sha.
Variable g : garbling.
Hypothesis Hg : any_coins g.
Variable l : nat.
Hypothesis Hl : (1 <= l)%nat.
Hypothesis Hu : usize_ok (l * 64).
Variables (passwords : list bytes) (pw password : bytes) (t : N).
Hypothesis Fp : Forall (fun q : bytes => length q = l) passwords.
Hypothesis Lpass : length password = l.
Variable index : nat.
Hypothesis Hi : nth_error passwords index = Some pw.
Let n := (l * 8)%nat.

Lemma one_first : exists p0, idx passwords 0 = Ok p0 /\ length p0 = l.
Proof.
  assert (H : (index < length passwords)%nat) by (apply nth_error_Some; congruence).
  exists (nth 0 passwords []). split; [apply idx_lt; lia|]. rewrite Forall_forall in Fp. apply Fp. apply nth_In. lia.
Qed.
Lemma one_pw : length pw = l.
Proof. rewrite Forall_forall in Fp. apply Fp. eapply nth_error_In; eauto. Qed.
Lemma one_n : (0 < n)%nat /\ (n mod 8 = 0)%nat /\ usize_ok n.
Proof. split; [unfold n; lia|]. split; [apply Nat.mod_mul; lia|]. eapply usize_le; [|exact Hu]. unfold n. lia. Qed.

Lemma release_server_v1 otS otR dom manyS manyR d :
  ot_correct extension_ok otS otR -> many_correct dom manyS manyR -> dom d ->
  (d <= 31)%nat -> length passwords = (2 ^ d)%nat ->
  exists k k', length k = 32%nat /\ length k' = 32%nat /\
  runs (garbler_server_v1 sha Release g otS manyS passwords t)
       (evaluator_client_v1 sha Release otR manyR password (N.of_nat (2 ^ d)) (N.of_nat index))
    (Ok k) (Ok k').
Proof.
  intros Hot Hm Hd Hd31 Lp.
  destruct (v1_made sha g l t Hs Hg Hl Hu) as (c & gc & zs & dk & gc2 & k & Eb & Eg & Hz & Lz & Egc & Ek & Lk & Hev). fold n in Eb, Lz, Hev.
  destruct one_n as (Hn0 & Hn8 & Hnu). destruct one_first as (p0 & E0 & L0).
  assert (Hbits : forall v, length v = l -> length (u8_vec_to_bool_vec v) = n) by (intros v Lv; rewrite bits_length8, Lv; reflexivity).
  destruct (Hev (zipWith pick (seg zs n n) (u8_vec_to_bool_vec pw) ++ zipWith pick (seg zs 0 n) (u8_vec_to_bool_vec password))) as (eout & k' & Eo & Ek' & Lk').
  { pose proof one_pw. rewrite app_length, !pick_length, !seg_length; rewrite ?seg_length, ?Hbits; auto; lia. }
  { apply Forall_app. split; apply picked_labels, seg_binary, Hz. }
  exists k, k'. split; [exact Lk|]. split; [exact Lk'|].
  assert (Hpow : 2 ^ N.of_nat d = N.of_nat (2 ^ d)) by (now rewrite Nat2N.inj_pow).
  assert (Hlog : forall q w, 32 <= w <= 64 -> log2_ q w (N.of_nat (2 ^ d)) = Ok (N.of_nat d)).
  { intros q w Hw. rewrite <- Hpow. apply log2_pow2; [apply N.le_lt_trans with 64; [lia|reflexivity]|lia]. }
  unfold garbler_server_v1, evaluator_client_v1. rewrite Lpass. fold n.
  eapply runs_lift_l; [exact E0|]. cbv beta. rewrite L0. fold n.
  eapply runs_lift_l; [exact Eb|].
  eapply runs_lift_l; [exact Eg|]. cbv beta iota.
  apply runs_send_recv.
  eapply runs_lift_r; [exact Egc|].
  eapply runs_lift_l; [apply label_pairs_ok; lia|].
  eapply runs_lift_r. { unfold n. rewrite <- Lpass. apply choice_bits_ok. }
  destruct (Hot (label_messages (seg zs 0 n)) (u8_vec_to_bool_vec password)) as (out1 & R1 & Sel1).
  { unfold label_messages. rewrite map_length, seg_length, Hbits; auto; lia. }
  { apply seg_extension; auto; lia. }
  apply selection_labels in Sel1; [|rewrite seg_length, Hbits; auto; lia].
  eapply runs_bind; [exact R1|].
  eapply runs_lift_l. { rewrite Lp. apply Hlog. lia. }
  eapply runs_lift_r. { apply Hlog. lia. }
  eapply runs_lift_l. { unfold slice_from. rewrite (proj2 (Nat.leb_le _ _)) by lia. reflexivity. }
  set (enc := fun v => concat (map wval (zipWith pick (seg zs n n) (u8_vec_to_bool_vec v)))).
  eapply runs_lift_l with (a := map enc passwords).
  { apply mapM_Ok. intros v Hv. rewrite Forall_forall in Fp. specialize (Fp v Hv).
    pose proof (flat_labels_ok zs n v) as Q. cbv zeta in Q. rewrite Fp in Q. fold n in Q. apply Q. lia. }
  rewrite Nat2N.id.
  eapply runs_bind.
  { apply (Hm d (map enc passwords) (N.of_nat index) (enc pw)); auto.
    - now rewrite map_length.
    - exists (n * 32)%nat. split; [lia|]. apply Forall_map. eapply Forall_impl; [|exact Fp]. intros v Hv. cbn beta in *. unfold enc.
      assert (Lw : length (zipWith pick (seg zs n n) (u8_vec_to_bool_vec v)) = n) by (rewrite pick_length, seg_length; rewrite ?seg_length, ?Hbits; auto; lia).
      assert (Fw : Forall (WF 2) (zipWith pick (seg zs n n) (u8_vec_to_bool_vec v))) by (apply picked_labels, seg_binary, Hz).
      revert Lw Fw. generalize (zipWith pick (seg zs n n) (u8_vec_to_bool_vec v)). clear. intros ws <- Fw. induction Fw as [|w ws (_ & Hw & _) Fw IH]; cbn [map concat length]; auto. etransitivity; [apply app_length|]. etransitivity; [exact (f_equal2 Nat.add Hw IH)|]. lia.
    - rewrite Nat2N.id. now apply map_nth_error. }
  eapply runs_lift_r. { rewrite Sel1. apply received_labels. apply picked_labels, seg_binary, Hz. }
  eapply runs_lift_r. { unfold enc. apply wires_from_bytes_ok. apply picked_labels, seg_binary, Hz. }
  eapply runs_lift_r; [exact Eo|].
  rewrite Ek, Ek'. apply runs_done.
Qed.

Lemma release_client_v1 otS otR rand count :
  ot_correct extension_ok otS otR -> keys_ok rand -> length passwords = (count + 2)%nat -> N.of_nat (count + 2) < 2 ^ 32 -> usize_ok ((count + 2) * (l * 8)) ->
  exists k k' seen, length k = 32%nat /\ length k' = 32%nat /\
  runs (garbler_client_v1 sha Release rand g otS password (N.of_nat index) (N.of_nat (count + 2)) t)
       (evaluator_server_v1_seen sha Release otR passwords)
    (Ok k) (Ok (k', seen)).
Proof.
  intros Hot Hk Lp Hc Hall.
  set (rs := map (fun r => map (rand r) (seq 0 n)) (seq 0 count)). set (rows := rs ++ [total n rs]).
  destruct (v1_made sha g l t Hs Hg Hl Hu) as (c & gc & zs & dk & gc2 & k & Eb & Eg & Hz & Lz & Egc & Ek & Lk & Hev). fold n in Eb, Lz, Hev.
  destruct one_n as (Hn0 & Hn8 & Hnu). destruct one_first as (p0 & E0 & L0).
  assert (Hbits : forall v, length v = l -> length (u8_vec_to_bool_vec v) = n) by (intros v Lv; rewrite bits_length8, Lv; reflexivity).
  destruct (Hev (zipWith pick (seg zs n n) (u8_vec_to_bool_vec pw) ++ zipWith pick (seg zs 0 n) (u8_vec_to_bool_vec password))) as (eout & k' & Eo & Ek' & Lk').
  { pose proof one_pw. rewrite app_length, !pick_length, !seg_length; rewrite ?seg_length, ?Hbits; auto; lia. }
  { apply Forall_app. split; apply picked_labels, seg_binary, Hz. }
  set (w2 := zipWith pick (seg zs n n) (u8_vec_to_bool_vec pw)).
  assert (F2 : Forall (WF 2) w2) by (apply picked_labels, seg_binary, Hz).
  assert (L2 : length w2 = n) by (unfold w2; rewrite pick_length, seg_length; rewrite ?Hbits, ?seg_length; auto using one_pw; lia).
  set (w1 := zipWith pick (seg zs 0 n) (u8_vec_to_bool_vec password)).
  assert (F1 : Forall (WF 2) w1) by (apply picked_labels, seg_binary, Hz).
  assert (L1 : length w1 = n) by (unfold w1; rewrite pick_length, seg_length; rewrite ?Hbits, ?seg_length; auto; lia).
  destruct (random_rows_ok Release rand count n Hk Hc) as [Er Frs]. fold rs in Er, Frs.
  assert (Sw : shape n (map wval w2)).
  { split; [now rewrite map_length|]. apply Forall_map. eapply Forall_impl; [|exact F2]. intros w (_ & Q & _). exact Q. }
  assert (Hilt : (index < count + 2)%nat) by (rewrite <- Lp; apply nth_error_Some; congruence).
  assert (Lrs : length rs = count) by (unfold rs; now rewrite map_length, seq_length).
  assert (Lrows : length rows = (count + 1)%nat) by (unfold rows; rewrite app_length, Lrs; reflexivity).
  assert (Frows : Forall (shape n) rows) by (apply Forall_app; split; [exact Frs|constructor; [apply (total_ok n rs Frs)|constructor]]).
  set (R := firstn index rows ++ map wval w2 :: skipn index rows).
  assert (FR : Forall (shape n) R).
  { unfold R. rewrite <- (firstn_skipn index rows) in Frows. apply Forall_app in Frows as [Fa Fb]. apply Forall_app; auto. }
  assert (LR : length R = (count + 2)%nat) by (unfold R; rewrite app_length; cbn [length]; rewrite firstn_length, skipn_length; lia).
  exists k, k', (concat R). split; [exact Lk|]. split; [exact Lk'|].
  unfold garbler_client_v1, evaluator_server_v1_seen. rewrite Lpass. fold n.
  eapply runs_lift_r; [exact E0|]. cbv beta. rewrite L0. fold n.
  eapply runs_lift_l; [exact Eb|].
  eapply runs_lift_l; [exact Eg|]. cbv beta iota.
  eapply runs_lift_l; [apply label_pairs_ok; lia|].
  eapply runs_lift_l with (a := w1). { pose proof (seg_pick_ok zs 0 password) as Q. cbv zeta in Q. rewrite Lpass in Q. fold n in Q. cbn [Nat.add] in Q. apply Q. lia. }
  apply runs_send_recv.
  eapply runs_lift_r; [exact Egc|].
  apply runs_send_recv.
  eapply runs_lift_r. { apply sent_wires; [exact F1|rewrite L1; exact Hnu]. }
  eapply runs_lift_l; [exact Er|]. fold rows.
  eapply runs_lift_l. { apply hidden_keys_ok; [exact Hilt|]. rewrite Lrows. lia. }
  eapply runs_lift_r with (a := map u8_vec_to_bool_vec passwords).
  { apply mapM_Ok. intros v Hv. rewrite Forall_forall in Fp. unfold n. rewrite <- (Fp v Hv). apply choice_bits_ok. }
  set (M := map dup (firstn index rows) ++ label_messages (seg zs n n) :: map dup (skipn index rows)).
  destruct (nth_error_split _ _ Hi) as (P1 & P2 & EP & LP1).
  assert (LP2 : length P2 = (count + 1 - index)%nat). { rewrite EP, app_length in Lp. cbn [length] in Lp. lia. }
  assert (FC : Forall (fun cs : list bool => length cs = n) (map u8_vec_to_bool_vec passwords)).
  { apply Forall_map. eapply Forall_impl; [|exact Fp]. intros v Hv. apply Hbits. exact Hv. }
  assert (FMl : Forall (fun ms : list (bytes * bytes) => length ms = n) M).
  { unfold M. rewrite <- (firstn_skipn index rows) in Frows. apply Forall_app in Frows as [Fa Fb]. apply Forall_app. split; [|constructor].
    - apply Forall_map. eapply Forall_impl; [|exact Fa]. intros r [Q _]. unfold dup. now rewrite map_length.
    - unfold label_messages. rewrite map_length. apply seg_length. lia.
    - apply Forall_map. eapply Forall_impl; [|exact Fb]. intros r [Q _]. unfold dup. now rewrite map_length. }
  assert (LM : length M = (count + 2)%nat) by (unfold M; rewrite app_length; cbn [length]; rewrite !map_length, firstn_length, skipn_length; lia).
  assert (Lcat : forall (A : Type) (L : list (list A)), Forall (fun x => length x = n) L -> length (concat L) = (length L * n)%nat).
  { intros A L F. clear - F. induction F; cbn; auto. rewrite app_length. lia. }
  assert (LcM : length (concat M) = ((count + 2) * n)%nat) by (rewrite Lcat, LM; auto).
  destruct (Hot (concat M) (concat (map u8_vec_to_bool_vec passwords))) as (out & Rn & Sel).
  { rewrite LcM, Lcat by exact FC. rewrite map_length. congruence. }
  { split; [|split; [|split]].
    - rewrite LcM. exact Hall.
    - rewrite LcM. nia.
    - rewrite LcM. unfold n. rewrite Nat.mul_assoc. apply Nat.mod_mul. lia.
    - exists 32%nat. split; [lia|]. split; [reflexivity|]. apply Forall_concat.
      assert (Fd : forall L, Forall (shape n) L -> Forall (Forall (fun m : bytes * bytes => length (fst m) = 32%nat /\ length (snd m) = 32%nat)) (map dup L)).
      { intros L FL. apply Forall_map. eapply Forall_impl; [|exact FL]. intros r [_ Q]. unfold dup. apply Forall_map. eapply Forall_impl; [|exact Q]. cbn [fst snd]. auto. }
      rewrite <- (firstn_skipn index rows) in Frows. apply Forall_app in Frows as [Fa Fb]. unfold M. apply Forall_app. split; [|constructor]; auto.
      unfold label_messages. apply Forall_map. eapply Forall_impl; [|apply (seg_binary zs n n Hz)]. intros w [(_ & Q0 & _) (_ & Q1 & _)]. cbn [fst snd]. auto. }
  apply selection_unique in Sel. 2: { rewrite LcM, Lcat by exact FC. rewrite map_length. congruence. }
  assert (Eout : out = concat R).
  { rewrite Sel, zipWith_concat.
    2: { clear - FC FMl LM Lp. assert (Q : length M = length (map u8_vec_to_bool_vec passwords)) by (rewrite map_length; congruence).
         revert FC Q. generalize (map u8_vec_to_bool_vec passwords). clear LM. induction FMl as [|x L Hx F IH]; intros [|y cs] FC Q; try discriminate; constructor; inversion FC; subst; auto; congruence. }
    f_equal. rewrite EP, map_app. cbn [map]. unfold M, R. rewrite EP in FC. rewrite map_app in FC. apply Forall_app in FC as [FC1 FC2]. cbn [map] in FC2. apply Forall_cons_iff in FC2 as [_ FC2].
    rewrite <- (firstn_skipn index rows) in Frows. apply Forall_app in Frows as [Fa Fb].
    rewrite zipWith_app by (rewrite !map_length, firstn_length; lia). cbn [zipWith].
    rewrite (choose_dups _ _ n) by (auto; rewrite map_length, firstn_length; lia).
    rewrite (choose_dups _ _ n) by (auto; rewrite map_length, skipn_length; lia).
    rewrite choose_labels by (rewrite seg_length, Hbits; auto using one_pw; lia). reflexivity. }
  rewrite Eout in Rn.
  eapply runs_bind; [exact Rn|].
  eapply runs_lift_r. { rewrite Lp, <- LR. apply xor_all_ok. exact FR. }
  unfold R at 1. pose proof (total_inserted n rs (map wval w2) index Frs Sw) as Et. cbv zeta in Et. fold rows in Et.
  eapply runs_lift_r with (a := w2).
  { unfold R. rewrite Et. rewrite mapM_map. rewrite (mapM_Ok _ (fun w => w)); [now rewrite map_id|].
    intros w Hw. apply from_bytes_binary. rewrite Forall_forall in F2. auto. }
  eapply runs_lift_r; [exact Eo|].
  eapply runs_lift_r; [exact Ek'|].
  rewrite Ek. apply runs_ret.
Qed.
End V1.

Section V2.
Variable sha : bytes -> bytes.
Hypothesis Hs : hash32 sha.
Variable g : garbling.
Hypothesis Hg : any_coins g.
Variable l : nat.
Hypothesis Hl : (1 <= l)%nat.
Hypothesis Hu : usize_ok (l * 64).
Variables (passwords : list bytes) (mask pw password : bytes) (t : N).
Hypothesis Lm : length mask = l.
Hypothesis Lpass : length password = l.
Let n := (l * 8)%nat.
Let masked := xor mask pw.
Variables (dom : nat -> Prop) (manyS : nat -> list bytes -> proc unit) (manyR : nat -> N -> proc bytes) (d : nat) (index : N).
Hypothesis Hm : many_correct dom manyS manyR.
Hypothesis Hd : dom d.
Hypothesis Hlist : password_list d l passwords.
Hypothesis Hi : nth_error passwords (N.to_nat index) = Some pw.

Lemma two_p0 : exists p0, nth_error passwords 0 = Some p0 /\ length p0 = l.
Proof.
  destruct Hlist as (_ & Lp & F). destruct passwords as [|p0 ps]. { cbn in Lp. pose proof (Nat.pow_nonzero 2 d). lia. }
  exists p0. split; [reflexivity|]. now inversion F.
Qed.
Lemma two_pw : length pw = l.
Proof. destruct Hlist as (_ & _ & F). rewrite Forall_forall in F. apply F. eapply nth_error_In; eauto. Qed.
Lemma release_server_v2 ot1S ot1R ot2S ot2R :
  ot_correct extension_ok ot1S ot1R -> ot_correct extension_ok ot2S ot2R ->
  exists k k', length k = 32%nat /\ length k' = 32%nat /\
  runs (garbler_server_v2 sha Release mask g ot1S manyS ot2S passwords t)
       (evaluator_client_v2 sha Release ot1R manyR ot2R password (N.of_nat (2 ^ d)) index) (Ok k) (Ok k').
Proof.
  intros H1 H2. destruct (release_server_garbles sha Hs g Hg l Hl Hu t passwords mask pw password two_p0 Lm two_pw Lpass
    ot1S ot1R ot2S ot2R dom manyS manyR d index H1 H2 Hm Hd Hlist Hi) as (k & k' & Lk & Lk' & R).
  exists k, k'. split; [exact Lk|]. split; [exact Lk'|]. unfold garbler_server_v2, evaluator_client_v2. eapply runs_bind; [exact R|]. apply runs_ret.
Qed.

Lemma release_client_v2 otS otR : ot_correct extension_ok otS otR ->
  exists k k', length k = 32%nat /\ length k' = 32%nat /\
  runs (garbler_client_v2 sha Release g otS manyR password index (N.of_nat (2 ^ d)) t)
       (evaluator_server_v2 sha Release mask otR manyS passwords)
    (Ok k) (Ok k').
Proof.
  intros Hot.
  destruct (v3_made sha Hs g Hg l Hl Hu t) as (c & gc & zs & dk & gc2 & k & Eb & Eg & Hz & Lz & Egc & Ek & Lk & Hev).
  fold n in Eb, Lz, Hev.
  assert (Hn0 : (0 < n)%nat) by (unfold n; lia). assert (Hn8 : (n mod 8 = 0)%nat) by (apply Nat.mod_mul; lia).
  assert (Hnu : usize_ok n) by (eapply usize_le; [|exact Hu]; unfold n; lia).
  destruct (first_password l passwords two_p0) as (p0 & E0 & L0). pose proof two_pw as Lpw.
  assert (Lmk : length masked = l) by (unfold masked; rewrite xor_length; congruence).
  destruct (Hev masked mask password Lmk Lm Lpass) as (eout & k' & Eo & Ek' & Lk'). exists k, k'. split; [exact Lk|]. split; [exact Lk'|].
  assert (Hbits : forall v, length v = l -> length (u8_vec_to_bool_vec v) = n) by (intros v Lv; rewrite bits_length8, Lv; reflexivity).
  destruct Hlist as (Hd31 & Lp & Fp).
  assert (Hpow : 2 ^ N.of_nat d = N.of_nat (2 ^ d)) by (now rewrite Nat2N.inj_pow).
  assert (Hlog : forall q w, 32 <= w <= 64 -> log2_ q w (N.of_nat (2 ^ d)) = Ok (N.of_nat d)).
  { intros q w Hw. rewrite <- Hpow. apply log2_pow2; [apply N.le_lt_trans with 64; [lia|reflexivity]|lia]. }
  set (w1 := zipWith pick (seg zs 0 n) (u8_vec_to_bool_vec masked)).
  set (w2 := zipWith pick (seg zs n n) (u8_vec_to_bool_vec mask)).
  set (w3 := zipWith pick (seg zs (n * 2) n) (u8_vec_to_bool_vec password)).
  assert (F1 : Forall (WF 2) w1) by (apply picked_labels, seg_binary, Hz).
  assert (F2 : Forall (WF 2) w2) by (apply picked_labels, seg_binary, Hz).
  assert (F3 : Forall (WF 2) w3) by (apply picked_labels, seg_binary, Hz).
  assert (L1 : length w1 = n) by (unfold w1; rewrite pick_length, seg_length; rewrite ?Hbits, ?seg_length; auto; lia).
  assert (L2 : length w2 = n) by (unfold w2; rewrite pick_length, seg_length; rewrite ?Hbits, ?seg_length; auto; lia).
  assert (L3 : length w3 = n) by (unfold w3; rewrite pick_length, seg_length; rewrite ?Hbits, ?seg_length; auto; lia).
  unfold garbler_client_v2, evaluator_server_v2. rewrite Lpass. fold n.
  eapply runs_lift_r; [exact E0|]. cbv beta. rewrite L0. fold n.
  eapply runs_lift_l; [exact Eb|].
  eapply runs_lift_l; [exact Eg|]. cbv beta iota.
  eapply runs_lift_l with (a := w3). { pose proof (seg_pick_ok zs (n * 2) password) as Q. cbv zeta in Q. rewrite Lpass in Q. fold n in Q. apply Q. lia. }
  apply runs_send_recv.
  eapply runs_lift_r; [exact Egc|].
  apply runs_send_recv.
  eapply runs_lift_r. { apply sent_wires; [exact F3|rewrite L3; exact Hnu]. }
  eapply runs_lift_l; [apply label_pairs_ok; lia|].
  eapply runs_lift_r. { unfold n. rewrite <- Lm. apply choice_bits_ok. }
  eapply runs_lift_r. { apply mask_passwords_ok; auto. }
  destruct (Hot (label_messages (seg zs n n)) (u8_vec_to_bool_vec mask)) as (out & R & Sel).
  { unfold label_messages. rewrite map_length, seg_length, Hbits; auto; lia. }
  { apply seg_extension; auto; lia. }
  apply selection_labels in Sel; [|rewrite seg_length, Hbits; auto; lia].
  eapply runs_bind; [exact R|].
  eapply runs_lift_l. { apply Hlog. lia. }
  eapply runs_lift_r. { rewrite Lp. apply Hlog. lia. }
  rewrite Nat2N.id.
  eapply runs_bind.
  { apply runs_flip. apply (Hm d (map (xor mask) passwords) index masked); auto.
    - now rewrite map_length.
    - exists l. split; [lia|]. apply Forall_map. eapply Forall_impl; [|exact Fp]. intros y Hy. cbn beta. rewrite xor_length; congruence.
    - unfold masked. now apply map_nth_error. }
  eapply runs_lift_l. { apply (idx_lt _ 0 (wire_empty, wire_empty)). lia. }
  eapply runs_lift_l. { unfold n. rewrite <- Lmk. apply encode_flat_ok; [|exact Hz]. rewrite Lmk. fold n. lia. }
  apply runs_send_recv. rewrite Lmk. fold n.
  fold w1.
  eapply runs_lift_r. { rewrite Sel. fold w2. apply (idx_lt _ 0 (wval wire_empty)). rewrite map_length. lia. }
  rewrite (map_nth wval).
  assert (L20 : length (wval (nth 0 w2 wire_empty)) = 32%nat). { destruct (nth_WF w2 0 F2) as (_ & Q & _); [lia|exact Q]. }
  rewrite L20.
  eapply runs_lift_r. { rewrite Sel. apply payload_ok_wires; auto. }
  eapply runs_lift_r. { apply bytes_ok_wires; auto. }
  eapply runs_lift_r; [exact Eo|].
  rewrite Ek, Ek'. apply runs_done.
Qed.
End V2.
