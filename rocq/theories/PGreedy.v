(** A receiver of the OT extension that gets both messages of every pair. *)
From Coq Require Import List NArith Bool Lia Arith.
From Verif Require Import Base MUtil MWires MBitMatrix MPoly MPar MBincode MProc MOt MApricot.
From Verif Require Import SpecUtil SpecBitMatrix SpecPoly SpecBincode SpecOt SpecApricot SpecEvil SpecPads SpecHide.
From Verif Require Import PBase PUtil PBitMatrix PPoly PPar PBincode PProc POt PApricotA PApricot PApricotRun PApricotRun2 PLinDep PApricotEvil PHide PFpake3.
Import ListNotations.
Open Scope N_scope.

Lemma finite_choice {B} (P : nat -> B -> Prop) (b0 : B) n : (forall i, (i < n)%nat -> exists b, P i b) -> exists f, forall i, (i < n)%nat -> P i (f i).
Proof.
  induction n as [|n IH]; intros H.
  - exists (fun _ => b0). intros i Hi. lia.
  - destruct IH as [f Hf]. { intros i Hi. apply H. lia. }
    destruct (H n ltac:(lia)) as [b Hb].
    exists (fun i => if Nat.eqb i n then b else f i). intros i Hi. destruct (Nat.eqb_spec i n) as [->|Ne]; [exact Hb|]. apply Hf. lia.
Qed.

Lemma xsum_swap f n m : xsum (fun i => xsum (fun j => f i j) m) n = xsum (fun j => xsum (fun i => f i j) n) m.
Proof.
  induction n as [|n IH]; cbn [xsum]; [now rewrite xsum_0|]. rewrite IH. now rewrite <- xsum_lxor.
Qed.
Lemma xsum_one f n i : (i < n)%nat -> (forall j, (j < n)%nat -> j <> i -> f j = 0) -> xsum f n = f i.
Proof.
  induction n as [|n IH]; intros Hi H; [lia|]. cbn [xsum]. destruct (Nat.eq_dec i n) as [->|Ne].
  - rewrite (xsum_ext f (fun _ => 0)) by (intros j Hj; apply H; lia). now rewrite xsum_0, N.lxor_0_l.
  - rewrite IH by (intros; lia || (apply H; lia)). rewrite (H n) by lia. apply N.lxor_0_r.
Qed.
Lemma pow_lt128 i : (i < 128)%nat -> 2 ^ N.of_nat i < 2 ^ 128.
Proof. intros H. apply N.pow_lt_mono_r; lia. Qed.
Lemma xsum_bits (c : nat -> bool) m j : N.testbit (xsum (fun i => if c i then 2 ^ N.of_nat i else 0) m) (N.of_nat j) = c j && Nat.ltb j m.
Proof.
  induction m as [|m IH]; cbn [xsum]; [now rewrite N.bits_0, andb_false_r|].
  rewrite N.lxor_spec, IH. destruct (Nat.eq_dec j m) as [->|Ne].
  - rewrite Nat.ltb_irrefl, andb_false_r, xorb_false_l. rewrite (proj2 (Nat.ltb_lt m (S m)) ltac:(lia)), andb_true_r.
    destruct (c m); [apply N.pow2_bits_true|apply N.bits_0].
  - assert (E : N.testbit (if c m then 2 ^ N.of_nat m else 0) (N.of_nat j) = false).
    { destruct (c m); [apply N.pow2_bits_false; lia|apply N.bits_0]. }
    rewrite E, xorb_false_r. f_equal. destruct (Nat.ltb_spec j m), (Nat.ltb_spec j (S m)); auto; lia.
Qed.

Section Greedy.
Variable sha : bytes -> bytes.
Variable fill : bytes -> nat -> bytes.
Hypothesis fill_ok : generator fill.
Variables (cu cv : bytes).
Variables (n s : nat).
Hypothesis n_128 : (128 <= n)%nat.
Hypothesis n_8 : (n mod 8 = 0)%nat.
Let l := (n + 256)%nat.
Let tw := (l / 8)%nat.
Let chi := fill (xor_arrays cv cu) (16 * l).
Hypothesis chi_spans : spans 256 (skipn (16 * n) chi).

Lemma g_l : l = (8 * tw)%nat.
Proof using n_8.
  unfold tw. apply Nat.div_exact; [discriminate|]. unfold l. change 256%nat with (32 * 8)%nat. rewrite Nat.mod_add; [exact n_8|discriminate].
Qed.
Lemma g_chi : length chi = (16 * l)%nat /\ bytes_ok chi.
Proof using fill_ok. apply fill_ok. Qed.

(** Column [i] has a one in row [i] and as extra bits what makes its weighted sum zero. *)
Definition unit_at (i : nat) : list bool := map (Nat.eqb i) (seq 0 n).
Lemma unit_length i : length (unit_at i) = n.
Proof. unfold unit_at. now rewrite map_length, seq_length. Qed.
Lemma unit_nth i r : (r < n)%nat -> nth r (unit_at i) false = Nat.eqb i r.
Proof.
  intros H. unfold unit_at. rewrite (nth_indep _ false (Nat.eqb i 0)) by (now rewrite map_length, seq_length).
  rewrite map_nth, seq_nth by auto. reflexivity.
Qed.
Lemma columns : exists f : nat -> list bool, forall i, (i < 128)%nat ->
  length (f i) = l /\ weighted (f i) chi = 0 /\ forall r, (r < n)%nat -> nth r (f i) false = Nat.eqb i r.
Proof using fill_ok n_128 chi_spans.
  clear n_8 sha.
  destruct g_chi as [Lc Bc].
  apply (finite_choice (fun i (f : list bool) => length f = l /\ weighted f chi = 0 /\ forall r, (r < n)%nat -> nth r f false = Nat.eqb i r) []).
  intros i Hi.
  destruct (chi_spans (rowv chi i)) as (b & Lb & Eb). { apply (rowv_lt chi i l); auto. unfold l. lia. }
  exists (unit_at i ++ b). split; [rewrite app_length, unit_length, Lb; reflexivity|]. split.
  - rewrite weighted_app, unit_length, Eb, weighted_xsum, unit_length.
    rewrite (xsum_one _ n i) by (lia || (intros j Hj Ne; rewrite unit_nth by auto; now rewrite (proj2 (Nat.eqb_neq i j)) by auto)).
    rewrite unit_nth, Nat.eqb_refl by lia. apply N.lxor_nilpotent.
  - intros r Hr. rewrite app_nth1 by (now rewrite unit_length). now apply unit_nth.
Qed.

(** What the receiver computes from d. *)
Variable t : bytes.
Definition cut0 (d : bytes) (r : nat) : bytes := firstn s (frow (s + s) d r).
Definition cut1 (d : bytes) (r : nat) : bytes := skipn s (frow (s + s) d r).
Definition guess (known : list bytes) (d : bytes) : bytes :=
  pack_choices (map (fun r => negb (bytes_eqb (cut0 d r) (zipWith N.lxor (mask sha fill s (frow 16 t r) r) (nth r known [])))) (seq 0 128)).
Definition q_guess (delta : bytes) (r : nat) : bytes :=
  le_bytes 16 (N.lxor (rowv t r) (if Nat.ltb r 128 && bit_of delta r then 2 ^ N.of_nat r else 0)).
Definition extracted (known : list bytes) (d : bytes) : list (bytes * bytes) :=
  map (fun r => (zipWith N.lxor (mask sha fill s (q_guess (guess known d) r) r) (cut0 d r),
                 zipWith N.lxor (mask sha fill s (zipWith N.lxor (q_guess (guess known d) r) (guess known d)) r) (cut1 d r))) (seq 0 n).

Hypothesis t_ok : length t = (16 * l)%nat.
Hypothesis t_bytes : bytes_ok t.
(** The masks of different rows with one number differ. *)
Hypothesis masks_differ : forall r y y', (r < 128)%nat -> array_ok 16 y -> array_ok 16 y' -> y <> y' ->
  fill (sha (usize_be r ++ y)) s <> fill (sha (usize_be r ++ y')) s.

Lemma extracted_ok msgs delta qt : length msgs = n -> equal_sized s msgs -> array_ok 16 delta ->
  (forall r, (r < n)%nat -> frow 16 qt r = q_guess delta r) ->
  extracted (map fst (firstn 128 msgs)) (concat (map (fun r => E0 sha fill s msgs qt r ++ E1 sha fill s msgs qt delta r) (seq 0 n))) = msgs.
Proof using fill_ok n_128 t_ok t_bytes masks_differ.
  clear chi_spans n_8 chi.
  intros Ln Hs Hd Hq.
  assert (Lm : forall r, (r < n)%nat -> length (fst (m_of msgs r)) = s /\ length (snd (m_of msgs r)) = s).
  { intros r Hr. apply (Forall_nth_in _ msgs r ([], []) Hs). lia. }
  assert (Lk : forall row r, length (mask sha fill s row r) = s) by (intros; apply fill_ok).
  assert (L0 : forall r, (r < n)%nat -> length (E0 sha fill s msgs qt r) = s).
  { intros r Hr. unfold E0. rewrite zipWith_length, Lk. destruct (Lm r Hr). lia. }
  assert (L1 : forall r, (r < n)%nat -> length (E1 sha fill s msgs qt delta r) = s).
  { intros r Hr. unfold E1. rewrite zipWith_length, Lk. destruct (Lm r Hr). lia. }
  set (d := concat _).
  assert (Ed : forall r, (r < n)%nat -> frow (s + s) d r = E0 sha fill s msgs qt r ++ E1 sha fill s msgs qt delta r).
  { intros r Hr. apply (frow_concat (s + s) (fun r => E0 sha fill s msgs qt r ++ E1 sha fill s msgs qt delta r) n r); [|exact Hr].
    intros i Hi. rewrite app_length, L0, L1; auto. }
  assert (C0 : forall r, (r < n)%nat -> cut0 d r = E0 sha fill s msgs qt r).
  { intros r Hr. unfold cut0. rewrite Ed by exact Hr. rewrite firstn_app, L0, Nat.sub_diag by exact Hr. cbn [firstn].
    rewrite app_nil_r. rewrite <- (L0 r Hr) at 1. apply firstn_all. }
  assert (C1 : forall r, (r < n)%nat -> cut1 d r = E1 sha fill s msgs qt delta r).
  { intros r Hr. unfold cut1. rewrite Ed by exact Hr. rewrite skipn_app, L0, Nat.sub_diag by exact Hr. cbn [skipn].
    rewrite <- (L0 r Hr) at 1. now rewrite skipn_all. }
  assert (Cancel : forall y z b : bytes, length y = length b -> length z = length b -> zipWith N.lxor y b = zipWith N.lxor z b -> y = z).
  { intros y z b Ly Lz E. rewrite <- (zipWith_xor_twice y b Ly), <- (zipWith_xor_twice z b Lz). now rewrite E. }
  assert (G : guess (map fst (firstn 128 msgs)) d = delta).
  { destruct Hd as [Ld Bd].
    assert (Lg : length (guess (map fst (firstn 128 msgs)) d) = 16%nat) by (unfold guess; now rewrite pack_choices_length, map_length, seq_length).
    apply elem_inj; [split; [exact Lg|apply pack_choices_ok]|split; auto|].
    apply bits128_ext; [apply le_value16_lt; [exact Lg|apply pack_choices_ok]|now apply le_value16_lt|].
    intros j Hj. rewrite !le_value_bit by (auto; apply pack_choices_ok). unfold guess at 1.
    rewrite pack_choices_bit by (rewrite map_length, seq_length; exact Hj).
    rewrite (nth_indep _ false ((fun r => negb (bytes_eqb (cut0 d r) (zipWith N.lxor (mask sha fill s (frow 16 t r) r) (nth r (map fst (firstn 128 msgs)) [])))) 0%nat))
      by (now rewrite map_length, seq_length).
    rewrite (map_nth (fun r => negb (bytes_eqb (cut0 d r) (zipWith N.lxor (mask sha fill s (frow 16 t r) r) (nth r (map fst (firstn 128 msgs)) []))))).
    rewrite seq_nth by exact Hj. cbn [Nat.add].
    assert (Hjn : (j < n)%nat) by lia.
    assert (Ek : nth j (map fst (firstn 128 msgs)) [] = fst (m_of msgs j)).
    { change (@nil N) with (fst (@nil N, @nil N)). rewrite map_nth. unfold m_of. f_equal.
      rewrite <- (firstn_skipn 128 msgs) at 2. symmetry. apply app_nth1. rewrite firstn_length. lia. }
    rewrite Ek, C0 by exact Hjn. unfold E0 at 1. rewrite (Hq j Hjn). unfold q_guess. rewrite (proj2 (Nat.ltb_lt j 128) Hj). cbn [andb].
    pose proof (frow_elem t j l t_ok t_bytes ltac:(unfold l; lia)) as Ht.
    destruct (bit_of delta j) eqn:B.
    - destruct (bytes_eqb _ _) eqn:E; [|reflexivity]. exfalso. apply bytes_eqb_eq in E.
      apply Cancel in E; [|rewrite Lk; now rewrite (proj1 (Lm j Hjn))..].
      refine (masks_differ j _ _ Hj _ Ht _ E).
      + split; [apply le_bytes_length|apply le_bytes_ok].
      + intros E'. apply (f_equal le_value) in E'. change (le_value (frow 16 t j)) with (rowv t j) in E'.
        rewrite le_value16 in E' by (apply lxor_lt2; [now apply (rowv_lt t j l); auto; unfold l; lia|now apply pow_lt128]).
        assert (E2 : N.lxor (rowv t j) (N.lxor (rowv t j) (2 ^ N.of_nat j)) = N.lxor (rowv t j) (rowv t j)) by now rewrite E'.
        rewrite <- N.lxor_assoc, N.lxor_nilpotent, N.lxor_0_l in E2. pose proof (N.pow_nonzero 2 (N.of_nat j)). lia.
    - rewrite N.lxor_0_r. unfold rowv. rewrite elem_eta by exact Ht. rewrite bytes_eqb_refl. reflexivity. }
  unfold extracted. rewrite G.
  transitivity (map (fun r => nth r msgs ([], [])) (seq 0 n)).
  - apply map_ext_in. intros r Hr. apply in_seq in Hr. destruct Hr as [_ Hr]. cbn [Nat.add] in Hr. rewrite C0, C1 by exact Hr. unfold E0, E1.
    rewrite <- (Hq r Hr). destruct (Lm r Hr) as [A B].
    rewrite !(zipWith_comm N.lxor (mask sha fill s _ r)) by apply N.lxor_comm.
    rewrite !zipWith_xor_twice by (rewrite Lk; auto). unfold m_of. now destruct (nth r msgs ([], [])).
  - rewrite <- Ln. rewrite (map_nth_seq (fun x => x) msgs ([], [])). apply map_id.
Qed.
End Greedy.

Section Run.
Variable sha : bytes -> bytes.
Variable fill : bytes -> nat -> bytes.
Hypothesis fill_ok : generator fill.
Variables (p : profile) (a : arch) (cores : nat).
Hypothesis cores_ok : (1 <= cores)%nat.
Variables (cu cv : bytes) (seed0 seed1 : list bytes).
Hypothesis cu_ok : array_ok 32 cu.
Hypothesis cv_ok : array_ok 32 cv.
Hypothesis seed0_ok : seeds_ok seed0.
Hypothesis seed1_ok : seeds_ok seed1.
Variables (bootS : list (bytes * bytes) -> proc unit) (bootR : list bool -> proc (list bytes)).
Hypothesis boot_ok : ot_correct seed_pairs bootS bootR.
Variables (n s : nat).
Hypothesis n_usize : usize_ok n.
Hypothesis n_128 : (128 <= n)%nat.
Hypothesis n_8 : (n mod 8 = 0)%nat.
Hypothesis s_pos : (1 <= s)%nat.
Hypothesis chi_spans : spans 256 (skipn (16 * n) (fill (xor_arrays cv cu) (16 * (n + 256)))).
Hypothesis masks_differ : forall r y y', (r < 128)%nat -> array_ok 16 y -> array_ok 16 y' -> y <> y' ->
  fill (sha (usize_be r ++ y)) s <> fill (sha (usize_be r ++ y')) s.

Lemma greedy : exists u x_sum t_sum (extract : list bytes -> bytes -> list (bytes * bytes)),
  length u = ((n + 256) / 8 * 128)%nat /\ length x_sum = 16%nat /\ length t_sum = 16%nat /\
  forall delta msgs, array_ok 16 delta -> length msgs = n -> equal_sized s msgs ->
    exists d, runs (ap_sender sha fill p a cores cu delta bootR msgs) (evil_receiver sha cv seed0 seed1 bootS n (fun _ => (u, x_sum, t_sum))) (Ok tt) (Ok d) /\
      extract (map fst (firstn 128 msgs)) d = msgs.
Proof.
  set (chi := fill (xor_arrays cv cu) (16 * (n + 256))) in *.
  destruct (g_chi fill fill_ok cu cv n) as [Lc Bc]. fold chi in Lc, Bc.
  pose proof (g_l n n_8) as El.
  destruct (columns fill fill_ok cu cv n n_128 chi_spans) as [f Hf]. fold chi in Hf.
  set (l := (n + 256)%nat) in *. set (tw := (l / 8)%nat) in *.
  set (X := fun i : nat => pack_choices (f i)).
  assert (HX : forall i, (i < 128)%nat -> array_ok tw (X i)).
  { intros i Hi. unfold X. split; [rewrite pack_choices_length, (proj1 (Hf i Hi)); reflexivity|apply pack_choices_ok]. }
  destruct (transposed l X HX (T fill l seed0) (TM fill l seed0)) as (t & Et & Lt & Bt & _ & _).
  { now apply TM_len. } { intros; now apply TM_row. }
  exists (UM fill seed0 seed1 l X), (repeat 0 16), (le_bytes 16 (xsum (fun i => gmul (rowv t i) (rowv chi i)) l)), (extracted sha fill n s t).
  split; [now apply UM_len|]. split; [apply repeat_length|]. split; [apply le_bytes_length|].
  intros delta msgs Hd Ln Hs. subst n.
  destruct (evil_run sha fill fill_ok p a cores cores_ok cu cv seed0 seed1 cu_ok cv_ok seed0_ok seed1_ok bootS bootR boot_ok msgs s n_usize ltac:(lia) n_8 s_pos Hs
    delta (fun _ => (UM fill seed0 seed1 l X, repeat 0 16, le_bytes 16 (xsum (fun i => gmul (rowv t i) (rowv chi i)) l))) X
      (repeat 0 16) (le_bytes 16 (xsum (fun i => gmul (rowv t i) (rowv chi i)) l)) Hd HX eq_refl)
      as (t' & qt & Et' & _ & _ & Lq & Bq & G & Lead).
  fold l in Et', Lq, G, Lead. fold tw in Et'. fold chi in Lead.
  pose proof (eq_trans (eq_sym Et) Et') as Ett. injection Ett as <-.
  set (c := fun r i : nat => bit_of delta i && nth r (f i) false).
  assert (R : forall r, (r < l)%nat -> rowv qt r = N.lxor (rowv t r) (xsum (fun i => if c r i then 2 ^ N.of_nat i else 0) 128)).
  { intros r Hr. apply bits128_ext.
    - now apply (rowv_lt qt r l).
    - apply lxor_lt2; [now apply (rowv_lt t r l)|]. apply xsum_lt. intros i Hi. destruct (c r i); [now apply pow_lt128|lia].
    - intros j Hj. rewrite N.lxor_spec, (G r j Hr Hj), xsum_bits, (proj2 (Nat.ltb_lt j 128) Hj), andb_true_r. f_equal. unfold c, X.
      rewrite pack_choices_bit by (rewrite (proj1 (Hf j Hj)); fold tw; lia). reflexivity. }
  assert (Q : xsum (fun i => gmul (rowv qt i) (rowv chi i)) l = xsum (fun i => gmul (rowv t i) (rowv chi i)) l).
  { transitivity (xsum (fun r => N.lxor (gmul (rowv t r) (rowv chi r)) (xsum (fun i => if bit_of delta i then gmul (if nth r (f i) false then rowv chi r else 0) (2 ^ N.of_nat i) else 0) 128)) l).
    - apply xsum_ext. intros r Hr. rewrite (R r Hr).
      pose proof (rowv_lt t r l Lt Bt Hr) as H1. pose proof (rowv_lt chi r l Lc Bc Hr) as H2.
      assert (H3 : forall i, (i < 128)%nat -> (if c r i then 2 ^ N.of_nat i else 0) < 2 ^ 128).
      { intros i Hi. destruct (c r i); [now apply pow_lt128|lia]. }
      rewrite gmul_lxor_l; auto. 2: now apply xsum_lt.
      f_equal. rewrite <- xsum_gmul by auto. apply xsum_ext. intros i Hi. pose proof (pow_lt128 i Hi) as Hp. unfold c.
      destruct (bit_of delta i), (nth r (f i) false); cbn [andb]; try (now rewrite ?gmul_0_l by auto). now apply gmul_comm.
    - rewrite xsum_lxor, xsum_swap. rewrite (xsum_ext (fun j => xsum _ l) (fun _ => 0)); [now rewrite xsum_0, N.lxor_0_r|].
      intros i Hi. destruct (bit_of delta i); [|apply xsum_0]. pose proof (pow_lt128 i Hi) as Hp.
      rewrite xsum_gmul; [|exact Hp|intros r Hr; destruct (nth r (f i) false); [now apply (rowv_lt chi r l)|lia]].
      destruct (Hf i Hi) as (Lf & Wf & _). rewrite weighted_xsum, Lf in Wf. rewrite Wf. now apply gmul_0_l. }
  rewrite Q in Lead.
  pose proof (randomize_ok sha fill fill_ok p cores cores_ok (length msgs) l s msgs (repeat false (length msgs)) (repeat false 256) qt qt delta
    eq_refl (repeat_length _ _) ltac:(lia) eq_refl (repeat_length _ _) s_pos Hs Lq Lq Hd) as Ed.
  eexists. split.
  - eapply leads_runs; [exact Lead|].
    assert (Ht : xsum (fun i => gmul (rowv t i) (rowv chi i)) l < 2 ^ 128).
    { apply xsum_lt. intros i Hi. apply gmul_lt; eapply rowv_lt; eauto. }
    eapply runs_lift_l.
    { change (repeat 0 16) with (le_bytes 16 0). rewrite sender_check_ok by (auto; lia).
      rewrite gmul_0_l by (destruct Hd; now apply le_value16_lt). rewrite N.lxor_0_r, N.eqb_refl. reflexivity. }
    eapply runs_lift_l; [exact Ed|]. apply runs_snd_rcv. apply runs_done.
  - apply (extracted_ok sha fill fill_ok (length msgs) s n_128 t Lt Bt masks_differ); auto.
    intros r Hr. assert (Hrl : (r < l)%nat) by (unfold l; lia).
    rewrite <- (elem_eta (frow 16 qt r)) by (now apply (frow_elem qt r l)). unfold q_guess. f_equal.
    change (le_value (frow 16 qt r)) with (rowv qt r). rewrite (R r Hrl). f_equal.
    destruct (Nat.ltb_spec r 128) as [H|H]; cbn [andb].
    + rewrite (xsum_one _ 128 r H).
      * unfold c. rewrite (proj2 (proj2 (Hf r H)) r Hr), Nat.eqb_refl, andb_true_r. reflexivity.
      * intros j Hj Ne. unfold c. rewrite (proj2 (proj2 (Hf j Hj)) r Hr), (proj2 (Nat.eqb_neq j r)), andb_false_r by auto. reflexivity.
    + rewrite (xsum_ext _ (fun _ => 0)); [apply xsum_0|]. intros j Hj. unfold c.
      rewrite (proj2 (proj2 (Hf j Hj)) r Hr), (proj2 (Nat.eqb_neq j r)), andb_false_r by lia. reflexivity.
Qed.
End Run.
