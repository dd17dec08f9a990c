(** The rows of a 1-of-n OT hide all messages but the chosen one. *)
From Coq Require Import List NArith Bool Lia Arith.
From Verif Require Import Base MUtil MPar MBincode MProc MOt MMany.
From Verif Require Import SpecUtil SpecBincode SpecOt SpecMany SpecManyHide PBase PUtil PPar PProc POt PMany.
Import ListNotations.
Open Scope N_scope.

Lemma masked_ext h h' js : forall m, (forall j, In j js -> h' j = h j) -> masked h' js m = masked h js m.
Proof.
  unfold masked. induction js as [|j js IH]; intros m H; [reflexivity|]. cbn [fold_left]. rewrite (H j) by (now left).
  apply IH. intros k Hk. apply H. now right.
Qed.
Lemma zip_assoc (a b c : bytes) : zipWith N.lxor a (zipWith N.lxor b c) = zipWith N.lxor (zipWith N.lxor a b) c.
Proof. revert b c; induction a as [|x a IH]; intros [|y b] [|z c]; cbn; auto. f_equal; [symmetry; apply N.lxor_assoc|apply IH]. Qed.
Lemma masked_change h h' x e js : NoDup js -> In x js -> (forall j, In j js -> j <> x -> h' j = h j) -> h' x = zipWith N.lxor (h x) e ->
  forall m, masked h' js m = zipWith N.lxor (masked h js m) e.
Proof.
  intros N. induction N as [|j js Nj N IH]; intros I H E m; [destruct I|]. cbn [In] in *.
  change (masked h' js (zipWith N.lxor m (h' j)) = zipWith N.lxor (masked h js (zipWith N.lxor m (h j))) e).
  destruct (Nat.eq_dec j x) as [->|D].
  - rewrite (masked_ext h h') by (intros k Hk; apply H; [now right|]; intros ->; contradiction).
    rewrite E, zip_assoc. apply masked_swap.
  - destruct I as [|I]; [contradiction|]. rewrite (H j) by auto. apply IH; auto.
Qed.
Lemma zip_cancel : forall (m m' : bytes), length m = length m' -> zipWith N.lxor m' (zipWith N.lxor m m') = m.
Proof.
  induction m as [|x m IH]; intros [|y m'] L; cbn in *; try discriminate; auto. f_equal; [|apply IH; lia].
  rewrite N.lxor_comm, N.lxor_assoc, N.lxor_nilpotent. apply N.lxor_0_r.
Qed.

Lemma differing_bit d : forall i c, (i < 2 ^ d)%nat -> (c < 2 ^ d)%nat -> i <> c -> exists j, (j < d)%nat /\ bit i j <> bit c j.
Proof.
  intros i c Hi Hc D.
  destruct (find (fun j => xorb (bit i j) (bit c j)) (seq 0 d)) as [j|] eqn:F.
  - apply find_some in F. destruct F as [I X]. apply in_seq in I. exists j. split; [lia|]. intros E. rewrite E, xorb_nilpotent in X. discriminate.
  - exfalso. apply D. apply Nat2N.inj. apply N.bits_inj. intros k.
    assert (P : 2 ^ N.of_nat d = N.of_nat (2 ^ d)) by (rewrite Nat2N.inj_pow; reflexivity).
    destruct (N.lt_ge_cases k (N.of_nat d)) as [L|L].
    + pose proof (find_none _ _ F (N.to_nat k)) as X. rewrite in_seq in X. specialize (X ltac:(lia)). cbv beta in X.
      apply xorb_eq in X. unfold bit in X. now rewrite N2Nat.id in X.
    + rewrite !(PPoly.high_bits _ (N.of_nat d) k); auto; rewrite P; lia.
Qed.

Section Hide.
Variable sha : bytes -> bytes.
Variable fill : bytes -> nat -> bytes.
Hypothesis fill_ok : generator fill.
Variables (p : profile) (cores : nat).
Variables (keys : list (bytes * bytes)) (messages messages' : list bytes) (s c : nat).
Let d := length keys.
Hypothesis d_ok : (d <= 32)%nat.
Hypothesis s_pos : (1 <= s)%nat.
Hypothesis len_s : Forall (fun m : bytes => length m = s) messages.
Hypothesis len_s' : Forall (fun m : bytes => length m = s) messages'.
Hypothesis ok_s : Forall bytes_ok messages.
Hypothesis ok_s' : Forall bytes_ok messages'.
Hypothesis count : length messages = (2 ^ d)%nat.
Hypothesis count' : length messages' = (2 ^ d)%nat.
Hypothesis c_ok : (c < 2 ^ d)%nat.
Hypothesis same : nth c messages' [] = nth c messages [].
Hypothesis Hk : keys_differ keys.
Hypothesis Hsd : seeds_differ sha keys.

(** The bit at which the row [i] is changed. *)
Let at_bit (i : nat) : nat := match find (fun j => xorb (bit i j) (bit c j)) (seq 0 d) with Some j => j | None => 0%nat end.
Let change (i : nat) : bytes := zipWith N.lxor (nth i messages []) (nth i messages' []).
Let others := filter (fun i => negb (i =? c)%nat) (seq 0 (2 ^ d)).
Definition other_fill (x : bytes) (n : nat) : bytes :=
  if (n =? s)%nat then
    match find (fun i => bytes_eqb x (sha (row_seed keys i (at_bit i)))) others with
    | Some i => zipWith N.lxor (fill x n) (change i)
    | None => fill x n
    end
  else fill x n.

Lemma in_others i : In i others <-> (i < 2 ^ d)%nat /\ i <> c.
Proof.
  unfold others. rewrite filter_In, in_seq. split.
  - intros [H N]. split; [lia|]. intros ->. now rewrite Nat.eqb_refl in N.
  - intros [H N]. split; [lia|]. now rewrite (proj2 (Nat.eqb_neq _ _) N).
Qed.
Lemma at_bit_ok i : In i others -> (at_bit i < d)%nat /\ bit i (at_bit i) <> bit c (at_bit i).
Proof.
  intros I. apply in_others in I. destruct I as [Hi N]. unfold at_bit.
  destruct (find _ _) as [j|] eqn:F.
  - apply find_some in F. destruct F as [I X]. apply in_seq in I. split; [lia|]. intros E. rewrite E, xorb_nilpotent in X. discriminate.
  - exfalso. destruct (differing_bit d i c Hi c_ok N) as (j & Hj & D).
    pose proof (find_none _ _ F j) as X. rewrite in_seq in X. specialize (X ltac:(lia)). apply xorb_eq in X. contradiction.
Qed.
Lemma seed_inj i i' j j' : (i < 2 ^ d)%nat -> (i' < 2 ^ d)%nat -> (j < d)%nat -> (j' < d)%nat ->
  sha (row_seed keys i j) = sha (row_seed keys i' j') -> i = i' /\ j = j'.
Proof.
  intros Hi Hi' Hj Hj' E. apply Hsd in E; auto. unfold row_seed in E. apply app_inj_len in E; [|now rewrite !be_bytes_length].
  destruct E as [Ei Ek]. apply Hk in Ek; auto. split; [|apply Ek].
  apply Nat2N.inj. 
  assert (B : forall i, (i < 2 ^ d)%nat -> N.of_nat i < 2 ^ 32).
  { intros k Hk'. assert (2 ^ d <= 2 ^ 32)%nat by (apply Nat.pow_le_mono_r; lia).
    apply N.lt_le_trans with (N.of_nat (2 ^ 32)%nat); [lia|]. rewrite Nat2N.inj_pow. reflexivity. }
  apply (be_bytes_inj 4); auto; now apply B.
Qed.
Lemma change_len i : (i < 2 ^ d)%nat -> length (change i) = s.
Proof.
  intros H. unfold change. rewrite zipWith_length.
  rewrite (Forall_nth_in _ messages i [] len_s), (Forall_nth_in _ messages' i [] len_s') by lia. apply Nat.min_id.
Qed.
Lemma other_fill_ok : generator other_fill.
Proof.
  intros x n. unfold other_fill. destruct (Nat.eqb_spec n s) as [->|]; [|apply fill_ok].
  destruct (find _ _) as [i|] eqn:F; [|apply fill_ok]. apply find_some in F. destruct F as [I _]. apply in_others in I.
  destruct (fill_ok x s) as [L B]. split.
  - rewrite zipWith_length, L, change_len by apply I. apply Nat.min_id.
  - apply xor_bytes_okay; [exact B|]. apply xor_bytes_okay; apply Forall_nth_in; auto; lia.
Qed.
Lemma other_fill_at i j : (i < 2 ^ d)%nat -> (j < d)%nat ->
  other_fill (sha (row_seed keys i j)) s =
  if negb (i =? c)%nat && (j =? at_bit i)%nat then zipWith N.lxor (fill (sha (row_seed keys i j)) s) (change i) else fill (sha (row_seed keys i j)) s.
Proof.
  intros Hi Hj. unfold other_fill. rewrite Nat.eqb_refl. destruct (find _ _) as [i'|] eqn:F.
  - apply find_some in F. destruct F as [I E]. apply bytes_eqb_eq in E. pose proof (at_bit_ok i' I) as [A _]. apply in_others in I.
    destruct I as [Hi' N]. apply seed_inj in E; auto. destruct E as [-> ->].
    rewrite (proj2 (Nat.eqb_neq _ _) N), Nat.eqb_refl. reflexivity.
  - destruct (Nat.eqb_spec i c) as [->|N]; cbn [negb andb]; [reflexivity|].
    destruct (Nat.eqb_spec j (at_bit i)) as [->|]; [|reflexivity].
    pose proof (find_none _ _ F i) as X. rewrite in_others in X. specialize (X (conj Hi N)). cbv beta in X. rewrite bytes_eqb_refl in X. discriminate.
Qed.
Lemma other_fill_sight : differs_out_of_sight sha keys c fill other_fill.
Proof.
  intros x n D. unfold other_fill in D. destruct (Nat.eqb n s); [|now destruct D].
  destruct (find _ _) as [i|] eqn:F; [|now destruct D]. apply find_some in F. destruct F as [I E]. apply bytes_eqb_eq in E. pose proof (at_bit_ok i I) as [A B].
  apply in_others in I. exists i, (at_bit i). split; [apply I|]. auto.
Qed.
Lemma hide_seed g i j : hide sha g keys s i j = g (sha (row_seed keys i j)) s.
Proof. unfold hide, fk, row_seed, key_for, bit, selected. destruct (N.testbit (N.of_nat i) (N.of_nat j)); reflexivity. Qed.
Lemma same_row i : (i < 2 ^ d)%nat ->
  Y sha other_fill keys messages' d s i = Y sha fill keys messages d s i.
Proof.
  intros Hi. unfold Y. destruct (Nat.eq_dec i c) as [->|N].
  - rewrite same. apply masked_ext. intros j Hj. apply in_seq in Hj. rewrite !hide_seed, other_fill_at by lia. rewrite Nat.eqb_refl. reflexivity.
  - assert (I : In i others) by (apply in_others; auto). pose proof (at_bit_ok i I) as [A _].
    rewrite (masked_change (hide sha fill keys s i) _ (at_bit i) (change i)).
    + rewrite <- masked_swap. unfold change. rewrite zip_cancel; [reflexivity|].
      rewrite (Forall_nth_in _ messages i [] len_s), (Forall_nth_in _ messages' i [] len_s') by lia. reflexivity.
    + apply seq_NoDup.
    + apply in_seq. lia.
    + intros j Hj D. apply in_seq in Hj. rewrite !hide_seed, other_fill_at by lia. rewrite (proj2 (Nat.eqb_neq _ _) D), andb_false_r. reflexivity.
    + rewrite !hide_seed, other_fill_at by lia. rewrite Nat.eqb_refl, (proj2 (Nat.eqb_neq _ _) N). reflexivity.
Qed.
Lemma same_rows boot :
  (let rows := (2 ^ d)%nat in let threads := if Nat.leb rows cores then rows else cores in
   d <= 2 \/ (1 <= cores /\ (p = Debug -> rows mod threads = 0) /\ rows mod (rows / threads) = 0))%nat ->
  many_sender sha other_fill p cores keys boot messages' d = many_sender sha fill p cores keys boot messages d.
Proof.
  intros H. unfold many_sender. pose proof (pow2_pos d) as P2.
  rewrite (idx_lt messages 0 []), (idx_lt messages' 0 []) by lia. cbn [lift pbind].
  rewrite (Forall_nth_in _ messages 0 [] len_s), (Forall_nth_in _ messages' 0 [] len_s') by lia.
  rewrite (y_ok sha fill fill_ok p cores keys messages d s d_ok eq_refl s_pos len_s) by (exact H || lia).
  rewrite (y_ok sha other_fill other_fill_ok p cores keys messages' d s d_ok eq_refl s_pos len_s') by (exact H || lia).
  replace (map (Y sha other_fill keys messages' d s) (seq 0 (2 ^ d))) with (map (Y sha fill keys messages d s) (seq 0 (2 ^ d))); [reflexivity|].
  apply map_ext_in. intros i Hi. apply in_seq in Hi. symmetry. apply same_row. lia.
Qed.
End Hide.
