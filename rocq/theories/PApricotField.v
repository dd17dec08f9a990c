(** The correlation check of Apricot and the field. *)
From Coq Require Import List NArith Bool Lia Arith.
From Verif Require Import Base MUtil MWires MBitMatrix MPoly MPar MBincode MProc MOt MApricot.
From Verif Require Import SpecUtil SpecBitMatrix SpecPoly SpecBincode SpecOt SpecApricot SpecEvil PBase PUtil PBitMatrix PPoly PPar PBincode PProc POt PApricotA PApricot PApricotRun PApricotRun2 PApricotEvil PField.
Import ListNotations.
Open Scope N_scope.

Section Sums.
Variable sha : bytes -> bytes.
Variable fill : bytes -> nat -> bytes.
Hypothesis fill_ok : generator fill.
Variables (p : profile) (a : arch) (cores : nat).
Hypothesis cores_ok : (1 <= cores)%nat.
Variables (cu cv : bytes) (seed0 seed1 : list bytes).
Hypothesis cu_ok : array_ok 32 cu.
Hypothesis cv_ok : array_ok 32 cv.
Hypothesis seed0_ok : seeds_ok seed0.
Hypothesis seed1_ok : seeds_ok seed1.
Variables (bootS : list (bytes * bytes) -> proc unit) (bootR : list bool -> proc (list bytes)).
Hypothesis boot_ok : ot_correct seed_pairs bootS bootR.
Variables (msgs : list (bytes * bytes)) (s : nat).
Hypothesis n_usize : usize_ok (length msgs).
Hypothesis n_pos : (1 <= length msgs)%nat.
Hypothesis n_8 : (length msgs mod 8 = 0)%nat.
Hypothesis s_pos : (1 <= s)%nat.
Hypothesis sized : equal_sized s msgs.
Let n := length msgs.
Let l := (n + 256)%nat.
Let tw := (l / 8)%nat.
Let chi := fill (xor_arrays cv cu) (16 * l).
Let sender (delta : bytes) := ap_sender sha fill p a cores cu delta bootR msgs.
Let evil (reply : bytes -> bytes * bytes * bytes) := evil_receiver sha cv seed0 seed1 bootS n reply.

Lemma same_columns u : length u = (tw * 128)%nat -> bytes_ok u -> consistent_u fill seed0 seed1 tw u ->
  exists x, array_ok tw x /\ UM fill seed0 seed1 l (fun _ => x) = u.
Proof.
  intros Lu Bu (x & Lx & Hx).
  assert (LT : forall s j, length (T fill l s j) = tw) by (intros; now apply T_len).
  assert (E : forall j, (j < 128)%nat -> U fill seed0 seed1 l (fun _ => x) j = frow tw u j).
  { intros j Hj. symmetry. exact (Hx j Hj). }
  exists x. split.
  - split; [exact Lx|]. specialize (E 0%nat). unfold U in E.
    rewrite <- (zipWith_xor_twice x (zipWith N.lxor (T fill l seed0 0) (T fill l seed1 0))).
    + apply xor_bytes_okay; [|apply xor_bytes_okay; now apply T_ok].
      rewrite zipWith_comm by apply N.lxor_comm. rewrite E by lia. now apply frow_ok.
    + rewrite zipWith_length, !LT. lia.
  - rewrite <- (rows_eta tw 128 u Lu). unfold UM. f_equal. apply map_ext_in. intros j Hj. apply in_seq in Hj. apply E. lia.
Qed.

(** What the check computes, for the columns [x]. *)
Definition own_x (x : bytes) : N := xsum (fun i => if bit_of x i then rowv chi i else 0) l.
Lemma chi_ok' : length chi = (16 * l)%nat /\ bytes_ok chi.
Proof. apply fill_ok. Qed.
Lemma own_x_lt x : own_x x < 2 ^ 128.
Proof. destruct chi_ok' as [Lc Bc]. apply xsum_lt. intros i Hi. destruct (bit_of x i); [eapply rowv_lt; eauto|reflexivity]. Qed.
Lemma checked x : array_ok tw x -> exists th, th < 2 ^ 128 /\ forall delta x' t', array_ok 16 delta -> elem x' -> elem t' ->
  exists qt, length qt = (16 * l)%nat /\
  leads (sender delta) (evil (fun _ => (UM fill seed0 seed1 l (fun _ => x), x', t'))) (initial
    (let! _ := lift (if le_value t' =? N.lxor (N.lxor th (gmul (own_x x) (le_value delta))) (gmul (le_value x') (le_value delta))
                     then Ok tt else Err ECorrelation) in
     let! d := lift (randomize sha fill p cores qt delta 16 s msgs) in
     send d) recv).
Proof.
  intros Hx. destruct chi_ok' as [Lc Bc].
  destruct (transposed l (fun _ => x) (fun _ _ => Hx) (T fill l seed0) (TM fill l seed0)) as (t & Et & Lt & Bt & _ & _).
  { now apply TM_len. } { intros; now apply TM_row. }
  assert (Ht : xsum (fun i => gmul (rowv t i) (rowv chi i)) l < 2 ^ 128).
  { apply xsum_lt. intros i Hi. apply gmul_lt; eapply rowv_lt; eauto. }
  exists (xsum (fun i => gmul (rowv t i) (rowv chi i)) l). split; [exact Ht|]. intros delta x' t' Hd Hx' Ht'.
  destruct (evil_run sha fill fill_ok p a cores cores_ok cu cv seed0 seed1 cu_ok cv_ok seed0_ok seed1_ok bootS bootR boot_ok msgs s n_usize n_pos n_8 s_pos sized
    delta (fun _ => (UM fill seed0 seed1 l (fun _ => x), x', t')) (fun _ => x) x' t' Hd (fun _ _ => Hx) eq_refl)
    as (t1 & qt & Et' & _ & _ & Lq & Bq & G & Lead).
  fold n l tw in Et', Lq, G, Lead. pose proof (eq_trans (eq_sym Et) Et') as Ett. injection Ett as <-.
  exists qt. split; [exact Lq|].
  assert (Hdv : le_value delta < 2 ^ 128) by (destruct Hd; now apply le_value16_lt).
  assert (R : forall r, (r < l)%nat -> rowv qt r = N.lxor (rowv t r) (if bit_of x r then le_value delta else 0)).
  { intros r Hr. apply bits128_ext.
    - now apply (rowv_lt qt r l).
    - apply lxor_lt2; [now apply (rowv_lt t r l)|]. destruct (bit_of x r); [exact Hdv|reflexivity].
    - intros j Hj. rewrite N.lxor_spec, (G r j Hr Hj). f_equal. destruct (bit_of x r); [|now rewrite N.bits_0, andb_false_r].
      rewrite andb_true_r. symmetry. apply le_value_bit. apply Hd. }
  assert (Q : xsum (fun i => gmul (rowv qt i) (rowv chi i)) l =
    N.lxor (xsum (fun i => gmul (rowv t i) (rowv chi i)) l) (gmul (own_x x) (le_value delta))).
  { unfold own_x. rewrite <- xsum_gmul; [|exact Hdv|].
    - rewrite <- xsum_lxor. apply xsum_ext. intros i Hi. rewrite (R i Hi).
      pose proof (rowv_lt t i l Lt Bt Hi) as H1. pose proof (rowv_lt chi i l Lc Bc Hi) as H2.
      destruct (bit_of x i).
      + rewrite gmul_lxor_l by auto. f_equal. now apply gmul_comm.
      + rewrite N.lxor_0_r, gmul_0_l, N.lxor_0_r by auto. reflexivity.
    - intros i Hi. destruct (bit_of x i); [now apply (rowv_lt chi i l)|reflexivity]. }
  fold chi in Lead. rewrite Q in Lead.
  pose proof (sender_check_ok p a (N.lxor (xsum (fun i => gmul (rowv t i) (rowv chi i)) l) (gmul (own_x x) (le_value delta))) delta (le_value x') (le_value t')) as Ck.
  rewrite (elem_eta x' Hx'), (elem_eta t' Ht') in Ck. rewrite Ck in Lead; [exact Lead| | | |exact Hd].
  - apply lxor_lt2; [exact Ht|]. apply gmul_lt; [apply own_x_lt|exact Hdv].
  - now apply elem_lt.
  - now apply elem_lt.
Qed.
Lemma check_solved th ox d x' t' : el th -> el ox -> el d -> el x' -> el t' ->
  (t' =? N.lxor (N.lxor th (gmul ox d)) (gmul x' d)) = (N.lxor t' th =? gmul (N.lxor ox x') d).
Proof.
  intros. rewrite gmul_lxor_l by assumption. apply eq_true_iff_eq. rewrite !N.eqb_eq. split; intros E.
  - rewrite E. rewrite (N.lxor_comm _ th), <- !N.lxor_assoc, N.lxor_nilpotent, N.lxor_0_l. reflexivity.
  - rewrite N.lxor_assoc, <- E, (N.lxor_comm t'), <- N.lxor_assoc, N.lxor_nilpotent, N.lxor_0_l. reflexivity.
Qed.
Definition accepted (delta u x t : bytes) : Prop := exists d, runs (sender delta) (evil (fun _ => (u, x, t))) (Ok tt) (Ok d).
Definition turned_away (delta u x t : bytes) : Prop :=
  leads (sender delta) (evil (fun _ => (u, x, t))) (Cfg (Done (Err ECorrelation)) recv [] []).
Lemma wrong_sums u : length u = (tw * 128)%nat -> bytes_ok u -> consistent_u fill seed0 seed1 tw u ->
  exists x t, elem x /\ elem t /\ (forall delta, array_ok 16 delta -> accepted delta u x t) /\
  (forall t' delta, elem t' -> t' <> t -> array_ok 16 delta -> turned_away delta u x t') /\
  forall x' t', elem x' -> elem t' -> x' <> x -> exists delta0, array_ok 16 delta0 /\ accepted delta0 u x' t' /\
    forall delta, array_ok 16 delta -> delta <> delta0 -> turned_away delta u x' t'.
Proof.
  intros Lu Bu Hu. destruct (same_columns u Lu Bu Hu) as (x0 & Hx0 & <-). destruct (checked x0 Hx0) as (th & Hth & C).
  pose proof (own_x_lt x0) as Hox. set (ox := own_x x0) in *.
  assert (ACC : forall delta x' t', array_ok 16 delta -> elem x' -> elem t' ->
    N.lxor (le_value t') th = gmul (N.lxor ox (le_value x')) (le_value delta) -> accepted delta (UM fill seed0 seed1 l (fun _ => x0)) x' t').
  { intros delta x' t' Hd Hx' Ht' E. destruct (C delta x' t' Hd Hx' Ht') as (qt & Lq & Lead).
    rewrite check_solved in Lead; auto using elem_lt. rewrite (proj2 (N.eqb_eq _ _) E) in Lead.
    destruct (randomize_total sha fill fill_ok p cores cores_ok msgs s n_pos s_pos sized qt delta Lq Hd) as [d Ed]. exists d.
    eapply leads_runs; [exact Lead|]. eapply runs_lift_l; [reflexivity|]. eapply runs_lift_l; [exact Ed|]. apply runs_snd_rcv. apply runs_done. }
  assert (REJ : forall delta x' t', array_ok 16 delta -> elem x' -> elem t' ->
    N.lxor (le_value t') th <> gmul (N.lxor ox (le_value x')) (le_value delta) -> turned_away delta (UM fill seed0 seed1 l (fun _ => x0)) x' t').
  { intros delta x' t' Hd Hx' Ht' E. destruct (C delta x' t' Hd Hx' Ht') as (qt & Lq & Lead).
    rewrite check_solved in Lead; auto using elem_lt. rewrite (proj2 (N.eqb_neq _ _) E) in Lead. exact Lead. }
  assert (INJ : forall y z, elem y -> elem z -> le_value y = le_value z -> y = z).
  { intros y z Hy Hz E. rewrite <- (elem_eta y Hy), <- (elem_eta z Hz). now rewrite E. }
  exists (le_bytes 16 ox), (le_bytes 16 th). split; [apply elem_bytes|]. split; [apply elem_bytes|]. split; [|split].
  - intros delta Hd. apply ACC; auto using elem_bytes. rewrite !le_value16 by assumption. rewrite !N.lxor_nilpotent.
    symmetry. apply gmul_0_l. now apply elem_lt.
  - intros t' delta Ht' Nt Hd. apply REJ; auto using elem_bytes. rewrite le_value16 by assumption. rewrite N.lxor_nilpotent, gmul_0_l by (now apply elem_lt).
    intros E. apply Nt. apply INJ; auto using elem_bytes. rewrite le_value16 by assumption. now apply N.lxor_eq.
  - intros x' t' Hx' Ht' Nx. set (e := N.lxor ox (le_value x')). assert (He : el e) by (apply lxor_lt2; auto using elem_lt).
    assert (Ne : e <> 0).
    { intros E. apply Nx. apply INJ; auto using elem_bytes. rewrite le_value16 by assumption. symmetry. now apply N.lxor_eq. }
    set (r := N.lxor (le_value t') th). assert (Hr : el r) by (apply lxor_lt2; auto using elem_lt).
    pose proof (ginv_lt e He) as Hi.
    assert (Ed : gmul e (gmul (ginv e) r) = r).
    { rewrite <- gmul_assoc by assumption. rewrite ginv_ok by assumption. rewrite gmul_comm by (auto; reflexivity). now apply gmul_1. }
    exists (le_bytes 16 (gmul (ginv e) r)). split; [apply elem_bytes|]. split.
    + apply ACC; [apply elem_bytes|exact Hx'|exact Ht'|]. fold e r. rewrite le_value16 by (now apply gmul_lt). now rewrite Ed.
    + intros delta Hd Nd. apply REJ; [exact Hd|exact Hx'|exact Ht'|]. fold e r. intros E. apply Nd. apply INJ; [exact Hd|apply elem_bytes|].
      rewrite le_value16 by (now apply gmul_lt). rewrite E. assert (Hdv : el (le_value delta)) by now apply elem_lt.
      rewrite <- gmul_assoc, (gmul_comm (ginv e) e), ginv_ok by assumption. symmetry. rewrite gmul_comm by (auto; reflexivity). now apply gmul_1.
Qed.
End Sums.
