(** Transfers of no messages and of empty messages (C98). *)
From Coq Require Import List NArith Bool Lia Arith.
From Verif Require Import Base MUtil MWires MBitMatrix MPoly MPar MBincode MProc MOt MApricot MClassic.
From Verif Require Import SpecUtil SpecBitMatrix SpecPoly SpecBincode SpecOt SpecApricot SpecClassic SpecNothing.
From Verif Require Import PBase PUtil PBitMatrix PPoly PPar PBincode PProc POt PHang PApricotA PApricot PApricotRun PApricotRun2 PReturns.
Import ListNotations.
Open Scope N_scope.

Lemma empty_sized n : equal_sized 0 (empty_pairs n).
Proof. apply Forall_forall. intros m H. apply repeat_spec in H. now subst. Qed.

Lemma randomize_empty sha fill p cores qt delta msgs : (1 <= cores)%nat -> (1 <= length msgs)%nat ->
  randomize sha fill p cores qt delta 16 0 msgs = Panic PSlice.
Proof.
  intros Hc Hn. unfold randomize. destruct (rows_in_chunk_ok cores (length msgs) Hc Hn) as (tc & k & E & Ek & Hk).
  rewrite E. cbn [obind]. rewrite Ek. cbn [obind]. unfold par_rows, chunks_mut. rewrite Nat.mul_0_l, Nat.mul_0_r. reflexivity.
Qed.

Section Run.
Variable sha : bytes -> bytes.
Variable fill : bytes -> nat -> bytes.
Hypothesis sha_ok : hash32 sha.
Hypothesis fill_ok : generator fill.
Variables (p p' : profile) (a a' : arch) (cores cores' : nat).
Hypothesis cores_ok : (1 <= cores)%nat.
Hypothesis cores_ok' : (1 <= cores')%nat.
Variables (cu cv delta : bytes) (bonus : list bool) (seed0 seed1 : list bytes).
Hypothesis cu_ok : array_ok 32 cu.
Hypothesis cv_ok : array_ok 32 cv.
Hypothesis delta_ok : array_ok 16 delta.
Hypothesis bonus_ok : length bonus = 256%nat.
Hypothesis seed0_ok : seeds_ok seed0.
Hypothesis seed1_ok : seeds_ok seed1.
Variables (bootS : list (bytes * bytes) -> proc unit) (bootR : list bool -> proc (list bytes)).
Hypothesis boot_ok : ot_correct seed_pairs bootS bootR.

Lemma ap_empty n choices : length choices = n -> usize_ok n -> (1 <= n)%nat -> (n mod 8 = 0)%nat ->
  leaves (ap_sender sha fill p a cores cu delta bootR (empty_pairs n))
    (ap_receiver sha fill p' a' cores' cv bonus seed0 seed1 bootS choices) (Panic PSlice) (Err EClosed).
Proof.
  intros Lc Un Hn H8. set (msgs := empty_pairs n). assert (Lm : length msgs = n) by apply repeat_length.
  destruct (ap_leads sha fill fill_ok p p' a a' cores cores' cores_ok cores_ok' cu cv delta bonus seed0 seed1 cu_ok cv_ok delta_ok bonus_ok seed0_ok seed1_ok bootS bootR boot_ok
    msgs choices 0 ltac:(congruence) ltac:(now rewrite Lm) ltac:(now rewrite Lm) ltac:(right; now rewrite Lm) (empty_sized n)) as (t & qt & q_sum & x_sum & t_sum & Lt & Lq & Rows & Ech & Lead).
  rewrite (dropped_none fill cores cores') in Ech by (auto; now rewrite Lc).
  rewrite gmul_0_l in Ech by (destruct delta_ok; now apply le_value16_lt). cbn [N.eqb] in Ech.
  rewrite Ech, randomize_empty in Lead by (rewrite ?Lm; auto).
  cbn [lift pbind] in Lead. eexists. split; [exact Lead|].
  rewrite (compute_v_ok sha sha_ok p' cores' cores_ok' n (length msgs + 256) 1 msgs choices bonus t qt) by (rewrite ?Lm; auto; lia).
  reflexivity.
Qed.

Lemma ap_none : leaves (ap_sender sha fill p a cores cu delta bootR [])
    (ap_receiver sha fill p' a' cores' cv bonus seed0 seed1 bootS []) (Panic PIndex) (Err EClosed).
Proof.
  eexists. split.
  { unfold ap_sender, ap_receiver. cbn [length].
    change (leads ?x ?y ?c) with (leads x y c).
    apply leads_lift_l with (a := tt); [destruct p; reflexivity|]. apply leads_lift_r with (a := tt); [destruct p'; reflexivity|].
    apply leads_bind with (a := tt) (b := tt); [now apply validate_same, apricot_props|].
    apply leads_bind with (a := xor_arrays cv cu) (b := xor_arrays cv cu).
    { apply runs_flip. apply coinflip_runs; [apply cv_ok|apply cu_ok]. }
    apply reach_refl. }
  reflexivity.
Qed.

Lemma compute_v_256 t : length t = (16 * 256)%nat -> exists v, compute_v sha p' cores' t 16 256 = Ok v.
Proof.
  intros Lt. exists (concat (map (V sha t) (seq 0 256))). unfold compute_v.
  destruct (rows_in_chunk_ok cores' 256 cores_ok' ltac:(lia)) as (tc & k & E & Ek & Hk).
  rewrite E. cbn [obind]. rewrite Ek. cbn [obind].
  apply par_rows_ok; auto; try lia.
  intros r Hr. rewrite vector_row_ok by lia. cbn [obind]. fold (V sha t r).
  assert (L : length (V sha t r) = 32%nat) by apply sha_ok.
  rewrite frow_zeros by lia. rewrite xor_inplace_ok by (rewrite repeat_length; lia).
  split; [|exact L]. f_equal. rewrite <- L at 1. apply zip_zeros_l.
Qed.

Lemma ap_quiet d : runs (quiet_sender sha cu delta bootR d) (ap_receiver sha fill p' a' cores' cv bonus seed0 seed1 bootS []) (Ok tt) (Panic PDivZero).
Proof.
  destruct (boot_runs delta seed0 seed1 delta_ok seed0_ok seed1_ok bootS bootR boot_ok) as (pay & Rb & Lp & Selp).
  destruct (honest_rows fill fill_ok seed0 delta delta_ok bonus) as (t & qt & Et & Lt & Bt & Eq & Lq & Bq & Rows).
  assert (Hchi : array_ok (16 * length bonus) (fill (xor_arrays cv cu) (16 * 256))) by (rewrite bonus_ok; apply fill_ok).
  destruct (check_value p' a' delta delta_ok bonus _ Hchi p' a' t qt) as (q_sum & x_sum & t_sum & _ & Exs & _); auto.
  pose proof (expand_seeds_ok fill fill_ok 256 seed0 (proj1 seed0_ok)) as E0s.
  pose proof (expand_seeds_ok fill fill_ok 256 seed1 (proj1 seed1_ok)) as E1s.
  pose proof (compute_u_ok fill fill_ok p' seed0 seed1 bonus) as Cu.
  rewrite bonus_ok in *.
  destruct (compute_v_256 t Lt) as [v Ev].
  unfold quiet_sender, ap_receiver. cbn [length app Nat.add]. unfold K, S_, K_BYTES.
  change (0 + 128 + 128)%nat with 256%nat. change (16 * 8)%nat with 128%nat.
  apply runs_lift_r with (a := tt); [destruct p'; reflexivity|].
  apply runs_bind with (a := tt) (b := tt); [now apply validate_same, apricot_props|].
  apply runs_bind with (a := xor_arrays cv cu) (b := xor_arrays cv cu).
  { apply runs_flip. apply coinflip_runs; [apply cv_ok|apply cu_ok]. }
  apply runs_send_recv. apply runs_lift_r with (a := 0%nat); [reflexivity|].
  apply runs_bind with (a := pay) (b := tt); [exact Rb|].
  apply runs_lift_r with (a := TM fill 256 seed0); [exact E0s|].
  apply runs_lift_r with (a := TM fill 256 seed1); [exact E1s|].
  apply runs_lift_r with (a := UM fill seed0 seed1 256 (fun _ => pack_choices bonus)); [exact Cu|].
  apply runs_recv_send.
  apply runs_lift_r with (a := t); [exact Et|].
  apply runs_lift_r with (a := (x_sum, t_sum)); [exact Exs|].
  apply runs_recv_send. apply runs_recv_send.
  apply runs_lift_r with (a := v); [exact Ev|].
  apply runs_snd_rcv. cbn [pbind recv ret lift]. apply runs_done.
Qed.
End Run.

Lemma ap_no_choices sha fill p a cores cv bonus seed0 seed1 bootS ins out :
  fst (feed (ap_receiver sha fill p a cores cv bonus seed0 seed1 bootS []) ins) <> Ok out.
Proof.
  intros H. unfold ap_receiver in H. cbv zeta in H.
  do 16 (apply feed_bind_ok in H; destruct H as (? & ? & H & _); repeat match type of H with context [let (_, _) := ?x in _] => destruct x end).
  cbn [lift feed fst] in H. unfold derandomize in H. cbn [length] in H. discriminate.
Qed.

Lemma empty_payload n : usize_ok n -> payload_ok (empty_pairs n).
Proof.
  intros Un. split; [unfold empty_pairs; now rewrite repeat_length|]. apply Forall_forall. intros m H. apply repeat_spec in H. subst m.
  repeat split; constructor.
Qed.
Lemma empty_selection n cs out : length cs = n -> is_selection (empty_pairs n) cs out -> out = repeat [] n.
Proof.
  intros Lc [Ls Sel]. apply nth_ext with (d := []) (d' := []); [rewrite repeat_length; congruence|].
  intros i Hi. rewrite nth_repeat. rewrite Ls, Lc in Hi.
  assert (Em : nth_error (empty_pairs n) i = Some ([], [])).
  { unfold empty_pairs. etransitivity; [apply (nth_error_nth' _ ([], [])); now rewrite repeat_length|]. now rewrite nth_repeat. }
  destruct (nth_error cs i) as [c|] eqn:Ec; [|apply nth_error_None in Ec; lia].
  specialize (Sel i _ c Em Ec). apply nth_error_nth with (d := []) in Sel. rewrite Sel. now destruct c.
Qed.
Lemma co_nothing sha gen G p p' ra rb n cs : generator gen -> curve_ok G -> usize_ok n -> length cs = n ->
  runs (co_sender sha gen G p ra (empty_pairs n)) (co_receiver sha gen G p' rb cs) (Ok tt) (Ok (repeat [] n)).
Proof.
  intros Hg HG Un Lc.
  destruct (co_runs sha gen G Hg HG p p' ra rb (empty_pairs n) cs) as (out & R & Sel).
  { rewrite Lc. symmetry. apply repeat_length. }
  { now apply empty_payload. }
  rewrite <- (empty_selection n cs out Lc Sel). exact R.
Qed.

