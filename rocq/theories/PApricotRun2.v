(** Apricot: complete honest runs, put together. *)
From Coq Require Import List NArith Bool Lia Arith.
From Verif Require Import Base MUtil MWires MBitMatrix MPoly MPar MBincode MProc MOt MApricot.
From Verif Require Import SpecUtil SpecBitMatrix SpecPoly SpecBincode SpecOt SpecApricot PBase PUtil PBitMatrix PPoly PPar PBincode PProc POt PHang PApricotA PApricot PApricotRun.
Import ListNotations.
Open Scope N_scope.

Lemma apricot_props n : usize_ok n -> props_ok (mkProps n apricot_name).
Proof. intros H. split; [exact H|]. repeat constructor. Qed.

Section Run.
Variable sha : bytes -> bytes.
Variable fill : bytes -> nat -> bytes.
Hypothesis sha_ok : hash32 sha.
Hypothesis fill_ok : generator fill.
(** Build and machine of the sender and of the receiver. *)
Variables (p p' : profile) (a a' : arch) (cores cores' : nat).
Hypothesis cores_ok : (1 <= cores)%nat.
Hypothesis cores_ok' : (1 <= cores')%nat.
Variables (cu cv delta : bytes) (bonus : list bool) (seed0 seed1 : list bytes).
Hypothesis cu_ok : array_ok 32 cu.
Hypothesis cv_ok : array_ok 32 cv.
Hypothesis delta_ok : array_ok 16 delta.
Hypothesis bonus_ok : length bonus = 256%nat.
Hypothesis seed0_ok : seeds_ok seed0.
Hypothesis seed1_ok : seeds_ok seed1.
Variables (bootS : list (bytes * bytes) -> proc unit) (bootR : list bool -> proc (list bytes)).
Hypothesis boot_ok : ot_correct seed_pairs bootS bootR.

Let chi (n : nat) : bytes := fill (xor_arrays cv cu) (16 * (n + 256)).

(** The weighted sum of the choices that packing drops. *)
Definition dropped (choices : list bool) : N :=
  xs (choices ++ bonus) (chi (length choices)) (fun i => Nat.leb (8 * ((length choices + 256) / 8)) i).

Lemma boot_runs : exists out, runs (bootR (u8_vec_to_bool_vec delta)) (bootS (combine seed0 seed1)) (Ok out) (Ok tt) /\
  length out = 128%nat /\ forall i, (i < 128)%nat -> nth i out [] = if bit_of delta i then nth i seed1 [] else nth i seed0 [].
Proof.
  destruct (boot_ok (combine seed0 seed1) (u8_vec_to_bool_vec delta)) as (out & R & Sel).
  { rewrite bits_length, (proj1 delta_ok), combine_length, (proj1 seed0_ok), (proj1 seed1_ok). reflexivity. }
  { now apply seed_pairs_combine. }
  exists out. split; [now apply runs_flip|]. now apply selection_payloads.
Qed.

(** Up to the check. *)
Lemma ap_leads msgs choices s : length choices = length msgs -> usize_ok (length msgs) -> (1 <= length msgs)%nat ->
  (p = Release /\ p' = Release \/ length msgs mod 8 = 0)%nat -> equal_sized s msgs ->
  let n := length msgs in let l := (n + 256)%nat in
  exists t qt q_sum x_sum t_sum, length t = (16 * l)%nat /\ length qt = (16 * l)%nat /\
  (forall r, (r < n)%nat -> frow 16 qt r =
    if nth r choices false then zipWith N.lxor (frow 16 t r) delta else frow 16 t r) /\
  sender_check p a q_sum delta x_sum t_sum 16 =
      (if gmul (dropped choices) (le_value delta) =? 0 then Ok tt else Err ECorrelation) /\
  leads (ap_sender sha fill p a cores cu delta bootR msgs)
    (ap_receiver sha fill p' a' cores' cv bonus seed0 seed1 bootS choices)
    (initial
    (let! _ := lift (sender_check p a q_sum delta x_sum t_sum 16) in
     let! d := lift (randomize sha fill p cores qt delta 16 s msgs) in send d)
    (let! v := lift (compute_v sha p' cores' t 16 l) in
     let! d := recv in lift (derandomize fill p' cores' v (pack_choices (choices ++ bonus)) d (short s) n))).
Proof.
  intros Lc Un Hn Hp Sz n l. set (x := choices ++ bonus).
  assert (Lx : length x = l) by (unfold x, l, n; rewrite app_length; lia).
  destruct boot_runs as (pay & Rb & Lp & Selp).
  destruct (honest_rows fill fill_ok seed0 delta delta_ok x) as (t & qt & Et & Lt & Bt & Eq & Lq & Bq & Rows).
  rewrite Lx in *.
  assert (Xok : forall i : nat, (i < 128)%nat -> array_ok (l / 8) ((fun _ : nat => pack_choices x) i)).
  { intros i _. split; [rewrite pack_choices_length, Lx; reflexivity|apply pack_choices_ok]. }
  pose proof (compute_q_ok fill fill_ok p seed0 seed1 delta delta_ok l (fun _ => pack_choices x) Xok pay Lp Selp) as Cq.
  pose proof (expand_payloads_ok fill fill_ok l pay (payloads_seeds seed0 seed1 delta seed0_ok seed1_ok l (fun _ => pack_choices x) Xok pay Lp Selp)) as Ep.
  pose proof (expand_seeds_ok fill fill_ok l seed0 (proj1 seed0_ok)) as E0s.
  pose proof (expand_seeds_ok fill fill_ok l seed1 (proj1 seed1_ok)) as E1s.
  pose proof (compute_u_ok fill fill_ok p' seed0 seed1 x) as Cu. rewrite Lx in Cu.
  assert (Hchi : array_ok (16 * length x) (chi n)) by (rewrite Lx; apply fill_ok).
  destruct (check_value p a delta delta_ok x (chi n) Hchi p' a' t qt) as (q_sum & x_sum & t_sum & Eqs & Exs & Ech); rewrite ?Lx; auto.
  rewrite Lx in Eqs, Exs, Ech.
  assert (Ed : dropped choices = xs x (chi n) (fun i => Nat.leb (8 * (l / 8)) i)) by (unfold dropped; rewrite Lc; reflexivity).
  rewrite Ed.
  assert (Hdb : debug_assert p (Nat.eqb (n mod 8) 0) = Ok tt).
  { destruct Hp as [[-> _]|E]; [reflexivity|]. apply debug_ok. now apply Nat.eqb_eq. }
  assert (Hdb' : debug_assert p' (Nat.eqb (n mod 8) 0) = Ok tt).
  { destruct Hp as [[_ ->]|E]; [reflexivity|]. apply debug_ok. now apply Nat.eqb_eq. }
  assert (H0 : exists m0, idx msgs 0 = Ok m0 /\ length (fst m0) = s).
  { exists (nth 0 msgs ([], [])). split; [apply idx_lt; exact Hn|]. apply (Forall_nth_in _ msgs 0 ([], []) Sz). exact Hn. }
  destruct H0 as (m0 & Em0 & Lm0).
  exists t, qt, q_sum, x_sum, t_sum. split; [exact Lt|]. split; [exact Lq|]. split.
  { intros r Hr. rewrite (Rows r) by (unfold l; lia). unfold x. rewrite app_nth1 by (fold n in Lc; lia).
    assert (r < 8 * (l / 8))%nat.
    { pose proof (Nat.div_mod l 8 ltac:(lia)). pose proof (Nat.mod_upper_bound l 8 ltac:(lia)). unfold l in *. lia. }
    rewrite (proj2 (Nat.ltb_lt _ _)) by auto. now rewrite andb_true_r. }
  split; [exact Ech|].
  unfold ap_sender, ap_receiver. rewrite Lc. fold n. unfold K, S_, K_BYTES.
  replace (n + 128 + 128)%nat with l by (unfold l; lia). change (16 * 8)%nat with 128%nat.
  apply leads_lift_l with (a := tt); [exact Hdb|]. apply leads_lift_r with (a := tt); [exact Hdb'|].
  apply leads_bind with (a := tt) (b := tt); [now apply validate_same, apricot_props|].
  apply leads_bind with (a := xor_arrays cv cu) (b := xor_arrays cv cu).
  { apply runs_flip. apply coinflip_runs; [apply cv_ok|apply cu_ok]. }
  apply leads_lift_l with (a := m0); [exact Em0|]. rewrite Lm0.
  apply leads_send_recv. apply leads_lift_r with (a := short s); [now apply be2_value|].
  apply leads_bind with (a := pay) (b := tt); [exact Rb|].
  apply leads_lift_l with (a := TM fill l pay); [exact Ep|].
  apply leads_lift_r with (a := TM fill l seed0); [exact E0s|].
  apply leads_lift_r with (a := TM fill l seed1); [exact E1s|].
  apply leads_lift_r with (a := UM fill seed0 seed1 l (fun _ => pack_choices x)); [exact Cu|].
  apply leads_recv_send.
  apply leads_lift_l with (a := QM fill seed0 delta l (fun _ => pack_choices x)); [exact Cq|].
  apply leads_lift_l with (a := qt); [exact Eq|].
  apply leads_lift_l with (a := tt); [apply debug_ok, Nat.eqb_eq; symmetry; apply fill_ok|].
  apply leads_lift_l with (a := q_sum); [exact Eqs|].
  apply leads_lift_r with (a := t); [exact Et|].
  apply leads_lift_r with (a := (x_sum, t_sum)); [exact Exs|].
  apply leads_recv_send. apply leads_recv_send. apply reach_refl.
Qed.

Lemma ap_run msgs choices s : length choices = length msgs -> usize_ok (length msgs) -> (1 <= length msgs)%nat ->
  (p = Release /\ p' = Release \/ length msgs mod 8 = 0)%nat -> (1 <= s)%nat -> N.of_nat s < 2 ^ 16 -> equal_sized s msgs ->
  let S := ap_sender sha fill p a cores cu delta bootR msgs in
  let R := ap_receiver sha fill p' a' cores' cv bonus seed0 seed1 bootS choices in
  (gmul (dropped choices) (le_value delta) = 0 ->
     exists out, runs S R (Ok tt) (Ok out) /\ is_selection msgs choices out) /\
  (gmul (dropped choices) (le_value delta) <> 0 ->
     exists q, leads S R (Cfg (Done (Err ECorrelation)) q [] []) /\ feed q [] = (Err EClosed, [])).
Proof.
  intros Lc Un Hn Hp Hs Hs16 Sz S R.
  destruct (ap_leads msgs choices s Lc Un Hn Hp Sz) as (t & qt & q_sum & x_sum & t_sum & Lt & Lq & Rows & Ech & Lead).
  set (n := length msgs) in *. set (l := (n + 256)%nat) in *. rewrite short_small in Lead by exact Hs16.
  split.
  - intros Z. rewrite Z in Ech. cbn [N.eqb] in Ech.
    exists (map (fun r => zipWith N.lxor (fill (V sha t r) s) (if nth r choices false then E1 sha fill s msgs qt delta r else E0 sha fill s msgs qt r)) (seq 0 n)).
    split.
    + eapply leads_runs; [exact Lead|].
      apply runs_lift_l with (a := tt); [exact Ech|].
      eapply runs_lift_l; [apply (randomize_ok sha fill fill_ok p cores cores_ok n l s msgs choices bonus t qt delta); auto|].
      eapply runs_lift_r; [apply (compute_v_ok sha sha_ok p' cores' cores_ok' n l s msgs choices bonus t qt); auto|].
      apply runs_snd_rcv. cbn [pbind recv ret lift].
      rewrite (derandomize_ok sha fill sha_ok fill_ok p' cores' cores_ok' n l s msgs choices bonus t qt delta); auto.
      apply runs_done.
    + apply (final_selection sha fill fill_ok cores cores_ok n l s msgs choices bonus t qt delta); auto.
  - intros Z. rewrite (proj2 (N.eqb_neq _ _) Z) in Ech. eexists. split.
    { eapply reach_trans; [exact Lead|]. rewrite Ech. apply reach_refl. }
    rewrite (compute_v_ok sha sha_ok p' cores' cores_ok' n l s msgs choices bonus t qt); auto.
Qed.

(** Messages of 65536 bytes and more: the receiver panics. *)
Lemma ap_large msgs choices s : length choices = length msgs -> usize_ok (length msgs) -> (1 <= length msgs)%nat ->
  (length msgs mod 8 = 0)%nat -> 2 ^ 16 <= N.of_nat s -> equal_sized s msgs ->
  exists r, runs (ap_sender sha fill p a cores cu delta bootR msgs)
    (ap_receiver sha fill p' a' cores' cv bonus seed0 seed1 bootS choices) (Ok tt) (Panic r).
Proof.
  intros Lc Un Hn H8 Hs Sz.
  destruct (ap_leads msgs choices s Lc Un Hn (or_intror H8) Sz) as (t & qt & q_sum & x_sum & t_sum & Lt & Lq & Rows & Ech & Lead).
  set (n := length msgs) in *. set (l := (n + 256)%nat) in *.
  assert (Hs1 : (1 <= s)%nat) by (change (2 ^ 16) with 65536 in Hs; lia).
  assert (Z : dropped choices = 0).
  { unfold dropped, xs. transitivity (xsum (fun _ => 0) (length (choices ++ bonus))); [|apply xsum_0]. apply xsum_ext. intros i Hi.
    rewrite app_length, bonus_ok in Hi.
    assert (E : (8 * ((length choices + 256) / 8) = length choices + 256)%nat).
    { symmetry. apply Nat.div_exact; [lia|]. rewrite Lc. replace 256%nat with (32 * 8)%nat by lia. rewrite Nat.mod_add; [exact H8|lia]. }
    rewrite E. rewrite (proj2 (Nat.leb_gt _ _)) by lia. now rewrite andb_false_r. }
  rewrite Z, gmul_0_l in Ech by (destruct delta_ok; now apply le_value16_lt). cbn [N.eqb] in Ech.
  set (d := concat (map (fun r => E0 sha fill s msgs qt r ++ E1 sha fill s msgs qt delta r) (seq 0 n))).
  assert (Pd : exists r, derandomize fill p' cores' (concat (map (V sha t) (seq 0 l))) (pack_choices (choices ++ bonus)) d (short s) n = Panic r).
  { exact (derandomize_short sha fill sha_ok fill_ok p' cores' cores_ok' n l s msgs choices bonus t qt delta eq_refl Lc Hn eq_refl bonus_ok Hs1 Sz Lt Lq (short s) (short_large s Hs)). }
  destruct Pd as [r Pd]. exists r.
  eapply leads_runs; [exact Lead|].
  apply runs_lift_l with (a := tt); [exact Ech|].
  eapply runs_lift_l; [apply (randomize_ok sha fill fill_ok p cores cores_ok n l s msgs choices bonus t qt delta); auto|].
  eapply runs_lift_r; [apply (compute_v_ok sha sha_ok p' cores' cores_ok' n l s msgs choices bonus t qt); auto|].
  apply runs_snd_rcv. cbn [pbind recv ret lift]. fold d. rewrite Pd. apply runs_done.
Qed.

(** Where an honest run of any size ends: both sides with an outcome other than undefined behaviour. *)
Lemma safe_end msgs choices s : length choices = length msgs -> usize_ok (length msgs) -> (1 <= length msgs)%nat ->
  (p = Release /\ p' = Release \/ length msgs mod 8 = 0)%nat -> (1 <= s)%nat -> equal_sized s msgs ->
  exists c oa ob, reach (initial (ap_sender sha fill p a cores cu delta bootR msgs) (ap_receiver sha fill p' a' cores' cv bonus seed0 seed1 bootS choices)) c /\
    linked c oa ob /\ oa <> UB /\ ob <> UB.
Proof.
  intros Lc Un Hn Hp Hs Sz.
  destruct (ap_leads msgs choices s Lc Un Hn Hp Sz) as (t & qt & q_sum & x_sum & t_sum & Lt & Lq & Rows & Ech & Lead).
  set (n := length msgs) in *. set (l := (n + 256)%nat) in *.
  destruct (gmul (dropped choices) (le_value delta) =? 0); eexists _, _, _; (split; [exact Lead|]);
    (rewrite (compute_v_ok sha sha_ok p' cores' cores_ok' n l s msgs choices bonus t qt) by auto); rewrite Ech.
  - rewrite (randomize_ok sha fill fill_ok p cores cores_ok n l s msgs choices bonus t qt delta); auto.
    set (d := concat (map (fun r => E0 sha fill s msgs qt r ++ E1 sha fill s msgs qt delta r) (seq 0 n))).
    assert (Pd : derandomize fill p' cores' (concat (map (V sha t) (seq 0 l))) (pack_choices (choices ++ bonus)) d (short s) n <> UB).
    { destruct (N.lt_ge_cases (N.of_nat s) (2 ^ 16)) as [Hl|Hl].
      - rewrite short_small by exact Hl. unfold d.
        rewrite (derandomize_ok sha fill sha_ok fill_ok p' cores' cores_ok' n l s msgs choices bonus t qt delta); auto. discriminate.
      - destruct (derandomize_short sha fill sha_ok fill_ok p' cores' cores_ok' n l s msgs choices bonus t qt delta eq_refl Lc Hn eq_refl bonus_ok Hs Sz Lt Lq (short s) (short_large s Hl)) as [r E].
        unfold d. rewrite E. discriminate. }
    split; [exists [d], []; split; reflexivity|]. split; [discriminate|exact Pd].
  - split; [exists [], []; split; reflexivity|]. split; discriminate.
Qed.

Lemma dropped_none choices : (length choices mod 8 = 0)%nat -> dropped choices = 0.
Proof.
  intros H. unfold dropped, xs. transitivity (xsum (fun _ => 0) (length (choices ++ bonus))); [|apply xsum_0]. apply xsum_ext. intros i Hi.
  rewrite app_length, bonus_ok in Hi.
  assert (E : (8 * ((length choices + 256) / 8) = length choices + 256)%nat).
  { symmetry. apply Nat.div_exact; [lia|]. replace 256%nat with (32 * 8)%nat by lia. rewrite Nat.mod_add; lia. }
  rewrite E. rewrite (proj2 (Nat.leb_gt _ _)) by lia. now rewrite andb_false_r.
Qed.

Lemma last_dropped choices : (length choices mod 8 <> 0)%nat -> bonus = repeat false 255 ++ [true] ->
  dropped choices = rowv (chi (length choices)) (length choices + 255).
Proof.
  intros H E. unfold dropped, xs.
  set (n := length choices) in *.
  assert (L : length (choices ++ bonus) = S (n + 255)) by (rewrite app_length, bonus_ok; unfold n; lia).
  rewrite L. cbn [xsum].
  pose proof (Nat.div_mod (n + 256) 8 ltac:(lia)) as D. pose proof (Nat.mod_upper_bound (n + 256) 8 ltac:(lia)) as M.
  assert (Z : ((n + 256) mod 8 <> 0)%nat) by (replace 256%nat with (32 * 8)%nat by lia; rewrite Nat.mod_add; lia).
  rewrite app_nth2 by (unfold n; lia). replace (n + 255 - length choices)%nat with 255%nat by (unfold n; lia).
  rewrite (proj2 (Nat.leb_le _ _)) by lia. assert (B : nth 255 bonus false = true) by (rewrite E; reflexivity). rewrite B. cbn [andb].
  assert (F : xsum (fun i : nat => if nth i (choices ++ bonus) false && (8 * ((n + 256) / 8) <=? i)%nat then rowv (chi n) i else 0) (n + 255) = 0).
  { transitivity (xsum (fun _ => 0) (n + 255)); [|apply xsum_0]. apply xsum_ext. intros i Hi.
    destruct (Nat.leb_spec (8 * ((n + 256) / 8)) i) as [K|K]; [|now rewrite andb_false_r].
    rewrite app_nth2 by (fold n; lia). rewrite E. rewrite app_nth1 by (rewrite repeat_length; fold n; lia).
    now rewrite nth_repeat. }
  rewrite F. apply N.lxor_0_l.
Qed.

Lemma ap_correct : ot_correct extension_ok (ap_sender sha fill p a cores cu delta bootR)
  (ap_receiver sha fill p' a' cores' cv bonus seed0 seed1 bootS).
Proof.
  intros msgs cs L (Un & Hn & H8 & s & Hs & Hs16 & Sz).
  destruct (ap_run msgs cs s) as [H _]; auto. apply H.
  rewrite dropped_none by congruence. apply gmul_0_l. destruct delta_ok. now apply le_value16_lt.
Qed.
End Run.
