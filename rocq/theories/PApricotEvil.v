(** Apricot against dishonest receivers. *)
From Coq Require Import List NArith Bool Lia Arith.
From Verif Require Import Base MUtil MWires MBitMatrix MPoly MPar MBincode MProc MOt MApricot.
From Verif Require Import SpecUtil SpecBitMatrix SpecPoly SpecBincode SpecOt SpecApricot SpecEvil PBase PUtil PBitMatrix PPoly PPar PBincode PProc POt PApricotA PApricot PApricotRun PApricotRun2 PLinDep.
Import ListNotations.
Open Scope N_scope.

Lemma xsum_selxor f n : forall es, length es = n ->
  xsum (fun i => if nth i es false then f i else 0) n = selxor es (map f (seq 0 n)).
Proof.
  induction n as [|n IH]; intros es L.
  - destruct es; [reflexivity|discriminate].
  - destruct (@exists_last _ es) as (es' & e & ->). { intros ->. discriminate. }
    rewrite app_length in L. cbn in L. assert (L' : length es' = n) by lia.
    rewrite seq_S, map_app, selxor_app by (rewrite map_length, seq_length; auto).
    cbn [xsum selxor map Nat.add]. rewrite N.lxor_0_r. rewrite app_nth2, L', Nat.sub_diag by lia. cbn [nth].
    f_equal. rewrite <- IH by auto. apply xsum_ext. intros i Hi. now rewrite app_nth1 by lia.
Qed.

Section Evil.
Variable sha : bytes -> bytes.
Variable fill : bytes -> nat -> bytes.
Hypothesis sha_ok : hash32 sha.
Hypothesis fill_ok : generator fill.
Variables (p : profile) (a : arch) (cores : nat).
Hypothesis cores_ok : (1 <= cores)%nat.
Variables (cu cv : bytes) (seed0 seed1 : list bytes).
Hypothesis cu_ok : array_ok 32 cu.
Hypothesis cv_ok : array_ok 32 cv.
Hypothesis seed0_ok : seeds_ok seed0.
Hypothesis seed1_ok : seeds_ok seed1.
Variables (bootS : list (bytes * bytes) -> proc unit) (bootR : list bool -> proc (list bytes)).
Hypothesis boot_ok : ot_correct seed_pairs bootS bootR.
Variables (msgs : list (bytes * bytes)) (s : nat).
Hypothesis n_usize : usize_ok (length msgs).
Hypothesis n_pos : (1 <= length msgs)%nat.
Hypothesis n_8 : (length msgs mod 8 = 0)%nat.
Hypothesis s_pos : (1 <= s)%nat.
Hypothesis sized : equal_sized s msgs.
Let n := length msgs.
Let l := (n + 256)%nat.
Let tw := (l / 8)%nat.
Let chi := fill (xor_arrays cv cu) (16 * l).
Lemma l_tw : l = (8 * tw)%nat.
Proof.
  unfold tw. apply Nat.div_exact; [lia|]. unfold l, n. replace 256%nat with (32 * 8)%nat by lia. rewrite Nat.mod_add; [exact n_8|lia].
Qed.
Lemma chi_ok : length chi = (16 * l)%nat /\ bytes_ok chi.
Proof. apply fill_ok. Qed.
Let sender (delta : bytes) := ap_sender sha fill p a cores cu delta bootR msgs.
Let evil (reply : bytes -> bytes * bytes * bytes) := evil_receiver sha cv seed0 seed1 bootS n reply.

(** The part before u is received. *)
Lemma evil_start delta reply u x_sum t_sum : array_ok 16 delta -> reply (xor_arrays cv cu) = (u, x_sum, t_sum) ->
  exists pay, length pay = 128%nat /\
  (forall i, (i < 128)%nat -> nth i pay [] = if bit_of delta i then nth i seed1 [] else nth i seed0 []) /\
  leads (sender delta) (evil reply) (initial
    (let! q := lift (compute_q p delta (TM fill l pay) u 128 tw) in
     let! qt := lift (transpose_matrix q (repeat 0 (16 * l)) 128 tw 16) in
     let! _ := lift (debug_assert p (Nat.eqb (16 * l) (length chi))) in
     let! q_sum := lift (row_sum a qt chi 16 l) in
     let! x_sum := recv in
     let! t_sum := recv in
     let! _ := lift (sender_check p a q_sum delta x_sum t_sum 16) in
     let! d := lift (randomize sha fill p cores qt delta 16 s msgs) in
     send d)
    (let! _ := send x_sum in let! _ := send t_sum in recv)).
Proof.
  intros Hd Er.
  destruct (boot_runs delta seed0 seed1 Hd seed0_ok seed1_ok bootS bootR boot_ok) as (pay & Rb & Lp & Selp).
  exists pay. split; [exact Lp|]. split; [exact Selp|].
  assert (Ep : expand_payloads fill pay 128 tw = Ok (TM fill l pay)).
  { apply expand_payloads_ok; auto. apply (payloads_seeds seed0 seed1 delta seed0_ok seed1_ok l (fun _ => repeat 0 tw)); auto.
    intros i _. split; [apply repeat_length|apply zeros_ok]. }
  assert (H0 : exists m0, idx msgs 0 = Ok m0 /\ length (fst m0) = s).
  { exists (nth 0 msgs ([], [])). split; [apply idx_lt; exact n_pos|]. apply (Forall_nth_in _ msgs 0 ([], []) sized). exact n_pos. }
  destruct H0 as (m0 & Em0 & Lm0).
  unfold sender, evil, ap_sender, evil_receiver. fold n. unfold K, S_, K_BYTES.
  replace (n + 128 + 128)%nat with l by (unfold l; lia). change (16 * 8)%nat with 128%nat.
  apply leads_lift_l with (a := tt); [apply debug_ok, Nat.eqb_eq; exact n_8|].
  apply leads_bind with (a := tt) (b := tt); [now apply validate_same, apricot_props|].
  apply leads_bind with (a := xor_arrays cv cu) (b := xor_arrays cv cu).
  { apply runs_flip. apply coinflip_runs; [apply cv_ok|apply cu_ok]. }
  apply leads_lift_l with (a := m0); [exact Em0|]. rewrite Lm0.
  apply leads_send_recv.
  apply leads_bind with (a := pay) (b := tt); [exact Rb|].
  rewrite Er.
  apply leads_lift_l with (a := TM fill l pay); [exact Ep|].
  apply leads_recv_send. apply reach_refl.
Qed.

(** With a matrix u of the right size that encodes the columns X. *)
Lemma evil_run delta reply X x_sum t_sum : array_ok 16 delta -> (forall i, (i < 128)%nat -> array_ok tw (X i)) ->
  reply (xor_arrays cv cu) = (UM fill seed0 seed1 l X, x_sum, t_sum) ->
  exists t qt, transpose_matrix (TM fill l seed0) (repeat 0 (16 * l)) 128 tw 16 = Ok t /\
  length t = (16 * l)%nat /\ bytes_ok t /\ length qt = (16 * l)%nat /\ bytes_ok qt /\
  (forall r j, (r < l)%nat -> (j < 128)%nat -> N.testbit (rowv qt r) (N.of_nat j) =
     xorb (N.testbit (rowv t r) (N.of_nat j)) (bit_of delta j && bit_of (X j) r)) /\
  leads (sender delta) (evil reply) (initial
    (let! _ := lift (sender_check p a (le_bytes 16 (xsum (fun i => gmul (rowv qt i) (rowv chi i)) l)) delta x_sum t_sum 16) in
     let! d := lift (randomize sha fill p cores qt delta 16 s msgs) in
     send d)
    recv).
Proof.
  intros Hd HX Er.
  destruct (evil_start delta reply _ _ _ Hd Er) as (pay & Lp & Selp & Lead).
  destruct (q_rows fill fill_ok seed0 delta l X HX) as (t & qt & Et & Lt & Bt & Eq & Lq & Bq & G & _).
  destruct chi_ok as [Lc Bc].
  exists t, qt. split; [exact Et|]. split; [exact Lt|]. split; [exact Bt|]. split; [exact Lq|]. split; [exact Bq|]. split.
  { intros r j Hr Hj. apply G; auto. pose proof l_tw. fold tw. lia. }
  eapply reach_trans; [exact Lead|]. fold (leads (A := unit) (B := bytes)).
  eapply leads_lift_l; [exact (compute_q_ok fill fill_ok p seed0 seed1 delta Hd l X HX pay Lp Selp)|].
  eapply leads_lift_l; [exact Eq|].
  apply leads_lift_l with (a := tt); [apply debug_ok, Nat.eqb_eq; now symmetry|].
  eapply leads_lift_l; [now apply row_sum_ok|].
  apply leads_recv_send. apply leads_recv_send. apply reach_refl.
Qed.

Lemma randomize_total qt delta : length qt = (16 * l)%nat -> array_ok 16 delta ->
  exists d, randomize sha fill p cores qt delta 16 s msgs = Ok d.
Proof.
  intros Lq Hd. eexists.
  apply (randomize_ok sha fill fill_ok p cores cores_ok n l s msgs (repeat false n) (repeat false 256) qt qt delta); auto; apply repeat_length.
Qed.

(** *** An inconsistent matrix that passes the check for every delta *)
Lemma undetected : exists u x_sum t_sum, length u = (tw * 128)%nat /\ length x_sum = 16%nat /\ length t_sum = 16%nat /\
  ~ consistent_u fill seed0 seed1 tw u /\
  forall delta, array_ok 16 delta ->
    exists d, runs (sender delta) (evil (fun _ => (u, x_sum, t_sum))) (Ok tt) (Ok d).
Proof.
  destruct chi_ok as [Lc Bc].
  destruct (dependent 128 (map (rowv chi) (seq 0 l))) as (es & Les & Tr & Z).
  { apply Forall_forall. intros v Hv. apply in_map_iff in Hv. destruct Hv as (i & <- & Hi). apply in_seq in Hi.
    apply (rowv_lt chi i l); auto. lia. }
  { rewrite map_length, seq_length. unfold l. lia. }
  rewrite map_length, seq_length in Les.
  set (X := fun j : nat => if Nat.eqb j 0 then pack_choices es else repeat 0 tw).
  assert (HX : forall i, (i < 128)%nat -> array_ok tw (X i)).
  { intros i Hi. unfold X. destruct (Nat.eqb i 0).
    - split; [rewrite pack_choices_length, Les; reflexivity|apply pack_choices_ok].
    - split; [apply repeat_length|apply zeros_ok]. }
  destruct (transposed l X HX (T fill l seed0) (TM fill l seed0)) as (t & Et & Lt & Bt & _ & _).
  { now apply TM_len. } { intros; now apply TM_row. }
  exists (UM fill seed0 seed1 l X), (repeat 0 16), (le_bytes 16 (xsum (fun i => gmul (rowv t i) (rowv chi i)) l)).
  split; [now apply UM_len|]. split; [apply repeat_length|]. split; [apply le_bytes_length|]. split.
  - intros (x & Lx & Hx).
    assert (Hcancel : forall y z b : list N, length y = length b -> length z = length b -> zipWith N.lxor b y = zipWith N.lxor b z -> y = z).
    { clear. intros y z b Ly Lz E. rewrite <- (zipWith_xor_twice y b Ly), <- (zipWith_xor_twice z b Lz).
      rewrite (zipWith_comm _ y b), (zipWith_comm _ z b) by apply N.lxor_comm. now rewrite E. }
    assert (Xx : forall j, (j < 128)%nat -> X j = x).
    { intros j Hj. pose proof (Hx j Hj) as E. change (firstn tw (skipn (tw * j) (UM fill seed0 seed1 l X))) with (frow tw (UM fill seed0 seed1 l X) j) in E.
      rewrite (UM_row fill fill_ok seed0 seed1 l X HX) in E by auto. unfold U, u_row_of in E.
      apply Hcancel in E; auto.
      - rewrite zipWith_length. unfold T. rewrite !(fun s => proj1 (fill_ok s _)), Nat.min_id. now destruct (HX j Hj).
      - rewrite zipWith_length. unfold T. rewrite !(fun s => proj1 (fill_ok s _)), Nat.min_id. exact Lx. }
    assert (E : X 0%nat = X 1%nat) by (rewrite !Xx by lia; reflexivity).
    unfold X in E. cbn [Nat.eqb] in E.
    destruct (In_nth _ _ false Tr) as (r & Hr & Er).
    assert (B : bit_of (pack_choices es) r = true).
    { rewrite pack_choices_bit; [exact Er|]. rewrite Les in *. fold tw. pose proof l_tw. lia. }
    rewrite E in B. unfold bit_of in B. rewrite nth_repeat, N.bits_0 in B. discriminate.
  - intros delta Hd.
    destruct (evil_run delta (fun _ => (UM fill seed0 seed1 l X, repeat 0 16, le_bytes 16 (xsum (fun i => gmul (rowv t i) (rowv chi i)) l))) X
      (repeat 0 16) (le_bytes 16 (xsum (fun i => gmul (rowv t i) (rowv chi i)) l)) Hd HX eq_refl)
      as (t' & qt & Et' & _ & _ & Lq & Bq & G & Lead).
    pose proof (eq_trans (eq_sym Et) Et') as Ett. injection Ett as <-.
    assert (R : forall r, (r < l)%nat -> rowv qt r = N.lxor (rowv t r) (if nth r es false && bit_of delta 0 then 1 else 0)).
    { intros r Hr. apply bits128_ext.
      - now apply (rowv_lt qt r l).
      - apply lxor_lt2; [now apply (rowv_lt t r l)|]. destruct (nth r es false && bit_of delta 0); reflexivity.
      - intros j Hj. rewrite N.lxor_spec, (G r j Hr Hj). f_equal. unfold X. destruct (Nat.eqb_spec j 0) as [->|Nj].
        + rewrite pack_choices_bit by (rewrite Les; pose proof l_tw; fold tw; lia).
          rewrite andb_comm. destruct (nth r es false && bit_of delta 0); reflexivity.
        + unfold bit_of at 2. rewrite nth_repeat, N.bits_0, andb_false_r.
          destruct (nth r es false && bit_of delta 0); [|now rewrite N.bits_0].
          destruct j as [|j]; [congruence|]. reflexivity. }
    assert (Q : xsum (fun i => gmul (rowv qt i) (rowv chi i)) l = xsum (fun i => gmul (rowv t i) (rowv chi i)) l).
    { transitivity (xsum (fun i => N.lxor (gmul (rowv t i) (rowv chi i)) (if bit_of delta 0 then if nth i es false then rowv chi i else 0 else 0)) l).
      - apply xsum_ext. intros i Hi. rewrite (R i Hi).
        pose proof (rowv_lt t i l Lt Bt Hi) as H1. pose proof (rowv_lt chi i l Lc Bc Hi) as H2.
        rewrite gmul_lxor_l; auto. 2: { destruct (nth i es false && bit_of delta 0); reflexivity. }
        f_equal. destruct (nth i es false), (bit_of delta 0); cbn [andb]; try (now rewrite gmul_0_l).
        rewrite gmul_comm by (auto; reflexivity). apply gmul_1. exact H2.
      - rewrite xsum_lxor. destruct (bit_of delta 0).
        + rewrite xsum_selxor by auto. rewrite Z. now rewrite N.lxor_0_r.
        + rewrite xsum_0. now rewrite N.lxor_0_r. }
    rewrite Q in Lead. destruct (randomize_total qt delta Lq Hd) as [d Ed]. exists d.
    eapply leads_runs; [exact Lead|].
    assert (Ht : xsum (fun i => gmul (rowv t i) (rowv chi i)) l < 2 ^ 128).
    { apply xsum_lt. intros i Hi. apply gmul_lt; eapply rowv_lt; eauto. }
    eapply runs_lift_l.
    { change (repeat 0 16) with (le_bytes 16 0). rewrite sender_check_ok by (auto; lia).
      rewrite gmul_0_l by (destruct Hd; now apply le_value16_lt). rewrite N.lxor_0_r, N.eqb_refl. reflexivity. }
    eapply runs_lift_l; [exact Ed|]. apply runs_snd_rcv. apply runs_done.
Qed.

(** *** An empty t_sum is accepted in release builds *)
Lemma empty_t_sum u x_sum : p = Release -> length u = (tw * 128)%nat -> bytes_ok u -> array_ok 16 x_sum ->
  forall delta, array_ok 16 delta -> exists d, runs (sender delta) (evil (fun _ => (u, x_sum, []))) (Ok tt) (Ok d).
Proof.
  intros Ep Lu Bu [Lx Bx] delta Hd.
  set (X := fun j : nat => zipWith N.lxor (frow tw u j) (zipWith N.lxor (T fill l seed0 j) (T fill l seed1 j))).
  assert (LT : forall s j, length (T fill l s j) = tw) by (intros; now apply T_len).
  assert (Lr : forall j, (j < 128)%nat -> length (frow tw u j) = tw) by (intros; apply frow_length; nia).
  assert (HX : forall i, (i < 128)%nat -> array_ok tw (X i)).
  { intros i Hi. unfold X. split.
    - rewrite !zipWith_length, !LT, Lr; auto. lia.
    - apply xor_bytes_okay; [now apply frow_ok|]. apply xor_bytes_okay; now apply T_ok. }
  assert (Eu : UM fill seed0 seed1 l X = u).
  { rewrite <- (rows_eta tw 128 u Lu). unfold UM. f_equal. apply map_ext_in. intros j Hj. apply in_seq in Hj.
    unfold U, X. rewrite zipWith_comm by apply N.lxor_comm. apply zipWith_xor_twice.
    rewrite !zipWith_length, !LT, Lr; lia. }
  destruct (evil_run delta (fun _ => (u, x_sum, [])) X x_sum [] Hd HX) as (t & qt & Et & Lt & Bt & Lq & Bq & _ & Lead).
  { now rewrite Eu. }
  destruct (randomize_total qt delta Lq Hd) as [d Ed]. exists d.
  eapply leads_runs; [exact Lead|].
  eapply runs_lift_l.
  { unfold sender_check. rewrite Ep. cbn [debug_assert obind].
    rewrite ap_mul_acc_ok; [|apply le_bytes_length|split; auto|exact Hd]. reflexivity. }
  eapply runs_lift_l; [exact Ed|]. apply runs_snd_rcv. apply runs_done.
Qed.

(** *** Reads outside the received buffers *)
Lemma short_u x_sum t_sum delta u : array_ok 16 delta -> bit_of delta 0 = true -> (length u < tw)%nat ->
  exists q, leads (sender delta) (evil (fun _ => (u, x_sum, t_sum))) (Cfg (Done UB) q [] []).
Proof.
  intros Hd B Lu. destruct (evil_start delta (fun _ => (u, x_sum, t_sum)) u x_sum t_sum Hd eq_refl) as (pay & Lp & Selp & Lead).
  eexists. eapply reach_trans; [exact Lead|].
  assert (E : compute_q p delta (TM fill l pay) u 128 tw = UB).
  { unfold compute_q, update_rows. cbn [seq foldM]. unfold row_step at 1.
    rewrite vector_row_ok by (rewrite repeat_length; lia). cbn [obind].
    destruct Hd as [Ld _]. rewrite (idx_lt delta _ 0) by (rewrite Ld; cbn; lia). cbn [obind].
    rewrite land1_testbit. change (N.testbit (nth (0 / 8) delta 0) (N.of_nat (0 mod 8))) with (bit_of delta 0). rewrite B.
    unfold vector_row. rewrite (proj2 (Nat.leb_gt _ _)) by lia. reflexivity. }
  rewrite E. apply reach_refl.
Qed.
Lemma short_x_sum x_sum t_sum delta u : p = Release -> array_ok 16 delta -> length u = (tw * 128)%nat -> bytes_ok u ->
  (length x_sum < 16)%nat ->
  exists q, leads (sender delta) (evil (fun _ => (u, x_sum, t_sum))) (Cfg (Done UB) q [] []).
Proof.
  intros Ep Hd Lu Bu Lx.
  set (X := fun j : nat => zipWith N.lxor (frow tw u j) (zipWith N.lxor (T fill l seed0 j) (T fill l seed1 j))).
  assert (LT : forall s j, length (T fill l s j) = tw) by (intros; now apply T_len).
  assert (Lr : forall j, (j < 128)%nat -> length (frow tw u j) = tw) by (intros; apply frow_length; nia).
  assert (HX : forall i, (i < 128)%nat -> array_ok tw (X i)).
  { intros i Hi. unfold X. split.
    - rewrite !zipWith_length, !LT, Lr; auto. lia.
    - apply xor_bytes_okay; [now apply frow_ok|]. apply xor_bytes_okay; now apply T_ok. }
  assert (Eu : UM fill seed0 seed1 l X = u).
  { rewrite <- (rows_eta tw 128 u Lu). unfold UM. f_equal. apply map_ext_in. intros j Hj. apply in_seq in Hj.
    unfold U, X. rewrite zipWith_comm by apply N.lxor_comm. apply zipWith_xor_twice.
    rewrite !zipWith_length, !LT, Lr; lia. }
  destruct (evil_run delta (fun _ => (u, x_sum, t_sum)) X x_sum t_sum Hd HX) as (t & qt & Et & Lt & Bt & Lq & Bq & _ & Lead).
  { now rewrite Eu. }
  eexists. eapply reach_trans; [exact Lead|].
  assert (E : forall q, length q = 16%nat -> sender_check p a q delta x_sum t_sum 16 = UB).
  { intros q Hq. unfold sender_check. rewrite Ep. cbn [debug_assert obind].
    assert (R : read128 x_sum = UB) by (unfold read128; now rewrite (proj2 (Nat.leb_gt _ _)) by lia).
    destruct a; cbn [ap_mul_acc]; unfold ap_mul_acc_x86, ap_mul_acc_arm64; rewrite R; reflexivity. }
  rewrite E by apply le_bytes_length. apply reach_refl.
Qed.
End Evil.

(** *** The check itself *)
Lemma check_debug a q delta x t : elem q -> elem delta -> bytes_ok x -> bytes_ok t ->
  sender_check Debug a q delta x t 16 = Ok tt ->
  length t = 16%nat /\ le_value t = N.lxor (le_value q) (gmul (le_value x) (le_value delta)).
Proof.
  intros Hq Hd Bx Bt. unfold sender_check. unfold debug_assert at 1 2.
  destruct (Nat.eqb_spec 16 (length x)) as [Lx|]; [|discriminate]. cbn [assert_ obind].
  destruct (Nat.eqb_spec 16 (length t)) as [Lt|]; [|discriminate]. cbn [assert_ obind].
  rewrite ap_mul_acc_ok; [|apply Hq|split; auto|exact Hd]. cbn [obind].
  unfold ap_eq. rewrite le_bytes_length, <- Lt. cbn [debug_assert assert_ Nat.eqb obind].
  rewrite eq_loop_eq by (now rewrite le_bytes_length). cbn [obind].
  assert (Hx : elem x) by (split; auto).
  destruct (bytes_eqb _ _) eqn:E; [|discriminate]. intros _. apply bytes_eqb_eq in E. split; [auto|]. rewrite E.
  apply le_value16. apply lxor_lt2; [now apply elem_lt|]. apply gmul_lt; now apply elem_lt.
Qed.

(** *** Seeds that are too short *)
Section Short.
Variable sha : bytes -> bytes.
Variable fill : bytes -> nat -> bytes.
Variables (p : profile) (a : arch) (cores : nat).
Variables (cu cv delta : bytes) (seed0 seed1 : list bytes).
Hypothesis cu_ok : array_ok 32 cu.
Hypothesis cv_ok : array_ok 32 cv.
Hypothesis delta_ok : array_ok 16 delta.
Variable ok : list (bytes * bytes) -> Prop.
Variables (bootS : list (bytes * bytes) -> proc unit) (bootR : list bool -> proc (list bytes)).
Hypothesis boot_ok : ot_correct ok bootS bootR.
Hypothesis seeds_sent : ok (combine seed0 seed1).
Hypothesis len0 : length seed0 = 128%nat.
Hypothesis len1 : length seed1 = 128%nat.
Variables (msgs : list (bytes * bytes)).
Hypothesis n_usize : usize_ok (length msgs).
Hypothesis n_pos : (1 <= length msgs)%nat.
Hypothesis n_8 : (length msgs mod 8 = 0)%nat.
Lemma short_seeds reply : (length (if bit_of delta 0 then nth 0 seed1 [] else nth 0 seed0 []) < 32)%nat ->
  exists q, leads (ap_sender sha fill p a cores cu delta bootR msgs) (evil_receiver sha cv seed0 seed1 bootS (length msgs) reply) (Cfg (Done UB) q [] []).
Proof.
  intros Hshort.
  destruct (boot_ok (combine seed0 seed1) (u8_vec_to_bool_vec delta)) as (pay & Rb & Lp & Selp); auto.
  { rewrite bits_length, combine_length, len0, len1. now destruct delta_ok as [-> _]. }
  assert (L128 : length (u8_vec_to_bool_vec delta) = 128%nat) by (rewrite bits_length; now destruct delta_ok as [-> _]).
  assert (E0 : nth_error pay 0 = Some (if bit_of delta 0 then nth 0 seed1 [] else nth 0 seed0 [])).
  { rewrite (Selp 0%nat (nth 0 seed0 [], nth 0 seed1 []) (bit_of delta 0)).
    - reflexivity.
    - destruct seed0 as [|x0 l0]; [discriminate|]. destruct seed1 as [|x1 l1]; [discriminate|]. reflexivity.
    - rewrite (nth_error_nth' _ false) by (rewrite L128; lia). f_equal. apply bits_nth. destruct delta_ok as [-> _]; lia. }
  assert (Ep : expand_payloads fill pay 128 ((length msgs + 256) / 8) = UB).
  { unfold expand_payloads, update_rows. cbn [seq foldM]. unfold row_step at 1.
    rewrite vector_row_ok by (rewrite repeat_length; lia). cbn [obind].
    unfold idx. rewrite E0. cbn [unwrap obind]. unfold array_from_slice. rewrite (proj2 (Nat.leb_gt _ _)) by exact Hshort. reflexivity. }
  eexists. unfold ap_sender, evil_receiver. unfold K, S_, K_BYTES.
  replace (length msgs + 128 + 128)%nat with (length msgs + 256)%nat by lia. change (16 * 8)%nat with 128%nat.
  apply leads_lift_l with (a := tt); [apply debug_ok, Nat.eqb_eq; exact n_8|].
  apply leads_bind with (a := tt) (b := tt); [now apply validate_same, apricot_props|].
  apply leads_bind with (a := xor_arrays cv cu) (b := xor_arrays cv cu).
  { apply runs_flip. apply coinflip_runs; [apply cv_ok|apply cu_ok]. }
  destruct msgs as [|m0 ms]; [cbn in n_pos; lia|].
  apply leads_lift_l with (a := m0); [reflexivity|]. apply leads_send_recv.
  apply leads_bind with (a := pay) (b := tt); [apply runs_flip; exact Rb|].
  rewrite Ep. apply reach_refl.
Qed.
End Short.
