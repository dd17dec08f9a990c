(** Catching receivers that do not use the same choices in all columns (C99). *)
From Coq Require Import List NArith Bool Lia Arith.
From Verif Require Import Base MUtil MWires MBitMatrix MPoly MPar MBincode MProc MOt MApricot MClassic.
From Verif Require Import SpecUtil SpecBitMatrix SpecPoly SpecBincode SpecOt SpecApricot SpecClassic SpecHide SpecNothing SpecCatch.
From Verif Require Import PBase PUtil PBitMatrix PPoly PPar PBincode PProc POt PApricotA PApricot PApricotRun PApricotRun2 PClassic PHide PGreedy PField.
Import ListNotations.
Open Scope N_scope.

Lemma leads_bind_err {A B C D} (p : proc A) (q : proc B) (f : A -> proc C) (g : B -> proc D) e b :
  runs p q (Err e) (Ok b) -> leads (pbind p f) (pbind q g) (Cfg (Done (Err e)) (g b) [] []).
Proof. intros H. exact (reach_map f g _ _ H). Qed.

Section Sly.
Variable sha : bytes -> bytes.
Variables gen20 gen8 : bytes -> nat -> bytes.
Hypothesis gen20_ok : generator gen20.
Hypothesis gen8_ok : generator gen8.
Variables (p : profile) (a : option arch).
Variables (cu cv : bytes) (seed0 seed1 : list bytes).
Hypothesis cu_ok : array_ok 32 cu.
Hypothesis cv_ok : array_ok 32 cv.
Hypothesis seed0_ok : seeds_ok seed0.
Hypothesis seed1_ok : seeds_ok seed1.
Variables (bootS : list (bytes * bytes) -> proc unit) (bootR : list bool -> proc (list bytes)).
Hypothesis boot_ok : ot_correct seed_pairs bootS bootR.
Variable msgs : list (bytes * bytes).
Hypothesis msgs_ok : classic_ok msgs.
Let n := length msgs.
Let l := (n + 192)%nat.
Let tw := (l / 8)%nat.
Variable u : list bytes.
Hypothesis u_ok : shaped 128 tw u.
Let seed := xor_arrays cv cu.
Let chi := gen20 seed (16 * l).
Let R0 (i : nat) : bytes := gen20 (nth i seed0 []) tw.
Let R1 (i : nat) : bytes := gen20 (nth i seed1 []) tw.
Let D (i : nat) : bytes := zipWith N.lxor (nth i u []) (zipWith N.lxor (R0 i) (R1 i)).
Let W (i : nat) : N := weighted (choices_in gen20 seed0 seed1 l u i) chi.
Let R (reply : bytes -> bytes * bytes) := sly_receiver sha cv seed0 seed1 bootS n u reply.
Let S_ (delta : bytes) := classic_sender sha gen20 gen8 p a cu delta bootR msgs.

Lemma sly_sizes : (8 <= n)%nat /\ l = (8 * tw)%nat /\ usize_ok tw /\ usize_ok n.
Proof using msgs_ok.
  clear - msgs_ok. destruct msgs_ok as ((Un & _) & Hp & H8). destruct (classic_sizes (fun _ => []) [] (repeat false 192) eq_refl n Un Hp H8) as (A & B & C). unfold tw, l. auto.
Qed.
Lemma D_len i : (i < 128)%nat -> length (D i) = tw.
Proof using u_ok gen20_ok.
  clear - u_ok gen20_ok. intros Hi. destruct (shaped_nth _ _ _ i u_ok Hi) as [L _]. unfold D. rewrite !zipWith_length, L.
  unfold R0, R1. rewrite !(fun s => proj1 (gen20_ok s tw)). lia.
Qed.
Lemma D_sends i : (i < 128)%nat -> zipWith N.lxor (nth i u []) (R1 i) = zipWith N.lxor (D i) (R0 i).
Proof using u_ok gen20_ok.
  clear - u_ok gen20_ok. intros Hi. destruct (shaped_nth _ _ _ i u_ok Hi) as [L _].
  assert (L0 : length (R0 i) = tw) by apply gen20_ok. assert (L1 : length (R1 i) = tw) by apply gen20_ok. unfold D.
  revert L L0 L1. generalize (nth i u []), (R0 i), (R1 i), tw. clear.
  induction b as [|v b IH]; intros [|y b0] [|z b1] [|k] L L0 L1; try discriminate; auto. cbn [zipWith]. f_equal.
  - rewrite (N.lxor_comm y z), <- !N.lxor_assoc. now rewrite (N.lxor_assoc _ y y), N.lxor_nilpotent, N.lxor_0_r.
  - apply (IH _ _ k); cbn in *; lia.
Qed.

(** The transposed matrix of the sender. *)
Lemma sly_rows : exists T, forall delta, array_ok 16 delta -> exists q,
  runs (sender_cote gen20 delta bootR l) (let! _ := bootS (combine seed0 seed1) in send (enc_rows u)) (Ok q) (Ok tt) /\
  length q = l /\ (forall i, (i < l)%nat -> elem (nth i q [])) /\
  forall r, (r < l)%nat -> el (T r) /\
    le_value (nth r q []) = N.lxor (T r) (xsum (fun j => if bit_of delta j && bit_of (D j) r then 2 ^ N.of_nat j else 0) 128).
Proof using All.
  destruct sly_sizes as (Hn8 & Hl8 & Htw & Un).
  assert (St : shaped (8 * 16) tw (map R0 (seq 0 128))).
  { split; [reflexivity|]. apply forall_map_seq. intros i Hi. apply gen20_ok. }
  destruct (transpose_ok _ 16 tw St ltac:(lia)) as (tt' & Ett & Stt & Gt). rewrite <- Hl8 in Stt, Gt.
  assert (Ht : forall i, (i < l)%nat -> elem (nth i tt' [])) by (intros i Hi; exact (shaped_nth _ _ _ i Stt Hi)).
  exists (fun r => le_value (nth r tt' [])). intros delta delta_ok.
  destruct (boot_runs delta seed0 seed1 delta_ok seed0_ok seed1_ok bootS bootR boot_ok) as (pay & Rb & Lp & Selp).
  assert (Hps : seeds_ok pay).
  { split; auto. apply Forall_forall. intros y Hy. destruct (In_nth _ _ [] Hy) as (i & Hi & <-).
    assert (Hi' : (i < 128)%nat) by (rewrite <- Lp; exact Hi). rewrite Selp by auto. destruct seed0_ok as [L0 H0], seed1_ok as [L1 H1].
    destruct (bit_of delta i); apply Forall_nth_in; auto; lia. }
  set (Q := fun i : nat => if bit_of delta i then zipWith N.lxor (D i) (R0 i) else R0 i).
  assert (Eq : classic_q delta u (expand_rows gen20 l pay) = Ok (map Q (seq 0 128))).
  { unfold classic_q. cbv zeta.
    assert (Lb : length (u8_vec_to_bool_vec delta) = 128%nat) by (rewrite bits_length, (proj1 delta_ok); reflexivity).
    rewrite (tabulate (u8_vec_to_bool_vec delta) false 128 Lb) at 2. rewrite Lb.
    rewrite <- (map_id (seq 0 128)) at 1. rewrite combine_maps, mapM_map. apply mapM_Ok. intros i Hi. apply in_seq in Hi.
    assert (Ee : expand_rows gen20 l pay = map (fun i => gen20 (nth i pay []) tw) (seq 0 128)).
    { unfold expand_rows. rewrite (tabulate pay [] 128 Lp) at 1. rewrite map_map. reflexivity. }
    rewrite Ee. rewrite bits_nth by (rewrite (proj1 delta_ok); lia).
    rewrite (idx_lt u i []) by (rewrite (proj1 u_ok); lia).
    rewrite (idx_lt _ i ([] : bytes)) by (rewrite map_length, seq_length; lia). rewrite nth_map_seq by lia.
    rewrite Selp by lia. unfold Q. destruct (bit_of delta i); cbn [obind]; [|reflexivity].
    f_equal. unfold bv_xor. apply D_sends. lia. }
  assert (Sq : shaped (8 * 16) tw (map Q (seq 0 128))).
  { split; [reflexivity|]. apply forall_map_seq. intros i Hi. destruct (shaped_nth _ _ _ i u_ok Hi) as [Lu Bu].
    destruct (gen20_ok (nth i seed0 []) tw) as [LT BT]. fold (R0 i) in LT, BT. unfold Q. destruct (bit_of delta i).
    - rewrite <- D_sends by exact Hi. split; [rewrite zip_length; [exact Lu|]; rewrite Lu; symmetry; apply gen20_ok|apply xor_bytes_okay; [exact Bu|apply gen20_ok]].
    - auto. }
  destruct (transpose_ok _ 16 tw Sq ltac:(lia)) as (q & Etq & Sq' & Gq). rewrite <- Hl8 in Sq', Gq. change (8 * 16)%nat with 128%nat in *.
  assert (Hq : forall i, (i < l)%nat -> elem (nth i q [])) by (intros i Hi; exact (shaped_nth _ _ _ i Sq' Hi)).
  assert (Ur : rows_ok u).
  { destruct u_ok as [Lu Fu]. split; [unfold usize_ok; rewrite Lu; reflexivity|]. eapply Forall_impl; [|exact Fu].
    intros row [Lr Br]. split; [unfold usize_ok; rewrite Lr; exact Htw|exact Br]. }
  exists q. split.
  { unfold sender_cote. eapply runs_bind; [exact Rb|]. apply runs_lift_l with (a := pay); [now apply copy_seeds_ok|]. cbv zeta.
    apply runs_flip, runs_snd_rcv, runs_flip. cbn [pbind recv ret].
    apply runs_lift_l with (a := u); [apply (deserialize_reads _ _ _ _ rt_rows Ur)|].
    eapply runs_lift_l; [exact Eq|]. rewrite Etq. apply runs_done. }
  split; [apply Sq'|]. split; [exact Hq|]. intros r Hr. split; [apply elem_lt; auto|].
  destruct (Hq r Hr) as [Lq Bq]. destruct (Ht r Hr) as [Lt Bt].
  apply bits128_ext.
  - now apply elem_lt, Hq.
  - apply lxor_lt2; [now apply elem_lt, Ht|]. apply xsum_lt. intros i Hi. destruct (_ && _); [now apply pow_lt128|reflexivity].
  - intros j Hj. rewrite N.lxor_spec, !le_value_bit by auto. rewrite xsum_bits. rewrite (proj2 (Nat.ltb_lt _ _)), andb_true_r by exact Hj.
    specialize (Gt r j Hr Hj). specialize (Gq r j Hr Hj). unfold mbit in Gt, Gq. rewrite Gq, Gt.
    rewrite !nth_map_seq by exact Hj. unfold Q. destruct (bit_of delta j); [|now rewrite xorb_false_r].
    cbn [andb]. rewrite bit_of_zip; [apply xorb_comm|]. rewrite D_len by exact Hj. symmetry. apply gen20_ok.
Qed.

(** The sum that the check compares with t_sum. *)
Lemma sly_sum (T : nat -> N) (q : nat -> N) delta : (forall r, (r < l)%nat -> el (T r) /\
    q r = N.lxor (T r) (xsum (fun j => if bit_of delta j && bit_of (D j) r then 2 ^ N.of_nat j else 0) 128)) ->
  xsum (fun r => gmul (q r) (rowv chi r)) l =
  N.lxor (xsum (fun r => gmul (T r) (rowv chi r)) l) (xsum (fun j => if bit_of delta j then gmul (2 ^ N.of_nat j) (W j) else 0) 128).
Proof using gen20_ok.
  clear - gen20_ok. intros H.
  assert (Hc : forall r, (r < l)%nat -> el (rowv chi r)). { intros r Hr. destruct (gen20_ok seed (16 * l)%nat) as [L B]. exact (rowv_lt chi r l L B Hr). }
  transitivity (xsum (fun r => N.lxor (gmul (T r) (rowv chi r)) (xsum (fun j => if bit_of delta j && bit_of (D j) r then gmul (2 ^ N.of_nat j) (rowv chi r) else 0) 128)) l).
  - apply xsum_ext. intros r Hr. destruct (H r Hr) as [E ->]. specialize (Hc r Hr).
    assert (Hb : forall j, (j < 128)%nat -> (if bit_of delta j && bit_of (D j) r then 2 ^ N.of_nat j else 0) < 2 ^ 128).
    { intros j Hj. destruct (_ && _); [now apply pow_lt128|reflexivity]. }
    rewrite gmul_lxor_l; auto; [|now apply xsum_lt]. f_equal. rewrite <- xsum_gmul by auto. apply xsum_ext. intros j Hj.
    destruct (_ && _); [reflexivity|]. now apply gmul_0_l.
  - rewrite xsum_lxor. f_equal. rewrite xsum_swap. apply xsum_ext. intros j Hj.
    destruct (bit_of delta j); cbn [andb]; [|apply xsum_0].
    unfold W, choices_in. cbv zeta. fold tw (R0 j) (R1 j) (D j). rewrite weighted_xsum, map_length, seq_length.
    assert (Hp : el (2 ^ N.of_nat j)) by now apply pow_lt128.
    rewrite (gmul_comm _ _ Hp) by (apply xsum_lt; intros r Hr; destruct (nth r _ false); [now apply Hc|reflexivity]).
    rewrite <- xsum_gmul; auto.
    2: { intros r Hr. destruct (nth r _ false); [now apply Hc|reflexivity]. }
    apply xsum_ext. intros r Hr. rewrite nth_map_seq by exact Hr.
    destruct (bit_of (D j) r); [apply gmul_comm; auto|]. symmetry. now apply gmul_0_l.
Qed.

Lemma W_lt j : el (W j).
Proof using gen20_ok.
  clear - gen20_ok. unfold W. rewrite weighted_xsum. apply xsum_lt. intros i Hi. unfold choices_in in Hi. rewrite map_length, seq_length in Hi.
  destruct (nth i _ false); [|reflexivity]. destruct (gen20_ok seed (16 * l)%nat) as [L B]. exact (rowv_lt chi i l L B Hi).
Qed.

Lemma delta_bits delta : array_ok 16 delta -> le_value delta = xsum (fun j => if bit_of delta j then 2 ^ N.of_nat j else 0) 128.
Proof.
  clear. intros [L B]. apply bits128_ext.
  - now apply le_value16_lt.
  - apply xsum_lt. intros i Hi. destruct (bit_of delta i); [now apply pow_lt128|reflexivity].
  - intros j Hj. rewrite le_value_bit, xsum_bits, (proj2 (Nat.ltb_lt _ _)), andb_true_r; auto.
Qed.

Definition claim (x delta : bytes) : N := xsum (fun j => if bit_of delta j then gmul (2 ^ N.of_nat j) (N.lxor (W j) (le_value x)) else 0) 128.
Lemma claim_lt x delta : array_ok 16 x -> el (claim x delta).
Proof using gen20_ok.
  intros x_ok. apply xsum_lt. intros j Hj. destruct (bit_of delta j); [|reflexivity]. apply gmul_lt; [now apply pow_lt128|].
  apply lxor_lt2; [apply W_lt|]. destruct x_ok. now apply le_value16_lt.
Qed.

(** What the check amounts to. *)
Lemma sly_outcome : exists T, el T /\ forall reply x t, reply seed = (x, t) -> array_ok 16 x -> blob_ok t -> forall delta, array_ok 16 delta ->
  (t = le_bytes 16 (N.lxor T (claim x delta)) -> accepted (S_ delta) (R reply)) /\
  (t <> le_bytes 16 (N.lxor T (claim x delta)) -> caught (S_ delta) (R reply)).
Proof using All.
  destruct sly_rows as [T HT].
  exists (xsum (fun r => gmul (T r) (rowv chi r)) l).
  assert (Hc : forall r, (r < l)%nat -> el (rowv chi r)). { intros r Hr. destruct (gen20_ok seed (16 * l)%nat) as [L B]. exact (rowv_lt chi r l L B Hr). }
  assert (HTl : forall r, (r < l)%nat -> el (T r)).
  { intros r Hr. destruct (HT (repeat 0 16)) as (q & _ & _ & _ & G); [split; [apply repeat_length|apply zeros_ok]|]. now apply G. }
  assert (ET : el (xsum (fun r => gmul (T r) (rowv chi r)) l)) by (apply xsum_lt; intros r Hr; apply gmul_lt; auto).
  split; [exact ET|]. intros reply x t Er x_ok t_ok delta delta_ok.
  destruct (HT delta delta_ok) as (q & Rc & Lq & Hq & G). clear HT.
  destruct sly_sizes as (Hn8 & Hl8 & Htw & Un).
  destruct msgs_ok as ((_ & Hm) & Hpos & H8). destruct (block_asserts n Hn8 H8) as [A1 A2].
  set (C := fun i => firstn 16 (skipn (16 * i) (gen20 seed (16 * l))) : bytes).
  assert (HC : forall i, (i < l)%nat -> elem (C i)).
  { intros i Hi. destruct (gen20_ok seed (16 * l)%nat) as [L B]. apply (frow_elem _ i l); auto. }
  pose proof (classic_row_sum_ok a p (fun i => nth i q []) C l Hq HC) as Es. rewrite <- (tabulate q [] l Lq) in Es.
  change (fun i => gmul (le_value (nth i q [])) (le_value (C i))) with (fun i => gmul (le_value (nth i q [])) (rowv chi i)) in Es.
  rewrite (sly_sum T (fun r => le_value (nth r q [])) delta G) in Es.
  set (sT := xsum (fun r => gmul (T r) (rowv chi r)) l) in *.
  set (sW := xsum (fun j => if bit_of delta j then gmul (2 ^ N.of_nat j) (W j) else 0) 128) in *.
  assert (Hx : el (le_value x)) by (destruct x_ok; now apply le_value16_lt).
  assert (HsW : el sW). { apply xsum_lt. intros j Hj. destruct (bit_of delta j); [|reflexivity]. apply gmul_lt; [now apply pow_lt128|apply W_lt]. }
  assert (Hsum : N.lxor (N.lxor sT sW) (gmul (le_value x) (le_value delta)) = N.lxor sT (claim x delta)).
  { rewrite N.lxor_assoc. f_equal. rewrite (gmul_comm (le_value x)) by (auto; destruct delta_ok; now apply le_value16_lt).
    rewrite (delta_bits delta delta_ok) at 1. unfold sW, claim. rewrite <- xsum_gmul; auto.
    2: { intros j Hj. destruct (bit_of delta j); [now apply pow_lt128|reflexivity]. }
    rewrite <- xsum_lxor. apply xsum_ext. intros j Hj. pose proof (pow_lt128 j Hj) as Hp. destruct (bit_of delta j).
    - rewrite (gmul_comm _ (W j)), (gmul_comm _ (le_value x)), (gmul_comm _ (N.lxor _ _)) by (auto using W_lt; apply lxor_lt2; auto using W_lt).
      symmetry. apply gmul_lxor_l; auto using W_lt.
    - now rewrite gmul_0_l by auto. }
  assert (Ev : classic_verdict p a (le_bytes 16 (N.lxor sT sW)) delta x t =
    if bytes_eqb t (le_bytes 16 (N.lxor sT (claim x delta))) then Ok tt else Err ECorrelation).
  { unfold classic_verdict. rewrite poly_from_ok by exact delta_ok. cbn [obind].
    rewrite gf_mul_ok by (auto; apply le_bytes_length || exact delta_ok || exact x_ok). cbn [obind].
    rewrite le_value16 by (now apply lxor_lt2). rewrite Hsum. now destruct (bytes_eqb _ _). }
  assert (Rk : runs (sender_correlation sha gen20 p a cu l q delta)
     (let! seed := coinflip_sender sha 32 cv in let! _ := send (enc_bytes (fst (reply seed))) in send (enc_bytes (snd (reply seed))))
     (if bytes_eqb t (le_bytes 16 (N.lxor sT (claim x delta))) then Ok tt else Err ECorrelation) (Ok tt)).
  { unfold sender_correlation. eapply runs_bind; [apply runs_flip, coinflip_runs; [apply cv_ok|apply cu_ok]|].
    cbv zeta. fold seed. rewrite Er. cbn [fst snd]. eapply runs_lift_l; [exact Es|].
    apply runs_recv_send. apply runs_lift_l with (a := x).
    { apply (deserialize_reads _ _ _ _ rt_bytes). destruct x_ok as [Lx Bx]. split; [unfold usize_ok; rewrite Lx; reflexivity|exact Bx]. }
    apply runs_flip, runs_snd_rcv, runs_flip. cbn [pbind recv ret lift].
    rewrite (deserialize_reads _ _ _ _ rt_bytes) by exact t_ok. cbn [pbind lift]. rewrite Ev. apply runs_done. }
  assert (Start : forall c, leads (let! _ := sender_correlation sha gen20 p a cu l q delta in sender_de_rot sha gen8 p q delta msgs)
      (let! _ := (let! seed := coinflip_sender sha 32 cv in let! _ := send (enc_bytes (fst (reply seed))) in send (enc_bytes (snd (reply seed)))) in
       let! d0 := recv in let! d1 := recv in ret (d0, d1)) c -> leads (S_ delta) (R reply) c).
  { intros c Hlead. unfold S_, R, classic_sender, sly_receiver. fold n.
    apply leads_lift_l with (a := tt); [exact A1|]. apply leads_lift_l with (a := tt); [exact A2|].
    eapply leads_bind; [apply validate_same, apricot_props, Un|].
    cbv zeta. replace (n + COMP_SEC + STAT_SEC)%nat with l by (unfold l, COMP_SEC, STAT_SEC; lia).
    eapply leads_bind; [exact Rc|]. exact Hlead. }
  split; intros Et.
  - rewrite Et in Rk at 1. rewrite bytes_eqb_refl in Rk.
    assert (Fl : length (firstn (length msgs) q) = length msgs) by (rewrite firstn_length, Lq; unfold l, n; lia).
    assert (Ez : exists d, zipM (classic_encrypt gen8 p) msgs (map (fun jq : nat * bytes => classic_keys sha delta (fst jq) (snd jq)) (combine (seq 0 (length msgs)) (firstn (length msgs) q))) = Ok d).
    { eexists. apply zipM_Ok with (g := fun m v => (zipWith N.lxor (fst m) (gen8 (fst v) (length (fst m))), zipWith N.lxor (snd m) (gen8 (snd v) (length (snd m))))).
      intros m v _ _. unfold classic_encrypt. rewrite !xor_bytes_gen by exact gen8_ok. reflexivity. }
    destruct Ez as [d Ed].
    exists tt. eexists. unfold runs. apply Start. eapply leads_bind; [exact Rk|]. unfold sender_de_rot.
    rewrite (proj2 (Nat.ltb_ge (length q) (length msgs))) by (rewrite Lq; unfold l, n; lia). cbn [lift pbind].
    rewrite Fl. rewrite Ed. cbn [lift pbind].
    apply runs_snd_rcv. apply runs_snd_rcv. apply runs_done.
  - destruct (bytes_eqb t (le_bytes 16 (N.lxor sT (claim x delta)))) eqn:E; [now apply bytes_eqb_eq in E|].
    eexists. split; [apply Start, leads_bind_err; exact Rk|]. reflexivity.
Qed.

Lemma claim_flip x k delta delta' : array_ok 16 x -> (k < 128)%nat -> differ_at k delta delta' ->
  claim x delta' = N.lxor (claim x delta) (gmul (2 ^ N.of_nat k) (N.lxor (W k) (le_value x))).
Proof using gen20_ok.
  intros x_ok Hk (_ & _ & Hd). apply N.lxor_eq_0_iff.
  assert (E : N.lxor (claim x delta') (claim x delta) = gmul (2 ^ N.of_nat k) (N.lxor (W k) (le_value x))).
  { unfold claim. rewrite <- xsum_lxor. rewrite (xsum_one _ 128 k Hk).
    - rewrite Hd, Nat.eqb_refl by exact Hk. destruct (bit_of delta k); cbn [xorb]; [apply N.lxor_0_l|apply N.lxor_0_r].
    - intros j Hj Ne. rewrite Hd by exact Hj. rewrite (proj2 (Nat.eqb_neq _ _) Ne), xorb_false_r. apply N.lxor_nilpotent. }
  now rewrite <- N.lxor_assoc, E, N.lxor_nilpotent.
Qed.

Lemma sly_half i j reply x t : (i < 128)%nat -> (j < 128)%nat -> reply seed = (x, t) -> array_ok 16 x -> blob_ok t -> W i <> W j ->
  exists k, (k = i \/ k = j) /\ forall delta delta', differ_at k delta delta' -> caught (S_ delta) (R reply) \/ caught (S_ delta') (R reply).
Proof using All.
  intros Hi Hj Er x_ok t_ok Hw. destruct sly_outcome as (T & HT & Out).
  assert (Hk : exists k, (k = i \/ k = j) /\ W k <> le_value x).
  { destruct (N.eq_dec (W i) (le_value x)) as [E|E]; [exists j; split; [auto|congruence]|exists i; auto]. }
  destruct Hk as (k & Kij & Kx). exists k. split; [exact Kij|].
  assert (Hk : (k < 128)%nat) by (destruct Kij; subst; auto).
  intros delta delta' Hd. pose proof Hd as (Hd1 & Hd2 & _).
  destruct (Out reply x t Er x_ok t_ok delta Hd1) as [_ C1]. destruct (Out reply x t Er x_ok t_ok delta' Hd2) as [_ C2].
  destruct (list_eq_dec N.eq_dec t (le_bytes 16 (N.lxor T (claim x delta)))) as [E1|]; [|now left; apply C1].
  destruct (list_eq_dec N.eq_dec t (le_bytes 16 (N.lxor T (claim x delta')))) as [E2|]; [|now right; apply C2].
  exfalso. rewrite E1 in E2. apply (f_equal le_value) in E2. pose proof (claim_lt x delta x_ok). pose proof (claim_lt x delta' x_ok).
  rewrite !le_value16 in E2 by (now apply lxor_lt2). rewrite (claim_flip x k delta delta' x_ok Hk Hd) in E2.
  apply (f_equal (N.lxor (N.lxor T (claim x delta)))) in E2. rewrite N.lxor_nilpotent, <- (N.lxor_assoc T), <- N.lxor_assoc, N.lxor_nilpotent, N.lxor_0_l in E2.
  assert (Hx : el (le_value x)) by (destruct x_ok; now apply le_value16_lt).
  symmetry in E2. apply gmul_integral in E2; [|now apply pow_lt128|apply lxor_lt2; auto using W_lt].
  destruct E2 as [E2|E2]; [exact (N.pow_nonzero 2 (N.of_nat k) ltac:(discriminate) E2)|]. now apply N.lxor_eq in E2.
Qed.

Lemma sly_single k xs ys : (k < 128)%nat -> (forall j, (j < 128)%nat -> choices_in gen20 seed0 seed1 l u j = if Nat.eqb j k then ys else xs) ->
  exists x t, forall reply, reply seed = (x, t) -> forall delta, array_ok 16 delta ->
    (bit_of delta k = false -> accepted (S_ delta) (R reply)) /\
    (bit_of delta k = true -> weighted xs chi <> weighted ys chi -> caught (S_ delta) (R reply)).
Proof using All.
  intros Hk Hc. destruct sly_outcome as (T & HT & Out).
  assert (Ex : forall j, (j < 128)%nat -> W j = if Nat.eqb j k then weighted ys chi else weighted xs chi).
  { intros j Hj. unfold W. rewrite Hc by exact Hj. now destruct (Nat.eqb j k). }
  assert (Hxs : exists j, (j < 128)%nat /\ j <> k). { destruct k; [exists 1%nat|exists 0%nat]; split; lia. }
  assert (Lx : el (weighted xs chi)).
  { destruct Hxs as (j & Hj & Nj). pose proof (W_lt j) as L. rewrite Ex, (proj2 (Nat.eqb_neq _ _) Nj) in L by exact Hj. exact L. }
  assert (Ly : el (weighted ys chi)).
  { pose proof (W_lt k) as L. rewrite Ex, Nat.eqb_refl in L by exact Hk. exact L. }
  assert (Ax : array_ok 16 (le_bytes 16 (weighted xs chi))) by (split; [apply le_bytes_length|apply le_bytes_ok]).
  exists (le_bytes 16 (weighted xs chi)), (le_bytes 16 T). intros reply Er delta Hd.
  assert (Ab : blob_ok (le_bytes 16 T)) by (split; [unfold usize_ok; rewrite le_bytes_length; reflexivity|apply le_bytes_ok]).
  destruct (Out reply _ _ Er Ax Ab delta Hd) as [Acc Rej].
  assert (Ec : claim (le_bytes 16 (weighted xs chi)) delta = if bit_of delta k then gmul (2 ^ N.of_nat k) (N.lxor (weighted ys chi) (weighted xs chi)) else 0).
  { unfold claim. rewrite le_value16 by exact Lx. rewrite (xsum_one _ 128 k Hk).
    - now rewrite Ex, Nat.eqb_refl by exact Hk.
    - intros j Hj Nj. rewrite Ex, (proj2 (Nat.eqb_neq _ _) Nj), N.lxor_nilpotent by exact Hj.
      destruct (bit_of delta j); [|reflexivity]. rewrite gmul_comm by (auto; now apply pow_lt128 || reflexivity). now apply gmul_0_l, pow_lt128. }
  rewrite Ec in Acc, Rej. split.
  - intros E. rewrite E, N.lxor_0_r in Acc. now apply Acc.
  - intros E Ne. rewrite E in Rej. apply Rej. intros C. apply (f_equal le_value) in C.
    assert (G : el (gmul (2 ^ N.of_nat k) (N.lxor (weighted ys chi) (weighted xs chi)))) by (apply gmul_lt; [now apply pow_lt128|now apply lxor_lt2]).
    rewrite !le_value16 in C by (auto; now apply lxor_lt2).
    apply (f_equal (N.lxor T)) in C. rewrite N.lxor_nilpotent, <- N.lxor_assoc, N.lxor_nilpotent, N.lxor_0_l in C.
    symmetry in C. apply gmul_integral in C; [|now apply pow_lt128|now apply lxor_lt2].
    destruct C as [C|C]; [exact (N.pow_nonzero 2 (N.of_nat k) ltac:(discriminate) C)|]. apply N.lxor_eq in C. congruence.
Qed.
End Sly.

(** Weights that do not tell two lists of choices apart are rare. *)
Lemma weighted_row xs : forall chi chi' r, nth r xs false = true -> length chi = (16 * length xs)%nat -> length chi' = (16 * length xs)%nat ->
  (forall i, (i < length xs)%nat -> i <> r -> frow 16 chi i = frow 16 chi' i) -> weighted xs chi = weighted xs chi' ->
  rowv chi r = rowv chi' r.
Proof.
  intros chi chi' r Hr Lc Lc' Same E. rewrite !weighted_xsum in E.
  assert (Lr : (r < length xs)%nat). { destruct (Nat.lt_ge_cases r (length xs)); auto. rewrite nth_overflow in Hr by auto. discriminate. }
  apply N.lxor_eq. apply (f_equal (N.lxor (xsum (fun i => if nth i xs false then rowv chi i else 0) (length xs)))) in E.
  rewrite N.lxor_nilpotent, <- xsum_lxor in E. rewrite (xsum_one _ _ r Lr) in E.
  - rewrite Hr in E. now symmetry.
  - intros i Hi Ni. unfold rowv. rewrite (Same i Hi Ni). apply N.lxor_nilpotent.
Qed.

Lemma rows_equal h : forall v v', length v = (16 * h)%nat -> length v' = (16 * h)%nat -> (forall i, (i < h)%nat -> frow 16 v i = frow 16 v' i) -> v = v'.
Proof.
  induction h as [|h IH]; intros v v' L L' H.
  - rewrite Nat.mul_0_r in *. destruct v, v'; try discriminate. reflexivity.
  - rewrite <- (firstn_skipn 16 v), <- (firstn_skipn 16 v'). f_equal; [exact (H 0%nat ltac:(lia))|].
    apply IH; try (rewrite skipn_length; lia). intros i Hi. specialize (H (S i) ltac:(lia)). unfold frow in *.
    rewrite !skipn_skipn'. replace (16 + 16 * i)%nat with (16 * S i)%nat by lia. exact H.
Qed.

Lemma rare xs ys : length xs = length ys -> xs <> ys ->
  exists r, (r < length xs)%nat /\ forall chi chi', length chi = (16 * length xs)%nat -> length chi' = (16 * length xs)%nat -> bytes_ok chi -> bytes_ok chi' ->
    (forall i, (i < length xs)%nat -> i <> r -> frow 16 chi i = frow 16 chi' i) ->
    weighted xs chi = weighted ys chi -> weighted xs chi' = weighted ys chi' -> chi = chi'.
Proof.
  intros L Ne.
  assert (Hr : exists r, (r < length xs)%nat /\ nth r xs false <> nth r ys false).
  { revert ys L Ne. induction xs as [|b xs IH]; intros [|c ys] L Ne; try discriminate; [congruence|].
    destruct (Bool.bool_dec b c) as [->|N].
    - destruct (IH ys) as (r & Hr & Nr); [now injection L|congruence|]. exists (S r). split; [cbn; lia|exact Nr].
    - exists 0%nat. split; [cbn; lia|exact N]. }
  destruct Hr as (r & Hr & Nr). exists r. split; [exact Hr|]. intros chi chi' Lc Lc' Bc Bc' Same E E'.
  assert (Lf : length (flipped xs ys) = length xs) by (apply flipped_length; congruence).
  apply (rows_equal (length xs)); auto. intros i Hi. destruct (Nat.eq_dec i r) as [->|Ni]; [|now apply Same].
  assert (El : forall v, length v = (16 * length xs)%nat -> bytes_ok v -> elem (frow 16 v r)) by (intros v Lv Bv; now apply (frow_elem v r (length xs))).
  rewrite <- (elem_eta (frow 16 chi r)), <- (elem_eta (frow 16 chi' r)) by auto. f_equal.
  apply (weighted_row (flipped xs ys) chi chi' r); rewrite ?Lf; auto.
  - rewrite flipped_nth by congruence. destruct (nth r xs false), (nth r ys false); auto; congruence.
  - rewrite !weighted_flipped by congruence. rewrite E, E'. now rewrite !N.lxor_nilpotent.
Qed.

(** The matrix of a receiver that uses the choices [ys] in column [k] and [xs] in the others. *)
Definition lie (gen : bytes -> nat -> bytes) (seed0 seed1 : list bytes) (l k : nat) (xs ys : list bool) : list bytes :=
  map (fun j => zipWith N.lxor (pack_choices (if Nat.eqb j k then ys else xs)) (zipWith N.lxor (gen (nth j seed0 []) (l / 8)%nat) (gen (nth j seed1 []) (l / 8)%nat))) (seq 0 128).
Lemma lie_ok gen seed0 seed1 l k xs ys : generator gen -> l = (8 * (l / 8))%nat -> length xs = l -> length ys = l ->
  shaped 128 (l / 8) (lie gen seed0 seed1 l k xs ys) /\
  forall j, (j < 128)%nat -> choices_in gen seed0 seed1 l (lie gen seed0 seed1 l k xs ys) j = if Nat.eqb j k then ys else xs.
Proof.
  intros Hg H8 Lx Ly. set (w := (l / 8)%nat) in *.
  assert (Lm : forall j, length (zipWith N.lxor (gen (nth j seed0 []) w) (gen (nth j seed1 []) w)) = w).
  { intros j. rewrite zipWith_length, !(fun s => proj1 (Hg s w)). apply Nat.min_id. }
  assert (Lz : forall j : nat, length (if Nat.eqb j k then ys else xs) = l) by (intros j; now destruct (Nat.eqb j k)).
  split.
  - split; [reflexivity|]. apply forall_map_seq. intros j Hj. fold w. split.
    + rewrite zip_length; rewrite pack_choices_length, Lz; [reflexivity|]. fold w. now rewrite Lm.
    + apply xor_bytes_okay; [apply pack_choices_ok|]. apply xor_bytes_okay; apply Hg.
  - intros j Hj. unfold choices_in, lie. cbv zeta. rewrite nth_map_seq by exact Hj. fold w.
    rewrite zip_back by (rewrite pack_choices_length, Lz, Lm; reflexivity).
    set (z := if Nat.eqb j k then ys else xs). rewrite (tabulate z false l (Lz j)) at 2.
    apply map_ext_in. intros i Hi. apply in_seq in Hi. apply pack_choices_bit. fold z in Lz. unfold z. rewrite Lz. fold w. lia.
Qed.
