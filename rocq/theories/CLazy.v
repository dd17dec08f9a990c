(** C139: rows left out of the matrix of the classic OT extension. *)
From Coq Require Import List NArith Bool Lia Arith.
From Verif Require Import Base MUtil MWires MBitMatrix MPoly MPar MBincode MProc MOt MApricot MClassic.
From Verif Require Import SpecUtil SpecBitMatrix SpecPoly SpecBincode SpecOt SpecApricot SpecClassic SpecLazy.
From Verif Require Import PBase PUtil PPoly PBitMatrix PBincode PProc POt PApricotA PApricot PApricotRun PApricotRun2 PClassic.
From Verif Require Import CCircuit COt CApricot CClassic.
Import ListNotations.
Open Scope N_scope.

Lemma mapM_panics {A B} (h : A -> outcome B) r : forall l, (forall x, List.In x l -> (exists y, h x = Ok y) \/ h x = Panic r) ->
  (exists x, List.In x l /\ h x = Panic r) -> mapM h l = Panic r.
Proof.
  induction l as [|x l IH]; intros All (z & Hz & Ez); [destruct Hz|]. cbn [mapM].
  destruct (All x (or_introl eq_refl)) as [[y Ey]|Ex]; [|now rewrite Ex]. rewrite Ey. cbn [obind].
  destruct Hz as [->|Hz]; [congruence|]. rewrite IH; [reflexivity| |eauto]. intros w Hw. apply All. now right.
Qed.
Lemma first_rows k u : rows_ok u -> rows_ok (firstn k u).
Proof.
  intros [L F]. split; [|now apply Forall_firstn]. unfold usize_ok in *. rewrite firstn_length. apply N.le_lt_trans with (N.of_nat (length u)); [lia|exact L].
Qed.
Lemma leads_bind_panic {A B C D} (q : proc A) (q' : proc B) (f : A -> proc C) (g : B -> proc D) r b :
  runs q q' (Panic r) (Ok b) -> leads (pbind q f) (pbind q' g) (Cfg (Done (Panic r)) (g b) [] []).
Proof. intros H. exact (reach_map f g _ _ H). Qed.

Lemma done_stays {A B} m (c c' : cfg A B) o : steps m c c' -> left_ c = Done o -> left_ c' = Done o.
Proof.
  induction 1 as [|m c c1 c2 St _ IH]; intros E; [exact E|]. apply IH. destruct St as [c c' St|c c' St|c c' St|c c' St].
  - unfold stepL in St. rewrite E in St. discriminate.
  - unfold stepR in St. destruct (right_ c) as [|m' k'|k']; [discriminate|injection St as <-; exact E|]. destruct (lr c); [discriminate|]. injection St as <-. exact E.
  - destruct St; discriminate.
  - destruct St; exact E.
Qed.

Section Rows.
Variables (delta : bytes) (u t : list bytes) (k : nat).
Hypothesis delta_ok : array_ok 16 delta.
Hypothesis u_len : length u = 128%nat.
Hypothesis t_len : length t = 128%nat.
Let bits := u8_vec_to_bool_vec delta.
Lemma delta_bits : combine (seq 0 (length bits)) bits = map (fun i => (i, bit_of delta i)) (seq 0 128).
Proof.
  assert (Lb : length bits = 128%nat) by (unfold bits; rewrite bits_length, (proj1 delta_ok); reflexivity).
  rewrite (tabulate bits false 128 Lb) at 2. rewrite Lb.
  rewrite <- (map_id (seq 0 128)) at 1. rewrite combine_maps. apply map_ext_in. intros i Hi. apply in_seq in Hi.
  unfold bits. now rewrite bits_nth by (rewrite (proj1 delta_ok); lia).
Qed.
Let f (v : list bytes) (id : nat * bool) : outcome bytes :=
  let (i, d) := id in
  if d then let* u_row := idx v i in let* t_row := idx t i in Ok (bv_xor u_row t_row) else idx t i.
Lemma kept_row i : (i < k)%nat -> (i < 128)%nat -> idx (firstn k u) i = Ok (nth i u []).
Proof.
  intros Hk Hi. rewrite (idx_lt _ i ([] : bytes)) by (rewrite firstn_length, u_len; lia). f_equal.
  rewrite <- (firstn_skipn k u) at 2. rewrite app_nth1; [reflexivity|]. rewrite firstn_length, u_len. lia.
Qed.
Lemma missing_row i : (k <= i)%nat -> idx (firstn k u) i = Panic PIndex.
Proof. intros Hk. unfold idx. rewrite (proj2 (nth_error_None _ _)); [reflexivity|]. rewrite firstn_length. lia. Qed.
Lemma q_kept : (forall i, (k <= i < 128)%nat -> bit_of delta i = false) -> classic_q delta (firstn k u) t = classic_q delta u t.
Proof.
  intros H. unfold classic_q. cbv zeta. fold bits. rewrite delta_bits, !mapM_map. apply mapM_ext. intros i Hi. apply in_seq in Hi. cbn beta iota.
  destruct (bit_of delta i) eqn:E; [|reflexivity]. assert (Hk : (i < k)%nat) by (destruct (Nat.lt_ge_cases i k); auto; rewrite H in E by lia; discriminate).
  rewrite kept_row by lia. rewrite (idx_lt u i ([] : bytes)) by lia. reflexivity.
Qed.
Lemma q_missing i : (k <= i < 128)%nat -> bit_of delta i = true -> classic_q delta (firstn k u) t = Panic PIndex.
Proof.
  intros Hi E. unfold classic_q. cbv zeta. fold bits. rewrite delta_bits, !mapM_map. apply mapM_panics.
  - intros j Hj. apply in_seq in Hj. cbn beta iota. rewrite (idx_lt t j ([] : bytes)) by lia. destruct (bit_of delta j); [|left; eexists; reflexivity].
    destruct (Nat.lt_ge_cases j k); [left; rewrite kept_row by lia; eexists; reflexivity|right; now rewrite missing_row by lia].
  - exists i. split; [apply in_seq; lia|]. cbn beta iota. rewrite E. now rewrite missing_row by lia.
Qed.
End Rows.

Section Lazy.
Variables (sha : bytes -> bytes) (gen20 gen8 : bytes -> nat -> bytes).
Hypothesis gen20_ok : generator gen20.
Hypothesis gen8_ok : generator gen8.
Variables (p p' : profile) (a a' : option arch) (cu cv delta : bytes) (bonus : list bool) (seed0 seed1 : list bytes).
Hypothesis cu_ok : array_ok 32 cu.
Hypothesis cv_ok : array_ok 32 cv.
Hypothesis delta_ok : array_ok 16 delta.
Hypothesis bonus_ok : length bonus = 192%nat.
Hypothesis seed0_ok : seeds_ok seed0.
Hypothesis seed1_ok : seeds_ok seed1.
Variables (bootS : list (bytes * bytes) -> proc unit) (bootR : list bool -> proc (list bytes)).
Hypothesis boot_ok : ot_correct seed_pairs bootS bootR.
Variables (msgs : list (bytes * bytes)) (choices : list bool) (k : nat).
Hypothesis Lc : length choices = length msgs.
Hypothesis msgs_ok : classic_ok msgs.
Let n : nat := length msgs.
Let x : list bool := choices ++ bonus.

(** The two sides up to the matrix. *)
Lemma lazy_parts : exists u pay t q,
  length u = 128%nat /\ rows_ok u /\ length (expand_rows gen20 (length x) pay) = 128%nat /\ copy_seeds pay = Ok pay /\
  length x = (n + 192)%nat /\ (8 <= n)%nat /\ (n mod 8 = 0)%nat /\ usize_ok n /\
  runs (bootR (u8_vec_to_bool_vec delta)) (bootS (combine seed0 seed1)) (Ok pay) (Ok tt) /\
  classic_u p' (monochrome x COMP_SEC) (expand_rows gen20 (length x) seed0) (expand_rows gen20 (length x) seed1) = Ok u /\
  (exists q0, classic_q delta u (expand_rows gen20 (length x) pay) = Ok q0 /\ transpose q0 = Ok q) /\
  transpose (expand_rows gen20 (length x) seed0) = Ok t /\
  length t = length x /\ length q = length x /\ (forall i, (i < length x)%nat -> elem (nth i t [])) /\
  (forall i, (i < length x)%nat -> elem (nth i q [])) /\
  (forall i, (i < length x)%nat -> nth i q [] = if nth i x false then zipWith N.lxor (nth i t []) delta else nth i t []).
Proof.
  destruct msgs_ok as (Hpay & Hpos & H8).
  assert (Lx : length x = (n + 192)%nat) by (unfold x, n; rewrite app_length, Lc, bonus_ok; reflexivity).
  destruct (classic_sizes sha cu bonus bonus_ok n (proj1 Hpay) Hpos H8) as (Hn8 & Hl8 & Htw). rewrite <- Lx in Hl8, Htw.
  destruct (boot_runs delta seed0 seed1 delta_ok seed0_ok seed1_ok bootS bootR boot_ok) as (pay & Rb & Lp & Selp).
  assert (Hps : seeds_ok pay).
  { split; auto. apply Forall_forall. intros y Hy. destruct (In_nth _ _ [] Hy) as (i & Hi & <-).
    assert (Hi' : (i < 128)%nat) by (rewrite <- Lp; exact Hi). rewrite Selp by auto. destruct seed0_ok as [L0 H0], seed1_ok as [L1 H1].
    destruct (bit_of delta i); apply Forall_nth_in; auto; lia. }
  destruct (classic_rows gen20 gen20_ok delta seed0 seed1 delta_ok seed0_ok x Hl8) as (t & q & Et & Lt & Ht & Eq & Lq & Hq & Rows).
  eexists _, pay, t, q. split; [|split; [apply (u_rows_ok gen20 gen20_ok seed0 seed1 x Htw)|]]; [now rewrite map_length, seq_length|].
  split; [unfold expand_rows; now rewrite map_length|]. split; [now apply copy_seeds_ok|]. split; [exact Lx|]. split; [exact Hn8|]. split; [exact H8|]. split; [apply Hpay|].
  split; [exact Rb|]. split; [now apply classic_u_ok|]. split; [eexists; split; [now apply classic_q_ok|exact Eq]|]. auto 10.
Qed.

Lemma lazy_accepted : (forall i, (k <= i < 128)%nat -> bit_of delta i = false) ->
  exists out, runs (classic_sender sha gen20 gen8 p a cu delta bootR msgs)
    (lazy_receiver sha gen20 gen8 p' a' k cv bonus seed0 seed1 bootS choices) (Ok tt) (Ok out) /\ is_selection msgs choices out.
Proof.
  intros H. destruct lazy_parts as (u & pay & t & q & Lu & Ur & Le & Ec & Lx & Hn8 & H8 & Un & Rb & Eu & (q0 & Eq & Et2) & Et & Lt & Lq & Ht & Hq & Rows).
  destruct (classic_sizes sha cu bonus bonus_ok n Un ltac:(lia) H8) as (_ & Hl8 & Htw). rewrite <- Lx in Hl8, Htw.
  destruct (block_asserts n Hn8 H8) as [A1 A2].
  destruct (classic_check gen20 gen20_ok delta seed0 seed1 delta_ok x Hl8 (xor_arrays cv cu) t q p p' a a' Lt Ht Lq Hq Rows) as (qs & xs & ts & E1 & E2 & [Lxs Bxs] & [Lts Bts] & E3).
  eexists. split.
  - unfold classic_sender, lazy_receiver. rewrite Lc. fold n. fold x.
    apply runs_lift_l with (a := tt); [exact A1|]. apply runs_lift_l with (a := tt); [exact A2|].
    eapply runs_bind; [apply validate_same, apricot_props; exact Un|].
    cbv zeta. replace (n + COMP_SEC + STAT_SEC)%nat with (length x) by (rewrite Lx; unfold COMP_SEC, STAT_SEC; lia).
    eapply runs_bind with (a := q) (b := t).
    { unfold sender_cote. cbv zeta. eapply runs_bind; [exact Rb|].
      apply runs_lift_l with (a := pay); [exact Ec|]. apply runs_lift_r with (a := u); [exact Eu|]. apply runs_recv_send.
      apply runs_lift_l with (a := firstn k u). { apply (deserialize_reads _ _ _ _ rt_rows). now apply first_rows. }
      apply runs_lift_l with (a := q0); [rewrite (q_kept delta u _ k delta_ok Lu); assumption|]. rewrite Et2, Et. apply runs_done. }
    eapply runs_bind with (a := tt) (b := tt).
    { unfold sender_correlation, receiver_correlation. eapply runs_bind; [apply runs_flip, coinflip_runs; [apply cv_ok|apply cu_ok]|].
      cbv zeta. apply runs_lift_l with (a := qs); [exact E1|]. apply runs_lift_r with (a := (xs, ts)); [exact E2|].
      apply runs_recv_send. apply runs_lift_l with (a := xs).
      { apply (deserialize_reads _ _ _ _ rt_bytes). split; [unfold usize_ok; rewrite Lxs; reflexivity|exact Bxs]. }
      apply runs_flip, runs_snd_rcv, runs_flip. cbn [pbind recv ret lift].
      rewrite (deserialize_reads _ _ _ _ rt_bytes) by (split; [unfold usize_ok; rewrite Lts; reflexivity|exact Bts]). cbn [pbind lift]. rewrite E3. apply runs_done. }
    apply (de_rot_runs sha gen8 gen8_ok p p' delta bonus delta_ok bonus_ok msgs choices Lc (proj1 msgs_ok) t q (length x)); auto.
    + fold n. lia.
    + intros i Hi. fold n in Hi. pose proof (Rows i ltac:(lia)) as Z. unfold x in Z. rewrite app_nth1 in Z by (rewrite Lc; exact Hi). exact Z.
    + intros i Hi. apply Ht. fold n in Hi. lia.
  - apply (de_rot_selects msgs choices Lc).
Qed.

Lemma lazy_panics i : (k <= i < 128)%nat -> bit_of delta i = true ->
  breaks_off (classic_sender sha gen20 gen8 p a cu delta bootR msgs)
    (lazy_receiver sha gen20 gen8 p' a' k cv bonus seed0 seed1 bootS choices) (Panic PIndex) (Err EClosed).
Proof.
  intros Hi Hb. destruct lazy_parts as (u & pay & t & q & Lu & Ur & Le & Ec & Lx & Hn8 & H8 & Un & Rb & Eu & (q0 & Eq & Et2) & Et & Lt & Lq & Ht & Hq & Rows).
  destruct (block_asserts n Hn8 H8) as [A1 A2].
  eexists. split.
  { unfold classic_sender, lazy_receiver. rewrite Lc. fold n. fold x.
    apply leads_lift_l with (a := tt); [exact A1|]. apply leads_lift_l with (a := tt); [exact A2|].
    eapply leads_bind; [apply validate_same, apricot_props; exact Un|].
    cbv zeta. replace (n + COMP_SEC + STAT_SEC)%nat with (length x) by (rewrite Lx; unfold COMP_SEC, STAT_SEC; lia).
    eapply leads_bind_panic with (b := t).
    unfold sender_cote. cbv zeta. eapply runs_bind; [exact Rb|].
    apply runs_lift_l with (a := pay); [exact Ec|]. apply runs_lift_r with (a := u); [exact Eu|]. apply runs_recv_send.
    apply runs_lift_l with (a := firstn k u). { apply (deserialize_reads _ _ _ _ rt_rows). now apply first_rows. }
    rewrite (q_missing delta u _ k delta_ok Lu Le i Hi Hb), Et. apply runs_done. }
  reflexivity.
Qed.
End Lazy.

(** C139 is false: a receiver that sends only the first [k] rows of its matrix completes the transfer, with all its messages, if
    the bits of delta from [k] on are 0; the sender panics as soon as one of them is 1. So the receiver learns whether they are. *)
Theorem C139_rows_refuted : forall sha gen20 gen8 p p' a a' r delta bootS bootR msgs choices k,
  generator gen20 -> generator gen8 -> classic_coins_ok r -> array_ok 16 delta -> ot_correct seed_pairs bootS bootR ->
  length choices = length msgs -> classic_ok msgs ->
  let S := classic_sender sha gen20 gen8 p a (coin_s r) delta bootR msgs in
  let R := lazy_receiver sha gen20 gen8 p' a' k (coin_r r) (coin_bonus r) (coin_seed0 r) (coin_seed1 r) bootS choices in
  ((forall i, (k <= i < 128)%nat -> bit_of delta i = false) -> exists out, runs S R (Ok tt) (Ok out) /\ is_selection msgs choices out) /\
  (forall i, (k <= i < 128)%nat -> bit_of delta i = true -> breaks_off S R (Panic PIndex) (Err EClosed)).
Proof.
  intros sha gen20 gen8 p p' a a' [cu cv delta' bonus seed0 seed1] delta bootS bootR msgs choices k Hg Hg8 (H1 & H2 & _ & H4 & H5 & H6) H3 Hb Lc Hm S R. split.
  - exact (lazy_accepted sha gen20 gen8 Hg Hg8 p p' a a' cu cv delta bonus seed0 seed1 H1 H2 H3 H4 H5 H6 bootS bootR Hb msgs choices k Lc Hm).
  - exact (lazy_panics sha gen20 gen8 Hg p p' a a' cu cv delta bonus seed0 seed1 H3 H4 H5 H6 bootS bootR Hb msgs choices k Lc Hm).
Qed.
Print Assumptions C139_rows_refuted.

(** With the last row left out the receiver learns the last bit: two values of delta that differ in it end the transfer differently. *)
Theorem C139_last_bit_refuted : forall sha gen20 gen8 p p' a a' r bootS bootR msgs choices,
  generator gen20 -> generator gen8 -> classic_coins_ok r -> ot_correct seed_pairs bootS bootR ->
  length choices = length msgs -> classic_ok msgs ->
  let S delta := classic_sender sha gen20 gen8 p a (coin_s r) delta bootR msgs in
  let R := lazy_receiver sha gen20 gen8 p' a' 127 (coin_r r) (coin_bonus r) (coin_seed0 r) (coin_seed1 r) bootS choices in
  forall delta, array_ok 16 delta ->
  (bit_of delta 127 = false <-> exists out, runs (S delta) R (Ok tt) (Ok out)) /\
  (bit_of delta 127 = true <-> breaks_off (S delta) R (Panic PIndex) (Err EClosed)).
Proof.
  intros sha gen20 gen8 p p' a a' r bootS bootR msgs choices Hg Hg8 Hr Hb Lc Hm S R delta Hd.
  destruct (C139_rows_refuted sha gen20 gen8 p p' a a' r delta bootS bootR msgs choices 127 Hg Hg8 Hr Hd Hb Lc Hm) as [Acc Pan]. fold (S delta) R in Acc, Pan.
  assert (F : bit_of delta 127 = false -> exists out, runs (S delta) R (Ok tt) (Ok out)).
  { intros E. destruct Acc as (out & Ro & _); [intros i Hi; now replace i with 127%nat by lia|eauto]. }
  assert (T : bit_of delta 127 = true -> breaks_off (S delta) R (Panic PIndex) (Err EClosed)) by (intros E; apply (Pan 127%nat); [lia|exact E]).
  assert (X : (exists out, runs (S delta) R (Ok tt) (Ok out)) -> breaks_off (S delta) R (Panic PIndex) (Err EClosed) -> False).
  { intros (out & Ro) (q & Rq & _). destruct (schedule_independent _ _ _ _ Ro) as [m D]. apply reach_core in Rq. destruct Rq as [j Rq].
    destruct (D _ _ (core_steps _ _ _ Rq)) as (_ & St & _). pose proof (done_stays _ _ _ _ St eq_refl) as Q. discriminate Q. }
  destruct (bit_of delta 127); split; split; intros H; auto; try discriminate; exfalso; eauto.
Qed.
Print Assumptions C139_last_bit_refuted.

(** ** Example *)
(** Eight messages; the receiver sends 127 rows, for a delta whose last bit is 0 and for one whose last bit is 1. *)
Example C139_example : let S delta := classic_sender toy toy_gen toy_gen Release (Some X86) (coin_s classic_toy) delta (co_receiver toy toy_gen toy_curve Release (fun _ => 1)) (repeat ([1], [2]) 8) in
  let R := lazy_receiver toy toy_gen toy_gen Debug None 127 (coin_r classic_toy) (coin_bonus classic_toy) (coin_seed0 classic_toy) (coin_seed1 classic_toy) (co_sender toy toy_gen toy_curve Debug (fun _ => 1)) (repeat true 8) in
  (exists out, runs (S (repeat 5 16)) R (Ok tt) (Ok out)) /\ breaks_off (S (repeat 129 16)) R (Panic PIndex) (Err EClosed).
Proof.
  assert (Hm : classic_ok (repeat ([1], [2]) 8)) by (repeat split; try reflexivity; repeat constructor).
  intros S R.
  pose proof (C139_last_bit_refuted toy toy_gen toy_gen Release Debug (Some X86) None classic_toy _ _ (repeat ([1], [2]) 8) (repeat true 8)
    toy_gen_ok toy_gen_ok classic_toy_ok (toy_base Debug Release) eq_refl Hm) as H. split.
  - apply (H (repeat 5 16)); [split; [reflexivity|repeat constructor]|reflexivity].
  - apply (H (repeat 129 16)); [split; [reflexivity|repeat constructor]|reflexivity].
Qed.
