(** How the receiver of the OT extension ends for arbitrary messages of the peer. *)
From Coq Require Import List NArith Bool Lia Arith.
From Verif Require Import Base MUtil MWires MBitMatrix MPoly MPar MBincode MProc MOt MApricot.
From Verif Require Import SpecUtil SpecBitMatrix SpecPoly SpecBincode SpecOt SpecApricot PBase PUtil PBitMatrix PPoly PPar PBincode PProc POt PApricotA PApricot PApricotRun PReturns SpecEnds PEnds PBounds SpecEnds2.
Import ListNotations.
Open Scope N_scope.

(** Where the unread frames begin. *)
Lemma holds_rest {A} (p : proc A) J : forall i ins a out rest,
  holds (fun _ _ => True) i p (fun j _ => j = J) -> feedr p ins = (Ok a, out, rest) -> (i <= J)%nat /\ rest = skipn (J - i) ins.
Proof.
  induction p as [o|m k IH|k IH]; intros i ins a out rest H E; cbn [holds feedr] in *.
  - injection E as -> <- <-. cbn in H. subst J. rewrite Nat.sub_diag. auto.
  - destruct (feedr k ins) as [[o out'] rest'] eqn:Ek. injection E as -> <- ->. eapply IH; eauto.
  - destruct H as [H1 H2]. destruct ins as [|m ins].
    + destruct (IH None i [] a out rest H2 E) as [K ->]. split; [exact K|]. now rewrite !skipn_nil.
    + destruct (IH (Some m) (S i) ins a out rest (H1 m I) E) as [K ->]. split; [lia|]. replace (J - i)%nat with (S (J - S i)) by lia. reflexivity.
Qed.

Lemma fst_sent {A} (r : outcome A * list bytes) m : fst (let (o, out) := r in (o, m :: out)) = fst r.
Proof. now destruct r. Qed.
Lemma feed_crashes {A B} (p : proc A) (f : A -> proc B) ins : crashes (fst (feed p ins)) -> crashes (fst (feed (pbind p f) ins)).
Proof. intros [r E]. rewrite feed_feedr in E. destruct (feedr p ins) as [[o out] rest] eqn:F. cbn in E. subst o. exists r. eapply feed_stops. exact F. Qed.
Lemma feed_fails {A B} (p : proc A) (f : A -> proc B) ins : fails (fst (feed p ins)) -> fails (fst (feed (pbind p f) ins)).
Proof. intros [r E]. rewrite feed_feedr in E. destruct (feedr p ins) as [[o out] rest] eqn:F. cbn in E. subst o. exists r. eapply feed_errs. exact F. Qed.

(** ** Coin flip *)
Lemma coin_sender_ends sha n v ins :
  let o := fst (feed (coinflip_sender sha n v) ins) in
  (succeeds o <-> exists u l, ins = u :: l /\ length u = n) /\ (fails o <-> ~ exists u l, ins = u :: l /\ length u = n) /\ mild o.
Proof.
  cbv zeta. cbn [coinflip_sender pbind send recv ret feed]. destruct ins as [|u l].
  - cbn. split; [split; [intros [? E]; discriminate|intros (? & ? & E & _); discriminate]|]. split; [|right; eexists; reflexivity].
    split; [intros _ (? & ? & E & _); discriminate|intros _; eexists; reflexivity].
  - cbn [pbind]. destruct (Nat.eqb_spec (length u) n) as [E|E]; cbn.
    + split; [split; [eauto|intros _; eexists; reflexivity]|]. split; [|left; eexists; reflexivity]. split; [intros [? K]; discriminate|intros K; exfalso; eauto].
    + split; [split; [intros [? K]; discriminate|intros (? & ? & K & L); injection K as <- <-; contradiction]|]. split; [|right; eexists; reflexivity].
      split; [intros _ (? & ? & K & L); injection K as <- <-; contradiction|intros _; eexists; reflexivity].
Qed.
Lemma coin_receiver_ends sha n u ins :
  let o := fst (feed (coinflip_receiver sha n u) ins) in
  (succeeds o <-> exists v l, ins = sha v :: v :: l /\ length v = n) /\ (fails o <-> ~ exists v l, ins = sha v :: v :: l /\ length v = n) /\ mild o.
Proof.
  cbv zeta. cbn [coinflip_receiver pbind send recv ret feed].
  assert (Bad : forall e, (forall v l, ins = sha v :: v :: l -> length v = n -> False) ->
    (succeeds (@Err bytes e) <-> exists v l, ins = sha v :: v :: l /\ length v = n) /\ (fails (@Err bytes e) <-> ~ exists v l, ins = sha v :: v :: l /\ length v = n) /\ mild (@Err bytes e)).
  { intros e H. split; [split; [intros [? K]; discriminate|intros (v & l & K & L); exfalso; eauto]|]. split; [|right; eexists; reflexivity].
    split; [intros _ (v & l & K & L); eauto|intros _; eexists; reflexivity]. }
  destruct ins as [|c [|v l]]; [apply Bad; intros; discriminate..|]. cbn [pbind].
  destruct (Nat.eqb_spec (length v) n) as [E|E]; cbn [negb fst snd].
  2:{ cbn. apply Bad. intros w l' K L. injection K as -> -> ->. contradiction. }
  destruct (bytes_eqb c (sha v)) eqn:Q; cbn [negb].
  - apply bytes_eqb_eq in Q. subst c. cbn. split; [split; [eauto|intros _; eexists; reflexivity]|]. split; [|left; eexists; reflexivity].
    split; [intros [? K]; discriminate|intros K; exfalso; eauto].
  - cbn. apply Bad. intros w l' K _. injection K as -> -> ->. rewrite (proj2 (bytes_eqb_eq _ _) eq_refl) in Q. discriminate.
Qed.

Lemma greet_dec n ins : (exists m l, ins = m :: l /\ greets n m) \/ ~ (exists m l, ins = m :: l /\ greets n m).
Proof.
  destruct ins as [|m l]; [right; intros (? & ? & ? & _); discriminate|].
  destruct (mild_deserialize dec_props m gentle_props) as [[a E]|[e E]].
  - destruct (props_eqb a (mkProps n apricot_name)) eqn:Q.
    + apply props_eqb_eq in Q. subst a. left; eauto.
    + right. intros (m' & l' & Ei & A). injection Ei as <- <-. unfold greets in A. rewrite E in A. injection A as ->.
      rewrite (proj2 (props_eqb_eq _ _) eq_refl) in Q. discriminate.
  - right. intros (m' & l' & Ei & A). injection Ei as <- <-. unfold greets in A. congruence.
Qed.
Lemma feedr_greet n l m : greets n m ->
  feedr (validate_properties (mkProps n apricot_name)) (m :: l) = (Ok tt, [enc_props (mkProps n apricot_name)], l).
Proof.
  intros H. cbn [validate_properties pbind send recv ret lift feedr]. rewrite H. cbn [pbind lift].
  rewrite (proj2 (props_eqb_eq _ _) eq_refl). reflexivity.
Qed.
Lemma feedr_stranger n ins : ~ (exists m l, ins = m :: l /\ greets n m) ->
  exists e out rest, feedr (validate_properties (mkProps n apricot_name)) ins = (Err e, out, rest).
Proof.
  intros H. cbn [validate_properties pbind send recv ret lift feedr]. destruct ins as [|m l]; [cbn; eauto|].
  cbn [pbind]. destruct (mild_deserialize dec_props m gentle_props) as [[a E]|[e E]]; rewrite E; cbn [pbind lift]; [|cbn; eauto].
  destruct (props_eqb a _) eqn:Q; [|cbn; eauto]. apply props_eqb_eq in Q. subst a. exfalso; eauto.
Qed.

(** ** The last frame *)
Section Last.
Variable fill : bytes -> nat -> bytes.
Hypothesis fill_ok : generator fill.
Variables (p : profile) (cores : nat).
Hypothesis cores_ok : (1 <= cores)%nat.
Variables (n h : nat) (v packed d : bytes) (s : nat).
Hypothesis n_pos : (1 <= n)%nat.
Hypothesis n_h : (n <= h)%nat.
Hypothesis Lv : length v = (32 * h)%nat.
Hypothesis Lp : (n <= 8 * length packed)%nat.

Lemma row_cases r : (r < n)%nat ->
  (accepts p s (carried n d) -> exists y, derandomize_row fill p v packed d (carried n d) r (repeat 0 s) = Ok y /\ length y = s) /\
  (~ accepts p s (carried n d) -> crashes (derandomize_row fill p v packed d (carried n d) r (repeat 0 s))).
Proof.
  intros Hr. set (msd := carried n d). unfold derandomize_row.
  rewrite vector_row_ok by lia. cbn [obind].
  assert (Lr : length (frow 32 v r) = 32%nat) by (apply frow_length; lia).
  rewrite (array_from_slice_ok _ Lr). cbn [obind].
  assert (Hi : ((r - r mod 8) / 8 = r / 8)%nat).
  { pose proof (Nat.div_mod r 8 ltac:(lia)) as Edm. replace (r - r mod 8)%nat with (r / 8 * 8)%nat by lia. apply Nat.div_mul. lia. }
  rewrite Hi, (idx_lt packed (r / 8) 0) by (apply Nat.div_lt_upper_bound; lia). cbn [obind].
  set (pc := nth (r / 8) packed 0).
  assert (B : (N.to_nat (N.land (N.shiftr pc (N.of_nat (r mod 8))) 1) <= 1)%nat).
  { change 1 with (N.ones 1). rewrite N.land_ones. pose proof (N.mod_lt (N.shiftr pc (N.of_nat (r mod 8))) (2 ^ 1) ltac:(discriminate)) as B.
    change (2 ^ 1) with 2 in *. lia. }
  set (c := N.to_nat _) in *.
  assert (D : (n * msd <= length d / 2)%nat) by (unfold msd, carried; apply Nat.mul_div_le; lia).
  assert (D2 : (2 * (length d / 2) <= length d)%nat) by (apply Nat.mul_div_le; lia).
  assert (E : (S r * msd <= n * msd)%nat) by (apply Nat.mul_le_mono_r; lia).
  assert (E2 : (c * msd <= msd)%nat) by (destruct c as [|[|c']]; cbn; lia).
  cbn [Nat.mul] in E. unfold vector_slice. rewrite (proj2 (Nat.leb_le _ _)) by lia. cbn [obind].
  set (ds := firstn msd _). assert (Lds : length ds = msd) by (unfold ds; rewrite firstn_length, skipn_length; lia).
  rewrite repeat_length. unfold xor_inplace. rewrite Lds, (proj1 (fill_ok _ _)). destruct p; cbn [accepts debug_assert].
  - destruct (Nat.eqb_spec msd s) as [Q|Q]; cbn [obind assert_].
    + split; [intros _|intros K; contradiction]. rewrite (proj2 (Nat.ltb_ge _ _)) by lia. eexists. split; [reflexivity|].
      rewrite app_length, zipWith_length, skipn_length, (proj1 (fill_ok _ _)), Lds. lia.
    + split; [intros K; contradiction|intros _; eexists; reflexivity].
  - cbn [obind]. destruct (Nat.ltb_spec s msd) as [Q|Q].
    + split; [intros K; lia|intros _; eexists; reflexivity].
    + split; [intros _|intros K; contradiction]. eexists. split; [reflexivity|].
      rewrite app_length, zipWith_length, skipn_length, (proj1 (fill_ok _ _)), Lds. lia.
Qed.
Lemma choose_rows (P : nat -> bytes -> Prop) : forall m, (forall r, (r < m)%nat -> exists y, P r y) -> exists g : nat -> bytes, forall r, (r < m)%nat -> P r (g r).
Proof.
  induction m as [|m IH]; intros H; [exists (fun _ => []); lia|].
  destruct IH as [g Hg]; [intros r Hr; apply H; lia|]. destruct (H m ltac:(lia)) as [y Hy].
  exists (fun r => if Nat.eqb r m then y else g r). intros r Hr. destruct (Nat.eqb_spec r m) as [->|Q]; [exact Hy|apply Hg; lia].
Qed.
Lemma last_frame :
  (accepts p s (carried n d) -> exists out, derandomize fill p cores v packed d s n = Ok out /\ length out = n /\ Forall (fun y => length y = s) out) /\
  (~ accepts p s (carried n d) -> crashes (derandomize fill p cores v packed d s n)).
Proof.
  unfold derandomize. rewrite udiv_ok by auto. cbn [obind]. fold (carried n d).
  destruct (rows_in_chunk_ok cores n cores_ok n_pos) as (tc & k & E & Ek & Hk). rewrite E. cbn [obind]. rewrite Ek. cbn [obind]. split; intros Ha.
  - destruct (choose_rows (fun r y => derandomize_row fill p v packed d (carried n d) r (repeat 0 s) = Ok y /\ length y = s) n) as [g Hg].
    { intros r Hr. exact (proj1 (row_cases r Hr) Ha). }
    exists (map g (seq 0 n)). split.
    + rewrite (par_items_ok [] k _ g) by (auto; rewrite repeat_length; intros r Hr;
        rewrite (nth_indep _ [] (repeat 0 s)) by (rewrite repeat_length; auto); rewrite nth_repeat; apply Hg; exact Hr).
      now rewrite repeat_length.
    + split; [now rewrite map_length, seq_length|]. apply Forall_forall. intros y Hy. apply in_map_iff in Hy as (r & <- & Hr). apply in_seq in Hr. apply Hg. lia.
  - destruct (proj2 (row_cases 0 ltac:(lia)) Ha) as [r F]. exists r.
    destruct n as [|n'] eqn:En; [lia|]. unfold par_items, chunks_mut.
    rewrite (proj2 (Nat.eqb_neq _ _)) by lia. cbn [obind]. rewrite repeat_length.
    rewrite chunks_cons by discriminate. destruct k as [|k']; [lia|].
    cbn [repeat firstn enumerate length seq combine mapM fst snd Nat.mul Nat.add].
    rewrite F. reflexivity.
Qed.
End Last.

Lemma accepts_dec p s t : accepts p s t \/ ~ accepts p s t.
Proof. destruct p; cbn; [destruct (Nat.eq_dec t s)|destruct (le_lt_dec t s)]; auto; right; lia. Qed.
Lemma announced_ok m s : bytes_ok m -> announces m s -> announced_size m = Ok s.
Proof.
  intros Hm (b0 & b1 & l & -> & E). unfold announced_size, idx. cbn [nth_error unwrap obind]. f_equal.
  inversion Hm as [|? ? _ Hm']; subst. inversion Hm' as [|? ? H1 _]; subst.
  assert (Q : N.lor (N.shiftl b0 8) b1 = 256 * b0 + b1).
  { unfold byte_ok in H1. change 256 with (2 ^ 8) in *. rewrite N.shiftl_mul_pow2, (N.mul_comm (2 ^ 8)). apply N.bits_inj. intros k. rewrite N.lor_spec.
    destruct (N.lt_ge_cases k 8) as [L|L].
    - rewrite N.mul_pow2_bits_low by exact L. cbn [orb]. rewrite <- (N.mod_pow2_bits_low (b0 * 2 ^ 8 + b1) 8 k L).
      rewrite N.add_comm, N.mod_add by discriminate. rewrite N.mod_small by exact H1. reflexivity.
    - rewrite N.mul_pow2_bits_high by exact L. rewrite (high_bits b1 8) by auto. rewrite orb_false_r.
      replace k with (k - 8 + 8) at 2 by lia. rewrite <- N.div_pow2_bits. rewrite N.add_comm, N.div_add by discriminate. now rewrite (N.div_small b1) by exact H1. }
  rewrite Q, <- E. apply Nat2N.id.
Qed.
Lemma announces_cases m : bytes_ok m -> (exists s, announces m s) \/ (length m < 2)%nat.
Proof.
  intros Hm. destruct m as [|b0 [|b1 l]]; [right; cbn; lia..|left]. exists (N.to_nat (256 * b0 + b1)), b0, b1, l. split; [reflexivity|]. apply N2Nat.id.
Qed.
Lemma announced_short m : (length m < 2)%nat -> crashes (announced_size m).
Proof. intros H. destruct m as [|b0 [|b1 l]]; [..|cbn in H; lia]; eexists; reflexivity. Qed.

Lemma compute_v_any sha p cores t h : hash32 sha -> (1 <= cores)%nat -> (1 <= h)%nat -> length t = (16 * h)%nat ->
  exists v, compute_v sha p cores t 16 h = Ok v /\ length v = (32 * h)%nat.
Proof.
  intros sha_ok Hc Hh Lt. exists (concat (map (V sha t) (seq 0 h))). split.
  - unfold compute_v. destruct (rows_in_chunk_ok cores h Hc Hh) as (tc & k & E & Ek & Hk).
    rewrite E. cbn [obind]. rewrite Ek. cbn [obind].
    apply par_rows_ok; auto; try lia. { apply repeat_length. }
    intros r Hr. rewrite vector_row_ok by lia. cbn [obind]. fold (V sha t r).
    assert (L : length (V sha t r) = 32%nat) by apply sha_ok.
    rewrite frow_zeros by lia. rewrite xor_inplace_ok by (rewrite repeat_length; lia).
    split; [|exact L]. f_equal. rewrite <- L at 1. apply zip_zeros_l.
  - apply concat_length_w. intros. apply sha_ok.
Qed.

(** ** The receiver *)
Section Receiver.
Variables (sha : bytes -> bytes) (fill gen : bytes -> nat -> bytes) (G : curve).
Hypothesis sha_ok : hash32 sha.
Hypothesis fill_ok : generator fill.
Hypothesis gen_ok : generator gen.
Hypothesis G_ok : curve_ok G.
Variables (p : profile) (a : arch) (cores : nat).
Hypothesis cores_ok : (1 <= cores)%nat.
Variables (cv : bytes) (bonus : list bool) (seed0 seed1 : list bytes) (rs : nat -> N).
Hypothesis bonus_ok : length bonus = 256%nat.
Hypothesis seed0_ok : seeds_ok seed0.
Hypothesis seed1_ok : seeds_ok seed1.
Variable cs : list bool.
Let n : nat := length cs.
Hypothesis n_pos : (1 <= n)%nat.
Hypothesis n8 : p = Release \/ (n mod 8 = 0)%nat.

Let recvr : proc (list bytes) := ap_receiver sha fill p a cores cv bonus seed0 seed1 (co_sender sha gen G p rs) cs.

Lemma pairs_128 : length (combine seed0 seed1) = 128%nat.
Proof. rewrite combine_length, (proj1 seed0_ok), (proj1 seed1_ok). reflexivity. Qed.

(** What is left after the base OT. *)
Let rest (seed : bytes) (msg_size : nat) (_ : unit) : proc (list bytes) :=
  let h := (n + K + S_)%nat in
  let! t0 := lift (expand_seeds fill seed0 128 (h / 8)) in
  let! t1 := lift (expand_seeds fill seed1 128 (h / 8)) in
  let! u := lift (compute_u p t0 t1 (pack_choices (cs ++ bonus)) 128 (h / 8)) in
  let! _ := send u in
  let! t := lift (transpose_matrix t0 (repeat 0 (16 * h)) 128 (h / 8) 16) in
  let! (x_sum, t_sum) := lift (receiver_sums p a t (fill seed (16 * h)) (cs ++ bonus) 16 h) in
  let! _ := send x_sum in
  let! _ := send t_sum in
  let! v := lift (compute_v sha p cores t 16 h) in
  let! d := recv in
  lift (derandomize fill p cores v (pack_choices (cs ++ bonus)) d msg_size n).

Lemma rest_ends seed s :
  fails (fst (feed (rest seed s tt) [])) /\
  forall d l, (accepts p s (carried n d) -> exists out, fst (feed (rest seed s tt) (d :: l)) = Ok out /\ length out = n /\ Forall (fun y => length y = s) out) /\
     (~ accepts p s (carried n d) -> crashes (fst (feed (rest seed s tt) (d :: l)))).
Proof.
  unfold rest. cbv zeta. replace (n + K + S_)%nat with (n + 256)%nat by (unfold K, S_; lia). set (x := cs ++ bonus).
  assert (Lx : length x = (n + 256)%nat) by (unfold x; rewrite app_length, bonus_ok; reflexivity).
  set (h := (n + 256)%nat) in *.
  destruct (honest_rows fill fill_ok seed0 (repeat 0 16) ltac:(split; [apply repeat_length|now apply Forall_repeat]) x) as (t & _ & Et & Lt & Bt & _).
  pose proof (expand_seeds_ok fill fill_ok h seed0 (proj1 seed0_ok)) as E0s.
  pose proof (expand_seeds_ok fill fill_ok h seed1 (proj1 seed1_ok)) as E1s.
  pose proof (compute_u_ok fill fill_ok p seed0 seed1 x) as Cu.
  rewrite Lx in *.
  destruct (compute_v_any sha p cores t h sha_ok cores_ok ltac:(unfold h; lia) Lt) as (v & Ev & Lv).
  pose proof (receiver_sums_ok p a t (fill seed (16 * h)) x h Lt Bt (proj1 (fill_ok _ _)) (proj2 (fill_ok _ _)) Lx) as Es.
  rewrite E0s. cbn [lift pbind]. rewrite E1s. cbn [lift pbind]. rewrite Cu. cbn [lift pbind send feed].
  rewrite Et. cbn [lift pbind ret]. rewrite Es. cbn [lift pbind send feed]. rewrite Ev. cbn [lift pbind recv ret feed fst snd].
  split; [eexists; reflexivity|]. intros d l. cbn [lift pbind feed fst snd].
  apply (last_frame fill fill_ok p cores cores_ok n h v (pack_choices x) d s n_pos ltac:(unfold h; lia) Lv).
  rewrite pack_choices_length, Lx. unfold h. pose proof (Nat.div_mod (n + 256) 8 ltac:(discriminate)). pose proof (Nat.mod_upper_bound (n + 256) 8 ltac:(discriminate)). lia.
Qed.

Lemma receiver_opens ins : (exists m u sz l s seed, ins = m :: u :: sz :: l /\ greets n m /\ length u = 32%nat /\ announced_size sz = Ok s /\
     fst (feed recvr ins) = fst (feed (pbind (co_sender sha gen G p rs (combine seed0 seed1)) (rest seed s)) l)) \/
  (exists m u sz l, ins = m :: u :: sz :: l /\ greets n m /\ length u = 32%nat /\ crashes (announced_size sz) /\ crashes (fst (feed recvr ins))) \/
  ((forall sz l, ~ opened n ins sz l) /\ fails (fst (feed recvr ins))).
Proof.
  assert (E0 : recvr = let! _ := lift (debug_assert p (Nat.eqb (n mod 8) 0)) in
     let! _ := validate_properties (mkProps n apricot_name) in
     let! seed := coinflip_sender sha 32 cv in
     let! m := recv in
     let! msg_size := lift (announced_size m) in
     let! q := co_sender sha gen G p rs (combine seed0 seed1) in rest seed msg_size q) by reflexivity.
  rewrite E0. assert (D : debug_assert p (Nat.eqb (n mod 8) 0) = Ok tt) by (destruct n8 as [-> | ->]; [reflexivity|destruct p; reflexivity]).
  rewrite D. cbn [lift pbind].
  destruct (greet_dec n ins) as [(m & l & -> & Hm)|Hm].
  2:{ right; right. split.
      - intros sz l (m & u & -> & Gm & _). apply Hm. eauto.
      - destruct (feedr_stranger n ins Hm) as (e & out & rst & F). exists e. eapply feed_errs. exact F. }
  match goal with |- context [fst (feed (pbind (validate_properties _) ?f) (m :: l))] => remember f as f0 eqn:Ef end.
  assert (Go : forall o, fst (feed (f0 tt) l) = o -> fst (feed (pbind (validate_properties (mkProps n apricot_name)) f0) (m :: l)) = o)
    by (intros o; apply (feed_after _ f0 _ tt _ l _ (feedr_greet n l m Hm))).
  rewrite (Go _ eq_refl). clear Go. subst f0. cbn [coinflip_sender pbind send recv ret feed].
  destruct l as [|u l].
  { right; right. split; [intros ? ? (? & ? & E & _); discriminate|cbn; eexists; reflexivity]. }
  cbn [pbind feed]. destruct (Nat.eqb_spec (length u) 32) as [Lu|Lu]; cbn [negb pbind].
  2:{ right; right. split; [intros ? ? (? & ? & E & _ & Q); injection E; intros; subst; contradiction|cbn; eexists; reflexivity]. }
  cbn [pbind send recv ret feed]. destruct l as [|sz l].
  { right; right. split; [intros ? ? (? & ? & E & _); discriminate|cbn; eexists; reflexivity]. }
  cbn [pbind feed]. destruct (announced_size sz) as [s|e|r|] eqn:Es.
  - left. do 6 eexists. split; [reflexivity|]. split; [exact Hm|]. split; [exact Lu|]. split; [exact Es|].
    cbn [lift pbind fst snd]. rewrite !fst_sent. reflexivity.
  - exfalso. unfold announced_size, idx in Es. destruct sz as [|? [|? ?]]; discriminate.
  - right; left. do 4 eexists. split; [reflexivity|]. split; [exact Hm|]. split; [exact Lu|]. rewrite Es. split; [eexists; reflexivity|]. cbn. eexists; reflexivity.
  - exfalso. unfold announced_size, idx in Es. destruct sz as [|? [|? ?]]; discriminate.
Qed.

Lemma opened_go ins sz l s : opened n ins sz l -> announced_size sz = Ok s ->
  exists seed, fst (feed recvr ins) = fst (feed (pbind (co_sender sha gen G p rs (combine seed0 seed1)) (rest seed s)) l).
Proof.
  intros O E. destruct (receiver_opens ins) as [(m & u & sz' & l' & s' & seed & -> & Hm & Lu & Es & F)|[(m & u & sz' & l' & -> & Hm & Lu & [r Es] & _)|[K _]]].
  - destruct O as (m' & u' & Ei & _). injection Ei as <- <- <- <-. rewrite E in Es. injection Es as <-. eauto.
  - destruct O as (m' & u' & Ei & _). injection Ei as <- <- <- <-. congruence.
  - exfalso. eapply K; eauto.
Qed.
Lemma opened_crash ins sz l : opened n ins sz l -> (length sz < 2)%nat -> crashes (fst (feed recvr ins)).
Proof.
  intros O H. destruct (announced_short sz H) as [r E]. destruct (receiver_opens ins) as [(m & u & sz' & l' & s' & seed & -> & Hm & Lu & Es & F)|[(m & u & sz' & l' & -> & Hm & Lu & _ & F)|[K _]]].
  - destruct O as (m' & u' & Ei & _). injection Ei as <- <- <- <-. congruence.
  - exact F.
  - exfalso. eapply K; eauto.
Qed.
Lemma seeded_go ins s l : Forall bytes_ok ins -> seeded G n ins s l -> exists seed, fst (feed recvr ins) = fst (feed (rest seed s tt) l).
Proof.
  intros HB (sz & b & l' & O & An & Ag & Pt & ->).
  assert (Bz : bytes_ok sz) by (destruct O as (? & ? & E & _); rewrite E in HB; exact (Forall_inv (Forall_inv_tail (Forall_inv_tail HB)))).
  destruct (opened_go ins sz _ s O (announced_ok sz s Bz An)) as [seed ->]. exists seed.
  destruct (co_sender_ends sha gen G gen_ok G_ok p rs (combine seed0 seed1) (b :: l')) as [[_ Su] _]. rewrite pairs_128 in Su.
  destruct (Su ltac:(eauto)) as [[] E]. rewrite feed_feedr in E.
  destruct (feedr (co_sender sha gen G p rs (combine seed0 seed1)) (b :: l')) as [[o1 out1] rest1] eqn:F. cbn in E. subst o1.
  pose proof (holds_rest _ _ 0 _ _ _ _ (holds_co_sender sha gen G p (fun _ _ => True) rs (combine seed0 seed1) 0) F) as [_ R].
  rewrite pairs_128 in R. cbn [Nat.add Nat.sub] in R. change (skipn 129 (b :: l')) with (skipn 128 l') in R. subst rest1.
  eapply feed_after; [exact F|reflexivity].
Qed.

Theorem ap_receiver_ends ins : Forall bytes_ok ins ->
  let o := fst (feed recvr ins) in
  (succeeds o <-> exists s d l, seeded G n ins s (d :: l) /\ accepts p s (carried n d)) /\
  (crashes o <-> (exists sz l, opened n ins sz l /\ (length sz < 2)%nat) \/
     (exists sz b l s, opened n ins sz (b :: l) /\ announces sz s /\ agrees 128 b /\ ~ points G 128 l) \/
     (exists s d l, seeded G n ins s (d :: l) /\ ~ accepts p s (carried n d))) /\
  (fails o <-> (forall sz l, ~ opened n ins sz l) \/
     (exists sz l s, opened n ins sz l /\ announces sz s /\ ~ exists b l', l = b :: l' /\ agrees 128 b) \/
     (exists s, seeded G n ins s [])) /\
  o <> UB.
Proof.
  intros HB o.
  assert (Bz : forall sz l, opened n ins sz l -> bytes_ok sz) by (intros sz l (? & ? & E & _); rewrite E in HB; exact (Forall_inv (Forall_inv_tail (Forall_inv_tail HB)))).
  apply three.
  - intros (s & d & l & Sd & Ac). destruct (seeded_go ins s _ HB Sd) as [seed F]. destruct (proj1 (proj2 (rest_ends seed s) d l) Ac) as (out & E & _).
    exists out. unfold o. now rewrite F.
  - intros [(sz & l & O & H)|[(sz & b & l & s & O & An & Ag & Pt)|(s & d & l & Sd & Ac)]].
    + eapply opened_crash; eauto.
    + destruct (opened_go ins sz _ s O (announced_ok sz s (Bz _ _ O) An)) as [seed F]. unfold o. rewrite F. apply feed_crashes.
      destruct (co_sender_ends sha gen G gen_ok G_ok p rs (combine seed0 seed1) (b :: l)) as (_ & [_ Cr] & _). rewrite pairs_128 in Cr. apply Cr. eauto.
    + destruct (seeded_go ins s _ HB Sd) as [seed F]. unfold o. rewrite F. exact (proj2 (proj2 (rest_ends seed s) d l) Ac).
  - intros [H|[(sz & l & s & O & An & Na)|(s & Sd)]].
    + destruct (receiver_opens ins) as [(m & u & sz' & l' & s' & seed & -> & Hm & Lu & Es & F)|[(m & u & sz' & l' & -> & Hm & Lu & _ & F)|[_ F]]]; [| |exact F];
        exfalso; eapply H; exists m, u; eauto.
    + destruct (opened_go ins sz _ s O (announced_ok sz s (Bz _ _ O) An)) as [seed F]. unfold o. rewrite F. apply feed_fails.
      destruct (co_sender_ends sha gen G gen_ok G_ok p rs (combine seed0 seed1) l) as (_ & _ & [_ Fa] & _). rewrite pairs_128 in Fa. apply Fa. exact Na.
    + destruct (seeded_go ins s _ HB Sd) as [seed F]. unfold o. rewrite F. apply (rest_ends seed s).
  - destruct (receiver_opens ins) as [(m & u & sz & l & s & seed & Ei & Hm & Lu & Es & F)|[(m & u & sz & l & Ei & Hm & Lu & [r Es] & _)|[H _]]]; [| |auto].
    + assert (O : opened n ins sz l) by (exists m, u; auto).
      destruct (announces_cases sz (Bz _ _ O)) as [[s' An]|Sh]; [|right; left; left; eauto].
      pose proof (announced_ok sz s' (Bz _ _ O) An) as Es'. rewrite Es in Es'. injection Es' as <-.
      destruct (agree_dec 128 l) as [(b & l' & -> & Ag)|Na]; [|right; right; right; left; exists sz, l, s; auto].
      destruct (points_dec G 128 l') as [Pt|Pt]; [|right; left; right; left; exists sz, b, l', s; auto].
      assert (Sd : seeded G n ins s (skipn 128 l')) by (exists sz, b, l'; auto).
      destruct (skipn 128 l') as [|d l2]; [right; right; right; right; eauto|].
      destruct (accepts_dec p s (carried n d)) as [Ac|Ac]; [left; eauto|right; left; right; right; eauto].
    + assert (O : opened n ins sz l) by (exists m, u; auto). right; left; left. exists sz, l. split; [exact O|].
      destruct (announces_cases sz (Bz _ _ O)) as [[s' An]|Sh]; [|exact Sh].
      pose proof (announced_ok sz s' (Bz _ _ O) An). congruence.
Qed.

Theorem ap_receiver_sizes ins out : Forall bytes_ok ins -> fst (feed recvr ins) = Ok out ->
  exists s d l, seeded G n ins s (d :: l) /\ accepts p s (carried n d) /\ length out = n /\ Forall (fun y => length y = s) out.
Proof.
  intros HB E. destruct (ap_receiver_ends ins HB) as [[K _] _]. destruct (K ltac:(eexists; exact E)) as (s & d & l & Sd & Ac).
  destruct (seeded_go ins s _ HB Sd) as [seed F]. destruct (proj1 (proj2 (rest_ends seed s) d l) Ac) as (out' & E' & Lo & Fo).
  rewrite F, E' in E. injection E as ->. eauto 7.
Qed.
End Receiver.
Theorem empty_last_frame sha fill gen G a cores cv bonus seed0 seed1 rs cs ins s l :
  hash32 sha -> generator fill -> generator gen -> curve_ok G -> (1 <= cores)%nat ->
  length bonus = 256%nat -> seeds_ok seed0 -> seeds_ok seed1 -> (1 <= length cs)%nat -> Forall bytes_ok ins ->
  seeded G (length cs) ins s ([] :: l) ->
  exists out, fst (feed (ap_receiver sha fill Release a cores cv bonus seed0 seed1 (co_sender sha gen G Release rs) cs) ins) = Ok out /\
    length out = length cs /\ Forall (fun y => length y = s) out.
Proof.
  intros Hs Hf Hg HG Hc Lb S0 S1 Hn HB Sd.
  destruct (seeded_go sha fill gen G Hg HG Release a cores cv bonus seed0 seed1 rs S0 S1 cs (or_introl eq_refl) ins s _ HB Sd) as [seed F].
  rewrite F. apply (rest_ends sha fill Hs Hf Release a cores Hc bonus seed0 seed1 Lb S0 S1 cs Hn (or_introl eq_refl) seed s).
  unfold accepts, carried. cbn [length]. change (0 / 2)%nat with 0%nat. rewrite Nat.div_0_l by lia. lia.
Qed.
