(** The parties of the classic OT extension on different processors. *)
From Coq Require Import List NArith Bool Arith Lia.
From Verif Require Import Base MUtil MWires MBitMatrix MPoly MBincode MProc MOt MApricot MClassic.
From Verif Require Import SpecUtil SpecBitMatrix SpecPoly SpecBincode SpecOt SpecApricot SpecClassic SpecMachine.
From Verif Require Import PBase PUtil PBitMatrix PPoly PBincode PProc POt PApricotA PApricot PClassic PBounds PCanon PHide PKey3 PPads2 PApricotRun PApricotRun2 PMachine PMachine2 PEnds2 PEnds4.
Import ListNotations.
Open Scope N_scope.

(** ** Transposed rows consist of bytes, whatever the source is *)
Lemma lor_lt2 k x y : x < 2 ^ k -> y < 2 ^ k -> N.lor x y < 2 ^ k.
Proof.
  intros Hx Hy. apply below_bits. intros j Hj. rewrite N.lor_spec, <- (N.mod_small x (2 ^ k)), <- (N.mod_small y (2 ^ k)) by assumption.
  now rewrite !N.mod_pow2_bits_high.
Qed.
Lemma keeps_or_at2_ok raw r c v : v < 256 -> Forall bytes_ok raw -> keeps (Forall bytes_ok) (or_at2 raw r c v).
Proof.
  intros Hv H. unfold or_at2. eapply keeps_bind; [apply keeps_idx|]. intros row Hr.
  eapply keeps_bind; [apply keeps_idx|]. intros old Ho.
  eapply keeps_bind; [apply keeps_set|]. intros row' ->.
  eapply keeps_weak; [apply keeps_set|]. cbn. intros ? ->.
  apply nth_error_In in Hr. assert (Br : bytes_ok row) by (rewrite Forall_forall in H; now apply H).
  apply Forall_set; [exact H|]. apply Forall_set; [exact Br|]. apply nth_error_In in Ho. unfold bytes_ok in Br. rewrite Forall_forall in Br.
  unfold byte_ok. change 256 with (2 ^ 8) in *. apply lor_lt2; [exact (Br _ Ho)|exact Hv].
Qed.
Lemma keeps_transpose_ok m : keeps (Forall bytes_ok) (transpose m).
Proof.
  unfold transpose, dims. eapply (keeps_bind (fun d => fst d = length m)).
  { eapply keeps_bind; [apply keeps_idx|]. intros ? _. reflexivity. }
  intros [rows cols] E. cbn in E. subst rows.
  apply keeps_foldM; [apply Forall_forall; intros x Hx; apply repeat_spec in Hx; subst; apply Forall_forall; intros y Hy; apply repeat_spec in Hy; subst; reflexivity|].
  intros raw r _ L1. unfold transpose_row. apply keeps_foldM; [exact L1|]. intros raw2 c _ L2.
  eapply keeps_bind; [apply keeps_idx|]. intros srow _. eapply keeps_bind; [apply keeps_idx|]. intros b _.
  unfold transpose_byte. apply keeps_foldM; [exact L2|]. intros raw3 k _ L3. cbv zeta.
  apply keeps_or_at2_ok; [apply shl8_lt|exact L3].
Qed.
Lemma transposed m t : length m = 128%nat -> transpose m = Ok t -> Forall elem t.
Proof.
  intros L E. pose proof (keeps_transpose m) as K1. pose proof (keeps_transpose_ok m) as K2. rewrite E in K1, K2. cbn in K1, K2.
  rewrite L in K1. rewrite Forall_forall in *. intros x Hx. split; [exact (K1 x Hx)|exact (K2 x Hx)].
Qed.

(** ** The multiplication in a release build *)
Lemma read128_prefix x : (16 <= length x)%nat -> read128 x = read128 (firstn 16 x).
Proof. intros L. unfold read128. rewrite firstn_length, Nat.min_l by lia. rewrite (proj2 (Nat.leb_le _ _) L). cbn [Nat.leb]. now rewrite firstn_firstn. Qed.
Lemma read64_prefix x k : (16 <= length x)%nat -> (k <= 1)%nat -> read64 x k = read64 (firstn 16 x) k.
Proof.
  intros L K. unfold read64. rewrite firstn_length, Nat.min_l by lia. rewrite !(proj2 (Nat.leb_le _ _)) by lia.
  rewrite skipn_firstn_comm, firstn_firstn, Nat.min_l by lia. reflexivity.
Qed.
Lemma gf_prefix a acc x y : (16 <= length x)%nat -> gf128_mul_acc a Release acc x y = gf128_mul_acc a Release acc (firstn 16 x) y.
Proof.
  intros L. destruct a as [[|]|]; cbn [gf128_mul_acc].
  - unfold mul_acc_x86. now rewrite read128_prefix by exact L.
  - unfold mul_acc_arm64. cbn [debug_assert is_debug obind]. now rewrite read128_prefix by exact L.
  - unfold mul_acc_generic, clmul_generic. cbn [debug_assert is_debug obind]. rewrite (read64_prefix x 0), (read64_prefix x 1) by lia. reflexivity.
Qed.
Lemma read128_less v : (length v < 16)%nat -> read128 v = UB.
Proof. intros H. unfold read128. now rewrite (proj2 (Nat.leb_gt _ _)) by exact H. Qed.
Lemma gf_short ar pr acc v d : (length v < 16)%nat -> elem d -> bytes_ok v -> pr = Release \/ ar = Some X86 ->
  gf128_mul_acc ar pr acc v d = UB.
Proof.
  intros H [Ld Bd] Bv Hc. destruct ar as [[|]|]; cbn [gf128_mul_acc].
  - unfold mul_acc_x86. now rewrite read128_less.
  - destruct Hc as [->|Hc]; [|discriminate]. unfold mul_acc_arm64. cbn [debug_assert is_debug obind]. now rewrite read128_less.
  - destruct Hc as [->|Hc]; [|discriminate]. unfold mul_acc_generic. cbn [debug_assert is_debug obind].
    assert (Z : clmul_generic 1 1 v d = UB).
    { unfold clmul_generic, read64. now rewrite (proj2 (Nat.leb_gt (8 * 1 + 8) _)) by (cbn; lia). }
    destruct (Nat.lt_ge_cases (length v) 8) as [S|S].
    { unfold clmul_generic at 1. unfold read64 at 1. now rewrite (proj2 (Nat.leb_gt (8 * 0 + 8) _)) by (cbn; lia). }
    assert (R : forall w, (8 <= length w)%nat -> bytes_ok w -> exists y, read64 w 0 = Ok y /\ y < 2 ^ 64).
    { intros w Lw Bw. unfold read64. rewrite (proj2 (Nat.leb_le (8 * 0 + 8) _)) by (cbn; lia). eexists. split; [reflexivity|].
      cbn [Nat.mul skipn]. pose proof (le_value_lt (firstn 8 w)) as B. rewrite firstn_length, Nat.min_l in B by lia. apply B.
      apply Forall_firstn. exact Bw. }
    destruct (R v S Bv) as (y & Ey & Hy). destruct (R d ltac:(lia) Bd) as (z & Ez & Hz).
    rewrite (clmul_generic_ok 0 0 v d y z Ey Ez Hy Hz). cbn [obind]. rewrite Z. reflexivity.
Qed.
Lemma gf_any a a' acc x y : length acc = 16%nat -> bytes_ok x -> elem y ->
  gf128_mul_acc a Release acc x y = gf128_mul_acc a' Release acc x y.
Proof.
  intros La Bx Ey. destruct (Nat.lt_ge_cases (length x) 16) as [L|L].
  - rewrite !gf_short by auto. reflexivity.
  - rewrite !(gf_prefix _ acc x y L). assert (E : elem (firstn 16 x)) by (split; [rewrite firstn_length; lia|now apply Forall_firstn]).
    now rewrite !gf_mul_ok.
Qed.

Lemma foldM_same {A S} (f g : S -> A -> outcome S) (I : S -> Prop) l : forall s, I s ->
  (forall s x, In x l -> I s -> f s x = g s x /\ forall s', f s x = Ok s' -> I s') -> foldM f l s = foldM g l s.
Proof.
  induction l as [|x l IH]; intros s Hs H; [reflexivity|]. cbn [foldM]. destruct (H s x (or_introl eq_refl) Hs) as [E K]. rewrite <- E.
  destruct (f s x) as [s'| | |] eqn:F; try reflexivity. cbn [obind]. apply IH; [now apply K|]. intros; apply H; [now right|assumption].
Qed.
Lemma gf_len a p acc x y z : length acc = 16%nat -> elem x -> elem y -> gf128_mul_acc a p acc x y = Ok z -> length z = 16%nat.
Proof. intros L Hx Hy. rewrite gf_mul_ok by auto. intros E. assert (R : z = le_bytes 16 (N.lxor (le_value acc) (gmul (le_value x) (le_value y)))) by congruence. rewrite R. apply le_bytes_length. Qed.

Section Sums.
Variables (p : profile) (a a' : option arch).
Lemma classic_row_sum_any q chi : Forall elem q -> Forall elem chi -> classic_row_sum p a q chi = classic_row_sum p a' q chi.
Proof.
  intros Hq Hc. rewrite Forall_forall in Hq, Hc. unfold classic_row_sum. apply foldM_same with (I := fun s => length s = 16%nat); [reflexivity|].
  intros s [x c] Hin L. cbn [fst snd]. apply in_combine_l in Hin as I1. apply in_combine_r in Hin as I2. apply Hq in I1. apply Hc in I2.
  rewrite !poly_from_ok by assumption. cbn [obind]. split; [now rewrite !gf_mul_ok|]. intros s' E. exact (gf_len _ _ _ _ _ _ L I1 I2 E).
Qed.
Lemma classic_row_sum_len q chi s : Forall elem q -> Forall elem chi -> classic_row_sum p a q chi = Ok s -> length s = 16%nat.
Proof.
  intros Hq Hc E. pose proof (keeps_classic_sum (fun x => x) (fun x _ => x) p a q chi) as K. rewrite E in K. apply K; [clear -Hq|clear -Hc]; (eapply Forall_impl; [|eassumption]); intros ? [? _]; assumption.
Qed.
Lemma classic_receiver_sums_any x t chi : Forall elem t -> Forall elem chi ->
  classic_receiver_sums p a x t chi = classic_receiver_sums p a' x t chi.
Proof.
  intros Hq Hc. rewrite Forall_forall in Hq, Hc. unfold classic_receiver_sums. apply foldM_same with (I := fun s => length (snd s) = 16%nat); [reflexivity|].
  intros [xs ts] [b [r c]] Hin L. cbn [fst snd] in *. apply in_combine_r in Hin. apply in_combine_l in Hin as I1. apply in_combine_r in Hin as I2. apply Hq in I1. apply Hc in I2.
  rewrite !poly_from_ok by assumption. cbn [obind]. destruct (if b then _ else _) as [xs'| | |]; cbn [obind]; try (split; [reflexivity|discriminate]).
  rewrite !gf_mul_ok by assumption. cbn [obind]. split; [reflexivity|]. intros s' E. assert (R : s' = (xs', le_bytes 16 (N.lxor (le_value ts) (gmul (le_value r) (le_value c))))) by congruence. rewrite R. apply le_bytes_length.
Qed.
End Sums.

(** ** The parties *)
Lemma feed_ext {A B} (q : proc A) (f g : A -> proc B) ins :
  (forall a out rest, feedr q ins = (Ok a, out, rest) -> feed (f a) rest = feed (g a) rest) -> feed (pbind q f) ins = feed (pbind q g) ins.
Proof.
  intros H. rewrite !feed_bind. destruct (feedr q ins) as [[o out] rest] eqn:E. destruct o as [a|e|r|]; try reflexivity.
  specialize (H a out rest eq_refl). cbn [after]. now rewrite H.
Qed.
Lemma feedr_rest {A} (P : bytes -> Prop) (q : proc A) : forall ins o out rest, Forall P ins -> feedr q ins = (o, out, rest) -> Forall P rest.
Proof.
  induction q as [o'|m k IH|k IH]; intros ins o out rest H E; cbn in E.
  - injection E as _ _ <-. exact H.
  - destruct (feedr k ins) as [[o1 out1] r1] eqn:F. injection E as _ _ <-. eapply IH; eassumption.
  - destruct ins as [|m ins]; [eapply IH; [|eassumption]; constructor|]. inversion H; subst. eapply IH; eassumption.
Qed.

Section Parties.
Variable sha : bytes -> bytes.
Variables gen20 gen8 : bytes -> nat -> bytes.
Hypothesis gen20_ok : generator gen20.
Variables a a' : option arch.

Lemma chi_ok seed l : Forall elem (classic_chi gen20 seed l).
Proof.
  unfold classic_chi. apply Forall_forall. intros c Hc. apply in_map_iff in Hc. destruct Hc as (i & <- & Hi). apply in_seq in Hi.
  destruct (gen20_ok seed (16 * l)%nat) as [L B]. apply (frow_elem _ i l); auto; lia.
Qed.

Lemma classic_receiver_any p cv bonus seed0 seed1 boot choices : length seed0 = 128%nat ->
  peq (classic_receiver sha gen20 gen8 p a cv bonus seed0 seed1 boot choices) (classic_receiver sha gen20 gen8 p a' cv bonus seed0 seed1 boot choices).
Proof.
  intros L0. unfold classic_receiver. do 3 (apply pbind_peq; intros _). cbv zeta. unfold receiver_cote.
  assert (Q : forall (A B C : Type) (q : proc A) (f : A -> proc B) (g g' : B -> proc C), (forall x, peq (pbind (f x) g) (pbind (f x) g')) -> peq (pbind (pbind q f) g) (pbind (pbind q f) g')).
  { intros A B C q f g g' H. eapply peq_trans; [apply pbind_assoc|]. eapply peq_trans; [|apply peq_sym, pbind_assoc]. now apply pbind_peq. }
  apply Q. intros _. cbv zeta. apply Q. intros u. apply Q. intros _.
  destruct (transpose _) as [t| | |] eqn:E; cbn [lift pbind]; try apply peq_refl.
  assert (Ht : Forall elem t) by (eapply transposed; [|exact E]; unfold expand_rows; now rewrite map_length).
  apply peq_bind; [|intros _; apply peq_refl]. unfold receiver_correlation. apply pbind_peq. intros seed. cbv zeta.
  rewrite (classic_receiver_sums_any p a a' _ t _ Ht (chi_ok _ _)). apply peq_refl.
Qed.

Lemma sender_rows delta boot l ins q out rest : length delta = 16%nat ->
  feedr (sender_cote gen20 delta boot l) ins = (Ok q, out, rest) -> Forall elem q.
Proof.
  intros Ld E. unfold sender_cote in E.
  apply feedr_bind_ok in E as (pay & o1 & r1 & o2 & _ & E). apply feedr_bind_ok in E as (sd & o3 & r3 & o4 & _ & E). cbv zeta in E.
  apply feedr_bind_ok in E as (m & o5 & r5 & o6 & _ & E). apply feedr_bind_ok in E as (u & o7 & r7 & o8 & _ & E).
  apply feedr_bind_ok in E as (qq & o9 & r9 & o10 & E1 & E).
  assert (F1 : classic_q delta u (expand_rows gen20 l sd) = Ok qq) by (destruct (classic_q _ _ _); inversion E1; reflexivity).
  assert (F2 : transpose qq = Ok q) by (destruct (transpose qq); inversion E; reflexivity).
  apply (transposed qq); [|exact F2]. pose proof (keeps_classic_q delta u (expand_rows gen20 l sd)) as K. rewrite F1 in K. cbn in K. rewrite K, Ld. reflexivity.
Qed.

Lemma classic_sender_any cu delta boot msgs ins : array_ok 16 delta -> Forall bytes_ok ins ->
  feed (classic_sender sha gen20 gen8 Release a cu delta boot msgs) ins = feed (classic_sender sha gen20 gen8 Release a' cu delta boot msgs) ins.
Proof.
  intros Hd Hi. unfold classic_sender.
  do 3 (apply feed_ext; intros [] ? ? F; eapply (feedr_rest bytes_ok) in F; [|eassumption]; clear Hi; rename F into Hi; try (revert Hi; match goal with |- Forall _ ?r -> _ => intros Hi end)).
  cbv zeta. apply feed_ext. intros q o r E. pose proof (sender_rows _ _ _ _ _ _ _ (proj1 Hd) E) as Hq. eapply (feedr_rest bytes_ok) in E; [|eassumption].
  unfold sender_correlation. rewrite !(feed_peq _ _ (pbind_assoc _ _ _)). apply feed_ext. intros seed o1 r1 E1. eapply (feedr_rest bytes_ok) in E1; [|exact E]. cbv zeta.
  rewrite (classic_row_sum_any Release a a' q _ Hq (chi_ok _ _)).
  destruct (classic_row_sum Release a' q _) as [qs| | |] eqn:Es; try reflexivity.
  assert (Ls : length qs = 16%nat) by (exact (classic_row_sum_len Release a' q _ qs Hq (chi_ok _ _) Es)).
  rewrite !(feed_peq _ _ (pbind_assoc _ _ _)). rewrite !lift_ok.
  rewrite !(feed_peq _ _ (pbind_assoc _ _ _)). apply feed_ext. intros m o2 r2 E2.
  assert (Hm : bytes_ok m). { destruct r1 as [|m' r1]; [discriminate|]. injection E2 as <- _ _. now inversion E1. }
  destruct (deserialize dec_bytes m) as [xs| | |] eqn:Ex; try reflexivity.
  assert (Bx : bytes_ok xs).
  { unfold deserialize in Ex. destruct (dec_bytes m) as [[v rst]| | |] eqn:Ev; try discriminate. injection Ex as ->. destruct (cn_bytes _ _ _ Hm Ev) as [[_ B] _]. exact B. }
  rewrite !(feed_peq _ _ (pbind_assoc _ _ _)). rewrite !lift_ok.
  rewrite !(feed_peq _ _ (pbind_assoc _ _ _)). apply feed_ext. intros m' o3 r3 _.
  destruct (deserialize dec_bytes m') as [ts| | |]; try reflexivity. rewrite !(feed_peq _ _ (pbind_assoc _ _ _)). rewrite !lift_ok.
  unfold classic_verdict. cbn [poly_from debug_assert is_debug obind]. rewrite (gf_any a a' qs xs delta Ls Bx Hd). reflexivity.
Qed.
End Parties.

(** Over the base OT of the code, the x sum is frame 134. *)
Lemma cote_reads sha gen G gen20 p rs delta l : length delta = 16%nat ->
  holds (fun _ _ => True) 0 (sender_cote gen20 delta (co_receiver sha gen G p rs) l) (fun j _ => j = 131%nat).
Proof.
  intros Ld. unfold sender_cote. eapply holds_bind.
  { apply (holds_co_receiver sha gen G p _ rs (u8_vec_to_bool_vec delta) 0 0). intros; lia. }
  rewrite bits_len, Ld. change (0 + 2 + 8 * 16)%nat with 130%nat. intros ? pays [-> _].
  eapply holds_bind; [apply holds_lift, keeps_copy|]. intros ? seeds [-> _]. cbv zeta.
  eapply holds_bind; [apply holds_recv|]. intros ? m [-> _].
  eapply holds_bind; [apply holds_lift, keeps_deserialize, gentle_rows|]. intros ? u [-> _].
  eapply holds_bind; [apply holds_lift, keeps_classic_q|]. intros ? q [-> Lq].
  eapply holds_weak; [apply holds_lift, keeps_transpose|]. cbn beta. intros j r [-> _]. reflexivity.
Qed.
Lemma nth_rest (ins : list bytes) k m r : skipn k ins = m :: r -> @nth bytes k ins [] = m.
Proof. revert ins. induction k; intros [|x ins] E; cbn in *; try discriminate; [congruence|auto]. Qed.
Lemma skipn_more (ins : list bytes) j k : skipn j (skipn k ins) = skipn (k + j) ins.
Proof. revert ins. induction k; intros [|x ins]; cbn; auto using skipn_nil. Qed.
Lemma gf_same p a a' acc x y : length acc = 16%nat -> bytes_ok x -> elem y -> p = Release \/ length x = 16%nat ->
  gf128_mul_acc a p acc x y = gf128_mul_acc a' p acc x y.
Proof. intros La Bx Ey [->|L]; [now apply gf_any|]. assert (elem x) by (split; assumption). now rewrite !gf_mul_ok. Qed.
Lemma classic_sender_same sha gen gen20 gen8 G p a a' cu delta rs msgs ins : generator gen20 -> array_ok 16 delta -> Forall bytes_ok ins ->
  p = Release \/ (forall v, deserialize dec_bytes (nth 134 ins []) = Ok v -> length v = 16%nat) ->
  feed (classic_sender sha gen20 gen8 p a cu delta (co_receiver sha gen G p rs) msgs) ins =
  feed (classic_sender sha gen20 gen8 p a' cu delta (co_receiver sha gen G p rs) msgs) ins.
Proof.
  intros Hg Hd Hi Hx. unfold classic_sender.
  apply feed_ext. intros [] o1 r1 F1. assert (r1 = ins) as -> by (destruct (assert_ _); inversion F1; auto). clear F1.
  apply feed_ext. intros [] o2 r2 F2. assert (r2 = ins) as -> by (destruct (assert_ _); inversion F2; auto). clear F2.
  apply feed_ext. intros [] o3 r3 F3. pose proof (feedr_rest bytes_ok _ _ _ _ _ Hi F3) as B3. apply validate_feedr in F3. destruct F3 as (m1 & ->).
  cbv zeta. apply feed_ext. intros q o r E. pose proof (sender_rows gen20 _ _ _ _ _ _ _ (proj1 Hd) E) as Hq.
  destruct (holds_rest _ 131 0 _ _ _ _ (cote_reads sha gen G gen20 p rs delta _ (proj1 Hd)) E) as [_ R]. cbn [Nat.sub] in R.
  eapply (feedr_rest bytes_ok) in E; [|eassumption].
  unfold sender_correlation. rewrite !(feed_peq _ _ (pbind_assoc _ _ _)). apply feed_ext. intros seed o4 r4 E1.
  destruct (holds_rest _ 2 0 _ _ _ _ (holds_coin_receiver _ sha 32 cu 0) E1) as [_ R1]. cbn [Nat.sub] in R1. rewrite R, skipn_more in R1. change (131 + 2)%nat with 133%nat in R1.
  eapply (feedr_rest bytes_ok) in E1; [|exact E]. cbv zeta.
  rewrite (classic_row_sum_any p a a' q _ Hq (chi_ok sha gen20 gen8 Hg _ _)).
  destruct (classic_row_sum p a' q _) as [qs| | |] eqn:Es; try reflexivity.
  assert (Ls : length qs = 16%nat) by (exact (classic_row_sum_len p a' q _ qs Hq (chi_ok sha gen20 gen8 Hg _ _) Es)).
  rewrite !(feed_peq _ _ (pbind_assoc _ _ _)). rewrite !lift_ok.
  rewrite !(feed_peq _ _ (pbind_assoc _ _ _)). apply feed_ext. intros m o5 r5 E2.
  destruct r4 as [|m' r4]; [discriminate|]. injection E2 as -> _ _. assert (Hm : bytes_ok m) by (now inversion E1).
  destruct (deserialize dec_bytes m) as [xs| | |] eqn:Ex; try reflexivity.
  assert (Bx : bytes_ok xs).
  { unfold deserialize in Ex. destruct (dec_bytes m) as [[v rst]| | |] eqn:Ev; try discriminate. injection Ex as ->. destruct (cn_bytes _ _ _ Hm Ev) as [[_ B] _]. exact B. }
  assert (Lx : p = Release \/ length xs = 16%nat).
  { destruct Hx as [Hx|Hx]; [now left|]. right. apply Hx. cbn [nth]. rewrite (nth_rest r3 133 m r4) by (now symmetry). exact Ex. }
  rewrite !(feed_peq _ _ (pbind_assoc _ _ _)). rewrite !lift_ok.
  rewrite !(feed_peq _ _ (pbind_assoc _ _ _)). apply feed_ext. intros m2 o6 r6 _.
  destruct (deserialize dec_bytes m2) as [ts| | |]; try reflexivity. rewrite !(feed_peq _ _ (pbind_assoc _ _ _)). rewrite !lift_ok.
  unfold classic_verdict. rewrite poly_from_ok by exact Hd. cbn [obind]. rewrite (gf_same p a a' qs xs delta Ls Bx Hd Lx). reflexivity.
Qed.

(** ** A receiver that sends sums of its choice *)
Section Evil.
Variable sha : bytes -> bytes.
Variables gen20 gen8 : bytes -> nat -> bytes.
Hypothesis gen20_ok : generator gen20.
Variable p : profile.
Variables (cu cv delta : bytes) (seed0 seed1 : list bytes).
Hypothesis cu_ok : array_ok 32 cu.
Hypothesis cv_ok : array_ok 32 cv.
Hypothesis delta_ok : array_ok 16 delta.
Hypothesis seed0_ok : seeds_ok seed0.
Hypothesis seed1_ok : seeds_ok seed1.
Variables (bootS : list (bytes * bytes) -> proc unit) (bootR : list bool -> proc (list bytes)).
Hypothesis boot_ok : ot_correct seed_pairs bootS bootR.

Lemma classic_any_sums msgs u x_sum t_sum : classic_ok msgs -> shaped 128 ((length msgs + 192) / 8) u -> blob_ok x_sum -> blob_ok t_sum ->
  exists qs : bytes, length qs = 16%nat /\ forall a o, classic_verdict p a qs delta x_sum t_sum = o /\ match o with Ok _ => False | _ => True end ->
  runs (classic_sender sha gen20 gen8 p a cu delta bootR msgs)
       (evil_classic sha cv seed0 seed1 bootS (length msgs) u x_sum t_sum) o (Ok tt).
Proof.
  intros ((Un & Hm) & Hpos & H8) Su Hxs Hts. set (n := length msgs) in *.
  destruct (classic_sizes (fun x => x) [] (repeat true 192) (repeat_length _ _) n Un Hpos H8) as (Hn8 & Hl8 & Htw). destruct (block_asserts n Hn8 H8) as [A1 A2].
  destruct (boot_runs delta seed0 seed1 delta_ok seed0_ok seed1_ok bootS bootR boot_ok) as (pay & Rb & Lp & Selp).
  assert (Hps : seeds_ok pay).
  { split; auto. apply Forall_forall. intros y Hy. destruct (In_nth _ _ [] Hy) as (i & Hi & <-).
    assert (Hi' : (i < 128)%nat) by (rewrite <- Lp; exact Hi). rewrite Selp by auto. destruct seed0_ok as [L0 H0], seed1_ok as [L1 H1].
    destruct (bit_of delta i); apply Forall_nth_in; auto; lia. }
  set (l := (n + 192)%nat) in *. set (tw := (l / 8)%nat) in *.
  set (T := fun i => gen20 (nth i pay []) tw).
  set (Q := fun i : nat => if bit_of delta i then zipWith N.lxor (nth i u []) (T i) else T i).
  assert (Eq : classic_q delta u (expand_rows gen20 l pay) = Ok (map Q (seq 0 128))).
  { unfold classic_q. cbv zeta.
    assert (Lb : length (u8_vec_to_bool_vec delta) = 128%nat) by (rewrite bits_length, (proj1 delta_ok); reflexivity).
    rewrite (tabulate (u8_vec_to_bool_vec delta) false 128 Lb) at 2. rewrite Lb.
    rewrite <- (map_id (seq 0 128)) at 1. rewrite combine_maps, mapM_map. apply mapM_Ok. intros i Hi. apply in_seq in Hi.
    assert (Ee : expand_rows gen20 l pay = map T (seq 0 128)).
    { unfold expand_rows. rewrite (tabulate pay [] 128 Lp) at 1. rewrite map_map. reflexivity. }
    rewrite Ee. rewrite bits_nth by (rewrite (proj1 delta_ok); lia).
    rewrite (idx_lt u i []) by (rewrite (proj1 Su); lia).
    rewrite (idx_lt _ i ([] : bytes)) by (rewrite map_length, seq_length; lia). rewrite nth_map_seq by lia.
    unfold Q. destruct (bit_of delta i); reflexivity. }
  assert (Sq : shaped (8 * 16) tw (map Q (seq 0 128))).
  { split; [reflexivity|]. apply forall_map_seq. intros i Hi. destruct (shaped_nth _ _ _ i Su Hi) as [Lu Bu].
    destruct (gen20_ok (nth i pay []) tw) as [LT BT]. fold (T i) in LT, BT. unfold Q. destruct (bit_of delta i).
    - split; [rewrite zip_length; congruence|now apply xor_bytes_okay].
    - auto. }
  destruct (transpose_ok _ 16 tw Sq ltac:(lia)) as (q & Etq & Sq' & _). rewrite <- Hl8 in Sq'.
  assert (Hq : forall i, (i < l)%nat -> elem (nth i q [])) by (intros i Hi; exact (shaped_nth _ _ _ i Sq' Hi)).
  assert (Ur : rows_ok u).
  { destruct Su as [Lu Fu]. split; [unfold usize_ok; rewrite Lu; reflexivity|]. eapply Forall_impl; [|exact Fu].
    intros row [Lr Br]. split; [unfold usize_ok; rewrite Lr; exact Htw|exact Br]. }
  set (seed := xor_arrays cv cu).
  set (C := fun i => firstn 16 (skipn (16 * i) (gen20 seed (16 * l))) : bytes).
  assert (HC : forall i, (i < l)%nat -> elem (C i)).
  { intros i Hi. destruct (gen20_ok seed (16 * l)%nat) as [L B]. apply (frow_elem _ i l); auto. }
  assert (Es : forall a, classic_row_sum p a (map (fun i => nth i q []) (seq 0 l)) (map C (seq 0 l)) = Ok (le_bytes 16 (xsum (fun i => gmul (le_value (nth i q [])) (le_value (C i))) l))).
  { intros a. exact (classic_row_sum_ok a p (fun i => nth i q []) C l Hq HC). }
  assert (Lq : length q = l) by apply Sq'. rewrite <- (tabulate q [] l Lq) in Es.
  exists (le_bytes 16 (xsum (fun i => gmul (le_value (nth i q [])) (le_value (C i))) l)). split; [apply le_bytes_length|]. intros a o Ho.
  unfold classic_sender, evil_classic. fold n.
  apply runs_lift_l with (a := tt); [exact A1|]. apply runs_lift_l with (a := tt); [exact A2|].
  eapply runs_bind; [apply validate_same, apricot_props, Un|].
  cbv zeta. replace (n + COMP_SEC + STAT_SEC)%nat with l by (unfold l, COMP_SEC, STAT_SEC; lia).
  unfold sender_cote, sender_correlation. apply runs_assoc_l. eapply runs_bind; [exact Rb|].
  apply runs_assoc_l. apply runs_lift_l with (a := pay); [now apply copy_seeds_ok|]. cbv zeta.
  apply runs_assoc_l. apply runs_recv_send. apply runs_assoc_l. apply runs_lift_l with (a := u); [apply (deserialize_reads _ _ _ _ rt_rows Ur)|].
  apply runs_assoc_l. eapply runs_lift_l; [exact Eq|]. apply runs_lift_l with (a := q); [exact Etq|].
  apply runs_assoc_l. eapply runs_bind; [apply runs_flip, coinflip_runs; [apply cv_ok|apply cu_ok]|].
  apply runs_assoc_l. eapply runs_lift_l; [exact (Es a)|].
  apply runs_assoc_l. apply runs_recv_send. apply runs_assoc_l. apply runs_lift_l with (a := x_sum).
  { apply (deserialize_reads _ _ _ _ rt_bytes Hxs). }
  apply runs_flip, runs_snd_rcv, runs_flip. cbn [pbind recv ret lift].
  rewrite (deserialize_reads _ _ _ _ rt_bytes Hts). cbn [pbind lift].
  destruct Ho as [Ho Hn]. rewrite Ho. destruct o; [destruct Hn| | |]; apply runs_done.
Qed.

End Evil.

Lemma long_verdict a qs delta x_sum t_sum : length qs = 16%nat -> array_ok 16 delta -> bytes_ok x_sum -> (16 < length x_sum)%nat -> length t_sum <> 16%nat ->
  classic_verdict Debug a qs delta x_sum t_sum = match a with Some X86 => Err ECorrelation | _ => Panic PAssert end /\
  classic_verdict Release a qs delta x_sum t_sum = Err ECorrelation.
Proof.
  intros Lq Hd Bx Lx Lt.
  assert (Ef : elem (firstn 16 x_sum)) by (split; [rewrite firstn_length; lia|now apply Forall_firstn]).
  assert (V : forall z, length z = 16%nat -> (if negb (bytes_eqb t_sum z) then Err ECorrelation else Ok tt) = Err ECorrelation).
  { intros z Lz. destruct (bytes_eqb t_sum z) eqn:E; [|reflexivity]. apply bytes_eqb_eq in E. congruence. }
  assert (R : forall a, exists z, gf128_mul_acc a Release qs x_sum delta = Ok z /\ length z = 16%nat).
  { intros b. rewrite gf_prefix by lia. eexists. split; [apply gf_mul_ok; auto|apply le_bytes_length]. }
  split.
  - unfold classic_verdict. rewrite poly_from_ok by exact Hd. cbn [obind]. destruct a as [[|]|].
    + destruct (R (Some X86)) as (z & E & Lz). cbn [gf128_mul_acc] in *. rewrite E. cbn [obind]. now apply V.
    + cbn [gf128_mul_acc]. unfold mul_acc_arm64. cbn [debug_assert is_debug]. unfold assert_. rewrite (proj2 (Nat.eqb_neq _ _)) by lia. reflexivity.
    + cbn [gf128_mul_acc]. unfold mul_acc_generic. cbn [debug_assert is_debug]. unfold assert_. rewrite (proj2 (Nat.eqb_neq _ _)) by lia. reflexivity.
  - unfold classic_verdict. rewrite poly_from_ok by exact Hd. cbn [obind]. destruct (R a) as (z & E & Lz). rewrite E. cbn [obind]. now apply V.
Qed.
