(** How rare weights are that do not span. *)
From Coq Require Import List NArith Bool Lia Arith.
From Verif Require Import Base MUtil SpecUtil SpecOt SpecPads SpecHide PBase PUtil PPoly PPar PApricotA PApricot PLinDep PApricotEvil PHide.
Import ListNotations.
Open Scope N_scope.

(** ** Sums and functionals *)
Definition sums (vs : list N) (v : N) : Prop := exists b, length b = length vs /\ selxor b vs = v.
Lemma selxor_flipped b : forall c vs, length b = length vs -> length c = length vs -> selxor (flipped b c) vs = N.lxor (selxor b vs) (selxor c vs).
Proof.
  induction b as [|x b IH]; intros [|y c] [|v vs] Lb Lc; cbn in Lb, Lc; try discriminate; [reflexivity|].
  unfold flipped in *. cbn [combine map fst snd selxor]. rewrite IH by lia.
  destruct x, y; cbn [xorb]; rewrite ?N.lxor_0_l; auto.
  - rewrite N.lxor_assoc, (lxor_swap (selxor b vs)), <- N.lxor_assoc, N.lxor_nilpotent, N.lxor_0_l. reflexivity.
  - now rewrite N.lxor_assoc.
  - apply lxor_swap.
Qed.
Lemma sums_lxor vs u v : sums vs u -> sums vs v -> sums vs (N.lxor u v).
Proof.
  intros (b & Lb & Eb) (c & Lc & Ec). exists (flipped b c). split; [unfold flipped; rewrite map_length, combine_length; lia|].
  rewrite selxor_flipped by auto. congruence.
Qed.
Lemma sums_0 vs : sums vs 0.
Proof.
  exists (repeat false (length vs)). split; [apply repeat_length|]. induction vs as [|v vs IH]; cbn; auto.
Qed.
Lemma sums_cons w vs v : sums vs v -> sums (w :: vs) v.
Proof. intros (b & Lb & Eb). exists (false :: b). split; [cbn; congruence|]. cbn [selxor]. now rewrite N.lxor_0_l. Qed.
Lemma sums_in v vs : In v vs -> sums vs v.
Proof.
  induction vs as [|w vs IH]; intros H; [destruct H|]. destruct H as [->|H]; [|apply sums_cons; auto].
  destruct (sums_0 vs) as (b & Lb & Eb). exists (true :: b). split; [cbn; congruence|]. cbn [selxor]. rewrite Eb. apply N.lxor_0_r.
Qed.
Lemma sums_trans ws vs v : (forall w, In w ws -> sums vs w) -> sums ws v -> sums vs v.
Proof.
  intros H (b & Lb & <-). revert ws Lb H. induction b as [|x b IH]; intros [|w ws] Lb H; cbn in Lb; try discriminate; [apply sums_0|].
  cbn [selxor]. apply sums_lxor.
  - destruct x; [apply H; now left|apply sums_0].
  - apply IH; [lia|]. intros y Hy. apply H. now right.
Qed.

Fixpoint dot (k : nat) (f v : N) : bool :=
  match k with
  | O => false
  | S k' => xorb (dot k' f v) (N.testbit f (N.of_nat k') && N.testbit v (N.of_nat k'))
  end.
Lemma dot_lxor_r k f u v : dot k f (N.lxor u v) = xorb (dot k f u) (dot k f v).
Proof.
  induction k as [|k IH]; [reflexivity|]. cbn [dot]. rewrite IH, N.lxor_spec.
  destruct (dot k f u), (dot k f v), (N.testbit f (N.of_nat k)), (N.testbit u (N.of_nat k)), (N.testbit v (N.of_nat k)); reflexivity.
Qed.
Lemma dot_ext k f f' v : (forall j, (j < k)%nat -> N.testbit f (N.of_nat j) = N.testbit f' (N.of_nat j)) -> dot k f v = dot k f' v.
Proof. induction k as [|k IH]; intros H; [reflexivity|]. cbn [dot]. rewrite IH by (intros; apply H; lia). now rewrite H by lia. Qed.
Lemma dot_pow k f j : (j < k)%nat -> dot k f (2 ^ N.of_nat j) = N.testbit f (N.of_nat j).
Proof.
  intros H.
  assert (Z : forall m, (m <= j)%nat -> dot m f (2 ^ N.of_nat j) = false).
  { induction m as [|m IH]; intros Hm; [reflexivity|]. cbn [dot]. rewrite IH, N.pow2_bits_false, andb_false_r by lia. reflexivity. }
  induction k as [|k IH]; [lia|]. cbn [dot]. destruct (Nat.eq_dec j k) as [->|Ne].
  - rewrite Z, N.pow2_bits_true, andb_true_r by lia. apply xorb_false_l.
  - rewrite IH, N.pow2_bits_false, andb_false_r, xorb_false_r by lia. reflexivity.
Qed.

(** A functional that kills all of [vs], or 0 if they span. *)
Fixpoint dual (k : nat) (vs : list N) : N :=
  match k with
  | O => 0
  | S k' =>
      match find (fun v => N.testbit v (N.of_nat k')) vs with
      | None => 2 ^ N.of_nat k'
      | Some p =>
          let f := dual k' (map (elim (N.of_nat k') p) vs) in
          if f =? 0 then 0 else if dot k' f p then N.lxor f (2 ^ N.of_nat k') else f
      end
  end.
Lemma elim_lt k p v : N.testbit p k = true -> p < 2 ^ (k + 1) -> v < 2 ^ (k + 1) -> elim k p v < 2 ^ k.
Proof.
  intros Fb Hp Hv. apply lt_bit; unfold elim; destruct (N.testbit v k) eqn:B; auto.
  - now apply lxor_lt2.
  - rewrite N.lxor_spec, B, Fb. reflexivity.
Qed.
Lemma dual_ok k : forall vs, Forall (fun v => v < 2 ^ N.of_nat k) vs ->
  dual k vs < 2 ^ N.of_nat k /\
  (dual k vs = 0 -> forall v, v < 2 ^ N.of_nat k -> sums vs v) /\
  (dual k vs <> 0 -> forall v, In v vs -> dot k (dual k vs) v = false).
Proof.
  induction k as [|k IH]; intros vs H.
  - split; [reflexivity|]. split; [|intros C; now destruct C]. intros _ v Hv. assert (v = 0) by (cbn in Hv; lia). subst v. apply sums_0.
  - replace (N.of_nat (S k)) with (N.of_nat k + 1) in * by lia. cbn [dual].
    assert (Hpow : 2 ^ N.of_nat k < 2 ^ (N.of_nat k + 1)) by (apply N.pow_lt_mono_r; lia).
    destruct (find (fun v => N.testbit v (N.of_nat k)) vs) as [p|] eqn:F.
    + apply find_some in F. destruct F as [Fi Fb]. rewrite Forall_forall in H. pose proof (H p Fi) as Hp.
      destruct (IH (map (elim (N.of_nat k) p) vs)) as (D1 & D2 & D3).
      { apply Forall_forall. intros x Hx. apply in_map_iff in Hx. destruct Hx as (w & <- & Hw). now apply elim_lt; auto. }
      set (f := dual k (map (elim (N.of_nat k) p) vs)) in *.
      destruct (N.eqb_spec f 0) as [Ef|Ef].
      * split; [apply N.neq_0_lt_0, N.pow_nonzero; lia|]. split; [|intros C; now destruct C].
        intros _ v Hv.
        assert (S1 : sums vs (elim (N.of_nat k) p v)).
        { apply (sums_trans (map (elim (N.of_nat k) p) vs)).
          - intros w Hw. apply in_map_iff in Hw. destruct Hw as (x & <- & Hx). unfold elim.
            destruct (N.testbit x (N.of_nat k)); [apply sums_lxor|]; now apply sums_in.
          - apply D2; [exact Ef|]. now apply elim_lt. }
        unfold elim in S1. destruct (N.testbit v (N.of_nat k)); [|exact S1].
        replace v with (N.lxor (N.lxor v p) p) by (rewrite N.lxor_assoc, N.lxor_nilpotent; apply N.lxor_0_r).
        apply sums_lxor; [exact S1|now apply sums_in].
      * assert (D3' := D3 Ef).
        assert (Fk : N.testbit f (N.of_nat k) = false) by (apply (high_bits f (N.of_nat k)); [exact D1|lia]).
        set (g := if dot k f p then N.lxor f (2 ^ N.of_nat k) else f).
        assert (Gk : N.testbit g (N.of_nat k) = dot k f p).
        { unfold g. destruct (dot k f p); [rewrite N.lxor_spec, Fk, N.pow2_bits_true; reflexivity|exact Fk]. }
        assert (Gj : forall j, (j < k)%nat -> N.testbit g (N.of_nat j) = N.testbit f (N.of_nat j)).
        { intros j Hj. unfold g. destruct (dot k f p); [|reflexivity]. rewrite N.lxor_spec, N.pow2_bits_false, xorb_false_r by lia. reflexivity. }
        split; [unfold g; destruct (dot k f p); [apply lxor_lt2|]; lia|]. split.
        -- intros Eg. exfalso. apply Ef. apply N.bits_inj. intros i. rewrite N.bits_0.
           destruct (N.lt_ge_cases i (N.of_nat k)) as [L|L]; [|now apply (high_bits f (N.of_nat k))].
           rewrite <- (N2Nat.id i), <- Gj by lia. rewrite Eg. apply N.bits_0.
        -- intros _ v Hv. cbn [dot]. rewrite (dot_ext k g f v Gj), Gk.
           assert (D := D3' (elim (N.of_nat k) p v) (in_map _ _ _ Hv)). unfold elim in D.
           destruct (N.testbit v (N.of_nat k)).
           ++ rewrite dot_lxor_r in D. rewrite andb_true_r. exact D.
           ++ rewrite andb_false_r, xorb_false_r. exact D.
    + pose proof (find_none _ _ F) as Fn. cbn beta in Fn.
      split; [exact Hpow|]. split; [intros C; pose proof (N.pow_nonzero 2 (N.of_nat k)); lia|].
      intros _ v Hv. cbn [dot]. rewrite (Fn v Hv), andb_false_r, xorb_false_r.
      rewrite (dot_ext k _ 0) by (intros j Hj; rewrite N.pow2_bits_false, N.bits_0 by lia; reflexivity).
      clear. induction k as [|k IH]; [reflexivity|]. cbn [dot]. rewrite IH, N.bits_0. reflexivity.
Qed.

(** ** Leaving out one bit *)
Definition squeeze (h v : N) : N := v mod 2 ^ h + v / 2 ^ (h + 1) * 2 ^ h.
Definition stretch (f w : N) : N :=
  let h := N.log2 f in
  let v0 := w mod 2 ^ h + w / 2 ^ h * 2 ^ (h + 1) in
  if dot 128 f v0 then N.lxor v0 (2 ^ h) else v0.
Lemma mix_lt a b P Q : a < P -> b < Q -> a + b * P < Q * P.
Proof.
  intros Ha Hb. apply N.lt_le_trans with (P + b * P); [lia|]. replace (P + b * P) with ((b + 1) * P) by lia.
  apply N.mul_le_mono_r. lia.
Qed.
Lemma squeeze_lt h v k : h < k -> v < 2 ^ k -> squeeze h v < 2 ^ (k - 1).
Proof.
  intros Hh Hv. unfold squeeze.
  assert (H1 : v mod 2 ^ h < 2 ^ h) by (apply N.mod_lt, N.pow_nonzero; lia).
  assert (H2 : v / 2 ^ (h + 1) < 2 ^ (k - (h + 1))).
  { apply N.div_lt_upper_bound; [apply N.pow_nonzero; lia|]. rewrite <- N.pow_add_r. replace (h + 1 + (k - (h + 1))) with k by lia. exact Hv. }
  assert (E : 2 ^ (k - 1) = 2 ^ (k - (h + 1)) * 2 ^ h). { rewrite <- N.pow_add_r. f_equal. lia. }
  rewrite E. now apply mix_lt.
Qed.
Lemma cleared h v : v mod 2 ^ h + v / 2 ^ (h + 1) * 2 ^ (h + 1) = if N.testbit v h then N.lxor v (2 ^ h) else v.
Proof.
  assert (Hp : 2 ^ h <> 0) by (apply N.pow_nonzero; lia).
  assert (E : v = v mod 2 ^ h + v / 2 ^ (h + 1) * 2 ^ (h + 1) + (if N.testbit v h then 2 ^ h else 0)).
  { pose proof (N.div_mod v (2 ^ h) Hp) as D. pose proof (N.div_mod (v / 2 ^ h) 2 ltac:(lia)) as D2.
    rewrite N.div_div in D2 by lia. replace (2 ^ h * 2) with (2 ^ (h + 1)) in D2 by (rewrite N.add_1_r, N.pow_succ_r'; lia).
    assert (E2 : 2 ^ (h + 1) = 2 * 2 ^ h) by (rewrite N.add_1_r; apply N.pow_succ_r').
    rewrite N.testbit_eqb. set (c := v / 2 ^ (h + 1)) in *. set (q := v / 2 ^ h) in *. set (m := v mod 2 ^ h) in *. rewrite E2.
    destruct (N.eqb_spec (q mod 2) 1) as [E1|E1].
    - rewrite E1 in D2. rewrite D at 1. rewrite D2 at 1. lia.
    - assert (E0 : q mod 2 = 0) by (pose proof (N.mod_lt q 2); lia). rewrite E0 in D2. rewrite D at 1. rewrite D2 at 1. lia. }
  set (v0 := v mod 2 ^ h + v / 2 ^ (h + 1) * 2 ^ (h + 1)) in *.
  destruct (N.testbit v h) eqn:B.
  - assert (B0 : N.testbit v0 h = false).
    { rewrite N.testbit_eqb. unfold v0. rewrite N.add_1_r, N.pow_succ_r'.
      replace (v mod 2 ^ h + v / (2 * 2 ^ h) * (2 * 2 ^ h)) with (v mod 2 ^ h + (v / (2 * 2 ^ h) * 2) * 2 ^ h) by lia.
      rewrite N.div_add by exact Hp. rewrite N.div_small by (now apply N.mod_lt). rewrite N.add_0_l, N.mod_mul by lia. reflexivity. }
    rewrite E at 1. rewrite N.add_nocarry_lxor.
    + rewrite N.lxor_assoc, N.lxor_nilpotent, N.lxor_0_r. reflexivity.
    + apply N.bits_inj. intros i. rewrite N.land_spec, N.bits_0, N.pow2_bits_eqb. destruct (N.eqb_spec h i) as [<-|]; [now rewrite B0|apply andb_false_r].
  - lia.
Qed.
Lemma stretch_squeeze f v : f <> 0 -> f < 2 ^ 128 -> v < 2 ^ 128 -> dot 128 f v = false -> stretch f (squeeze (N.log2 f) v) = v.
Proof.
  intros F0 Hf Hv D. set (h := N.log2 f).
  assert (Hp : 2 ^ h <> 0) by (apply N.pow_nonzero; lia).
  assert (Hh : h < 128) by (apply N.log2_lt_pow2; [lia|exact Hf]).
  assert (H1 : v mod 2 ^ h < 2 ^ h) by (now apply N.mod_lt).
  unfold stretch. fold h. unfold squeeze.
  rewrite N.mod_add, (N.mod_small (v mod 2 ^ h)) by auto. rewrite N.div_add, N.div_small, N.add_0_l by auto.
  rewrite cleared. destruct (N.testbit v h) eqn:B.
  - rewrite dot_lxor_r, D, xorb_false_l. replace h with (N.of_nat (N.to_nat h)) at 1 by lia.
    rewrite dot_pow by lia. rewrite N2Nat.id. unfold h at 1. rewrite N.bit_log2 by exact F0.
    rewrite N.lxor_assoc, N.lxor_nilpotent. apply N.lxor_0_r.
  - rewrite D. reflexivity.
Qed.

(** ** Packing *)
Fixpoint pack127 (vs : list N) : N := match vs with [] => 0 | v :: vs' => v + pack127 vs' * 2 ^ 127 end.
Fixpoint unpack127 (n : nat) (x : N) : list N := match n with O => [] | S n' => x mod 2 ^ 127 :: unpack127 n' (x / 2 ^ 127) end.
Lemma unpack_pack vs : Forall (fun v => v < 2 ^ 127) vs -> unpack127 (length vs) (pack127 vs) = vs.
Proof.
  assert (Hp : 2 ^ 127 <> 0) by (apply N.pow_nonzero; discriminate).
  induction vs as [|v vs IH]; intros H; [reflexivity|]. inversion H as [|? ? Hv Hs]; subst. cbn [length unpack127 pack127].
  rewrite N.mod_add, N.mod_small by assumption. rewrite N.div_add, N.div_small, N.add_0_l by assumption. now rewrite IH.
Qed.
Lemma pack_lt vs : Forall (fun v => v < 2 ^ 127) vs -> pack127 vs < 2 ^ (127 * N.of_nat (length vs)).
Proof.
  induction vs as [|v vs IH]; intros H; [reflexivity|]. inversion H as [|? ? Hv Hs]; subst. specialize (IH Hs). cbn [length pack127].
  replace (127 * N.of_nat (S (length vs))) with (127 * N.of_nat (length vs) + 127) by lia. rewrite N.pow_add_r.
  now apply mix_lt.
Qed.

Definition rows_of (n : nat) (chi : bytes) : list N := map (rowv chi) (seq 0 n).
Lemma weighted_sel x chi : weighted x chi = selxor x (rows_of (length x) chi).
Proof. rewrite weighted_xsum. now rewrite xsum_selxor. Qed.
Lemma spans_dual n chi : length chi = (16 * n)%nat -> bytes_ok chi -> (dual 128 (rows_of n chi) = 0 -> spans n chi).
Proof.
  intros L B E v Hv.
  destruct (dual_ok 128 (rows_of n chi)) as (_ & D & _).
  { apply Forall_forall. intros x Hx. apply in_map_iff in Hx. destruct Hx as (i & <- & Hi). apply in_seq in Hi. apply (rowv_lt chi i n); auto. lia. }
  destruct (D E v Hv) as (b & Lb & Eb). unfold rows_of in Lb. rewrite map_length, seq_length in Lb. exists b. split; [exact Lb|].
  rewrite weighted_sel, Lb. exact Eb.
Qed.

Definition shorten (n : nat) (k : nat) (chi : bytes) : bytes :=
  let vs := rows_of n chi in
  let f := dual 128 vs in
  le_bytes k (f + pack127 (map (squeeze (N.log2 f)) vs) * 2 ^ 128).
Definition lengthen (n : nat) (s : bytes) : bytes :=
  let x := le_value s in
  let f := x mod 2 ^ 128 in
  concat (map (fun w => le_bytes 16 (stretch f w)) (unpack127 n (x / 2 ^ 128))).

Lemma lengthen_shorten q chi : length chi = (16 * (8 * q))%nat -> bytes_ok chi -> ~ spans (8 * q) chi ->
  array_ok (127 * q + 16) (shorten (8 * q) (127 * q + 16) chi) /\ lengthen (8 * q) (shorten (8 * q) (127 * q + 16) chi) = chi.
Proof.
  intros L B Ns. split; [split; [apply le_bytes_length|apply le_bytes_ok]|].
  set (n := (8 * q)%nat) in *. set (vs := rows_of n chi). set (f := dual 128 vs).
  assert (Hvs : Forall (fun v => v < 2 ^ 128) vs).
  { apply Forall_forall. intros x Hx. apply in_map_iff in Hx. destruct Hx as (i & <- & Hi). apply in_seq in Hi. apply (rowv_lt chi i n); auto. lia. }
  destruct (dual_ok 128 vs Hvs) as (Df & _ & D). fold f in Df, D. change (N.of_nat 128) with 128 in Df.
  assert (F0 : f <> 0) by (intros E; apply Ns; now apply spans_dual).
  specialize (D F0).
  assert (Hh : N.log2 f < 128) by (apply N.log2_lt_pow2; [lia|exact Df]).
  set (ws := map (squeeze (N.log2 f)) vs).
  assert (Lv : length vs = n) by (unfold vs, rows_of; now rewrite map_length, seq_length).
  assert (Lw : length ws = n) by (unfold ws; now rewrite map_length).
  assert (Hws : Forall (fun v => v < 2 ^ 127) ws).
  { apply Forall_map. rewrite Forall_forall in Hvs. apply Forall_forall. intros x Hx. change 127 with (128 - 1). apply squeeze_lt; auto. }
  assert (Hx : f + pack127 ws * 2 ^ 128 < 2 ^ (8 * N.of_nat (127 * q + 16))).
  { pose proof (pack_lt ws Hws) as P. rewrite Lw in P.
    replace (8 * N.of_nat (127 * q + 16)) with (127 * N.of_nat n + 128) by (unfold n; lia). rewrite N.pow_add_r.
    now apply mix_lt. }
  unfold shorten, lengthen. fold vs. fold f. fold ws. rewrite le_value_bytes by exact Hx.
  assert (Hp : 2 ^ 128 <> 0) by (apply N.pow_nonzero; discriminate).
  rewrite N.mod_add, (N.mod_small f), N.div_add, (N.div_small f), N.add_0_l by assumption.
  rewrite <- Lw at 1. rewrite unpack_pack by exact Hws. unfold ws. rewrite map_map.
  etransitivity; [|apply (rows_eta 16 n chi); lia]. f_equal. unfold vs, rows_of. rewrite map_map. apply map_ext_in. intros i Hi.
  assert (Hiv : In (rowv chi i) vs) by (unfold vs, rows_of; now apply in_map).
  apply in_seq in Hi.
  rewrite stretch_squeeze; [|exact F0|exact Df|apply (rowv_lt chi i n); auto; lia|now apply D].
  unfold rowv. apply elem_eta. apply (frow_elem chi i n); auto. lia.
Qed.

Lemma dot_selxor k f b : forall vs, (forall v, In v vs -> dot k f v = false) -> dot k f (selxor b vs) = false.
Proof.
  assert (Z : dot k f 0 = false) by (clear; induction k as [|k IH]; [reflexivity|]; cbn [dot]; rewrite IH, N.bits_0, andb_false_r; reflexivity).
  induction b as [|x b IH]; intros [|v vs] H; cbn [selxor]; try exact Z.
  rewrite dot_lxor_r, IH by (intros; apply H; now right). rewrite xorb_false_r. destruct x; [apply H; now left|exact Z].
Qed.
Lemma spans_dec n chi : length chi = (16 * n)%nat -> bytes_ok chi -> spans n chi \/ ~ spans n chi.
Proof.
  intros L B. destruct (N.eq_dec (dual 128 (rows_of n chi)) 0) as [E|E]; [left; now apply spans_dual|]. right. intros Hs.
  destruct (dual_ok 128 (rows_of n chi)) as (Df & _ & D).
  { apply Forall_forall. intros x Hx. apply in_map_iff in Hx. destruct Hx as (i & <- & Hi). apply in_seq in Hi. apply (rowv_lt chi i n); auto. lia. }
  change (N.of_nat 128) with 128 in Df. set (f := dual 128 (rows_of n chi)) in *. specialize (D E).
  assert (Hh : N.log2 f < 128) by (apply N.log2_lt_pow2; [lia|exact Df]).
  destruct (Hs (2 ^ N.log2 f)) as (b & Lb & Eb). { apply N.pow_lt_mono_r; lia. }
  rewrite weighted_sel, Lb in Eb. pose proof (dot_selxor 128 f b _ D) as C. rewrite Eb in C.
  replace (N.log2 f) with (N.of_nat (N.to_nat (N.log2 f))) in C by lia. rewrite dot_pow in C by lia.
  rewrite N2Nat.id, N.bit_log2 in C by exact E. discriminate.
Qed.
