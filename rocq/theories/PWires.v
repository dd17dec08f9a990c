(** Wire labels: the operators of the model are component arithmetic. *)
From Coq Require Import List NArith Bool Arith Lia ZifyBool ZifyNat ZifyN.
From Verif Require Import Base PBase MUtil MWires SpecWires.
Import ListNotations.
Open Scope N_scope.

(** ** Component arithmetic *)
Lemma lxor_lt k a b : a < 2 ^ k -> b < 2 ^ k -> N.lxor a b < 2 ^ k.
Proof.
  intros Ha Hb.
  destruct (N.eq_dec (N.lxor a b) 0) as [->|Hn]. { apply N.neq_0_lt_0, N.pow_nonzero; lia. }
  apply N.log2_lt_pow2. { lia. }
  eapply N.le_lt_trans. apply N.log2_lxor.
  destruct (N.eq_dec a 0) as [->|Ha0], (N.eq_dec b 0) as [->|Hb0].
  - now rewrite N.lxor_0_r in Hn.
  - rewrite N.max_r by apply N.le_0_l. apply N.log2_lt_pow2; lia.
  - rewrite N.max_l by apply N.le_0_l. apply N.log2_lt_pow2; lia.
  - apply N.max_lub_lt; apply N.log2_lt_pow2; lia.
Qed.

Lemma lxor_byte a b : a < 256 -> b < 256 -> N.lxor a b < 256.
Proof. change 256 with (2 ^ 8). apply lxor_lt. Qed.

Definition lim (m : N) : N := if m =? 2 then 256 else m.

Lemma supported_nz m : supported m -> m <> 0.
Proof. unfold supported; lia. Qed.

Section Digit.
Variable m : N.
Hypothesis Hm : 2 <= m.

Lemma dplus_lt x y : x < lim m -> y < lim m -> dplus m x y < lim m.
Proof.
  unfold dplus, lim. destruct (N.eqb_spec m 2); intros.
  - now apply lxor_byte.
  - apply N.mod_lt; lia.
Qed.
Lemma dtimes_lt x c : x < lim m -> dtimes m x c < lim m.
Proof.
  unfold dtimes, lim. destruct (N.eqb_spec m 2); intros.
  - destruct (c =? 0); lia.
  - apply N.mod_lt; lia.
Qed.
Lemma dminus_lt x y : x < lim m -> y < lim m -> dminus m x y < lim m.
Proof.
  unfold dminus, lim. destruct (N.eqb_spec m 2); intros.
  - now apply lxor_byte.
  - apply N.mod_lt; lia.
Qed.
Lemma dplus_comm x y : dplus m x y = dplus m y x.
Proof. unfold dplus. destruct (m =? 2). apply N.lxor_comm. f_equal; lia. Qed.
Lemma dplus_assoc x y z : dplus m (dplus m x y) z = dplus m x (dplus m y z).
Proof.
  unfold dplus. destruct (m =? 2). apply N.lxor_assoc.
  rewrite N.add_mod_idemp_l, N.add_mod_idemp_r by lia. f_equal; lia.
Qed.
Lemma dplus_0 x : x < lim m -> dplus m x 0 = x.
Proof.
  unfold dplus, lim. destruct (m =? 2); intros. apply N.lxor_0_r.
  rewrite N.add_0_r. apply N.mod_small; auto.
Qed.
Lemma dtimes_0 x : dtimes m x 0 = 0.
Proof. unfold dtimes. destruct (m =? 2); auto. rewrite N.mul_0_r. apply N.mod_small; lia. Qed.
Lemma dtimes_1 x : x < lim m -> dtimes m x 1 = x.
Proof. unfold dtimes, lim. destruct (m =? 2); auto. rewrite N.mul_1_r. intros; apply N.mod_small; lia. Qed.

Lemma dtimes_add x a b : a < m -> b < m ->
  dplus m (dtimes m x a) (dtimes m x b) = dtimes m x ((a + b) mod m).
Proof.
  unfold dplus, dtimes. destruct (N.eqb_spec m 2); intros.
  - subst m. assert (a = 0 \/ a = 1) as [-> | ->] by lia; assert (b = 0 \/ b = 1) as [-> | ->] by lia; simpl.
    + reflexivity.
    + now destruct x.
    + now destruct x.
    + apply N.lxor_nilpotent.
  - rewrite <- N.add_mod by lia. rewrite N.mul_mod_idemp_r by lia. f_equal; lia.
Qed.
Lemma dtimes_dplus x y c : dtimes m (dplus m x y) c = dplus m (dtimes m x c) (dtimes m y c).
Proof.
  unfold dplus, dtimes. destruct (m =? 2).
  - destruct (c =? 0); auto.
  - rewrite N.mul_mod_idemp_l by lia. rewrite <- N.add_mod by lia. f_equal; lia.
Qed.
Lemma dtimes_dtimes x a c : a < m -> c < m -> dtimes m (dtimes m x a) c = dtimes m x ((a * c) mod m).
Proof.
  unfold dtimes. destruct (N.eqb_spec m 2); intros.
  - subst m. assert (a = 0 \/ a = 1) as [-> | ->] by lia; assert (c = 0 \/ c = 1) as [-> | ->] by lia; reflexivity.
  - rewrite N.mul_mod_idemp_l by lia. rewrite N.mul_mod_idemp_r by lia. f_equal; lia.
Qed.
Lemma dminus_dplus x y : x < lim m -> y < lim m -> dminus m (dplus m x y) x = y.
Proof.
  unfold dminus, dplus, lim. destruct (N.eqb_spec m 2); intros.
  - rewrite (N.lxor_comm x y), N.lxor_assoc, N.lxor_nilpotent. apply N.lxor_0_r.
  - rewrite N.add_mod_idemp_l by lia.
    replace (x + y + (m - x)) with (y + 1 * m) by lia.
    rewrite N.mod_add by lia. apply N.mod_small; lia.
Qed.
Lemma dplus_dminus x y : x < lim m -> y < lim m -> dplus m (dminus m x y) y = x.
Proof.
  unfold dminus, dplus, lim. destruct (N.eqb_spec m 2); intros.
  - rewrite N.lxor_assoc, N.lxor_nilpotent. apply N.lxor_0_r.
  - rewrite N.add_mod_idemp_l by lia.
    replace (x + (m - y) + y) with (x + 1 * m) by lia.
    rewrite N.mod_add by lia. apply N.mod_small; lia.
Qed.
End Digit.

(** ** Domains *)
Definition dom_of (m : N) : domain :=
  if m =? 2 then Binary else if m <? 255 then U8 m else if m =? 256 then U8MAX else U16 m.

Lemma supported_cases m : supported m ->
  (m = 2) \/ (m <> 2 /\ 3 <= m <= 128) \/ (m = 256) \/ (m = 255 \/ 257 <= m <= 32768).
Proof. unfold supported; lia. Qed.

Lemma domain_new_supported m : supported m -> domain_new m = Ok (dom_of m).
Proof.
  intros H. unfold supported in H. unfold domain_new, dom_of.
  destruct (N.eqb_spec m 0); [lia|]. destruct (N.eqb_spec m 2); auto.
  destruct (N.ltb_spec m 255); auto. destruct (N.eqb_spec m 256); auto.
  destruct (N.ltb_spec m 65535); auto. lia.
Qed.

Lemma domain_num_dom_of m : supported m -> domain_num (dom_of m) = m.
Proof.
  intros H; unfold dom_of. destruct (N.eqb_spec m 2); simpl; auto.
  destruct (N.ltb_spec m 255); simpl; auto. destruct (N.eqb_spec m 256); simpl; auto.
Qed.

Lemma domain_eqb_refl d : domain_eqb d d = true.
Proof. destruct d; simpl; auto; apply N.eqb_refl. Qed.
Lemma domain_eqb_eq a b : domain_eqb a b = true <-> a = b.
Proof.
  destruct a, b; simpl; split; intros; try congruence;
  try (apply N.eqb_eq in H; congruence); inversion H; apply N.eqb_refl.
Qed.

(** ** The list of components *)
Definition dg (m : N) (v : bytes) : list N := if wide m then to_u16s v else v.
Definition undg (m : N) (l : list N) : bytes := if wide m then of_u16s l else l.

Lemma to_u16s_length_aux k : forall v, length v = (2 * k)%nat -> length (to_u16s v) = k.
Proof.
  induction k; intros v H.
  - destruct v; simpl in *; auto; lia.
  - destruct v as [|a [|b v]]; simpl in H; try lia. simpl. rewrite IHk; auto; lia.
Qed.
Lemma to_u16s_of l : Forall (fun x => x < 65536) l -> to_u16s (of_u16s l) = l.
Proof.
  induction 1; simpl; auto. unfold of_u16s in *. rewrite IHForall. f_equal.
  rewrite (N.mod_small (x / 256)). 2:{ apply N.div_lt_upper_bound; lia. }
  pose proof (N.div_mod x 256); lia.
Qed.
Lemma of_u16s_to k : forall v, length v = (2 * k)%nat -> bytes_ok v -> of_u16s (to_u16s v) = v.
Proof.
  induction k; intros v H Hb.
  - destruct v; simpl in *; auto; lia.
  - destruct v as [|a [|b v]]; simpl in H; try lia.
    inversion Hb as [|? ? Ha Hb']; inversion Hb' as [|? ? Hb1 Hv]; subst.
    unfold byte_ok in *. simpl.
    fold (of_u16s (to_u16s v)).
    replace ((a + 256 * b) mod 256) with a.
    2:{ apply N.mod_unique with b; lia. }
    replace ((a + 256 * b) / 256) with b.
    2:{ apply N.div_unique with a; lia. }
    rewrite N.mod_small by lia. f_equal; f_equal. apply IHk; auto. lia.
Qed.
Lemma of_u16s_length l : length (of_u16s l) = (2 * length l)%nat.
Proof. induction l; simpl; auto. unfold of_u16s in *; rewrite IHl; lia. Qed.
Lemma of_u16s_ok l : bytes_ok (of_u16s l).
Proof.
  induction l; simpl; constructor; [apply N.mod_lt; lia|].
  constructor; [apply N.mod_lt; lia|]. exact IHl.
Qed.
Lemma to_u16s_lt v : bytes_ok v -> Forall (fun x => x < 65536) (to_u16s v).
Proof.
  remember (length v) as n eqn:E. revert v E.
  induction n as [n IH] using (well_founded_induction lt_wf); intros v E H.
  destruct v as [|a [|b v]]; simpl; auto.
  inversion H as [|? ? Ha Hb']; inversion Hb' as [|? ? Hb1 Hv]; subst.
  constructor. { unfold byte_ok in *; lia. }
  eapply IH; eauto. simpl; lia.
Qed.
Lemma to_u16s_nth : forall i v, (2 * i + 1 < length v)%nat ->
  nth i (to_u16s v) 0 = nth (2 * i) v 0 + 256 * nth (2 * i + 1) v 0.
Proof.
  induction i; intros v H; destruct v as [|a [|b v]]; simpl in H; try lia; auto.
  replace (2 * S i)%nat with (S (S (2 * i))) by lia.
  replace (S (S (2 * i)) + 1)%nat with (S (S (2 * i + 1))) by lia.
  cbn [nth to_u16s]. apply IHi. lia.
Qed.

Lemma dg_length m v : length v = 32%nat -> length (dg m v) = ndigits m.
Proof. intros; unfold dg, ndigits. destruct (wide m); auto. apply (to_u16s_length_aux 16); auto. Qed.

Lemma dg_nth m v d i : length v = 32%nat -> (i < ndigits m)%nat -> nth i (dg m v) 0 = digit m (mkWire d v) i.
Proof.
  intros Hl Hi; unfold dg, digit, ndigits in *; simpl. destruct (wide m); auto.
  apply to_u16s_nth. lia.
Qed.

Lemma wide_lim m : supported m -> wide m = true -> lim m <= 65536 /\ m <> 2.
Proof. unfold supported, wide, lim; intros. destruct (N.eqb_spec m 2); lia. Qed.
Lemma narrow_lim m : supported m -> wide m = false -> lim m <= 256.
Proof. unfold supported, wide, lim; intros. destruct (N.eqb_spec m 2); lia. Qed.

Definition digits_ok (m : N) (l : list N) : Prop := length l = ndigits m /\ Forall (fun x => x < lim m) l.

(** Internal form of [label]. *)
Definition WF (m : N) (w : wire) : Prop :=
  wdom w = dom_of m /\ length (wval w) = 32%nat /\ bytes_ok (wval w) /\ digits_ok m (dg m (wval w)).

Lemma label_WF m w : supported m -> (label m w <-> WF m w).
Proof.
  intros Hs. unfold label, WF. rewrite (domain_new_supported m Hs). split.
  - intros (Hd & Hl & Hb & Hx). inversion Hd as [Hd']. repeat split; auto.
    + now apply dg_length.
    + apply Forall_forall. intros x Hin.
      apply (In_nth _ _ 0) in Hin as (i & Hi & <-). rewrite dg_length in Hi by auto.
      rewrite dg_nth with (d := wdom w) by auto.
      unfold lim. destruct (N.eqb_spec m 2) as [E|E].
      * unfold digit. subst m. simpl. apply Forall_nth_in; auto.
        unfold ndigits in Hi; simpl in Hi; lia.
      * destruct w; simpl in *. auto.
  - intros (Hd & Hl & Hb & Hn & Hx). rewrite Hd. repeat split; auto.
    intros Hm i Hi. pose proof (dg_nth m (wval w) (wdom w) i Hl Hi) as E.
    assert (Hi' : (i < length (dg m (wval w)))%nat) by lia.
    pose proof (Forall_nth_in _ _ i 0 Hx Hi') as L. simpl in L.
    rewrite E in L. unfold lim in L. destruct (N.eqb_spec m 2); [contradiction|].
    destruct w; exact L.
Qed.

Lemma undg_dg m v : length v = 32%nat -> bytes_ok v -> undg m (dg m v) = v.
Proof. intros; unfold dg, undg. destruct (wide m); auto. apply (of_u16s_to 16); auto. Qed.
Lemma dg_undg m l : supported m -> digits_ok m l -> dg m (undg m l) = l.
Proof.
  intros Hs [Hl Hf]; unfold dg, undg. destruct (wide m) eqn:E; auto.
  apply to_u16s_of. destruct (wide_lim m Hs E). eapply Forall_impl; [|exact Hf]. simpl; intros; lia.
Qed.
Lemma undg_wf m l : supported m -> digits_ok m l -> WF m (mkWire (dom_of m) (undg m l)).
Proof.
  intros Hs [Hl Hf]. unfold WF; simpl. repeat split; auto.
  - unfold undg, ndigits in *. destruct (wide m); auto. rewrite of_u16s_length; lia.
  - unfold undg. destruct (wide m) eqn:E. apply of_u16s_ok.
    pose proof (narrow_lim m Hs E). eapply Forall_impl; [|exact Hf]. unfold byte_ok; simpl; intros; lia.
  - rewrite dg_undg; auto. split; auto.
  - rewrite dg_undg; auto. split; auto.
Qed.
Lemma WF_eq m a b : WF m a -> WF m b -> dg m (wval a) = dg m (wval b) -> a = b.
Proof.
  intros (Ha & Hla & Hba & _) (Hb & Hlb & Hbb & _) E.
  destruct a as [da va], b as [db vb]; simpl in *. subst. f_equal.
  rewrite <- (undg_dg m va), <- (undg_dg m vb); auto. now rewrite E.
Qed.
Lemma WF_mk m l : WF m l -> l = mkWire (dom_of m) (undg m (dg m (wval l))).
Proof. intros (Hd & Hl & Hb & _). rewrite undg_dg by auto. destruct l; simpl in *; congruence. Qed.

(** ** Pure operators *)
Definition of_digits (m : N) (l : list N) : wire := mkWire (dom_of m) (undg m l).
Definition padd (m : N) (a b : wire) : wire := of_digits m (zipWith (dplus m) (dg m (wval a)) (dg m (wval b))).
Definition psub (m : N) (a b : wire) : wire := of_digits m (zipWith (dminus m) (dg m (wval a)) (dg m (wval b))).
Definition pmul (m : N) (a : wire) (c : N) : wire := of_digits m (map (fun x => dtimes m x c) (dg m (wval a))).

Lemma supported_2 m : supported m -> 2 <= m.
Proof. unfold supported; lia. Qed.

Lemma digits_ok_zip m (f : N -> N -> N) a b :
  (forall x y, x < lim m -> y < lim m -> f x y < lim m) ->
  digits_ok m a -> digits_ok m b -> digits_ok m (zipWith f a b).
Proof.
  intros Hf [La Fa] [Lb Fb]. split. rewrite zipWith_length, La, Lb. apply Nat.min_id.
  apply (Forall_zipWith (fun x => x < lim m) (fun x => x < lim m)); auto.
Qed.
Lemma digits_ok_map m (f : N -> N) a :
  (forall x, x < lim m -> f x < lim m) -> digits_ok m a -> digits_ok m (map f a).
Proof.
  intros Hf [La Fa]. split. now rewrite map_length.
  apply Forall_map. eapply Forall_impl; [|exact Fa]. auto.
Qed.

Section Laws.
Variable m : N.
Hypothesis Hs : supported m.
Let H2 := supported_2 m Hs.

Lemma WF_digits a : WF m a -> digits_ok m (dg m (wval a)).
Proof. intros (_ & _ & _ & H); auto. Qed.

Lemma padd_digits_ok a b : WF m a -> WF m b -> digits_ok m (zipWith (dplus m) (dg m (wval a)) (dg m (wval b))).
Proof. intros; apply digits_ok_zip; auto using WF_digits. intros; apply dplus_lt; auto. Qed.
Lemma psub_digits_ok a b : WF m a -> WF m b -> digits_ok m (zipWith (dminus m) (dg m (wval a)) (dg m (wval b))).
Proof. intros; apply digits_ok_zip; auto using WF_digits. intros; apply dminus_lt; auto. Qed.
Lemma pmul_digits_ok a c : WF m a -> digits_ok m (map (fun x => dtimes m x c) (dg m (wval a))).
Proof. intros; apply digits_ok_map; auto using WF_digits. intros; apply dtimes_lt; auto. Qed.

Lemma padd_WF a b : WF m a -> WF m b -> WF m (padd m a b).
Proof. intros; apply undg_wf; auto using padd_digits_ok. Qed.
Lemma psub_WF a b : WF m a -> WF m b -> WF m (psub m a b).
Proof. intros; apply undg_wf; auto using psub_digits_ok. Qed.
Lemma pmul_WF a c : WF m a -> WF m (pmul m a c).
Proof. intros; apply undg_wf; auto using pmul_digits_ok. Qed.

Lemma padd_dg a b : WF m a -> WF m b ->
  dg m (wval (padd m a b)) = zipWith (dplus m) (dg m (wval a)) (dg m (wval b)).
Proof. intros; unfold padd, of_digits; simpl. apply dg_undg; auto using padd_digits_ok. Qed.
Lemma psub_dg a b : WF m a -> WF m b ->
  dg m (wval (psub m a b)) = zipWith (dminus m) (dg m (wval a)) (dg m (wval b)).
Proof. intros; unfold psub, of_digits; simpl. apply dg_undg; auto using psub_digits_ok. Qed.
Lemma pmul_dg a c : WF m a -> dg m (wval (pmul m a c)) = map (fun x => dtimes m x c) (dg m (wval a)).
Proof. intros; unfold pmul, of_digits; simpl. apply dg_undg; auto using pmul_digits_ok. Qed.

Lemma zipWith_assoc (f : N -> N -> N) a b c :
  (forall x y z, f (f x y) z = f x (f y z)) ->
  zipWith f (zipWith f a b) c = zipWith f a (zipWith f b c).
Proof.
  intros Hf; revert b c; induction a; destruct b, c; simpl; auto. now rewrite Hf, IHa.
Qed.

Lemma padd_comm a b : WF m a -> WF m b -> padd m a b = padd m b a.
Proof. intros; unfold padd. rewrite zipWith_comm; auto. intros; apply dplus_comm; auto. Qed.
Lemma padd_assoc a b c : WF m a -> WF m b -> WF m c -> padd m (padd m a b) c = padd m a (padd m b c).
Proof.
  intros Ha Hb Hc. eapply WF_eq; auto using padd_WF.
  rewrite !padd_dg by auto using padd_WF. apply zipWith_assoc. intros; apply dplus_assoc; auto.
Qed.
Lemma pmul_add d a b : WF m d -> a < m -> b < m ->
  padd m (pmul m d a) (pmul m d b) = pmul m d ((a + b) mod m).
Proof.
  intros Hd Ha Hb. eapply WF_eq; auto using padd_WF, pmul_WF.
  rewrite padd_dg, !pmul_dg by auto using padd_WF, pmul_WF.
  rewrite zipWith_map_lr, zipWith_same. apply map_ext. intros. now apply dtimes_add.
Qed.
Lemma pmul_padd a b c : WF m a -> WF m b -> pmul m (padd m a b) c = padd m (pmul m a c) (pmul m b c).
Proof.
  intros Ha Hb. eapply WF_eq; auto using padd_WF, pmul_WF.
  rewrite padd_dg, !pmul_dg, padd_dg by auto using padd_WF, pmul_WF.
  rewrite map_zipWith, zipWith_map_lr. apply zipWith_ext_in. intros; now apply dtimes_dplus.
Qed.
Lemma pmul_pmul d a c : WF m d -> a < m -> c < m -> pmul m (pmul m d a) c = pmul m d ((a * c) mod m).
Proof.
  intros Hd Ha Hc. eapply WF_eq; auto using pmul_WF.
  rewrite !pmul_dg by auto using pmul_WF. rewrite map_map. apply map_ext. intros; now apply dtimes_dtimes.
Qed.
Lemma psub_padd a b : WF m a -> WF m b -> psub m (padd m a b) a = b.
Proof.
  intros Ha Hb. eapply WF_eq; auto using psub_WF, padd_WF.
  rewrite psub_dg, padd_dg by auto using padd_WF.
  pose proof (WF_digits _ Ha) as [La Fa]. pose proof (WF_digits _ Hb) as [Lb Fb].
  assert (L : length (dg m (wval a)) = length (dg m (wval b))) by congruence. clear La Lb.
  revert Fa Fb L. generalize (dg m (wval a)) (dg m (wval b)).
  intros l; induction l; intros l0; destruct l0; simpl; intros; try discriminate; auto.
  inversion Fa; inversion Fb; subst. rewrite dminus_dplus by auto. f_equal. apply IHl; auto.
Qed.
Lemma padd_psub a b : WF m a -> WF m b -> padd m (psub m a b) b = a.
Proof.
  intros Ha Hb. eapply WF_eq; auto using psub_WF, padd_WF.
  rewrite padd_dg, psub_dg by auto using psub_WF.
  pose proof (WF_digits _ Ha) as [La Fa]. pose proof (WF_digits _ Hb) as [Lb Fb].
  assert (L : length (dg m (wval a)) = length (dg m (wval b))) by congruence. clear La Lb.
  revert Fa Fb L. generalize (dg m (wval a)) (dg m (wval b)).
  intros l; induction l; intros l0; destruct l0; simpl; intros; try discriminate; auto.
  inversion Fa; inversion Fb; subst. rewrite dplus_dminus by auto. f_equal. apply IHl; auto.
Qed.
Lemma padd_cancel_l a b c : WF m a -> WF m b -> WF m c -> padd m a b = padd m a c -> b = c.
Proof. intros Ha Hb Hc E. rewrite <- (psub_padd a b), E, psub_padd; auto. Qed.

Lemma padd_pmul_0 a d : WF m a -> WF m d -> padd m a (pmul m d 0) = a.
Proof.
  intros Ha Hd. eapply WF_eq; auto using psub_WF, padd_WF, pmul_WF.
  rewrite padd_dg, pmul_dg by auto using pmul_WF.
  pose proof (WF_digits _ Ha) as [La Fa]. pose proof (WF_digits _ Hd) as [Lb Fb].
  assert (L : length (dg m (wval a)) = length (dg m (wval d))) by congruence. clear La Lb.
  revert Fa Fb L. generalize (dg m (wval a)) (dg m (wval d)).
  intros l; induction l; intros l0; destruct l0; simpl; intros; try discriminate; auto.
  inversion Fa; inversion Fb; subst. rewrite dtimes_0, dplus_0 by auto. f_equal. apply IHl; auto.
Qed.
Lemma pmul_1 a : WF m a -> pmul m a 1 = a.
Proof.
  intros Ha. eapply WF_eq; auto using pmul_WF. rewrite pmul_dg by auto.
  pose proof (WF_digits _ Ha) as [La Fa]. rewrite <- (map_id (dg m (wval a))) at 2.
  apply map_ext_in. intros x Hx. apply dtimes_1; auto. rewrite Forall_forall in Fa; auto.
Qed.
End Laws.

(** ** The model's operators are the pure operators *)
Lemma bytes_ok_narrow m a : supported m -> wide m = false -> WF m a -> dg m (wval a) = wval a.
Proof. intros _ E _; unfold dg; now rewrite E. Qed.

Lemma zipM_forall {A B C} (f : A -> B -> outcome C) (g : A -> B -> C) (P : A -> Prop) (Q : B -> Prop) l l' :
  (forall a b, P a -> Q b -> f a b = Ok (g a b)) -> Forall P l -> Forall Q l' ->
  zipM f l l' = Ok (zipWith g l l').
Proof.
  intros H Hl Hl'. apply zipM_Ok. intros. rewrite Forall_forall in *. auto.
Qed.
Lemma mapM_forall {A B} (f : A -> outcome B) (g : A -> B) (P : A -> Prop) l :
  (forall a, P a -> f a = Ok (g a)) -> Forall P l -> mapM f l = Ok (map g l).
Proof. intros H Hl. apply mapM_Ok. intros. rewrite Forall_forall in *. auto. Qed.

Lemma debug_assert_true p : debug_assert p true = Ok tt.
Proof. destruct p; reflexivity. Qed.

Lemma wire_domain_WF m a : supported m -> WF m a -> wire_domain a = m.
Proof. intros Hs (E & _). unfold wire_domain. rewrite E. now apply domain_num_dom_of. Qed.

Lemma wmap2_ok p m a b op f : supported m -> WF m a -> WF m b -> wide m = false ->
  (forall x y, x < lim m -> y < lim m -> op x y = Ok (f x y)) ->
  wmap2 p a b op = Ok (of_digits m (zipWith f (dg m (wval a)) (dg m (wval b)))).
Proof.
  intros Hs Ha Hb Hw Hop. unfold wmap2.
  pose proof Ha as (Da & _ & _ & La & Fa). pose proof Hb as (Db & _ & _ & Lb & Fb).
  rewrite Da, Db, domain_eqb_refl, debug_assert_true. simpl.
  rewrite (bytes_ok_narrow m a) in * by auto. rewrite (bytes_ok_narrow m b) in * by auto.
  rewrite (zipM_forall op f (fun x => x < lim m) (fun x => x < lim m)) by auto.
  simpl. unfold of_digits, undg. now rewrite Hw.
Qed.
Lemma wmap2_16_ok p m a b op f : supported m -> WF m a -> WF m b -> wide m = true ->
  (forall x y, x < lim m -> y < lim m -> op x y = Ok (f x y) /\ f x y < m) ->
  wmap2_16 p a b op = Ok (of_digits m (zipWith f (dg m (wval a)) (dg m (wval b)))).
Proof.
  intros Hs Ha Hb Hw Hop. unfold wmap2_16.
  pose proof Ha as (Da & _ & _ & La & Fa). pose proof Hb as (Db & _ & _ & Lb & Fb).
  rewrite (wire_domain_WF m a) by auto.
  rewrite Da, Db, domain_eqb_refl, debug_assert_true. simpl.
  unfold of_digits, undg, dg in *. rewrite Hw in *.
  rewrite (zipM_forall op f (fun x => x < lim m) (fun x => x < lim m)); auto.
  2:{ intros; now apply Hop. }
  simpl. replace (forallb _ _) with true. { now rewrite debug_assert_true. }
  symmetry. apply forallb_forall. intros x Hx. apply N.ltb_lt.
  assert (F : Forall (fun x => x < m) (zipWith f (to_u16s (wval a)) (to_u16s (wval b)))).
  { apply (Forall_zipWith (fun x => x < lim m) (fun x => x < lim m)); auto. intros; now apply Hop. }
  rewrite Forall_forall in F; auto.
Qed.
Lemma wmap_ok m a op f : supported m -> WF m a -> wide m = false ->
  (forall x, x < lim m -> op x = Ok (f x)) ->
  wmap a op = Ok (of_digits m (map f (dg m (wval a)))).
Proof.
  intros Hs Ha Hw Hop. unfold wmap. pose proof Ha as (Da & _ & _ & La & Fa). rewrite Da.
  rewrite (bytes_ok_narrow m a) in * by auto.
  rewrite (mapM_forall op f (fun x => x < lim m)) by auto.
  simpl. unfold of_digits, undg. now rewrite Hw.
Qed.
Lemma wmap16_ok p m a op f : supported m -> WF m a -> wide m = true ->
  (forall x, x < lim m -> op x = Ok (f x) /\ f x < m) ->
  wmap16 p a op = Ok (of_digits m (map f (dg m (wval a)))).
Proof.
  intros Hs Ha Hw Hop. unfold wmap16. rewrite (wire_domain_WF m a) by auto.
  pose proof Ha as (Da & _ & _ & La & Fa). rewrite Da.
  unfold of_digits, undg, dg in *. rewrite Hw in *.
  rewrite (mapM_forall op f (fun x => x < lim m)); auto. 2:{ intros; now apply Hop. }
  simpl. replace (forallb _ _) with true. { now rewrite debug_assert_true. }
  symmetry. apply forallb_forall. intros x Hx. apply N.ltb_lt.
  apply in_map_iff in Hx as (y & <- & Hy). rewrite Forall_forall in Fa. now apply Hop, Fa.
Qed.

Ltac sup_cases m Hs :=
  destruct (supported_cases m Hs) as [?|[?|[?|?]]].

Lemma dom_of_2 : dom_of 2 = Binary. Proof. reflexivity. Qed.
Lemma dom_of_u8 m : m <> 2 -> m < 255 -> dom_of m = U8 m.
Proof. intros; unfold dom_of. destruct (N.eqb_spec m 2); [lia|]. destruct (N.ltb_spec m 255); auto; lia. Qed.
Lemma dom_of_256 : dom_of 256 = U8MAX. Proof. reflexivity. Qed.
Lemma dom_of_u16 m : m = 255 \/ 257 <= m -> dom_of m = U16 m.
Proof.
  intros; unfold dom_of. destruct (N.eqb_spec m 2); [lia|]. destruct (N.ltb_spec m 255); [lia|].
  destruct (N.eqb_spec m 256); auto; lia.
Qed.
Lemma wide_u8 m : m < 255 -> wide m = false.
Proof. unfold wide; lia. Qed.
Lemma wide_u16 m : m = 255 \/ 257 <= m -> wide m = true.
Proof. unfold wide; lia. Qed.
Lemma lim_ne m : m <> 2 -> lim m = m.
Proof. intros; unfold lim. destruct (N.eqb_spec m 2); auto; lia. Qed.

Lemma wadd_ok p m a b : supported m -> WF m a -> WF m b -> wadd p a b = Ok (padd m a b).
Proof.
  intros Hs Ha Hb. unfold wadd, padd. pose proof Ha as (Da & _). rewrite Da. sup_cases m Hs.
  - subst m. rewrite dom_of_2. apply wmap2_ok; auto.
  - rewrite dom_of_u8 by lia. apply wmap2_ok; auto. { apply wide_u8; lia. }
    intros x y Hx Hy. rewrite lim_ne in * by lia. unfold urem, wrapping_add, dplus.
    destruct (N.eqb_spec m 0); [lia|]. destruct (N.eqb_spec m 2); [lia|].
    change (2 ^ 8) with 256. rewrite (N.mod_small (x + y)) by lia. reflexivity.
  - subst m. rewrite dom_of_256. apply wmap2_ok; auto.
  - rewrite dom_of_u16 by lia. apply wmap2_16_ok; auto. { apply wide_u16; lia. }
    intros x y Hx Hy. rewrite lim_ne in * by lia. unfold urem, wrapping_add, dplus.
    destruct (N.eqb_spec m 0); [lia|]. destruct (N.eqb_spec m 2); [lia|].
    change (2 ^ 16) with 65536. rewrite (N.mod_small (x + y) 65536) by lia.
    split; auto. apply N.mod_lt; lia.
Qed.

Lemma wsub_ok p m a b : supported m -> WF m a -> WF m b -> wsub p a b = Ok (psub m a b).
Proof.
  intros Hs Ha Hb. unfold wsub, psub. pose proof Ha as (Da & _). rewrite Da. sup_cases m Hs.
  - subst m. rewrite dom_of_2. apply wmap2_ok; auto.
  - rewrite dom_of_u8 by lia. apply wmap2_ok; auto. { apply wide_u8; lia. }
    intros x y Hx Hy. rewrite lim_ne in * by lia. unfold urem, usub, uadd, dminus.
    destruct (N.leb_spec y m); [|lia]. cbn [obind]. change (2 ^ 8) with 256.
    destruct (N.ltb_spec (x + (m - y)) 256); [|lia]. cbn [obind].
    destruct (N.eqb_spec m 0); [lia|]. destruct (N.eqb_spec m 2); [lia|]. reflexivity.
  - subst m. rewrite dom_of_256. apply wmap2_ok; auto.
    intros x y Hx Hy. change (lim 256) with 256 in *. unfold wrapping_sub, dminus. simpl N.eqb. change (2 ^ 8) with 256.
    cbv iota. do 2 f_equal. lia.
  - rewrite dom_of_u16 by lia. apply wmap2_16_ok; auto. { apply wide_u16; lia. }
    intros x y Hx Hy. rewrite lim_ne in * by lia. unfold urem, usub, uadd, dminus.
    destruct (N.leb_spec y m); [|lia]. cbn [obind]. change (2 ^ 16) with 65536.
    destruct (N.ltb_spec (x + (m - y)) 65536); [|lia]. cbn [obind].
    destruct (N.eqb_spec m 0); [lia|]. destruct (N.eqb_spec m 2); [lia|].
    split; auto. apply N.mod_lt; lia.
Qed.

Lemma wmul_ok p m a c : supported m -> WF m a -> c < m -> wmul p a c = Ok (pmul m a c).
Proof.
  intros Hs Ha Hc. unfold wmul, pmul. rewrite (wire_domain_WF m a) by auto.
  destruct (N.ltb_spec c m); [|lia]. rewrite debug_assert_true. cbn [obind].
  pose proof Ha as (Da & _). rewrite Da. sup_cases m Hs.
  - subst m. rewrite dom_of_2. apply wmap_ok; auto.
  - rewrite dom_of_u8 by lia. apply wmap_ok; auto. { apply wide_u8; lia. }
    intros x Hx. rewrite lim_ne in * by lia. unfold urem, umul, dtimes.
    change (2 ^ 16) with 65536. destruct (N.ltb_spec (x * c) 65536); [|nia]. cbn [obind].
    destruct (N.eqb_spec m 0); [lia|]. destruct (N.eqb_spec m 2); [lia|]. cbn [obind].
    pose proof (N.mod_lt (x * c) m). rewrite (N.mod_small _ 256) by lia. reflexivity.
  - subst m. rewrite dom_of_256. apply wmap_ok; auto.
    intros x Hx. change (lim 256) with 256 in *. unfold wrapping_mul, dtimes. simpl N.eqb. change (2 ^ 16) with 65536. cbv iota.
    f_equal. rewrite (N.mod_small (c * x)) by nia. f_equal; lia.
  - rewrite dom_of_u16 by lia. apply wmap16_ok; auto. { apply wide_u16; lia. }
    intros x Hx. rewrite lim_ne in * by lia. unfold urem, dtimes.
    destruct (N.eqb_spec m 0); [lia|]. destruct (N.eqb_spec m 2); [lia|]. cbn [obind].
    pose proof (N.mod_lt (x * c) m). rewrite (N.mod_small _ 65536) by lia.
    split; [reflexivity | lia].
Qed.

(** Negation: total and closed; the inverse except for m = 2. *)
Definition pneg (m : N) (a : wire) : wire :=
  of_digits m (map (fun x => if m =? 2 then N.lxor 255 x else (m - x) mod m) (dg m (wval a))).
Lemma wneg_ok p m a : supported m -> WF m a -> wneg p a = Ok (pneg m a).
Proof.
  intros Hs Ha. unfold wneg, pneg. pose proof Ha as (Da & _). rewrite Da. sup_cases m Hs.
  - subst m. rewrite dom_of_2. apply wmap_ok; auto.
  - rewrite dom_of_u8 by lia. apply wmap_ok; auto. { apply wide_u8; lia. }
    intros x Hx. rewrite lim_ne in * by lia. unfold urem, usub.
    destruct (N.leb_spec x m); [|lia]. cbn [obind].
    destruct (N.eqb_spec m 0); [lia|]. destruct (N.eqb_spec m 2); [lia|]. reflexivity.
  - subst m. rewrite dom_of_256. apply wmap_ok; auto.
  - rewrite dom_of_u16 by lia. apply wmap16_ok; auto. { apply wide_u16; lia. }
    intros x Hx. rewrite lim_ne in * by lia. unfold urem, usub.
    destruct (N.leb_spec x m); [|lia]. cbn [obind].
    destruct (N.eqb_spec m 0); [lia|]. destruct (N.eqb_spec m 2); [lia|].
    split; auto. apply N.mod_lt; lia.
Qed.
Lemma pneg_WF m a : supported m -> WF m a -> WF m (pneg m a).
Proof.
  intros Hs Ha. apply undg_wf; auto. apply digits_ok_map; auto using WF_digits.
  intros x Hx. unfold lim in *. destruct (N.eqb_spec m 2).
  - apply lxor_byte; lia.
  - apply N.mod_lt. unfold supported in Hs; lia.
Qed.
Lemma padd_pneg m a b : supported m -> m <> 2 -> WF m a -> WF m b -> padd m (padd m b a) (pneg m a) = b.
Proof.
  intros Hs Hm Ha Hb. rewrite (padd_comm m Hs b a) by auto.
  eapply WF_eq; eauto using padd_WF, pneg_WF.
  rewrite !padd_dg by auto using padd_WF, pneg_WF.
  unfold pneg, of_digits; simpl wval. rewrite dg_undg; auto.
  2:{ apply digits_ok_map; auto using WF_digits. intros x Hx. unfold lim in *. destruct (N.eqb_spec m 2); [lia|].
      apply N.mod_lt; lia. }
  pose proof (WF_digits _ _ Ha) as [La Fa]. pose proof (WF_digits _ _ Hb) as [Lb Fb].
  assert (L : length (dg m (wval a)) = length (dg m (wval b))) by congruence. clear La Lb.
  revert Fa Fb L. generalize (dg m (wval a)) (dg m (wval b)).
  intros l; induction l; intros l0; destruct l0; simpl; intros; try discriminate; auto.
  inversion Fa; inversion Fb; subst. f_equal; auto.
  unfold dplus, lim in *. destruct (N.eqb_spec m 2); [lia|].
  rewrite N.add_mod_idemp_l, N.add_mod_idemp_r by lia.
  replace (a0 + n + (m - a0)) with (n + 1 * m) by lia.
  rewrite N.mod_add by lia. apply N.mod_small; lia.
Qed.

(** ** Sums, hashes, samples *)
Definition psum (m : N) (l : list wire) (w : wire) : wire := fold_left (padd m) l w.
Lemma psum_WF m l w : supported m -> WF m w -> Forall (WF m) l -> WF m (psum m l w).
Proof. intros Hs Hw Hl; revert w Hw; induction Hl; simpl; intros; auto. apply IHHl. now apply padd_WF. Qed.
Lemma wsum_ok p m w l : supported m -> WF m w -> Forall (WF m) l -> wsum p (w :: l) = Ok (psum m l w).
Proof.
  intros Hs Hw Hl; simpl. revert w Hw; induction Hl; simpl; intros; auto.
  rewrite (wadd_ok p m); auto. simpl. rewrite IHHl; auto. now apply padd_WF.
Qed.

Lemma from_array_WF p m v : supported m -> length v = 32%nat -> bytes_ok v ->
  exists w, from_array p v (dom_of m) = Ok w /\ WF m w.
Proof.
  intros Hs Hl Hb. unfold from_array. sup_cases m Hs.
  - subst m. rewrite dom_of_2. eexists; split; eauto. split; auto. split; auto. split; auto. split; auto.
  - rewrite dom_of_u8 by lia. unfold wmap; simpl wval.
    rewrite (mapM_forall (fun x => urem x m) (fun x => x mod m) (fun x => True)).
    + simpl. eexists; split; eauto. rewrite <- (dom_of_u8 m) by lia.
      replace (map (fun x => x mod m) v) with (undg m (map (fun x => x mod m) v)).
      2:{ unfold undg. rewrite wide_u8 by lia. reflexivity. }
      apply undg_wf; auto. split.
      * rewrite map_length. unfold ndigits. rewrite wide_u8 by lia. auto.
      * apply Forall_map. apply Forall_forall. intros. rewrite lim_ne by lia. apply N.mod_lt; lia.
    + intros. unfold urem. destruct (N.eqb_spec m 0); auto; lia.
    + apply Forall_forall; auto.
  - subst m. rewrite dom_of_256. eexists; split; eauto. split; auto. split; auto. split; auto. split; auto.
  - rewrite dom_of_u16 by lia. unfold wmap16; simpl wval.
    rewrite (mapM_forall (fun x => urem x m) (fun x => x mod m) (fun x => True)).
    + simpl. replace (forallb _ _) with true.
      2:{ symmetry. apply forallb_forall. intros x Hx. apply in_map_iff in Hx as (y & <- & _).
          unfold wire_domain; simpl. apply N.ltb_lt, N.mod_lt; lia. }
      rewrite debug_assert_true. simpl. eexists; split; eauto. rewrite <- (dom_of_u16 m) by lia.
      replace (of_u16s (map (fun x => x mod m) (to_u16s v))) with (undg m (map (fun x => x mod m) (to_u16s v))).
      2:{ unfold undg. rewrite wide_u16 by lia. reflexivity. }
      apply undg_wf; auto. split.
      * rewrite map_length. unfold ndigits. rewrite wide_u16 by lia. apply (to_u16s_length_aux 16); auto.
      * apply Forall_map. apply Forall_forall. intros. rewrite lim_ne by lia. apply N.mod_lt; lia.
    + intros. unfold urem. destruct (N.eqb_spec m 0); auto; lia.
    + apply Forall_forall; auto.
Qed.

(** ** Colour *)
Definition last_digit (m : N) (w : wire) : N := nth (ndigits m - 1) (dg m (wval w)) 0.

Lemma color_last m w : supported m -> WF m w -> color w = last_digit m w mod m.
Proof.
  intros Hs (Hd & Hl & Hb & Ln & Fn). unfold color, last_digit. rewrite Hd.
  assert (Hlt : nth (ndigits m - 1) (dg m (wval w)) 0 < lim m).
  { apply (Forall_nth_in (fun x => x < lim m)); auto. rewrite Ln. unfold ndigits. destruct (wide m); lia. }
  unfold dg, ndigits in *. sup_cases m Hs.
  - subst m. simpl. change 1 with (N.ones 1). rewrite N.land_ones. reflexivity.
  - rewrite wide_u8 in * by lia. rewrite dom_of_u8 by lia. rewrite lim_ne in Hlt by lia.
    rewrite N.mod_small; auto.
  - subst m. simpl in *. rewrite N.mod_small; auto.
  - rewrite wide_u16 in * by lia. rewrite dom_of_u16 by lia. rewrite lim_ne in Hlt by lia.
    rewrite N.mod_small; auto.
Qed.
Lemma color_lt m w : supported m -> WF m w -> color w < m.
Proof. intros Hs H. rewrite (color_last m w); auto. apply N.mod_lt. unfold supported in Hs; lia. Qed.

(** An offset: a label whose colour component is 1 (odd for m = 2). *)
Definition is_delta (m : N) (d : wire) : Prop := WF m d /\ last_digit m d mod m = 1.

Lemma lxor_mod2 a b : N.lxor a b mod 2 = (a mod 2 + b mod 2) mod 2.
Proof.
  rewrite <- !N.bit0_mod, N.lxor_spec.
  destruct (N.testbit a 0), (N.testbit b 0); reflexivity.
Qed.

Lemma color_shift m w d x : supported m -> WF m w -> is_delta m d -> x < m ->
  color (padd m w (pmul m d x)) = (color w + x) mod m.
Proof.
  intros Hs Hw [Hd Hc] Hx.
  rewrite !(color_last m) by auto using padd_WF, pmul_WF.
  unfold last_digit in *. rewrite padd_dg, pmul_dg by auto using pmul_WF.
  assert (Hn : (ndigits m - 1 < ndigits m)%nat) by (unfold ndigits; destruct (wide m); lia).
  pose proof (WF_digits m w Hw) as [Lw Fw]. pose proof (WF_digits m d Hd) as [Ld Fd].
  rewrite (zipWith_nth _ _ _ _ 0 0) by (rewrite ?map_length; lia).
  assert (E : nth (ndigits m - 1) (map (fun y => dtimes m y x) (dg m (wval d))) 0 =
              dtimes m (nth (ndigits m - 1) (dg m (wval d)) 0) x).
  { rewrite nth_indep with (d' := dtimes m 0 x) by (rewrite map_length; lia).
    apply (map_nth (fun y => dtimes m y x)). }
  rewrite E.
  set (a := nth (ndigits m - 1) (dg m (wval w)) 0) in *.
  set (b := nth (ndigits m - 1) (dg m (wval d)) 0) in *.
  unfold dplus, dtimes. pose proof (supported_2 m Hs). destruct (N.eqb_spec m 2) as [->|Hm2].
  - rewrite lxor_mod2. destruct (N.eqb_spec x 0).
    + subst x. change (0 mod 2) with 0. rewrite !N.add_0_r. reflexivity.
    + rewrite Hc. f_equal. lia.
  - rewrite N.mod_mod by lia. rewrite N.add_mod_idemp_r by lia.
    rewrite N.add_mod by lia. rewrite (N.mul_mod b) by lia. rewrite Hc, N.mul_1_l.
    rewrite !(N.mod_small x m) by lia. reflexivity.
Qed.

Lemma wrap_once c x m : c + x < 2 * m -> (c + x) mod m = if c + x <? m then c + x else c + x - m.
Proof.
  intros H. destruct (N.ltb_spec (c + x) m) as [L|L]; [apply N.mod_small; exact L|].
  symmetry. apply N.mod_unique with 1; lia.
Qed.
Lemma mod_cancel c x y m : c < m -> x < m -> y < m -> (c + x) mod m = (c + y) mod m -> x = y.
Proof.
  intros Hc Hx Hy. rewrite !wrap_once by lia.
  destruct (N.ltb_spec (c + x) m), (N.ltb_spec (c + y) m); intros E; lia.
Qed.
Lemma label_inj m w d x y : supported m -> WF m w -> is_delta m d -> x < m -> y < m ->
  padd m w (pmul m d x) = padd m w (pmul m d y) -> x = y.
Proof.
  intros Hs Hw Hd Hx Hy E.
  pose proof (color_shift m w d x Hs Hw Hd Hx) as E1.
  pose proof (color_shift m w d y Hs Hw Hd Hy) as E2.
  rewrite E in E1. rewrite E1 in E2.
  exact (mod_cancel (color w) x y m (color_lt m w Hs Hw) Hx Hy E2).
Qed.

(** ** Creation *)
Lemma wire_new_ok m r : supported m -> valid_sample m r -> exists w, wire_new m r = Ok w /\ WF m w.
Proof.
  intros Hs Hv. unfold wire_new. rewrite domain_new_supported by auto. simpl. eexists; split; eauto.
  apply label_WF; auto. apply Hv. now apply domain_new_supported.
Qed.

Lemma lor_1_odd b : N.lor b 1 mod 2 = 1.
Proof. rewrite <- N.bit0_mod, N.lor_spec, orb_true_r. reflexivity. Qed.
Lemma lor_1_byte b : b < 256 -> N.lor b 1 < 256.
Proof.
  intros. change 256 with (2 ^ 8). apply N.log2_lt_pow2.
  - destruct b; simpl; lia.
  - rewrite N.log2_lor. change (N.log2 1) with 0. rewrite N.max_l by lia.
    destruct (N.eq_dec b 0). subst; reflexivity.
    apply N.log2_lt_pow2; simpl; lia.
Qed.

Lemma wire_delta_ok m r : supported m -> valid_sample m r -> exists d, wire_delta m r = Ok d /\ is_delta m d.
Proof.
  intros Hs Hv. unfold wire_delta. destruct (wire_new_ok m r Hs Hv) as (w & E & Hw). rewrite E. cbn [obind].
  pose proof Hw as (Hd & Hl & Hb & Hn & Hf). rewrite Hd. pose proof (supported_2 m Hs).
  sup_cases m Hs.
  - subst m. rewrite dom_of_2. rewrite (idx_lt _ _ 0) by (unfold LENGTH; lia). cbn [obind].
    rewrite set_idx_lt by (unfold LENGTH; lia). cbn [obind]. eexists; split; eauto.
    split.
    + rewrite <- dom_of_2. split; auto. cbn [wval].
      split. { now rewrite set_nth_length. }
      assert (B : bytes_ok (set_nth (wval w) (LENGTH - 1) (N.lor (nth (LENGTH - 1) (wval w) 0) 1))).
      { apply Forall_set_nth; auto. apply lor_1_byte. apply (Forall_nth_in byte_ok); auto. unfold LENGTH; lia. }
      split; auto. split; auto. unfold dg; simpl. now rewrite set_nth_length.
    + unfold last_digit, dg. replace (wide 2) with false by reflexivity. cbn [wval]. change (ndigits 2 - 1)%nat with 31%nat.
      change (LENGTH - 1)%nat with 31%nat. rewrite set_nth_nth by lia. simpl Nat.eqb. cbv iota. apply lor_1_odd.
  - assert (Hw8 : wide m = false) by (apply wide_u8; lia).
    rewrite dom_of_u8 by lia. rewrite set_idx_lt by (unfold LENGTH; lia). cbn [obind]. eexists; split; eauto.
    rewrite <- dom_of_u8 by lia. unfold dg, ndigits in *. rewrite Hw8 in *. rewrite lim_ne in Hf by lia.
    split.
    + split; auto. cbn [wval]. split. { now rewrite set_nth_length. }
      split. { apply Forall_set_nth; auto. unfold byte_ok; lia. }
      unfold dg, digits_ok, ndigits. rewrite Hw8. split. { now rewrite set_nth_length. }
      rewrite lim_ne by lia. apply Forall_set_nth; auto. lia.
    + unfold last_digit, dg, ndigits. rewrite Hw8. cbn [wval]. change (LENGTH - 1)%nat with 31%nat.
      change (32 - 1)%nat with 31%nat. rewrite set_nth_nth by lia. simpl Nat.eqb. cbv iota. apply N.mod_small; lia.
  - subst m. rewrite dom_of_256. rewrite set_idx_lt by (unfold LENGTH; lia). cbn [obind]. eexists; split; eauto.
    rewrite <- dom_of_256. split.
    + split; auto. cbn [wval]. split. { now rewrite set_nth_length. }
      assert (B : bytes_ok (set_nth (wval w) (LENGTH - 1) 1)).
      { apply Forall_set_nth; auto. unfold byte_ok; lia. }
      split; auto. split; auto. unfold dg; simpl. now rewrite set_nth_length.
    + unfold last_digit, dg. replace (wide 256) with false by reflexivity. cbn [wval]. change (ndigits 256 - 1)%nat with 31%nat.
      change (LENGTH - 1)%nat with 31%nat. rewrite set_nth_nth by lia. reflexivity.
  - assert (Hw16 : wide m = true) by (apply wide_u16; lia).
    rewrite dom_of_u16 by lia. unfold dg, ndigits in *. rewrite Hw16 in *.
    change (LENGTH / 2 - 1)%nat with 15%nat. rewrite set_idx_lt by lia. cbn [obind]. eexists; split; eauto.
    rewrite <- dom_of_u16 by lia.
    assert (Dok : digits_ok m (set_nth (to_u16s (wval w)) 15 1)).
    { split. unfold ndigits; rewrite Hw16, set_nth_length; auto.
      apply Forall_set_nth; auto. rewrite lim_ne by lia. lia. }
    replace (of_u16s (set_nth (to_u16s (wval w)) 15 1)) with (undg m (set_nth (to_u16s (wval w)) 15 1)).
    2:{ unfold undg; now rewrite Hw16. }
    split.
    + apply undg_wf; auto.
    + unfold last_digit. cbn [wval]. rewrite dg_undg by auto. unfold ndigits. rewrite Hw16.
      change (16 - 1)%nat with 15%nat. rewrite set_nth_nth by lia. simpl Nat.eqb. cbv iota. apply N.mod_small; lia.
Qed.
