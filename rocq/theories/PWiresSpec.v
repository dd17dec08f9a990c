(** Wire arithmetic stated on labels and their components. *)
From Coq Require Import List NArith Bool Arith Lia.
From Verif Require Import Base MUtil MWires SpecWires PBase PWires.
Import ListNotations.
Open Scope N_scope.

Lemma digit_dg m w i : WF m w -> (i < ndigits m)%nat -> digit m w i = nth i (dg m (wval w)) 0.
Proof. intros (_ & Hl & _) Hi. rewrite (dg_nth m (wval w) (wdom w)) by auto. now destruct w. Qed.

Lemma nth_zipWith {A B C} (f : A -> B -> C) da db dc : forall l m i,
  (i < length l)%nat -> length l = length m -> nth i (zipWith f l m) dc = f (nth i l da) (nth i m db).
Proof.
  induction l as [|x l IH]; intros [|y m] i Hi Hl; simpl in Hi; try lia; try discriminate.
  destruct i; auto. cbn [zipWith nth]. apply IH; simpl in *; lia.
Qed.

Lemma wadd_label p m a b : supported m -> label m a -> label m b ->
  exists c, wadd p a b = Ok c /\ label m c /\
    forall i, (i < ndigits m)%nat -> digit m c i = dplus m (digit m a i) (digit m b i).
Proof.
  intros Hs Ha Hb. apply label_WF in Ha, Hb; auto. exists (padd m a b).
  split. { now apply wadd_ok. } split. { apply label_WF; auto using padd_WF. }
  intros i Hi. rewrite !digit_dg by auto using padd_WF. rewrite padd_dg by auto.
  apply nth_zipWith. rewrite dg_length; auto. apply Ha. rewrite !dg_length; auto. apply Hb. apply Ha.
Qed.
Lemma wsub_label p m a b : supported m -> label m a -> label m b ->
  exists c, wsub p a b = Ok c /\ label m c /\
    forall i, (i < ndigits m)%nat -> digit m c i = dminus m (digit m a i) (digit m b i).
Proof.
  intros Hs Ha Hb. apply label_WF in Ha, Hb; auto. exists (psub m a b).
  split. { now apply wsub_ok. } split. { apply label_WF; auto using psub_WF. }
  intros i Hi. rewrite !digit_dg by auto using psub_WF. rewrite psub_dg by auto.
  apply nth_zipWith. rewrite dg_length; auto. apply Ha. rewrite !dg_length; auto. apply Hb. apply Ha.
Qed.
Lemma wmul_label p m a k : supported m -> label m a -> k < m ->
  exists c, wmul p a k = Ok c /\ label m c /\
    forall i, (i < ndigits m)%nat -> digit m c i = dtimes m (digit m a i) k.
Proof.
  intros Hs Ha Hk. apply label_WF in Ha; auto. exists (pmul m a k).
  split. { now apply wmul_ok. } split. { apply label_WF; auto using pmul_WF. }
  intros i Hi. rewrite !digit_dg by auto using pmul_WF. rewrite pmul_dg by auto.
  rewrite nth_indep with (d' := dtimes m 0 k). 2:{ rewrite map_length, dg_length; auto. apply Ha. }
  apply (map_nth (fun x => dtimes m x k)).
Qed.
Lemma wneg_label p m a : supported m -> m <> 2 -> label m a ->
  exists c, wneg p a = Ok c /\ label m c /\
    forall i, (i < ndigits m)%nat -> dplus m (digit m a i) (digit m c i) = 0.
Proof.
  intros Hs Hm Ha. apply label_WF in Ha; auto. exists (pneg m a). pose proof (supported_2 m Hs).
  split. { now apply wneg_ok. } split. { apply label_WF; auto using pneg_WF. }
  intros i Hi. rewrite !digit_dg by auto using pneg_WF.
  unfold pneg, of_digits. cbn [wval]. rewrite dg_undg; auto.
  2:{ apply digits_ok_map; auto using WF_digits. intros x Hx. unfold lim in *. destruct (N.eqb_spec m 2); [lia|].
      apply N.mod_lt; lia. }
  pose proof (WF_digits _ _ Ha) as [Hl Hf]. destruct (N.eqb_spec m 2); [lia|].
  rewrite nth_indep with (d' := (m - 0) mod m) (n := i) (l := map _ _).
  2:{ rewrite map_length, Hl; auto. }
  rewrite (map_nth (fun x => (m - x) mod m)).
  assert (Hx : nth i (dg m (wval a)) 0 < lim m). { apply (Forall_nth_in (fun x => x < lim m)); auto. lia. }
  rewrite lim_ne in Hx by auto. unfold dplus. destruct (N.eqb_spec m 2); [lia|].
  rewrite N.add_mod_idemp_r by lia. replace (nth i (dg m (wval a)) 0 + (m - nth i (dg m (wval a)) 0)) with (1 * m) by lia.
  apply N.mod_mul. lia.
Qed.

Lemma wadd_group p m a b c : supported m -> label m a -> label m b -> label m c ->
  wadd p a b = wadd p b a /\
  (let* ab := wadd p a b in wadd p ab c) = (let* bc := wadd p b c in wadd p a bc) /\
  (let* ab := wadd p a b in wsub p ab b) = Ok a /\
  (let* d := wsub p a b in wadd p d b) = Ok a.
Proof.
  intros Hs Ha Hb Hc. apply label_WF in Ha, Hb, Hc; auto.
  rewrite !(wadd_ok p m), !(wsub_ok p m) by auto. cbn [obind].
  rewrite !(wadd_ok p m), !(wsub_ok p m) by auto using padd_WF, psub_WF.
  split. { f_equal. now apply padd_comm. } split. { f_equal. now apply padd_assoc. }
  split; f_equal. { rewrite padd_comm by auto. now apply psub_padd. } now apply padd_psub.
Qed.
Lemma wmul_linear p m w a b : supported m -> label m w -> a < m -> b < m ->
  (let* x := wmul p w a in let* y := wmul p w b in wadd p x y) = wmul p w ((a + b) mod m) /\
  (let* x := wmul p w a in wmul p x b) = wmul p w ((a * b) mod m) /\
  wmul p w 1 = Ok w.
Proof.
  intros Hs Hw Ha Hb. apply label_WF in Hw; auto. pose proof (supported_2 m Hs).
  assert ((a + b) mod m < m) by (apply N.mod_lt; lia). assert ((a * b) mod m < m) by (apply N.mod_lt; lia).
  rewrite !(wmul_ok p m) by (auto; lia). cbn [obind].
  rewrite (wadd_ok p m), (wmul_ok p m) by auto using pmul_WF.
  split. { f_equal. now apply pmul_add. } split. { f_equal. now apply pmul_pmul. } f_equal. now apply pmul_1.
Qed.

(** Domains *)
Lemma domain_round_trip m : m < 65536 ->
  (m <> 65535 -> exists d, domain_new m = Ok d /\ domain_num d = m) /\ (m = 65535 -> domain_new m = Panic PDomain).
Proof.
  intros Hm. split.
  - intros Hn. unfold domain_new. destruct (N.eqb_spec m 0). { subst; eauto. }
    destruct (N.eqb_spec m 2). { subst; eauto. } destruct (N.ltb_spec m 255). { eauto. }
    destruct (N.eqb_spec m 256). { subst; eauto. } destruct (N.ltb_spec m 65535). eauto. lia.
  - intros ->. reflexivity.
Qed.

(** Addition is wrong for every accepted modulus outside [supported]. *)
Lemma zipM_repeat {A B C} (f : A -> B -> outcome C) a b c n : f a b = Ok c ->
  zipM f (repeat a n) (repeat b n) = Ok (repeat c n).
Proof. intros E. induction n; cbn [repeat zipM]; auto. now rewrite E, IHn. Qed.
Lemma of_u16s_repeat_nth a n : (0 < n)%nat ->
  nth 0 (of_u16s (repeat a n)) 0 + 256 * nth 1 (of_u16s (repeat a n)) 0 = a mod 65536.
Proof.
  intros Hn. destruct n; [lia|]. cbn. change 65536 with (256 * 256). rewrite (N.mod_mul_r a 256 256) by lia. lia.
Qed.
Lemma wadd_u8_wrong p m : 129 <= m <= 254 ->
  let a := mkWire (U8 m) (repeat (m - 1) 32) in
  label m a /\ exists c, wadd p a a = Ok c /\ digit m c 0 <> (digit m a 0 + digit m a 0) mod m.
Proof.
  intros Hm a. assert (Hw : wide m = false) by (unfold wide; lia). split.
  - split. { unfold domain_new. destruct (N.eqb_spec m 0); [lia|]. destruct (N.eqb_spec m 2); [lia|].
      destruct (N.ltb_spec m 255); [reflexivity|lia]. }
    split. { apply repeat_length. } split. { apply Forall_forall. intros x Hx. apply repeat_spec in Hx. unfold byte_ok. lia. }
    intros _ i Hi. unfold digit. rewrite Hw. unfold ndigits in Hi. rewrite Hw in Hi.
    assert (E : nth i (repeat (m - 1) 32) 0 = m - 1). { apply (repeat_spec 32). apply nth_In. now rewrite repeat_length. }
    cbn [a wval]. rewrite E. lia.
  - exists (mkWire (U8 m) (repeat (2 * m - 258) 32)). split.
    + unfold wadd, a. cbn [wdom]. unfold wmap2. cbn [wdom wval]. rewrite domain_eqb_refl, debug_assert_true. cbn [obind].
      rewrite (zipM_repeat _ _ _ (2 * m - 258)). reflexivity.
      unfold urem, wrapping_add. destruct (N.eqb_spec m 0); [lia|]. f_equal.
      replace (m - 1 + (m - 1)) with (2 * m - 258 + 1 * 2 ^ 8) by lia. rewrite N.mod_add by lia.
      rewrite (N.mod_small _ (2 ^ 8)) by lia. apply N.mod_small. lia.
    + unfold digit. rewrite Hw. cbn [a wval repeat nth].
      replace (m - 1 + (m - 1)) with (m - 2 + 1 * m) by lia. rewrite N.mod_add, N.mod_small by lia. lia.
Qed.
Lemma wadd_u16_wrong p m : 32769 <= m <= 65534 ->
  let a := mkWire (U16 m) (of_u16s (repeat (m - 1) 16)) in
  label m a /\ exists c, wadd p a a = Ok c /\ digit m c 0 <> (digit m a 0 + digit m a 0) mod m.
Proof.
  intros Hm a. assert (Hw : wide m = true) by (unfold wide; lia).
  assert (Hf : Forall (fun x => x < 65536) (repeat (m - 1) 16)).
  { apply Forall_forall. intros x Hx. apply repeat_spec in Hx. lia. }
  assert (Hl : length (wval a) = 32%nat) by reflexivity. split.
  - split. { unfold domain_new. destruct (N.eqb_spec m 0); [lia|]. destruct (N.eqb_spec m 2); [lia|].
      destruct (N.ltb_spec m 255); [lia|]. destruct (N.eqb_spec m 256); [lia|].
      destruct (N.ltb_spec m 65535); [reflexivity|lia]. }
    split; auto. split. { apply of_u16s_ok. }
    intros _ i Hi. unfold digit. rewrite Hw. unfold ndigits in Hi. rewrite Hw in Hi.
    rewrite <- to_u16s_nth by lia. cbn [a wval]. rewrite to_u16s_of by auto.
    assert (E : nth i (repeat (m - 1) 16) 0 = m - 1). { apply (repeat_spec 16). apply nth_In. now rewrite repeat_length. }
    rewrite E. lia.
  - exists (mkWire (U16 m) (of_u16s (repeat (2 * m - 65538) 16))). split.
    + unfold wadd, a. cbn [wdom]. unfold wmap2_16. cbn [wdom wval]. rewrite domain_eqb_refl, debug_assert_true. cbn [obind].
      rewrite to_u16s_of by auto. rewrite (zipM_repeat _ _ _ (2 * m - 65538)).
      * cbn [obind]. unfold wire_domain. cbn [wdom domain_num].
        replace (forallb _ _) with true. { now rewrite debug_assert_true. }
        symmetry. apply forallb_forall. intros x Hx. apply repeat_spec in Hx. apply N.ltb_lt. lia.
      * unfold urem, wrapping_add. destruct (N.eqb_spec m 0); [lia|]. f_equal.
        replace (m - 1 + (m - 1)) with (2 * m - 65538 + 1 * 2 ^ 16) by lia. rewrite N.mod_add by lia.
        rewrite (N.mod_small _ (2 ^ 16)) by lia. apply N.mod_small. lia.
    + unfold digit. rewrite Hw. cbn [a wval]. change (2 * 0 + 1)%nat with 1%nat. change (2 * 0)%nat with 0%nat.
      rewrite !of_u16s_repeat_nth by lia. rewrite !(N.mod_small _ 65536) by lia.
      replace (m - 1 + (m - 1)) with (m - 2 + 1 * m) by lia. rewrite N.mod_add, N.mod_small by lia. lia.
Qed.

(** The modulus-0 domain: every operation fails its debug assertion. *)
Lemma zipM_total {A B C} (f : A -> B -> C) : forall l m, zipM (fun a b => Ok (f a b)) l m = Ok (zipWith f l m).
Proof. induction l; destruct m; simpl; auto. now rewrite IHl. Qed.
Lemma mapM_total {A B} (f : A -> B) : forall l, mapM (fun a => Ok (f a)) l = Ok (map f l).
Proof. induction l; simpl; auto. now rewrite IHl. Qed.
Lemma u16max_ops a b k : wdom a = U16MAX -> wdom b = U16MAX -> length (wval a) = 32%nat -> length (wval b) = 32%nat ->
  wadd Debug a b = Panic PAssert /\ wsub Debug a b = Panic PAssert /\ wneg Debug a = Panic PAssert /\
  wmul Debug a k = Panic PAssert.
Proof.
  intros Da Db La Lb. unfold wadd, wsub, wneg, wmul. rewrite Da.
  unfold wmap2_16, wmap16, wire_domain. rewrite Da, Db, !zipM_total, !mapM_total. cbn [domain_eqb obind].
  destruct (wval a) as [|a0 [|a1 va]]; try discriminate. destruct (wval b) as [|b0 [|b1 vb]]; try discriminate.
  cbn [to_u16s zipWith map forallb domain_num]. unfold debug_assert. cbn [is_debug assert_ obind].
  destruct (N.ltb_spec k 0); [lia|].
  repeat match goal with |- context [?x <? 0] => destruct (N.ltb_spec x 0); [lia|] end. auto.
Qed.

Lemma color_delta p m w r d x : supported m -> label m w -> valid_sample m r -> wire_delta m r = Ok d -> x < m ->
  exists dx wx, wmul p d x = Ok dx /\ wadd p w dx = Ok wx /\ label m wx /\ color wx = (color w + x) mod m /\ color w < m.
Proof.
  intros Hs Hw Hr Hd Hx. apply label_WF in Hw; auto.
  destruct (wire_delta_ok m r Hs Hr) as (d' & E & Hd'). rewrite E in Hd. inversion Hd; subst d'.
  assert (HW : WF m d) by apply Hd'.
  exists (pmul m d x), (padd m w (pmul m d x)). split. { now apply wmul_ok. }
  split. { apply wadd_ok; auto using pmul_WF. } split. { apply label_WF; auto using padd_WF, pmul_WF. }
  split. now apply color_shift. now apply color_lt.
Qed.
