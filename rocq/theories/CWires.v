(** Properties C05-C10: wire labels. *)
From Coq Require Import List NArith Bool Arith Lia.
From Verif Require Import Base MUtil MWires SpecWires PWires PWiresSpec PNeg.
Import ListNotations.
Open Scope N_scope.

(** C05: a wire created for modulus m reports domain m; 65535 panics. *)
Theorem C05_domain_round_trip : forall m r, m < 65536 ->
  (m <> 65535 -> exists w, wire_new m r = Ok w /\ wire_domain w = m /\ wval w = r) /\
  (m = 65535 -> wire_new m r = Panic PDomain).
Proof.
  intros m r Hm. destruct (domain_round_trip m Hm) as [H1 H2]. split.
  - intros Hn. destruct (H1 Hn) as (d & E & Ed). exists (mkWire d r). unfold wire_new. rewrite E. auto.
  - intros Hn. unfold wire_new. now rewrite (H2 Hn).
Qed.
Example C05_case : exists w, wire_new 1000 (repeat 7 32) = Ok w /\ wire_domain w = 1000.
Proof. eexists; split; reflexivity. Qed.
Print Assumptions C05_domain_round_trip.

(** C06: on supported moduli the operators are componentwise modular arithmetic and never panic. *)
Theorem C06_arithmetic : forall p m a b k, supported m -> label m a -> label m b -> k < m ->
  (exists c, wadd p a b = Ok c /\ label m c /\
     forall i, (i < ndigits m)%nat -> digit m c i = dplus m (digit m a i) (digit m b i)) /\
  (exists c, wsub p a b = Ok c /\ label m c /\
     forall i, (i < ndigits m)%nat -> digit m c i = dminus m (digit m a i) (digit m b i)) /\
  (exists c, wmul p a k = Ok c /\ label m c /\
     forall i, (i < ndigits m)%nat -> digit m c i = dtimes m (digit m a i) k).
Proof.
  intros p m a b k Hs Ha Hb Hk. split; [exact (wadd_label p m a b Hs Ha Hb)|].
  split; [exact (wsub_label p m a b Hs Ha Hb)|exact (wmul_label p m a k Hs Ha Hk)].
Qed.
Theorem C06_group_laws : forall p m a b c, supported m -> label m a -> label m b -> label m c ->
  wadd p a b = wadd p b a /\
  (let* ab := wadd p a b in wadd p ab c) = (let* bc := wadd p b c in wadd p a bc) /\
  (let* ab := wadd p a b in wsub p ab b) = Ok a /\
  (let* d := wsub p a b in wadd p d b) = Ok a.
Proof. exact wadd_group. Qed.
Theorem C06_scalar_laws : forall p m w a b, supported m -> label m w -> a < m -> b < m ->
  (let* x := wmul p w a in let* y := wmul p w b in wadd p x y) = wmul p w ((a + b) mod m) /\
  (let* x := wmul p w a in wmul p x b) = wmul p w ((a * b) mod m) /\
  wmul p w 1 = Ok w.
Proof. exact wmul_linear. Qed.
Example C06_case : supported 300 /\ label 300 (mkWire (U16 300) (of_u16s (repeat 299 16))) /\
  wadd Debug (mkWire (U16 300) (of_u16s (repeat 299 16))) (mkWire (U16 300) (of_u16s (repeat 2 16)))
    = Ok (mkWire (U16 300) (of_u16s (repeat 1 16))).
Proof.
  split. { right; lia. } split.
  - apply label_WF. right; lia. split; [reflexivity|]. split; [reflexivity|].
    split; [repeat constructor|]. split; [reflexivity|]. repeat constructor.
  - reflexivity.
Qed.
Print Assumptions C06_arithmetic.
Print Assumptions C06_group_laws.
Print Assumptions C06_scalar_laws.

(** C07 is false: every accepted modulus above 128 and below 255, or above 32768, has in-range
    labels whose sum is wrong, in both profiles. *)
Theorem C07_add_every_modulus_refuted : forall p m,
  (129 <= m <= 254 \/ 32769 <= m <= 65534) ->
  exists a c, label m a /\ wadd p a a = Ok c /\ digit m c 0 <> (digit m a 0 + digit m a 0) mod m.
Proof.
  intros p m [H|H].
  - destruct (wadd_u8_wrong p m H) as (Hl & c & E & Hd). eauto.
  - destruct (wadd_u16_wrong p m H) as (Hl & c & E & Hd). eauto.
Qed.
Example C07_case : exists a c, label 200 a /\ wadd Release a a = Ok c /\ nth 0 (wval a) 0 = 199 /\ nth 0 (wval c) 0 = 142.
Proof.
  exists (mkWire (U8 200) (repeat 199 32)). eexists. split.
  - exact (proj1 (wadd_u8_wrong Debug 200 ltac:(lia))).
  - split; [reflexivity|]. split; reflexivity.
Qed.
Print Assumptions C07_add_every_modulus_refuted.

(** C08 holds for every accepted modulus except 2 (modulus 0 is the subject of C10) ... *)
Theorem C08_negation_inverse_except_2 : forall p m a, 1 <= m -> m < 65535 -> m <> 2 -> label m a ->
  exists c, wneg p a = Ok c /\ label m c /\
    forall i, (i < ndigits m)%nat -> dplus m (digit m a i) (digit m c i) = 0.
Proof. exact wneg_every. Qed.
(** ... and fails for every binary label: w + (-w) is the all-ones string, not zero. *)
Theorem C08_negation_inverse_refuted : forall p w, label 2 w ->
  exists n s, wneg p w = Ok n /\ wadd p w n = Ok s /\ digit 2 s 0 <> 0.
Proof.
  intros p w Hw. apply label_WF in Hw; [|left; lia]. assert (H2 : supported 2) by (left; lia).
  exists (pneg 2 w), (padd 2 w (pneg 2 w)). split. { now apply wneg_ok. }
  split. { apply wadd_ok; auto using pneg_WF. }
  rewrite digit_dg by (auto using padd_WF, pneg_WF || (unfold ndigits; simpl; lia)).
  rewrite padd_dg by auto using pneg_WF.
  rewrite (nth_zipWith (dplus 2) 0 0 0).
  - unfold pneg, of_digits. cbn [wval]. unfold dg, undg. replace (wide 2) with false by reflexivity.
    replace (2 =? 2) with true by reflexivity. cbv iota.
    rewrite nth_indep with (d' := N.lxor 255 0) (l := map _ _).
    2:{ rewrite map_length. destruct Hw as (_ & Hl & _). lia. }
    rewrite (map_nth (N.lxor 255)). unfold dplus. replace (2 =? 2) with true by reflexivity.
    rewrite N.lxor_comm, N.lxor_assoc, N.lxor_nilpotent. discriminate.
  - rewrite dg_length; [unfold ndigits; simpl; lia|apply Hw].
  - rewrite !dg_length; auto. apply (pneg_WF 2 w H2 Hw). apply Hw.
Qed.
(** So negation is the inverse exactly for the moduli other than 2. *)
Theorem C08_negation_inverse_exactly : forall p m, 1 <= m -> m < 65535 ->
  ((forall a, label m a -> exists c, wneg p a = Ok c /\ label m c /\
      forall i, (i < ndigits m)%nat -> dplus m (digit m a i) (digit m c i) = 0) <-> m <> 2).
Proof.
  intros p m H1 H6. split.
  - intros H ->. assert (L : label 2 (mkWire Binary (repeat 0 32))).
    { apply label_WF; [left; lia|]. split; [reflexivity|]. split; [reflexivity|]. split; [repeat constructor|].
      split; [reflexivity|]. repeat constructor. }
    destruct (H _ L) as (c & E & _ & Hd). injection E as <-. specialize (Hd 0%nat ltac:(cbv; lia)). discriminate Hd.
  - intros Hm a Ha. now apply C08_negation_inverse_except_2.
Qed.
Example C08_case : wneg Debug (mkWire (U8 5) (repeat 2 32)) = Ok (mkWire (U8 5) (repeat 3 32)) /\
  wneg Debug (mkWire Binary (repeat 1 32)) = Ok (mkWire Binary (repeat 254 32)) /\
  wneg Debug (mkWire (U8 200) (repeat 199 32)) = Ok (mkWire (U8 200) (repeat 1 32)) /\ label 200 (mkWire (U8 200) (repeat 199 32)).
Proof. split; [reflexivity|]. split; [reflexivity|]. split; [reflexivity|]. exact (proj1 (wadd_u8_wrong Debug 200 ltac:(lia))). Qed.
Print Assumptions C08_negation_inverse_except_2.
Print Assumptions C08_negation_inverse_exactly.
Print Assumptions C08_negation_inverse_refuted.

(** C09: colours shift with the value, so the colour selects the row of the active value. *)
Theorem C09_colour_additive : forall p m w r d x,
  supported m -> label m w -> valid_sample m r -> wire_delta m r = Ok d -> x < m ->
  exists dx wx, wmul p d x = Ok dx /\ wadd p w dx = Ok wx /\ label m wx /\
    color wx = (color w + x) mod m /\ color w < m.
Proof. exact color_delta. Qed.
Example C09_case : let w := mkWire (U8 5) (repeat 3 32) in
  exists d dx wx, wire_delta 5 (repeat 2 32) = Ok d /\ wmul Debug d 4 = Ok dx /\ wadd Debug w dx = Ok wx /\
    color w = 3 /\ color wx = 2.
Proof. cbv zeta. do 3 eexists. split; [reflexivity|]. split; [reflexivity|]. split; [reflexivity|]. split; reflexivity. Qed.
Print Assumptions C09_colour_additive.

(** C10 is false: in the domain of modulus 0 every operator panics in debug builds, on every operand. *)
Theorem C10_modulus_zero_refuted : forall a b k,
  wire_new 0 (wval a) = Ok a -> wire_new 0 (wval b) = Ok b ->
  length (wval a) = 32%nat -> length (wval b) = 32%nat ->
  wadd Debug a b = Panic PAssert /\ wsub Debug a b = Panic PAssert /\ wneg Debug a = Panic PAssert /\
  wmul Debug a k = Panic PAssert.
Proof.
  intros a b k Ha Hb. unfold wire_new, domain_new in *. simpl in *.
  inversion Ha as [Ea]. inversion Hb as [Eb]. rewrite <- Ea, <- Eb. apply u16max_ops; reflexivity.
Qed.
Example C10_case : exists w, wire_new 0 (repeat 1 32) = Ok w /\ wadd Debug w w = Panic PAssert /\
  wadd Release w w = Ok (mkWire U16MAX (repeat 2 32)).
Proof. eexists. split; [reflexivity|]. split; reflexivity. Qed.
Print Assumptions C10_modulus_zero_refuted.
