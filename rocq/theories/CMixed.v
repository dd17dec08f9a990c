(** C102: labels of different moduli; and messages on signed channels (C54). *)
From Coq Require Import List NArith Bool Arith Lia.
From Verif Require Import Base MWires MProc MChannel SpecWires SpecOt PBase PWires PProc.
Import ListNotations.
Open Scope N_scope.

(** Debug builds reject them. *)
Theorem C102_debug_rejects : forall m n a b, m <> n -> label m a -> label n b ->
  wadd Debug a b = Panic PAssert /\ wsub Debug a b = Panic PAssert.
Proof.
  intros m n a b Hmn (Da & _) (Db & _).
  assert (E : domain_eqb (wdom a) (wdom b) = false).
  { destruct (domain_eqb (wdom a) (wdom b)) eqn:E; [|reflexivity]. apply domain_eqb_eq in E. rewrite E in Da. exfalso. apply Hmn.
    unfold domain_new in *.
    destruct (N.eqb_spec m 0), (N.eqb_spec n 0), (N.eqb_spec m 2), (N.eqb_spec n 2), (N.ltb_spec m 255), (N.ltb_spec n 255),
      (N.eqb_spec m 256), (N.eqb_spec n 256), (N.ltb_spec m 65535), (N.ltb_spec n 65535); congruence. }
  unfold wadd, wsub, wmap2, wmap2_16, debug_assert. cbn [is_debug]. rewrite E. destruct (wdom a); split; reflexivity.
Qed.
Print Assumptions C102_debug_rejects.

Lemma mixed_narrow m a b op f : supported m -> WF m a -> length (wval b) = 32%nat -> bytes_ok (wval b) -> wide m = false ->
  (forall x y, x < 256 -> y < 256 -> op x y = Ok (f x y) /\ f x y < lim m) ->
  exists w, wmap2 Release a b op = Ok w /\ WF m w.
Proof.
  intros Hs Ha Lb Bb Hw Hop. pose proof Ha as (Da & La & Ba & _). unfold wmap2. cbn [debug_assert is_debug obind].
  rewrite (zipM_forall op f byte_ok byte_ok) by (auto; intros; now apply Hop). cbn [obind]. eexists. split; [reflexivity|].
  rewrite Da. replace (zipWith f (wval a) (wval b)) with (undg m (zipWith f (wval a) (wval b))) by (unfold undg; now rewrite Hw).
  apply undg_wf; [exact Hs|]. split.
  - rewrite zipWith_length, La, Lb. unfold ndigits. now rewrite Hw.
  - apply (Forall_zipWith byte_ok byte_ok); auto. intros; now apply Hop.
Qed.
Lemma mixed_wide m a b op f : supported m -> WF m a -> length (wval b) = 32%nat -> bytes_ok (wval b) -> wide m = true ->
  (forall x y, x < 65536 -> y < 65536 -> op x y = Ok (f x y) /\ f x y < lim m) ->
  exists w, wmap2_16 Release a b op = Ok w /\ WF m w.
Proof.
  intros Hs Ha Lb Bb Hw Hop. pose proof Ha as (Da & La & Ba & _). unfold wmap2_16. cbn [debug_assert is_debug obind].
  pose proof (to_u16s_lt _ Ba). pose proof (to_u16s_lt _ Bb).
  rewrite (zipM_forall op f (fun x => x < 65536) (fun x => x < 65536)) by (auto; intros; now apply Hop). cbn [obind]. eexists. split; [reflexivity|].
  rewrite Da. replace (of_u16s (zipWith f (to_u16s (wval a)) (to_u16s (wval b)))) with (undg m (zipWith f (to_u16s (wval a)) (to_u16s (wval b))))
    by (unfold undg; now rewrite Hw).
  apply undg_wf; [exact Hs|]. split.
  - rewrite zipWith_length, !(to_u16s_length_aux 16) by assumption. unfold ndigits. now rewrite Hw.
  - apply (Forall_zipWith (fun x => x < 65536) (fun x => x < 65536)); auto. intros; now apply Hop.
Qed.
Lemma release_usub w a b : exists d, usub Release w a b = Ok d.
Proof. unfold usub. destruct (b <=? a); eexists; reflexivity. Qed.
Lemma release_uadd w a b : exists d, uadd Release w a b = Ok d.
Proof. unfold uadd. destruct (a + b <? 2 ^ w); eexists; reflexivity. Qed.
Definition get (o : outcome N) : N := match o with Ok a => a | _ => 0 end.
Lemma release_minus m w x y : m <> 0 -> let o := (let* d := usub Release w m y in let* s := uadd Release w x d in urem s m) in
  o = Ok (get o) /\ get o < m.
Proof.
  intros Hm. cbv zeta. destruct (release_usub w m y) as [d ->]. cbn [obind]. destruct (release_uadd w x d) as [s ->]. cbn [obind].
  unfold urem. destruct (N.eqb_spec m 0); [contradiction|]. split; [reflexivity|]. now apply N.mod_lt.
Qed.

(** Release builds do not: the sum and the difference of a label of modulus m and any 32 bytes is a label of modulus m. *)
Theorem C102_release_rejects_refuted : forall m a b, supported m -> label m a -> length (wval b) = 32%nat -> bytes_ok (wval b) ->
  exists s d, wadd Release a b = Ok s /\ label m s /\ wsub Release a b = Ok d /\ label m d.
Proof.
  intros m a b Hs Ha Lb Bb. apply (label_WF m a Hs) in Ha.
  enough (H : (exists s, wadd Release a b = Ok s /\ WF m s) /\ (exists d, wsub Release a b = Ok d /\ WF m d)).
  { destruct H as [(s & H1 & H2) (d & H3 & H4)]. exists s, d. split; [exact H1|]. split; [now apply label_WF|]. split; [exact H3|]. now apply label_WF. }
  pose proof Ha as (Da & _). unfold wadd, wsub. rewrite Da.
  destruct (supported_cases m Hs) as [->|[H|[->|H]]].
  - change (dom_of 2) with Binary. cbv iota. assert (X : forall x y, x < 256 -> y < 256 -> Ok (N.lxor x y) = Ok (N.lxor x y) /\ N.lxor x y < lim 2).
    { intros. split; [reflexivity|]. change (lim 2) with 256. now apply lxor_byte. }
    split; exact (mixed_narrow 2 a b _ N.lxor Hs Ha Lb Bb eq_refl X).
  - rewrite dom_of_u8 by lia. split.
    + apply (mixed_narrow m a b _ (fun x y => wrapping_add 8 x y mod m) Hs Ha Lb Bb); [apply wide_u8; lia|].
      intros x y _ _. rewrite lim_ne by lia. unfold urem. destruct (N.eqb_spec m 0); [lia|]. split; [reflexivity|]. now apply N.mod_lt.
    + apply (mixed_narrow m a b _ (fun x y => get (let* d := usub Release 8 m y in let* s := uadd Release 8 x d in urem s m)) Hs Ha Lb Bb); [apply wide_u8; lia|].
      intros x y _ _. rewrite lim_ne by lia. apply release_minus. lia.
  - change (dom_of 256) with U8MAX. cbv iota. split.
    + apply (mixed_narrow 256 a b _ (wrapping_add 8) Hs Ha Lb Bb eq_refl). intros x y _ _. split; [reflexivity|]. now apply N.mod_lt.
    + apply (mixed_narrow 256 a b _ (wrapping_sub 8) Hs Ha Lb Bb eq_refl). intros x y _ _. split; [reflexivity|]. now apply N.mod_lt.
  - rewrite dom_of_u16 by lia. split.
    + apply (mixed_wide m a b _ (fun x y => wrapping_add 16 x y mod m) Hs Ha Lb Bb); [apply wide_u16; lia|].
      intros x y _ _. rewrite lim_ne by lia. unfold urem. destruct (N.eqb_spec m 0); [lia|]. split; [reflexivity|]. now apply N.mod_lt; lia.
    + apply (mixed_wide m a b _ (fun x y => get (let* d := usub Release 16 m y in let* s := uadd Release 16 x d in urem s m)) Hs Ha Lb Bb); [apply wide_u16; lia|].
      intros x y _ _. rewrite lim_ne by lia. apply release_minus. lia.
Qed.
Print Assumptions C102_release_rejects_refuted.
Definition seven : wire := mkWire (U8 7) (repeat 5 32).
Definition five : wire := mkWire (U8 5) (repeat 4 32).
Example C102_case : label 7 seven /\ label 5 five /\ supported 7 /\
  wadd Release seven five = Ok (mkWire (U8 7) (repeat 2 32)) /\ wadd Release five seven = Ok (mkWire (U8 5) (repeat 4 32)).
Proof.
  assert (L : forall m v, m = 7 \/ m = 5 -> v < m -> label m (mkWire (U8 m) (repeat v 32))).
  { intros m v Hm Hv. assert (S : supported m) by (unfold supported; lia). apply label_WF; [exact S|].
    split. { symmetry. apply dom_of_u8; lia. } cbn [wval]. split; [apply repeat_length|]. split.
    - apply Forall_forall. intros x Hx. apply repeat_spec in Hx. subst. unfold byte_ok. lia.
    - unfold dg. rewrite wide_u8 by lia. split. { unfold ndigits. rewrite wide_u8 by lia. apply repeat_length. }
      apply Forall_forall. intros x Hx. apply repeat_spec in Hx. subst. rewrite lim_ne by lia. lia. }
  split; [apply L; lia|]. split; [apply L; lia|]. split; [unfold supported; lia|]. vm_compute. auto.
Qed.

(** C54: a message sent on a signed channel is received as it was sent, and the two frames are the message and its
    signature. *)
Theorem C54_signed_message : forall edpub edsign sig_valid edverify secret d,
  sig_valid (edsign secret d) = true -> edverify (edpub secret) d (edsign secret d) = true ->
  runs (signed_send edsign secret d) (signed_recv sig_valid edverify (edpub secret)) (Ok tt) (Ok d) /\
  feed (signed_send edsign secret d) [] = (Ok tt, [d; edsign secret d]).
Proof.
  intros edpub edsign sig_valid edverify secret d H1 H2. split; [|reflexivity]. unfold signed_send, signed_recv.
  apply runs_send_recv. apply runs_snd_rcv. cbn. rewrite H1, H2. apply runs_ret.
Qed.
Print Assumptions C54_signed_message.
(** Protocols run on signed channels send and receive their messages in this way. *)
Theorem C54_signed_protocols : forall edsign sig_valid edverify secret pk d frames e,
  feed (over_signed edsign sig_valid edverify secret pk (send d)) frames = feed (signed_send edsign secret d) frames /\
  (fst (feed (over_signed edsign sig_valid edverify secret pk recv) frames) = Ok e <->
   fst (feed (signed_recv sig_valid edverify pk) frames) = Ok e).
Proof.
  intros. split; [reflexivity|]. destruct frames as [|f [|g frames]]; cbn; try tauto; try (split; discriminate).
  destruct (sig_valid g); cbn; [|tauto]. destruct (edverify pk f g); cbn; [tauto|]. split; discriminate.
Qed.
Print Assumptions C54_signed_protocols.
Example C54_signed_case : let sign (s m : bytes) := s ++ m in let ver (pk m sg : bytes) := bytes_eqb sg (pk ++ m) in
  fst (feed (signed_recv (fun _ => true) ver [1]) (snd (feed (signed_send sign [1] [7; 8]) []))) = Ok [7; 8] /\
  fst (feed (signed_recv (fun _ => true) ver [1]) (snd (feed (signed_send sign [2] [7; 8]) []))) = Err EAuth.
Proof. vm_compute. auto. Qed.
