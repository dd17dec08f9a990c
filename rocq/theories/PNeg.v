(** Negation for every accepted modulus. *)
From Coq Require Import List NArith Bool Arith Lia.
From Verif Require Import Base MUtil MWires SpecWires PBase PWires PWiresSpec.
Import ListNotations.
Open Scope N_scope.

Lemma label_digits m a : m <> 2 -> label m a -> length (dg m (wval a)) = ndigits m /\ Forall (fun x => x < m) (dg m (wval a)).
Proof.
  intros Hm (_ & Hl & _ & Hx). specialize (Hx Hm). pose proof (dg_length m (wval a) Hl) as Ld. split; [exact Ld|].
  apply Forall_forall. intros x Hin. apply (In_nth _ _ 0) in Hin as (i & Hi & <-). rewrite Ld in Hi.
  rewrite dg_nth with (d := wdom a) by auto. destruct a; exact (Hx i Hi).
Qed.
Lemma neg_digits m a c : 1 <= m -> m <= 65536 -> m <> 2 -> label m a -> wdom c = wdom a ->
  wval c = undg m (map (fun x => (m - x) mod m) (dg m (wval a))) ->
  label m c /\ forall i, (i < ndigits m)%nat -> dplus m (digit m a i) (digit m c i) = 0.
Proof.
  intros H1 H6 Hm Ha Dc Vc. pose proof (label_digits m a Hm Ha) as [Ld Fd]. destruct Ha as (Hd & Hl & Hb & Hx).
  set (ds := map (fun x => (m - x) mod m) (dg m (wval a))) in *.
  assert (Lds : length ds = ndigits m) by (unfold ds; now rewrite map_length).
  assert (Fs : Forall (fun x => x < m) ds). { unfold ds. apply Forall_map, Forall_forall. intros x _. apply N.mod_lt. lia. }
  assert (Lv : length (wval c) = 32%nat).
  { rewrite Vc. unfold undg, ndigits in *. destruct (wide m); auto. rewrite of_u16s_length. lia. }
  assert (Dv : dg m (wval c) = ds).
  { rewrite Vc. unfold dg, undg. destruct (wide m) eqn:E; auto. apply to_u16s_of. eapply Forall_impl; [|exact Fs]. cbn; intros; lia. }
  assert (Bv : bytes_ok (wval c)).
  { rewrite Vc. unfold undg. destruct (wide m) eqn:E; [apply of_u16s_ok|]. eapply Forall_impl; [|exact Fs].
    unfold wide in E. apply orb_false_iff in E as [_ E]. apply N.ltb_ge in E. unfold byte_ok. cbn. intros; lia. }
  assert (Nc : forall i, (i < ndigits m)%nat -> digit m c i = (m - digit m a i) mod m).
  { intros i Hi. destruct c as [dc vc]. cbn [wval] in *. rewrite <- (dg_nth m vc dc i Lv Hi), Dv. unfold ds.
    rewrite nth_indep with (d' := (m - 0) mod m) by (fold ds; lia). rewrite (map_nth (fun x => (m - x) mod m)).
    rewrite (dg_nth m (wval a) (wdom a) i Hl Hi). now destruct a. }
  split.
  - split; [now rewrite Dc|]. split; [exact Lv|]. split; [exact Bv|]. intros _ i Hi. rewrite (Nc i Hi). apply N.mod_lt. lia.
  - intros i Hi. rewrite (Nc i Hi). unfold dplus. destruct (N.eqb_spec m 2); [lia|]. specialize (Hx Hm i Hi).
    rewrite N.add_mod_idemp_r by lia. replace (digit m a i + (m - digit m a i)) with (1 * m) by lia. apply N.mod_mul. lia.
Qed.
Lemma wneg_every p m a : 1 <= m -> m < 65535 -> m <> 2 -> label m a ->
  exists c, wneg p a = Ok c /\ label m c /\ forall i, (i < ndigits m)%nat -> dplus m (digit m a i) (digit m c i) = 0.
Proof.
  intros H1 H6 Hm Ha. pose proof (label_digits m a Hm Ha) as [Ld Fd]. pose proof Ha as (Hd & _).
  assert (G : wneg p a = Ok (mkWire (wdom a) (undg m (map (fun x => (m - x) mod m) (dg m (wval a)))))).
  2:{ eexists. split; [exact G|]. now apply neg_digits; try lia. }
  assert (Op : forall w x, x < m -> (let* d := usub p w m x in urem d m) = Ok ((m - x) mod m)).
  { intros w x Hx. unfold usub, urem. destruct (N.leb_spec x m); [|lia]. cbn [obind]. destruct (N.eqb_spec m 0); [lia|reflexivity]. }
  unfold domain_new in Hd. destruct (N.eqb_spec m 0); [lia|]. destruct (N.eqb_spec m 2); [lia|].
  destruct (N.ltb_spec m 255).
  { injection Hd as Hd. assert (W : wide m = false). { unfold wide. destruct (N.eqb_spec m 255); [lia|]. cbn. apply N.ltb_ge. lia. }
    unfold wneg. rewrite <- Hd. unfold wmap, dg, undg in *. rewrite W in *.
    rewrite (mapM_forall _ (fun x => (m - x) mod m) (fun x => x < m) (wval a)) by auto. cbn [obind]. now rewrite <- Hd. }
  destruct (N.eqb_spec m 256).
  { subst m. injection Hd as Hd. unfold wneg. rewrite <- Hd. unfold wmap, dg, undg in *. cbn [wide] in *.
    change (wide 256) with false in *. cbv iota in *.
    rewrite (mapM_forall _ (fun x => (256 - x) mod 256) (fun x => x < 256) (wval a)) by auto. cbn [obind]. now rewrite <- Hd. }
  destruct (N.ltb_spec m 65535); [|lia].
  injection Hd as Hd. assert (W : wide m = true). { unfold wide. destruct (N.eqb_spec m 255); [reflexivity|]. cbn. apply N.ltb_lt. lia. }
  unfold wneg. rewrite <- Hd. unfold wmap16, dg, undg in *. rewrite W in *.
  rewrite (mapM_forall _ (fun x => (m - x) mod m) (fun x => x < m) (to_u16s (wval a))) by auto. cbn [obind].
  unfold wire_domain. rewrite <- Hd. cbn [domain_num].
  assert (forallb (fun x => x <? m) (map (fun x => (m - x) mod m) (to_u16s (wval a))) = true) as ->.
  { apply forallb_forall. intros x Hx. apply in_map_iff in Hx as (y & <- & _). apply N.ltb_lt, N.mod_lt. lia. }
  rewrite debug_assert_true. reflexivity.
Qed.
