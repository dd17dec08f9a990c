(** A partner that disappears makes the other side fail. *)
From Coq Require Import List NArith Bool Lia Arith.
From Verif Require Import Base MProc PProc PHang SpecCrash.
Import ListNotations.

Section Crash.
Context {A B : Type}.
Implicit Types c : cfg A B.

Lemma core_done_sends n c f : core n c f -> forall oa ob o la, f = final oa ob -> right_ c = Done o ->
  feed (left_ c) (rl c) = (oa, la) -> la = [].
Proof.
  induction 1 as [c|n c c1 c2 Hs Hc IH|n c c1 c2 Hs _ _]; intros oa ob o la E Er F.
  - subst c. cbn in F. congruence.
  - unfold stepL in Hs. destruct (left_ c) as [|m k|k]; [discriminate| |].
    + injection Hs as <-. destruct (core_lr_done _ _ _ Hc o Er) as [l El]. subst c2. cbn in El. destruct (lr c); discriminate.
    + destruct (rl c) as [|m q]; [discriminate|]. injection Hs as <-. eapply IH; eauto.
  - unfold stepR in Hs. rewrite Er in Hs. discriminate.
Qed.

(** [c] is a configuration of the crashing run, [c0] the one of the honest run. *)
Definition sim (oa : outcome A) (ob : outcome B) c : Prop :=
  exists n l m la lb,
    left_ c = crash n l /\ hangup (right_ c) /\ core m (Cfg l (right_ c) (lr c) (rl c)) (final oa ob) /\
    feed l (rl c ++ lb) = (oa, la) /\ feed (right_ c) (lr c ++ la) = (ob, lb) /\
    (length (snd (feed (crash n l) (rl c ++ lb))) < length la)%nat.
Definition over c : Prop := exists o : outcome B, right_ c = Done o /\ failed o.

Lemma sim_not_done oa ob c o : sim oa ob c -> right_ c = Done o -> False.
Proof.
  intros (n & l & m & la & lb & El & _ & Hc & Fl & Fr & Hlt) E. rewrite E in *. cbn in Fr. injection Fr as _ <-.
  rewrite app_nil_r in Fl. pose proof (core_done_sends _ _ _ Hc oa ob o la eq_refl eq_refl Fl) as ->. cbn in Hlt. lia.
Qed.

Lemma bad_failed {X} (o : outcome X) : bad o -> failed o.
Proof. destruct o; cbn; auto. Qed.

Lemma sim_step oa ob c c' : sim oa ob c -> step c c' -> sim oa ob c' \/ over c'.
Proof.
  intros H S. assert (ND := fun o => sim_not_done oa ob c o H). destruct H as (n & l & m & la & lb & El & Hr & Hc & Fl & Fr & Hlt).
  assert (Fin : is_final (final oa ob)) by (exists oa, ob; reflexivity).
  destruct S as [c c' S|c c' S|c c' S|c c' S].
  - left. destruct c as [l0 r q q']. cbn in *. subst l0. unfold stepL in S. cbn in S.
    destruct l as [o|x k|k]; destruct n as [|n]; cbn in S; try discriminate.
    + injection S as <-. cbn in *. destruct (feed k (q' ++ lb)) as [o1 out] eqn:F. injection Fl as -> <-.
      destruct (descend _ _ _ Fin Hc) as [HL _]. destruct (HL _ eq_refl) as (m' & -> & Hc').
      exists n, k, m', out, lb. cbn. split; [reflexivity|]. split; [exact Hr|]. split; [exact Hc'|]. split; [exact F|].
      split; [now rewrite <- app_assoc|]. destruct (feed (crash n k) (q' ++ lb)). cbn in *. lia.
    + destruct q' as [|x q']; [discriminate|]. injection S as <-. cbn in *.
      destruct (descend _ _ _ Fin Hc) as [HL _]. destruct (HL _ eq_refl) as (m' & -> & Hc').
      exists n, (k (Some x)), m', la, lb. cbn. auto 10.
  - left. destruct c as [l0 r q q']. cbn in *. subst l0. unfold stepR in S. cbn in S.
    destruct (descend _ _ _ Fin Hc) as [_ HR]. unfold stepR in HR. cbn in HR.
    inversion Hr as [o E|x k Hk E|k o En Bo Hk E]; subst r; [discriminate| |].
    + injection S as <-. destruct (HR _ eq_refl) as (m' & -> & Hc'). cbn in *.
      destruct (feed k (q ++ la)) as [o1 out] eqn:F. injection Fr as -> <-.
      exists n, l, m', la, out. cbn. rewrite <- app_assoc. cbn. auto 10.
    + destruct q as [|x q]; [discriminate|]. injection S as <-. destruct (HR _ eq_refl) as (m' & -> & Hc'). cbn in *.
      exists n, l, m', la, lb. cbn. auto 10.
  - exfalso. inversion S; subst; cbn in ND; eapply ND; reflexivity.
  - right. inversion S; subst; cbn in *.
    + inversion Hr as [o1 E|x1 k1 Hk E|k1 o1 En Bo Hk E]; subst. exists o1. cbn. split; [exact En|now apply bad_failed].
    + exists (Err EClosed). cbn. auto.
Qed.
Lemma over_step c c' : over c -> step c c' -> over c'.
Proof.
  intros (o & E & Fo) S. exists o. split; [|exact Fo]. apply (steps_done_right 1 c c' o); [|exact E].
  econstructor; [exact S|constructor].
Qed.
Lemma sim_steps oa ob k : forall c c', sim oa ob c \/ over c -> steps k c c' -> sim oa ob c' \/ over c'.
Proof.
  induction k as [|k IH]; intros c c' H S; inversion S as [|n0 c0 c1 c2 Hs Hk]; subst; auto.
  eapply IH; [|exact Hk]. destruct H as [H|H]; [eapply sim_step; eauto|right; eapply over_step; eauto].
Qed.

(** Nobody can move only when the right end is done. *)
Lemma sim_stuck oa ob c : sim oa ob c -> (forall c', ~ step c c') -> exists o, right_ c = Done o.
Proof.
  intros H St. assert (ND := fun o => sim_not_done oa ob c o H). destruct H as (n & l & m & la & lb & El & Hr & Hc & Fl & Fr & Hlt).
  destruct c as [l0 r q q']. cbn in *. subst l0. destruct r as [o|x k|k]; [eauto| |].
  - exfalso. eapply St. apply step_right. reflexivity.
  - exfalso. destruct q as [|x q]; [|eapply St; apply step_right; reflexivity].
    inversion Hc as [E|n1 c1 d c2 Hs Hc' E|n1 c1 d c2 Hs Hc' E]; subst.
    + unfold stepL in Hs. cbn in Hs. destruct l as [o|x k0|k0]; [discriminate| |]; destruct n as [|n].
      * eapply St. apply step_closeR. cbn. constructor.
      * eapply St. apply step_left. reflexivity.
      * eapply St. apply step_closeR. cbn. constructor.
      * destruct q' as [|y q']; [discriminate|]. eapply St. apply step_left. reflexivity.
    + discriminate.
Qed.

Lemma crash_fails (p : proc A) (q : proc B) oa ob : hangup q -> runs p q oa ob -> fails_without p q.
Proof.
  intros Hq R. destruct (runs_feed _ _ _ _ R) as (la & lb & Fp & Fq).
  exists la, lb, oa, ob. split; [exact Fp|]. split; [exact Fq|]. intros n Cut k c S.
  unfold cut_short in Cut. rewrite Fp in Cut. cbn in Cut. apply reach_core in R. destruct R as [m R].
  assert (I0 : sim oa ob (initial (crash n p) q)).
  { exists n, p, m, la, lb. cbn. auto 10. }
  destruct (sim_steps oa ob k _ _ (or_introl I0) S) as [H|(o & E & Fo)].
  - split; [intros o E; exfalso; eapply sim_not_done; eauto|]. eapply sim_stuck; eauto.
  - split; [intros o' E'; congruence|eauto].
Qed.
End Crash.
