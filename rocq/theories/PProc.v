(** Facts about two-party runs: the diamond, random descent, and rules to build runs. *)
From Coq Require Import List NArith Bool Lia Arith.
From Verif Require Import Base MProc.
From Verif Require Export SpecProc.
Import ListNotations.

Section Confluence.
Context {A B : Type}.
Implicit Types c : cfg A B.

(** Counted core executions (no closing steps). *)
Inductive core : nat -> cfg A B -> cfg A B -> Prop :=
| core_refl c : core 0 c c
| core_L n c c1 c2 : stepL c = Some c1 -> core n c1 c2 -> core (S n) c c2
| core_R n c c1 c2 : stepR c = Some c1 -> core n c1 c2 -> core (S n) c c2.

Lemma diamond c c1 c2 :
  stepL c = Some c1 -> stepR c = Some c2 ->
  exists c3, stepR c1 = Some c3 /\ stepL c2 = Some c3.
Proof.
  destruct c as [l r q q']; unfold stepL, stepR; cbn.
  destruct l as [o|m k|k], r as [o'|m' k'|k']; try discriminate.
  - intros [= <-] [= <-]; cbn; eauto.
  - destruct q as [|x q]; [discriminate|]. intros [= <-] [= <-]; cbn; eauto.
  - destruct q' as [|x q']; [discriminate|]. intros [= <-] [= <-]; cbn; eauto.
  - destruct q as [|x q]; [discriminate|]. destruct q' as [|x' q']; [discriminate|].
    intros [= <-] [= <-]; cbn; eauto.
Qed.

Lemma reach_core c f : reach c f <-> exists n, core n c f.
Proof.
  split.
  - induction 1 as [c|c c1 c2 H _ [n IH]|c c1 c2 H _ [n IH]].
    + exists 0%nat; constructor.
    + exists (S n); eapply core_L; eauto.
    + exists (S n); eapply core_R; eauto.
  - intros [n H]; induction H; [constructor|eapply reach_L; eauto|eapply reach_R; eauto].
Qed.

Definition is_final c := exists oa ob, c = final oa ob.

Lemma final_L c c' : is_final c -> stepL c = Some c' -> False.
Proof. intros (oa & ob & ->); discriminate. Qed.
Lemma final_R c c' : is_final c -> stepR c = Some c' -> False.
Proof. intros (oa & ob & ->); discriminate. Qed.

Lemma descend n : forall c f, is_final f -> core n c f ->
  (forall c1, stepL c = Some c1 -> exists m, n = S m /\ core m c1 f) /\
  (forall c1, stepR c = Some c1 -> exists m, n = S m /\ core m c1 f).
Proof.
  induction n as [|n IH]; intros c f F H.
  - inversion H; subst. split; intros c1 S; exfalso; [eapply final_L|eapply final_R]; eauto.
  - inversion H as [|n' c0 d c2 Hs Hc|n' c0 d c2 Hs Hc]; subst.
    + split; intros c1 S1.
      * rewrite Hs in S1. injection S1 as <-. eauto.
      * destruct (diamond _ _ _ Hs S1) as (c3 & R3 & L3).
        destruct (IH _ _ F Hc) as [_ HR].
        destruct (HR _ R3) as (m & -> & Hm).
        exists (S m); split; auto. eapply core_L; eauto.
    + split; intros c1 S1.
      * destruct (diamond _ _ _ S1 Hs) as (c3 & R3 & L3).
        destruct (IH _ _ F Hc) as [HL _].
        destruct (HL _ L3) as (m & -> & Hm).
        exists (S m); split; auto. eapply core_R; eauto.
      * rewrite Hs in S1. injection S1 as <-. eauto.
Qed.

(** Nothing is taken out of a queue whose reader has ended. *)
Lemma core_lr_done n c f : core n c f -> forall o, right_ c = Done o ->
  exists l, lr f = lr c ++ l.
Proof.
  induction 1 as [c|n c c1 c2 Hs _ IH|n c c1 c2 Hs _ IH]; intros o E.
  - exists []. now rewrite app_nil_r.
  - unfold stepL in Hs. destruct (left_ c) as [|m k|k]; [discriminate| |].
    + injection Hs as <-. cbn in IH. destruct (IH o E) as [l ->].
      exists (m :: l). now rewrite <- app_assoc.
    + destruct (rl c); [discriminate|]. injection Hs as <-. apply (IH o E).
  - unfold stepR in Hs. rewrite E in Hs. discriminate.
Qed.
Lemma core_rl_done n c f : core n c f -> forall o, left_ c = Done o ->
  exists l, rl f = rl c ++ l.
Proof.
  induction 1 as [c|n c c1 c2 Hs _ IH|n c c1 c2 Hs _ IH]; intros o E.
  - exists []. now rewrite app_nil_r.
  - unfold stepL in Hs. rewrite E in Hs. discriminate.
  - unfold stepR in Hs. destruct (right_ c) as [|m k|k]; [discriminate| |].
    + injection Hs as <-. cbn in IH. destruct (IH o E) as [l ->].
      exists (m :: l). now rewrite <- app_assoc.
    + destruct (lr c); [discriminate|]. injection Hs as <-. apply (IH o E).
Qed.

Lemma no_closeL n c c' f : is_final f -> core n c f -> closeL c c' -> False.
Proof.
  intros (oa & ob & ->) H C; unfold final in H; destruct C.
  - inversion H as [|n' c0 d c2 Hs Hc|n' c0 d c2 Hs Hc]; subst; discriminate.
  - inversion H as [|n' c0 d c2 Hs Hc|n' c0 d c2 Hs Hc]; subst; [|discriminate].
    injection Hs as <-. destruct (core_lr_done _ _ _ Hc o eq_refl) as [l E].
    cbn in E. destruct q; discriminate.
Qed.
Lemma no_closeR n c c' f : is_final f -> core n c f -> closeR c c' -> False.
Proof.
  intros (oa & ob & ->) H C; unfold final in H; destruct C.
  - inversion H as [|n' c0 d c2 Hs Hc|n' c0 d c2 Hs Hc]; subst; discriminate.
  - inversion H as [|n' c0 d c2 Hs Hc|n' c0 d c2 Hs Hc]; subst; [discriminate|].
    injection Hs as <-. destruct (core_rl_done _ _ _ Hc o eq_refl) as [l E].
    cbn in E. destruct q'; discriminate.
Qed.

Lemma step_descend n c c1 f : is_final f -> core n c f -> step c c1 ->
  exists m, n = S m /\ core m c1 f.
Proof.
  intros F H S. destruct (descend n c f F H) as [HL HR]. destruct S as [c c'|c c'|c c'|c c'].
  - now apply HL.
  - now apply HR.
  - exfalso; eapply no_closeL; eauto.
  - exfalso; eapply no_closeR; eauto.
Qed.

Lemma steps_descend k : forall n c c1 f, is_final f -> core n c f -> steps k c c1 ->
  exists m, n = (k + m)%nat /\ core m c1 f.
Proof.
  induction k as [|k IH]; intros n c c1 f F H S; inversion S; subst.
  - exists n; split; [reflexivity|assumption].
  - match goal with Hs : step _ _, Hk : steps _ _ _ |- _ =>
      destruct (step_descend _ _ _ _ F H Hs) as (m & -> & Hm);
      destruct (IH _ _ _ _ F Hm Hk) as (m' & -> & Hm') end.
    exists m'; split; [reflexivity|assumption].
Qed.

Lemma core_steps n c f : core n c f -> steps n c f.
Proof.
  induction 1; [constructor|econstructor; [apply step_left|]|econstructor; [apply step_right|]];
    eauto.
Qed.

Lemma core_stuck n c f : core n c f -> (forall c', ~ step c c') -> c = f.
Proof.
  destruct 1 as [|n c c1 c2 Hs _|n c c1 c2 Hs _]; intros St; auto; exfalso;
    eapply St; [apply step_left|apply step_right]; eauto.
Qed.

(** Random descent: a clean run fixes length and result of every run. *)
Lemma schedule_independent p q (oa : outcome A) (ob : outcome B) :
  runs p q oa ob ->
  exists n, forall k c, steps k (initial p q) c ->
    (k <= n)%nat /\ steps (n - k) c (final oa ob) /\
    ((forall c', ~ step c c') -> c = final oa ob).
Proof.
  intros H. apply reach_core in H. destruct H as [n H]. exists n. intros k c S.
  assert (F : is_final (final oa ob)) by (exists oa, ob; reflexivity).
  destruct (steps_descend _ _ _ _ _ F H S) as (m & -> & Hm).
  split; [lia|]. replace (k + m - k)%nat with m by lia.
  split; [now apply core_steps|]. now apply core_stuck with (n := m).
Qed.

Lemma final_stuck c : is_final c -> forall c', ~ step c c'.
Proof.
  intros (oa & ob & E) c' S. destruct S as [c c' S|c c' S|c c' S|c c' S]; subst;
    try discriminate; inversion S.
Qed.

Lemma runs_fun p q (oa oa' : outcome A) (ob ob' : outcome B) :
  runs p q oa ob -> runs p q oa' ob' -> oa = oa' /\ ob = ob'.
Proof.
  intros H H'. destruct (schedule_independent _ _ _ _ H) as [n D].
  apply reach_core in H'. destruct H' as [n' H'].
  destruct (D _ _ (core_steps _ _ _ H')) as (_ & _ & E).
  assert (St : final oa' ob' = final oa ob).
  { apply E. apply final_stuck. exists oa', ob'; reflexivity. }
  now injection St.
Qed.

End Confluence.

Lemma reach_trans {A B} (c1 c2 c3 : cfg A B) : reach c1 c2 -> reach c2 c3 -> reach c1 c3.
Proof. induction 1; intros; [auto|eapply reach_L|eapply reach_R]; eauto. Qed.

(** Sequencing. *)
Definition map_cfg {A B C D} (f : A -> proc C) (g : B -> proc D) (c : cfg A B) : cfg C D :=
  Cfg (pbind (left_ c) f) (pbind (right_ c) g) (lr c) (rl c).

Lemma stepL_map {A B C D} (f : A -> proc C) (g : B -> proc D) c c' :
  stepL c = Some c' -> stepL (map_cfg f g c) = Some (map_cfg f g c').
Proof.
  destruct c as [l r q q']; unfold stepL, map_cfg; cbn.
  destruct l as [|m k|k]; [discriminate| |].
  - now intros [= <-].
  - destruct q'; [discriminate|]. now intros [= <-].
Qed.
Lemma stepR_map {A B C D} (f : A -> proc C) (g : B -> proc D) c c' :
  stepR c = Some c' -> stepR (map_cfg f g c) = Some (map_cfg f g c').
Proof.
  destruct c as [l r q q']; unfold stepR, map_cfg; cbn.
  destruct r as [|m k|k]; [discriminate| |].
  - now intros [= <-].
  - destruct q; [discriminate|]. now intros [= <-].
Qed.
Lemma reach_map {A B C D} (f : A -> proc C) (g : B -> proc D) c c' :
  reach c c' -> reach (map_cfg f g c) (map_cfg f g c').
Proof.
  induction 1; [constructor|eapply reach_L|eapply reach_R]; eauto using stepL_map, stepR_map.
Qed.

Lemma runs_bind {A B C D} (p : proc A) (q : proc B) (f : A -> proc C) (g : B -> proc D) a b oc od :
  runs p q (Ok a) (Ok b) -> runs (f a) (g b) oc od -> runs (pbind p f) (pbind q g) oc od.
Proof.
  intros H H'. eapply reach_trans; [exact (reach_map f g _ _ H)|exact H'].
Qed.

(** Both sides fail in the first part. *)
Lemma runs_bind_err {A B C D} (p : proc A) (q : proc B) (f : A -> proc C) (g : B -> proc D) e e' :
  runs p q (Err e) (Err e') -> runs (pbind p f) (pbind q g) (Err e) (Err e').
Proof. intros H. exact (reach_map f g _ _ H). Qed.

Lemma runs_done {A B} (oa : outcome A) (ob : outcome B) : runs (Done oa) (Done ob) oa ob.
Proof. constructor. Qed.
Lemma runs_ret {A B} (a : A) (b : B) : runs (ret a) (ret b) (Ok a) (Ok b).
Proof. constructor. Qed.

Lemma runs_snd_rcv {A B} m (k : proc A) (k' : option bytes -> proc B) oa ob :
  runs k (k' (Some m)) oa ob -> runs (Snd m k) (Rcv k') oa ob.
Proof. intros H. eapply reach_L; [reflexivity|]. eapply reach_R; [reflexivity|]. exact H. Qed.
Lemma runs_rcv_snd {A B} m (k : option bytes -> proc A) (k' : proc B) oa ob :
  runs (k (Some m)) k' oa ob -> runs (Rcv k) (Snd m k') oa ob.
Proof. intros H. eapply reach_R; [reflexivity|]. eapply reach_L; [reflexivity|]. exact H. Qed.
(** Both send first, then both receive. *)
Lemma runs_exchange {A B} m m' (k : option bytes -> proc A) (k' : option bytes -> proc B) oa ob :
  runs (k (Some m')) (k' (Some m)) oa ob -> runs (Snd m (Rcv k)) (Snd m' (Rcv k')) oa ob.
Proof.
  intros H. eapply reach_L; [reflexivity|]. eapply reach_R; [reflexivity|].
  eapply reach_L; [reflexivity|]. eapply reach_R; [reflexivity|]. exact H.
Qed.

(** Mirror image. *)
Definition flip_cfg {A B} (c : cfg A B) : cfg B A := Cfg (right_ c) (left_ c) (rl c) (lr c).
Lemma reach_flip {A B} (c c' : cfg A B) : reach c c' -> reach (flip_cfg c) (flip_cfg c').
Proof.
  induction 1 as [|c c1 c2 H _ IH|c c1 c2 H _ IH]; [constructor|eapply reach_R|eapply reach_L]; eauto.
  - unfold stepL in H; unfold stepR, flip_cfg; cbn. destruct (left_ c); [discriminate| |].
    + now injection H as <-.
    + destruct (rl c); [discriminate|]. now injection H as <-.
  - unfold stepR in H; unfold stepL, flip_cfg; cbn. destruct (right_ c); [discriminate| |].
    + now injection H as <-.
    + destruct (lr c); [discriminate|]. now injection H as <-.
Qed.
Lemma runs_flip {A B} (p : proc A) (q : proc B) oa ob : runs p q oa ob -> runs q p ob oa.
Proof. intros H. exact (reach_flip _ _ H). Qed.

(** Processes equal up to extensionality of their continuations ([peq]); monad laws. *)
Lemma peq_refl {A} (p : proc A) : peq p p.
Proof. induction p; constructor; auto. Qed.
Lemma peq_sym {A} (p q : proc A) : peq p q -> peq q p.
Proof. induction 1; constructor; auto. Qed.
Lemma pbind_ret {A} (p : proc A) : peq (pbind p ret) p.
Proof. induction p as [[]| |]; cbn; constructor; auto. Qed.
Lemma pbind_assoc {A B C} (p : proc A) (f : A -> proc B) (g : B -> proc C) :
  peq (pbind (pbind p f) g) (pbind p (fun a => pbind (f a) g)).
Proof. induction p as [[]| |]; cbn; try constructor; auto using peq_refl. Qed.
Lemma pbind_peq {A B} (p : proc A) (f g : A -> proc B) :
  (forall a, peq (f a) (g a)) -> peq (pbind p f) (pbind p g).
Proof. intros H. induction p as [[]| |]; cbn; try constructor; auto. Qed.

Lemma feed_peq {A} (p p' : proc A) : peq p p' -> forall ins, feed p ins = feed p' ins.
Proof.
  induction 1 as [| m k k' _ IH|k k' _ IH]; intros ins; cbn; auto.
  - now rewrite IH.
  - destruct ins; auto.
Qed.

Lemma reach_peq_l {A B} (c c' : cfg A B) : reach c c' -> forall oa p,
  left_ c' = Done oa -> peq (left_ c) p ->
  reach (Cfg p (right_ c) (lr c) (rl c)) (Cfg (Done oa) (right_ c') (lr c') (rl c')).
Proof.
  induction 1 as [c|c c1 c2 H _ IH|c c1 c2 H _ IH]; intros oa p E P.
  - rewrite E in P. inversion P; subst. constructor.
  - unfold stepL in H. destruct P as [|m k k' P|k k' P]; [discriminate| |].
    + injection H as <-. eapply reach_L; [reflexivity|]. apply (IH oa k' E P).
    + destruct (rl c) as [|m q]; [discriminate|]. injection H as <-.
      eapply reach_L; [reflexivity|]. apply (IH oa (k' (Some m)) E (P _)).
  - unfold stepR in H. destruct (right_ c) as [|m k|k]; [discriminate| |].
    + injection H as <-. eapply reach_R; [reflexivity|]. apply (IH oa p E P).
    + destruct (lr c) as [|m q]; [discriminate|]. injection H as <-.
      eapply reach_R; [reflexivity|]. apply (IH oa p E P).
Qed.
Lemma runs_peq_l {A B} (p p' : proc A) (q : proc B) oa ob :
  peq p p' -> runs p q oa ob -> runs p' q oa ob.
Proof. intros P H. exact (reach_peq_l _ _ H oa p' eq_refl P). Qed.
Lemma runs_peq_r {A B} (p p' : proc A) (q : proc B) oa ob :
  peq p p' -> runs q p ob oa -> runs q p' ob oa.
Proof. intros P H. apply runs_flip. eapply runs_peq_l; [exact P|]. now apply runs_flip. Qed.

Lemma runs_assoc_l {A B C D} (p : proc A) (f : A -> proc B) (g : B -> proc C) (q : proc D) oc od :
  runs (pbind p (fun a => pbind (f a) g)) q oc od -> runs (pbind (pbind p f) g) q oc od.
Proof. apply runs_peq_l, peq_sym, pbind_assoc. Qed.
Lemma runs_assoc_r {A B C D} (p : proc A) (f : A -> proc B) (g : B -> proc C) (q : proc D) oc od :
  runs q (pbind p (fun a => pbind (f a) g)) od oc -> runs q (pbind (pbind p f) g) od oc.
Proof. apply runs_peq_r, peq_sym, pbind_assoc. Qed.

(** Local post-processing on one side. *)
Lemma runs_then_l {A B C} (p : proc A) (q : proc B) (f : A -> proc C) a ob oc :
  runs p q (Ok a) (Ok ob) -> f a = Done oc -> runs (pbind p f) q oc (Ok ob).
Proof.
  intros H E. apply runs_peq_r with (p := pbind q ret); [apply pbind_ret|].
  eapply runs_bind; [exact H|]. rewrite E. apply runs_done.
Qed.
Lemma runs_then_r {A B C} (p : proc A) (q : proc B) (f : B -> proc C) oa b oc :
  runs p q (Ok oa) (Ok b) -> f b = Done oc -> runs p (pbind q f) (Ok oa) oc.
Proof.
  intros H E. apply runs_flip. eapply runs_then_l; [apply runs_flip; exact H|exact E].
Qed.

(** A pure step on one side. *)
Lemma runs_lift_l {A B C} (o : outcome A) a (f : A -> proc B) (q : proc C) ob oc :
  o = Ok a -> runs (f a) q ob oc -> runs (pbind (lift o) f) q ob oc.
Proof. intros ->. auto. Qed.
Lemma runs_lift_r {A B C} (o : outcome A) a (f : A -> proc B) (q : proc C) ob oc :
  o = Ok a -> runs q (f a) oc ob -> runs q (pbind (lift o) f) oc ob.
Proof. intros ->. auto. Qed.

Lemma runs_send_recv {B D} m (f : unit -> proc B) (g : bytes -> proc D) ob od :
  runs (f tt) (g m) ob od -> runs (pbind (send m) f) (pbind recv g) ob od.
Proof. intros H. apply runs_snd_rcv. exact H. Qed.
Lemma runs_recv_send {B D} m (f : bytes -> proc B) (g : unit -> proc D) ob od :
  runs (f m) (g tt) ob od -> runs (pbind recv f) (pbind (send m) g) ob od.
Proof. intros H. apply runs_rcv_snd. exact H. Qed.

(** A batch of messages. *)
Definition is_rx (rx : proc bytes) : Prop := rx = recv \/ rx = recv_unwrap.
Lemma runs_batch {A} rx (f : bytes -> outcome A) ms vs :
  is_rx rx ->
  Forall2 (fun m v => f m = Ok v) ms vs ->
  runs (send_all ms) (recv_each rx f (length ms)) (Ok tt) (Ok vs).
Proof.
  intros Hrx H. induction H as [|m v ms vs E _ IH]; [apply runs_ret|].
  cbn [send_all recv_each length].
  assert (G : runs (send_all ms)
    (let! a := lift (f m) in let! l := recv_each rx f (length ms) in ret (a :: l))
    (Ok tt) (Ok (v :: vs))).
  { apply runs_lift_r with (a := v); [exact E|].
    eapply runs_then_r; [exact IH|reflexivity]. }
  destruct Hrx as [-> | ->]; apply runs_snd_rcv; exact G.
Qed.

(** What each side of a clean run received is what the other one sent. *)
Lemma core_feed {A B} n (c : cfg A B) f : core n c f -> forall oa ob, f = final oa ob ->
  exists la lb,
    feed (left_ c) (rl c ++ lb) = (oa, la) /\ feed (right_ c) (lr c ++ la) = (ob, lb).
Proof.
  induction 1 as [c|n c c1 c2 H _ IH|n c c1 c2 H _ IH]; intros oa ob E.
  - subst. exists [], []. split; reflexivity.
  - destruct (IH oa ob E) as (la & lb & L & R).
    unfold stepL in H. destruct (left_ c) as [|m k|k]; [discriminate| |].
    + injection H as <-. cbn in L, R. exists (m :: la), lb. cbn. rewrite L.
      rewrite <- app_assoc in R. split; auto.
    + destruct (rl c) as [|m q] eqn:Q; [discriminate|]. injection H as <-. cbn in L, R.
      exists la, lb. cbn. auto.
  - destruct (IH oa ob E) as (la & lb & L & R).
    unfold stepR in H. destruct (right_ c) as [|m k|k]; [discriminate| |].
    + injection H as <-. cbn in L, R. exists la, (m :: lb). cbn. rewrite R.
      rewrite <- app_assoc in L. split; auto.
    + destruct (lr c) as [|m q] eqn:Q; [discriminate|]. injection H as <-. cbn in L, R.
      exists la, lb. cbn. auto.
Qed.
Lemma runs_feed {A B} (p : proc A) (q : proc B) oa ob : runs p q oa ob ->
  exists la lb, feed p lb = (oa, la) /\ feed q la = (ob, lb).
Proof.
  intros H. apply reach_core in H. destruct H as [n H].
  exact (core_feed _ _ _ H _ _ eq_refl).
Qed.

(** ** Feeding sequences *)
Fixpoint feedr {A} (p : proc A) (ins : list bytes) : outcome A * list bytes * list bytes :=
  match p with
  | Done o => (o, [], ins)
  | Snd m k => let '(o, out, rest) := feedr k ins in (o, m :: out, rest)
  | Rcv k =>
      match ins with
      | [] => feedr (k None) []
      | m :: ins' => feedr (k (Some m)) ins'
      end
  end.
Definition after {A B} (o : outcome A) (f : A -> outcome B * list bytes) : outcome B * list bytes :=
  match o with
  | Ok a => f a
  | Err e => (Err e, [])
  | Panic r => (Panic r, [])
  | UB => (UB, [])
  end.
Lemma feed_bind {A B} (p : proc A) (f : A -> proc B) : forall ins,
  feed (pbind p f) ins =
  let '(o, out, rest) := feedr p ins in
  let '(o', out') := after o (fun a => feed (f a) rest) in (o', out ++ out').
Proof.
  induction p as [o|m k IH|k IH]; intros ins; cbn.
  - destruct o; cbn; try reflexivity. now destruct (feed (f a) ins).
  - rewrite IH. destruct (feedr k ins) as [[o out] rest]. destruct (after _ _). reflexivity.
  - destruct ins as [|m ins]; apply IH.
Qed.
Lemma feedr_send_all ms : forall ins, feedr (send_all ms) ins = (Ok tt, ms, ins).
Proof. induction ms as [|m ms IH]; intros ins; cbn; auto. now rewrite IH. Qed.
Lemma feedr_bind {A B} (p : proc A) (f : A -> proc B) : forall ins,
  feedr (pbind p f) ins =
  let '(o, out, rest) := feedr p ins in
  match o with
  | Ok a => let '(o', out', rest') := feedr (f a) rest in (o', out ++ out', rest')
  | Err e => (Err e, out, rest)
  | Panic r => (Panic r, out, rest)
  | UB => (UB, out, rest)
  end.
Proof.
  induction p as [o|m k IH|k IH]; intros ins; cbn.
  - destruct o; cbn; try reflexivity. now destruct (feedr (f a) ins) as [[]].
  - rewrite IH. destruct (feedr k ins) as [[o out] rest]. destruct o; auto.
    now destruct (feedr (f a) rest) as [[]].
  - destruct ins as [|m ins]; apply IH.
Qed.
Lemma feed_feedr {A} (p : proc A) : forall ins, feed p ins = fst (feedr p ins).
Proof.
  induction p as [o|m k IH|k IH]; intros ins; cbn; auto.
  - rewrite IH. now destruct (feedr k ins) as [[]].
  - destruct ins; apply IH.
Qed.
