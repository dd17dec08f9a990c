(** Peers that hang up: the closed channel ends a protocol function with an error or a panic. *)
From Coq Require Import List NArith Bool Lia Arith.
From Verif Require Import Base MProc PProc.
Import ListNotations.

Definition bad {A} (o : outcome A) : Prop := match o with Err _ | Panic _ => True | _ => False end.

(** Every receive that finds the channel closed ends the function with an error or a panic. *)
Inductive hangup {A} : proc A -> Prop :=
| hang_done o : hangup (Done o)
| hang_snd m k : hangup k -> hangup (Snd m k)
| hang_rcv k o : k None = Done o -> bad o -> (forall m, hangup (k (Some m))) -> hangup (Rcv k).

Lemma hang_lift {A} (o : outcome A) : hangup (lift o).
Proof. constructor. Qed.
Lemma hang_ret {A} (a : A) : hangup (ret a).
Proof. constructor. Qed.
Lemma hang_send m : hangup (send m).
Proof. repeat constructor. Qed.
Lemma hang_recv : hangup recv.
Proof. eapply hang_rcv; [reflexivity|exact I|]. intros m. constructor. Qed.
Lemma hang_recv_unwrap : hangup recv_unwrap.
Proof. eapply hang_rcv; [reflexivity|exact I|]. intros m. constructor. Qed.
Lemma hang_bind {A B} (p : proc A) (f : A -> proc B) : hangup p -> (forall a, hangup (f a)) -> hangup (pbind p f).
Proof.
  intros H Hf. induction H as [o|m k H IH|k o E Bo H IH]; cbn [pbind].
  - destruct o; cbn; auto; constructor.
  - now constructor.
  - destruct o as [a|e|r|]; try contradiction.
    + eapply (hang_rcv _ (Err e)); [now rewrite E|exact I|exact IH].
    + eapply (hang_rcv _ (Panic r)); [now rewrite E|exact I|exact IH].
Qed.
Lemma hang_send_all ms : hangup (send_all ms).
Proof. induction ms; cbn [send_all]; [apply hang_ret|]. apply hang_bind; [apply hang_send|auto]. Qed.
Lemma hang_recv_each {A} rx (f : bytes -> outcome A) n : hangup rx -> hangup (recv_each rx f n).
Proof.
  intros Hr. induction n as [|n IH]; cbn [recv_each]; [apply hang_ret|].
  apply hang_bind; [exact Hr|]. intros m. apply hang_bind; [apply hang_lift|]. intros x.
  apply hang_bind; [exact IH|]. intros l. apply hang_ret.
Qed.
Ltac hang := repeat first [exact hang_recv | exact hang_recv_unwrap | apply hang_send | apply hang_lift | apply hang_ret
  | apply hang_send_all | apply hang_recv_each | apply hang_bind; [|intros ?] | assumption
  | apply hang_done
  | match goal with |- hangup (let (_, _) := ?x in _) => destruct x | |- hangup (if ?b then _ else _) => destruct b end ].

Section Pair.
Context {A B : Type}.
(** Both endpoints as they are in a reachable configuration, given complete honest transcripts. *)
Definition linked (c : cfg A B) (oa : outcome A) (ob : outcome B) : Prop :=
  exists la lb, feed (left_ c) (rl c ++ lb) = (oa, la) /\ feed (right_ c) (lr c ++ la) = (ob, lb).
Definition okL (c : cfg A B) : Prop := exists x, fst (feed (left_ c) (rl c ++ x)) <> UB.
Definition okR (c : cfg A B) : Prop := exists x, fst (feed (right_ c) (lr c ++ x)) <> UB.
Definition inv (oa : outcome A) (ob : outcome B) (c : cfg A B) : Prop :=
  hangup (left_ c) /\ hangup (right_ c) /\
  (linked c oa ob \/ ((exists o, left_ c = Done o /\ bad o) /\ okR c) \/ ((exists o, right_ c = Done o /\ bad o) /\ okL c)).

Lemma inv_noUB oa ob c : oa <> UB -> ob <> UB -> inv oa ob c -> left_ c <> Done UB /\ right_ c <> Done UB.
Proof.
  intros Na Nb (_ & _ & [(la & lb & L & R)|[[(o & E & Bo) [x H]]|[(o & E & Bo) [x H]]]]).
  - split; intros E; rewrite E in *; cbn in *; congruence.
  - split; [rewrite E; intros [= ->]; contradiction|]. intros E'. rewrite E' in H. cbn in H. congruence.
  - split; [|rewrite E; intros [= ->]; contradiction]. intros E'. rewrite E' in H. cbn in H. congruence.
Qed.

Lemma inv_stepL oa ob c c' : oa <> UB -> inv oa ob c -> stepL c = Some c' -> inv oa ob c'.
Proof.
  intros Na (HL & HR & H) S. destruct c as [l r q q']. unfold stepL in S. cbn in *.
  inversion HL as [o E|m k Hk E|k o En Bo Hk E]; subst l; [discriminate| |].
  - injection S as <-. split; [exact Hk|]. split; [exact HR|]. destruct H as [(la & lb & L & R)|[[(o & E & Bo) _]|[(o & E & Bo) [x H]]]].
    + left. cbn in L. destruct (feed k (q' ++ lb)) as [o' out] eqn:F. injection L as <- <-.
      exists out, lb. cbn. split; [exact F|]. now rewrite <- app_assoc.
    + discriminate.
    + right; right. split; [eauto|]. exists x. cbn in *. now destruct (feed k (q' ++ x)).
  - destruct q' as [|m q']; [discriminate|]. injection S as <-. split; [apply Hk|]. split; [exact HR|].
    destruct H as [(la & lb & L & R)|[[(o' & E & _) _]|[(o' & E & Bo') [x H]]]].
    + left. exists la, lb. cbn in *. auto.
    + discriminate.
    + right; right. split; [eauto|]. exists x. exact H.
Qed.
Lemma inv_stepR oa ob c c' : ob <> UB -> inv oa ob c -> stepR c = Some c' -> inv oa ob c'.
Proof.
  intros Nb (HL & HR & H) S. destruct c as [l r q q']. unfold stepR in S. cbn in *.
  inversion HR as [o E|m k Hk E|k o En Bo Hk E]; subst r; [discriminate| |].
  - injection S as <-. split; [exact HL|]. split; [exact Hk|]. destruct H as [(la & lb & L & R)|[[(o & E & Bo) [x H]]|[(o & E & Bo) _]]].
    + left. cbn in R. destruct (feed k (q ++ la)) as [o' out] eqn:F. injection R as <- <-.
      exists la, out. cbn. split; [|exact F]. now rewrite <- app_assoc.
    + right; left. split; [eauto|]. exists x. cbn in *. now destruct (feed k (q ++ x)).
    + discriminate.
  - destruct q as [|m q]; [discriminate|]. injection S as <-. split; [exact HL|]. split; [apply Hk|].
    destruct H as [(la & lb & L & R)|[[(o' & E & Bo') [x H]]|[(o' & E & _) _]]].
    + left. exists la, lb. cbn in *. auto.
    + right; left. split; [eauto|]. exists x. exact H.
    + discriminate.
Qed.
Lemma inv_close oa ob c c' : oa <> UB -> ob <> UB -> inv oa ob c -> closeL c c' \/ closeR c c' -> inv oa ob c'.
Proof.
  intros Na Nb H S. pose proof (inv_noUB oa ob c Na Nb H) as [NL NR]. destruct H as (HL & HR & _).
  destruct S as [S|S]; inversion S; subst; cbn in *.
  - inversion HL as [o1 E1|m1 k1 K1 E1|k1 o' E Bo Hk E1]; subst. rewrite E. split; [constructor|]. split; [constructor|].
    right; left. split; [exists o'; split; [reflexivity|exact Bo]|]. exists []. cbn. congruence.
  - split; [constructor|]. split; [constructor|]. right; left. split; [eexists; split; [reflexivity|exact I]|].
    exists []. cbn. congruence.
  - inversion HR as [o1 E1|m1 k1 K1 E1|k1 o' E Bo Hk E1]; subst. rewrite E. split; [constructor|]. split; [constructor|].
    right; right. split; [exists o'; split; [reflexivity|exact Bo]|]. exists []. cbn. congruence.
  - split; [constructor|]. split; [constructor|]. right; right. split; [eexists; split; [reflexivity|exact I]|].
    exists []. cbn. congruence.
Qed.

Lemma safe_pair (p : proc A) (q : proc B) oa ob la lb : hangup p -> hangup q -> feed p lb = (oa, la) -> feed q la = (ob, lb) ->
  oa <> UB -> ob <> UB -> forall k c, steps k (initial p q) c -> left_ c <> Done UB /\ right_ c <> Done UB.
Proof.
  intros Hp Hq L R Na Nb k c S. apply (inv_noUB oa ob); auto.
  assert (I0 : inv oa ob (initial p q)). { split; [exact Hp|]. split; [exact Hq|]. left. exists la, lb. auto. }
  revert I0. generalize dependent (initial p q). induction k as [|k IH]; intros c0 S I0; inversion S; subst; auto.
  eapply IH; [eassumption|]. match goal with H : step _ _ |- _ => destruct H end.
  - eapply inv_stepL; eauto. - eapply inv_stepR; eauto.
  - eapply inv_close; eauto. - eapply inv_close; eauto.
Qed.

(** From a partial run to transcripts. *)
Lemma reach_linked (c c' : cfg A B) oa ob : reach c c' -> linked c' oa ob -> linked c oa ob.
Proof.
  induction 1 as [c|c c1 c2 H _ IH|c c1 c2 H _ IH]; auto; intros K; destruct (IH K) as (la & lb & L & R); clear IH K;
    destruct c as [l r q q'].
  - unfold stepL in H. cbn in H. destruct l as [|m k|k]; [discriminate| |].
    + injection H as <-. cbn in *. exists (m :: la), lb. cbn. rewrite L. split; [reflexivity|]. now rewrite <- app_assoc in R.
    + destruct q' as [|m q']; [discriminate|]. injection H as <-. exists la, lb. cbn in *. auto.
  - unfold stepR in H. cbn in H. destruct r as [|m k|k]; [discriminate| |].
    + injection H as <-. cbn in *. exists la, (m :: lb). cbn. rewrite R. split; [now rewrite <- app_assoc in L|reflexivity].
    + destruct q as [|m q]; [discriminate|]. injection H as <-. exists la, lb. cbn in *. auto.
Qed.
(** A partial run in which one end is done fixes its outcome. *)
Lemma steps_done_left j : forall (c f : cfg A B) o, steps j c f -> left_ c = Done o -> left_ f = Done o.
Proof.
  induction j as [|j IH]; intros c f o S E; inversion S as [|n0 c0 c1 c2 Hs Hk]; subst; auto.
  eapply IH; [exact Hk|]. inversion Hs as [c0 c' E'|c0 c' E'|c0 c' E'|c0 c' E']; subst.
  - unfold stepL in E'. rewrite E in E'. discriminate.
  - unfold stepR in E'. destruct (right_ c) as [|m k|k]; [discriminate| |].
    + injection E' as <-. exact E.
    + destruct (lr c); [discriminate|]. injection E' as <-. exact E.
  - inversion E'; subst; cbn in E; discriminate.
  - inversion E'; subst; cbn in *; exact E.
Qed.
Lemma reach_done_left (p : proc A) (q : proc B) (o : outcome A) r x y oa ob : reach (initial p q) (Cfg (Done o) r x y) -> runs p q oa ob -> o = oa.
Proof.
  intros H H'. destruct (schedule_independent _ _ _ _ H') as [n D]. apply reach_core in H. destruct H as [m H].
  destruct (D _ _ (core_steps _ _ _ H)) as (_ & S & _).
  pose proof (steps_done_left _ _ _ o S eq_refl) as E. cbn in E. congruence.
Qed.
End Pair.

(** Runs that end without undefined behaviour have none in any schedule. *)
Lemma steps_done_right {A B} j : forall (c f : cfg A B) o, steps j c f -> right_ c = Done o -> right_ f = Done o.
Proof.
  induction j as [|j IH]; intros c f o S E; inversion S as [|n0 c0 c1 c2 Hs Hk]; subst; auto.
  eapply IH; [exact Hk|]. inversion Hs as [c0 c' E'|c0 c' E'|c0 c' E'|c0 c' E']; subst.
  - unfold stepL in E'. destruct (left_ c) as [|m k|k]; [discriminate| |].
    + injection E' as <-. exact E.
    + destruct (rl c); [discriminate|]. injection E' as <-. exact E.
  - unfold stepR in E'. rewrite E in E'. discriminate.
  - inversion E'; subst; cbn in *; exact E.
  - inversion E'; subst; cbn in E; discriminate.
Qed.
Lemma runs_safe {A B} (p : proc A) (q : proc B) oa ob : runs p q oa ob -> oa <> UB -> ob <> UB ->
  forall k c, steps k (initial p q) c -> left_ c <> Done UB /\ right_ c <> Done UB.
Proof.
  intros H Na Nb k c S. destruct (schedule_independent _ _ _ _ H) as [n D]. destruct (D k c S) as (_ & S' & _).
  split; intros E.
  - pose proof (steps_done_left _ _ _ _ S' E) as F. cbn in F. congruence.
  - pose proof (steps_done_right _ _ _ _ S' E) as F. cbn in F. congruence.
Qed.
