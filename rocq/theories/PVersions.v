(** Proofs: what two sides that do not fit can still end with. *)
From Coq Require Import List NArith Bool Lia Arith.
From Verif Require Import Base MProc MBincode MOt MMany SpecKinds SpecBincode PBase PProc PHang PHangOt PKinds PIndex.
Import ListNotations.

(** As [doomed], with any predicate on the outcome in the place of not being a result. *)
Section Kept.
Context {A : Type}.
Variable Q : outcome A -> Prop.
Fixpoint kept (p : proc A) (ins : list bytes) (ci : bool) (outs : list bytes) (co : bool) : Prop :=
  match p with
  | Done o => Q o
  | Snd m k =>
      match outs with
      | [] => if co then False else kept k ins ci [] false
      | o :: outs' => m = o /\ kept k ins ci outs' co
      end
  | Rcv k =>
      kept (k None) [] false outs co /\
      match ins with
      | m :: ins' => kept (k (Some m)) ins' ci outs co
      | [] => if ci then True else forall m, kept (k (Some m)) [] false outs co
      end
  end.
Lemma kept_rcv (k : option bytes -> proc A) ins ci outs co m q outs' co' :
  kept (Rcv k) ins ci outs co -> describes ins ci (m :: q) outs' co' ->
  exists ins', kept (k (Some m)) ins' ci outs co /\ describes ins' ci q outs' co'.
Proof.
  intros [_ H] (E & [F|(Ec & Eo & ext & F)]).
  - subst ins. exists (q ++ outs'). split; [exact H|]. split; auto.
  - subst co' outs' ci. destruct ins as [|m' ins'].
    + exists []. split; [apply H|]. split; auto. right. repeat split; auto. exists q. reflexivity.
    + cbn in F. injection F as <- ->. exists ins'. split; [exact H|]. split; auto. right. repeat split; auto. exists ext. reflexivity.
Qed.
Lemma kept_snd m (k : proc A) ins ci outs co : kept (Snd m k) ins ci outs co -> forall ins' ci' q, describes ins' ci' q outs co ->
  exists outs', kept k ins ci outs' co /\ describes ins' ci' (q ++ [m]) outs' co.
Proof.
  intros H ins' ci' q D. cbn in H. destruct outs as [|o outs].
  - destruct co; [contradiction|]. exists []. split; auto. now apply describes_more.
  - destruct H as [-> H]. exists outs. split; auto. now apply describes_snd.
Qed.
End Kept.

Section Both.
Context {A B : Type}.
Variable P : outcome A -> Prop.
Variable Q : outcome B -> Prop.
Hypothesis closedP : P (Err EClosed).
Hypothesis closedQ : Q (Err EClosed).
Definition kept_cfg (c : cfg A B) : Prop := exists inl cl inr cr outl ol outr or_,
  kept P (left_ c) inl cl outl ol /\ kept Q (right_ c) inr cr outr or_ /\
  describes inl cl (rl c) outr or_ /\ describes inr cr (lr c) outl ol.
Lemma kept_step (c c' : cfg A B) : kept_cfg c -> step c c' -> kept_cfg c'.
Proof.
  intros (inl & cl & inr & cr & outl & ol & outr & or_ & HL & HR & DL & DR) S.
  destruct S as [c c' S|c c' S|c c' S|c c' S].
  - unfold stepL in S. destruct c as [p q lr_ rl_]; cbn in *. destruct p as [o|m k|k]; [discriminate| |].
    + injection S as <-. destruct (kept_snd _ _ _ _ _ _ _ HL _ _ _ DR) as (outl' & H & D).
      exists inl, cl, inr, cr, outl', ol, outr, or_. auto.
    + destruct rl_ as [|m rl_]; [discriminate|]. injection S as <-. destruct (kept_rcv _ _ _ _ _ _ _ _ _ _ HL DL) as (inl' & H & D).
      exists inl', cl, inr, cr, outl, ol, outr, or_. auto.
  - unfold stepR in S. destruct c as [p q lr_ rl_]; cbn in *. destruct q as [o|m k|k]; [discriminate| |].
    + injection S as <-. destruct (kept_snd _ _ _ _ _ _ _ HR _ _ _ DL) as (outr' & H & D).
      exists inl, cl, inr, cr, outl, ol, outr', or_. auto.
    + destruct lr_ as [|m lr_]; [discriminate|]. injection S as <-. destruct (kept_rcv _ _ _ _ _ _ _ _ _ _ HR DR) as (inr' & H & D).
      exists inl, cl, inr', cr, outl, ol, outr, or_. auto.
  - destruct S as [k o q|m k o q q']; cbn [left_ right_ lr rl] in *.
    + destruct HL as [HN _]. exists [], false, inr, cr, outl, ol, [], false.
      split; [exact HN|]. split; [exact HR|]. split; [apply describes_closed|exact DR].
    + exists inl, cl, inr, cr, outl, ol, outr, or_. cbn. auto.
  - destruct S as [k o q|m k o q q']; cbn [left_ right_ lr rl] in *.
    + destruct HR as [HN _]. exists inl, cl, [], false, [], false, outr, or_.
      split; [exact HL|]. split; [exact HN|]. split; [exact DL|apply describes_closed].
    + exists inl, cl, inr, cr, outl, ol, outr, or_. cbn. auto.
Qed.
Lemma kept_steps k : forall (c c' : cfg A B), kept_cfg c -> steps k c c' -> kept_cfg c'.
Proof.
  induction k as [|k IH]; intros c c' D S; inversion S; subst; [exact D|].
  eapply IH; [|eassumption]. eapply kept_step; eauto.
Qed.
End Both.

(** Two sides that end, if they do, with outcomes of these kinds. *)
Definition ends_in {A B} (P : outcome A -> Prop) (Q : outcome B -> Prop) (p : proc A) (q : proc B) : Prop :=
  exists x cx y cy, kept P p x cx y cy /\ kept Q q y cy x cx.
Lemma ends_in_steps {A B} (P : outcome A -> Prop) (Q : outcome B -> Prop) p q : P (Err EClosed) -> Q (Err EClosed) -> ends_in P Q p q ->
  forall k c, steps k (initial p q) c -> (forall o, left_ c = Done o -> P o) /\ (forall o, right_ c = Done o -> Q o).
Proof.
  intros HP HQ (x & cx & y & cy & H1 & H2) k c S.
  assert (D : kept_cfg P Q c).
  { eapply kept_steps; [exact HP|exact HQ| |exact S]. exists x, cx, y, cy, y, cy, x, cx. unfold initial; cbn.
    split; [exact H1|]. split; [exact H2|]. split; (split; [reflexivity|left; reflexivity]). }
  destruct D as (inl & cl & inr & cr & outl & ol & outr & or_ & DL & DR & _).
  split; intros o E; rewrite E in *; assumption.
Qed.
Definition failing {A} (o : outcome A) : Prop := match o with Ok _ => False | _ => True end.
Lemma ends_in_no_result {A B} (p : proc A) (q : proc B) : ends_in failing failing p q -> no_result p q.
Proof.
  intros H k c S. destruct (ends_in_steps _ _ _ _ I I H k c S) as [H1 H2]. split.
  - intros a E. exact (H1 _ E).
  - intros b E. exact (H2 _ E).
Qed.

(** ** After a part that went well *)
Fixpoint takes {A} (p : proc A) (ins outs : list bytes) (a : A) : Prop :=
  match p with
  | Done o => o = Ok a /\ ins = [] /\ outs = []
  | Snd m k => exists outs', outs = m :: outs' /\ takes k ins outs' a
  | Rcv k => exists m ins', ins = m :: ins' /\ takes (k (Some m)) ins' outs a
  end.
Lemma reach_takes {A B} (c c' : cfg A B) a b : reach c c' -> c' = final (Ok a) (Ok b) ->
  exists la lb, takes (left_ c) (rl c ++ lb) la a /\ takes (right_ c) (lr c ++ la) lb b.
Proof.
  induction 1 as [c|c c1 c2 S _ IH|c c1 c2 S _ IH]; intros E.
  - subst c. exists [], []. cbn. auto.
  - destruct (IH E) as (la & lb & H1 & H2). destruct c as [p q lr_ rl_]. unfold stepL in S. cbn in *. destruct p as [o|m k|k]; [discriminate| |].
    + injection S as <-. cbn in *. exists (m :: la), lb. split; [exists la; auto|]. rewrite <- app_assoc in H2. exact H2.
    + destruct rl_ as [|m rl_]; [discriminate|]. injection S as <-. cbn in *. exists la, lb. split; [|exact H2]. exists m, (rl_ ++ lb). auto.
  - destruct (IH E) as (la & lb & H1 & H2). destruct c as [p q lr_ rl_]. unfold stepR in S. cbn in *. destruct q as [o|m k|k]; [discriminate| |].
    + injection S as <-. cbn in *. exists la, (m :: lb). split; [|exists lb; auto]. rewrite <- app_assoc in H1. exact H1.
    + destruct lr_ as [|m lr_]; [discriminate|]. injection S as <-. cbn in *. exists la, lb. split; [exact H1|]. exists m, (lr_ ++ la). auto.
Qed.
Lemma kept_after {A B} (Q : outcome B -> Prop) (p : proc A) (f : A -> proc B) a ins ci outs co : (forall e, Q (Err e)) -> (forall r, Q (Panic r)) ->
  hangup p -> forall i o, takes p i o a -> kept Q (f a) ins ci outs co -> kept Q (pbind p f) (i ++ ins) ci (o ++ outs) co.
Proof.
  intros Qe Qp H. induction H as [o|m k H IH|k o E Bo H IH]; intros i u T K; cbn in T.
  - destruct T as (-> & -> & ->). exact K.
  - destruct T as (outs' & -> & T). cbn. split; [reflexivity|]. now apply IH.
  - destruct T as (m & ins' & -> & T). cbn. split; [|now apply IH]. rewrite E. destruct o; try contradiction; cbn; auto.
Qed.

Section Rules.
Context {A B : Type}.
Variable P : outcome A -> Prop.
Variable Q : outcome B -> Prop.
Hypothesis Pe : forall e, P (Err e).
Hypothesis Pp : forall r, P (Panic r).
Hypothesis Qe : forall e, Q (Err e).
Hypothesis Qp : forall r, Q (Panic r).
Lemma ends_after {C D} (p : proc C) (q : proc D) (f : C -> proc A) (h : D -> proc B) a b :
  hangup p -> hangup q -> runs p q (Ok a) (Ok b) -> ends_in P Q (f a) (h b) -> ends_in P Q (pbind p f) (pbind q h).
Proof.
  intros Hp Hq R (x & cx & y & cy & H1 & H2). destruct (reach_takes _ _ a b R eq_refl) as (la & lb & T1 & T2). cbn in T1, T2.
  exists (lb ++ x), cx, (la ++ y), cy. split; apply kept_after with (a := a) || apply kept_after with (a := b); auto.
Qed.
Lemma ends_lift_l {C} (o : outcome C) a (f : C -> proc A) q : o = Ok a -> ends_in P Q (f a) q -> ends_in P Q (pbind (lift o) f) q.
Proof. intros -> H. exact H. Qed.
Lemma ends_lift_r {C} (o : outcome C) a (f : C -> proc B) p : o = Ok a -> ends_in P Q p (f a) -> ends_in P Q p (pbind (lift o) f).
Proof. intros -> H. exact H. Qed.
Lemma ends_send_recv m (k : unit -> proc A) (k' : bytes -> proc B) : ends_in P Q (k tt) (k' m) ->
  ends_in P Q (pbind (send m) k) (pbind recv k').
Proof.
  intros (x & cx & y & cy & H1 & H2). exists x, cx, (m :: y), cy. split; cbn; auto.
Qed.
End Rules.
Lemma kept_assoc {A B C} (Q : outcome C -> Prop) (p : proc A) (f : A -> proc B) (g : B -> proc C) : forall ins ci outs co,
  kept Q (pbind p (fun a => pbind (f a) g)) ins ci outs co <-> kept Q (pbind (pbind p f) g) ins ci outs co.
Proof.
  induction p as [o|m k IH|k IH]; intros ins ci outs co.
  - destruct o; reflexivity.
  - cbn. destruct outs; [destruct co; [tauto|apply IH]|]. rewrite (IH ins ci outs co). tauto.
  - cbn. rewrite (IH None [] false outs co). destruct ins as [|m ins]; [destruct ci; [tauto|]|].
    + split; intros [H1 H2]; (split; [exact H1|]); intros m; apply IH, H2.
    + rewrite (IH (Some m) ins ci outs co). tauto.
Qed.
Lemma kept_a {A B C} (Q : outcome C -> Prop) (p : proc A) (f : A -> proc B) (g : B -> proc C) ins ci outs co :
  kept Q (pbind p (fun a => pbind (f a) g)) ins ci outs co -> kept Q (pbind (pbind p f) g) ins ci outs co.
Proof. apply kept_assoc. Qed.
Lemma ends_assoc_l {A B C D} P Q (p : proc A) (f : A -> proc B) (g : B -> proc C) (q : proc D) :
  ends_in P Q (pbind p (fun a => pbind (f a) g)) q -> ends_in P Q (pbind (pbind p f) g) q.
Proof. intros (x & cx & y & cy & H1 & H2). exists x, cx, y, cy. split; [now apply kept_a|exact H2]. Qed.
Lemma ends_assoc_r {A B C D} P Q (p : proc A) (f : A -> proc B) (g : B -> proc C) (q : proc D) :
  ends_in P Q q (pbind p (fun a => pbind (f a) g)) -> ends_in P Q q (pbind (pbind p f) g).
Proof. intros (x & cx & y & cy & H1 & H2). exists x, cx, y, cy. split; [exact H1|now apply kept_a]. Qed.
Lemma kept_lift {A B} (Q : outcome B -> Prop) (o : outcome A) (f : A -> proc B) ins ci outs co :
  (forall e, Q (Err e)) -> (forall r, Q (Panic r)) -> Q UB ->
  (forall a, o = Ok a -> kept Q (f a) ins ci outs co) -> kept Q (pbind (lift o) f) ins ci outs co.
Proof. intros He Hp Hu H. destruct o; cbn; auto. Qed.

Lemma kept_ok {A B} (Q : outcome B -> Prop) (o : outcome A) a (f : A -> proc B) ins ci outs co :
  o = Ok a -> kept Q (f a) ins ci outs co -> kept Q (pbind (lift o) f) ins ci outs co.
Proof. intros -> H. exact H. Qed.
Lemma kept_recv {B} (Q : outcome B -> Prop) (f : bytes -> proc B) m ins ci outs co : (forall e, Q (Err e)) ->
  kept Q (f m) ins ci outs co -> kept Q (pbind recv f) (m :: ins) ci outs co.
Proof. intros He H. split; [apply He|exact H]. Qed.
Lemma kept_recv_unwrap {B} (Q : outcome B -> Prop) (f : bytes -> proc B) m ins ci outs co : (forall r, Q (Panic r)) ->
  kept Q (f m) ins ci outs co -> kept Q (pbind recv_unwrap f) (m :: ins) ci outs co.
Proof. intros He H. split; [apply He|exact H]. Qed.
Lemma kept_wait {B} (Q : outcome B -> Prop) (f : bytes -> proc B) outs co : (forall e, Q (Err e)) -> kept Q (pbind recv f) [] true outs co.
Proof. intros He. split; [apply He|exact I]. Qed.
Lemma kept_wait_unwrap {B} (Q : outcome B -> Prop) (f : bytes -> proc B) outs co : (forall r, Q (Panic r)) -> kept Q (pbind recv_unwrap f) [] true outs co.
Proof. intros He. split; [apply He|exact I]. Qed.
Lemma kept_send {B} (Q : outcome B -> Prop) (f : unit -> proc B) m ins ci outs co :
  kept Q (f tt) ins ci outs co -> kept Q (pbind (send m) f) ins ci (m :: outs) co.
Proof. intros H. split; [reflexivity|exact H]. Qed.
Lemma failing_lift {A B} (o : outcome A) (f : A -> proc B) ins ci outs co :
  (forall a, o = Ok a -> kept failing (f a) ins ci outs co) -> kept failing (pbind (lift o) f) ins ci outs co.
Proof. apply kept_lift; cbn; auto. Qed.
Lemma failing_any {A} : forall (o : outcome A), failing o \/ exists a, o = Ok a.
Proof. intros [a|e|r|]; cbn; eauto. Qed.

(** Too few frames for a loop of receives, or one that it does not take. *)
Lemma kept_recv_each {A B} (f : bytes -> outcome A) n : forall (g : list A -> proc B) ins outs co,
  (length ins < n)%nat -> kept failing (pbind (recv_each recv_unwrap f n) g) ins true outs co.
Proof.
  induction n as [|n IH]; intros g ins outs co H; [lia|]. cbn [recv_each]. apply kept_a.
  destruct ins as [|m ins]; [apply kept_wait_unwrap; cbn; auto|]. apply kept_recv_unwrap; [cbn; auto|].
  apply kept_a. apply failing_lift. intros a _. apply kept_a. apply IH. cbn in H. lia.
Qed.
Lemma kept_send_all {B} (Q : outcome B -> Prop) ms : forall (g : unit -> proc B) ins ci outs co,
  kept Q (g tt) ins ci outs co -> kept Q (pbind (send_all ms) g) ins ci (ms ++ outs) co.
Proof.
  induction ms as [|m ms IH]; intros g ins ci outs co H; [exact H|]. cbn [send_all]. apply kept_a. apply kept_send. now apply IH.
Qed.

Lemma kept_sends {B} (Q : outcome B -> Prop) ms (g : unit -> proc B) ins ci co :
  kept Q (g tt) ins ci [] co -> kept Q (pbind (send_all ms) g) ins ci ms co.
Proof. intros H. pose proof (kept_send_all Q ms g ins ci [] co H) as K. now rewrite app_nil_r in K. Qed.

(** ** One side has its result, the other gets none *)
Definition one_result {A B} (p : proc A) (q : proc B) : Prop :=
  ends_in (fun _ => True) failing p q /\ exists c a, reach (initial p q) c /\ left_ c = Done (Ok a).
Lemma one_after {A B C D} (p : proc C) (q : proc D) (f : C -> proc A) (h : D -> proc B) a b :
  hangup p -> hangup q -> runs p q (Ok a) (Ok b) -> one_result (f a) (h b) -> one_result (pbind p f) (pbind q h).
Proof.
  intros Hp Hq R (E & c & x & H1 & H2). split; [apply (ends_after _ _ (fun _ => I) (fun _ => I) (fun _ => I) (fun _ => I) p q f h a b Hp Hq R E)|].
  exists c, x. split; [|exact H2]. eapply reach_trans; [exact (reach_map f h _ _ R)|exact H1].
Qed.
Lemma one_lift_l {A B C} (o : outcome C) a (f : C -> proc A) (q : proc B) : o = Ok a -> one_result (f a) q -> one_result (pbind (lift o) f) q.
Proof. intros -> H. exact H. Qed.
Lemma one_lift_r {A B C} (o : outcome C) a (f : C -> proc B) (p : proc A) : o = Ok a -> one_result p (f a) -> one_result p (pbind (lift o) f).
Proof. intros -> H. exact H. Qed.
Lemma one_send_recv {A B} m (k : unit -> proc A) (k' : bytes -> proc B) : one_result (k tt) (k' m) -> one_result (pbind (send m) k) (pbind recv k').
Proof.
  intros (E & c & x & H1 & H2). split; [apply ends_send_recv; [intros; exact I|exact E]|]. exists c, x. split; [|exact H2].
  eapply reach_L; [reflexivity|]. eapply reach_R; [reflexivity|]. exact H1.
Qed.
Lemma reach_peq_r {A B} (c c' : cfg A B) : reach c c' -> forall q, peq (right_ c) q ->
  exists q', reach (Cfg (left_ c) q (lr c) (rl c)) (Cfg (left_ c') q' (lr c') (rl c')).
Proof.
  induction 1 as [c|c c1 c2 H _ IH|c c1 c2 H _ IH]; intros q P.
  - exists q. constructor.
  - unfold stepL in H. destruct (left_ c) as [|m k|k]; [discriminate| |].
    + injection H as <-. destruct (IH q P) as (q' & IHq). exists q'. eapply reach_L; [reflexivity|]. exact IHq.
    + destruct (rl c) as [|m w]; [discriminate|]. injection H as <-. destruct (IH q P) as (q' & IHq). exists q'. eapply reach_L; [reflexivity|]. exact IHq.
  - unfold stepR in H. destruct P as [|m k k' P|k k' P]; [discriminate| |].
    + injection H as <-. destruct (IH k' P) as (q' & IHq). exists q'. eapply reach_R; [reflexivity|]. exact IHq.
    + destruct (lr c) as [|m w]; [discriminate|]. injection H as <-. destruct (IH (k' (Some m)) (P _)) as (q' & IHq). exists q'. eapply reach_R; [reflexivity|]. exact IHq.
Qed.
Lemma one_assoc_l {A B C D} (p : proc A) (f : A -> proc B) (g : B -> proc C) (q : proc D) :
  one_result (pbind p (fun a => pbind (f a) g)) q -> one_result (pbind (pbind p f) g) q.
Proof.
  intros (E & c & x & H1 & H2). split; [now apply ends_assoc_l|].
  eexists. exists x. split; [exact (reach_peq_l _ _ H1 _ _ H2 (peq_sym _ _ (pbind_assoc p f g)))|reflexivity].
Qed.
Lemma one_assoc_r {A B C D} (p : proc A) (f : A -> proc B) (g : B -> proc C) (q : proc D) :
  one_result q (pbind p (fun a => pbind (f a) g)) -> one_result q (pbind (pbind p f) g).
Proof.
  intros (E & c & x & H1 & H2). split; [now apply ends_assoc_r|].
  destruct (reach_peq_r _ _ H1 _ (peq_sym _ _ (pbind_assoc p f g))) as (q' & R). eexists. exists x. split; [exact R|exact H2].
Qed.
Lemma ends_flip {A B} P Q (p : proc A) (q : proc B) : ends_in P Q p q -> ends_in Q P q p.
Proof. intros (x & cx & y & cy & H1 & H2). exists y, cy, x, cx. auto. Qed.

(** ** The sides of the base OT and of the 1-out-of-n OT *)
Section Sides.
Variable sha : bytes -> bytes.
Variable gen : bytes -> nat -> bytes.
Variable G : curve.
Variable p : profile.
Notation name d := (enc_props (mkProps d chou_orlandi)).
(** The sender waits for points after its own; whatever it takes for the parameters of its peer. *)
Lemma co_sender_waits {B} rs msgs (f : unit -> proc B) m : (1 <= length msgs)%nat ->
  kept failing (pbind (co_sender sha gen G p rs msgs) f) [m] true
    (name (length msgs) :: map (fun i => compress G (smul G (rs i) (base G))) (seq 0 (length msgs))) true.
Proof.
  intros H. unfold co_sender, validate_properties. cbv zeta. apply kept_a. apply kept_a. apply kept_send. apply kept_a. apply kept_recv; [cbn; auto|].
  apply kept_a. apply failing_lift. intros pb _. destruct (props_eqb pb _); [|exact I]. cbn [pbind ret]. apply kept_a. apply kept_sends. apply kept_a. apply kept_recv_each. cbn. lia.
Qed.
(** A receiver that takes one frame less, or does not take the second one. *)
Lemma co_receiver_short {B} rs cs (f : list bytes -> proc B) m ins : (length ins < length cs)%nat ->
  kept failing (pbind (co_receiver sha gen G p rs cs) f) (m :: ins) true [name (length cs)] true.
Proof.
  intros H. unfold co_receiver, validate_properties. cbv zeta. apply kept_a. apply kept_a. apply kept_send. apply kept_a. apply kept_recv; [cbn; auto|].
  apply kept_a. apply failing_lift. intros pb _. destruct (props_eqb pb _); [|exact I]. cbn [pbind ret]. apply kept_a. apply kept_recv_each. exact H.
Qed.
Lemma co_receiver_wrong {B} rs cs (f : list bytes -> proc B) m m2 ins : (1 <= length cs)%nat -> length m2 <> 32%nat ->
  kept failing (pbind (co_receiver sha gen G p rs cs) f) (m :: m2 :: ins) true [name (length cs)] true.
Proof.
  intros H H32. unfold co_receiver, validate_properties. cbv zeta. apply kept_a. apply kept_a. apply kept_send. apply kept_a. apply kept_recv; [cbn; auto|].
  apply kept_a. apply failing_lift. intros pb _. destruct (props_eqb pb _); [|exact I]. cbn [pbind ret]. apply kept_a.
  destruct (length cs) as [|n]; [lia|]. cbn [recv_each]. apply kept_a. apply kept_recv_unwrap; [cbn; auto|]. apply kept_a.
  unfold from_slice at 1. apply Nat.eqb_neq in H32. rewrite H32. exact I.
Qed.
End Sides.
