(** Proofs: frames that keep a side from a result. *)
From Coq Require Import List NArith Bool Lia Arith.
From Verif Require Import Base MProc MChannel SpecKinds PBase.
Import ListNotations.

(** [p] gets no result when its input starts with [ins] (and ends there if [ci]), and then its output starts with [outs]
    (and is part of it if [co]). *)
Fixpoint doomed {A} (p : proc A) (ins : list bytes) (ci : bool) (outs : list bytes) (co : bool) : Prop :=
  match p with
  | Done (Ok _) => False
  | Done _ => True
  | Snd m k =>
      match outs with
      | [] => if co then False else doomed k ins ci [] false
      | o :: outs' => m = o /\ doomed k ins ci outs' co
      end
  | Rcv k =>
      doomed (k None) [] false outs co /\
      match ins with
      | m :: ins' => doomed (k (Some m)) ins' ci outs co
      | [] => if ci then True else forall m, doomed (k (Some m)) [] false outs co
      end
  end.

(** [ins] describes the frames [q] on their way and the frames [outs] yet to be sent. *)
Definition describes (ins : list bytes) (ci : bool) (q outs : list bytes) (co : bool) : Prop :=
  ci = co /\ (ins = q ++ outs \/ (co = false /\ outs = [] /\ exists ext, q = ins ++ ext)).
Definition doomed_cfg {A B} (c : cfg A B) : Prop := exists inl cl inr cr outl ol outr or_,
  doomed (left_ c) inl cl outl ol /\ doomed (right_ c) inr cr outr or_ /\
  describes inl cl (rl c) outr or_ /\ describes inr cr (lr c) outl ol.

Lemma describes_snd ins ci q m outs co : describes ins ci q (m :: outs) co -> describes ins ci (q ++ [m]) outs co.
Proof.
  intros (E & [F|(_ & F & _)]); [|discriminate]. split; auto. left. rewrite <- app_assoc. exact F.
Qed.
Lemma describes_more ins ci q m : describes ins ci q [] false -> describes ins ci (q ++ [m]) [] false.
Proof.
  intros (E & [F|(_ & _ & ext & F)]); split; auto; right; repeat split; auto.
  - exists [m]. rewrite F, app_nil_r. reflexivity.
  - exists (ext ++ [m]). rewrite F. symmetry. apply app_assoc.
Qed.
Lemma doomed_rcv {A} (k : option bytes -> proc A) ins ci outs co m q outs' co' :
  doomed (Rcv k) ins ci outs co -> describes ins ci (m :: q) outs' co' ->
  exists ins', doomed (k (Some m)) ins' ci outs co /\ describes ins' ci q outs' co'.
Proof.
  intros [_ H] (E & [F|(Ec & Eo & ext & F)]).
  - subst ins. exists (q ++ outs'). split; [exact H|]. split; auto.
  - subst co' outs' ci. destruct ins as [|m' ins'].
    + exists []. split; [apply H|]. split; auto. right. repeat split; auto. exists q. reflexivity.
    + cbn in F. injection F as <- ->. exists ins'. split; [exact H|]. split; auto. right. repeat split; auto. exists ext. reflexivity.
Qed.
Lemma describes_closed : describes [] false [] [] false.
Proof. split; auto. Qed.

Lemma doomed_snd {A} m (k : proc A) ins ci outs co : doomed (Snd m k) ins ci outs co -> forall ins' ci' q, describes ins' ci' q outs co ->
  exists outs', doomed k ins ci outs' co /\ describes ins' ci' (q ++ [m]) outs' co.
Proof.
  intros H ins' ci' q D. cbn in H. destruct outs as [|o outs].
  - destruct co; [contradiction|]. exists []. split; auto. now apply describes_more.
  - destruct H as [-> H]. exists outs. split; auto. now apply describes_snd.
Qed.

Lemma doomed_step {A B} (c c' : cfg A B) : doomed_cfg c -> step c c' -> doomed_cfg c'.
Proof.
  intros (inl & cl & inr & cr & outl & ol & outr & or_ & HL & HR & DL & DR) S.
  destruct S as [c c' S|c c' S|c c' S|c c' S].
  - unfold stepL in S. destruct c as [p q lr_ rl_]; cbn in *. destruct p as [o|m k|k]; [discriminate| |].
    + injection S as <-. destruct (doomed_snd _ _ _ _ _ _ HL _ _ _ DR) as (outl' & H & D).
      exists inl, cl, inr, cr, outl', ol, outr, or_. auto.
    + destruct rl_ as [|m rl_]; [discriminate|]. injection S as <-. destruct (doomed_rcv _ _ _ _ _ _ _ _ _ HL DL) as (inl' & H & D).
      exists inl', cl, inr, cr, outl, ol, outr, or_. auto.
  - unfold stepR in S. destruct c as [p q lr_ rl_]; cbn in *. destruct q as [o|m k|k]; [discriminate| |].
    + injection S as <-. destruct (doomed_snd _ _ _ _ _ _ HR _ _ _ DL) as (outr' & H & D).
      exists inl, cl, inr, cr, outl, ol, outr', or_. auto.
    + destruct lr_ as [|m lr_]; [discriminate|]. injection S as <-. destruct (doomed_rcv _ _ _ _ _ _ _ _ _ HR DR) as (inr' & H & D).
      exists inl, cl, inr', cr, outl, ol, outr, or_. auto.
  - destruct S as [k o q|m k o q q']; cbn [left_ right_ lr rl] in *.
    + destruct HL as [HN _]. exists [], false, inr, cr, outl, ol, [], false.
      split; [exact HN|]. split; [destruct o; exact HR|]. split; [apply describes_closed|exact DR].
    + exists inl, cl, inr, cr, outl, ol, outr, or_. cbn. auto.
  - destruct S as [k o q|m k o q q']; cbn [left_ right_ lr rl] in *.
    + destruct HR as [HN _]. exists inl, cl, [], false, [], false, outr, or_.
      split; [destruct o; exact HL|]. split; [exact HN|]. split; [exact DL|apply describes_closed].
    + exists inl, cl, inr, cr, outl, ol, outr, or_. cbn. auto.
Qed.
Lemma doomed_steps {A B} k : forall (c c' : cfg A B), doomed_cfg c -> steps k c c' -> doomed_cfg c'.
Proof.
  induction k as [|k IH]; intros c c' D S; inversion S; subst; [exact D|].
  eapply IH; [|eassumption]. eapply doomed_step; eauto.
Qed.
Lemma doomed_pair {A B} (p : proc A) (q : proc B) a ca b cb : doomed p a ca b cb -> doomed q b cb a ca -> no_result p q.
Proof.
  intros HL HR k c S.
  assert (D : doomed_cfg c).
  { eapply doomed_steps; [|exact S]. exists a, ca, b, cb, b, cb, a, ca. unfold initial; cbn.
    split; [exact HL|]. split; [exact HR|]. split; (split; [reflexivity|left; reflexivity]). }
  destruct D as (inl & cl & inr & cr & outl & ol & outr & or_ & DL & DR & _).
  split; intros x E; rewrite E in *; contradiction.
Qed.

Lemma doomed_mirrored {A} (p : proc A) : forall ins ci outs co q, doomed p ins ci outs co -> describes ins ci q outs co ->
  forall a, mirrored q p <> Some (Ok a).
Proof.
  induction p as [o|m k IH|k IH]; intros ins ci outs co q H D a.
  - cbn in *. intros E. injection E as ->. contradiction.
  - cbn [mirrored]. destruct (doomed_snd _ _ _ _ _ _ H _ _ _ D) as (outs' & H' & D'). eapply IH; eauto.
  - cbn [mirrored]. destruct q as [|m q]; [discriminate|]. destruct (doomed_rcv _ _ _ _ _ _ _ _ _ H D) as (ins' & H' & D'). eapply IH; eauto.
Qed.
Lemma doomed_mirrors {A} (p : proc A) s c : doomed p s c s c -> forall a, among_mirrors p <> Some (Ok a).
Proof. intros H. unfold among_mirrors. eapply doomed_mirrored; [exact H|]. split; auto. Qed.

(** ** Rules *)
Lemma doomed_bind {A B} (p : proc A) (f : A -> proc B) : forall ins ci outs co, doomed p ins ci outs co -> doomed (pbind p f) ins ci outs co.
Proof.
  induction p as [o|m k IH|k IH]; intros ins ci outs co H.
  - destruct o; cbn in *; auto. contradiction.
  - cbn in *. destruct outs; [destruct co; auto|]. destruct H; auto.
  - cbn in *. destruct H as [HN H]. split; auto. destruct ins; auto. destruct ci; auto.
Qed.
Lemma doomed_lift {A B} (o : outcome A) (f : A -> proc B) ins ci outs co :
  (forall a, o = Ok a -> doomed (f a) ins ci outs co) -> doomed (pbind (lift o) f) ins ci outs co.
Proof. intros H. destruct o; cbn; auto. Qed.
Lemma doomed_assoc {A B C} (p : proc A) (f : A -> proc B) (g : B -> proc C) : forall ins ci outs co,
  doomed (pbind p (fun a => pbind (f a) g)) ins ci outs co -> doomed (pbind (pbind p f) g) ins ci outs co.
Proof.
  induction p as [o|m k IH|k IH]; intros ins ci outs co H.
  - destruct o; exact H.
  - cbn in *. destruct outs; [destruct co; auto|]. destruct H; auto.
  - cbn in *. destruct H as [HN H]. split; auto. destruct ins; auto. destruct ci; auto.
Qed.

(** What a list of frames is on an authenticated channel. *)
Definition with_codes (hmac : bytes -> bytes -> bytes) (key : bytes) (l : list bytes) : list bytes := flat_map (fun m => [m; hmac key m]) l.
Lemma doomed_auth {A} hmac key (p : proc A) : forall ins ci outs co, doomed p ins ci outs co ->
  doomed (over_auth hmac key key p) (with_codes hmac key ins) ci (with_codes hmac key outs) co.
Proof.
  induction p as [o|m k IH|k IH]; intros ins ci outs co H.
  - exact H.
  - cbn in H. destruct outs as [|o outs].
    + destruct co; [contradiction|]. cbn. apply (IH ins ci [] false). exact H.
    + destruct H as [-> H]. cbn. repeat split. apply IH. exact H.
  - destruct H as [HN H]. pose proof (IH None [] false outs co HN) as N. cbn [with_codes flat_map] in N.
    cbn [over_auth doomed]. split; [exact N|]. destruct ins as [|m ins]; cbn [with_codes flat_map app].
    + destruct ci; [exact I|]. intros m. split; [exact N|]. intros code.
      destruct (bytes_eqb code (hmac key m)); [|exact N]. apply (IH (Some m) [] false). apply H.
    + split; [exact N|]. rewrite bytes_eqb_refl. apply IH. exact H.
Qed.
