(** Frames that get longer on their way. *)
From Coq Require Import List NArith Bool Lia Arith.
From Verif Require Import Base MBincode MProc SpecBincode SpecMatch PBase PProc.
Import ListNotations.

Section Match.
Variable x : bytes.
Context {A B : Type}.

Lemma reach_trans {C D} (c1 c2 c3 : cfg C D) : reach c1 c2 -> reach c2 c3 -> reach c1 c3.
Proof. induction 1; intros; auto; [eapply reach_L|eapply reach_R]; eauto. Qed.

Lemma done_stays {C D} (c f : cfg C D) o o' : reach c f -> right_ c = Done o -> right_ f = Done o' -> o = o'.
Proof.
  induction 1 as [c|c c1 c2 E H IH|c c1 c2 E H IH]; intros H1 H2.
  - congruence.
  - apply IH; auto. unfold stepL in E. destruct (left_ c) as [|m k|k]; [discriminate| |].
    + injection E as <-. exact H1.
    + destruct (rl c); [discriminate|]. injection E as <-. exact H1.
  - unfold stepR in E. rewrite H1 in E. discriminate.
Qed.

Lemma split_run (K : A -> proc B) {C} (c f : cfg C B) : reach c f -> forall q b, right_ c = pbind q K -> right_ f = Done (Ok b) ->
  exists l1 a x1 y1, reach (Cfg (left_ c) q (lr c) (rl c)) (Cfg l1 (Done (Ok a)) x1 y1) /\ reach (Cfg l1 (K a) x1 y1) f.
Proof.
  induction 1 as [c|c c1 c2 E H IH|c c1 c2 E H IH]; intros q b Hq Hf.
  - destruct q as [[a| | |]|m k|k]; cbn [pbind] in Hq; try congruence.
    exists (left_ c), a, (lr c), (rl c). split; [apply reach_refl|]. rewrite <- Hq. destruct c; apply reach_refl.
  - assert (E' := E). unfold stepL in E'. destruct c as [l r xx yy]. cbn [left_ right_ lr rl] in *.
    destruct l as [o|m k|k]; [discriminate| |].
    + injection E' as <-. cbn [left_ right_ lr rl] in *. destruct (IH q b Hq Hf) as (l1 & a & x1 & y1 & R1 & R2).
      exists l1, a, x1, y1. split; [|exact R2]. eapply reach_L; [reflexivity|]. exact R1.
    + destruct yy as [|m yy]; [discriminate|]. injection E' as <-. cbn [left_ right_ lr rl] in *.
      destruct (IH q b Hq Hf) as (l1 & a & x1 & y1 & R1 & R2).
      exists l1, a, x1, y1. split; [|exact R2]. eapply reach_L; [reflexivity|]. exact R1.
  - assert (E' := E). unfold stepR in E'. destruct c as [l r xx yy]. cbn [left_ right_ lr rl] in *. subst r.
    destruct q as [[a| | |]|m k|k]; cbn [pbind] in E'.
    + exists l, a, xx, yy. split; [apply reach_refl|]. eapply reach_R; [exact E|exact H].
    + discriminate.
    + discriminate.
    + discriminate.
    + injection E' as <-. cbn [left_ right_ lr rl] in *. destruct (IH k b eq_refl Hf) as (l1 & a & x1 & y1 & R1 & R2).
      exists l1, a, x1, y1. split; [|exact R2]. eapply reach_R; [reflexivity|]. exact R1.
    + destruct xx as [|m xx]; [discriminate|]. injection E' as <-. cbn [left_ right_ lr rl] in *.
      destruct (IH (k (Some m)) b eq_refl Hf) as (l1 & a & x1 & y1 & R1 & R2).
      exists l1, a, x1, y1. split; [|exact R2]. eapply reach_R; [reflexivity|]. exact R1.
Qed.
End Match.

Section Hit.
Variable x : bytes.

(** Where nothing is changed, nothing happens. *)
Lemma calm {A C} (c f : cfg C A) : reach c f -> forall a, right_ f = Done (Ok a) -> forall log, exists log', forall j,
  (j < length log \/ length log + length log' <= j)%nat ->
  reach (Cfg (left_ c) (behind (longer x j) log (right_ c)) (lr c) (rl c)) (Cfg (left_ f) (Done (Ok (a, log ++ log'))) (lr f) (rl f)).
Proof.
  induction 1 as [c|c c1 c2 E H IH|c c1 c2 E H IH]; intros a Hf log.
  - exists []. intros j _. rewrite app_nil_r, Hf. cbn [behind]. apply reach_refl.
  - destruct (IH a Hf log) as (log' & R). exists log'. intros j Hj. specialize (R j Hj).
    destruct c as [l r xx yy]. unfold stepL in E. cbn [left_ right_ lr rl] in *. destruct l as [o|m k|k]; [discriminate| |].
    + injection E as <-. eapply reach_L; [reflexivity|]. exact R.
    + destruct yy as [|m yy]; [discriminate|]. injection E as <-. eapply reach_L; [reflexivity|]. exact R.
  - destruct c as [l r xx yy]. unfold stepR in E. cbn [left_ right_ lr rl] in *. destruct r as [o|m k|k]; [discriminate| |].
    + injection E as <-. destruct (IH a Hf log) as (log' & R). exists log'. intros j Hj. specialize (R j Hj).
      cbn [behind]. eapply reach_R; [reflexivity|]. exact R.
    + destruct xx as [|m xx]; [discriminate|]. injection E as <-. destruct (IH a Hf (log ++ [(m, m)])) as (log' & R).
      exists ((m, m) :: log'). intros j Hj. cbn [length] in Hj. cbn [behind]. eapply reach_R; [reflexivity|].
      cbn [left_ right_ lr rl] in *.
      assert (El : longer x j (length log) m = m) by (unfold longer; destruct (Nat.eqb_spec (length log) j); [lia|reflexivity]).
      rewrite El. replace (log ++ (m, m) :: log') with ((log ++ [(m, m)]) ++ log') by now rewrite <- app_assoc.
      apply R. rewrite app_length. cbn [length]. lia.
Qed.

Lemma join {A B C} (K : A -> proc B) f (c g : cfg C (A * list (bytes * bytes))) : reach c g -> forall q log a log1, right_ c = behind f log q ->
  right_ g = Done (Ok (a, log1)) ->
  reach (Cfg (left_ c) (behind f log (pbind q K)) (lr c) (rl c)) (Cfg (left_ g) (behind f log1 (K a)) (lr g) (rl g)).
Proof.
  induction 1 as [c|c c1 c2 E H IH|c c1 c2 E H IH]; intros q log a log1 Hq Hg.
  - rewrite Hg in Hq. destruct q as [[b| | |]|m k|k]; try discriminate Hq. injection Hq as -> ->. apply reach_refl.
  - destruct c as [l r xx yy]. unfold stepL in E. cbn [left_ right_ lr rl] in *. destruct l as [o|m k|k]; [discriminate| |].
    + injection E as <-. eapply reach_L; [reflexivity|]. exact (IH _ _ _ _ Hq Hg).
    + destruct yy as [|m yy]; [discriminate|]. injection E as <-. eapply reach_L; [reflexivity|]. exact (IH _ _ _ _ Hq Hg).
  - destruct c as [l r xx yy]. unfold stepR in E. cbn [left_ right_ lr rl] in *. subst r.
    destruct q as [[b| | |]|m k|k]; cbn [behind] in E; try discriminate.
    + injection E as <-. cbn [pbind behind]. eapply reach_R; [reflexivity|]. exact (IH _ _ _ _ eq_refl Hg).
    + destruct xx as [|m xx]; [discriminate|]. injection E as <-. cbn [pbind behind]. eapply reach_R; [reflexivity|]. exact (IH _ _ _ _ eq_refl Hg).
Qed.

(** Processes that take a longer frame. *)
Definition tolerant {A} (p : proc A) : Prop := forall C (l : proc C) xx yy l' xx' yy' a,
  reach (Cfg l p xx yy) (Cfg l' (Done (Ok a)) xx' yy') -> forall log, exists j log', (length log <= j < length log + length log')%nat /\
  got_longer x log' /\ reach (Cfg l (behind (longer x j) log p) xx yy) (Cfg l' (Done (Ok (a, log ++ log'))) xx' yy').

Lemma tolerant_after {A B} (q : proc A) (K : A -> proc B) : (forall a, tolerant (K a)) -> tolerant (pbind q K).
Proof.
  intros HK C l xx yy l' xx' yy' b R log.
  destruct (split_run K _ _ R q b eq_refl eq_refl) as (l1 & a & x1 & y1 & R1 & R2). cbn [left_ lr rl] in R1.
  destruct (calm _ _ R1 a eq_refl log) as (log1 & Q1). cbn [left_ right_ lr rl] in Q1.
  destruct (HK a _ _ _ _ _ _ _ _ R2 (log ++ log1)) as (j & log2 & Hj & Hl & Q2). rewrite app_length in Hj.
  exists j, (log1 ++ log2). rewrite app_length. split; [lia|]. split.
  { destruct Hl as (m & Hm). exists m. apply in_or_app. now right. }
  rewrite app_assoc. eapply reach_trans; [|exact Q2].
  exact (join K _ _ _ (Q1 j ltac:(lia)) q log a (log ++ log1) eq_refl eq_refl).
Qed.
Lemma tolerant_before {A B} (q : proc A) (K : A -> proc B) : tolerant q -> tolerant (pbind q K).
Proof.
  intros Hq C l xx yy l' xx' yy' b R log.
  destruct (split_run K _ _ R q b eq_refl eq_refl) as (l1 & a & x1 & y1 & R1 & R2). cbn [left_ lr rl] in R1.
  destruct (Hq _ _ _ _ _ _ _ _ R1 log) as (j & log1 & Hj & Hl & Q1).
  destruct (calm _ _ R2 b eq_refl (log ++ log1)) as (log2 & Q2). cbn [left_ right_ lr rl] in Q2.
  exists j, (log1 ++ log2). rewrite app_length. split; [lia|]. split.
  { destruct Hl as (m & Hm). exists m. apply in_or_app. now left. }
  rewrite app_assoc. eapply reach_trans; [|apply (Q2 j); left; rewrite app_length; lia].
  exact (join K _ _ _ Q1 q log a (log ++ log1) eq_refl eq_refl).
Qed.

Lemma next_frame {A C} (k : option bytes -> proc A) (c f : cfg C A) : reach c f -> forall a, right_ c = Rcv k -> right_ f = Done (Ok a) ->
  exists l1 m x1 y1, reach (Cfg l1 (k (Some m)) x1 y1) f /\
    forall B (r : proc B), reach (Cfg (left_ c) r (lr c) (rl c)) (Cfg l1 r (m :: x1) y1).
Proof.
  induction 1 as [c|c c1 c2 E H IH|c c1 c2 E H IH]; intros a Hc Hf.
  - congruence.
  - destruct c as [l r xx yy]. unfold stepL in E. cbn [left_ right_ lr rl] in *. destruct l as [o|m k0|k0]; [discriminate| |].
    + injection E as <-. destruct (IH a Hc Hf) as (l1 & m1 & x1 & y1 & R1 & R2). exists l1, m1, x1, y1. split; [exact R1|].
      intros D s. eapply reach_L; [reflexivity|]. apply R2.
    + destruct yy as [|m yy]; [discriminate|]. injection E as <-. destruct (IH a Hc Hf) as (l1 & m1 & x1 & y1 & R1 & R2).
      exists l1, m1, x1, y1. split; [exact R1|]. intros D s. eapply reach_L; [reflexivity|]. apply R2.
  - destruct c as [l r xx yy]. unfold stepR in E. cbn [left_ right_ lr rl] in *. subst r.
    destruct xx as [|m xx]; [discriminate|]. injection E as <-. exists l, m, xx, yy. split; [exact H|]. intros. apply reach_refl.
Qed.

(** A frame of which a decoder reads only the beginning. *)
Lemma tolerant_decoded {A B} (dec : bytes -> outcome (A * bytes)) (K : A -> proc B) :
  (forall l v, deserialize dec l = Ok v -> forall y, deserialize dec (l ++ y) = Ok v) ->
  tolerant (pbind recv (fun m => pbind (lift (deserialize dec m)) K)).
Proof.
  intros Hd C l xx yy l' xx' yy' b R log.
  destruct (next_frame _ _ _ R b eq_refl eq_refl) as (l1 & m & x1 & y1 & R1 & R2). cbn [left_ lr rl] in R2. cbn [pbind ret lift] in R1.
  destruct (deserialize dec m) as [v| | |] eqn:E; cbn [pbind] in R1.
  2,3,4: pose proof (done_stays _ _ _ _ R1 eq_refl eq_refl); discriminate.
  destruct (calm _ _ R1 b eq_refl (log ++ [(m, m ++ x)])) as (log' & Q). cbn [left_ right_ lr rl] in Q.
  exists (length log), ((m, m ++ x) :: log'). cbn [length]. split; [lia|]. split. { exists m. now left. }
  eapply reach_trans; [apply R2|]. cbn [recv pbind behind]. eapply reach_R; [reflexivity|]. cbn [left_ right_ lr rl].
  unfold longer at 2 3. rewrite Nat.eqb_refl. cbn [ret pbind lift]. rewrite (Hd _ _ E x). cbn [pbind].
  replace (log ++ (m, m ++ x) :: log') with ((log ++ [(m, m ++ x)]) ++ log') by now rewrite <- app_assoc.
  apply Q. left. rewrite app_length. cbn [length]. lia.
Qed.
Lemma tolerant_undisturbed {A} (p : proc A) : tolerant p -> undisturbed x p.
Proof.
  intros H B q ob a R. destruct (H _ _ _ _ _ _ _ _ R []) as (j & log & _ & Hl & Q). exists j, log. split; [exact Hl|exact Q].
Qed.
End Hit.

(** *** The decoders ignore what follows, whatever the frame *)
Definition open {A} (d : parser A) : Prop := forall l a rest y, d l = Ok (a, rest) -> d (l ++ y) = Ok (a, rest ++ y).
Lemma open_take n : open (take n).
Proof.
  induction n as [|n IH]; intros l a rest y H; cbn [take] in *.
  - now injection H as <- <-.
  - destruct l as [|b l]; [discriminate|]. cbn [app].
    destruct (take n l) as [[h t]| | |] eqn:E; cbn [obind] in H; try discriminate. injection H as <- <-.
    now rewrite (IH _ _ _ y E).
Qed.
Ltac opened L := let x := fresh "x" in let E := fresh "E" in
  match goal with H : obind ?e _ = Ok _ |- _ => destruct e as [[x ?]| | |] eqn:E; cbn [obind] in H; try discriminate; rewrite (L _ _ _ _ E); cbn [obind] end.
Ltac closed := match goal with H : Ok _ = Ok _ |- _ => injection H as <- <-; reflexivity end.
Lemma open_uint k : open (dec_uint k).
Proof. intros l a rest y H. unfold dec_uint in *. opened (open_take k). closed. Qed.
Lemma open_usize : open dec_usize.
Proof. intros l a rest y H. unfold dec_usize in *. opened (open_uint 8). closed. Qed.
Lemma open_many {A} (d : parser A) n : open d -> open (dec_many d n).
Proof.
  intros Hd. induction n as [|n IH]; intros l a rest y H; cbn [dec_many] in *; [closed|].
  opened Hd. opened IH. closed.
Qed.
Lemma open_vec {A} (d : parser A) : open d -> open (dec_vec d).
Proof.
  intros Hd l a rest y H. unfold dec_vec in *.
  destruct (dec_uint 8 l) as [[c l0]| | |] eqn:E; cbn [obind] in H; try discriminate. rewrite (open_uint 8 _ _ _ y E). cbn [obind]. rewrite app_length.
  destruct (N.ltb_spec (N.of_nat (length l0)) c); [discriminate|]. destruct (N.ltb_spec (N.of_nat (length l0 + length y)) c); [lia|].
  now apply (open_many d _ Hd).
Qed.
Lemma open_bytes : open dec_bytes. Proof. apply open_vec, open_uint. Qed.
Lemma open_domain : open dec_domain.
Proof.
  intros l a rest y H. unfold dec_domain, dec_tag, dec_u8, dec_u16 in *. opened (open_uint 4).
  repeat match goal with |- context [N.eqb ?u ?v] => destruct (N.eqb u v) end; try discriminate; try closed.
  - opened (open_uint 1). closed.
  - opened (open_uint 2). closed.
Qed.
Lemma open_wire : open dec_wire.
Proof. intros l a rest y H. unfold dec_wire in *. opened open_domain. opened (open_take 32). closed. Qed.
Lemma open_wires : open dec_wires. Proof. apply open_vec, open_wire. Qed.
Lemma open_proj : open dec_proj.
Proof.
  intros l a rest y H. unfold dec_proj, dec_tag, dec_u16 in *. opened (open_uint 4).
  repeat match goal with |- context [N.eqb ?u ?v] => destruct (N.eqb u v) end; try discriminate; opened (open_uint 2); closed.
Qed.
Lemma open_kind : open dec_kind.
Proof.
  intros l a rest y H. unfold dec_kind, dec_tag, dec_u16 in *. opened (open_uint 4).
  repeat match goal with |- context [N.eqb ?u ?v] => destruct (N.eqb u v) end; try discriminate; try closed.
  - opened (open_uint 2). closed.
  - opened open_proj. closed.
Qed.
Lemma open_gate : open dec_gate.
Proof.
  intros l a rest y H. unfold dec_gate, dec_u16 in *. opened open_usize. opened (open_uint 2).
  opened (open_vec _ open_usize). opened open_kind. closed.
Qed.
Lemma open_circuit : open dec_circuit.
Proof.
  intros l a rest y H. unfold dec_circuit in *. opened open_usize. opened open_usize. opened open_usize.
  opened (open_vec _ open_gate). opened (open_vec _ (open_uint 2)). closed.
Qed.
Lemma open_map {V} (d : parser V) : open d -> open (dec_map d).
Proof.
  intros Hd l a rest y H. unfold dec_map in *.
  assert (He : open (dec_entry d)).
  { clear - Hd. intros l a rest y H. unfold dec_entry in *. opened open_usize. opened Hd. closed. }
  opened (open_vec _ He). closed.
Qed.
Lemma open_garbled : open dec_garbled.
Proof.
  intros l a rest y H. unfold dec_garbled in *. opened open_circuit. opened (open_map _ open_wires).
  assert (H2 : open dec_wire2).
  { clear. intros l a rest y H. unfold dec_wire2 in *. opened open_wire. opened open_wire. closed. }
  opened (open_map _ H2). closed.
Qed.
Lemma open_deserialize {A} (d : parser A) : open d -> forall l v, deserialize d l = Ok v -> forall y, deserialize d (l ++ y) = Ok v.
Proof. intros Hd l v H y. unfold deserialize in *. opened Hd. exact H. Qed.
