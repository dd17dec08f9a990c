(** Lemmas about dialogues (C109). *)
From Coq Require Import List NArith Bool Arith Lia.
From Verif Require Import Base MUtil MWires MCircuit MGarble MBitMatrix MPoly MPar MBincode MProc MOt MApricot MMany MFpake MChannel MMain.
From Verif Require Import SpecTurns PBase PUtil PProc PHang PSizes.
Import ListNotations.
Open Scope N_scope.

(** ** Programs that follow a list of actions *)
(** [Q] gets the actions left over. *)
Fixpoint follows {A} (L : list act) (p : proc A) (Q : list act -> A -> Prop) : Prop :=
  match p with
  | Done o => oks (Q L) o
  | Snd _ k => exists L', L = Out :: L' /\ follows L' k Q
  | Rcv k => exists L', L = In :: L' /\ forall m, follows L' (k m) Q
  end.
Lemma fol_bind {A B} (p : proc A) (f : A -> proc B) R Q : forall L, follows L p R ->
  (forall M a, R M a -> follows M (f a) Q) -> follows L (pbind p f) Q.
Proof.
  induction p as [o|m k IH|k IH]; intros L H Hf; cbn in *.
  - destruct o; cbn in *; auto.
  - destruct H as (L' & -> & H). exists L'. split; auto.
  - destruct H as (L' & -> & H). exists L'. split; auto.
Qed.
Lemma fol_weak {A} (p : proc A) (R Q : list act -> A -> Prop) : forall L, follows L p R -> (forall M a, R M a -> Q M a) -> follows L p Q.
Proof.
  induction p as [o|m k IH|k IH]; intros L H Hf; cbn in *.
  - destruct o; cbn in *; auto.
  - destruct H as (L' & -> & H). exists L'. split; auto.
  - destruct H as (L' & -> & H). exists L'. split; auto.
Qed.
Lemma fol_lift {A} L (o : outcome A) (P : A -> Prop) : oks P o -> follows L (lift o) (fun M a => M = L /\ P a).
Proof. destruct o; cbn; auto. Qed.
Lemma fol_any {A} L (o : outcome A) : follows L (lift o) (fun M _ => M = L).
Proof. destruct o; cbn; auto. Qed.
Lemma fol_send L m : follows (Out :: L) (send m) (fun M _ => M = L).
Proof. exists L. split; reflexivity. Qed.
Lemma fol_recv L : follows (In :: L) recv (fun M _ => M = L).
Proof. exists L. split; [reflexivity|]. intros []; cbn; auto. Qed.
Lemma fol_recv_unwrap L : follows (In :: L) recv_unwrap (fun M _ => M = L).
Proof. exists L. split; [reflexivity|]. intros []; cbn; auto. Qed.
Lemma fol_send_all ms : forall L, follows (repeat Out (length ms) ++ L) (send_all ms) (fun M _ => M = L).
Proof. induction ms as [|m ms IH]; intros L; [reflexivity|]. cbn. eexists. split; [reflexivity|]. apply IH. Qed.
Lemma fol_recv_each {A} (f : bytes -> outcome A) n : forall L,
  follows (repeat In n ++ L) (recv_each recv_unwrap f n) (fun M l => M = L /\ length l = n).
Proof.
  induction n as [|n IH]; intros L; [cbn; auto|]. cbn [recv_each repeat app].
  eapply fol_bind; [apply fol_recv_unwrap|]. intros M m ->. eapply fol_bind; [apply fol_any|]. intros M a ->.
  eapply fol_bind; [apply IH|]. intros M l [-> Hl]. cbn. auto.
Qed.
Lemma fol_turns {A} (q : proc A) : forall L, follows L q (fun M _ => M = []) -> takes_turns q L.
Proof.
  unfold takes_turns. induction q as [o|m k IH|k IH]; intros L H ins.
  - exists L. split; [reflexivity|]. cbn in *. intros a ->. exact H.
  - cbn in H. destruct H as (L' & -> & H). destruct (IH L' H ins) as (rest & E & F). exists rest.
    cbn. split; [now rewrite E at 1|]. destruct (feed k ins). exact F.
  - cbn in H. destruct H as (L' & -> & H). destruct ins as [|m ins].
    + destruct (IH None L' (H None) []) as (rest & E & F). exists rest. cbn. split; [now rewrite E at 1|exact F].
    + destruct (IH (Some m) L' (H (Some m)) ins) as (rest & E & F). exists rest. cbn. split; [now rewrite E at 1|exact F].
Qed.
Lemma fol_done {A} L (o : outcome A) Q : (forall a, o <> Ok a) -> follows L (Done o) Q.
Proof. destruct o; cbn; auto. intros H. now destruct (H a). Qed.

(** ** Dialogues *)
Lemma first_app R S : first_party (R ++ S) = first_party R ++ first_party S.
Proof. apply flat_map_app. Qed.
Lemma swap_app R S : swap (R ++ S) = swap R ++ swap S.
Proof. apply map_app. Qed.
Lemma second_app R S : second_party (R ++ S) = second_party R ++ second_party S.
Proof. unfold second_party. now rewrite swap_app, first_app. Qed.
Lemma swap_swap R : swap (swap R) = R.
Proof. unfold swap. rewrite map_map. cbn. induction R as [|[n m] R IH]; cbn; [reflexivity|]. now rewrite IH. Qed.
Lemma first_swap R : first_party (swap R) = second_party R.
Proof. reflexivity. Qed.
Lemma second_swap R : second_party (swap R) = first_party R.
Proof. unfold second_party. now rewrite swap_swap. Qed.
Lemma first_length R : length (first_party R) = frames R.
Proof.
  unfold first_party, frames. induction R as [|[n m] R IH]; cbn; [reflexivity|]. now rewrite !app_length, !repeat_length, IH.
Qed.
Lemma frames_swap R : frames (swap R) = frames R.
Proof. unfold frames, swap. rewrite map_map. f_equal. apply map_ext. intros [n m]. cbn. lia. Qed.
Lemma frames_app R S : frames (R ++ S) = (frames R + frames S)%nat.
Proof. unfold frames. now rewrite map_app, list_sum_app. Qed.

(** A list of actions as a program without contents. *)
Fixpoint mime (L : list act) : proc unit :=
  match L with
  | [] => ret tt
  | Out :: L => Snd [] (mime L)
  | In :: L => Rcv (fun _ => mime L)
  end.
Lemma repeat_snoc {A} (x : A) n : repeat x n ++ [x] = x :: repeat x n.
Proof. induction n as [|n IH]; [reflexivity|]. cbn. now rewrite IH. Qed.
Lemma mime_send n : forall (L : list act) (q : proc unit) a b,
  reach (Cfg (mime (repeat Out n ++ L)) q a b) (Cfg (mime L) q (a ++ repeat [] n) b).
Proof.
  induction n as [|n IH]; intros L q a b; [rewrite app_nil_r; constructor|].
  eapply reach_L; [reflexivity|]. cbn [left_ right_ lr rl].
  replace (a ++ repeat [] (S n)) with ((a ++ [[]]) ++ repeat ([] : bytes) n) by now rewrite <- app_assoc. apply IH.
Qed.
Lemma mime_recv n : forall (L : list act) (q : proc unit) a b,
  reach (Cfg (mime (repeat In n ++ L)) q a (repeat [] n ++ b)) (Cfg (mime L) q a b).
Proof.
  induction n as [|n IH]; intros L q a b; [constructor|].
  eapply reach_L; [reflexivity|]. cbn [left_ right_ lr rl]. apply IH.
Qed.
Lemma mime_send_right n (M : list act) (q : proc unit) a b :
  reach (Cfg q (mime (repeat Out n ++ M)) a b) (Cfg q (mime M) a (b ++ repeat [] n)).
Proof. exact (reach_flip _ _ (mime_send n M q b a)). Qed.
Lemma mime_recv_right n (M : list act) (q : proc unit) a b :
  reach (Cfg q (mime (repeat In n ++ M)) (repeat [] n ++ a) b) (Cfg q (mime M) a b).
Proof. exact (reach_flip _ _ (mime_recv n M q b a)). Qed.
(** The two parties of a dialogue fit together. *)
Lemma dialogue_fits R : runs (mime (first_party R)) (mime (second_party R)) (Ok tt) (Ok tt).
Proof.
  unfold runs, initial. induction R as [|[n m] R IH]; [apply reach_refl|].
  unfold second_party in *. cbn [first_party flat_map swap map fst snd]. rewrite <- !app_assoc. fold (first_party R). fold (swap R). fold (first_party (swap R)).
  eapply reach_trans; [apply mime_send|]. eapply reach_trans; [apply mime_send_right|]. cbn [app].
  eapply reach_trans; [rewrite <- (app_nil_r (repeat [] m)); apply mime_recv|].
  eapply reach_trans; [rewrite <- (app_nil_r (repeat [] n)); apply mime_recv_right|]. exact IH.
Qed.

(** ** Two programs that follow the two sides of a dialogue *)
(** As long as neither has ended, they move like the programs without contents. *)
Definition shadowed {A B} (p q : list act) (n k : nat) (c : cfg A B) : Prop :=
  exists L M a b, follows L (left_ c) (fun _ _ => True) /\ follows M (right_ c) (fun _ _ => True) /\
    (k + length L + length M <= n)%nat /\
    ((exists o, left_ c = Done o) \/ (exists o, right_ c = Done o) \/
     (reach (initial (mime p) (mime q)) (Cfg (mime L) (mime M) (repeat [] a) (repeat [] b)) /\ length (lr c) = a /\ length (rl c) = b)).

Lemma reach_snoc_L {A B} (c c1 c2 : cfg A B) : reach c c1 -> stepL c1 = Some c2 -> reach c c2.
Proof. intros H S1. eapply reach_trans; [exact H|]. eapply reach_L; [exact S1|constructor]. Qed.
Lemma reach_snoc_R {A B} (c c1 c2 : cfg A B) : reach c c1 -> stepR c1 = Some c2 -> reach c c2.
Proof. intros H S1. eapply reach_trans; [exact H|]. eapply reach_R; [exact S1|constructor]. Qed.
Lemma shadow_step {A B} p q n k (c c' : cfg A B) : shadowed p q n k c -> step c c' -> shadowed p q n (S k) c'.
Proof.
  intros (L & M & a & b & FL & FM & K & D) St.
  destruct St as [c c' E|c c' E|c c' E|c c' E].
  - destruct c as [l r x y]. unfold stepL in E. cbn [left_ right_ lr rl] in *. destruct l as [o|m l|l]; [discriminate|..].
    + injection E as <-. cbn in FL. destruct FL as (L' & -> & FL). exists L', M, (S a), b. cbn [left_ right_ lr rl length] in *.
      split; [exact FL|]. split; [exact FM|]. split; [lia|]. destruct D as [[o D]|[D|(D & La & Lb)]]; [discriminate|auto|]. right; right.
      split; [|split; [rewrite app_length; cbn; lia|exact Lb]].
      eapply reach_snoc_L; [exact D|]. cbn. now rewrite repeat_snoc.
    + destruct y as [|m y]; [discriminate|]. injection E as <-. cbn in FL. destruct FL as (L' & -> & FL). cbn [length] in *.
      destruct D as [[o D]|[D|(D & La & Lb)]]; [discriminate|..].
      * exists L', M, a, b. cbn. split; [apply FL|]. split; [exact FM|]. split; [lia|]. auto.
      * destruct b as [|b]; [discriminate|]. exists L', M, a, b. cbn. split; [apply FL|]. split; [exact FM|]. split; [lia|]. right; right.
        split; [|split; [exact La|now injection Lb]]. eapply reach_snoc_L; [exact D|]. reflexivity.
  - destruct c as [l r x y]. unfold stepR in E. cbn [left_ right_ lr rl] in *. destruct r as [o|m r|r]; [discriminate|..].
    + injection E as <-. cbn in FM. destruct FM as (M' & -> & FM). exists L, M', a, (S b). cbn [left_ right_ lr rl length] in *.
      split; [exact FL|]. split; [exact FM|]. split; [lia|]. destruct D as [D|[[o D]|(D & La & Lb)]]; [auto|discriminate|]. right; right.
      split; [|split; [exact La|rewrite app_length; cbn; lia]].
      eapply reach_snoc_R; [exact D|]. cbn. now rewrite repeat_snoc.
    + destruct x as [|m x]; [discriminate|]. injection E as <-. cbn in FM. destruct FM as (M' & -> & FM). cbn [length] in *.
      destruct D as [D|[[o D]|(D & La & Lb)]]; [|discriminate|].
      * exists L, M', a, b. cbn. split; [exact FL|]. split; [apply FM|]. split; [lia|]. auto.
      * destruct a as [|a]; [discriminate|]. exists L, M', a, b. cbn. split; [exact FL|]. split; [apply FM|]. split; [lia|]. right; right.
        split; [|split; [now injection La|exact Lb]]. eapply reach_snoc_R; [exact D|]. reflexivity.
  - destruct E as [l o x|m l o x y]; cbn in FL; destruct FL as (L' & -> & FL); cbn [left_ right_ lr rl length] in *; exists L', M, a, b; cbn.
    + split; [apply FL|]. split; [exact FM|]. split; [lia|]. right; left. eauto.
    + split; [exact I|]. split; [exact FM|]. split; [lia|]. eauto.
  - destruct E as [r o x|m r o x y]; cbn in FM; destruct FM as (M' & -> & FM); cbn [left_ right_ lr rl length] in *; exists L, M', a, b; cbn.
    + split; [exact FL|]. split; [apply FM|]. split; [lia|]. eauto.
    + split; [exact FL|]. split; [exact I|]. split; [lia|]. eauto.
Qed.
Lemma shadow_steps {A B} p q n j : forall k (c c' : cfg A B), shadowed p q n k c -> steps j c c' -> shadowed p q n (k + j) c'.
Proof.
  induction j as [|j IH]; intros k c c' H St; inversion St; subst; [now rewrite Nat.add_0_r|].
  replace (k + S j)%nat with (S k + j)%nat by lia. eapply IH; [eapply shadow_step|]; eassumption.
Qed.
Lemma shadow_stuck {A B} p q n k (c : cfg A B) : runs (mime p) (mime q) (Ok tt) (Ok tt) -> shadowed p q n k c ->
  (forall c', ~ step c c') -> exists oa ob, left_ c = Done oa /\ right_ c = Done ob.
Proof.
  intros F (L & M & a & b & FL & FM & _ & D) St. destruct c as [l r x y]. cbn [left_ right_ lr rl] in *.
  destruct l as [ol|m l|l].
  - destruct r as [o|m r|r]; [eauto|..]; exfalso.
    + eapply St. apply step_right. reflexivity.
    + destruct x as [|m x]; [eapply St; apply step_closeR; constructor|eapply St; apply step_right; reflexivity].
  - exfalso. eapply St. apply step_left. reflexivity.
  - exfalso. destruct y as [|m y]; [|eapply St; apply step_left; reflexivity].
    destruct r as [o|m r|r]; [eapply St; apply step_closeL; constructor|eapply St; apply step_right; reflexivity|].
    destruct x as [|m x]; [|eapply St; apply step_right; reflexivity].
    destruct D as [[o D]|[[o D]|(D & La & Lb)]]; try discriminate. cbn in La, Lb. subst a b. cbn [repeat] in D.
    destruct FL as (L' & -> & _). destruct FM as (M' & -> & _).
    destruct (schedule_independent _ _ _ _ F) as (N0 & I0). apply reach_core in D. destruct D as (j & D). apply core_steps in D.
    destruct (I0 _ _ D) as (_ & _ & E). enough (C : Cfg (mime (In :: L')) (mime (In :: M')) [] [] = final (Ok tt) (Ok tt)) by discriminate C.
    apply E. intros c' St'. inversion St' as [? ? H|? ? H|? ? H|? ? H]; subst; try discriminate; inversion H.
Qed.
Lemma dialogue_never_stuck {A B} R (p : proc A) (q : proc B) :
  follows (first_party R) p (fun M _ => M = []) -> follows (second_party R) q (fun M _ => M = []) ->
  never_stuck p q (2 * frames R).
Proof.
  intros Hp Hq k c St.
  assert (H : shadowed (first_party R) (second_party R) (2 * frames R) 0 (initial p q)).
  { exists (first_party R), (second_party R), 0%nat, 0%nat. cbn [initial left_ right_ lr rl length repeat].
    split; [eapply fol_weak; [exact Hp|auto]|]. split; [eapply fol_weak; [exact Hq|auto]|].
    split; [unfold second_party; rewrite !first_length, frames_swap; lia|]. right; right. split; [constructor|auto]. }
  pose proof (shadow_steps _ _ _ _ _ _ _ H St) as H1. split.
  - destruct H1 as (L & M & a & b & _ & _ & K & _). lia.
  - eapply shadow_stuck; [apply dialogue_fits|exact H1].
Qed.
