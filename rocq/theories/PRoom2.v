(** Two programs over a transport with little room (C120). *)
From Coq Require Import List NArith Bool Arith Lia.
From Verif Require Import Base MProc SpecTurns SpecRoom PProc PSizes PTurns PRoom.
Import ListNotations.
Open Scope nat_scope.

(** ** What has been sent and asked for *)
Definition outs (P : list wact) : list (option nat) := flat_map (fun x => match x with Put s => [s] | Get => [] end) P.
Definition gets (P : list wact) : nat := list_sum (map (fun x => match x with Put _ => 0 | Get => 1 end) P).
Lemma outs_app P Q : outs (P ++ Q) = outs P ++ outs Q.
Proof. apply flat_map_app. Qed.
Lemma gets_app P Q : gets (P ++ Q) = gets P + gets Q.
Proof. unfold gets. now rewrite map_app, list_sum_app. Qed.
Lemma outs_put l : outs (map Put l) = l.
Proof. induction l as [|s l IH]; [reflexivity|]. cbn. f_equal. exact IH. Qed.
Lemma gets_put l : gets (map Put l) = 0.
Proof. induction l as [|s l IH]; [reflexivity|]. exact IH. Qed.
Lemma outs_get n : outs (repeat Get n) = [].
Proof. induction n as [|n IH]; [reflexivity|]. exact IH. Qed.
Lemma gets_get n : gets (repeat Get n) = n.
Proof. induction n as [|n IH]; [reflexivity|]. cbn. f_equal. exact IH. Qed.
Lemma balance R : length (outs (wfirst R)) = gets (wsecond R).
Proof.
  induction R as [|[xs ys] R IH]; [reflexivity|]. unfold wsecond in *. cbn [wfirst flat_map wswap map fst snd]. fold (wfirst R). fold (wswap R). fold (wfirst (wswap R)).
  rewrite !outs_app, !gets_app, outs_put, outs_get, gets_put, gets_get, !app_nil_r, app_length. lia.
Qed.
Lemma balance' R : length (outs (wsecond R)) = gets (wfirst R).
Proof. rewrite <- (wfirst_wswap R), balance. now rewrite wsecond_wswap. Qed.

(** ** Both want to send only in a round in which both send *)
Lemma split_round s L T n : forall xs P, P ++ Put s :: L = map Put xs ++ repeat Get n ++ T ->
  (exists x1 x2, xs = x1 ++ s :: x2 /\ P = map Put x1) \/ (exists P', P = map Put xs ++ repeat Get n ++ P' /\ P' ++ Put s :: L = T).
Proof.
  induction xs as [|x xs IH]; intros P E.
  - right. cbn [map app] in *. revert P E. induction n as [|n IHn]; intros P E; [exists P; auto|]. cbn [repeat app] in *.
    destruct P as [|a P]; [discriminate|]. cbn [app] in E. injection E as -> E. destruct (IHn P E) as (P' & -> & E'). exists P'. auto.
  - cbn [map app] in *. destruct P as [|a P]; cbn [app] in E.
    + injection E as -> _. left. exists [], xs. auto.
    + injection E as -> E. destruct (IH P E) as [(x1 & x2 & -> & ->)|(P' & -> & E')]; [left; exists (x :: x1), x2; auto|right; exists P'; auto].
Qed.
Lemma both_send R : forall s s' P L Q M, P ++ Put s :: L = wfirst R -> Q ++ Put s' :: M = wsecond R ->
  gets Q <= length (outs P) -> gets P <= length (outs Q) ->
  exists R0 xs ys R1 x1 x2 y1 y2, R = R0 ++ (xs, ys) :: R1 /\ xs = x1 ++ s :: x2 /\ ys = y1 ++ s' :: y2 /\
    P = wfirst R0 ++ map Put x1 /\ Q = wsecond R0 ++ map Put y1.
Proof.
  induction R as [|[xs ys] R IH]; intros s s' P L Q M EP EQ G1 G2; [now destruct P|].
  unfold wsecond in EQ. cbn [wfirst flat_map wswap map fst snd] in EP, EQ. fold (wfirst R) in EP. fold (wswap R) in EQ. fold (wfirst (wswap R)) in EQ.
  rewrite <- app_assoc in EP, EQ. apply split_round in EP. apply split_round in EQ.
  destruct EP as [(x1 & x2 & Ex & ->)|(P' & -> & EP)], EQ as [(y1 & y2 & Ey & ->)|(Q' & -> & EQ)].
  - exists [], xs, ys, R, x1, x2, y1, y2. repeat split; assumption.
  - exfalso. rewrite !gets_app, gets_put, gets_get, outs_put in G1. rewrite Ex, app_length in G1. cbn in G1. lia.
  - exfalso. rewrite !gets_app, gets_put, gets_get, outs_put in G2. rewrite Ey, app_length in G2. cbn in G2. lia.
  - rewrite !gets_app, !outs_app, !app_length, gets_put, gets_get, outs_put, outs_get in *. cbn [length] in *.
    destruct (IH s s' P' L Q' M EP EQ ltac:(lia) ltac:(lia)) as (R0 & u & v & R1 & x1 & x2 & y1 & y2 & -> & Eu & Ev & -> & ->).
    exists ((xs, ys) :: R0), u, v, R1, x1, x2, y1, y2. split; [reflexivity|]. split; [exact Eu|]. split; [exact Ev|].
    unfold wsecond. cbn [wfirst flat_map wswap map fst snd]. rewrite <- !app_assoc. auto.
Qed.

(** ** Following two programs *)
Definition tracks {A B} (R : rounds) (c : cfg A B) : Prop :=
  (exists o, left_ c = Done o) \/ (exists o, right_ c = Done o) \/
  exists P L Q M, P ++ L = wfirst R /\ Q ++ M = wsecond R /\
    wfollows L (left_ c) (fun _ _ => True) /\ wfollows M (right_ c) (fun _ _ => True) /\
    gets Q <= length (outs P) /\ gets P <= length (outs Q) /\
    Forall2 within (lr c) (skipn (gets Q) (outs P)) /\ Forall2 within (rl c) (skipn (gets P) (outs Q)).
Lemma skipn_snoc {A} (l : list A) x n : n <= length l -> skipn n (l ++ [x]) = skipn n l ++ [x].
Proof. intros H. rewrite skipn_app. now replace (n - length l) with 0 by lia. Qed.
Lemma skipn_more {A} (l : list A) x t n : skipn n l = x :: t -> skipn (n + 1) l = t /\ n + 1 <= length l.
Proof.
  intros E. assert (H : n < length l). { destruct (le_lt_dec (length l) n); [rewrite skipn_all2 in E by assumption; discriminate|assumption]. }
  split; [|lia]. rewrite <- (firstn_skipn n l) at 1. rewrite E, skipn_app, firstn_length, Nat.min_l by lia.
  rewrite skipn_all2 by (rewrite firstn_length; lia). now replace (n + 1 - n) with 1 by lia.
Qed.
Lemma tracks_step {A B} R (c c' : cfg A B) : tracks R c -> step c c' -> tracks R c'.
Proof.
  intros T St. destruct St as [c c' E|c c' E|c c' E|c c' E].
  - destruct c as [l r x y]. unfold stepL in E. cbn [left_ right_ lr rl] in *. destruct l as [o|m l|l]; [discriminate|..].
    + injection E as <-. destruct T as [[o T]|[T|(P & L & Q & M & EP & EQ & FL & FM & G1 & G2 & S1 & S2)]]; [discriminate|right; left; exact T|].
      right; right. cbn [wfollows left_ right_ lr rl] in *. destruct FL as (s & L' & -> & Hm & FL). exists (P ++ [Put s]), L', Q, M.
      rewrite gets_app, outs_app, app_length. cbn [gets outs map list_sum fold_right flat_map app length]. rewrite Nat.add_0_r.
      split; [now rewrite <- app_assoc|]. split; [exact EQ|]. split; [exact FL|]. split; [exact FM|]. split; [lia|]. split; [exact G2|].
      split; [|exact S2]. rewrite skipn_snoc by exact G1. apply Forall2_app; [exact S1|]. constructor; [exact Hm|constructor].
    + destruct y as [|m y]; [discriminate|]. injection E as <-.
      destruct T as [[o T]|[T|(P & L & Q & M & EP & EQ & FL & FM & G1 & G2 & S1 & S2)]]; [discriminate|right; left; exact T|].
      right; right. cbn [wfollows left_ right_ lr rl] in *. destruct FL as (L' & -> & FL). exists (P ++ [Get]), L', Q, M.
      inversion S2 as [|? s ? t Hm S3 Es Et]; subst. symmetry in Et. apply skipn_more in Et as [Et Ht].
      rewrite gets_app, outs_app, app_length. cbn [gets outs map list_sum fold_right flat_map app length]. rewrite !Nat.add_0_r, app_nil_r.
      split; [now rewrite <- app_assoc|]. split; [exact EQ|]. split; [apply FL|]. split; [exact FM|]. split; [lia|]. split; [exact Ht|].
      split; [exact S1|]. cbn [Nat.add]. change (fold_right Nat.add 0 (map (fun x => match x with Put _ => 0 | Get => 1 end) P)) with (gets P) in *. rewrite Et. exact S3.
  - destruct c as [l r x y]. unfold stepR in E. cbn [left_ right_ lr rl] in *. destruct r as [o|m r|r]; [discriminate|..].
    + injection E as <-. destruct T as [T|[[o T]|(P & L & Q & M & EP & EQ & FL & FM & G1 & G2 & S1 & S2)]]; [left; exact T|discriminate|].
      right; right. cbn [wfollows left_ right_ lr rl] in *. destruct FM as (s & M' & -> & Hm & FM). exists P, L, (Q ++ [Put s]), M'.
      rewrite gets_app, outs_app, app_length. cbn [gets outs map list_sum fold_right flat_map app length]. rewrite Nat.add_0_r.
      split; [exact EP|]. split; [now rewrite <- app_assoc|]. split; [exact FL|]. split; [exact FM|]. split; [exact G1|]. split; [lia|].
      split; [exact S1|]. rewrite skipn_snoc by exact G2. apply Forall2_app; [exact S2|]. constructor; [exact Hm|constructor].
    + destruct x as [|m x]; [discriminate|]. injection E as <-.
      destruct T as [T|[[o T]|(P & L & Q & M & EP & EQ & FL & FM & G1 & G2 & S1 & S2)]]; [left; exact T|discriminate|].
      right; right. cbn [wfollows left_ right_ lr rl] in *. destruct FM as (M' & -> & FM). exists P, L, (Q ++ [Get]), M'.
      inversion S1 as [|? s ? t Hm S3 Es Et]; subst. symmetry in Et. apply skipn_more in Et as [Et Ht].
      rewrite gets_app, outs_app, app_length. cbn [gets outs map list_sum fold_right flat_map app length]. rewrite !Nat.add_0_r, app_nil_r.
      split; [exact EP|]. split; [now rewrite <- app_assoc|]. split; [exact FL|]. split; [apply FM|]. split; [exact Ht|]. split; [lia|].
      split; [|exact S2]. cbn [Nat.add]. change (fold_right Nat.add 0 (map (fun x => match x with Put _ => 0 | Get => 1 end) Q)) with (gets Q) in *. rewrite Et. exact S3.
  - destruct E; right; left; cbn; eauto.
  - destruct E; left; cbn; eauto.
Qed.

(** ** Room for the rounds in which both send *)
Definition has_room (h b : nat) (l : list (option nat)) : Prop := exists ns, l = map Some ns /\ list_sum (map (fun n => h + n) ns) <= b.
Definition roomy (h b : nat) (R : rounds) : Prop :=
  Forall (fun r => fst r = [] \/ snd r = [] \/ has_room h b (fst r) \/ has_room h b (snd r)) R.
Lemma room_left h b l q s x1 x2 m : has_room h b l -> l = x1 ++ s :: x2 -> Forall2 within q x1 -> within m s -> used h q + (h + length m) <= b.
Proof.
  intros (ns & -> & Hb) E F Hm.
  assert (U : forall ns x1 q, map Some ns = x1 ++ s :: x2 -> Forall2 within q x1 -> used h q + (h + length m) <= list_sum (map (fun n => h + n) ns)).
  { clear - Hm. induction ns as [|n ns IH]; intros x1 q E F; [now destruct x1|]. cbn [map] in E. destruct x1 as [|x x1]; cbn [app] in E.
    - injection E as <- _. inversion F; subst. cbn in *. lia.
    - injection E as <- E. inversion F as [|a ? q' ? Ha F']; subst. specialize (IH _ _ E F'). cbn [within] in Ha.
      change (h + length a + used h q' + (h + length m) <= h + n + list_sum (map (fun n => h + n) ns)). lia. }
  specialize (U _ _ _ E F). lia.
Qed.
Lemma narrow_is_step {A B} h b (c c' : cfg A B) : narrow_step h b c c' -> step c c'.
Proof.
  intros []; [now apply step_left|now apply step_right|now apply step_left|now apply step_right|now apply step_closeL|now apply step_closeR].
Qed.
Lemma narrow_are_steps {A B} h b n (c c' : cfg A B) : narrow_steps h b n c c' -> steps n c c'.
Proof. induction 1; [constructor|]. econstructor; [eapply narrow_is_step; eassumption|assumption]. Qed.
Lemma tracks_steps {A B} R n (c c' : cfg A B) : steps n c c' -> tracks R c -> tracks R c'.
Proof. induction 1 as [|n c c1 c2 S1 _ IH]; auto. intros T. apply IH. eapply tracks_step; eassumption. Qed.
Lemma room_moves {A B} h b R (m m' : bytes) (l : proc A) (r : proc B) x y : roomy h b R -> tracks R (Cfg (Snd m l) (Snd m' r) x y) ->
  can_put h b m x (Snd m' r) \/ can_put h b m' y (Snd m l).
Proof.
  intros Hr [[o T]|[[o T]|(P & L & Q & M & EP & EQ & FL & FM & G1 & G2 & S1 & S2)]]; [discriminate|discriminate|].
  cbn [left_ right_ lr rl wfollows] in *. destruct FL as (s & L' & -> & Hm & _). destruct FM as (s' & M' & -> & Hm' & _).
  destruct (both_send R s s' P L' Q M' EP EQ G1 G2) as (R0 & xs & ys & R1 & x1 & x2 & y1 & y2 & ER & Ex & Ey & -> & ->).
  rewrite gets_app, outs_app, gets_put, outs_put, Nat.add_0_r in S1, S2. rewrite <- balance in S1. rewrite <- balance' in S2.
  assert (K : forall (u v : list (option nat)), skipn (length u) (u ++ v) = v).
  { intros u v. rewrite skipn_app, skipn_all, Nat.sub_diag. reflexivity. }
  rewrite K in S1, S2. unfold roomy in Hr. rewrite ER in Hr. apply Forall_app in Hr as [_ Hr]. inversion Hr as [|? ? Hh _]; subst. cbn [fst snd] in Hh.
  destruct Hh as [Hh|[Hh|[Hh|Hh]]]; [now destruct x1|now destruct y1|left|right]; left; eapply room_left; eauto.
Qed.
Lemma room_ends {A B} h b R n (p : proc A) (q : proc B) :
  wfollows (wfirst R) p (rest_is []) -> wfollows (wsecond R) q (rest_is []) -> never_stuck p q n -> roomy h b R -> ends_within h b p q n.
Proof.
  intros Hp Hq Hn Hr k c St. pose proof (narrow_are_steps _ _ _ _ _ St) as St'. destruct (Hn k c St') as [Hk Hd]. split; [exact Hk|].
  assert (T : tracks R c).
  { eapply tracks_steps; [exact St'|]. right; right. exists [], (wfirst R), [], (wsecond R). cbn [initial left_ right_ lr rl app].
    repeat split; try (cbn; lia); try constructor; (eapply wf_weak; [eassumption|auto]). }
  intros Stuck. apply Hd. intros c' S. inversion S as [? ? E|? ? E|? ? E|? ? E]; subst.
  - destruct c as [l r x y]. unfold stepL in E. cbn [left_ right_ lr rl] in E. destruct l as [o|m l|l]; [discriminate|..].
    + destruct r as [o|m' r|r].
      * eapply Stuck. apply narrow_close_left. constructor.
      * destruct (room_moves h b R m m' l r x y Hr T); [eapply Stuck, narrow_send_left|eapply Stuck, narrow_send_right]; eassumption.
      * destruct x as [|m' x]; [eapply Stuck, narrow_send_left; right; eauto|eapply Stuck, narrow_recv_right].
    + destruct y as [|m y]; [discriminate|]. eapply Stuck, narrow_recv_left.
  - destruct c as [l r x y]. unfold stepR in E. cbn [left_ right_ lr rl] in E. destruct r as [o|m r|r]; [discriminate|..].
    + destruct l as [o|m' l|l].
      * eapply Stuck. apply narrow_close_right. constructor.
      * destruct (room_moves h b R m' m l r x y Hr T); [eapply Stuck, narrow_send_left|eapply Stuck, narrow_send_right]; eassumption.
      * destruct y as [|m' y]; [eapply Stuck, narrow_send_right; right; eauto|eapply Stuck, narrow_recv_left].
    + destruct x as [|m x]; [discriminate|]. eapply Stuck, narrow_recv_right.
  - eapply Stuck, narrow_close_left. eassumption.
  - eapply Stuck, narrow_close_right. eassumption.
Qed.
