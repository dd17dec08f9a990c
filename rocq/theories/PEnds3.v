(** How the one-out-of-many OT over the base OT ends for arbitrary messages of the peer. *)
From Coq Require Import List NArith Bool Lia Arith.
From Verif Require Import Base MUtil MPar MBincode MProc MOt MMany.
From Verif Require Import SpecBincode SpecOt SpecMany PBase PUtil PBincode PProc POt PReturns PPads PPads2 SpecEnds SpecEnds3 PEnds PMany CMany.
Import ListNotations.
Open Scope N_scope.

Section Co.
Variable sha : bytes -> bytes.
Variable gen : bytes -> nat -> bytes.
Hypothesis Hgen : generator gen.
Variable G : curve.
Variable p : profile.
Variable rs : nat -> N.

(** What the base OT's receiver returns. *)
Lemma co_value cs m l m' rest pay out : agrees (length cs) m -> points G (length cs) l -> skipn (length cs) l = m' :: rest ->
  deserialize dec_payload m' = Ok pay -> fst (feed (co_receiver sha gen G p rs cs) (m :: l)) = Ok out ->
  length out = length pay /\
  forall i e, nth_error pay i = Some e -> exists c y, nth_error cs i = Some c /\ nth_error out i = Some y /\ length y = length (if c then snd e else fst e).
Proof.
  intros A Hp El Ed E. rewrite feed_feedr in E.
  destruct (feedr (co_receiver sha gen G p rs cs) (m :: l)) as [[o os] r] eqn:F. cbn [fst] in E. subst o.
  unfold co_receiver in F.
  apply feedr_bind_ok in F. destruct F as (u & o1 & r1 & o1' & F1 & F). pose proof (feedr_agree _ l m A) as Q. rewrite Q in F1. injection F1 as <- <- <-.
  apply feedr_bind_ok in F. destruct F as (th & o2 & r2 & o2' & F1 & F). rewrite (feedr_sized _ _ (points_sized _ _ _ Hp)) in F1. injection F1 as <- <- <-.
  apply feedr_bind_ok in F. destruct F as (u3 & o3 & r3 & o3' & F1 & F). cbn [lift feedr] in F1. injection F1 as _ _ <-.
  apply feedr_bind_ok in F. destruct F as (ans & o4 & r4 & o4' & F1 & F). cbn [lift feedr] in F1. injection F1 as _ _ <-.
  apply feedr_bind_ok in F. destruct F as (u5 & o5 & r5 & o5' & F1 & F). rewrite feedr_send_all in F1. injection F1 as _ _ <-.
  rewrite El in F. cbn [pbind recv ret lift feedr] in F. rewrite Ed in F. cbn [feedr] in F. injection F as F _ _.
  assert (Lo : length out = length pay).
  { apply mapM_length in F. rewrite F, combine_length, seq_length. apply Nat.min_id. }
  split; [exact Lo|]. intros i e Hi.
  assert (Li : (i < length pay)%nat) by (apply nth_error_Some; congruence).
  destruct (nth_error out i) as [y|] eqn:Ey; [|apply nth_error_None in Ey; lia].
  destruct (mapM_nth _ _ _ _ _ F Ey) as ([j e'] & Hj & Hf).
  assert (Qi : nth_error (combine (seq 0 (length pay)) pay) i = Some (i, e)).
  { rewrite (nth_error_nth' _ (0%nat, e)) by (rewrite combine_length, seq_length; lia).
    rewrite combine_nth by apply seq_length. rewrite seq_nth by lia. apply nth_error_nth with (d := e) in Hi. rewrite Hi. reflexivity. }
  rewrite Qi in Hj. injection Hj as <- <-.
  unfold idx in Hf. destruct (nth_error cs i) as [c|] eqn:Ec; [|discriminate]. cbn [obind] in Hf.
  destruct (nth_error (map snd ans) i) as [k|] eqn:Ek; [|discriminate]. cbn [obind] in Hf.
  pose proof (eq_trans (eq_sym Hf) (xor_gen gen Hgen p k (if c then snd e else fst e))) as X. injection X as ->.
  eexists _, _. split; [reflexivity|]. split; [reflexivity|].
  rewrite zipWith_length. rewrite (proj1 (Hgen _ _)). apply Nat.min_id.
Qed.

(** *** The one-out-of-many OT *)
Variable fill : bytes -> nat -> bytes.
Hypothesis Hfill : generator fill.

Lemma index_bits_length choice d : length (index_bits choice d) = d.
Proof. unfold index_bits. now rewrite map_length, seq_length. Qed.
Lemma many_choices_bits choice d : (d <= 32)%nat -> many_choices p choice d = Ok (index_bits choice d).
Proof.
  intros H. apply (choices_ok sha fill p p 1 (repeat ([], []) d) [] d 1 H); [apply repeat_length|lia].
Qed.

(** What is left of the receiver once the internal OT has returned [messages]. *)
Definition key_of (messages : list bytes) (i : nat) : outcome bytes :=
  let* m := idx messages i in
  let* _ := debug_assert p (Nat.eqb (length m mod LENGTH) 0) in
  Ok m.
Definition finish (choice : N) (d : nat) (y : bytes) (messages : list bytes) : outcome bytes :=
  let* keys := mapM (key_of messages) (seq 0 d) in
  let* domain_max := shl_one p d in
  let* byte_length := udiv (length y) domain_max in
  let* x := vector_row y (N.to_nat choice) byte_length in
  foldM (fun x i =>
      let* k := idx keys i in
      xor_bytes_inplace p x (fk sha fill k choice byte_length)) (seq 0 d) x.

Lemma lift_bind {A B} (o : outcome A) (f : A -> outcome B) ins :
  feed (let! a := lift o in lift (f a)) ins = feed (lift (let* a := o in f a)) ins.
Proof. destruct o; reflexivity. Qed.
Lemma feed_lift {A} (o : outcome A) ins : fst (feed (lift o) ins) = o.
Proof. destruct o; reflexivity. Qed.
Lemma feed_lift_bind {A B} (o : outcome A) (k : A -> proc B) (f : A -> outcome B) ins :
  (forall a, fst (feed (k a) ins) = f a) -> fst (feed (let! a := lift o in k a) ins) = let* a := o in f a.
Proof. intros H. destruct o; cbn [lift pbind feed obind]; auto. Qed.

Lemma many_receiver_feed internal choice d y l : (d <= 32)%nat ->
  let P := feedr (internal (index_bits choice d)) l in
  fst (feed (many_receiver sha fill p internal choice d) (y :: l)) =
  match fst (fst P) with Ok ms => finish choice d y ms | Err e => Err e | Panic r => Panic r | UB => UB end.
Proof.
  intros Hd P. unfold many_receiver. rewrite many_choices_bits by exact Hd. cbn [lift pbind recv ret feed].
  rewrite feed_bind. fold P. destruct P as [[o out] rest]. cbn [fst]. destruct o as [ms| | |]; try reflexivity.
  cbn [after]. match goal with |- context [feed ?q rest] => assert (E : fst (feed q rest) = finish choice d y ms) end.
  { unfold finish. repeat (apply feed_lift_bind; intros). apply feed_lift. }
  destruct (feed _ rest) as [o' out'] eqn:F. exact E.
Qed.

Lemma udiv_pow n d : udiv n (2 ^ d) = Ok (n / 2 ^ d)%nat.
Proof. unfold udiv. destruct (Nat.eqb_spec (2 ^ d) 0) as [E|E]; [apply Nat.pow_nonzero in E; [destruct E|lia]|reflexivity]. Qed.

Lemma row_fits y d choice : choice < N.of_nat (2 ^ d) ->
  vector_row y (N.to_nat choice) (length y / 2 ^ d) = Ok (firstn (length y / 2 ^ d) (skipn (length y / 2 ^ d * N.to_nat choice) y)) /\
  length (firstn (length y / 2 ^ d) (skipn (length y / 2 ^ d * N.to_nat choice) y)) = (length y / 2 ^ d)%nat.
Proof.
  intros H. assert (K : (S (N.to_nat choice) <= 2 ^ d)%nat) by lia.
  set (w := (length y / 2 ^ d)%nat). assert (B : (2 ^ d * w <= length y)%nat) by (apply Nat.mul_div_le; lia).
  assert (C : (w * N.to_nat choice + w <= length y)%nat).
  { replace (w * N.to_nat choice + w)%nat with (S (N.to_nat choice) * w)%nat by ring.
    apply Nat.le_trans with (2 ^ d * w)%nat; [apply Nat.mul_le_mono_r; exact K|exact B]. }
  unfold vector_row. rewrite (proj2 (Nat.leb_le _ _) C). split; [reflexivity|].
  rewrite firstn_length, skipn_length. apply Nat.min_l. generalize dependent (w * N.to_nat choice)%nat. intros; lia.
Qed.

Lemma finish_good choice d y (ms : list bytes) : (d <= 32)%nat -> choice < N.of_nat (2 ^ d) -> (d <= length ms)%nat ->
  (p = Debug -> forall i m, (i < d)%nat -> nth_error ms i = Some (m : bytes) -> (length m mod 32)%nat = 0%nat) ->
  exists x, finish choice d y ms = Ok x /\ length x = (length y / 2 ^ d)%nat.
Proof.
  intros Hd Hc Hl Hw. unfold finish.
  destruct (mapM_total (key_of ms) (seq 0 d)) as (ks & Ek).
  { intros i Hi. unfold key_of. apply in_seq in Hi. assert (Hi2 : (i < length ms)%nat) by lia. destruct (@idx_some bytes ms i Hi2) as (m & Em & _ & En). rewrite Em. cbn [obind].
    unfold debug_assert, assert_. destruct p eqn:Ep; cbn [is_debug obind]; [|eexists; reflexivity].
    change LENGTH with 32%nat. rewrite (Hw eq_refl i m) by (try exact En; lia). eexists; reflexivity. }
  rewrite Ek. cbn [obind]. rewrite shl_ok by exact Hd. cbn [obind]. rewrite udiv_pow. cbn [obind].
  destruct (row_fits y d choice Hc) as [Er Lr]. rewrite Er. cbn [obind].
  set (w := (length y / 2 ^ d)%nat) in *. clearbody w.
  assert (Lk : length ks = d) by (apply mapM_length in Ek; now rewrite Ek, seq_length).
  revert Lr. generalize (firstn w (skipn (w * N.to_nat choice) y)).
  assert (Hin : forall i, In i (seq 0 d) -> (i < length ks)%nat) by (intros i Hi; apply in_seq in Hi; lia).
  revert Hin. generalize (seq 0 d). intros l. induction l as [|i l IH]; intros Hin b Lb; cbn [foldM]; [eauto|].
  destruct (@idx_some bytes ks i) as (k & Eki & _); [apply Hin; now left|]. rewrite Eki. cbn [obind].
  assert (Lf : length b = length (fk sha fill k choice w)) by (unfold fk; rewrite (proj1 (Hfill _ _)); exact Lb).
  rewrite xor_bytes_inplace_ok by exact Lf. cbn [obind]. apply IH; [intros; apply Hin; now right|].
  rewrite zipWith_length, <- Lf, Nat.min_id. exact Lb.
Qed.

Lemma finish_bad choice d y (ms : list bytes) : 
  ((length ms < d)%nat \/ (p = Debug /\ exists i m, (i < d)%nat /\ nth_error ms i = Some m /\ (length m mod 32)%nat <> 0%nat)) ->
  crashes (finish choice d y ms).
Proof.
  intros H. assert (crashes (mapM (key_of ms) (seq 0 d))) as [r E].
  { apply mapM_crash.
    - apply Forall_forall. intros i _. unfold key_of, idx. destruct (nth_error ms i) as [m|]; [|right; eexists; reflexivity]. cbn [unwrap obind].
      unfold debug_assert, assert_. destruct (is_debug p); [|left; eexists; reflexivity].
      destruct (Nat.eqb (length m mod LENGTH) 0); [left|right]; eexists; reflexivity.
    - apply Exists_exists. destruct H as [H|(Ep & i & m & Hi & Em & Hm)].
      + exists (length ms). split; [apply in_seq; lia|]. unfold key_of. rewrite idx_none by lia. eexists; reflexivity.
      + exists i. split; [apply in_seq; lia|]. unfold key_of, idx. rewrite Em. cbn [unwrap obind]. rewrite Ep. unfold debug_assert, assert_. cbn [is_debug].
        change LENGTH with 32%nat. rewrite (proj2 (Nat.eqb_neq _ _) Hm). eexists; reflexivity. }
  exists r. unfold finish. rewrite E. reflexivity.
Qed.

Lemma whole_dec cs : forall pay, whole_keys cs pay \/ ~ whole_keys cs pay.
Proof.
  induction cs as [|c cs IH]; intros [|e pay]; [left; constructor|right; intros H; inversion H|right; intros H; inversion H|].
  destruct (Nat.eq_dec (length (if c then snd e else fst e) mod 32) 0) as [E|E].
  - destruct (IH pay) as [K|K]; [left; constructor; auto|right; intros H; inversion H; auto].
  - right; intros H; inversion H; auto.
Qed.
Lemma whole_nth cs : forall pay, length pay = length cs ->
  (whole_keys cs pay <-> forall i c e, nth_error cs i = Some c -> nth_error pay i = Some e -> (length (if c then snd e else fst e) mod 32)%nat = 0%nat).
Proof.
  induction cs as [|c cs IH]; intros [|e pay] L; try discriminate.
  - split; [|constructor]. intros _ [|i] c e H; discriminate.
  - injection L as L. specialize (IH pay L). split.
    + intros H. inversion H; subst. intros [|i] c' e' A B; cbn [nth_error] in A, B; [injection A as <-; injection B as <-; assumption|].
      apply (proj1 IH) with (i := i); assumption.
    + intros H. constructor; [exact (H 0%nat c e eq_refl eq_refl)|]. apply IH. intros i c' e' A B. exact (H (S i) c' e' A B).
Qed.
Lemma whole_not cs pay : length pay = length cs -> ~ whole_keys cs pay ->
  exists i c e, nth_error cs i = Some c /\ nth_error pay i = Some e /\ (length (if c then snd e else fst e) mod 32)%nat <> 0%nat.
Proof.
  revert pay. induction cs as [|c cs IH]; intros [|e pay] L H; try discriminate; [destruct H; constructor|].
  injection L as L. destruct (Nat.eq_dec (length (if c then snd e else fst e) mod 32) 0) as [E|E].
  - destruct (IH pay L) as (i & c' & e' & A & B & C). { intros K. apply H. constructor; assumption. }
    exists (S i), c', e'. auto.
  - exists 0%nat, c, e. auto.
Qed.
Lemma last_cases3 cs l : complete p cs l \/ incomplete p cs l \/ unreadable l.
Proof.
  destruct (last_cases (length cs) l) as [(m & rest & pay & E & Ed & _)|[(m & rest & pay & E & Ed & Hl)|H]]; auto.
  - destruct (Nat.eq_dec (length pay) (length cs)) as [L|L].
    + destruct p eqn:Ep.
      * destruct (whole_dec cs pay) as [W|W]; [left|right; left]; exists m, rest, pay; auto.
        split; [exact E|]. split; [exact Ed|]. intros [_ K]. apply W, K. reflexivity.
      * left. exists m, rest, pay. split; [exact E|]. split; [exact Ed|]. split; [exact L|]. discriminate.
    + right; left. exists m, rest, pay. split; [exact E|]. split; [exact Ed|]. tauto.
  - right; left. exists m, rest, pay. split; [exact E|]. split; [exact Ed|]. lia.
Qed.

Theorem many_receiver_ends choice d ins : (d <= 32)%nat -> choice < N.of_nat (2 ^ d) ->
  let cs := index_bits choice d in
  let o := fst (feed (many_receiver sha fill p (co_receiver sha gen G p rs) choice d) ins) in
  (succeeds o <-> exists y m l, ins = y :: m :: l /\ agrees d m /\ points G d l /\ complete p cs (skipn d l)) /\
  (crashes o <-> exists y m l, ins = y :: m :: l /\ agrees d m /\ (points G d l -> incomplete p cs (skipn d l))) /\
  (fails o <-> forall y m l, ins = y :: m :: l -> agrees d m -> points G d l /\ unreadable (skipn d l)) /\
  o <> UB /\
  (forall x, o = Ok x -> exists y l, ins = y :: l /\ length x = (length y / 2 ^ d)%nat).
Proof.
  intros Hd Hc cs o.
  assert (Lc : length cs = d) by apply index_bits_length.
  destruct ins as [|y t].
  { assert (E : fails o) by (exists EClosed; unfold o, many_receiver; rewrite many_choices_bits by exact Hd; reflexivity).
    destruct E as [e E]. rewrite E.
    split; [split; [intros [a K]; discriminate|intros (y & m & l & K & _); discriminate]|].
    split; [split; [intros [a K]; discriminate|intros (y & m & l & K & _); discriminate]|].
    split; [split; [intros _ y m l K; discriminate|intros _; eexists; reflexivity]|].
    split; [discriminate|]. intros x K; discriminate. }
  set (oc := fst (feed (co_receiver sha gen G p rs cs) t)).
  assert (Eo : o = match oc with Ok ms => finish choice d y ms | Err e => Err e | Panic r => Panic r | UB => UB end).
  { unfold o, oc. rewrite many_receiver_feed by exact Hd. cbv zeta. rewrite feed_feedr. reflexivity. }
  destruct (co_receiver_ends sha gen G Hgen p rs cs t) as (HS & HC & HF & HU). fold oc in HS, HC, HF, HU. rewrite Lc in HS, HC, HF.
  assert (Val : forall m l m' rest pay, t = m :: l -> agrees d m -> points G d l -> skipn d l = m' :: rest -> deserialize dec_payload m' = Ok pay ->
    (length pay <= d)%nat -> exists ms, oc = Ok ms /\ length ms = length pay /\
      forall i e, nth_error pay i = Some e -> exists c z, nth_error cs i = Some c /\ nth_error ms i = Some z /\ length z = length (if c then snd e else fst e)).
  { intros m l m' rest pay -> A Hp El Ed Lp.
    assert (succeeds oc) as [ms Ems]. { apply HS. exists m, l. split; [reflexivity|]. split; [exact A|]. split; [exact Hp|]. exists m', rest, pay. auto. }
    exists ms. split; [exact Ems|]. apply (co_value cs m l m' rest pay ms); rewrite ?Lc; auto. }
  assert (Good : (exists y' m l, y :: t = y' :: m :: l /\ agrees d m /\ points G d l /\ complete p cs (skipn d l)) ->
    exists x, o = Ok x /\ length x = (length y / 2 ^ d)%nat).
  { intros (y' & m & l & E & A & Hp & m' & rest & pay & El & Ed & Lp & W). injection E as <- Et.
    destruct (Val m l m' rest pay Et A Hp El Ed) as (ms & Em & Lm & Hm); [lia|]. rewrite Eo, Em.
    apply finish_good; auto; [lia|]. intros Ep i z Hi Hz.
    destruct (nth_error pay i) as [e|] eqn:Ei; [|apply nth_error_None in Ei; lia].
    destruct (Hm i e Ei) as (c & z' & Hci & Hzi & Lz). rewrite Hz in Hzi. injection Hzi as <-. rewrite Lz.
    exact (proj1 (whole_nth cs pay Lp) (W Ep) i c e Hci Ei). }
  assert (Bad : (exists y' m l, y :: t = y' :: m :: l /\ agrees d m /\ (points G d l -> incomplete p cs (skipn d l))) -> crashes o).
  { intros (y' & m & l & E & A & Hi). injection E as <- Et.
    destruct (points_dec G d l) as [Hp|Hp].
    2:{ assert (crashes oc) as [r Er]. { apply HC. exists m, l. split; [exact Et|]. split; [exact A|]. intros K; contradiction. }
        exists r. rewrite Eo, Er. reflexivity. }
    destruct (Hi Hp) as (m' & rest & pay & El & Ed & Hn).
    destruct (le_lt_dec (length pay) d) as [Lp|Lp].
    2:{ assert (crashes oc) as [r Er]. { apply HC. exists m, l. split; [exact Et|]. split; [exact A|]. intros _. exists m', rest, pay. auto. }
        exists r. rewrite Eo, Er. reflexivity. }
    destruct (Val m l m' rest pay Et A Hp El Ed Lp) as (ms & Em & Lm & Hm). rewrite Eo, Em. apply finish_bad.
    destruct (Nat.eq_dec (length pay) d) as [Q|Q]; [right|left; lia].
    rewrite Lc in Hn. destruct p eqn:Ep.
    - split; [reflexivity|]. destruct (whole_not cs pay) as (i & c & e & Hci & Hei & Ne); [congruence|tauto|].
      destruct (Hm i e Hei) as (c' & z & Hci' & Hzi & Lz). rewrite Hci in Hci'. injection Hci' as <-.
      exists i, z. split; [rewrite <- Lc; apply nth_error_Some; congruence|]. split; [exact Hzi|]. now rewrite Lz.
    - exfalso. apply Hn. split; [exact Q|discriminate]. }
  assert (Three : (succeeds o <-> exists y' m l, y :: t = y' :: m :: l /\ agrees d m /\ points G d l /\ complete p cs (skipn d l)) /\
    (crashes o <-> exists y' m l, y :: t = y' :: m :: l /\ agrees d m /\ (points G d l -> incomplete p cs (skipn d l))) /\
    (fails o <-> forall y' m l, y :: t = y' :: m :: l -> agrees d m -> points G d l /\ unreadable (skipn d l)) /\ o <> UB).
  { apply three; [|exact Bad| |].
    - intros H. destruct (Good H) as (x & E & _). exists x. exact E.
    - intros H. assert (fails oc) as [e Ee].
      { apply HF. intros m l E A. apply (H y m l); [now rewrite E|exact A]. }
      exists e. rewrite Eo, Ee. reflexivity.
    - destruct (agree_dec d t) as [(m & l & E & A)|K].
      + destruct (points_dec G d l) as [Hp|Hp].
        * destruct (last_cases3 cs (skipn d l)) as [K|[K|K]].
          -- left. exists y, m, l. rewrite E. auto.
          -- right; left. exists y, m, l. rewrite E. auto.
          -- right; right. intros y' m' l' E' A'. rewrite E in E'. injection E' as _ <- <-. auto.
        * right; left. exists y, m, l. rewrite E. split; [reflexivity|]. split; [exact A|]. intros K; contradiction.
      + right; right. intros y' m l E A. injection E as _ E. exfalso. eauto. }
  destruct Three as (T1 & T2 & T3 & T4). split; [exact T1|]. split; [exact T2|]. split; [exact T3|]. split; [exact T4|].
  intros x Ex. assert (Sx : succeeds o) by (exists x; exact Ex). apply T1 in Sx. destruct (Good Sx) as (x' & Ex' & Lx).
  rewrite Ex in Ex'. injection Ex' as <-. exists y, t. auto.
Qed.

Theorem many_sender_ends cores keys messages d ins : curve_ok G -> key_pairs keys -> length keys = d -> length messages = (2 ^ d)%nat ->
  same_length messages -> fits cores d ->
  let o := fst (feed (many_sender sha fill p cores keys (co_sender sha gen G p rs) messages d) ins) in
  (succeeds o <-> exists m l, ins = m :: l /\ agrees d m /\ points G d l) /\
  (crashes o <-> exists m l, ins = m :: l /\ agrees d m /\ ~ points G d l) /\
  (fails o <-> ~ exists m l, ins = m :: l /\ agrees d m) /\
  o <> UB.
Proof.
  intros HG Hk Lk Lm (s & Hs & Sm) Hfit o.
  assert (Hd : (d <= 32)%nat) by (destruct Hk; lia).
  assert (E : o = fst (feed (co_sender sha gen G p rs keys) ins)).
  { unfold o, many_sender. pose proof (Nat.pow_nonzero 2 d). rewrite (idx_lt messages 0 []) by lia. cbn [lift pbind].
    rewrite (Forall_nth_in _ messages 0 [] Sm) by lia.
    rewrite (y_ok sha fill Hfill p cores keys messages d s Hd Lk Hs Sm) by (try (now apply fits_guard); lia).
    cbn [lift pbind send ret feed]. destruct (feed (co_sender sha gen G p rs keys) ins); reflexivity. }
  rewrite E. pose proof (co_sender_ends sha gen G Hgen HG p rs keys ins) as H. cbv zeta in H. rewrite Lk in H. exact H.
Qed.
End Co.
