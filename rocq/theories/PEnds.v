(** How the base OT ends for arbitrary messages of the peer. *)
From Coq Require Import List NArith Bool Lia Arith.
From Verif Require Import Base MUtil MBincode MProc MOt.
From Verif Require Import SpecBincode SpecOt PBase PBincode PProc POt PReturns SpecEnds.
Import ListNotations.
Open Scope N_scope.

Lemma three {A} (o : outcome A) (P Q R : Prop) : (P -> succeeds o) -> (Q -> crashes o) -> (R -> fails o) -> P \/ Q \/ R ->
  (succeeds o <-> P) /\ (crashes o <-> Q) /\ (fails o <-> R) /\ o <> UB.
Proof.
  intros HP HQ HR H.
  assert (D1 : succeeds o -> crashes o -> False) by (intros [? ->] [? E]; discriminate).
  assert (D2 : succeeds o -> fails o -> False) by (intros [? ->] [? E]; discriminate).
  assert (D3 : crashes o -> fails o -> False) by (intros [? ->] [? E]; discriminate).
  repeat split; auto.
  - intros K. destruct H as [H|[H|H]]; auto; exfalso; eauto.
  - intros K. destruct H as [H|[H|H]]; auto; exfalso; eauto.
  - intros K. destruct H as [H|[H|H]]; auto; exfalso; eauto.
  - intros ->. destruct H as [H|[H|H]]; [destruct (HP H)|destruct (HQ H)|destruct (HR H)]; discriminate.
Qed.

(** Decoders end with a value or an error. *)
Definition mild {A} (o : outcome A) : Prop := succeeds o \/ fails o.
Lemma mild_ok {A} (a : A) : mild (Ok a). Proof. left; eexists; reflexivity. Qed.
Lemma mild_err {A} e : mild (@Err A e). Proof. right; eexists; reflexivity. Qed.
Lemma mild_bind {A B} (o : outcome A) (f : A -> outcome B) : mild o -> (forall a, mild (f a)) -> mild (obind o f).
Proof. intros [[a ->]|[e ->]] H; cbn; [apply H|apply mild_err]. Qed.
Definition gentle {A} (d : parser A) : Prop := forall l, mild (d l).
Lemma mild_take n : forall l, mild (take n l).
Proof.
  induction n as [|n IH]; intros l; cbn; [apply mild_ok|]. destruct l as [|b l]; [apply mild_err|].
  apply mild_bind; [apply IH|]. intros [h t]. apply mild_ok.
Qed.
Lemma gentle_uint k : gentle (dec_uint k).
Proof. intros l. unfold dec_uint. apply mild_bind; [apply mild_take|]. intros [h t]. apply mild_ok. Qed.
Lemma gentle_many {A} (d : parser A) : gentle d -> forall n, gentle (dec_many d n).
Proof.
  intros Hd. induction n as [|n IH]; intros l; cbn; [apply mild_ok|].
  apply mild_bind; [apply Hd|]. intros [a l1]. apply mild_bind; [apply IH|]. intros [r l2]. apply mild_ok.
Qed.
Lemma gentle_vec {A} (d : parser A) : gentle d -> gentle (dec_vec d).
Proof.
  intros Hd l. unfold dec_vec. apply mild_bind; [apply gentle_uint|]. intros [n l1].
  destruct (_ <? _); [apply mild_err|now apply gentle_many].
Qed.
Lemma gentle_bytes : gentle dec_bytes.
Proof. apply gentle_vec, gentle_uint. Qed.
Lemma gentle_props : gentle dec_props.
Proof.
  intros l. unfold dec_props. apply mild_bind.
  { unfold dec_usize. apply mild_bind; [apply gentle_uint|]. intros [n t]. apply mild_ok. }
  intros [n l1]. apply mild_bind; [|intros [s l2]; apply mild_ok]. unfold dec_string.
  apply mild_bind; [apply gentle_bytes|]. intros [s t]. destruct (utf8 s); [apply mild_ok|apply mild_err].
Qed.
Lemma gentle_payload : gentle dec_payload.
Proof.
  apply gentle_vec. intros l. unfold dec_pair. apply mild_bind; [apply gentle_bytes|]. intros [a l1].
  apply mild_bind; [apply gentle_bytes|]. intros [b l2]. apply mild_ok.
Qed.
Lemma mild_deserialize {A} (d : parser A) m : gentle d -> mild (deserialize d m).
Proof. intros H. unfold deserialize. apply mild_bind; [apply H|]. intros [a l]. apply mild_ok. Qed.

(** The negotiation. *)
Lemma feedr_agree n l m : agrees n m ->
  feedr (validate_properties (mkProps n chou_orlandi)) (m :: l) = (Ok tt, [enc_props (mkProps n chou_orlandi)], l).
Proof.
  intros H. cbn [validate_properties pbind send recv ret lift feedr]. rewrite H. cbn [pbind lift].
  rewrite (proj2 (props_eqb_eq _ _) eq_refl). reflexivity.
Qed.
Lemma feedr_disagree n ins : ~ (exists m l, ins = m :: l /\ agrees n m) ->
  exists e out rest, feedr (validate_properties (mkProps n chou_orlandi)) ins = (Err e, out, rest).
Proof.
  intros H. cbn [validate_properties pbind send recv ret lift feedr]. destruct ins as [|m l]; [cbn; eauto|].
  cbn [pbind]. destruct (mild_deserialize dec_props m gentle_props) as [[a E]|[e E]]; rewrite E; cbn [pbind lift]; [|cbn; eauto].
  destruct (props_eqb a _) eqn:Q; [|cbn; eauto]. apply props_eqb_eq in Q. subst a. exfalso; eauto.
Qed.
Lemma agree_dec n ins : (exists m l, ins = m :: l /\ agrees n m) \/ ~ (exists m l, ins = m :: l /\ agrees n m).
Proof.
  destruct ins as [|m l]; [right; intros (? & ? & ? & _); discriminate|].
  destruct (mild_deserialize dec_props m gentle_props) as [[a E]|[e E]].
  - destruct (props_eqb a (mkProps n chou_orlandi)) eqn:Q.
    + apply props_eqb_eq in Q. subst a. left; eauto.
    + right. intros (m' & l' & Ei & A). injection Ei as <- <-. unfold agrees in A. rewrite E in A. injection A as ->.
      rewrite (proj2 (props_eqb_eq _ _) eq_refl) in Q. discriminate.
  - right. intros (m' & l' & Ei & A). injection Ei as <- <-. unfold agrees in A. congruence.
Qed.

(** Receiving points. *)
Definition sized (n : nat) (l : list bytes) : Prop := (n <= length l)%nat /\ Forall (fun m : bytes => length m = 32%nat) (firstn n l).
Lemma sized_dec n l : sized n l \/ ~ sized n l.
Proof.
  destruct (le_lt_dec n (length l)) as [H|H]; [|right; intros [K _]; lia].
  destruct (Forall_dec (fun m : bytes => length m = 32%nat) (fun m => Nat.eq_dec (length m) 32) (firstn n l)) as [F|F];
    [left; split; auto|right; intros [_ K]; auto].
Qed.
Lemma feedr_next n m l : feedr (recv_each recv_unwrap from_slice (S n)) (m :: l) =
  match from_slice m with
  | Ok a => let '(o, out, rest) := feedr (recv_each recv_unwrap from_slice n) l in
            match o with Ok v => (Ok (a :: v), out, rest) | Err e => (Err e, out, rest) | Panic r => (Panic r, out, rest) | UB => (UB, out, rest) end
  | Err e => (Err e, [], l) | Panic r => (Panic r, [], l) | UB => (UB, [], l)
  end.
Proof.
  change (recv_each recv_unwrap from_slice (S n)) with
    (let! m := recv_unwrap in let! a := lift (from_slice m) in let! v := recv_each recv_unwrap from_slice n in ret (a :: v)).
  set (k := recv_each recv_unwrap from_slice n). cbn [recv_unwrap pbind ret feedr]. rewrite feedr_bind. cbn [lift feedr].
  destruct (from_slice m) as [a|e|r|]; [|reflexivity..]. rewrite feedr_bind. destruct (feedr k l) as [[o out] rest].
  destruct o; cbn; rewrite ?app_nil_r; reflexivity.
Qed.
Lemma feedr_sized n : forall l, sized n l -> feedr (recv_each recv_unwrap from_slice n) l = (Ok (firstn n l), [], skipn n l).
Proof.
  induction n as [|n IH]; intros l [H F]; [reflexivity|]. destruct l as [|m l]; [simpl in H; lia|].
  cbn [firstn skipn] in *. inversion F; subst. rewrite feedr_next.
  unfold from_slice at 1. rewrite (proj2 (Nat.eqb_eq _ _)) by assumption.
  rewrite IH by (split; [simpl in H; lia|assumption]). reflexivity.
Qed.
Lemma feedr_unsized n : forall l, ~ sized n l -> exists r rest, feedr (recv_each recv_unwrap from_slice n) l = (Panic r, [], rest).
Proof.
  induction n as [|n IH]; intros l H; [exfalso; apply H; split; [lia|constructor]|].
  destruct l as [|m l]; [cbn; eauto|].
  rewrite feedr_next. unfold from_slice at 1.
  destruct (Nat.eqb (length m) 32) eqn:E; [|eauto]. apply Nat.eqb_eq in E.
  destruct (IH l) as (r & rest & K).
  { intros [L F]. apply H. split; [simpl; lia|]. cbn [firstn]. constructor; assumption. }
  rewrite K. eauto.
Qed.
(** A frame of another length in place of a point: the copy into the array panics. *)
Lemma feedr_bad_length n m l : length m <> 32%nat -> feedr (recv_each recv_unwrap from_slice (S n)) (m :: l) = (Panic PSlice, [], l).
Proof.
  intros H. rewrite feedr_next. unfold from_slice at 1.
  rewrite (proj2 (Nat.eqb_neq _ _)) by assumption. reflexivity.
Qed.

Lemma points_dec G n l : points G n l \/ ~ points G n l.
Proof.
  destruct (le_lt_dec n (length l)) as [H|H]; [|right; intros [K _]; lia].
  destruct (Forall_dec (point_frame G)) with (l := firstn n l) as [F|F];
    [|left; split; auto|right; intros [_ K]; auto].
  intros m. unfold point_frame. destruct (Nat.eq_dec (length m) 32); [|right; tauto].
  destruct (decompress G m); [left; split; [assumption|discriminate]|right; tauto].
Qed.
Lemma points_sized G n l : points G n l -> sized n l.
Proof. intros [L F]. split; [assumption|]. eapply Forall_impl; [|exact F]. now intros m [H _]. Qed.
Lemma sized_no_points G n l : sized n l -> ~ points G n l -> Exists (fun m => decompress G m = None) (firstn n l).
Proof.
  intros [L F] H.
  destruct (Exists_dec (fun m => decompress G m = None) (firstn n l)) as [E|E]; [|exact E|].
  { intros m. destruct (decompress G m); [right; discriminate|left; reflexivity]. }
  exfalso. apply H. split; [assumption|]. apply Forall_forall. intros m Hm. split.
  - rewrite Forall_forall in F. now apply F.
  - intros K. apply E. apply Exists_exists. eauto.
Qed.

Lemma mapM_crash {A B} (f : A -> outcome B) l : Forall (fun a => succeeds (f a) \/ crashes (f a)) l ->
  Exists (fun a => crashes (f a)) l -> crashes (mapM f l).
Proof.
  intros F E. induction l as [|a l IH]; [inversion E|]. inversion F as [|? ? [[b Hb]|[r Hr]] F']; subst; cbn.
  - rewrite Hb. cbn. assert (E' : Exists (fun a => crashes (f a)) l).
    { inversion E as [? ? [r K]|? ? K]; subst; [congruence|exact K]. }
    destruct (IH F' E') as [r ->]. cbn. eexists; reflexivity.
  - rewrite Hr. cbn. eexists; reflexivity.
Qed.
Lemma idx_some {A} (l : list A) i : (i < length l)%nat -> exists a, idx l i = Ok a /\ In a l /\ nth_error l i = Some a.
Proof.
  intros H. unfold idx. destruct (nth_error l i) as [a|] eqn:E; [|apply nth_error_None in E; lia].
  exists a. split; [reflexivity|]. split; [eapply nth_error_In; exact E|reflexivity].
Qed.
Lemma idx_none {A} (l : list A) i : (length l <= i)%nat -> idx l i = Panic PIndex.
Proof. intros H. unfold idx. rewrite (proj2 (nth_error_None l i) H). reflexivity. Qed.

Lemma feed_stops {A B} (p : proc A) (f : A -> proc B) ins r out rest : feedr p ins = (Panic r, out, rest) ->
  fst (feed (pbind p f) ins) = Panic r.
Proof. intros E. rewrite feed_bind, E. reflexivity. Qed.
Lemma feed_errs {A B} (p : proc A) (f : A -> proc B) ins e out rest : feedr p ins = (Err e, out, rest) ->
  fst (feed (pbind p f) ins) = Err e.
Proof. intros E. rewrite feed_bind, E. reflexivity. Qed.

Section CO.
Variable sha : bytes -> bytes.
Variable gen : bytes -> nat -> bytes.
Variable G : curve.
Hypothesis Hgen : generator gen.
Hypothesis HG : curve_ok G.
Variable p : profile.
Variable rs : nat -> N.

Lemma encrypt_good R k m : decompress G R <> None ->
  succeeds (co_encrypt sha gen G p R (compress G (smul G k (base G))) k m).
Proof.
  intros H. unfold co_encrypt. destruct (decompress G R); [|congruence]. cbn [unwrap obind].
  rewrite (co_enc G HG). cbn [unwrap obind]. rewrite !(xor_gen gen Hgen). cbn [obind]. eexists; reflexivity.
Qed.
Lemma encrypt_bad R k m A : decompress G R = None -> co_encrypt sha gen G p R A k m = Panic PUnwrap.
Proof. intros H. unfold co_encrypt. rewrite H. reflexivity. Qed.

Theorem co_sender_ends msgs ins :
  let n := length msgs in
  let o := fst (feed (co_sender sha gen G p rs msgs) ins) in
  (succeeds o <-> exists m l, ins = m :: l /\ agrees n m /\ points G n l) /\
  (crashes o <-> exists m l, ins = m :: l /\ agrees n m /\ ~ points G n l) /\
  (fails o <-> ~ exists m l, ins = m :: l /\ agrees n m) /\
  o <> UB.
Proof.
  intros n o.
  assert (Pay : forall l, sized n l ->
    let work := mapM (fun im : nat * (bytes * bytes) => let (i, m) := im in
      let* R := idx (firstn n l) i in
      let* A := idx (map (fun i => compress G (smul G (rs i) (base G))) (seq 0 n)) i in
      co_encrypt sha gen G p R A (rs i) m) (combine (seq 0 n) msgs) in
    (points G n l -> succeeds work) /\ (~ points G n l -> crashes work)).
  { intros l Hs work.
    assert (Each : forall im, In im (combine (seq 0 n) msgs) -> exists R, nth_error (firstn n l) (fst im) = Some R /\
      (let (i, m) := im in
      let* R := idx (firstn n l) i in
      let* A := idx (map (fun i => compress G (smul G (rs i) (base G))) (seq 0 n)) i in
      co_encrypt sha gen G p R A (rs i) m) = co_encrypt sha gen G p R (compress G (smul G (rs (fst im)) (base G))) (rs (fst im)) (snd im)).
    { intros [i m] Hi. apply in_combine_l, in_seq in Hi. cbn [fst snd].
      destruct (idx_some (firstn n l) i) as (R & ER & _ & NR); [rewrite firstn_length; destruct Hs; lia|].
      exists R. split; [exact NR|]. rewrite ER. cbn [obind]. rewrite idx_map_seq by lia. reflexivity. }
    split.
    - intros [Lp Fp]. apply mapM_total. intros im Him. destruct (Each im Him) as (R & NR & E). rewrite E.
      apply encrypt_good. rewrite Forall_forall in Fp. apply nth_error_In in NR. exact (proj2 (Fp R NR)).
    - intros Hp. apply mapM_crash.
      + apply Forall_forall. intros im Him. destruct (Each im Him) as (R & NR & E). rewrite E.
        destruct (decompress G R) eqn:D; [left; apply encrypt_good; congruence|].
        right. rewrite encrypt_bad by assumption. eexists; reflexivity.
      + pose proof (sized_no_points G n l Hs Hp) as Ex. apply Exists_exists in Ex. destruct Ex as (R & HR & D).
        apply In_nth_error in HR. destruct HR as (i & Hi).
        assert (Li : (i < n)%nat) by (assert (nth_error (firstn n l) i <> None) as K by congruence; apply nth_error_Some in K; rewrite firstn_length in K; lia).
        destruct (nth_error msgs i) as [m|] eqn:Em; [|apply nth_error_None in Em; unfold n in Li; lia].
        assert (Him : In (i, m) (combine (seq 0 n) msgs)).
        { eapply nth_error_In with (n := i). rewrite (nth_error_nth' _ (0%nat, m)) by (rewrite combine_length, seq_length; unfold n in *; lia).
          f_equal. rewrite combine_nth by (rewrite seq_length; reflexivity). f_equal; [rewrite seq_nth by lia; reflexivity|].
          apply nth_error_nth with (d := m) in Em. exact Em. }
        apply Exists_exists. exists (i, m). split; [exact Him|]. destruct (Each _ Him) as (R' & NR & E). cbn [fst] in NR.
        assert (R' = R) by congruence. subst R'. rewrite E. rewrite encrypt_bad by assumption. eexists; reflexivity. }
  assert (Step : forall m l, ins = m :: l -> agrees n m -> (points G n l -> succeeds o) /\ (~ points G n l -> crashes o)).
  { intros m l -> A. unfold o, co_sender. fold n.
    destruct (sized_dec n l) as [Hs|Hs].
    2:{ split; intros Hp; [destruct (Hs (points_sized _ _ _ Hp))|]. destruct (feedr_unsized n l Hs) as (r & rest & E).
        eexists. eapply feed_after; [apply feedr_agree, A|]. eapply feed_after; [apply feedr_send_all|].
        eapply feed_stops. exact E. }
    destruct (Pay l Hs) as [Hy Hn].
    assert (La : Nat.eqb (length (map (fun i => compress G (smul G (rs i) (base G))) (seq 0 n))) (length (firstn n l)) = true).
    { apply Nat.eqb_eq. rewrite map_length, seq_length, firstn_length. destruct Hs; lia. }
    split; intros Hp.
    - destruct (Hy Hp) as [pay Ep]. exists tt. eapply feed_after; [apply feedr_agree, A|]. eapply feed_after; [apply feedr_send_all|].
      eapply feed_after; [apply feedr_sized, Hs|]. eapply feed_after; [cbn [lift feedr]; rewrite La; reflexivity|].
      eapply feed_after; [cbn [lift feedr]; rewrite Ep; reflexivity|]. reflexivity.
    - destruct (Hn Hp) as [r Ep]. exists r. eapply feed_after; [apply feedr_agree, A|]. eapply feed_after; [apply feedr_send_all|].
      eapply feed_after; [apply feedr_sized, Hs|]. eapply feed_after; [cbn [lift feedr]; rewrite La; reflexivity|].
      eapply feed_stops. cbn [lift feedr]. rewrite Ep. reflexivity. }
  apply three.
  - intros (m & l & E & A & Hp). exact (proj1 (Step m l E A) Hp).
  - intros (m & l & E & A & Hp). exact (proj2 (Step m l E A) Hp).
  - intros H. destruct (feedr_disagree n ins H) as (e & out & rest & E). exists e. unfold o, co_sender. fold n.
    eapply feed_errs. exact E.
  - destruct (agree_dec n ins) as [(m & l & E & A)|H]; [|auto]. destruct (points_dec G n l); [left|right; left]; eauto 6.
Qed.

Lemma answer_good k c P : decompress G P <> None -> succeeds (co_answer sha G k c P).
Proof. intros H. unfold co_answer. destruct (decompress G P); [|congruence]. cbn [unwrap obind]. eexists; reflexivity. Qed.
Lemma answer_bad k c P : decompress G P = None -> co_answer sha G k c P = Panic PUnwrap.
Proof. intros H. unfold co_answer. rewrite H. reflexivity. Qed.

Lemma last_cases n l : fitting n l \/ excess n l \/ unreadable l.
Proof.
  destruct l as [|m l]; [right; right; left; reflexivity|].
  destruct (mild_deserialize dec_payload m gentle_payload) as [[pay E]|E].
  - destruct (le_lt_dec (length pay) n); [left|right; left]; repeat eexists; eauto.
  - right; right; right. eauto.
Qed.

Theorem co_receiver_ends cs ins :
  let n := length cs in
  let o := fst (feed (co_receiver sha gen G p rs cs) ins) in
  (succeeds o <-> exists m l, ins = m :: l /\ agrees n m /\ points G n l /\ fitting n (skipn n l)) /\
  (crashes o <-> exists m l, ins = m :: l /\ agrees n m /\ (points G n l -> excess n (skipn n l))) /\
  (fails o <-> forall m l, ins = m :: l -> agrees n m -> points G n l /\ unreadable (skipn n l)) /\
  o <> UB.
Proof.
  intros n o.
  assert (Ans : forall l, sized n l ->
    let work := mapM (fun ip : nat * bytes => let (i, P) := ip in
      let* c := idx cs i in co_answer sha G (rs i) c P) (combine (seq 0 n) (firstn n l)) in
    (points G n l -> exists a, work = Ok a /\ length a = n) /\ (~ points G n l -> crashes work)).
  { intros l Hs work. assert (Lf : length (firstn n l) = n) by (rewrite firstn_length; destruct Hs; lia).
    assert (Each : forall ip, In ip (combine (seq 0 n) (firstn n l)) -> exists c,
      (let (i, P) := ip in let* c := idx cs i in co_answer sha G (rs i) c P) = co_answer sha G (rs (fst ip)) c (snd ip)).
    { intros [i P] Hi. apply in_combine_l, in_seq in Hi. cbn [fst snd].
      destruct (idx_some cs i) as (c & Ec & _); [unfold n in Hi; lia|]. exists c. rewrite Ec. reflexivity. }
    split.
    - intros [Lp Fp]. assert (succeeds work) as [a Ea].
      { apply mapM_total. intros ip Hi. destruct (Each ip Hi) as [c E]. rewrite E. apply answer_good.
        destruct ip as [i P]. apply in_combine_r in Hi. rewrite Forall_forall in Fp. exact (proj2 (Fp P Hi)). }
      exists a. split; [exact Ea|]. apply mapM_length in Ea. rewrite Ea, combine_length, seq_length, Lf. apply Nat.min_id.
    - intros Hp. apply mapM_crash.
      + apply Forall_forall. intros ip Hi. destruct (Each ip Hi) as [c E]. rewrite E.
        destruct (decompress G (snd ip)) eqn:D; [left; apply answer_good; congruence|].
        right. rewrite answer_bad by assumption. eexists; reflexivity.
      + pose proof (sized_no_points G n l Hs Hp) as Ex. apply Exists_exists in Ex. destruct Ex as (R & HR & D).
        apply In_nth_error in HR. destruct HR as (i & Hi).
        assert (Li : (i < n)%nat) by (assert (nth_error (firstn n l) i <> None) as K by congruence; apply nth_error_Some in K; lia).
        assert (Him : In (i, R) (combine (seq 0 n) (firstn n l))).
        { eapply nth_error_In with (n := i). rewrite (nth_error_nth' _ (0%nat, R)) by (rewrite combine_length, seq_length; lia).
          f_equal. rewrite combine_nth by (rewrite seq_length; symmetry; exact Lf). f_equal; [rewrite seq_nth by lia; reflexivity|].
          apply nth_error_nth with (d := R) in Hi. exact Hi. }
        apply Exists_exists. exists (i, R). split; [exact Him|]. destruct (Each _ Him) as (c & E). rewrite E. cbn [fst snd].
        rewrite answer_bad by assumption. eexists; reflexivity. }
  assert (Dec : forall pay (a : list (bytes * bytes)), length a = n ->
    let work := mapM (fun ie : nat * (bytes * bytes) => let (i, e) := ie in
      let* c := idx cs i in let e := if c then snd e else fst e in
      let* k := idx (map snd a) i in xor_bytes p e (gen k (length e))) (combine (seq 0 (length pay)) pay) in
    ((length pay <= n)%nat -> succeeds work) /\ ((n < length pay)%nat -> crashes work)).
  { intros pay a La work.
    assert (Each : forall (i : nat) (e : bytes * bytes), (i < n)%nat -> succeeds (let* c := idx cs i in let e := if c then snd e else fst e in
      let* k := idx (map (@snd bytes bytes) a) i in xor_bytes p e (gen k (length e)))).
    { intros i e Hi. destruct (idx_some cs i) as (c & -> & _); [unfold n in Hi; lia|]. cbn [obind].
      destruct (idx_some (map (@snd bytes bytes) a) i) as (k & -> & _); [rewrite map_length; lia|]. cbn [obind].
      rewrite (xor_gen gen Hgen). eexists; reflexivity. }
    split.
    - intros L. apply mapM_total. intros [i e] Hi. apply in_combine_l, in_seq in Hi. apply Each. lia.
    - intros L. apply mapM_crash.
      + apply Forall_forall. intros [i e] Hi. apply in_combine_l, in_seq in Hi.
        destruct (le_lt_dec n i) as [K|K]; [right|left; apply Each; exact K].
        rewrite idx_none by exact K. eexists; reflexivity.
      + destruct (nth_error pay n) as [e|] eqn:En; [|apply nth_error_None in En; lia].
        apply Exists_exists. exists (n, e). split.
        * eapply nth_error_In with (n := n). rewrite (nth_error_nth' _ (0%nat, e)) by (rewrite combine_length, seq_length; lia).
          f_equal. rewrite combine_nth by (rewrite seq_length; reflexivity). f_equal; [rewrite seq_nth by lia; reflexivity|].
          apply nth_error_nth with (d := e) in En. exact En.
        * rewrite idx_none by (unfold n; lia). eexists; reflexivity. }
  assert (Step : forall m l, ins = m :: l -> agrees n m ->
    (points G n l -> fitting n (skipn n l) -> succeeds o) /\ (points G n l -> unreadable (skipn n l) -> fails o) /\
    (points G n l -> excess n (skipn n l) -> crashes o) /\ (~ points G n l -> crashes o)).
  { intros m l -> A. unfold o, co_receiver. fold n.
    destruct (sized_dec n l) as [Hs|Hs].
    2:{ repeat split; intros Hp; try destruct (Hs (points_sized _ _ _ Hp)). destruct (feedr_unsized n l Hs) as (r & rest & E).
        eexists. eapply feed_after; [apply feedr_agree, A|]. eapply feed_stops. exact E. }
    destruct (Ans l Hs) as [Hy Hn].
    assert (Lf : length (firstn n l) = n) by (rewrite firstn_length; destruct Hs; lia).
    assert (Da : debug_assert p (Nat.eqb n (length (firstn n l))) = Ok tt).
    { unfold debug_assert, assert_. rewrite Lf, Nat.eqb_refl. destruct p; reflexivity. }
    assert (Reach : forall x, points G n l -> (forall a : list (bytes * bytes), length a = n ->
       fst (feed (let! m := recv in let! payload := lift (deserialize dec_payload m) in
         lift (mapM (fun ie : nat * (bytes * bytes) => let (i, e) := ie in
           let* c := idx cs i in let e := if c then snd e else fst e in
           let* k := idx (map snd a) i in xor_bytes p e (gen k (length e))) (combine (seq 0 (length payload)) payload))) (skipn n l)) = x a) ->
       exists a : list (bytes * bytes), length a = n /\
       fst (feed (co_receiver sha gen G p rs cs) (m :: l)) = x a).
    { intros x Hp K. destruct (Hy Hp) as (a & Ea & La). exists a. split; [exact La|]. unfold co_receiver. fold n.
      eapply feed_after; [apply feedr_agree, A|]. eapply feed_after; [apply feedr_sized, Hs|].
      eapply feed_after; [cbn [lift feedr]; rewrite Da; reflexivity|].
      eapply feed_after; [cbn [lift feedr]; rewrite Lf, Ea; reflexivity|].
      eapply feed_after; [apply feedr_send_all|]. exact (K a La). }
    repeat split; try intros Hp.
    - intros (m' & rest & pay & El & Ed & Lp).
      destruct (Reach (fun a => mapM (fun ie : nat * (bytes * bytes) => let (i, e) := ie in
           let* c := idx cs i in let e := if c then snd e else fst e in
           let* k := idx (map snd a) i in xor_bytes p e (gen k (length e))) (combine (seq 0 (length pay)) pay)) Hp) as (a & La & E).
      { intros a La. rewrite El. cbn [pbind recv ret lift feed]. rewrite Ed. reflexivity. }
      pose proof (proj1 (Dec pay a La) Lp) as K. rewrite <- E in K. exact K.
    - intros Hu. destruct Hu as [El|(m' & rest & El & e & Ed)].
      + destruct (Reach (fun _ => Err EClosed) Hp) as (a & _ & E).
        { intros a La. rewrite El. reflexivity. }
        exists EClosed. exact E.
      + destruct (Reach (fun _ => Err e) Hp) as (a & _ & E).
        { intros a La. rewrite El. cbn [pbind recv ret lift feed]. rewrite Ed. reflexivity. }
        exists e. exact E.
    - intros (m' & rest & pay & El & Ed & Lp).
      destruct (Reach (fun a => mapM (fun ie : nat * (bytes * bytes) => let (i, e) := ie in
           let* c := idx cs i in let e := if c then snd e else fst e in
           let* k := idx (map snd a) i in xor_bytes p e (gen k (length e))) (combine (seq 0 (length pay)) pay)) Hp) as (a & La & E).
      { intros a La. rewrite El. cbn [pbind recv ret lift feed]. rewrite Ed. reflexivity. }
      pose proof (proj2 (Dec pay a La) Lp) as K. rewrite <- E in K. exact K.
    - destruct (Hn Hp) as [r Er]. exists r. eapply feed_after; [apply feedr_agree, A|].
      eapply feed_after; [apply feedr_sized, Hs|].
      eapply feed_after; [cbn [lift feedr]; rewrite Da; reflexivity|].
      eapply feed_stops. cbn [lift feedr]. rewrite Lf, Er. reflexivity. }
  apply three.
  - intros (m & l & E & A & Hp & Hf). exact (proj1 (Step m l E A) Hp Hf).
  - intros (m & l & E & A & Hp). destruct (points_dec G n l) as [K|K].
    + exact (proj1 (proj2 (proj2 (Step m l E A))) K (Hp K)).
    + exact (proj2 (proj2 (proj2 (Step m l E A))) K).
  - intros H. destruct (agree_dec n ins) as [(m & l & E & A)|K].
    + destruct (H m l E A) as [Hp Hu]. exact (proj1 (proj2 (Step m l E A)) Hp Hu).
    + destruct (feedr_disagree n ins K) as (e & out & rest & E). exists e. unfold o, co_receiver. fold n.
      eapply feed_errs. exact E.
  - destruct (agree_dec n ins) as [(m & l & E & A)|H].
    + destruct (points_dec G n l) as [Hp|Hp].
      * destruct (last_cases n (skipn n l)) as [K|[K|K]].
        -- left. exists m, l. auto.
        -- right; left. exists m, l. auto.
        -- right; right. intros m' l' E' A'. rewrite E in E'. injection E' as <- <-. auto.
      * right; left. exists m, l. split; [exact E|]. split; [exact A|]. intros K; contradiction.
    + right; right. intros m l E A. exfalso. eauto.
Qed.

Lemma co_bad_length msgs cs m x l : length x <> 32%nat ->
  (msgs <> [] -> agrees (length msgs) m -> fst (feed (co_sender sha gen G p rs msgs) (m :: x :: l)) = Panic PSlice) /\
  (cs <> [] -> agrees (length cs) m -> fst (feed (co_receiver sha gen G p rs cs) (m :: x :: l)) = Panic PSlice).
Proof.
  clear Hgen HG. intros Hx. split; intros Hn A.
  - unfold co_sender. destruct msgs as [|y msgs]; [congruence|]. eapply feed_after; [apply feedr_agree, A|].
    eapply feed_after; [apply feedr_send_all|]. eapply feed_stops. exact (feedr_bad_length (length msgs) x l Hx).
  - unfold co_receiver. destruct cs as [|y cs]; [congruence|]. eapply feed_after; [apply feedr_agree, A|].
    eapply feed_stops. exact (feedr_bad_length (length cs) x l Hx).
Qed.
End CO.
