(** The base OT receiver's messages carry no information about its choices. *)
From Coq Require Import List NArith Bool Lia Arith.
From Verif Require Import Base MUtil MBincode MProc MOt SpecBincode SpecOt PBase PUtil PBincode PProc POt.
Import ListNotations.
Open Scope N_scope.

(** Outcomes that agree in the first component (the message) or in the failure. *)
Definition same_fst {A B} (o o' : outcome (A * B)) : Prop :=
  match o, o' with
  | Ok a, Ok b => fst a = fst b
  | Err e, Err e' => e = e'
  | Panic r, Panic r' => r = r'
  | UB, UB => True
  | _, _ => False
  end.
Definition same_fsts {A B} (o o' : outcome (list (A * B))) : Prop :=
  match o, o' with
  | Ok a, Ok b => map fst a = map fst b
  | Err e, Err e' => e = e'
  | Panic r, Panic r' => r = r'
  | UB, UB => True
  | _, _ => False
  end.
Lemma mapM_same_fst {X A B} (f g : X -> outcome (A * B)) l :
  (forall x, In x l -> same_fst (f x) (g x)) -> same_fsts (mapM f l) (mapM g l).
Proof.
  induction l as [|x l IH]; intros H; cbn; auto.
  assert (Hx := H x (or_introl eq_refl)).
  assert (Hl : same_fsts (mapM f l) (mapM g l)) by (apply IH; intros; apply H; now right).
  destruct (f x), (g x); cbn in Hx |- *; try contradiction; auto.
  destruct (mapM f l), (mapM g l); cbn in Hl |- *; try contradiction; auto.
  now rewrite Hx, Hl.
Qed.

Section Hide.
Variable sha : bytes -> bytes.
Variable gen : bytes -> nat -> bytes.
Variable G : curve.
Hypothesis HG : curve_ok G.
Variable ord : N.
Hypothesis Hord : base_order G ord.
Variable p : profile.

(** Secret shift that moves choice c to choice c' for a key a·B. *)
Definition shift (a : N) (c c' : bool) (x : N) : N :=
  match c, c' with
  | true, false => (x + a) mod ord
  | false, true => (x + (ord - a mod ord)) mod ord
  | _, _ => x mod ord
  end.

Lemma shift_lt a c c' x : shift a c c' x < ord.
Proof. destruct Hord. destruct c, c'; cbn; apply N.mod_lt; lia. Qed.
Lemma shift_inv a c c' x : x < ord -> shift a c' c (shift a c c' x) = x.
Proof.
  destruct Hord as [Ho _]. intros Hx.
  assert (M : a mod ord < ord) by (apply N.mod_lt; lia).
  assert (Ea : forall y, (y + a) mod ord = (y + a mod ord) mod ord).
  { intros y. rewrite N.add_mod_idemp_r; lia. }
  destruct c, c'; cbn.
  - rewrite N.mod_mod by lia. now apply N.mod_small.
  - rewrite N.add_mod_idemp_l by lia.
    rewrite <- N.add_assoc, N.add_comm, <- N.add_assoc.
    replace (a + (ord - a mod ord + x)) with ((ord - a mod ord + x) + a) by lia.
    rewrite Ea. replace (ord - a mod ord + x + a mod ord) with (x + 1 * ord) by lia.
    rewrite N.mod_add by lia. now apply N.mod_small.
  - rewrite N.add_mod_idemp_l by lia. rewrite Ea.
    replace (x + (ord - a mod ord) + a mod ord) with (x + 1 * ord) by lia.
    rewrite N.mod_add by lia. now apply N.mod_small.
  - rewrite N.mod_mod by lia. now apply N.mod_small.
Qed.

Definition reply (A : point G) (c : bool) (x : N) : point G :=
  if c then padd G A (smul G x (base G)) else smul G x (base G).
Lemma reply_shift a c c' x :
  reply (smul G a (base G)) c' (shift a c c' x) = reply (smul G a (base G)) c x.
Proof.
  destruct Hord as [Ho Hz].
  assert (M : a mod ord < ord) by (apply N.mod_lt; lia).
  unfold reply, shift. destruct c, c'; rewrite (smul_mod G HG ord _ Hord); auto.
  - rewrite N.add_comm. apply smul_add; exact HG.
  - rewrite <- (smul_mod G HG ord a Hord). rewrite <- smul_add by exact HG.
    replace (a mod ord + (x + (ord - a mod ord))) with (x + ord) by lia.
    rewrite smul_add by exact HG. rewrite Hz. now apply g_zero_r.
Qed.

(** The part of the receiver after its answers sends nothing. *)
Definition silent {A} (q : proc A) : Prop := forall ins, snd (feed q ins) = [].
Lemma silent_lift {A} (o : outcome A) : silent (lift o).
Proof. intros ins; reflexivity. Qed.
Lemma silent_bind {A B} (q : proc A) (f : A -> proc B) : silent q -> (forall a, silent (f a)) -> silent (pbind q f).
Proof.
  intros Hq Hf ins. rewrite feed_bind. pose proof (Hq ins) as E. rewrite feed_feedr in E.
  destruct (feedr q ins) as [[o out] rest]. cbn in E. subst. destruct o; cbn; auto.
  pose proof (Hf a rest) as E'. destruct (feed (f a) rest); cbn in *; auto.
Qed.
Lemma silent_recv : silent recv.
Proof. intros [|m ins]; reflexivity. Qed.

Lemma silent_bind_cong {A B} (q : proc A) (f g : A -> proc B) ins :
  (forall a rest out, feedr q ins = (Ok a, out, rest) -> snd (feed (f a) rest) = snd (feed (g a) rest)) ->
  snd (feed (pbind q f) ins) = snd (feed (pbind q g) ins).
Proof.
  intros H. rewrite !feed_bind. destruct (feedr q ins) as [[o out] rest].
  destruct o; cbn; auto. specialize (H a rest out eq_refl).
  destruct (feed (f a) rest), (feed (g a) rest); cbn in *. now subst.
Qed.

Lemma recv_each_got n : forall ins theirs out rest,
  feedr (recv_each recv_unwrap from_slice n) ins = (Ok theirs, out, rest) ->
  length theirs = n /\ exists tl, ins = theirs ++ tl.
Proof.
  induction n as [|n IH]; intros ins theirs out rest; cbn -[from_slice].
  - intros [= <- <- <-]. split; auto. exists ins; auto.
  - destruct ins as [|m ins]; cbn -[from_slice]; [discriminate|].
    unfold from_slice at 1. destruct (Nat.eqb (length m) 32); cbn -[from_slice]; [|discriminate].
    rewrite feedr_bind. destruct (feedr (recv_each recv_unwrap from_slice n) ins) as [[o o1] r1] eqn:E.
    destruct o as [l| | |]; cbn; try discriminate. intros [= <- <- <-].
    destruct (IH _ _ _ _ E) as [L [tl ->]]. cbn. split; [lia|]. exists tl; reflexivity.
Qed.

(** A key of the peer: the point decoded from message i+1, if any, is a multiple of the base point. *)
Definition multiples (n : nat) (ins : list bytes) : Prop :=
  forall i m P, (i < n)%nat -> nth_error ins (S i) = Some m -> decompress G m = Some P ->
    exists a, P = smul G a (base G).

Lemma choose_logs n ins : multiples n ins ->
  exists a : nat -> N, forall i m P, (i < n)%nat -> nth_error ins (S i) = Some m -> decompress G m = Some P ->
    P = smul G (a i) (base G).
Proof.
  revert n ins. induction n as [|n IH]; intros ins H.
  - exists (fun _ => 0). intros i m P Hi. lia.
  - destruct (IH ins) as [a Ha]. { intros i m P Hi. apply H. lia. }
    assert (L : exists b, forall m P, nth_error ins (S n) = Some m -> decompress G m = Some P -> P = smul G b (base G)).
    { destruct (nth_error ins (S n)) as [m|] eqn:E; [|exists 0; discriminate].
      destruct (decompress G m) as [P|] eqn:E'; [|exists 0; intros m' P [= <-]; congruence].
      destruct (H n m P ltac:(lia) E E') as [b ->]. exists b. intros m' P [= <-]. congruence. }
    destruct L as [b Hb]. exists (fun i => if Nat.eqb i n then b else a i).
    intros i m P Hi E E'. destruct (Nat.eqb_spec i n) as [->|N]; [eauto|]. apply (Ha i m P); auto. lia.
Qed.

Theorem co_hides ins cs cs' : length cs = length cs' -> multiples (length cs) ins ->
  exists f g : nat -> N -> N,
    (forall i x, x < ord -> f i x < ord /\ g i x < ord /\ g i (f i x) = x /\ f i (g i x) = x) /\
    forall rs, snd (feed (co_receiver sha gen G p rs cs) ins) =
               snd (feed (co_receiver sha gen G p (fun i => f i (rs i)) cs') ins).
Proof.
  intros L M. destruct (choose_logs _ _ M) as [a Ha].
  exists (fun i => shift (a i) (nth i cs false) (nth i cs' false)),
         (fun i => shift (a i) (nth i cs' false) (nth i cs false)).
  split.
  { intros i x Hx. repeat split; auto using shift_lt, shift_inv. }
  intros rs. unfold co_receiver. rewrite <- L. set (n := length cs) in *.
  apply silent_bind_cong. intros tu rest out Ev.
  assert (Hins : exists m, ins = m :: rest).
  { unfold validate_properties in Ev. cbn -[deserialize enc_props] in Ev.
    destruct ins as [|m ins]; cbn -[deserialize enc_props] in Ev; [discriminate|]. exists m. f_equal.
    destruct (deserialize dec_props m); cbn -[enc_props] in Ev; try discriminate.
    destruct (props_eqb a0 _); cbn -[enc_props] in Ev; [|discriminate]. congruence. }
  destruct Hins as [m0 ->]. clear Ev out.
  apply silent_bind_cong. intros theirs rest2 out Et.
  destruct (recv_each_got _ _ _ _ _ Et) as [Lt [tl Er]].
  rewrite Lt. fold n.
  apply silent_bind_cong. intros tu3 rest3 out3 E3. 
  set (F := fun ip : nat * bytes => let (i, P) := ip in let* c := idx cs i in co_answer sha G (rs i) c P).
  set (F' := fun ip : nat * bytes => let (i, P) := ip in let* c := idx cs' i in
       co_answer sha G (shift (a i) (nth i cs false) (nth i cs' false) (rs i)) c P).
  assert (S : same_fsts (mapM F (combine (seq 0 n) theirs)) (mapM F' (combine (seq 0 n) theirs))).
  { apply mapM_same_fst. intros [i P] I. unfold F, F'.
    assert (Hi : (i < n)%nat) by (apply in_combine_l in I; apply in_seq in I; lia).
    rewrite (idx_lt cs i false) by exact Hi. rewrite (idx_lt cs' i false) by (rewrite <- L; exact Hi).
    cbn [obind]. unfold co_answer.
    assert (Hn : nth_error rest i = Some P).
    { rewrite Er. rewrite nth_error_app1 by lia.
      assert (K : forall s l, In (i, P) (combine (seq s (length l)) l) -> nth_error l (i - s) = Some P /\ (s <= i)%nat).
      { clear. intros s l; revert s. induction l as [|x l IH]; intros s; cbn; [tauto|].
        intros [[= -> ->]|I]; [rewrite Nat.sub_diag; auto|]. destruct (IH (S s) I) as [E Hs].
        replace (i - s)%nat with (S (i - S s)) by lia. split; [exact E|lia]. }
      rewrite <- Lt in I. destruct (K 0%nat theirs I) as [E _]. now rewrite Nat.sub_0_r in E. }
    destruct (decompress G P) as [A|] eqn:EA; cbn [unwrap obind]; [|reflexivity].
    rewrite (Ha i P A Hi Hn EA). cbn. f_equal. symmetry. apply (reply_shift (a i)). }
  destruct (mapM F _) as [ans|e|r|] eqn:E1, (mapM F' _) as [ans'|e'|r'|] eqn:E2; cbn in S; try contradiction;
    unfold lift; cbn [pbind].
  - rewrite S. apply silent_bind_cong. intros tu4 r4 out4 E4.
    assert (K : forall (cs : list bool) (keys : list bytes), silent (let! m := recv in
      let! payload := lift (deserialize dec_payload m) in
      lift (mapM (fun ie : nat * (bytes * bytes) => let (i, e) := ie in
       let* c := idx cs i in let e := if c then snd e else fst e in
       let* k := idx keys i in xor_bytes p e (gen k (length e))) (combine (seq 0 (length payload)) payload)))).
    { intros cs0 keys. apply silent_bind; [apply silent_recv|]. intros m. apply silent_bind; [apply silent_lift|].
      intros pay. apply silent_lift. }
    etransitivity; [apply (K cs (map snd ans) r4)|symmetry; apply (K cs' (map snd ans'))].
  - reflexivity.
  - reflexivity.
  - reflexivity.
Qed.

End Hide.

(** A point outside the subgroup of the base point separates the two choices. *)
Section Torsion.
Variable sha : bytes -> bytes.
Variable gen : bytes -> nat -> bytes.
Variable G : curve.
Hypothesis HG : curve_ok G.
Variable p : profile.
Variable T : point G.
Hypothesis HT : forall k, T <> smul G k (base G).
Variable ord : N.
Hypothesis Hord : base_order G ord.

Definition attack : list bytes := [enc_props (mkProps 1 chou_orlandi); compress G T].

Lemma attack_view rs c :
  snd (feed (co_receiver sha gen G p rs [c]) attack) =
  [enc_props (mkProps 1 chou_orlandi); compress G (reply G T c (rs 0%nat))].
Proof.
  unfold co_receiver, attack. rewrite feed_bind.
  assert (V : feedr (validate_properties (mkProps (length [c]) chou_orlandi)) [enc_props (mkProps 1 chou_orlandi); compress G T]
     = (Ok tt, [enc_props (mkProps 1 chou_orlandi)], [compress G T])).
  { cbn -[deserialize enc_props props_eqb chou_orlandi].
    rewrite (deserialize_reads props_ok enc_props dec_props _ rt_props (name_ok 1 eq_refl)).
    cbn -[enc_props props_eqb chou_orlandi]. now rewrite (proj2 (props_eqb_eq _ _) eq_refl). }
  rewrite V. cbn [after].
  cbn -[chou_orlandi compress from_slice debug_assert co_answer enc_props recv dec_payload].
  unfold from_slice. rewrite (co_len G HG), Nat.eqb_refl.
  cbn -[chou_orlandi compress debug_assert co_answer enc_props dec_payload].
  unfold debug_assert, assert_. destruct (is_debug p); cbn -[chou_orlandi compress co_answer enc_props dec_payload];
    unfold co_answer; rewrite (co_enc G HG); reflexivity.
Qed.

Theorem torsion_distinguishes rs rs' :
  snd (feed (co_receiver sha gen G p rs [false]) attack) <>
  snd (feed (co_receiver sha gen G p rs' [true]) attack).
Proof.
  rewrite !attack_view. intros E. injection E as E. apply (compress_inj G HG) in E. cbn in E.
  destruct Hord as [Ho Hz].
  set (x := rs 0%nat) in *. set (y := rs' 0%nat) in *.
  apply (HT (x + (ord - y mod ord))).
  rewrite smul_add by exact HG. rewrite E.
  assert (M : y mod ord < ord) by (apply N.mod_lt; lia).
  rewrite <- (smul_mod G HG ord y Hord).
  rewrite <- (co_assoc G HG), <- smul_add by exact HG.
  replace (y mod ord + (ord - y mod ord)) with ord by lia. rewrite Hz. symmetry. now apply g_zero_r.
Qed.
End Torsion.
