(** How the receiver of the classic OT extension ends for arbitrary messages of the peer. *)
From Coq Require Import List NArith Bool Lia Arith.
From Verif Require Import Base MUtil MWires MBitMatrix MPoly MBincode MProc MOt MApricot MClassic.
From Verif Require Import SpecUtil SpecBitMatrix SpecPoly SpecBincode SpecOt SpecApricot PBase PUtil PBitMatrix PPoly PBincode PProc POt PApricotA PApricot PClassic PReturns SpecEnds PEnds PBounds SpecEnds2 PEnds2 SpecEnds4.
Import ListNotations.
Open Scope N_scope.

Lemma gentle_rows : gentle dec_rows.
Proof. apply gentle_vec, gentle_bytes. Qed.
Lemma zip_min {A B} (f : A -> B -> A) : forall l r, length (zipWith f l r) = Nat.min (length l) (length r).
Proof. induction l as [|x l IH]; intros [|y r]; cbn; auto. Qed.

Lemma finished_dec l : (exists d0 d1, finished l d0 d1) \/ (forall d0 d1, ~ finished l d0 d1).
Proof.
  destruct l as [|u [|m0 [|m1 l]]]; [right; intros d0 d1 (? & ? & ? & ? & E & _); discriminate..|].
  destruct (Nat.eq_dec (length u) 32) as [Lu|Lu]; [|right; intros d0 d1 (? & ? & ? & ? & E & K & _); injection E as <- _ _ _; contradiction].
  destruct (mild_deserialize dec_rows m0 gentle_rows) as [[e0 E0]|[e E0]]; [|right; intros d0 d1 (? & ? & ? & ? & E & _ & K & _); injection E as _ <- _ _; congruence].
  destruct (mild_deserialize dec_rows m1 gentle_rows) as [[e1 E1]|[e E1]]; [|right; intros d0 d1 (? & ? & ? & ? & E & _ & _ & K); injection E as _ _ <- _; congruence].
  left. exists e0, e1, u, m0, m1, l. auto.
Qed.
Lemma peq_trans {A} (q1 q2 q3 : proc A) : peq q1 q2 -> peq q2 q3 -> peq q1 q3.
Proof.
  intros H. revert q3. induction H; intros q3 K; inversion K; subst; constructor; auto.
Qed.

Section Receiver.
Variables (sha : bytes -> bytes) (gen20 gen8 gen : bytes -> nat -> bytes) (G : curve).
Hypothesis gen20_ok : generator gen20.
Hypothesis gen8_ok : generator gen8.
Hypothesis gen_ok : generator gen.
Hypothesis G_ok : curve_ok G.
Variables (p : profile) (a : option arch) (cv : bytes) (bonus : list bool) (seed0 seed1 : list bytes) (rs : nat -> N).
Hypothesis bonus_ok : length bonus = 192%nat.
Hypothesis seed0_ok : seeds_ok seed0.
Hypothesis seed1_ok : seeds_ok seed1.
Variable cs : list bool.
Let n : nat := length cs.

Let recvr : proc (list bytes) := classic_receiver sha gen20 gen8 p a cv bonus seed0 seed1 (co_sender sha gen G p rs) cs.

(** Too few choices, or a number that is no multiple of eight. *)
Lemma classic_few ins : (n < 8)%nat \/ (n mod 8 <> 0)%nat ->
  let o := fst (feed recvr ins) in
  (crashes o <-> exists m l, ins = m :: l /\ greets n m) /\ (fails o <-> ~ exists m l, ins = m :: l /\ greets n m).
Proof.
  intros Hn o. destruct (greet_dec n ins) as [(m & l & -> & Hm)|Hm].
  - assert (C : crashes o).
    { unfold o, recvr, classic_receiver. fold n.
      match goal with |- context [pbind (validate_properties _) ?f] => set (f0 := f) end.
      assert (Q : crashes (fst (feed (f0 tt) l))).
      { unfold f0. unfold BLOCK_SIZE. destruct (Nat.leb_spec 8 n) as [L|L].
        - cbn [assert_ lift pbind]. destruct Hn as [Hn|Hn]; [exfalso; exact (Nat.lt_irrefl _ (Nat.lt_le_trans _ _ _ Hn L))|]. rewrite (proj2 (Nat.eqb_neq _ _) Hn). eexists; reflexivity.
        - eexists; reflexivity. }
      destruct Q as [r Q]. exists r. exact (feed_after _ f0 _ tt _ l _ (feedr_greet n l m Hm) Q). }
    split; [split; [eauto|intros _; exact C]|]. split; [|intros K; exfalso; eauto].
    intros [e E]. destruct C as [r C]. congruence.
  - assert (F : fails o).
    { destruct (feedr_stranger n ins Hm) as (e & out & rst & F). exists e. unfold o, recvr, classic_receiver. eapply feed_errs. exact F. }
    split; [|split; [intros _; exact Hm|intros _; exact F]]. split; [|intros K; contradiction].
    intros [r E]. destruct F as [e F]. congruence.
Qed.

Hypothesis n8 : (8 <= n)%nat.
Hypothesis nmod : (n mod 8 = 0)%nat.

Let rest (_ : unit) : proc (list bytes) :=
  let x := cs ++ bonus in
  let! u := lift (classic_u p (monochrome x COMP_SEC) (expand_rows gen20 (length x) seed0) (expand_rows gen20 (length x) seed1)) in
  let! _ := send (enc_rows u) in
  let! t := lift (transpose (expand_rows gen20 (length x) seed0)) in
  let! _ := receiver_correlation sha gen20 p a cv t x in
  receiver_de_rot sha gen8 p cs t.

Lemma decrypt_any v d0 d1 : (n <= length v)%nat -> exists out, classic_decrypt gen8 p v cs d0 d1 = Ok out /\
  length out = Nat.min n (Nat.min (length d0) (length d1)) /\
  forall i y, nth_error out i = Some y -> length y = length (nth i (if nth i cs false then d1 else d0) []).
Proof.
  intros Lv. set (f := fun vcd : bytes * (bool * (bytes * bytes)) =>
    let '(v, (c, (d0, d1))) := vcd in let d := if c : bool then d1 else d0 in zipWith N.lxor d (gen8 v (length d))).
  set (L := combine v (combine cs (combine d0 d1))).
  exists (map f L). split; [|split].
  - unfold classic_decrypt. apply mapM_Ok. intros [w [c [e0 e1]]] _. cbn [f]. apply xor_bytes_gen. exact gen8_ok.
  - rewrite map_length. unfold L. rewrite !combine_length. fold n. lia.
  - intros i y E. rewrite nth_error_map in E. destruct (nth_error L i) as [[w [c [e0 e1]]]|] eqn:EL; [|discriminate].
    cbn [option_map] in E. injection E as <-. cbn [f].
    assert (Hc : nth i cs false = c /\ nth i d0 [] = e0 /\ nth i d1 [] = e1).
    { assert (Hi : (i < length L)%nat) by (apply nth_error_Some; congruence).
      unfold L in Hi, EL. rewrite !combine_length in Hi.
      clear - EL Hi. revert v cs d0 d1 EL Hi. induction i as [|i IH]; intros [|v0 v] [|c0 cs] [|a0 d0] [|b0 d1] EL Hi; cbn in *; try lia; try discriminate.
      - injection EL as <- <- <- <-. auto.
      - apply IH with (v := v); [exact EL|lia]. }
    destruct Hc as (-> & <- & <-). rewrite zip_length; [|symmetry; apply gen8_ok]. destruct c; reflexivity.
Qed.

Lemma rest_cases l :
  (forall d0 d1, finished l d0 d1 -> exists out, fst (feed (rest tt) l) = Ok out /\ length out = Nat.min n (Nat.min (length d0) (length d1)) /\
     forall i y, nth_error out i = Some y -> length y = length (nth i (if nth i cs false then d1 else d0) [])) /\
  ((forall d0 d1, ~ finished l d0 d1) -> fails (fst (feed (rest tt) l))).
Proof.
  unfold rest. cbv zeta. set (x := cs ++ bonus).
  assert (Lx : length x = (n + 192)%nat) by (unfold x; rewrite app_length, bonus_ok; reflexivity).
  assert (Hl8 : length x = (8 * (length x / 8))%nat).
  { rewrite Lx. apply Nat.div_exact; [lia|]. replace 192%nat with (24 * 8)%nat by lia. rewrite Nat.mod_add; [exact nmod|lia]. }
  assert (D0 : array_ok 16 (repeat 0 16)) by (split; [reflexivity|now apply Forall_repeat]).
  destruct (classic_rows gen20 gen20_ok (repeat 0 16) seed0 seed0 D0 seed0_ok x Hl8) as (t & _ & Et & Lt & Ht & _).
  rewrite classic_u_ok by assumption. cbn [lift pbind send feed]. rewrite fst_sent.
  rewrite Et. unfold receiver_correlation. cbn [lift pbind coinflip_sender send recv ret feed]. rewrite fst_sent.
  destruct l as [|u l].
  { cbn. split; [intros d0 d1 (? & ? & ? & ? & E & _); discriminate|intros _; eexists; reflexivity]. }
  cbn [pbind feed]. destruct (Nat.eqb_spec (length u) 32) as [Lu|Lu]; cbn [negb pbind].
  2:{ cbn. split; [intros d0 d1 (? & ? & ? & ? & E & K & _); injection E as <- _; contradiction|intros _; eexists; reflexivity]. }
  cbn [pbind send feed ret]. rewrite fst_sent.
  match goal with |- context [classic_chi gen20 ?s (length x)] => set (seed := s) end.
  assert (Es : exists xs ts, classic_receiver_sums p a x t (classic_chi gen20 seed (length x)) = Ok (xs, ts)).
  { unfold classic_chi. change (list N) with bytes. rewrite (tabulate t [] (length x) Lt). do 2 eexists.
    refine (classic_sums_ok a p x (fun i => nth i t []) (fun i => firstn 16 (skipn (16 * i) (gen20 seed (16 * length x))) : bytes) (length x) eq_refl Ht _).
    intros i Hi. now apply chi_elem. }
  destruct Es as (xs & ts & Es). rewrite Es. cbn [lift pbind send feed]. rewrite !fst_sent.
  unfold receiver_de_rot. cbv zeta. cbn [pbind recv ret feed].
  set (v := map _ _).
  assert (Lv : (n <= length v)%nat) by (unfold v; rewrite map_length, combine_length, seq_length; lia).
  destruct l as [|m0 l]; [cbn; split; [intros d0 d1 (? & ? & ? & ? & E & _); discriminate|intros _; eexists; reflexivity]|].
  cbn [pbind feed]. destruct (mild_deserialize dec_rows m0 gentle_rows) as [[e0 E0]|[e E0]]; rewrite E0; cbn [lift pbind feed recv ret].
  2:{ cbn. split; [intros d0 d1 (? & ? & ? & ? & E & _ & K & _); injection E; intros; subst; congruence|intros _; eexists; reflexivity]. }
  destruct l as [|m1 l]; [cbn; split; [intros d0 d1 (? & ? & ? & ? & E & _); discriminate|intros _; eexists; reflexivity]|].
  cbn [pbind feed recv ret lift fst snd]. rewrite ?fst_sent. destruct (mild_deserialize dec_rows m1 gentle_rows) as [[e1 E1]|[e E1]]; rewrite E1; cbn [lift pbind feed].
  2:{ cbn. split; [intros d0 d1 (? & ? & ? & ? & E & _ & _ & K); injection E; intros; subst; congruence|intros _; eexists; reflexivity]. }
  destruct (decrypt_any v e0 e1 Lv) as (out & Eo & Lo & So). rewrite Eo. cbn [lift feed fst].
  split; [|intros K; exfalso; apply (K e0 e1); exists u, m0, m1, l; auto].
  intros d0 d1 (u' & m0' & m1' & l' & E & _ & K0 & K1). injection E as <- <- <- <-. rewrite E0 in K0. rewrite E1 in K1. injection K0 as <-. injection K1 as <-.
  exists out. auto.
Qed.

Lemma pairs_128' : length (combine seed0 seed1) = 128%nat.
Proof. rewrite combine_length, (proj1 seed0_ok), (proj1 seed1_ok). reflexivity. Qed.
Lemma greeted_go m l : greets n m -> fst (feed recvr (m :: l)) = fst (feed (pbind (co_sender sha gen G p rs (combine seed0 seed1)) rest) l).
Proof.
  intros Hm. unfold recvr, classic_receiver. fold n.
  match goal with |- context [pbind (validate_properties _) ?f] => set (f0 := f) end.
  assert (Q : fst (feed (f0 tt) l) = fst (feed (pbind (co_sender sha gen G p rs (combine seed0 seed1)) rest) l)).
  { unfold f0. destruct (block_asserts n n8 nmod) as [A1 A2]. rewrite A1. cbn [lift pbind]. rewrite A2. cbn [lift pbind].
    unfold receiver_cote, rest. cbv zeta. set (x := cs ++ bonus).
    f_equal. apply feed_peq. eapply peq_trans; [apply pbind_assoc|]. apply pbind_peq. intros q.
    eapply peq_trans; [apply pbind_assoc|]. apply pbind_peq. intros u.
    eapply peq_trans; [apply pbind_assoc|]. apply peq_refl. }
  rewrite <- Q. apply (feed_after _ f0 _ tt _ l _ (feedr_greet n l m Hm)). reflexivity.
Qed.
Lemma boot_go ins l : bootstrapped G n ins l -> fst (feed recvr ins) = fst (feed (rest tt) l).
Proof.
  intros (l' & (m & b & -> & Hm & Ag) & Pt & ->). rewrite (greeted_go m (b :: l') Hm).
  destruct (co_sender_ends sha gen G gen_ok G_ok p rs (combine seed0 seed1) (b :: l')) as [[_ Su] _]. rewrite pairs_128' in Su.
  destruct (Su ltac:(eauto)) as [[] E]. rewrite feed_feedr in E.
  destruct (feedr (co_sender sha gen G p rs (combine seed0 seed1)) (b :: l')) as [[o1 out1] rest1] eqn:F. cbn in E. subst o1.
  pose proof (holds_rest _ _ 0 _ _ _ _ (holds_co_sender sha gen G p (fun _ _ => True) rs (combine seed0 seed1) 0) F) as [_ R].
  rewrite pairs_128' in R. cbn [Nat.add Nat.sub] in R. change (skipn 129 (b :: l')) with (skipn 128 l') in R. subst rest1.
  eapply feed_after; [exact F|reflexivity].
Qed.

Theorem classic_receiver_ends ins :
  let o := fst (feed recvr ins) in
  (succeeds o <-> exists l d0 d1, bootstrapped G n ins l /\ finished l d0 d1) /\
  (crashes o <-> exists l, hailed n ins l /\ ~ points G 128 l) /\
  (fails o <-> (forall l, ~ hailed n ins l) \/ (exists l, bootstrapped G n ins l /\ forall d0 d1, ~ finished l d0 d1)) /\
  o <> UB.
Proof.
  intros o. apply three.
  - intros (l & d0 & d1 & B & F). destruct (proj1 (rest_cases l) d0 d1 F) as (out & E & _). exists out. unfold o. now rewrite (boot_go ins l B).
  - intros (l & (m & b & -> & Hm & Ag) & Pt). unfold o. rewrite (greeted_go m (b :: l) Hm). apply feed_crashes.
    destruct (co_sender_ends sha gen G gen_ok G_ok p rs (combine seed0 seed1) (b :: l)) as (_ & [_ Cr] & _). rewrite pairs_128' in Cr. apply Cr. eauto.
  - intros [H|(l & B & F)].
    + destruct (greet_dec n ins) as [(m & l & -> & Hm)|Hm].
      * unfold o. rewrite (greeted_go m l Hm). apply feed_fails.
        destruct (co_sender_ends sha gen G gen_ok G_ok p rs (combine seed0 seed1) l) as (_ & _ & [_ Fa] & _). rewrite pairs_128' in Fa. apply Fa.
        intros (b & l' & -> & Ag). apply (H l'). exists m, b. auto.
      * destruct (feedr_stranger n ins Hm) as (e & out & rst & F). exists e. unfold o, recvr, classic_receiver. eapply feed_errs. exact F.
    + unfold o. rewrite (boot_go ins l B). exact (proj2 (rest_cases l) F).
  - destruct (greet_dec n ins) as [(m & l & -> & Hm)|Hm].
    2:{ right; right; left. intros l (m & b & -> & Gm & _). apply Hm. eauto. }
    destruct (agree_dec 128 l) as [(b & l' & -> & Ag)|Na].
    2:{ right; right; left. intros l' (m' & b & E & _ & Ag). injection E as <- ->. apply Na. eauto. }
    assert (Hh : hailed n (m :: b :: l') l') by (exists m, b; auto).
    destruct (points_dec G 128 l') as [Pt|Pt]; [|right; left; eauto].
    assert (B : bootstrapped G n (m :: b :: l') (skipn 128 l')) by (exists l'; auto).
    destruct (finished_dec (skipn 128 l')) as [(d0 & d1 & F)|F]; [left; eauto|right; right; right; eauto].
Qed.
Theorem classic_receiver_sizes ins out : fst (feed recvr ins) = Ok out ->
  exists l d0 d1, bootstrapped G n ins l /\ finished l d0 d1 /\ length out = Nat.min n (Nat.min (length d0) (length d1)) /\
    forall i y, nth_error out i = Some y -> length y = length (nth i (if nth i cs false then d1 else d0) []).
Proof.
  intros E. destruct (classic_receiver_ends ins) as [[K _] _]. destruct (K ltac:(eexists; exact E)) as (l & d0 & d1 & B & F).
  destruct (proj1 (rest_cases l) d0 d1 F) as (out' & E' & Lo & So). rewrite (boot_go ins l B), E' in E. injection E as ->. eauto 8.
Qed.
End Receiver.
