(** The index of the 1-of-n OT: hidden from points of the subgroup, open to others. *)
From Coq Require Import List NArith Bool Lia Arith.
From Verif Require Import Base MUtil MWires MCircuit MGarble MPar MBincode MProc MOt MMany MFpake.
From Verif Require Import SpecBincode SpecOt PBase PUtil PBincode PProc POt POtHide.
Import ListNotations.
Open Scope N_scope.

Lemma frames_quiet {A B} (q : proc A) (f : A -> proc B) ins : (forall a, silent (f a)) -> snd (feed (pbind q f) ins) = snd (feed q ins).
Proof.
  intros Hf. rewrite feed_bind, (feed_feedr q). destruct (feedr q ins) as [[o out] rest] eqn:E.
  destruct o as [a|e|r|]; cbn; try apply app_nil_r. specialize (Hf a rest). destruct (feed (f a) rest). cbn in *. rewrite Hf. apply app_nil_r.
Qed.

Definition index_bits (choice : N) (d : nat) : list bool := map (fun i => N.testbit choice (N.of_nat i)) (seq 0 d).
Lemma bit_test choice i : (N.shiftr (N.land choice (N.shiftl 1 i)) i =? 1) = N.testbit choice i.
Proof.
  rewrite N.shiftr_land, N.shiftr_shiftl_l, N.sub_diag, N.shiftl_0_r by lia.
  change 1 with (N.ones 1) at 1. rewrite N.land_ones. change (2 ^ 1) with 2. rewrite <- N.bit0_mod, N.shiftr_spec', N.add_0_l.
  now destruct (N.testbit choice i).
Qed.
Lemma many_choices_small p choice d : (d <= 32)%nat -> many_choices p choice d = Ok (index_bits choice d).
Proof.
  intros H. unfold many_choices, index_bits. apply mapM_Ok. intros i Hi. apply in_seq in Hi.
  rewrite (proj2 (Nat.ltb_lt _ _)) by lia. now rewrite bit_test.
Qed.
Lemma index_bits_length c d : length (index_bits c d) = d.
Proof. unfold index_bits. now rewrite map_length, seq_length. Qed.
Lemma index_bits_inj d c c' : c < 2 ^ N.of_nat d -> c' < 2 ^ N.of_nat d -> index_bits c d = index_bits c' d -> c = c'.
Proof.
  intros H H' E. apply N.bits_inj. intros i. destruct (N.lt_ge_cases i (N.of_nat d)) as [L|L].
  - assert (E' : nth (N.to_nat i) (index_bits c d) (N.testbit c (N.of_nat 0)) = nth (N.to_nat i) (index_bits c' d) (N.testbit c (N.of_nat 0))) by now rewrite E.
    unfold index_bits in E'. rewrite (map_nth (fun i => N.testbit c (N.of_nat i)) _ 0%nat) in E'.
    rewrite (nth_indep _ (N.testbit c (N.of_nat 0)) (N.testbit c' (N.of_nat 0))) in E' by (rewrite map_length, seq_length; lia).
    rewrite (map_nth (fun i => N.testbit c' (N.of_nat i)) _ 0%nat) in E'. rewrite !seq_nth in E' by lia. cbn in E'. now rewrite N2Nat.id in E'.
  - assert (G : forall c, c < 2 ^ N.of_nat d -> N.testbit c i = false).
    { intros x Hx. destruct (N.eq_dec x 0) as [->|Nz]; [apply N.bits_0|]. apply N.bits_above_log2. apply N.lt_le_trans with (N.of_nat d); [|exact L].
      apply N.log2_lt_pow2; lia. }
    now rewrite !G.
Qed.

Section Index.
Variables (sha : bytes -> bytes) (gen fill : bytes -> nat -> bytes) (G : curve).
Hypothesis HG : curve_ok G.
Variable ord : N.
Hypothesis Hord : base_order G ord.
Variable p : profile.

Lemma many_frames internal choice d m ins : (d <= 32)%nat ->
  snd (feed (many_receiver sha fill p internal choice d) (m :: ins)) = snd (feed (internal (index_bits choice d)) ins).
Proof.
  intros Hd. unfold many_receiver. rewrite many_choices_small by exact Hd.
  change (snd (feed (pbind (internal (index_bits choice d)) (fun messages =>
    let! keys := lift (mapM (fun i => let* m := idx messages i in let* _ := debug_assert p (Nat.eqb (length m mod LENGTH) 0) in Ok m) (seq 0 d)) in
    let! domain_max := lift (shl_one p d) in
    let! byte_length := lift (udiv (length m) domain_max) in
    let! x := lift (vector_row m (N.to_nat choice) byte_length) in
    lift (foldM (fun x i => let* k := idx keys i in xor_bytes_inplace p x (fk sha fill k choice byte_length)) (seq 0 d) x))) ins)
   = snd (feed (internal (index_bits choice d)) ins)).
  apply frames_quiet. intros ms. repeat (apply silent_bind; [apply silent_lift|intros]). apply silent_lift.
Qed.

Lemma many_hides d choice choice' (ins : list bytes) : (d <= 32)%nat ->
  (forall i m P, (i < d)%nat -> nth_error ins (S (S i)) = Some m -> decompress G m = Some P -> exists a, P = smul G a (base G)) ->
  exists f g : nat -> N -> N,
    (forall i x, x < ord -> f i x < ord /\ g i x < ord /\ g i (f i x) = x /\ f i (g i x) = x) /\
    forall rs, snd (feed (many_receiver sha fill p (co_receiver sha gen G p rs) choice d) ins) =
               snd (feed (many_receiver sha fill p (co_receiver sha gen G p (fun i => f i (rs i))) choice' d) ins).
Proof.
  intros Hd H. destruct (co_hides sha gen G HG ord Hord p (tl ins) (index_bits choice d) (index_bits choice' d)) as (f & g & Hfg & E).
  { now rewrite !index_bits_length. }
  { rewrite index_bits_length. intros i m P Hi Hm. apply (H i m P Hi). destruct ins; [now destruct i|exact Hm]. }
  exists f, g. split; [exact Hfg|]. intros rs. destruct ins as [|m ins].
  - unfold many_receiver. rewrite !many_choices_small by exact Hd. reflexivity.
  - rewrite !many_frames by exact Hd. apply E.
Qed.

(** ** A point outside the subgroup *)
Variable T : point G.
Hypothesis HT : forall k, T <> smul G k (base G).

Definition probes (n : nat) : list bytes := enc_props (mkProps n chou_orlandi) :: repeat (compress G T) n.

Lemma recv_probes n : feedr (recv_each recv_unwrap from_slice n) (repeat (compress G T) n) = (Ok (repeat (compress G T) n), [], []).
Proof.
  induction n as [|n IH]; [reflexivity|]. cbn -[from_slice]. unfold from_slice at 1. rewrite (co_len G HG), Nat.eqb_refl.
  cbn -[from_slice]. rewrite feedr_bind, IH. reflexivity.
Qed.
Definition answers (rs : nat -> N) (cs : list bool) : list bytes :=
  map (fun ic : nat * bool => compress G (reply G T (snd ic) (rs (fst ic)))) (combine (seq 0 (length cs)) cs).

Lemma send_all_feedr l ins : feedr (send_all l) ins = (Ok tt, l, ins).
Proof. induction l as [|m l IH]; [reflexivity|]. cbn in *. now rewrite IH. Qed.

Lemma probe_view rs cs : usize_ok (length cs) ->
  snd (feed (co_receiver sha gen G p rs cs) (probes (length cs))) = enc_props (mkProps (length cs) chou_orlandi) :: answers rs cs.
Proof.
  intros Hn. set (n := length cs) in *. unfold co_receiver. fold n. unfold probes. rewrite feed_bind.
  assert (V : feedr (validate_properties (mkProps n chou_orlandi)) (enc_props (mkProps n chou_orlandi) :: repeat (compress G T) n)
     = (Ok tt, [enc_props (mkProps n chou_orlandi)], repeat (compress G T) n)).
  { cbn -[deserialize enc_props props_eqb chou_orlandi].
    rewrite (deserialize_reads props_ok enc_props dec_props _ rt_props (name_ok n Hn)).
    cbn -[enc_props props_eqb chou_orlandi]. now rewrite (proj2 (props_eqb_eq _ _) eq_refl). }
  rewrite V. cbn [after]. rewrite feed_bind, recv_probes. cbn [after]. rewrite repeat_length.
  assert (D : debug_assert p (Nat.eqb n n) = Ok tt) by (rewrite Nat.eqb_refl; unfold debug_assert, assert_; now destruct (is_debug p)).
  rewrite D.
  assert (A : mapM (fun ip : nat * bytes => let (i, P) := ip in let* c := idx cs i in co_answer sha G (rs i) c P)
    (combine (seq 0 n) (repeat (compress G T) n)) =
    Ok (map (fun ic : nat * bool => (compress G (reply G T (snd ic) (rs (fst ic))), sha (compress G (smul G (rs (fst ic)) T)))) (combine (seq 0 n) cs))).
  { subst n. assert (K : forall (l pre : list bool), cs = pre ++ l -> mapM (fun ip : nat * bytes => let (i, P) := ip in let* c := idx cs i in co_answer sha G (rs i) c P)
      (combine (seq (length pre) (length l)) (repeat (compress G T) (length l))) =
      Ok (map (fun ic : nat * bool => (compress G (reply G T (snd ic) (rs (fst ic))), sha (compress G (smul G (rs (fst ic)) T)))) (combine (seq (length pre) (length l)) l))).
    { induction l as [|c l IH]; intros pre E; [reflexivity|]. cbn [length seq repeat combine mapM].
      specialize (IH (pre ++ [c])). rewrite app_length, Nat.add_comm in IH. cbn [length Nat.add] in IH. rewrite IH by (rewrite <- app_assoc; exact E).
      assert (I : idx cs (length pre) = Ok c). { unfold idx. rewrite E, nth_error_app2, Nat.sub_diag by lia. reflexivity. }
      rewrite I. cbn [obind]. unfold co_answer. rewrite (co_enc G HG). cbn [unwrap obind]. destruct c; reflexivity. }
    exact (K cs [] eq_refl). }
  rewrite A. unfold lift. cbn [pbind]. rewrite feed_bind, send_all_feedr. cbn -[combine]. rewrite map_map. cbn [fst]. rewrite app_nil_r. reflexivity.
Qed.

Lemma reply_apart x y : compress G (reply G T false x) <> compress G (reply G T true y).
Proof.
  intros E. apply (compress_inj G HG) in E. cbn in E. destruct Hord as [Ho Hz].
  apply (HT (x + (ord - y mod ord))). rewrite smul_add by exact HG. rewrite E.
  assert (M : y mod ord < ord) by (apply N.mod_lt; lia).
  rewrite <- (smul_mod G HG ord y Hord). rewrite <- (co_assoc G HG), <- smul_add by exact HG.
  replace (y mod ord + (ord - y mod ord)) with ord by lia. rewrite Hz. symmetry. now apply g_zero_r.
Qed.
Lemma answers_apart rs rs' cs cs' : length cs = length cs' -> answers rs cs = answers rs' cs' -> cs = cs'.
Proof.
  unfold answers. intros L. rewrite L. generalize 0%nat at 1 2. revert cs' L.
  induction cs as [|c cs IH]; intros [|c' cs'] L k E; cbn in L; try discriminate; [reflexivity|].
  cbn [length seq combine map fst snd] in E. injection E as E0 E. f_equal.
  - destruct c, c'; try reflexivity; exfalso; [symmetry in E0|]; exact (reply_apart _ _ E0).
  - eapply IH; [lia|exact E].
Qed.

Lemma many_open d m choice choice' rs rs' : (d <= 32)%nat -> choice < 2 ^ N.of_nat d -> choice' < 2 ^ N.of_nat d ->
  snd (feed (many_receiver sha fill p (co_receiver sha gen G p rs) choice d) (m :: probes d)) =
  snd (feed (many_receiver sha fill p (co_receiver sha gen G p rs') choice' d) (m :: probes d)) -> choice = choice'.
Proof.
  intros Hd H H' E. rewrite !many_frames in E by exact Hd.
  assert (U : usize_ok d) by (unfold usize_ok; lia).
  assert (V : forall rs c, snd (feed (co_receiver sha gen G p rs (index_bits c d)) (probes d)) = enc_props (mkProps d chou_orlandi) :: answers rs (index_bits c d)).
  { intros r c. pose proof (probe_view r (index_bits c d)) as P. rewrite index_bits_length in P. now apply P. }
  rewrite !V in E. injection E as E. apply answers_apart in E; [|now rewrite !index_bits_length]. now apply (index_bits_inj d).
Qed.
End Index.

Lemma frames_prefix {A B} (q : proc A) (f : A -> proc B) ins : exists rest, snd (feed (pbind q f) ins) = snd (feed q ins) ++ rest.
Proof.
  rewrite feed_bind, (feed_feedr q). destruct (feedr q ins) as [[o out] rest]. cbn. destruct (after o _). cbn. eexists. reflexivity.
Qed.
Lemma answers_length G T rs cs : length (answers G T rs cs) = length cs.
Proof. unfold answers. rewrite map_length, combine_length, seq_length. lia. Qed.

Section Single.
Variables (sha : bytes -> bytes) (gen fill : bytes -> nat -> bytes) (G : curve).
Hypothesis HG : curve_ok G.
Variable ord : N.
Hypothesis Hord : base_order G ord.
Variable p : profile.
Variable T : point G.
Hypothesis HT : forall k, T <> smul G k (base G).
Variable d : nat.
Hypothesis Hd : (d <= 32)%nat.

Lemma many_view m rs choice : snd (feed (many_receiver sha fill p (co_receiver sha gen G p rs) choice d) (m :: probes G T d)) =
  enc_props (mkProps d chou_orlandi) :: answers G T rs (index_bits choice d).
Proof.
  rewrite many_frames by exact Hd. pose proof (probe_view sha gen G HG ord p T HT rs (index_bits choice d)) as P.
  rewrite index_bits_length in P. apply P. unfold usize_ok. lia.
Qed.

Lemma single_open number m index index' rs rs' g g' ots ots' otr otr' pw pw' t t' : log2_ p 32 number = Ok (N.of_nat d) ->
  index < 2 ^ N.of_nat d -> index' < 2 ^ N.of_nat d ->
  snd (feed (mfpake_single sha p g (fun d c => many_receiver sha fill p (co_receiver sha gen G p rs) c d) ots otr pw index number t) (m :: probes G T d)) =
  snd (feed (mfpake_single sha p g' (fun d c => many_receiver sha fill p (co_receiver sha gen G p rs') c d) ots' otr' pw' index' number t') (m :: probes G T d)) ->
  index = index'.
Proof.
  intros El H H' E. unfold mfpake_single in E. rewrite El in E. change (lift (Ok (N.of_nat d))) with (ret (N.of_nat d)) in E. unfold ret in E. cbn [pbind] in E.
  rewrite !Nat2N.id in E.
  match type of E with snd (feed (pbind ?q ?f) ?i) = snd (feed (pbind ?q' ?f') _) =>
    destruct (frames_prefix q f i) as (r1 & E1); destruct (frames_prefix q' f' i) as (r2 & E2) end.
  assert (EE := eq_trans (eq_sym E1) (eq_trans E E2)). clear E E1 E2.
  rewrite !many_view in EE. cbn [app] in EE. injection EE as EE.
  assert (A : answers G T rs (index_bits index d) = answers G T rs' (index_bits index' d)).
  { assert (K : forall (a b x y : list bytes), length a = length b -> a ++ x = b ++ y -> a = b).
    { clear. induction a as [|u a IH]; intros [|v b] x y L E; cbn in *; try discriminate; [reflexivity|]. injection E as -> E. f_equal. eapply IH; eauto. }
    eapply K; [|exact EE]. now rewrite !answers_length, !index_bits_length. }
  apply (answers_apart gen fill G HG ord Hord T HT) in A; [|now rewrite !index_bits_length]. now apply (index_bits_inj d).
Qed.
End Single.
