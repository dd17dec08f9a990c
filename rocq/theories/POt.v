(** Proofs about negotiation, coin flip and the base OT. *)
From Coq Require Import List NArith Bool Lia Arith.
From Verif Require Import Base MUtil MBincode MProc MOt SpecBincode SpecOt PBase PUtil PBincode PProc.
Import ListNotations.
Open Scope N_scope.

Lemma props_eqb_eq a b : props_eqb a b = true <-> a = b.
Proof.
  destruct a as [n s], b as [m t]; unfold props_eqb; cbn [pr_size pr_protocol].
  rewrite andb_true_iff, Nat.eqb_eq, bytes_eqb_eq. split; [intros [-> ->]; auto|intros [= -> ->]; auto].
Qed.
Lemma props_eqb_sym a b : props_eqb a b = props_eqb b a.
Proof.
  destruct (props_eqb a b) eqn:E, (props_eqb b a) eqn:E'; auto.
  - apply props_eqb_eq in E; subst. rewrite (proj2 (props_eqb_eq b b) eq_refl) in E'; discriminate.
  - apply props_eqb_eq in E'; subst. rewrite (proj2 (props_eqb_eq a a) eq_refl) in E; discriminate.
Qed.

Lemma validate_runs a b : props_ok a -> props_ok b ->
  let o := if props_eqb a b then Ok tt else Err EBadProperties in
  runs (validate_properties a) (validate_properties b) o o.
Proof.
  intros Ha Hb o. apply runs_exchange. cbn -[deserialize props_eqb enc_props].
  rewrite (deserialize_reads props_ok enc_props dec_props b rt_props Hb).
  rewrite (deserialize_reads props_ok enc_props dec_props a rt_props Ha). cbn -[props_eqb].
  unfold o. rewrite (props_eqb_sym b a). destruct (props_eqb a b); apply runs_done.
Qed.
Lemma validate_same a : props_ok a -> runs (validate_properties a) (validate_properties a) (Ok tt) (Ok tt).
Proof.
  intros Ha. pose proof (validate_runs a a Ha Ha) as H. cbv zeta in H.
  now rewrite (proj2 (props_eqb_eq a a) eq_refl) in H.
Qed.

(** ** Coin flip *)
Lemma xor_comm a b : xor_arrays a b = xor_arrays b a.
Proof. unfold xor_arrays. apply zipWith_comm. intros; apply N.lxor_comm. Qed.
Lemma lxor_byte a b : byte_ok a -> byte_ok b -> byte_ok (N.lxor a b).
Proof.
  unfold byte_ok. intros Ha Hb. change 256 with (2 ^ 8) in *.
  destruct (N.eq_dec (N.lxor a b) 0) as [E|E]; [rewrite E; lia|].
  apply N.log2_lt_pow2; [lia|].
  eapply N.le_lt_trans; [apply N.log2_lxor|]. 
  apply N.max_lub_lt.
  - destruct (N.eq_dec a 0) as [->|]; [cbn; lia|]. apply N.log2_lt_pow2; lia.
  - destruct (N.eq_dec b 0) as [->|]; [cbn; lia|]. apply N.log2_lt_pow2; lia.
Qed.
Lemma xor_bytes_okay a b : bytes_ok a -> bytes_ok b -> bytes_ok (zipWith N.lxor a b).
Proof. intros Ha Hb. eapply Forall_zipWith; [|exact Ha|exact Hb]. intros; now apply lxor_byte. Qed.

Lemma coinflip_runs sha n v u : length v = n -> length u = n ->
  runs (coinflip_sender sha n v) (coinflip_receiver sha n u) (Ok (xor_arrays v u)) (Ok (xor_arrays v u)).
Proof.
  intros Lv Lu. unfold coinflip_sender, coinflip_receiver.
  apply runs_send_recv. apply runs_recv_send. rewrite Lu, Nat.eqb_refl. cbn [negb].
  apply runs_send_recv. rewrite Lv, Nat.eqb_refl, bytes_eqb_refl. cbn [negb].
  rewrite (xor_comm u v). apply runs_ret.
Qed.

Lemma coinflip_receiver_feed sha n u ins :
  fst (feed (coinflip_receiver sha n u) ins) =
  match ins with
  | commit :: v :: _ =>
      if Nat.eqb (length v) n then
        if bytes_eqb commit (sha v) then Ok (xor_arrays u v) else Err ECoinflipHash
      else Err ECoinflipLen
  | _ => Err EClosed
  end.
Proof.
  destruct ins as [|c [|v r]]; cbn; auto.
  destruct (Nat.eqb (length v) n); cbn; auto. destruct (bytes_eqb c (sha v)); reflexivity.
Qed.
Lemma coinflip_sender_feed sha n v ins :
  feed (coinflip_sender sha n v) ins =
  match ins with
  | u :: _ => if Nat.eqb (length u) n then (Ok (xor_arrays v u), [sha v; v]) else (Err ECoinflipLen, [sha v])
  | _ => (Err EClosed, [sha v])
  end.
Proof. destruct ins as [|u r]; cbn; auto. destruct (Nat.eqb (length u) n); reflexivity. Qed.

(** ** Group facts *)
Section Group.
Variable G : curve.
Hypothesis HG : curve_ok G.
Notation "a + b" := (padd G a b).

Lemma g_zero_r P : P + pzero G = P.
Proof. rewrite (co_comm G HG). apply (co_zero G HG). Qed.
Lemma g_cancel P Q : P + Q + pneg G P = Q.
Proof.
  rewrite (co_comm G HG P Q), <- (co_assoc G HG), (co_comm G HG P).
  rewrite (co_neg G HG). apply g_zero_r.
Qed.
Lemma g_cancel_l P Q R : P + Q = P + R -> Q = R.
Proof. intros E. rewrite <- (g_cancel P Q), E. apply g_cancel. Qed.
Lemma smul_0 P : smul G 0 P = pzero G.
Proof. reflexivity. Qed.
Lemma smul_succ k P : smul G (N.succ k) P = P + smul G k P.
Proof. unfold smul. now rewrite N.iter_succ. Qed.
Lemma smul_add a b P : smul G (N.add a b) P = smul G a P + smul G b P.
Proof.
  induction a as [|a IH] using N.peano_ind.
  - rewrite N.add_0_l, smul_0. now rewrite (co_zero G HG).
  - rewrite N.add_succ_l, !smul_succ, IH. apply (co_assoc G HG).
Qed.
Lemma smul_mul a b P : smul G a (smul G b P) = smul G (a * b) P.
Proof.
  induction a as [|a IH] using N.peano_ind.
  - reflexivity.
  - rewrite smul_succ, IH, N.mul_succ_l, N.add_comm. symmetry. apply smul_add.
Qed.
Lemma smul_comm a b P : smul G a (smul G b P) = smul G b (smul G a P).
Proof. rewrite !smul_mul. f_equal. apply N.mul_comm. Qed.
Lemma smul_zero a : smul G a (pzero G) = pzero G.
Proof.
  induction a as [|a IH] using N.peano_ind; [reflexivity|]. rewrite smul_succ, IH. apply g_zero_r.
Qed.
Lemma smul_mod ord k : base_order G ord -> smul G (k mod ord) (base G) = smul G k (base G).
Proof.
  intros [Ho Hz]. rewrite (N.div_mod' k ord) at 2.
  rewrite smul_add, N.mul_comm, <- smul_mul, Hz, smul_zero. now rewrite (co_zero G HG).
Qed.
Lemma sub_add A B : psub G (A + B) A = B.
Proof. apply g_cancel. Qed.
Lemma compress_inj P Q : compress G P = compress G Q -> P = Q.
Proof.
  intros E. assert (H : Some P = Some Q) by (rewrite <- (co_enc G HG P), <- (co_enc G HG Q); congruence).
  now injection H.
Qed.
End Group.

(** ** Chou-Orlandi *)
Lemma runs_batch_n {A} rx (f : bytes -> outcome A) ms vs n :
  is_rx rx -> length ms = n -> Forall2 (fun m v => f m = Ok v) ms vs ->
  runs (send_all ms) (recv_each rx f n) (Ok tt) (Ok vs).
Proof. intros R <- H. now apply runs_batch. Qed.

Lemma Forall2_same {A} (R : A -> A -> Prop) l : Forall (fun a => R a a) l -> Forall2 R l l.
Proof. induction 1; constructor; auto. Qed.

Lemma mapM_enum {A B} (f : nat * A -> outcome B) (g : nat -> A -> B) l :
  (forall i a, nth_error l i = Some a -> f (i, a) = Ok (g i a)) ->
  mapM f (combine (seq 0 (length l)) l) = Ok (map (fun ia => g (fst ia) (snd ia)) (combine (seq 0 (length l)) l)).
Proof.
  intros H. apply mapM_Ok.
  assert (G : forall s, (forall i a, nth_error l i = Some a -> f ((s + i)%nat, a) = Ok (g (s + i)%nat a)) ->
    Forall (fun ia => f ia = Ok (g (fst ia) (snd ia))) (combine (seq s (length l)) l)).
  { clear H. induction l as [|a l IH]; intros s H; cbn; constructor.
    - specialize (H 0%nat a eq_refl). now rewrite Nat.add_0_r in H.
    - apply (IH (S s)). intros i b E. specialize (H (S i) b E). now rewrite Nat.add_succ_r in H. }
  intros [i a] I. specialize (G 0%nat (fun i a E => H i a E)).
  rewrite Forall_forall in G. now apply G.
Qed.

Lemma enum_nth {A B} (g : nat -> A -> B) l i a : nth_error l i = Some a ->
  nth_error (map (fun ia => g (fst ia) (snd ia)) (combine (seq 0 (length l)) l)) i = Some (g i a).
Proof.
  intros H.
  assert (G : forall l s i a, nth_error l i = Some a ->
    nth_error (map (fun ia => g (fst ia) (snd ia)) (combine (seq s (length l)) l)) i = Some (g (s + i)%nat a)).
  { clear. induction l as [|b l IH]; intros s [|i] a; cbn; try discriminate.
    - intros [= ->]. now rewrite Nat.add_0_r.
    - intros H. rewrite (IH (S s) i a H). now rewrite Nat.add_succ_r. }
  now apply (G l 0%nat).
Qed.
Lemma enum_length {A B} (g : nat -> A -> B) l :
  length (map (fun ia => g (fst ia) (snd ia)) (combine (seq 0 (length l)) l)) = length l.
Proof. rewrite map_length, combine_length, seq_length. apply Nat.min_id. Qed.

Section CO.
Variable sha : bytes -> bytes.
Variable gen : bytes -> nat -> bytes.
Variable G : curve.
Hypothesis Hgen : generator gen.
Hypothesis HG : curve_ok G.
Variables p p' : profile.
Variables ra rb : nat -> N.

Let A i := compress G (smul G (ra i) (base G)).
Let R (c : bool) i := compress G (if c then padd G (smul G (ra i) (base G)) (smul G (rb i) (base G)) else smul G (rb i) (base G)).
Let key i := sha (compress G (smul G (rb i) (smul G (ra i) (base G)))).
Let key1 (c : bool) i :=
  sha (compress G (smul G (ra i) (psub G (if c then padd G (smul G (ra i) (base G)) (smul G (rb i) (base G)) else smul G (rb i) (base G)) (smul G (ra i) (base G))))).
Let key0 (c : bool) i :=
  sha (compress G (smul G (ra i) (if c then padd G (smul G (ra i) (base G)) (smul G (rb i) (base G)) else smul G (rb i) (base G)))).
Let enc (k m : bytes) : bytes := zipWith N.lxor m (gen k (length m)).

Lemma co_keys (c : bool) i : (if c then key1 c i else key0 c i) = key i.
Proof.
  unfold key1, key0, key. destruct c.
  - rewrite sub_add by exact HG. now rewrite smul_comm.
  - now rewrite smul_comm.
Qed.
Lemma enc_twice k m : enc k (enc k m) = m.
Proof.
  unfold enc. rewrite zipWith_length. destruct (Hgen k (length m)) as [L _]. rewrite L, Nat.min_id.
  apply zipWith_xor_twice. symmetry; exact L.
Qed.
Lemma enc_blob k m : blob_ok m -> blob_ok (enc k m).
Proof.
  intros [L B]. destruct (Hgen k (length m)) as [L' B']. split.
  - unfold usize_ok, enc. rewrite zipWith_length, L', Nat.min_id. exact L.
  - now apply xor_bytes_okay.
Qed.
Lemma xor_gen q k m : xor_bytes q m (gen k (length m)) = Ok (enc k m).
Proof. apply xor_bytes_ok. symmetry. apply Hgen. Qed.

Lemma name_ok n : usize_ok n -> props_ok (mkProps n chou_orlandi).
Proof.
  intros H. split; [exact H|]. split; [|reflexivity]. split; [reflexivity|].
  unfold chou_orlandi. cbn. repeat constructor.
Qed.

Lemma nth_map_seq {B} (f : nat -> B) n i : (i < n)%nat -> nth_error (map f (seq 0 n)) i = Some (f i).
Proof.
  intros H. rewrite nth_error_map. rewrite (nth_error_nth_lt (seq 0 n) i 0%nat) by now rewrite seq_length.
  rewrite seq_nth by exact H. reflexivity.
Qed.
Lemma idx_map_seq {B} (f : nat -> B) n i : (i < n)%nat -> idx (map f (seq 0 n)) i = Ok (f i).
Proof. intros H. unfold idx. now rewrite nth_map_seq. Qed.

Lemma co_runs msgs cs : length cs = length msgs -> payload_ok msgs ->
  exists out, runs (co_sender sha gen G p ra msgs) (co_receiver sha gen G p' rb cs) (Ok tt) (Ok out) /\
    is_selection msgs cs out.
Proof.
  intros Lc Hm. set (n := length msgs) in *.
  set (theirs := map (fun ia : nat * bool => R (snd ia) (fst ia)) (combine (seq 0 n) cs)).
  set (pay := map (fun ia : nat * (bytes * bytes) =>
     let i := fst ia in let c := nth i cs false in (enc (key0 c i) (fst (snd ia)), enc (key1 c i) (snd (snd ia)))) (combine (seq 0 n) msgs)).
  set (out := map (fun ia : nat * (bytes * bytes) => enc (key (fst ia)) (selected (nth (fst ia) cs false) (snd ia))) (combine (seq 0 (length pay)) pay)).
  assert (Ltheirs : length theirs = n).
  { unfold theirs. rewrite map_length, combine_length, seq_length, Lc. apply Nat.min_id. }
  assert (Lpay : length pay = n).
  { unfold pay. rewrite map_length, combine_length, seq_length. apply Nat.min_id. }
  assert (Tn : forall i, (i < n)%nat -> idx theirs i = Ok (R (nth i cs false) i)).
  { intros i Hi. unfold idx, theirs. rewrite <- Lc.
    rewrite (enum_nth (fun i c => R c i) cs i (nth i cs false)); [reflexivity|].
    apply nth_error_nth_lt. now rewrite Lc. }
  exists out. split.
  - unfold co_sender, co_receiver. fold n. rewrite Lc.
    eapply runs_bind; [apply validate_same, name_ok, Hm|].
    eapply runs_bind.
    { apply runs_batch_n with (vs := map A (seq 0 n)); [right; reflexivity|now rewrite map_length, seq_length|].
      apply Forall2_same. apply Forall_forall. intros b I. apply in_map_iff in I. destruct I as (i & <- & _).
      unfold from_slice, A. now rewrite (co_len G HG). }
    (* the receiver computes its answers *)
    assert (LA : length (map A (seq 0 n)) = n) by now rewrite map_length, seq_length.
    rewrite LA. eapply runs_lift_r; [unfold debug_assert, assert_; rewrite Nat.eqb_refl; now destruct p'|].
    eapply runs_lift_r.
    { pose proof (mapM_enum (fun ip : nat * bytes => let (i, P) := ip in let* c := idx cs i in co_answer sha G (rb i) c P)
        (fun i _ => (R (nth i cs false) i, key i)) (map A (seq 0 n))) as ME. rewrite LA in ME. apply ME.
      intros i a E. pose proof (proj1 (nth_error_Some (map A (seq 0 n)) i)) as Hlt. rewrite E, LA in Hlt.
      assert (Hi : (i < n)%nat) by (apply Hlt; discriminate).
      rewrite nth_map_seq in E by exact Hi. injection E as <-.
      rewrite (idx_lt cs i false) by now rewrite Lc. cbn [obind]. unfold co_answer, A.
      rewrite (co_enc G HG). cbn [unwrap obind]. reflexivity. }
    rewrite !map_map. cbn [fst snd].
    assert (E1 : map (fun x : nat * bytes => R (nth (fst x) cs false) (fst x)) (combine (seq 0 n) (map A (seq 0 n))) = theirs).
    { apply nth_ext with (d := []) (d' := []).
      - rewrite map_length, combine_length, LA, seq_length, Ltheirs. apply Nat.min_id.
      - rewrite map_length, combine_length, LA, seq_length, Nat.min_id. intros i Hi.
        pose proof (Tn i Hi) as T. apply idx_inv in T. rewrite (nth_error_nth _ _ _ T).
        apply nth_error_nth. rewrite <- LA at 1.
        apply (enum_nth (fun i _ => R (nth i cs false) i) (map A (seq 0 n)) i (A i)). now apply nth_map_seq. }
    assert (E2 : map (fun x : nat * bytes => key (fst x)) (combine (seq 0 n) (map A (seq 0 n))) = map key (seq 0 n)).
    { apply nth_ext with (d := []) (d' := []).
      - rewrite !map_length, combine_length, LA, seq_length. apply Nat.min_id.
      - rewrite map_length, combine_length, LA, seq_length, Nat.min_id. intros i Hi.
        rewrite (nth_error_nth _ _ _ (nth_map_seq key n i Hi)).
        apply nth_error_nth. rewrite <- LA at 1.
        apply (enum_nth (fun i _ => key i) (map A (seq 0 n)) i (A i)). now apply nth_map_seq. }
    fold (R). 
    replace (map (fun x : nat * bytes => R (nth (fst x) cs false) (fst x)) (combine (seq 0 n) (map A (seq 0 n)))) with theirs by (symmetry; exact E1).
    rewrite E2.
    eapply runs_bind.
    { apply runs_flip. apply runs_batch_n with (vs := theirs); [right; reflexivity|exact Ltheirs|].
      apply Forall2_same. apply Forall_forall. intros b I. apply in_map_iff in I. destruct I as ([i c] & <- & _).
      unfold from_slice, R. cbn [fst snd]. now rewrite (co_len G HG). }
    cbn beta.
    eapply runs_lift_l; [unfold assert_; fold A; rewrite LA, Ltheirs, Nat.eqb_refl; reflexivity|].
    eapply runs_lift_l.
    { apply (mapM_enum _ (fun i m => let c := nth i cs false in (enc (key0 c i) (fst m), enc (key1 c i) (snd m))) msgs).
      intros i m E. assert (Hi : (i < n)%nat) by (apply (proj1 (nth_error_Some msgs i)); intros Z; pose proof (eq_trans (eq_sym E) Z); discriminate).
      rewrite (Tn i Hi). cbn [obind]. fold A. rewrite (idx_map_seq A n i Hi). cbn [obind].
      unfold co_encrypt, A, R. rewrite !(co_enc G HG). cbn [unwrap obind].
      rewrite !xor_gen. cbn [obind]. reflexivity. }
    fold n. fold pay.
    apply runs_snd_rcv. cbn [pbind ret]. 
    eapply runs_lift_r.
    { apply (deserialize_reads payload_ok enc_payload dec_payload pay rt_payload).
      split; [unfold usize_ok; rewrite Lpay; apply Hm|].
      apply Forall_forall. intros [e0 e1] I. apply in_map_iff in I. destruct I as ([i m] & [= <- <-] & I).
      apply in_combine_r in I. destruct Hm as [_ Hm]. rewrite Forall_forall in Hm. destruct (Hm _ I) as [H0 H1].
      cbn [snd]. split; now apply enc_blob. }
    cbn beta.
    assert (E3 : mapM (fun ie : nat * (bytes * bytes) => let (i, e) := ie in
        let* c := idx cs i in let e0 := if c then snd e else fst e in
        let* k := idx (map key (seq 0 n)) i in xor_bytes p' e0 (gen k (length e0))) (combine (seq 0 (length pay)) pay) = Ok out).
    { apply (mapM_enum _ (fun i e => enc (key i) (selected (nth i cs false) e)) pay).
      intros i e E. assert (Hi : (i < n)%nat) by (rewrite <- Lpay; apply (proj1 (nth_error_Some pay i)); intros Z; pose proof (eq_trans (eq_sym E) Z); discriminate).
      rewrite (idx_lt cs i false) by now rewrite Lc. cbn [obind]. rewrite (idx_map_seq key n i Hi). cbn [obind].
      apply xor_gen. }
    match goal with |- runs _ (lift ?o) _ _ => assert (E4 : o = Ok out) by exact E3; rewrite E4 end.
    apply runs_done.
  - split.
    + unfold out. rewrite (enum_length (fun i e => enc (key i) (selected (nth i cs false) e)) pay), Lpay. symmetry; exact Lc.
    + intros i m c Em Ec.
      assert (Ep : nth_error pay i = Some (enc (key0 c i) (fst m), enc (key1 c i) (snd m))).
      { rewrite <- (nth_error_nth cs i false Ec).
        exact (enum_nth (fun i m => let c := nth i cs false in (enc (key0 c i) (fst m), enc (key1 c i) (snd m))) msgs i m Em). }
      pose proof (enum_nth (fun i e => enc (key i) (selected (nth i cs false) e)) pay i _ Ep) as Eo.
      refine (eq_trans Eo _). rewrite (nth_error_nth cs i false Ec). f_equal. rewrite <- (co_keys c i).
      destruct c; cbn [selected fst snd]; apply enc_twice.
Qed.
End CO.
