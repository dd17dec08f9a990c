(** The senders' messages under pads. *)
From Coq Require Import List NArith Bool Lia Arith.
From Verif Require Import Base MUtil MPar MBincode MProc MOt SpecBincode SpecOt SpecPads PBase PUtil PProc POt POtHide.
Import ListNotations.
Open Scope N_scope.

Lemma xored_zip a : forall b, xored a b = zipWith N.lxor a b.
Proof. unfold xored. induction a as [|x a IH]; intros [|y b]; cbn; auto. now rewrite IH. Qed.

Section Padded.
Variable sz : list (nat * nat).
Variable frames : list (bytes * bytes) -> list bytes.

Lemma padded_ext sender sender' ins P : (forall msgs, sizes msgs = sz -> feed (sender msgs) ins = feed (sender' msgs) ins) ->
  sends_padded sz sender' frames ins P -> sends_padded sz sender frames ins P.
Proof.
  intros E (pre & [(o & Ho & H)|(pads & L & HP & H)]); exists pre; [left|right].
  - exists o. split; [exact Ho|]. intros msgs Hm. rewrite E by exact Hm. auto.
  - exists pads. split; [exact L|]. split; [exact HP|]. intros msgs Hm. rewrite E by exact Hm. auto.
Qed.

Lemma padded_bind {A} (q : proc A) f ins P :
  (forall a out rest, feedr q ins = (Ok a, out, rest) -> sends_padded sz (f a) frames rest (fun pre => P (out ++ pre))) ->
  sends_padded sz (fun msgs => pbind q (fun a => f a msgs)) frames ins P.
Proof.
  intros H. destruct (feedr q ins) as [[o out] rest] eqn:E. destruct o as [a|e|r|].
  - destruct (H a out rest eq_refl) as (pre & [(o & Ho & F)|(pads & L & HP & F)]); exists (out ++ pre); [left|right].
    + exists o. split; [exact Ho|]. intros msgs Hm. rewrite feed_bind, E. cbn [after]. now rewrite F.
    + exists pads. split; [exact L|]. split; [exact HP|]. intros msgs Hm. rewrite feed_bind, E. cbn [after]. rewrite F by exact Hm. now rewrite app_assoc.
  - exists out. left. exists (Err e). split; [discriminate|]. intros msgs _. rewrite feed_bind, E. cbn. now rewrite app_nil_r.
  - exists out. left. exists (Panic r). split; [discriminate|]. intros msgs _. rewrite feed_bind, E. cbn. now rewrite app_nil_r.
  - exists out. left. exists UB. split; [discriminate|]. intros msgs _. rewrite feed_bind, E. cbn. now rewrite app_nil_r.
Qed.

Lemma padded_fail {A} (o : outcome A) ins P f : (forall a, o <> Ok a) -> sends_padded sz (fun msgs => pbind (lift o) (f msgs)) frames ins P.
Proof.
  intros H. exists []. left. destruct o as [a|e|r|]; [now destruct (H a)|exists (Err e)|exists (Panic r)|exists UB];
    (split; [discriminate|]); reflexivity.
Qed.

Lemma padded_final (q : list (bytes * bytes) -> proc unit) ins pads (P : list bytes -> nat -> nat * nat -> bytes * bytes -> Prop) : length pads = length sz ->
  (forall msgs rest, sizes msgs = sz -> feed (q msgs) rest = (Ok tt, frames (covered msgs pads))) ->
  (forall i s k, nth_error sz i = Some s -> nth_error pads i = Some k -> P [] i s k) ->
  sends_padded sz q frames ins P.
Proof. intros L H HP. exists []. right. exists pads. split; [exact L|]. split; [exact HP|]. intros msgs Hm. apply H, Hm. Qed.
End Padded.

(** A loop that covers the messages one by one. *)
Lemma cover_loop {X} (f : nat * (bytes * bytes) -> outcome X) (g : bytes * bytes -> X) (k : nat -> nat * nat -> outcome (bytes * bytes)) :
  forall msgs s, (forall i m, (s <= i < s + length msgs)%nat -> f (i, m) = let* pd := k i (length (fst m), length (snd m)) in Ok (g (cover m pd))) ->
  mapM f (combine (seq s (length msgs)) msgs) =
    let* pads := mapM (fun is => k (fst is) (snd is)) (combine (seq s (length (sizes msgs))) (sizes msgs)) in Ok (map g (covered msgs pads)).
Proof.
  induction msgs as [|m msgs IH]; intros s H; [reflexivity|].
  change (sizes (m :: msgs)) with ((length (fst m), length (snd m)) :: sizes msgs).
  cbn [length seq combine mapM fst snd]. rewrite H by (cbn [length]; lia). cbn [fst snd].
  destruct (k s (length (fst m), length (snd m))) as [pd|e|r|]; cbn [obind]; try reflexivity.
  rewrite IH by (intros; apply H; cbn [length]; lia).
  destruct (mapM _ (combine (seq (S s) (length (sizes msgs))) (sizes msgs))); reflexivity.
Qed.
Lemma sizes_length msgs : length (sizes msgs) = length msgs.
Proof. apply map_length. Qed.

Section CO.
Variable sha : bytes -> bytes.
Variable gen : bytes -> nat -> bytes.
Variable G : curve.
Hypothesis Hgen : generator gen.
Hypothesis HG : curve_ok G.
Variables (p : profile) (rs : nat -> N).

(** The pads of pair [i] from the point the peer sent. *)
Definition co_pad (theirs : list bytes) (i : nat) (s : nat * nat) : outcome (bytes * bytes) :=
  let* R := idx theirs i in
  let* R := unwrap PUnwrap (decompress G R) in
  let A := smul G (rs i) (base G) in
  Ok (gen (sha (compress G (smul G (rs i) R))) (fst s), gen (sha (compress G (smul G (rs i) (psub G R A)))) (snd s)).

Lemma smul_padd a P Q : smul G a (padd G P Q) = padd G (smul G a P) (smul G a Q).
Proof.
  induction a as [|a IH] using N.peano_ind.
  - rewrite !smul_0 by exact HG. symmetry. apply (co_zero G HG).
  - rewrite !smul_succ by exact HG. rewrite IH. rewrite <- !(co_assoc G HG). f_equal. rewrite !(co_assoc G HG). f_equal. apply (co_comm G HG).
Qed.
(** The two keys of a pair differ by the multiple of the sender's own public key by its own secret. *)
Lemma key_difference a R A : psub G (smul G a R) (smul G a (psub G R A)) = smul G a A.
Proof.
  assert (E : smul G a R = padd G (smul G a A) (smul G a (psub G R A))).
  { rewrite <- smul_padd. f_equal. unfold psub. rewrite (co_comm G HG A), <- (co_assoc G HG), (co_neg G HG). rewrite (co_comm G HG). symmetry. apply (co_zero G HG). }
  rewrite E. unfold psub at 1. set (K := smul G a (psub G R A)). rewrite <- (co_assoc G HG), (co_comm G HG K), (co_neg G HG), (co_comm G HG). apply (co_zero G HG).
Qed.

Lemma validate_takes pb ins u out rest : feedr (validate_properties pb) ins = (Ok u, out, rest) -> out = [enc_props pb] /\ exists m, ins = m :: rest.
Proof.
  intros H. unfold validate_properties in H. cbn -[deserialize enc_props] in H.
  destruct ins as [|m ins]; cbn -[deserialize enc_props] in H; [discriminate|].
  destruct (deserialize dec_props m) as [b|e|r|]; cbn -[enc_props] in H; try discriminate.
  destruct (props_eqb b pb); cbn -[enc_props] in H; [|discriminate].
  injection H as _ <- <-. split; [reflexivity|]. now exists m.
Qed.

Lemma co_encrypt_pads theirs i m R : idx theirs i = Ok R -> co_encrypt sha gen G p R (compress G (smul G (rs i) (base G))) (rs i) m =
  let* pd := co_pad theirs i (length (fst m), length (snd m)) in Ok (cover m pd).
Proof.
  intros E. unfold co_encrypt, co_pad. rewrite E. cbn [obind]. destruct (decompress G R) as [Q|]; cbn [unwrap obind]; [|reflexivity].
  rewrite (co_enc G HG). cbn [unwrap obind fst snd]. rewrite !xor_bytes_ok by (symmetry; apply Hgen). cbn [obind].
  unfold cover. now rewrite !xored_zip.
Qed.

Lemma mapM_nth {A B} (f : A -> outcome B) l : forall r i b, mapM f l = Ok r -> nth_error r i = Some b -> exists a, nth_error l i = Some a /\ f a = Ok b.
Proof.
  induction l as [|x l IH]; intros r i b H Hi; cbn in H.
  - injection H as <-. now destruct i.
  - destruct (f x) as [y|e|q|] eqn:Ef; try discriminate. cbn in H. destruct (mapM f l) as [ys|e|q|] eqn:E; try discriminate. cbn in H.
    injection H as <-. destruct i as [|i]; cbn in Hi |- *.
    + injection Hi as <-. eauto.
    + eapply IH; eauto.
Qed.

Lemma recv_each_all n : forall ins theirs out rest,
  feedr (recv_each recv_unwrap from_slice n) ins = (Ok theirs, out, rest) -> length theirs = n /\ out = [] /\ ins = theirs ++ rest.
Proof.
  induction n as [|n IH]; intros ins theirs out rest; cbn -[from_slice].
  - intros [= <- <- <-]. auto.
  - destruct ins as [|m ins]; cbn -[from_slice]; [discriminate|].
    unfold from_slice at 1. destruct (Nat.eqb (length m) 32); cbn -[from_slice]; [|discriminate].
    rewrite feedr_bind. destruct (feedr (recv_each recv_unwrap from_slice n) ins) as [[o o1] r1] eqn:E.
    destruct o as [l| | |]; cbn; try discriminate. intros [= <- <- <-].
    destruct (IH _ _ _ _ E) as (L & -> & ->). cbn. auto.
Qed.
Lemma enum_at {A} (l : list A) : forall s i j a, nth_error (combine (seq s (length l)) l) i = Some (j, a) -> j = (s + i)%nat /\ nth_error l i = Some a.
Proof.
  induction l as [|x l IH]; intros s [|i] j a H; cbn in H |- *; try discriminate.
  - injection H as <- <-. split; [lia|reflexivity].
  - destruct (IH _ _ _ _ H) as [-> E]. split; [lia|exact E].
Qed.

Definition co_frames (c : list (bytes * bytes)) : list bytes := [enc_payload c].
Lemma co_sender_padded sz ins : sends_padded sz (co_sender sha gen G p rs) co_frames ins
  (fun pre i s k => exists m R K1, let A := smul G (rs i) (base G) in
     nth_error ins (S i) = Some m /\ decompress G m = Some R /\ nth_error pre (S i) = Some (compress G A) /\
     psub G (smul G (rs i) R) K1 = smul G (rs i) A /\
     k = (gen (sha (compress G (smul G (rs i) R))) (fst s), gen (sha (compress G K1)) (snd s))).
Proof.
  set (n := length sz).
  set (publics := map (fun i => compress G (smul G (rs i) (base G))) (seq 0 n)).
  assert (Lp : length publics = n) by (unfold publics; now rewrite map_length, seq_length).
  apply padded_ext with (sender' := fun msg =>
    let! _ := validate_properties (mkProps n chou_orlandi) in
    let! _ := send_all publics in
    let! theirs := recv_each recv_unwrap from_slice n in
    let! _ := lift (assert_ (Nat.eqb (length publics) (length theirs))) in
    let! payload := lift (mapM (fun im : nat * (bytes * bytes) =>
      let (i, m) := im in let* R := idx theirs i in let* A := idx publics i in co_encrypt sha gen G p R A (rs i) m) (combine (seq 0 n) msg)) in
    send (enc_payload payload)).
  { intros msgs Hm. unfold co_sender. replace (length msgs) with n by (unfold n; rewrite <- Hm; apply sizes_length). reflexivity. }
  apply (padded_bind sz co_frames). intros u out rest Ev. destruct (validate_takes _ _ _ _ _ Ev) as [-> [m0 ->]]. clear Ev u.
  apply (padded_bind sz co_frames). intros u out rest' Es. rewrite feedr_send_all in Es. injection Es as _ <- <-.
  apply (padded_bind sz co_frames). intros theirs out rest' Er.
  destruct (recv_each_all _ _ _ _ _ Er) as (Lt & -> & ->).
  apply (padded_bind sz co_frames). intros u2 out rest2 Ea. cbn in Ea.
  assert (out = []) as -> by (destruct (assert_ _); congruence). clear Ea u2.
  apply padded_ext with (sender' := fun msgs => let! pads := lift (mapM (fun is => co_pad theirs (fst is) (snd is)) (combine (seq 0 n) sz)) in
    send (enc_payload (covered msgs pads))).
  { intros msgs Hm. assert (Ln : length msgs = n) by (unfold n; rewrite <- Hm; symmetry; apply sizes_length).
    pose proof (cover_loop (fun im : nat * (bytes * bytes) =>
      let (i, m) := im in let* R := idx theirs i in let* A := idx publics i in co_encrypt sha gen G p R A (rs i) m) (fun x => x) (co_pad theirs) msgs 0) as CL.
    rewrite sizes_length, Ln, Hm in CL. rewrite CL.
    - destruct (mapM _ (combine (seq 0 n) sz)) as [pads|e|r|]; cbn [obind lift pbind]; try reflexivity. now rewrite map_id.
    - intros i m Hi. rewrite (idx_lt theirs i []) by lia. cbn [obind].
      unfold publics. rewrite idx_map_seq by lia. cbn [obind]. apply co_encrypt_pads. apply idx_lt. lia. }
  apply (padded_bind sz co_frames). intros pads out rest3 EP. cbn in EP.
  assert (EP' : mapM (fun is => co_pad theirs (fst is) (snd is)) (combine (seq 0 n) sz) = Ok pads) by congruence.
  assert (out = []) as -> by congruence. clear EP.
  apply padded_final with (pads := pads).
  - rewrite (mapM_length _ _ _ EP'), combine_length, seq_length. unfold n. lia.
  - reflexivity.
  - intros i s k Hs Hk. destruct (mapM_nth _ _ _ _ _ EP' Hk) as ([j s'] & Hj & Hf).
    assert (Hi : (i < n)%nat) by (apply nth_error_Some; congruence).
    destruct (enum_at _ _ _ _ _ Hj) as [-> E]. rewrite Hs in E. injection E as <-.
    cbn [fst snd plus] in Hf. unfold co_pad in Hf. rewrite (idx_lt theirs i []) in Hf by lia. cbn [obind] in Hf.
    destruct (decompress G (nth i theirs [])) as [R|] eqn:ER; [|discriminate]. cbn [unwrap obind] in Hf. injection Hf as <-.
    exists (nth i theirs []), R, (smul G (rs i) (psub G R (smul G (rs i) (base G)))). cbv zeta.
    split. { cbn [nth_error]. rewrite nth_error_app1 by lia. apply nth_error_nth_lt. lia. }
    split; [exact ER|]. split. { cbn [app nth_error]. rewrite nth_error_app1 by lia. unfold publics. rewrite POt.nth_map_seq by lia. reflexivity. }
    split; [apply key_difference|reflexivity].
Qed.
End CO.
