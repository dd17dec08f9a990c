(** The one-out-of-many OT and the exchanges on two machines. *)
From Coq Require Import List NArith Bool Arith Lia.
From Verif Require Import Base MUtil MWires MCircuit MGarble MPar MBitMatrix MBincode MProc MOt MApricot MMany MFpake MLegacy MLegacy2 MChannel MMain.
From Verif Require Import SpecProc SpecOt SpecApricot SpecMachine PBase PProc PPar PBounds PMany PKey3 PMachine.
Import ListNotations.
Open Scope N_scope.

Section Many.
Variable sha : bytes -> bytes.
Variable fill : bytes -> nat -> bytes.
Variable p : profile.
Lemma many_row_length keys ms d s i row r : many_row sha fill p keys ms d s i row = Ok r -> length r = length row.
Proof.
  intros E. assert (H : keeps (fun x => length x = length row) (many_row sha fill p keys ms d s i row)).
  { unfold many_row. apply (keeps_bind (fun _ => True)); [eapply keeps_weak; [apply keeps_idx|intros; exact I]|]. intros m _.
    apply (keeps_bind (fun x => length x = length row)); [apply keeps_xor_bytes_inplace|]. intros x Hx.
    apply keeps_foldM; [exact Hx|]. intros y j _ Hy. cbv zeta. apply (keeps_bind (fun _ => True)); [eapply keeps_weak; [apply keeps_idx|intros; exact I]|].
    intros k _. eapply keeps_weak; [apply keeps_xor_bytes_inplace|]. intros z Hz. cbn beta in *. lia. }
  rewrite E in H. exact H.
Qed.
Definition threads_of (n cores : nat) : nat := if Nat.leb n cores then n else cores.
Lemma threads_pow d e : exists k, (1 <= k)%nat /\ (1 <= threads_of (2 ^ d) (2 ^ e))%nat /\ (2 ^ d = k * threads_of (2 ^ d) (2 ^ e))%nat.
Proof.
  unfold threads_of. destruct (Nat.leb_spec (2 ^ d) (2 ^ e)) as [H|H].
  - exists 1%nat. pose proof (pow2_pos d). lia.
  - exists (2 ^ (d - e))%nat. split; [apply pow2_pos|]. split; [apply pow2_pos|]. rewrite <- Nat.pow_add_r. f_equal.
    apply Nat.pow_lt_mono_r_iff in H; lia.
Qed.
Lemma chunks_exactly keys ms d s k n : (1 <= k)%nat -> (1 <= s)%nat ->
  (let* cs := chunks_mut (k * s) (repeat 0 (k * n * s)) in
   let* rs := mapM (fun c : nat * bytes =>
        update_rows (snd c) k s (fun i row => many_row sha fill p keys ms d s (k * fst c + i) row)) (enumerate cs) in
   Ok (concat rs)) = rowsM s (k * n) 0 (repeat 0 (k * n * s)) (many_row sha fill p keys ms d s).
Proof.
  intros Hk Hs. rewrite <- (par_rows_seq s (many_row sha fill p keys ms d s)) with (k := k);
    [|intros i row r L E; apply many_row_length in E; congruence|exact Hk|exact Hs|rewrite repeat_length; lia].
  unfold par_rows, chunks_mut. rewrite (proj2 (Nat.eqb_neq _ _)) by nia. cbn [obind]. unfold enumerate.
  match goal with |- obind ?x _ = obind ?y _ => replace x with y; [reflexivity|] end.
  apply mapM_ext. intros [c b] Hin. cbn [fst snd].
  assert (Lb : length b = (k * s)%nat).
  { apply in_combine_r in Hin. revert b Hin. apply Forall_forall.
    apply (chunk_sizes [] 0 1 (Nat.le_0_l _) eq_refl (Nat.le_refl _)) with (m := n); [nia|rewrite repeat_length; nia|apply Nat.le_refl]. }
  rewrite Lb, Nat.div_mul by lia. apply update_rows_ext. intros i row. f_equal. lia.
Qed.
(** Two numbers of cores that are powers of two. *)
Lemma many_y_any e e' keys ms d s :
  many_y sha fill p (2 ^ e) keys ms d s = many_y sha fill p (2 ^ e') keys ms d s.
Proof.
  unfold many_y.
  assert (Hs : exists q, shl_one p d = Ok (2 ^ q)%nat \/ exists r, shl_one p d = Panic r).
  { unfold shl_one. destruct (Nat.ltb d 64); [exists d; now left|]. destruct (is_debug p); [exists O; right; now exists POverflow|exists (d mod 64)%nat; now left]. }
  destruct Hs as [q [-> | [r ->]]]; [|reflexivity]. cbn [obind]. destruct (Nat.leb d 2); [reflexivity|].
  assert (G : forall e, (let threads := if Nat.leb (2 ^ q) (2 ^ e) then (2 ^ q)%nat else (2 ^ e)%nat in
    let* _ := if is_debug p then
        (if Nat.eqb threads 0 then Panic PDivZero else debug_assert p (Nat.eqb (2 ^ q mod threads) 0))
      else Ok tt in
    let* rows_in_chunk := udiv (2 ^ q) threads in
    let* cs := chunks_mut (rows_in_chunk * s) (repeat 0 (2 ^ q * s)) in
    let* rs := mapM (fun c : nat * bytes =>
        update_rows (snd c) rows_in_chunk s
          (fun i row => many_row sha fill p keys ms d s (rows_in_chunk * fst c + i) row))
      (enumerate cs) in
    Ok (concat rs)) = if Nat.eqb s 0 then Panic PSlice else rowsM s (2 ^ q) 0 (repeat 0 (2 ^ q * s)) (many_row sha fill p keys ms d s)).
  { intros x. cbv zeta. change (if Nat.leb (2 ^ q) (2 ^ x) then (2 ^ q)%nat else (2 ^ x)%nat) with (threads_of (2 ^ q) (2 ^ x)).
    destruct (threads_pow q x) as (k & Hk & Ht & Eq). generalize dependent (threads_of (2 ^ q) (2 ^ x)). intros th Ht Eq.
    assert (Ed : (2 ^ q / th = k)%nat) by (rewrite Eq; apply Nat.div_mul; lia).
    assert (Em : (2 ^ q mod th = 0)%nat) by (rewrite Eq; apply Nat.mod_mul; lia).
    rewrite (proj2 (Nat.eqb_neq th 0)) by lia. unfold udiv. rewrite (proj2 (Nat.eqb_neq th 0)) by lia. rewrite Ed, Em, Nat.eqb_refl.
    replace (if is_debug p then debug_assert p true else Ok tt) with (Ok tt : outcome unit) by (unfold debug_assert; destruct (is_debug p); reflexivity).
    cbn [obind]. destruct (Nat.eqb_spec s 0) as [->|Hs].
    - unfold chunks_mut. now rewrite Nat.mul_0_r.
    - rewrite Eq at 1. rewrite chunks_exactly by lia. rewrite <- Eq. reflexivity. }
  exact (eq_trans (G e) (eq_sym (G e'))).
Qed.
Lemma many_sender_any e e' keys int int' ms d : (forall m, peq (int m) (int' m)) ->
  peq (many_sender sha fill p (2 ^ e) keys int ms d) (many_sender sha fill p (2 ^ e') keys int' ms d).
Proof.
  intros H. unfold many_sender. apply pbind_peq. intros m0. rewrite (many_y_any e e'). do 2 (apply pbind_peq; intros ?). apply H.
Qed.
End Many.

(** ** What it says about one party and about two *)
Lemma peq_party {A} (q q' : proc A) : peq q q' -> same_party q q'.
Proof. intros H ins. now apply feed_peq. Qed.
Lemma peq_session {A B} (s s' : proc A) (c c' : proc B) : peq s s' -> peq c c' -> same_session s c s' c'.
Proof.
  intros Hs Hc oa ob. split; intros H.
  - apply (runs_peq_l s s' c' _ _ Hs), (runs_peq_r c c' s _ _ Hc), H.
  - apply (runs_peq_l s' s c _ _ (peq_sym _ _ Hs)), (runs_peq_r c' c s' _ _ (peq_sym _ _ Hc)), H.
Qed.

Create HintDb pe.
Ltac pe1 :=
  match goal with
  | |- peq ?x ?x => apply peq_refl
  | |- peq (pbind _ _) (pbind _ _) => apply peq_bind; [|intros ?; cbv beta zeta]
  | |- peq (match ?x with _ => _ end) (match ?x with _ => _ end) => destruct x
  | |- peq _ _ => solve [auto with pe nocore]
  end.
Ltac pe := cbv beta zeta; repeat pe1.

Section Exchanges.
Variable sha : bytes -> bytes.
(** the OTs on one machine and on another *)
Variable p : profile.
Variables osd osr : list (bytes * bytes) -> proc unit.
Variables ord orr : list bool -> proc (list bytes).
Variables os2d os2r : list (bytes * bytes) -> proc unit.
Variables or2d or2r : list bool -> proc (list bytes).
Variables os3d os3r : list (bytes * bytes) -> proc unit.
Variables or3d or3r : list bool -> proc (list bytes).
Variables msd msr ms2d ms2r : nat -> list bytes -> proc unit.
Variables mrd mrr mr2d mr2r : nat -> N -> proc bytes.
Hypothesis Hos : forall m, peq (osd m) (osr m).
Hypothesis Hor : forall c, peq (ord c) (orr c).
Hypothesis Hos2 : forall m, peq (os2d m) (os2r m).
Hypothesis Hor2 : forall c, peq (or2d c) (or2r c).
Hypothesis Hos3 : forall m, peq (os3d m) (os3r m).
Hypothesis Hor3 : forall c, peq (or3d c) (or3r c).
Hypothesis Hms : forall d m, peq (msd d m) (msr d m).
Hypothesis Hmr : forall d i, peq (mrd d i) (mrr d i).
Hypothesis Hms2 : forall d m, peq (ms2d d m) (ms2r d m).
Hypothesis Hmr2 : forall d i, peq (mr2d d i) (mr2r d i).

Lemma pe_garbler g pw t : peq (garbler sha p g osd pw t) (garbler sha p g osr pw t).
Proof using Hos. unfold garbler. pe. Qed.
Lemma pe_evaluator pw : peq (evaluator sha p ord pw) (evaluator sha p orr pw).
Proof using Hor. unfold evaluator. pe. Qed.
Hint Resolve pe_garbler pe_evaluator : pe.
Lemma pe_fpake_server g pw t : peq (fpake_server sha p g osd ord pw t) (fpake_server sha p g osr orr pw t).
Proof using Hos Hor. unfold fpake_server. pe. Qed.
Lemma pe_fpake_client g pw t : peq (fpake_client sha p g osd ord pw t) (fpake_client sha p g osr orr pw t).
Proof using Hos Hor. unfold fpake_client. pe. Qed.
Lemma pe_mfpake_many mask g l t : peq (mfpake_many sha p mask g msd osd ord l t) (mfpake_many sha p mask g msr osr orr l t).
Proof using Hos Hor Hms. unfold mfpake_many. pe. Qed.
Lemma pe_mfpake_single g pw i n t : peq (mfpake_single sha p g mrd osd ord pw i n t) (mfpake_single sha p g mrr osr orr pw i n t).
Proof using Hos Hor Hmr. unfold mfpake_single. pe. Qed.
Lemma pe_garbler_server_v3 mask g l t : peq (garbler_server_v3 sha p mask g osd msd os2d l t) (garbler_server_v3 sha p mask g osr msr os2r l t).
Proof using Hos Hos2 Hms. unfold garbler_server_v3. pe. Qed.
Lemma pe_evaluator_client_v3 pw n i : peq (evaluator_client_v3 sha p ord mrd or2d pw n i) (evaluator_client_v3 sha p orr mrr or2r pw n i).
Proof using Hor Hor2 Hmr. unfold evaluator_client_v3. pe. Qed.
Lemma pe_garbler_client_v3 g pw m t : peq (garbler_client_v3 sha p g os3d pw m t) (garbler_client_v3 sha p g os3r pw m t).
Proof using Hos3. unfold garbler_client_v3. pe. Qed.
Lemma pe_evaluator_server_v3 l m : peq (evaluator_server_v3 sha p or3d l m) (evaluator_server_v3 sha p or3r l m).
Proof using Hor3. unfold evaluator_server_v3. pe. Qed.
Hint Resolve pe_garbler_server_v3 pe_evaluator_client_v3 pe_garbler_client_v3 pe_evaluator_server_v3 : pe.
Lemma pe_server_v3 mask g l t : peq (server_v3 sha p mask g osd msd os2d or3d l t) (server_v3 sha p mask g osr msr os2r or3r l t).
Proof using Hos Hos2 Hor3 Hms. unfold server_v3. pe. Qed.
Lemma pe_client_v3 g pw n i t : peq (client_v3 sha p g ord mrd or2d os3d pw n i t) (client_v3 sha p g orr mrr or2r os3r pw n i t).
Proof using Hor Hor2 Hos3 Hmr. unfold client_v3. pe. Qed.

Lemma pe_gs1 g l t : peq (garbler_server_v1 sha p g osd msd l t) (garbler_server_v1 sha p g osr msr l t).
Proof using Hos Hms. unfold garbler_server_v1. pe. Qed.
Lemma pe_ec1 pw n i : peq (evaluator_client_v1 sha p ord mrd pw n i) (evaluator_client_v1 sha p orr mrr pw n i).
Proof using Hor Hmr. unfold evaluator_client_v1. pe. Qed.
Lemma pe_gc1 rand g pw i n t : peq (garbler_client_v1 sha p rand g os3d pw i n t) (garbler_client_v1 sha p rand g os3r pw i n t).
Proof using Hos3. unfold garbler_client_v1. pe. Qed.
Lemma pe_es1 l : peq (evaluator_server_v1 sha p or3d l) (evaluator_server_v1 sha p or3r l).
Proof using Hor3. unfold evaluator_server_v1, evaluator_server_v1_seen. pe. Qed.
Lemma pe_gs2 mask g l t : peq (garbler_server_v2 sha p mask g osd msd os2d l t) (garbler_server_v2 sha p mask g osr msr os2r l t).
Proof using Hos Hos2 Hms. unfold garbler_server_v2. pe. Qed.
Lemma pe_ec2 pw n i : peq (evaluator_client_v2 sha p ord mrd or2d pw n i) (evaluator_client_v2 sha p orr mrr or2r pw n i).
Proof using Hor Hor2 Hmr. unfold evaluator_client_v2. pe. Qed.
Lemma pe_gc2 g pw i n t : peq (garbler_client_v2 sha p g os3d mr2d pw i n t) (garbler_client_v2 sha p g os3r mr2r pw i n t).
Proof using Hos3 Hmr2. unfold garbler_client_v2. pe. Qed.
Lemma pe_es2 mask l : peq (evaluator_server_v2 sha p mask or3d ms2d l) (evaluator_server_v2 sha p mask or3r ms2r l).
Proof using Hor3 Hms2. unfold evaluator_server_v2. pe. Qed.
Hint Resolve pe_gs1 pe_ec1 pe_gc1 pe_es1 pe_gs2 pe_ec2 pe_gc2 pe_es2 : pe.
Lemma pe_server_v1 g l t : peq (server_v1 sha p g osd msd or3d l t) (server_v1 sha p g osr msr or3r l t).
Proof using Hos Hor3 Hms. unfold server_v1. pe. Qed.
Lemma pe_client_v1 rand g pw n i t : peq (client_v1 sha p rand g ord mrd os3d pw n i t) (client_v1 sha p rand g orr mrr os3r pw n i t).
Proof using Hor Hos3 Hmr. unfold client_v1. pe. Qed.
Lemma pe_server_v2 mask mask' g l t : peq (server_v2 sha p mask mask' g osd msd os2d or3d ms2d l t) (server_v2 sha p mask mask' g osr msr os2r or3r ms2r l t).
Proof using Hos Hos2 Hor3 Hms Hms2. unfold server_v2. pe. Qed.
Lemma pe_client_v2 g pw n i t : peq (client_v2 sha p g ord mrd or2d os3d mr2d pw n i t) (client_v2 sha p g orr mrr or2r os3r mr2r pw n i t).
Proof using Hor Hor2 Hos3 Hmr Hmr2. unfold client_v2. pe. Qed.
Lemma pe_server_v12 mask g l t : peq (server_v12 sha p mask g osd msd or3d ms2d l t) (server_v12 sha p mask g osr msr or3r ms2r l t).
Proof using Hos Hor3 Hms Hms2. unfold server_v12. pe. Qed.
Lemma pe_client_v12 g pw n i t : peq (client_v12 sha p g ord mrd os3d mr2d pw n i t) (client_v12 sha p g orr mrr os3r mr2r pw n i t).
Proof using Hor Hos3 Hmr Hmr2. unfold client_v12. pe. Qed.
Lemma pe_server_v21 mask g l t : peq (server_v21 sha p mask g osd msd os2d or3d l t) (server_v21 sha p mask g osr msr os2r or3r l t).
Proof using Hos Hos2 Hor3 Hms. unfold server_v21. pe. Qed.
Lemma pe_client_v21 rand g pw n i t : peq (client_v21 sha p rand g ord mrd or2d os3d pw n i t) (client_v21 sha p rand g orr mrr or2r os3r pw n i t).
Proof using Hor Hor2 Hos3 Hmr. unfold client_v21. pe. Qed.
End Exchanges.


Lemma pe_over_auth {A} hmac ks kr (q q' : proc A) : peq q q' -> peq (over_auth hmac ks kr q) (over_auth hmac ks kr q').
Proof.
  intros H. induction H as [o|m x y _ IH|x y _ IH]; cbn; [constructor|now do 2 constructor|].
  constructor. intros [d|]; [|apply IH]. constructor. intros [c|]; [|apply IH]. destruct (bytes_eqb _ _); apply IH.
Qed.
Lemma pe_serve {A} hmac xpub xdh s (q q' : proc A) : peq q q' -> peq (serve hmac xpub xdh s q) (serve hmac xpub xdh s q').
Proof. intros H. unfold serve. pe. now apply pe_over_auth. Qed.
Lemma pe_connect {A} hmac xpub xdh s (q q' : proc A) : peq q q' -> peq (connect hmac xpub xdh s q) (connect hmac xpub xdh s q').
Proof. intros H. unfold connect. pe. now apply pe_over_auth. Qed.
