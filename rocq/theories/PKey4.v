(** The string a garbler's half key is the hash of, and keys that can be anything. *)
From Coq Require Import List NArith Bool Arith Lia.
From Verif Require Import Base MUtil MWires MCircuit MGarble MBincode MProc MMany MFpake PBase PProc PBincode.
From Verif Require Import SpecUtil SpecWires SpecCircuit SpecGarble SpecOt SpecFpake SpecMfpake SpecKey PPoly PWires PGarble PCircuit PHalf PFpake PPads2 PHang PKey PKey2.
Import ListNotations.
Open Scope N_scope.

(** ** Changing a hash function at one point *)
Definition upd (sha : bytes -> bytes) (x v : bytes) : bytes -> bytes := fun y => if list_eq_dec N.eq_dec y x then v else sha y.
Lemma upd_same sha x v : upd sha x v x = v.
Proof. unfold upd. now destruct (list_eq_dec N.eq_dec x x). Qed.
Lemma upd_other sha x v : off_point x sha (upd sha x v).
Proof. intros y H. unfold upd. now destruct (list_eq_dec N.eq_dec y x). Qed.
Lemma upd_hash sha x v : hash32 sha -> length v = 32%nat -> bytes_ok v -> hash32 (upd sha x v).
Proof. intros H L B y. unfold upd. destruct (list_eq_dec N.eq_dec y x); auto. Qed.
Lemma off_point_42 x sha sha' : length x = 42%nat -> off_point x sha sha' -> off42 sha sha'.
Proof. intros L H y N. apply H. intros ->. now apply N. Qed.
Lemma upd_like sha x v : hash32 sha -> length x = 42%nat -> length v = 32%nat -> bytes_ok v -> like sha (upd sha x v).
Proof. intros. split; [now apply upd_hash|]. eapply off_point_42; eauto using upd_other. Qed.
Lemma flip_bytes v : length v = 32%nat -> bytes_ok v -> exists w, length w = 32%nat /\ bytes_ok w /\ w <> v.
Proof.
  intros L B. destruct v as [|b v]; [discriminate|]. exists (N.lxor b 1 :: v). split; [exact L|]. inversion B; subst. split.
  - constructor; auto. unfold byte_ok in *. change 256 with (2 ^ 8) in *. apply lxor_lt2; [assumption|reflexivity].
  - intros [= E]. apply (f_equal (N.lxor b)) in E. rewrite <- N.lxor_assoc, N.lxor_nilpotent in E. discriminate.
Qed.

Section Label.
Variable sha : bytes -> bytes.
Hypothesis Hs : hash32 sha.
Lemma like_refl : like sha sha.
Proof. split; auto. intros y _. reflexivity. Qed.
(** A string is known by its hashes. *)
Lemma known_string x ds : length x = 42%nat -> (forall sha', like sha sha' -> sha' x = sha' ds) -> x = ds.
Proof.
  intros L H. destruct (list_eq_dec N.eq_dec x ds) as [E|N]; [exact E|].
  destruct (flip_bytes (sha ds)) as (w & Lw & Bw & Nw); [apply Hs..|].
  specialize (H (upd sha x w) (upd_like sha x w Hs L Lw Bw)). rewrite upd_same, upd_other in H by congruence. contradiction.
Qed.
Lemma kp_refine (P : (bytes -> bytes) -> proc bytes) ds : kp sha hashed is42 P ->
  (forall sha' ins k out rest, like sha sha' -> feedr (P sha') ins = (Ok k, out, rest) -> k = sha' ds) ->
  kp sha hashed (fun x => x = ds) P.
Proof.
  intros H Hd ins. destruct (H ins) as (r & out & rest & Hr & E). exists r, out, rest. split; [|exact E].
  destruct r as [x| | |]; cbn in *; auto. apply known_string; [exact Hr|]. intros sha' L. exact (Hd sha' ins _ _ _ L (E sha' L)).
Qed.
Lemma kp_refine_with {B} (P : (bytes -> bytes) -> proc (bytes * B)) ds : kp sha hashed_with (fun xb => is42 (fst xb)) P ->
  (forall sha' ins k out rest, like sha sha' -> feedr (P sha') ins = (Ok k, out, rest) -> fst k = sha' ds) ->
  kp sha hashed_with (fun xb => fst xb = ds) P.
Proof.
  intros H Hd ins. destruct (H ins) as (r & out & rest & Hr & E). exists r, out, rest. split; [|exact E].
  destruct r as [[x b]| | |]; cbn in *; auto. apply known_string; [exact Hr|]. intros sha' L.
  exact (Hd sha' ins _ _ _ L (E sha' L)).
Qed.

Variable p : profile.
Variable g : garbling.
Hypothesis Hg : garbling_ok g.
Hypothesis Hg32 : samples32 g.
Lemma same_label c sha' gc ek dk zs l0 l1 gc' ek' dk' zs' l0' l1' : like sha sha' ->
  half_key sha p (g_rd g) (g_ri g) c gc ek dk zs l0 l1 -> half_key sha' p (g_rd g) (g_ri g) c gc' ek' dk' zs' l0' l1' -> l1' = l1.
Proof.
  intros L H H'. destruct (hk_state _ _ _ _ _ _ _ _ _ _ _ H) as (s & Er & _ & _ & _ & E1 & _).
  destruct (hk_state _ _ _ _ _ _ _ _ _ _ _ H') as (s' & Er' & _ & _ & _ & E1' & _).
  pose proof (agree_run sha sha' p (short_sha sha Hs) (like_agrees sha sha' L) _ _ (proj1 Hg32) (proj2 Hg32) c) as R.
  rewrite Er, Er' in R. cbn in R. destruct R as (_ & Ew & _). cbn in Ew. rewrite E1, E1'. unfold G. now rewrite Ew.
Qed.

(** Every string is the one of the label, for a circuit that can be garbled with every hash function. *)
Section Circuit.
Variable c : circuit.
Hypothesis Hc : forall sha', hash32 sha' -> exists gc ek dk zs l0 l1, half_key sha' p (g_rd g) (g_ri g) c gc ek dk zs l0 l1.
Variables (gc : garbled) (ek : encoding_key) (dk : decoding_key) (zs : list (wire * wire)) (l0 l1 : wire).
Hypothesis H : half_key sha p (g_rd g) (g_ri g) c gc ek dk zs l0 l1.
Lemma zipped_key sha' gc' z' d' k : like sha sha' -> garble_zipped sha' p g c = Ok (gc', z', d') -> garbler_half_key d' = Ok k ->
  k = sha' (dec_string (first_output c) 1 l1).
Proof.
  intros L E K. destruct (Hc sha' (proj1 L)) as (gc2 & ek2 & dk2 & zs2 & m0 & m1 & H2).
  rewrite (garble_zipped_ok _ _ _ _ _ _ _ _ _ _ H2) in E. injection E as <- <- <-.
  rewrite (garbler_half_key_ok _ _ _ _ _ _ _ _ _ _ H2) in K. injection K as <-.
  now rewrite (same_label c sha' _ _ _ _ _ _ _ _ _ _ _ _ L H H2).
Qed.
Lemma garbler_string sha' ot pw t ins k out rest : like sha sha' -> build_circuit p (length (u8_vec_to_bool_vec pw)) t = Ok c ->
  feedr (garbler sha' p g ot pw t) ins = (Ok k, out, rest) -> k = sha' (dec_string (first_output c) 1 l1).
Proof.
  intros L Eb F. unfold garbler in F. cbv zeta in F. rewrite Eb in F.
  apply feedr_bind_ok in F. destruct F as (c' & ? & ? & ? & Ec & F). cbn in Ec. injection Ec as <- <- <-.
  apply feedr_bind_ok in F. destruct F as ([[gc' z'] d'] & ? & ? & ? & Ez & F).
  do 6 (apply feedr_bind_ok in F; destruct F as (? & ? & ? & ? & _ & F)).
  cbn [lift feedr] in F, Ez. injection F as F _ _. injection Ez as Ez _ _. eapply zipped_key; eauto.
Qed.
Lemma server3_string sha' mask ot1 many ot2 pws p0 t ins k out rest : like sha sha' -> idx pws 0 = Ok p0 ->
  build_circuit_v2 p (length p0 * 8) t = Ok c ->
  feedr (garbler_server_v3 sha' p mask g ot1 many ot2 pws t) ins = (Ok k, out, rest) -> fst k = sha' (dec_string (first_output c) 1 l1).
Proof.
  intros L E0 Eb F. unfold garbler_server_v3 in F.
  apply feedr_bind_ok in F. destruct F as (c' & ? & ? & ? & Ec & F). cbn [lift feedr] in Ec. injection Ec as E1 <- <-. cbv zeta in F.
  pose proof (eq_trans (eq_sym E0) E1) as E2. injection E2 as <-.
  rewrite Eb in F. apply feedr_bind_ok in F. destruct F as (c' & ? & ? & ? & Ec & F). cbn [lift feedr] in Ec. injection Ec as <- <- <-.
  apply feedr_bind_ok in F. destruct F as ([[gc' z'] d'] & ? & ? & ? & Ez & F).
  do 10 (apply feedr_bind_ok in F; destruct F as (? & ? & ? & ? & _ & F)).
  apply feedr_bind_ok in F. destruct F as (k' & ? & ? & ? & Ek & F).
  cbn [lift ret feedr] in F, Ez, Ek. injection F as <- _ _. injection Ez as Ez _ _. injection Ek as Ek _ _. eapply zipped_key; eauto.
Qed.
Lemma client3_string sha' ot pw mp t ins k out rest : like sha sha' -> build_circuit_v2 p (length pw * 8) t = Ok c ->
  feedr (garbler_client_v3 sha' p g ot pw mp t) ins = (Ok k, out, rest) -> k = sha' (dec_string (first_output c) 1 l1).
Proof.
  intros L Eb F. unfold garbler_client_v3 in F. cbv zeta in F.
  rewrite Eb in F. apply feedr_bind_ok in F. destruct F as (c' & ? & ? & ? & Ec & F). cbn [lift feedr] in Ec. injection Ec as <- <- <-.
  apply feedr_bind_ok in F. destruct F as ([[gc' z'] d'] & ? & ? & ? & Ez & F).
  do 8 (apply feedr_bind_ok in F; destruct F as (? & ? & ? & ? & _ & F)).
  cbn [lift ret feedr] in F, Ez. injection F as F _ _. injection Ez as Ez _ _. eapply zipped_key; eauto.
Qed.
End Circuit.
End Label.

(** ** Keys that can be anything *)
Lemma xor_back a : forall b, length a = length b -> combine_keys (xor a b) b = a.
Proof.
  unfold combine_keys, xor. induction a as [|x a IH]; intros [|y b] L; try discriminate; cbn; auto.
  rewrite N.lxor_assoc, N.lxor_nilpotent, N.lxor_0_r. f_equal. apply IH. now injection L.
Qed.
Lemma xor_self_zero a : combine_keys a a = repeat 0 (length a).
Proof. unfold combine_keys, xor. induction a as [|x a IH]; cbn; auto. now rewrite IH, N.lxor_nilpotent. Qed.
Lemma xor_comm_keys a b : combine_keys a b = combine_keys b a.
Proof. unfold combine_keys, xor. apply zipWith_comm. intros. apply N.lxor_comm. Qed.
Lemma xor_array a b : array_ok 32 a -> array_ok 32 b -> length (xor a b) = 32%nat /\ bytes_ok (xor a b).
Proof.
  intros [La Ba] [Lb Bb]. unfold xor. split; [rewrite zipWith_length, La, Lb; reflexivity|].
  clear La Lb. revert b Bb. induction Ba as [|x a Hx _ IH]; intros b Bb; [constructor|]. destruct Bb as [|y b Hy Bb]; [constructor|]. cbn. constructor; [|now apply IH].
  unfold byte_ok in *. change 256 with (2 ^ 8) in *. now apply lxor_lt2.
Qed.
Section Open.
Variable sha : bytes -> bytes.
Hypothesis Hs : hash32 sha.
Lemma kp_open (good : bytes * bytes -> Prop) P : kp sha combined good P -> (forall xy, good xy -> both42 xy) ->
  forall ins key out, feed (P sha) ins = (Ok key, out) ->
  exists x y, good (x, y) /\ (key = repeat 0 32 \/ open_at P sha x ins out /\ open_at P sha y ins out).
Proof.
  intros HP Hgood ins key out F. destruct (HP ins) as (r & out' & rest & Hr & E).
  rewrite feed_feedr, (E sha (like_refl sha Hs)) in F. cbn [fst] in F. injection F as F ->.
  destruct r as [[x y]| | |]; cbn in F; try discriminate. injection F as <-. exists x, y. split; [exact Hr|].
  destruct (Hgood _ Hr) as [Lx Ly]. cbn [fst snd] in Lx, Ly. unfold combined. cbn [fst snd].
  destruct (list_eq_dec N.eq_dec x y) as [->|N].
  { left. rewrite xor_self_zero. now rewrite (proj1 (Hs y)). }
  right. split; intros K HK.
  - destruct (xor_array K (sha y) HK (Hs y)) as [L B]. exists (upd sha x (xor K (sha y))).
    split; [now apply upd_hash|]. split; [apply upd_other|].
    rewrite feed_feedr, (E (upd sha x (xor K (sha y)))) by now apply upd_like. cbn [fst omap obind]. f_equal. f_equal.
    unfold combined. cbn [fst snd]. rewrite upd_same, upd_other by congruence. apply xor_back. destruct HK as [-> _]. symmetry. apply Hs.
  - destruct (xor_array K (sha x) HK (Hs x)) as [L B]. exists (upd sha y (xor K (sha x))).
    split; [now apply upd_hash|]. split; [apply upd_other|].
    rewrite feed_feedr, (E (upd sha y (xor K (sha x)))) by now apply upd_like. cbn [fst omap obind]. f_equal. f_equal.
    unfold combined. cbn [fst snd]. rewrite upd_same, upd_other by congruence. rewrite xor_comm_keys. apply xor_back. destruct HK as [-> _]. symmetry. apply Hs.
Qed.
Lemma kp_single_key (good : bytes -> Prop) P : kp sha hashed good P -> forall ins k out, feed (P sha) ins = (Ok k, out) ->
  exists x, good x /\ k = sha x /\ forall sha', hash32 sha' -> off42 sha sha' -> feed (P sha') ins = (Ok (sha' x), out).
Proof.
  intros HP ins k out F. destruct (HP ins) as (r & out' & rest & Hr & E).
  rewrite feed_feedr, (E sha (like_refl sha Hs)) in F. cbn [fst] in F. injection F as F ->.
  destruct r as [x| | |]; cbn in F; try discriminate. injection F as <-. exists x. split; [exact Hr|]. split; [reflexivity|].
  intros sha' H1 H2. rewrite feed_feedr, (E sha') by (split; auto). reflexivity.
Qed.
(** The frames and the outcome do not depend on the hashes of strings of 42 bytes, also if there is no key. *)
Lemma kp_frames {S A} (mk : (bytes -> bytes) -> S -> A) good P : kp sha mk good P -> forall sha' ins, hash32 sha' -> off42 sha sha' ->
  snd (feed (P sha') ins) = snd (feed (P sha) ins).
Proof.
  intros HP sha' ins H1 H2. destruct (HP ins) as (r & out' & rest & Hr & E).
  rewrite !feed_feedr, (E sha (like_refl sha Hs)), (E sha') by (split; auto). reflexivity.
Qed.
End Open.

(** ** Two sides that fit together end as in a run *)
Lemma linked_reach {A B} (c c' : cfg A B) oa ob : reach c c' -> PHang.linked c oa ob -> PHang.linked c' oa ob.
Proof.
  induction 1 as [c|c c1 c2 H _ IH|c c1 c2 H _ IH]; auto; intros (la & lb & L & R); apply IH; clear IH; destruct c as [l r q q']; cbn in *.
  - unfold stepL in H. cbn in H. destruct l as [|m k|k]; [discriminate| |].
    + injection H as <-. cbn in L. destruct (feed k (q' ++ lb)) as [o out] eqn:F. injection L as <- <-. exists out, lb. cbn. rewrite <- app_assoc. auto.
    + destruct q' as [|m q']; [discriminate|]. injection H as <-. exists la, lb. auto.
  - unfold stepR in H. cbn in H. destruct r as [|m k|k]; [discriminate| |].
    + injection H as <-. cbn in R. destruct (feed k (q ++ la)) as [o out] eqn:F. injection R as <- <-. exists la, out. cbn. rewrite <- app_assoc. auto.
    + destruct q as [|m q]; [discriminate|]. injection H as <-. exists la, lb. auto.
Qed.
Lemma fit_runs {A B} (P : proc A) (Q : proc B) oa ob oa' ob' la lb :
  feed P lb = (oa, la) -> feed Q la = (ob, lb) -> runs P Q oa' ob' -> oa = oa' /\ ob = ob'.
Proof.
  intros L R H. destruct (linked_reach _ _ oa ob H) as (la' & lb' & L' & R').
  { exists la, lb. cbn. auto. }
  cbn in L', R'. split; congruence.
Qed.
