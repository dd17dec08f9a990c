(** Proofs about the authenticated and the signed channels. *)
From Coq Require Import List NArith Bool Lia.
From Verif Require Import Base PBase MProc PProc MChannel SpecChannel.
Import ListNotations.

Lemma wire_app tag a b : wire tag (a ++ b) = wire tag a ++ wire tag b.
Proof. unfold wire. now rewrite map_app, concat_app. Qed.
Lemma wire_in tag ms f : In f (wire tag ms) <-> exists m, In m ms /\ (f = m \/ f = tag m).
Proof.
  unfold wire. rewrite in_concat. split.
  - intros (x & Hx & Hf). apply in_map_iff in Hx. destruct Hx as (m & <- & Hm).
    exists m. split; [exact Hm|]. destruct Hf as [E|[E|[]]]; auto.
  - intros (m & Hm & Hf). exists [m; tag m]. split; [apply in_map_iff; eauto|].
    destruct Hf as [-> | ->]; cbn; auto.
Qed.

(** Induction two frames at a time. *)
Lemma pairs_ind (P : list bytes -> Prop) : P [] -> (forall x, P [x]) ->
  (forall x y l, P l -> P (x :: y :: l)) -> forall l, P l.
Proof.
  intros H0 H1 H2. assert (G : forall l, P l /\ forall x, P (x :: l)).
  { induction l as [|y l [IH IH']]; [split; auto|]. split; [apply IH'|]. intros x. apply H2, IH. }
  intros l. apply G.
Qed.

Section AuthProofs.
Variable hmac : bytes -> bytes -> bytes.

Definition ok_code (key d c : bytes) : bool := bytes_eqb c (hmac key d).

Lemma over_auth_feed {A} ks kr (p : proc A) : forall frames,
  feed (over_auth hmac ks kr p) frames =
  let (o, out) := answered p (checked (ok_code kr) frames) in (o, wire (hmac ks) out).
Proof.
  induction p as [o|m k IH|k IH]; intros frames; cbn [over_auth feed answered].
  - reflexivity.
  - rewrite IH. destruct (answered k _) as [o out]. reflexivity.
  - destruct frames as [|d [|c rest]]; cbn [checked feed].
    + apply IH.
    + rewrite IH. reflexivity.
    + unfold ok_code at 1. destruct (bytes_eqb c (hmac kr d)); apply IH.
Qed.

(** Simulation of raw steps. *)
Definition lift_auth {A B} ka kb (c : cfg A B) : cfg A B :=
  Cfg (over_auth hmac ka kb (left_ c)) (over_auth hmac kb ka (right_ c))
      (wire (hmac ka) (lr c)) (wire (hmac kb) (rl c)).

Lemma lift_auth_L {A B} ka kb (c c' : cfg A B) : stepL c = Some c' -> reach (lift_auth ka kb c) (lift_auth ka kb c').
Proof.
  intros S. destruct c as [l r q q']. unfold stepL in S. cbn in S. destruct l as [o|m k|k]; [discriminate| |].
  - injection S as <-. unfold lift_auth; cbn [left_ right_ lr rl]. rewrite wire_app.
    eapply reach_L; [reflexivity|]. eapply reach_L; [reflexivity|]. cbn [left_ right_ lr rl].
    rewrite <- app_assoc. apply reach_refl.
  - destruct q' as [|m q']; [discriminate|]. injection S as <-. unfold lift_auth; cbn.
    eapply reach_L; [reflexivity|]. eapply reach_L; [reflexivity|]. cbn.
    rewrite bytes_eqb_refl. apply reach_refl.
Qed.
Lemma lift_auth_R {A B} ka kb (c c' : cfg A B) : stepR c = Some c' -> reach (lift_auth ka kb c) (lift_auth ka kb c').
Proof.
  intros S. destruct c as [l r q q']. unfold stepR in S. cbn in S. destruct r as [o|m k|k]; [discriminate| |].
  - injection S as <-. unfold lift_auth; cbn [left_ right_ lr rl]. rewrite wire_app.
    eapply reach_R; [reflexivity|]. eapply reach_R; [reflexivity|]. cbn [left_ right_ lr rl].
    rewrite <- app_assoc. apply reach_refl.
  - destruct q as [|m q]; [discriminate|]. injection S as <-. unfold lift_auth; cbn.
    eapply reach_R; [reflexivity|]. eapply reach_R; [reflexivity|]. cbn.
    rewrite bytes_eqb_refl. apply reach_refl.
Qed.
Lemma over_auth_runs {A B} ka kb (p : proc A) (q : proc B) oa ob :
  runs p q oa ob -> runs (over_auth hmac ka kb p) (over_auth hmac kb ka q) oa ob.
Proof.
  intros H. unfold runs in *. change (reach (lift_auth ka kb (initial p q)) (lift_auth ka kb (final oa ob))).
  induction H as [c|c c1 c2 S _ IH|c c1 c2 S _ IH]; [apply reach_refl| |].
  - eapply reach_trans; [apply lift_auth_L; exact S|exact IH].
  - eapply reach_trans; [apply lift_auth_R; exact S|exact IH].
Qed.

(** A receiver that takes [n] messages. *)
Lemma answered_recv_each n : forall ins got,
  fst (answered (recv_each recv (fun m => Ok m) n) ins) = Ok got ->
  exists rest, ins = map Some got ++ rest /\ length got = n.
Proof.
  induction n as [|n IH]; intros ins got; cbn.
  - intros [= <-]. exists ins. auto.
  - destruct ins as [|[m|] ins]; cbn; try discriminate.
    assert (E : forall (p : proc (list bytes)) i, fst (answered (pbind p (fun l => ret (m :: l))) i) =
      match fst (answered p i) with Ok l => Ok (m :: l) | Err e => Err e | Panic r => Panic r | UB => UB end).
    { induction p as [o|x k IHp|k IHp]; intros i; cbn.
      - destruct o; reflexivity.
      - specialize (IHp i). destruct (answered (pbind k _) i), (answered k i). exact IHp.
      - destruct i; apply IHp. }
    rewrite E. destruct (fst (answered (recv_each recv _ n) ins)) as [l| | |] eqn:F; try discriminate.
    intros [= <-]. destruct (IH _ _ F) as (rest & -> & L). exists rest. cbn. auto.
Qed.
Lemma answered_recv_all got : forall rest,
  answered (recv_each recv (fun m => Ok m) (length got)) (map Some got ++ rest) = (Ok got, []).
Proof.
  induction got as [|m got IH]; intros rest; cbn; auto. specialize (IH rest). revert IH.
  generalize (recv_each recv (fun m => Ok m) (length got)) (map Some got ++ rest).
  assert (E : forall (p : proc (list bytes)) i g, answered p i = (Ok g, []) -> answered (pbind p (fun l => ret (m :: l))) i = (Ok (m :: g), [])).
  { induction p as [o|x k IHp|k IHp]; intros i g; cbn.
    - intros [= ->]. reflexivity.
    - destruct (answered k i). discriminate.
    - destruct i; apply IHp. }
  intros p i. apply E.
Qed.
Lemma checked_wire key ms rest : checked (ok_code key) (wire (hmac key) ms ++ rest) = map Some ms ++ checked (ok_code key) rest.
Proof.
  induction ms as [|m ms IH]; cbn; auto. unfold ok_code at 1. rewrite bytes_eqb_refl. f_equal. exact IH.
Qed.
Lemma checked_some good : forall frames d, In (Some d) (checked good frames) ->
  exists pre c post, frames = pre ++ d :: c :: post /\ good d c = true.
Proof.
  induction frames as [|x|x y l IH] using pairs_ind; intros d; cbn.
  - intros [].
  - intros [H|[]]; discriminate.
  - intros [H|H].
    + destruct (good x y) eqn:G; [|discriminate]. injection H as ->. exists [], y, l. auto.
    + destruct (IH d H) as (pre & c & post & -> & Hg). exists (x :: y :: pre), c, post. auto.
Qed.
Lemma ok_code_true key d c : ok_code key d c = true -> c = hmac key d.
Proof. apply bytes_eqb_eq. Qed.

Lemma auth_recv_delivers ks kr n frames got :
  fst (feed (over_auth hmac ks kr (recv_each recv (fun m => Ok m) n)) frames) = Ok got ->
  length got = n /\ forall d, In d got -> exists pre post, frames = pre ++ d :: hmac kr d :: post.
Proof.
  rewrite over_auth_feed. destruct (answered _ _) as [o out] eqn:E. cbn. intros ->.
  assert (F := answered_recv_each n (checked (ok_code kr) frames) got). rewrite E in F.
  destruct (F eq_refl) as (rest & H & L). split; [exact L|]. intros d Hd.
  assert (Hi : In (Some d) (checked (ok_code kr) frames)).
  { rewrite H. apply in_or_app. left. now apply in_map. }
  apply checked_some in Hi. destruct Hi as (pre & c & post & -> & Hc). apply ok_code_true in Hc. subst. eauto.
Qed.

Lemma auth_resent ks kr n ms frames got :
  resent (wire (hmac kr) ms) frames ->
  fst (feed (over_auth hmac ks kr (recv_each recv (fun m => Ok m) n)) frames) = Ok got ->
  forall d, In d got -> In d ms \/ code_accident (hmac kr) ms d.
Proof.
  intros R H d Hd. destruct (auth_recv_delivers _ _ _ _ _ H) as [_ D]. destruct (D d Hd) as (pre & post & ->).
  assert (Hc : In (hmac kr d) (wire (hmac kr) ms)) by (apply R; apply in_or_app; right; cbn; auto).
  apply wire_in in Hc. destruct Hc as (m & Hm & [E|E]).
  - right. right. now rewrite E.
  - destruct (list_eq_dec N.eq_dec m d) as [->|N]; [now left|]. right. left. exists m. split; [exact Hm|]. split; [exact N|]. now symmetry.
Qed.
End AuthProofs.

Section SignedProofs.
Variable edpub : bytes -> bytes.
Variable edsign : bytes -> bytes -> bytes.
Variable pk_valid sig_valid : bytes -> bool.
Variable edverify : bytes -> bytes -> bytes -> bool.
Hypothesis sign_ok : forall s m, sig_valid (edsign s m) = true /\ edverify (edpub s) m (edsign s m) = true.

Definition lift_signed {A B} sa sb (c : cfg A B) : cfg A B :=
  Cfg (over_signed edsign sig_valid edverify sa (edpub sb) (left_ c)) (over_signed edsign sig_valid edverify sb (edpub sa) (right_ c))
      (wire (edsign sa) (lr c)) (wire (edsign sb) (rl c)).
Lemma lift_signed_L {A B} ka kb (c c' : cfg A B) : stepL c = Some c' -> reach (lift_signed ka kb c) (lift_signed ka kb c').
Proof.
  intros S. destruct c as [l r q q']. unfold stepL in S. cbn in S. destruct l as [o|m k|k]; [discriminate| |].
  - injection S as <-. unfold lift_signed; cbn [left_ right_ lr rl]. rewrite wire_app.
    eapply reach_L; [reflexivity|]. eapply reach_L; [reflexivity|]. cbn [left_ right_ lr rl].
    rewrite <- app_assoc. apply reach_refl.
  - destruct q' as [|m q']; [discriminate|]. injection S as <-. unfold lift_signed; cbn.
    eapply reach_L; [reflexivity|]. eapply reach_L; [reflexivity|]. cbn.
    destruct (sign_ok kb m) as [-> ->]. apply reach_refl.
Qed.
Lemma lift_signed_R {A B} ka kb (c c' : cfg A B) : stepR c = Some c' -> reach (lift_signed ka kb c) (lift_signed ka kb c').
Proof.
  intros S. destruct c as [l r q q']. unfold stepR in S. cbn in S. destruct r as [o|m k|k]; [discriminate| |].
  - injection S as <-. unfold lift_signed; cbn [left_ right_ lr rl]. rewrite wire_app.
    eapply reach_R; [reflexivity|]. eapply reach_R; [reflexivity|]. cbn [left_ right_ lr rl].
    rewrite <- app_assoc. apply reach_refl.
  - destruct q as [|m q]; [discriminate|]. injection S as <-. unfold lift_signed; cbn.
    eapply reach_R; [reflexivity|]. eapply reach_R; [reflexivity|]. cbn.
    destruct (sign_ok ka m) as [-> ->]. apply reach_refl.
Qed.
Lemma over_signed_runs {A B} sa sb (p : proc A) (q : proc B) oa ob :
  runs p q oa ob ->
  runs (over_signed edsign sig_valid edverify sa (edpub sb) p) (over_signed edsign sig_valid edverify sb (edpub sa) q) oa ob.
Proof.
  intros H. unfold runs in *. change (reach (lift_signed sa sb (initial p q)) (lift_signed sa sb (final oa ob))).
  induction H as [c|c c1 c2 S _ IH|c c1 c2 S _ IH]; [apply reach_refl| |].
  - eapply reach_trans; [apply lift_signed_L; exact S|exact IH].
  - eapply reach_trans; [apply lift_signed_R; exact S|exact IH].
Qed.

Lemma signed_handshake sa sb : pk_valid (edpub sa) = true -> pk_valid (edpub sb) = true ->
  runs (signed_server edpub pk_valid sa) (signed_client edpub pk_valid sb) (Ok (edpub sb)) (Ok (edpub sa)).
Proof.
  intros Va Vb. unfold signed_server, signed_client. apply runs_send_recv. rewrite Va. apply runs_flip.
  apply runs_snd_rcv. cbn. rewrite Vb. apply runs_ret.
Qed.
End SignedProofs.

Lemma auth_handshake xpub xdh a b : length (xpub a) = 32%nat -> length (xpub b) = 32%nat -> xdh a (xpub b) = xdh b (xpub a) ->
  runs (auth_server xpub xdh a) (auth_client xpub xdh b) (Ok (xdh a (xpub b))) (Ok (xdh a (xpub b))).
Proof.
  intros La Lb E. unfold auth_server, auth_client. apply runs_snd_rcv. cbn. unfold x_public. rewrite La. cbn.
  apply runs_flip, runs_snd_rcv. cbn. rewrite Lb. cbn. rewrite <- E. apply runs_ret.
Qed.
