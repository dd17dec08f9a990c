(** Proofs about SpecMiddle.v. *)
From Coq Require Import List NArith Bool Lia Arith.
From Verif Require Import Base MProc MChannel MMain SpecChannel SpecMiddle SpecMain PBase PProc PChannel.
Import ListNotations.

Lemma moves_trans {A M B} (c1 c2 c3 : net A M B) : moves c1 c2 -> moves c2 c3 -> moves c1 c3.
Proof. intros H. revert c3. induction H; intros c3 K; auto. econstructor; eauto. Qed.
Lemma moves_one {A M B} (c1 c2 : net A M B) : move c1 c2 -> moves c1 c2.
Proof. intros H. econstructor; [exact H|apply moves_refl]. Qed.

Section Coded.
Variable hmac : bytes -> bytes -> bytes.
Variables kl kr : bytes.
Definition code_to (s : side) : bytes -> bytes := match s with L => hmac kl | R => hmac kr end.
Definition lift_net {A M B} (c : net A M B) : net A M B :=
  Net (over_auth hmac kl kl (lp _ _ _ c)) (coded code_to (mp _ _ _ c)) (over_auth hmac kr kr (rp _ _ _ c))
      (wire (hmac kl) (from_l _ _ _ c)) (wire (hmac kl) (to_l _ _ _ c)) (wire (hmac kr) (from_r _ _ _ c)) (wire (hmac kr) (to_r _ _ _ c)).

Lemma lift_move {A M B} (c c' : net A M B) : move c c' -> moves (lift_net c) (lift_net c').
Proof.
  destruct 1; unfold lift_net; cbn [lp mp rp from_l to_l from_r to_r over_auth coded]; rewrite ?wire_app.
  - eapply moves_cons; [apply l_snd|]. eapply moves_cons; [apply l_snd|]. cbn [wire flat_map app]. rewrite <- app_assoc. apply moves_refl.
  - eapply moves_cons; [apply l_rcv|]. cbv beta iota. eapply moves_cons; [apply l_rcv|]. cbv beta iota. rewrite bytes_eqb_refl. apply moves_refl.
  - eapply moves_cons; [apply r_snd|]. eapply moves_cons; [apply r_snd|]. rewrite <- app_assoc. apply moves_refl.
  - eapply moves_cons; [apply r_rcv|]. cbv beta iota. eapply moves_cons; [apply r_rcv|]. cbv beta iota. rewrite bytes_eqb_refl. apply moves_refl.
  - eapply moves_cons; [apply m_to_l|]. eapply moves_cons; [apply m_to_l|]. rewrite <- app_assoc. apply moves_refl.
  - eapply moves_cons; [apply m_to_r|]. eapply moves_cons; [apply m_to_r|]. rewrite <- app_assoc. apply moves_refl.
  - eapply moves_cons; [apply m_from_l|]. eapply moves_cons; [apply m_from_l|]. apply moves_refl.
  - eapply moves_cons; [apply m_from_r|]. eapply moves_cons; [apply m_from_r|]. apply moves_refl.
Qed.
Lemma coded_between {A M B} (p : proc A) (b : man M) (q : proc B) oa x ob :
  between p b q oa x ob -> between (over_auth hmac kl kl p) (coded code_to b) (over_auth hmac kr kr q) oa x ob.
Proof.
  unfold between. intros H.
  change (moves (lift_net (Net p b q [] [] [] [])) (lift_net (Net (Done oa) (Gone x) (Done ob) [] [] [] []))).
  induction H; [apply moves_refl|]. eapply moves_trans; [apply lift_move; eassumption|assumption].
Qed.
End Coded.

Section Signed.
Variable edsign : bytes -> bytes -> bytes.
Variable edpub : bytes -> bytes.
Variable sig_valid : bytes -> bool.
Variable edverify : bytes -> bytes -> bytes -> bool.
Hypothesis ed_ok : forall s m, sig_valid (edsign s m) = true /\ edverify (edpub s) m (edsign s m) = true.
Variables sa sb xs xc : bytes.
Definition sign_to (s : side) : bytes -> bytes := match s with L => edsign xs | R => edsign xc end.
Definition lift_snet {A M B} (c : net A M B) : net A M B :=
  Net (over_signed edsign sig_valid edverify sa (edpub xs) (lp _ _ _ c)) (coded sign_to (mp _ _ _ c))
      (over_signed edsign sig_valid edverify sb (edpub xc) (rp _ _ _ c))
      (wire (edsign sa) (from_l _ _ _ c)) (wire (edsign xs) (to_l _ _ _ c)) (wire (edsign sb) (from_r _ _ _ c)) (wire (edsign xc) (to_r _ _ _ c)).
Lemma lift_smove {A M B} (c c' : net A M B) : move c c' -> moves (lift_snet c) (lift_snet c').
Proof.
  destruct 1; unfold lift_snet; cbn [lp mp rp from_l to_l from_r to_r over_signed coded]; rewrite ?wire_app.
  - eapply moves_cons; [apply l_snd|]. eapply moves_cons; [apply l_snd|]. rewrite <- app_assoc. apply moves_refl.
  - destruct (ed_ok xs m) as [V E].
    eapply moves_cons; [apply l_rcv|]. cbv beta iota. eapply moves_cons; [apply l_rcv|]. cbv beta iota. rewrite V, E. apply moves_refl.
  - eapply moves_cons; [apply r_snd|]. eapply moves_cons; [apply r_snd|]. rewrite <- app_assoc. apply moves_refl.
  - destruct (ed_ok xc m) as [V E].
    eapply moves_cons; [apply r_rcv|]. cbv beta iota. eapply moves_cons; [apply r_rcv|]. cbv beta iota. rewrite V, E. apply moves_refl.
  - eapply moves_cons; [apply m_to_l|]. eapply moves_cons; [apply m_to_l|]. rewrite <- app_assoc. apply moves_refl.
  - eapply moves_cons; [apply m_to_r|]. eapply moves_cons; [apply m_to_r|]. rewrite <- app_assoc. apply moves_refl.
  - eapply moves_cons; [apply m_from_l|]. eapply moves_cons; [apply m_from_l|]. apply moves_refl.
  - eapply moves_cons; [apply m_from_r|]. eapply moves_cons; [apply m_from_r|]. apply moves_refl.
Qed.
Lemma coded_between_signed {A M B} (p : proc A) (b : man M) (q : proc B) oa x ob :
  between p b q oa x ob ->
  between (over_signed edsign sig_valid edverify sa (edpub xs) p) (coded sign_to b) (over_signed edsign sig_valid edverify sb (edpub xc) q) oa x ob.
Proof.
  unfold between. intros H.
  change (moves (lift_snet (Net p b q [] [] [] [])) (lift_snet (Net (Done oa) (Gone x) (Done ob) [] [] [] []))).
  induction H; [apply moves_refl|]. eapply moves_trans; [apply lift_smove; eassumption|assumption].
Qed.
End Signed.

(** The handshakes. *)
Lemma split_auth_between hmac xpub xdh a b xs xc {A M B} (p : proc A) (m : man M) (q : proc B) oa x ob : dh_ok xpub xdh ->
  between p m q oa x ob ->
  between (serve hmac xpub xdh a p) (split_auth hmac xpub xdh xs xc m) (connect hmac xpub xdh b q) oa x ob.
Proof.
  intros [Len Sym] H. apply (coded_between hmac (xdh xs (xpub a)) (xdh xc (xpub b))) in H.
  unfold between in *. unfold serve, connect, auth_server, auth_client, split_auth, send, recv_unwrap, lift, ret, x_public. cbn [pbind].
  eapply moves_cons; [apply l_snd|]. cbn [app]. eapply moves_cons; [apply m_from_l|].
  eapply moves_cons; [apply m_to_l|]. cbn [app]. eapply moves_cons; [apply m_to_r|]. cbn [app].
  eapply moves_cons; [apply l_rcv|]. cbn [pbind]. rewrite Len. cbn [Nat.eqb pbind].
  eapply moves_cons; [apply r_rcv|]. cbn [pbind]. rewrite Len. cbn [Nat.eqb pbind].
  eapply moves_cons; [apply r_snd|]. cbn [app]. eapply moves_cons; [apply m_from_r|]. cbv beta.
  rewrite (Sym a xs), (Sym b xc). exact H.
Qed.
Lemma split_signed_between edpub edsign pk_valid sig_valid edverify sa sb xs xc {A M B} (p : proc A) (m : man M) (q : proc B) oa x ob :
  (forall s m, sig_valid (edsign s m) = true /\ edverify (edpub s) m (edsign s m) = true) -> (forall s, pk_valid (edpub s) = true) ->
  between p m q oa x ob ->
  between (let! pk := signed_server edpub pk_valid sa in over_signed edsign sig_valid edverify sa pk p) (split_signed edpub edsign xs xc m)
          (let! pk := signed_client edpub pk_valid sb in over_signed edsign sig_valid edverify sb pk q) oa x ob.
Proof.
  intros Ed Pk H. apply (coded_between_signed edsign edpub sig_valid edverify Ed sa sb xs xc) in H.
  unfold between in *. unfold signed_server, signed_client, split_signed, send, recv_unwrap, recv, ret. cbn [pbind].
  eapply moves_cons; [apply l_snd|]. cbn [app]. eapply moves_cons; [apply m_from_l|].
  eapply moves_cons; [apply m_to_l|]. cbn [app]. eapply moves_cons; [apply m_to_r|]. cbn [app].
  eapply moves_cons; [apply l_rcv|]. cbn [pbind]. rewrite Pk. cbn [pbind].
  eapply moves_cons; [apply r_rcv|]. cbn [pbind]. rewrite Pk. cbn [pbind].
  eapply moves_cons; [apply r_snd|]. cbn [app]. eapply moves_cons; [apply m_from_r|]. exact H.
Qed.

(** Two separate sessions. *)
Lemma talk_left {A B C M} (c : cfg A C) (c' : cfg A C) (k : outcome C -> man M) (q : proc B) : reach c c' -> forall fr tr,
  moves (Net (left_ c) (talk L (right_ c) k) q (lr c) (rl c) fr tr) (Net (left_ c') (talk L (right_ c') k) q (lr c') (rl c') fr tr).
Proof.
  induction 1 as [c|c c1 c2 S _ IH|c c1 c2 S _ IH]; intros fr tr; [apply moves_refl| |]; specialize (IH fr tr); destruct c as [l r q1 q2]; cbn [left_ right_ lr rl] in *.
  - unfold stepL in S. cbn [left_ right_ lr rl] in S. destruct l as [o|m l|l]; [discriminate| |].
    + injection S as <-. eapply moves_cons; [apply l_snd|]. exact IH.
    + destruct q2 as [|m q2]; [discriminate|]. injection S as <-. eapply moves_cons; [apply l_rcv|]. exact IH.
  - unfold stepR in S. cbn [left_ right_ lr rl] in S. destruct r as [o|m r|r]; [discriminate| |].
    + injection S as <-. eapply moves_cons; [apply m_to_l|]. exact IH.
    + destruct q1 as [|m q1]; [discriminate|]. injection S as <-. eapply moves_cons; [apply m_from_l|]. exact IH.
Qed.
Lemma talk_right {A B C M} (c : cfg C B) (c' : cfg C B) (k : outcome C -> man M) (p : proc A) : reach c c' -> forall fl tl,
  moves (Net p (talk R (left_ c) k) (right_ c) fl tl (rl c) (lr c)) (Net p (talk R (left_ c') k) (right_ c') fl tl (rl c') (lr c')).
Proof.
  induction 1 as [c|c c1 c2 S _ IH|c c1 c2 S _ IH]; intros fl tl; [apply moves_refl| |]; specialize (IH fl tl); destruct c as [l r q1 q2]; cbn [left_ right_ lr rl] in *.
  - unfold stepL in S. cbn [left_ right_ lr rl] in S. destruct l as [o|m l|l]; [discriminate| |].
    + injection S as <-. eapply moves_cons; [apply m_to_r|]. exact IH.
    + destruct q2 as [|m q2]; [discriminate|]. injection S as <-. eapply moves_cons; [apply m_from_r|]. exact IH.
  - unfold stepR in S. cbn [left_ right_ lr rl] in S. destruct r as [o|m r|r]; [discriminate| |].
    + injection S as <-. eapply moves_cons; [apply r_snd|]. exact IH.
    + destruct q1 as [|m q1]; [discriminate|]. injection S as <-. eapply moves_cons; [apply r_rcv|]. exact IH.
Qed.
Lemma two_sessions {A B C D} (p : proc A) (c : proc C) (s : proc D) (q : proc B) oa oc od ob :
  runs p c oa oc -> runs s q od ob ->
  between p (talk L c (fun x => talk R s (fun y => Gone (x, y)))) q oa (oc, od) ob.
Proof.
  intros H1 H2. unfold between. eapply moves_trans.
  - exact (talk_left _ _ (fun x => talk R s (fun y => Gone (x, y))) q H1 [] []).
  - cbn [final initial left_ right_ lr rl talk].
    exact (talk_right _ _ (fun y => Gone (oc, y)) (Done oa) H2 [] []).
Qed.
