(** UTF-8. *)
From Coq Require Import List NArith Bool Arith Lia.
From Verif Require Import Base MBincode SpecText.
Import ListNotations.
Open Scope N_scope.

Lemma split64 c : exists q r, c = 64 * q + r /\ r < 64 /\ c / 64 = q /\ c mod 64 = r.
Proof. exists (c / 64), (c mod 64). pose proof (N.div_mod c 64 ltac:(discriminate)). pose proof (N.mod_lt c 64 ltac:(discriminate)). repeat split; lia. Qed.
Lemma join64 q r : r < 64 -> (64 * q + r) / 64 = q /\ (64 * q + r) mod 64 = r.
Proof.
  intros H. split; [symmetry; apply (N.div_unique _ _ _ r); auto; lia|symmetry; apply (N.mod_unique _ _ q); auto; lia].
Qed.
Lemma div4096 c : c / 4096 = c / 64 / 64. Proof. now rewrite N.div_div by discriminate. Qed.
Lemma div262144 c : c / 262144 = c / 64 / 64 / 64. Proof. now rewrite !N.div_div by discriminate. Qed.

Lemma utf8_encode c rest : scalar c -> utf8 (encode_scalar c ++ rest) = utf8 rest.
Proof.
  intros Hc. unfold encode_scalar. rewrite div262144, div4096.
  destruct (split64 c) as (q & r & Ec & Hr & -> & ->). destruct (split64 q) as (q1 & r1 & Eq & Hr1 & -> & ->).
  destruct (split64 q1) as (q2 & r2 & Eq1 & Hr2 & -> & ->). unfold scalar in Hc.
  destruct (N.ltb_spec c 128); [|destruct (N.ltb_spec c 2048); [|destruct (N.ltb_spec c 65536)]]; cbn [app utf8].
  - now rewrite (proj2 (N.ltb_lt _ _)) by lia.
  - destruct (N.ltb_spec (192 + q) 128); [lia|]. unfold cont.
    rewrite !(proj2 (N.leb_le _ _)) by lia. reflexivity.
  - destruct (N.ltb_spec (224 + q1) 128); [lia|]. rewrite !(proj2 (N.leb_le 194 _)) by lia. rewrite (proj2 (N.leb_gt (224 + q1) 223)) by lia. cbn [andb].
    unfold cont. destruct (N.eqb_spec (224 + q1) 224); [|destruct (N.eqb_spec (224 + q1) 237)]; rewrite !(proj2 (N.leb_le _ _)) by lia; reflexivity.
  - destruct (N.ltb_spec (240 + q2) 128); [lia|]. rewrite !(proj2 (N.leb_le 194 _)) by lia. rewrite (proj2 (N.leb_gt (240 + q2) 223)) by lia. cbn [andb].
    destruct (N.eqb_spec (240 + q2) 224); [lia|]. destruct (N.eqb_spec (240 + q2) 237); [lia|].
    rewrite (proj2 (N.leb_gt (240 + q2) 239)) by lia. rewrite andb_false_r. unfold cont.
    destruct (N.eqb_spec (240 + q2) 240); [|destruct (N.eqb_spec (240 + q2) 244)]; rewrite !(proj2 (N.leb_le _ _)) by lia; reflexivity.
Qed.
Lemma text_utf8 s : text s -> utf8 s = true.
Proof.
  intros (cs & F & ->). induction F as [|c cs Hc _ IH]; [reflexivity|]. cbn [flat_map]. now rewrite utf8_encode.
Qed.

Lemma cont_bound b : cont b = true -> exists r, b = 128 + r /\ r < 64.
Proof. unfold cont. intros H. apply andb_prop in H as [H1 H2]. apply N.leb_le in H1, H2. exists (b - 128). lia. Qed.
Lemma text_cons c s t : scalar c -> s = encode_scalar c -> text t -> text (s ++ t).
Proof. intros Hc -> (cs & F & ->). exists (c :: cs). split; [now constructor|reflexivity]. Qed.

Lemma two q r : 2 <= q < 32 -> r < 64 -> scalar (64 * q + r) /\ [192 + q; 128 + r] = encode_scalar (64 * q + r).
Proof.
  intros Hq Hr. unfold scalar, encode_scalar. destruct (join64 q r Hr) as [-> ->].
  destruct (N.ltb_spec (64 * q + r) 128); [lia|]. destruct (N.ltb_spec (64 * q + r) 2048); [|lia]. split; [lia|reflexivity].
Qed.
Lemma three_ q r s : q < 16 -> r < 64 -> s < 64 -> (q = 0 -> 32 <= r) -> (q = 13 -> r < 32) ->
  scalar (64 * (64 * q + r) + s) /\ [224 + q; 128 + r; 128 + s] = encode_scalar (64 * (64 * q + r) + s).
Proof.
  intros Hq Hr Hs H0 Hd. unfold scalar, encode_scalar. rewrite div262144, div4096. destruct (join64 (64 * q + r) s Hs) as [-> ->]. destruct (join64 q r Hr) as [-> ->].
  assert (A0 : q = 0 /\ 32 <= r \/ 1 <= q) by (destruct (N.eq_dec q 0); [left; auto|right; lia]).
  assert (A1 : q = 13 /\ r < 32 \/ q < 13 \/ 13 < q) by (destruct (N.eq_dec q 13); [left; auto|right; lia]). clear H0 Hd.
  destruct (N.ltb_spec (64 * (64 * q + r) + s) 128); [lia|]. destruct (N.ltb_spec (64 * (64 * q + r) + s) 2048); [lia|].
  destruct (N.ltb_spec (64 * (64 * q + r) + s) 65536); [|lia]. split; [lia|reflexivity].
Qed.
Lemma four q r s u : q < 5 -> r < 64 -> s < 64 -> u < 64 -> (q = 0 -> 16 <= r) -> (q = 4 -> r < 16) ->
  scalar (64 * (64 * (64 * q + r) + s) + u) /\ [240 + q; 128 + r; 128 + s; 128 + u] = encode_scalar (64 * (64 * (64 * q + r) + s) + u).
Proof.
  intros Hq Hr Hs Hu H0 Hd. unfold scalar, encode_scalar. rewrite div262144, div4096.
  destruct (join64 (64 * (64 * q + r) + s) u Hu) as [-> ->]. destruct (join64 (64 * q + r) s Hs) as [-> ->]. destruct (join64 q r Hr) as [-> ->].
  assert (A0 : q = 0 /\ 16 <= r \/ 1 <= q) by (destruct (N.eq_dec q 0); [left; auto|right; lia]).
  assert (A1 : q = 4 /\ r < 16 \/ q < 4) by (destruct (N.eq_dec q 4); [left; auto|right; lia]). clear H0 Hd.
  destruct (N.ltb_spec (64 * (64 * (64 * q + r) + s) + u) 128); [lia|]. destruct (N.ltb_spec (64 * (64 * (64 * q + r) + s) + u) 2048); [lia|].
  destruct (N.ltb_spec (64 * (64 * (64 * q + r) + s) + u) 65536); [lia|]. split; [lia|reflexivity].
Qed.

Lemma utf8_text : forall n s, (length s <= n)%nat -> utf8 s = true -> text s.
Proof.
  induction n as [|n IH]; intros s L H.
  { destruct s; [|cbn in L; lia]. now exists []. }
  destruct s as [|a l1]; [now exists []|]. cbn [utf8] in H. cbn [length] in L.
  destruct (N.ltb_spec a 128).
  { change (a :: l1) with ([a] ++ l1). apply (text_cons a); [left; lia| |apply IH; [lia|exact H]].
    unfold encode_scalar. now rewrite (proj2 (N.ltb_lt _ _)) by lia. }
  destruct l1 as [|b l2]; [discriminate|]. cbn [length] in L.
  destruct ((194 <=? a) && (a <=? 223)) eqn:E2.
  { apply andb_prop in E2 as [A1 A2]. apply N.leb_le in A1, A2. apply andb_prop in H as [Hb H]. apply cont_bound in Hb as (r & -> & Hr).
    destruct (two (a - 192) r) as [S E]; [lia|exact Hr|]. change (a :: 128 + r :: l2) with ([a; 128 + r] ++ l2).
    eapply text_cons; [exact S|rewrite <- E; f_equal; lia|apply IH; [lia|exact H]]. }
  destruct l2 as [|c l3]; [discriminate|]. cbn [length] in L.
  assert (X3 : forall r, 224 <= a < 240 -> b = 128 + r -> r < 64 -> (a = 224 -> 32 <= r) -> (a = 237 -> r < 32) -> cont c = true -> utf8 l3 = true -> text (a :: b :: c :: l3)).
  { intros r Ha -> Hr Hz Hd Hc H'. apply cont_bound in Hc as (s & -> & Hs).
    destruct (three_ (a - 224) r s) as [S E]; [lia|exact Hr|exact Hs|intros; apply Hz; lia|intros; apply Hd; lia|].
    change (a :: 128 + r :: 128 + s :: l3) with ([a; 128 + r; 128 + s] ++ l3).
    eapply text_cons; [exact S|rewrite <- E; f_equal; lia|apply IH; [lia|exact H']]. }
  destruct (N.eqb_spec a 224) as [->|N1].
  { apply andb_prop in H as [H H']. apply andb_prop in H as [H Hc]. apply andb_prop in H as [B1 B2]. apply N.leb_le in B1, B2.
    apply (X3 (b - 128)); auto; lia. }
  destruct (N.eqb_spec a 237) as [->|N2].
  { apply andb_prop in H as [H H']. apply andb_prop in H as [H Hc]. apply andb_prop in H as [B1 B2]. apply N.leb_le in B1, B2.
    apply (X3 (b - 128)); auto; lia. }
  destruct ((225 <=? a) && (a <=? 239)) eqn:E3.
  { apply andb_prop in E3 as [A1 A2]. apply N.leb_le in A1, A2. apply andb_prop in H as [H H']. apply andb_prop in H as [Hb Hc].
    apply cont_bound in Hb as (r & Eb & Hr). apply (X3 r); auto; lia. }
  destruct l3 as [|d l4]; [discriminate|]. cbn [length] in L.
  assert (X4 : forall r, 240 <= a < 245 -> b = 128 + r -> r < 64 -> (a = 240 -> 16 <= r) -> (a = 244 -> r < 16) -> cont c = true -> cont d = true -> utf8 l4 = true -> text (a :: b :: c :: d :: l4)).
  { intros r Ha -> Hr Hz Hd Hc Hdd H'. apply cont_bound in Hc as (s & -> & Hs). apply cont_bound in Hdd as (u & -> & Hu).
    destruct (four (a - 240) r s u) as [S E]; [lia|exact Hr|exact Hs|exact Hu|intros; apply Hz; lia|intros; apply Hd; lia|].
    change (a :: 128 + r :: 128 + s :: 128 + u :: l4) with ([a; 128 + r; 128 + s; 128 + u] ++ l4).
    eapply text_cons; [exact S|rewrite <- E; f_equal; lia|apply IH; [lia|exact H']]. }
  destruct (N.eqb_spec a 240) as [->|N3].
  { apply andb_prop in H as [H H']. apply andb_prop in H as [H Hd]. apply andb_prop in H as [H Hc]. apply andb_prop in H as [B1 B2]. apply N.leb_le in B1, B2.
    apply (X4 (b - 128)); auto; lia. }
  destruct (N.eqb_spec a 244) as [->|N4].
  { apply andb_prop in H as [H H']. apply andb_prop in H as [H Hd]. apply andb_prop in H as [H Hc]. apply andb_prop in H as [B1 B2]. apply N.leb_le in B1, B2.
    apply (X4 (b - 128)); auto; lia. }
  destruct ((241 <=? a) && (a <=? 243)) eqn:E4; [|discriminate].
  apply andb_prop in E4 as [A1 A2]. apply N.leb_le in A1, A2. apply andb_prop in H as [H H']. apply andb_prop in H as [H Hd]. apply andb_prop in H as [Hb Hc].
  apply cont_bound in Hb as (r & Eb & Hr). apply (X4 r); auto; lia.
Qed.

(** The encodings form a prefix code. *)
Lemma encode_inj c d x y : scalar c -> scalar d -> encode_scalar c ++ x = encode_scalar d ++ y -> c = d /\ x = y.
Proof.
  unfold scalar, encode_scalar. intros Hc Hd. rewrite !div262144, !div4096.
  destruct (split64 c) as (q & r & Ec & Hr & -> & ->). destruct (split64 q) as (q1 & r1 & Eq & Hr1 & -> & ->).
  destruct (split64 q1) as (q2 & r2 & Eq1 & Hr2 & -> & ->).
  destruct (split64 d) as (u & v & Ed & Hv & -> & ->). destruct (split64 u) as (u1 & v1 & Eu & Hv1 & -> & ->).
  destruct (split64 u1) as (u2 & v2 & Eu1 & Hv2 & -> & ->).
  destruct (N.ltb_spec c 128); [|destruct (N.ltb_spec c 2048); [|destruct (N.ltb_spec c 65536)]];
  (destruct (N.ltb_spec d 128); [|destruct (N.ltb_spec d 2048); [|destruct (N.ltb_spec d 65536)]]);
  cbn [app]; intros E; injection E; intros; subst x || idtac; split; try reflexivity; try lia; exfalso; lia.
Qed.
