(** C120: the room below which the programs clog. *)
From Coq Require Import List NArith Bool Lia Arith.
From Verif Require Import Base MUtil MWires MCircuit MGarble MPar MBincode MProc MOt MApricot MMany MFpake MChannel MMain MLegacy MLegacy2.
From Verif Require Import SpecUtil SpecWires SpecCircuit SpecGarble SpecBincode SpecOt SpecApricot SpecFpake SpecLong SpecMany SpecMfpake SpecMain SpecTurns SpecRoom.
From Verif Require Import PBase PUtil PWires PGarble PCircuit PCircuit2 PHalf PBincode PProc PHang PHangOt POt PApricotRun PApricotRun2 PMany PChannel PFpake PFpake3 PLegacy PLong PSizes PTurns PRoom PRoom2.
From Verif Require Import CCircuit COt CApricot CMany CUtil CFpake CMfpake CChannel CMain CCrash CWhole CLong CTurns CRoom.
Import ListNotations.
Open Scope N_scope.

(** ** Exchanges that need room for [n] bytes *)
(** One side sends what the other is reading, or both send fewer than [n] bytes and then read. *)
Inductive talks {A B} (n : nat) : proc A -> proc B -> proc A -> proc B -> Prop :=
| talks_end p q : talks n p q p q
| talks_right m p f p' q' : talks n p (f (Some m)) p' q' -> talks n (Snd m p) (Rcv f) p' q'
| talks_left m q f p' q' : talks n (f (Some m)) q p' q' -> talks n (Rcv f) (Snd m q) p' q'
| talks_both m m' f g p' q' : (length m < n)%nat -> (length m' < n)%nat ->
    talks n (f (Some m')) (g (Some m)) p' q' -> talks n (Snd m (Rcv f)) (Snd m' (Rcv g)) p' q'.
Lemma talks_trans {A B} n (p : proc A) (q : proc B) p1 q1 p2 q2 : talks n p q p1 q1 -> talks n p1 q1 p2 q2 -> talks n p q p2 q2.
Proof. intros H. induction H; intros H2; [exact H2|constructor; auto..]. Qed.
Lemma talks_bind {A B C D} n (p : proc A) (q : proc B) p1 q1 (f : A -> proc C) (g : B -> proc D) p2 q2 : talks n p q p1 q1 -> talks n (pbind p1 f) (pbind q1 g) p2 q2 -> talks n (pbind p f) (pbind q g) p2 q2.
Proof. intros H. induction H; intros H2; [exact H2|cbn; constructor; auto..]. Qed.
Lemma talks_lift_l {A B C} n (o : outcome A) a (f : A -> proc B) (q : proc C) p' q' : o = Ok a -> talks n (f a) q p' q' -> talks n (pbind (lift o) f) q p' q'.
Proof. intros -> H. exact H. Qed.
Lemma talks_lift_r {A B C} n (o : outcome A) a (f : A -> proc B) (q : proc C) p' q' : o = Ok a -> talks n q (f a) p' q' -> talks n q (pbind (lift o) f) p' q'.
Proof. intros -> H. exact H. Qed.
Lemma talks_send_recv {A B} n m (f : unit -> proc A) (g : bytes -> proc B) p' q' : talks n (f tt) (g m) p' q' -> talks n (pbind (send m) f) (pbind recv g) p' q'.
Proof. intros H. cbn. apply talks_right. exact H. Qed.
Lemma talks_recv_send {A B} n m (f : bytes -> proc A) (g : unit -> proc B) p' q' : talks n (f m) (g tt) p' q' -> talks n (pbind recv f) (pbind (send m) g) p' q'.
Proof. intros H. cbn. apply talks_left. exact H. Qed.
Lemma talks_clog {A B} h b n (p : proc A) (q : proc B) p' q' : (n = 0 \/ h + n <= b + 1)%nat -> talks n p q p' q' -> clogs h b p' q' -> clogs h b p q.
Proof.
  intros Hb H C. induction H as [p q|m p f p' q' _ IH|m q f p' q' _ IH|m m' f g p' q' L L' _ IH]; [exact C|..]; specialize (IH C);
    destruct IH as (k & m1 & l & m2 & r & x & y & St & Stuck).
  - exists (S (S k)), m1, l, m2, r, x, y. split; [|exact Stuck]. eapply narrow_cons; [apply narrow_send_left; right; eauto|]. eapply narrow_cons; [apply narrow_recv_right|]. exact St.
  - exists (S (S k)), m1, l, m2, r, x, y. split; [|exact Stuck]. eapply narrow_cons; [apply narrow_send_right; right; eauto|]. eapply narrow_cons; [apply narrow_recv_left|]. exact St.
  - exists (S (S (S (S k)))), m1, l, m2, r, x, y. split; [|exact Stuck].
    eapply narrow_cons; [apply narrow_send_left; left; cbn; lia|]. eapply narrow_cons; [apply narrow_send_right; left; cbn; lia|].
    eapply narrow_cons; [apply narrow_recv_left|]. eapply narrow_cons; [apply narrow_recv_right|]. exact St.
Qed.
Lemma talks_clog_auth {A B} h b n hmac k (p : proc A) (q : proc B) p' q' : (forall k m, length (hmac k m) = 32%nat) -> (n = 0 \/ 32 + 2 * h + n <= b + 1)%nat -> talks n p q p' q' ->
  clogs h b (over_auth hmac k k p') (over_auth hmac k k q') -> clogs h b (over_auth hmac k k p) (over_auth hmac k k q).
Proof.
  intros Hc Hb H C. induction H as [p q|m p f p' q' _ IH|m q f p' q' _ IH|m m' f g p' q' L L' _ IH]; [exact C|..]; specialize (IH C);
    destruct IH as (j & m1 & l & m2 & r & x & y & St & Stuck); cbn [over_auth].
  - exists (S (S (S (S j)))), m1, l, m2, r, x, y. split; [|exact Stuck].
    eapply narrow_cons; [apply narrow_send_left; right; eauto|]. eapply narrow_cons; [apply narrow_recv_right|].
    eapply narrow_cons; [apply narrow_send_left; right; eauto|]. eapply narrow_cons; [apply narrow_recv_right|]. cbv beta iota; rewrite bytes_eqb_refl. exact St.
  - exists (S (S (S (S j)))), m1, l, m2, r, x, y. split; [|exact Stuck].
    eapply narrow_cons; [apply narrow_send_right; right; eauto|]. eapply narrow_cons; [apply narrow_recv_left|].
    eapply narrow_cons; [apply narrow_send_right; right; eauto|]. eapply narrow_cons; [apply narrow_recv_left|]. cbv beta iota; rewrite bytes_eqb_refl. exact St.
  - exists (8 + j)%nat, m1, l, m2, r, x, y. split; [|exact Stuck].
    eapply narrow_cons; [apply narrow_send_left; left; cbn; lia|]. eapply narrow_cons; [apply narrow_send_left; left; cbn; rewrite Hc; lia|].
    eapply narrow_cons; [apply narrow_send_right; left; cbn; lia|]. eapply narrow_cons; [apply narrow_send_right; left; cbn; rewrite Hc; lia|].
    eapply narrow_cons; [apply narrow_recv_left|]. eapply narrow_cons; [apply narrow_recv_left|].
    eapply narrow_cons; [apply narrow_recv_right|]. eapply narrow_cons; [apply narrow_recv_right|]. cbv beta iota; rewrite !bytes_eqb_refl. exact St.
Qed.

(** ** The opening of the extension *)
Lemma talks_validate {A B} n pr (f : unit -> proc A) (g : unit -> proc B) p' q' : props_ok pr -> (16 + length (pr_protocol pr) < n)%nat -> talks n (f tt) (g tt) p' q' ->
  talks n (pbind (validate_properties pr) f) (pbind (validate_properties pr) g) p' q'.
Proof.
  intros Hp L H. destruct pr as [k s]. eapply talks_bind with (p1 := ret tt) (q1 := ret tt); [|exact H]. unfold validate_properties. cbn [pbind send recv ret].
  apply talks_both; [rewrite props_size; exact L|rewrite props_size; exact L|]. cbn [pbind ret].
  rewrite (deserialize_reads props_ok enc_props dec_props _ rt_props Hp). cbn [lift pbind]. rewrite (proj2 (props_eqb_eq _ _) eq_refl). apply talks_end.
Qed.
Lemma talks_coin {A B} n sha k v u (f : bytes -> proc A) (g : bytes -> proc B) p' q' : length v = k -> length u = k ->
  talks n (f (xor_arrays v u)) (g (xor_arrays v u)) p' q' -> talks n (pbind (coinflip_receiver sha k u) f) (pbind (coinflip_sender sha k v) g) p' q'.
Proof.
  intros Lv Lu H. eapply talks_bind with (p1 := ret (xor_arrays v u)) (q1 := ret (xor_arrays v u)); [|exact H]. unfold coinflip_receiver, coinflip_sender.
  apply talks_recv_send. apply talks_send_recv. rewrite Lu, Nat.eqb_refl. cbn [negb]. apply talks_recv_send.
  rewrite Lv, Nat.eqb_refl, bytes_eqb_refl. cbn [negb]. rewrite (xor_comm u v). apply talks_end.
Qed.
Lemma talks_ext sha fill fill' p p' a a' cores cores' r s bootR bootS msgs cs : length cs = length msgs -> (length msgs mod 8 = 0)%nat -> (1 <= length msgs)%nat ->
  usize_ok (length msgs) -> coins_ok r -> coins_ok s ->
  exists kS kR, talks 24 (sender_with sha fill p a cores r bootR msgs) (receiver_with sha fill' p' a' cores' s bootS cs)
    (pbind (bootR (u8_vec_to_bool_vec (coin_delta r))) kS) (pbind (bootS (combine (coin_seed0 s) (coin_seed1 s))) kR).
Proof.
  intros Lc M8 H1 Un ([Lu _] & _) (_ & [Lv _] & _). eexists _, _. unfold sender_with, receiver_with, ap_sender, ap_receiver. rewrite Lc.
  eapply talks_lift_l; [rewrite M8; apply debug_assert_true|]. eapply talks_lift_r; [rewrite M8; apply debug_assert_true|].
  apply talks_validate; [now apply apricot_props|cbn; lia|]. cbv zeta.
  apply talks_coin; [exact Lv|exact Lu|].
  eapply talks_lift_l; [apply idx_lt; exact H1|]. apply talks_send_recv. eapply talks_lift_r; [apply be2_value|]. apply talks_end.
Unshelve. exact ([], []).
Qed.

(** ** main.rs *)
Definition opens {A} (n : nat) (p : proc A) : Prop := exists m, starts m p /\ length m = n.
Lemma opens_bind {A B} n (p : proc A) (f : A -> proc B) : opens n p -> opens n (pbind p f).
Proof. intros (m & H & L). exists m. split; [now apply starts_bind|exact L]. Qed.
Lemma opens_co_s sha gen G p rs ms : opens 28 (co_sender sha gen G p rs ms).
Proof. apply opens_bind. eexists. split; [apply starts_validate|apply props_size]. Qed.
Lemma opens_co_r sha gen G p rs cs : opens 28 (co_receiver sha gen G p rs cs).
Proof. apply opens_bind. eexists. split; [apply starts_validate|apply props_size]. Qed.
Lemma clog_opens {A B} h b hmac k n (p : proc A) (q : proc B) : (forall k m, length (hmac k m) = 32%nat) -> opens n p -> opens n q -> (b < 32 + 2 * h + n)%nat ->
  clogs h b (over_auth hmac k k p) (over_auth hmac k k q).
Proof. intros Hc (m & H & L) (m' & H' & L') Hb. eapply clog_auth; [exact Hc|exact H|exact H'|lia|lia]. Qed.
Lemma clog_main {A} h b hmac xpub xdh sec sec' (p q : proc A) : dh_ok xpub xdh ->
  (forall k, clogs h b (over_auth hmac k k p) (over_auth hmac k k q)) -> clogs h b (serve hmac xpub xdh sec p) (connect hmac xpub xdh sec' q).
Proof.
  intros [L E] H. assert (X : forall x, x_public (xpub x) = Ok (xpub x)) by (intros x; unfold x_public; rewrite L; reflexivity).
  unfold serve, connect, auth_server, auth_client. cbn [send recv_unwrap ret pbind].
  match goal with |- clogs _ _ (Snd _ (Rcv ?l)) (Rcv ?r) => set (left := l); set (right := r) end.
  destruct (H (xdh sec (xpub sec'))) as (n & m & l & m' & r & x & y & St & Stuck).
  exists (4 + n)%nat, m, l, m', r, x, y. split; [|exact Stuck].
  eapply narrow_cons; [apply narrow_send_left; right; eauto|]. eapply narrow_cons; [apply narrow_recv_right|].
  unfold right at 1. cbn [app ret pbind]. rewrite X. cbn [lift ret pbind].
  eapply narrow_cons; [apply narrow_send_right; right; eauto|]. eapply narrow_cons; [apply narrow_recv_left|].
  unfold left. cbn [app ret pbind]. rewrite X. cbn [lift ret pbind]. rewrite <- (E sec sec'). exact St.
Qed.
Lemma talks_half sha fill fill' p p' a a' cores cores' r s bootR bootS g pw pw' t :
  hash32 sha -> garbling_ok g -> workable_length (length pw) -> length pw' = length pw -> t <= 65534 -> coins_ok r -> coins_ok s ->
  (forall cs, opens 28 (bootR cs)) -> (forall ms, opens 28 (bootS ms)) ->
  exists q q', opens 28 q /\ opens 28 q' /\ talks 24 (garbler sha p g (sender_with sha fill p a cores r bootR) pw t) (evaluator sha p' (receiver_with sha fill' p' a' cores' s bootS) pw') q q'.
Proof.
  intros Hs Hg Hw Lw Ht Hr Hr' OR OS. destruct (workable _ Hw) as (H1 & Hsup & H2 & Hlt & Hun & Hnw).
  destruct (circL_half sha p g (length pw * 8) (sum_modulus (length pw)) t Hs Hg Ht H1 Hsup Hnw) as (gc & ek & dk & zs & l0 & l1 & H).
  pose proof (hk_length _ _ _ _ _ _ _ _ _ _ _ H) as Lz. cbn [circL num_inputs] in Lz.
  assert (Lt : length (label_messages (skipn (length pw * 8) zs)) = (length pw * 8)%nat) by (unfold label_messages; rewrite map_length, skipn_length; lia).
  destruct (talks_ext sha fill fill' p p' a a' cores cores' r s bootR bootS (label_messages (skipn (length pw * 8) zs)) (u8_vec_to_bool_vec pw')) as (kS & kR & T);
    [rewrite Lt, bits_length8; lia|rewrite Lt; apply Nat.mod_mul; lia|lia|rewrite Lt; exact Hun|exact Hr|exact Hr'|].
  unfold garbler, evaluator. rewrite !bits_length8. do 2 eexists.
  split; [shelve|split; [shelve|]].
  eapply talks_lift_l; [exact (build_circuit_long p (length pw * 8) t Hlt Ht)|].
  change (N.of_nat (length pw * 8) mod 65536 + 1) with (sum_modulus (length pw)).
  eapply talks_lift_l; [exact (garble_zipped_ok _ _ _ _ _ _ _ _ _ _ H)|]. cbv beta iota.
  eapply talks_lift_l; [unfold slice_to; rewrite (proj2 (Nat.leb_le _ _)) by lia; reflexivity|].
  eapply talks_lift_l; [unfold slice_from; rewrite (proj2 (Nat.leb_le _ _)) by lia; reflexivity|].
  eapply talks_bind; [exact T|]. apply talks_end.
Unshelve. all: apply opens_bind, opens_bind; auto.
Qed.

(** C120: with less room than 60 bytes and twice the framing main.rs clogs, if the two sides agree on the length of a
    password: at the latest when the base OT opens. *)
Theorem C120_plain_exact_refuted : forall h b hmac xpub xdh sha fill fill' gen gen' G G' p p' a a' cores cores' sec sec' r r' s s' rs rs' ss ss' g g' pw pw' t t',
  (b < 60 + 2 * h)%nat -> (forall k m, length (hmac k m) = 32%nat) -> dh_ok xpub xdh -> hash32 sha -> garbling_ok g ->
  workable_length (length pw) -> length pw' = length pw -> t <= 65534 -> coins_ok r -> coins_ok s' ->
  clogs h b (main_server hmac xpub xdh sha p sec g (sender_with sha fill p a cores r (co_receiver sha gen G p rs)) (receiver_with sha fill p a cores r' (co_sender sha gen G p rs')) pw t)
            (main_client hmac xpub xdh sha p' sec' g' (sender_with sha fill' p' a' cores' s (co_receiver sha gen' G' p' ss)) (receiver_with sha fill' p' a' cores' s' (co_sender sha gen' G' p' ss')) pw' t').
Proof.
  intros h b hmac xpub xdh sha fill fill' gen gen' G G' p p' a a' cores cores' sec sec' r r' s s' rs rs' ss ss' g g' pw pw' t t' Hb Hc Hd Hs Hg Hw Lw Ht Hr Hs'.
  destruct (le_lt_dec (55 + 2 * h) b) as [H|H]; [|now apply C120_plain_refuted].
  apply clog_main; [exact Hd|]. intros k.
  destruct (talks_half sha fill fill' p p' a a' cores cores' r s' (co_receiver sha gen G p rs) (co_sender sha gen' G' p' ss') g pw pw' t Hs Hg Hw Lw Ht Hr Hs'
    ltac:(intros; apply opens_co_r) ltac:(intros; apply opens_co_s)) as (q & q' & O & O' & T).
  unfold fpake_server, fpake_client. eapply talks_clog_auth with (n := 24%nat); [exact Hc|right; lia|eapply talks_bind; [exact T|apply talks_end]|].
  eapply clog_opens with (n := 28%nat); [exact Hc|now apply opens_bind|now apply opens_bind|lia].
Qed.
Print Assumptions C120_plain_exact_refuted.

(** ** The one-of-many programs *)
Lemma talks_many sha fill gen gen' G G' p p' cores keys rm rm' fill' d l ms choice :
  generator fill -> (d <= 31)%nat -> (1 <= l)%nat -> length keys = d -> fits cores d -> length ms = (2 ^ d)%nat -> Forall (fun m : bytes => length m = l) ms ->
  exists q q', opens 28 q /\ opens 28 q' /\
    talks 0 (many_sender sha fill p cores keys (co_sender sha gen G p rm) ms d) (many_receiver sha fill' p' (co_receiver sha gen' G' p' rm') choice d) q q'.
Proof.
  intros Hf Hd Hl Lk Hfit Lm Fm. assert (H0 : (0 < length ms)%nat) by (rewrite Lm; pose proof (Nat.pow_nonzero 2 d); lia).
  assert (L0 : length (nth 0 ms []) = l) by (rewrite Forall_forall in Fm; apply Fm, nth_In; exact H0).
  do 2 eexists. split; [shelve|split; [shelve|]]. unfold many_sender, many_receiver.
  eapply talks_lift_l; [apply idx_lt; exact H0|]. rewrite L0.
  eapply talks_lift_l; [apply (y_ok sha fill Hf p cores keys ms d l); [lia|exact Lk|exact Hl|exact Fm|lia|now apply fits_guard]|].
  eapply talks_lift_r; [apply (choices_ok sha fill p p' cores keys [] d l); [lia|exact Lk|exact Hl]|].
  apply talks_send_recv. apply talks_end.
Unshelve. all: first [apply opens_co_s|apply opens_bind, opens_co_r].
Qed.
Theorem C120_many_refuted : forall h b hmac xpub xdh sha fill fill' gen gen' G G' p p' sec sec' keys rm rm' cores mask g g' ots otr ots' otr' d l passwords rest index password t t',
  (b < 60 + 2 * h)%nat -> (forall k m, length (hmac k m) = 32%nat) -> dh_ok xpub xdh -> generator fill ->
  key_pairs keys -> length keys = d -> fits cores d -> password_list d l passwords -> (1 <= l)%nat -> (length rest < l)%nat -> length mask = l ->
  clogs h b (many_server_main hmac xpub xdh sha p sec mask g (fun d ms => many_sender sha fill p cores keys (co_sender sha gen G p rm) ms d) ots otr (concat passwords ++ rest) l t)
            (many_client_main hmac xpub xdh sha p' sec' g' (fun d i => many_receiver sha fill' p' (co_receiver sha gen' G' p' rm') i d) ots' otr' password index (N.of_nat (2 ^ d)) t').
Proof.
  intros h b hmac xpub xdh sha fill fill' gen gen' G G' p p' sec sec' keys rm rm' cores mask g g' ots otr ots' otr' d l passwords rest index password t t'
    Hb Hc Hd Hf Hk Lk Hfit (Hd31 & Lp & Fp) Hl Hrest Lm.
  unfold many_server_main, many_client_main. rewrite chunks_of_concat by (auto; lia). cbn [lift ret pbind].
  apply clog_main; [exact Hd|]. intros k.
  assert (Hpow : 2 ^ N.of_nat d = N.of_nat (2 ^ d)) by (now rewrite Nat2N.inj_pow).
  assert (Hlog : forall q w, 32 <= w <= 64 -> log2_ q w (N.of_nat (2 ^ d)) = Ok (N.of_nat d)).
  { intros q w Hw. rewrite <- Hpow. apply log2_pow2; [apply N.le_lt_trans with 64; [lia|reflexivity]|lia]. }
  assert (Fx : Forall (fun m : bytes => length m = l) (map (xor mask) passwords)).
  { apply Forall_map. eapply Forall_impl; [|exact Fp]. intros y Hy. cbn beta. rewrite xor_length; congruence. }
  destruct (talks_many sha fill gen gen' G G' p p' cores keys rm rm' fill' d l (map (xor mask) passwords) index Hf ltac:(lia) Hl Lk Hfit ltac:(now rewrite map_length) Fx) as (q & q' & O & O' & T).
  assert (T' : exists x x', opens 28 x /\ opens 28 x' /\
    talks 0 (mfpake_many sha p mask g (fun d ms => many_sender sha fill p cores keys (co_sender sha gen G p rm) ms d) ots otr passwords t)
      (mfpake_single sha p' g' (fun d i => many_receiver sha fill' p' (co_receiver sha gen' G' p' rm') i d) ots' otr' password index (N.of_nat (2 ^ d)) t') x x').
  { unfold mfpake_many, mfpake_single. destruct passwords as [|p0 ps] eqn:Epw. { cbn in Lp. pose proof (Nat.pow_nonzero 2 d). lia. }
    assert (L0 : length p0 = l) by (inversion Fp; auto). rewrite <- Epw in *.
    do 2 eexists. split; [shelve|split; [shelve|]].
    eapply talks_lift_l. { rewrite Epw. reflexivity. }
    eapply talks_lift_l. { rewrite L0. apply mask_passwords_ok; auto. }
    eapply talks_lift_l. { rewrite Lp. apply Hlog. lia. }
    eapply talks_lift_r. { apply Hlog. lia. }
    rewrite Nnat.Nat2N.id. eapply talks_bind; [exact T|]. apply talks_end.
    Unshelve. all: now apply opens_bind. }
  destruct T' as (x & x' & Ox & Ox' & T').
  eapply talks_clog_auth with (n := 0%nat); [exact Hc|now left|exact T'|]. apply clog_opens with (n := 28%nat); [exact Hc|exact Ox|exact Ox'|lia].
Qed.
Print Assumptions C120_many_refuted.

(** ** The third version *)
Lemma clog_opens_raw {A B} h b n (p : proc A) (q : proc B) : opens n p -> opens n q -> (b < h + n)%nat -> clogs h b p q.
Proof. intros (m & H & L) (m' & H' & L') Hb. eapply clog_start; [exact H|exact H'|lia|lia]. Qed.
Lemma opens_ext_s sha fill p a cores r bootR msgs : (length msgs mod 8 = 0)%nat -> opens 23 (sender_with sha fill p a cores r bootR msgs).
Proof.
  intros H. unfold sender_with, ap_sender. rewrite H. eexists. split; [eapply starts_lift; [apply debug_assert_true|]; apply starts_bind, starts_validate|apply props_size].
Qed.
Lemma opens_ext_r sha fill p a cores r bootS cs : (length cs mod 8 = 0)%nat -> opens 23 (receiver_with sha fill p a cores r bootS cs).
Proof.
  intros H. unfold receiver_with, ap_receiver. rewrite H. eexists. split; [eapply starts_lift; [apply debug_assert_true|]; apply starts_bind, starts_validate|apply props_size].
Qed.
(** Programs that come to an extension and in it to the base OT. *)
Definition comes_to_base {A B} (x : proc A) (y : proc B) : Prop := exists q q' r r',
  talks 0 x y q q' /\ opens 23 q /\ opens 23 q' /\ talks 24 q q' r r' /\ opens 28 r /\ opens 28 r'.
Lemma base_bind {A B C D} (x : proc A) (y : proc B) (f : A -> proc C) (g : B -> proc D) : comes_to_base x y -> comes_to_base (pbind x f) (pbind y g).
Proof.
  intros (q & q' & r & r' & T & O & O' & T' & P & P'). exists (pbind q f), (pbind q' g), (pbind r f), (pbind r' g).
  repeat split; try (now apply opens_bind); eapply talks_bind; eauto; apply talks_end.
Qed.
Lemma base_after {A B} (x : proc A) (y : proc B) x' y' : talks 0 x y x' y' -> comes_to_base x' y' -> comes_to_base x y.
Proof. intros H (q & q' & r & r' & T & R). exists q, q', r, r'. split; [|exact R]. eapply talks_trans; eassumption. Qed.
Lemma base_lift_l {A B C} (o : outcome A) a (f : A -> proc B) (q : proc C) : o = Ok a -> comes_to_base (f a) q -> comes_to_base (pbind (lift o) f) q.
Proof. intros -> H. exact H. Qed.
Lemma base_lift_r {A B C} (o : outcome A) a (f : A -> proc B) (q : proc C) : o = Ok a -> comes_to_base q (f a) -> comes_to_base q (pbind (lift o) f).
Proof. intros -> H. exact H. Qed.
Lemma base_send_recv {A B} m (f : unit -> proc A) (g : bytes -> proc B) : comes_to_base (f tt) (g m) -> comes_to_base (pbind (send m) f) (pbind recv g).
Proof. intros H. eapply base_after; [apply talks_send_recv, talks_end|exact H]. Qed.
Lemma base_clog {A B} h b (x : proc A) (y : proc B) : (b < 28 + h)%nat -> comes_to_base x y -> clogs h b x y.
Proof.
  intros Hb (q & q' & r & r' & T & O & O' & T' & P & P'). eapply talks_clog; [now left|exact T|]. destruct (le_lt_dec (23 + h) b) as [L|L].
  - eapply talks_clog with (n := 24%nat); [right; lia|exact T'|]. eapply clog_opens_raw with (n := 28%nat); [exact P|exact P'|lia].
  - eapply clog_opens_raw with (n := 23%nat); [exact O|exact O'|lia].
Qed.
Lemma base_ext sha fill fill' gen gen' G G' p p' a a' cores cores' r s rs ss msgs cs : length cs = length msgs -> (length msgs mod 8 = 0)%nat -> (1 <= length msgs)%nat ->
  usize_ok (length msgs) -> coins_ok r -> coins_ok s ->
  comes_to_base (sender_with sha fill p a cores r (co_receiver sha gen G p rs) msgs) (receiver_with sha fill' p' a' cores' s (co_sender sha gen' G' p' ss) cs).
Proof.
  intros Lc M8 H1 Un Hr Hs.
  destruct (talks_ext sha fill fill' p p' a a' cores cores' r s (co_receiver sha gen G p rs) (co_sender sha gen' G' p' ss) msgs cs Lc M8 H1 Un Hr Hs) as (kS & kR & T).
  do 4 eexists. split; [apply talks_end|]. split; [now apply opens_ext_s|]. split; [apply opens_ext_r; congruence|]. split; [exact T|].
  split; [apply opens_bind, opens_co_r|apply opens_bind, opens_co_s].
Qed.

Section Versions.
Variables sha : bytes -> bytes.
Variables fill fill' gen gen' : bytes -> nat -> bytes.
Variables G G' : curve.
Variables p p' : profile.
Variables a a' : arch.
Variables cores cores' : nat.
Hypothesis Hs : hash32 sha.
Variable g : garbling.
Hypothesis Hg : garbling_ok g.
Variable passwords : list bytes.
Variable l : nat.
Hypothesis Hpw : Forall (fun w : bytes => length w = l) passwords.
Hypothesis Hne : passwords <> [].
Hypothesis Hgl : good_length l.
Variable password : bytes.
Hypothesis Lpass : length password = l.
Variable t : N.
Hypothesis Ht : t <= 65534.
Notation ext_s r rs := (sender_with sha fill p a cores r (co_receiver sha gen G p rs)).
Notation ext_r r rs := (receiver_with sha fill' p' a' cores' r (co_sender sha gen' G' p' rs)).
Lemma first_one : exists p0, idx passwords 0 = Ok p0 /\ length p0 = l.
Proof. destruct passwords as [|p0 ps]; [now destruct Hne|]. exists p0. split; [reflexivity|]. now inversion Hpw. Qed.
Lemma bits_fit : usize_ok (l * 8).
Proof. destruct (good_supported _ Hgl) as (_ & Hn & _). apply usize_small. apply N.le_lt_trans with 65534; [lia|reflexivity]. Qed.
Lemma base_v3 r rs many ot2 mask s ss manyr ot2r n i : coins_ok r -> coins_ok s ->
  comes_to_base (garbler_server_v3 sha p mask g (ext_s r rs) many ot2 passwords t) (evaluator_client_v3 sha p' (ext_r s ss) manyr ot2r password n i).
Proof.
  intros Hr Hs'. destruct first_one as (p0 & E0 & L0). destruct (good_supported _ Hgl) as (Hsup & Hn & Hn1).
  destruct (circ2_half sha p g (l * 8) t Hs Hg Hn Ht Hn1 Hsup) as (gc & ek & dk & zs & l0 & l1 & H).
  pose proof (hk_length _ _ _ _ _ _ _ _ _ _ _ H) as Lz. cbn [circ2 num_inputs] in Lz. pose proof bits_fit as Hun.
  unfold garbler_server_v3, evaluator_client_v3. rewrite Lpass.
  eapply base_lift_l; [exact E0|]. cbv beta zeta. rewrite L0.
  eapply base_lift_l; [apply build_circuit_v2_eq; assumption|].
  eapply base_lift_l; [exact (garble_zipped_ok _ _ _ _ _ _ _ _ _ _ H)|]. cbv beta iota.
  apply base_send_recv.
  destruct (sent_garbled _ _ _ _ _ _ _ _ _ _ Hg H) as (gc2 & Egc & Same).
  eapply base_lift_r; [exact Egc|].
  eapply base_lift_l; [apply label_pairs_ok; lia|].
  eapply base_lift_r. { rewrite <- Lpass. apply choice_bits_ok. }
  assert (Lx : length (label_messages (seg zs 0 (l * 8))) = (l * 8)%nat) by (unfold label_messages; rewrite map_length, seg_length; lia).
  apply base_bind, base_ext; [rewrite Lx, bits_length8; lia|rewrite Lx; apply Nat.mod_mul; lia|lia|rewrite Lx; exact Hun|exact Hr|exact Hs'].
Qed.
Lemma base_v1 r rs many s ss manyr n i : coins_ok r -> coins_ok s ->
  comes_to_base (garbler_server_v1 sha p g (ext_s r rs) many passwords t) (evaluator_client_v1 sha p' (ext_r s ss) manyr password n i).
Proof.
  intros Hr Hs'. destruct first_one as (p0 & E0 & L0). destruct (good_supported _ Hgl) as (Hsup & Hn & Hn1).
  destruct (circ1_half sha p g (l * 8) t Hs Hg Hn Ht Hn1 Hsup) as (gc & ek & dk & zs & l0 & l1 & H).
  pose proof (hk_length _ _ _ _ _ _ _ _ _ _ _ H) as Lz. cbn [circ1 num_inputs] in Lz. pose proof bits_fit as Hun.
  unfold garbler_server_v1, evaluator_client_v1. rewrite Lpass.
  eapply base_lift_l; [exact E0|]. cbv beta zeta. rewrite L0.
  eapply base_lift_l; [apply build_circuit_eq; assumption|].
  eapply base_lift_l; [exact (garble_zipped_ok _ _ _ _ _ _ _ _ _ _ H)|]. cbv beta iota.
  apply base_send_recv.
  destruct (sent_garbled _ _ _ _ _ _ _ _ _ _ Hg H) as (gc2 & Egc & Same).
  eapply base_lift_r; [exact Egc|].
  eapply base_lift_l; [apply label_pairs_ok; lia|].
  eapply base_lift_r. { rewrite <- Lpass. apply choice_bits_ok. }
  assert (Lx : length (label_messages (seg zs 0 (l * 8))) = (l * 8)%nat) by (unfold label_messages; rewrite map_length, seg_length; lia).
  apply base_bind, base_ext; [rewrite Lx, bits_length8; lia|rewrite Lx; apply Nat.mod_mul; lia|lia|rewrite Lx; exact Hun|exact Hr|exact Hs'].
Qed.
End Versions.

(** C120: the versions of the one-of-many exchange clog on a raw channel with less room than 28 bytes and the framing of a
    frame, whatever follows the first extension. *)
Theorem C120_versions_refuted : forall h b sha fill fill' gen gen' G G' p p' a a' cores cores' r1 rs1 s1 ss1 g g' mask mask' rand
    many1 many2 ot2 ot2' ot3 many1' many2' ot2r ot2r' ot3' l passwords password n i t t',
  (b < 28 + h)%nat -> hash32 sha -> garbling_ok g -> Forall (fun w : bytes => length w = l) passwords -> passwords <> [] -> good_length l -> length password = l ->
  t <= 65534 -> coins_ok r1 -> coins_ok s1 ->
  let ext_s := sender_with sha fill p a cores r1 (co_receiver sha gen G p rs1) in
  let ext_r := receiver_with sha fill' p' a' cores' s1 (co_sender sha gen' G' p' ss1) in
  clogs h b (server_v1 sha p g ext_s many1 ot3 passwords t) (client_v1 sha p' rand g' ext_r many1' ot3' password n i t') /\
  clogs h b (server_v2 sha p mask mask' g ext_s many1 ot2 ot3 many2 passwords t) (client_v2 sha p' g' ext_r many1' ot2r ot3' many2' password n i t') /\
  clogs h b (server_v3 sha p mask g ext_s many1 ot2' ot3 passwords t) (client_v3 sha p' g' ext_r many1' ot2r' ot3' password n i t') /\
  clogs h b (server_v12 sha p mask g ext_s many1 ot3 many2 passwords t) (client_v12 sha p' g' ext_r many1' ot3' many2' password n i t') /\
  clogs h b (server_v21 sha p mask g ext_s many1 ot2 ot3 passwords t) (client_v21 sha p' rand g' ext_r many1' ot2r ot3' password n i t').
Proof.
  intros h b sha fill fill' gen gen' G G' p p' a a' cores cores' r1 rs1 s1 ss1 g g' mask mask' rand
    many1 many2 ot2 ot2' ot3 many1' many2' ot2r ot2r' ot3' l passwords password n i t t' Hb Hs Hg Hpw Hne Hgl Lp Ht Hr Hr' ext_s ext_r.
  split; [|split; [|split; [|split]]]; (apply base_clog; [exact Hb|]).
  - unfold server_v1, client_v1. apply base_bind. now apply base_v1 with (l := l).
  - unfold server_v2, client_v2, garbler_server_v2, evaluator_client_v2. apply base_bind, base_bind. now apply base_v3 with (l := l).
  - unfold server_v3, client_v3. apply base_bind. now apply base_v3 with (l := l).
  - unfold server_v12, client_v12. apply base_bind. now apply base_v1 with (l := l).
  - unfold server_v21, client_v21, garbler_server_v2, evaluator_client_v2. apply base_bind, base_bind. now apply base_v3 with (l := l).
Qed.
Print Assumptions C120_versions_refuted.

(** ** Examples *)
(** Three bytes of password: enough at 76 bytes with frames of 8 bytes of framing, clogged at 75. *)
Example room_exact :
  clogs 8 75 (main_server long_mac toy_pub toy_dh toy Debug [7] demo_garbling (demo_sender Debug) (small_receiver Debug) [97; 98; 99] 1)
             (main_client long_mac toy_pub toy_dh toy Release [9] demo_garbling (demo_sender Release) (small_receiver Release) [97; 98; 100] 1) /\
  ends_within 8 76 (main_server long_mac toy_pub toy_dh toy Debug [7] demo_garbling (demo_sender Debug) (small_receiver Debug) [97; 98; 99] 1)
             (main_client long_mac toy_pub toy_dh toy Release [9] demo_garbling (demo_sender Release) (small_receiver Release) [97; 98; 100] 1) 2172.
Proof.
  split.
  - apply C120_plain_exact_refuted; [lia|exact long_mac_length|exact toy_dh_ok|exact toy_hash32|exact demo_garbling_ok| |reflexivity|discriminate|exact toy_coins_ok|exact toy_coins_ok].
    apply good_workable. unfold good_length. cbn [length]. lia.
  - replace 2172%nat with (2 * frames (channel_dialogue plain_dialogue))%nat by (vm_compute; reflexivity).
    apply C120_plain; try exact toy_coins_ok; try exact long_mac_length. lia.
Qed.
(** A list of two passwords of three bytes, on both kinds of channel. *)
Example room_exact_many : (59 < 60 + 2 * 0)%nat /\ key_pairs (toy_keys 1) /\ fits 4 1 /\ password_list 1 3 [[97; 98; 99]; [1; 2; 3]] /\
  clogs 0 59 (many_server_main long_mac toy_pub toy_dh toy Debug [7] [5; 6; 7] demo_garbling (fun d ms => many_sender toy toy_gen Debug 4 (toy_keys 1) (co_sender toy toy_gen toy_curve Debug (fun _ => 1)) ms d)
               (demo_sender Debug) (small_receiver Debug) (concat [[97; 98; 99]; [1; 2; 3]] ++ [0]) 3 1)
             (many_client_main long_mac toy_pub toy_dh toy Release [9] demo_garbling (fun d i => many_receiver toy toy_gen Release (co_receiver toy toy_gen toy_curve Release (fun _ => 1)) i d)
               (demo_sender Release) (small_receiver Release) [1; 2; 3] 1 (N.of_nat (2 ^ 1)) 1) /\
  clogs 4 31 (server_v3 toy Debug [5; 6; 7] demo_garbling (demo_sender Debug) (fun _ _ => ret tt) (demo_sender Debug) (small_receiver Debug) [[97; 98; 99]; [1; 2; 3]] 1)
             (client_v3 toy Release demo_garbling (small_receiver Release) (fun _ _ => ret []) (small_receiver Release) (demo_sender Release) [1; 2; 3] 2 1 1).
Proof.
  assert (F : fits 4 1) by (left; lia). assert (P : password_list 1 3 [[97; 98; 99]; [1; 2; 3]]) by (split; [lia|split; [reflexivity|repeat constructor]]).
  split; [lia|]. split; [apply toy_keys_ok; lia|]. split; [exact F|]. split; [exact P|]. split.
  - apply C120_many_refuted; [lia|exact long_mac_length|exact toy_dh_ok|exact toy_gen_ok|apply toy_keys_ok; lia|reflexivity|exact F|exact P|lia|cbn; lia|reflexivity].
  - destruct (C120_versions_refuted 4 31 toy toy_gen toy_gen toy_gen toy_gen toy_curve toy_curve Debug Release X86 X86 4 4 toy_coins (fun _ => 1) toy_coins (fun _ => 1)
      demo_garbling demo_garbling [5; 6; 7] [] (fun _ _ => []) (fun _ _ => ret tt) (fun _ _ => ret tt) (demo_sender Debug) (demo_sender Debug) (small_receiver Debug)
      (fun _ _ => ret []) (fun _ _ => ret []) (small_receiver Release) (small_receiver Release) (demo_sender Release) 3 [[97; 98; 99]; [1; 2; 3]] [1; 2; 3] 2 1 1 1
      ltac:(lia) toy_hash32 demo_garbling_ok (proj2 (proj2 P)) ltac:(discriminate) ltac:(unfold good_length; lia) eq_refl ltac:(discriminate) toy_coins_ok toy_coins_ok) as (_ & _ & H & _).
    exact H.
Qed.
