(** C142: in the classic OT extension, who sends when is fixed, and the sizes of the frames depend on the sizes of the inputs. *)
From Coq Require Import List NArith Bool Arith Lia.
From Verif Require Import Base MUtil MBitMatrix MPoly MBincode MProc MOt MApricot MClassic.
From Verif Require Import SpecUtil SpecBitMatrix SpecBincode SpecOt SpecApricot SpecClassic SpecSizes SpecTurns.
From Verif Require Import PBase PUtil PPoly PProc PHang PBounds PSizes PTurns PTurns2 PClassicMachine CUtil CCircuit COt CApricot CClassic.
Import ListNotations.
Open Scope N_scope.

(** The dialogue, seen from the receiver: properties, base OT, matrix, coin flip, sums, ciphertexts. *)
Definition classic_dialogue : dialogue := [(1, 1)]%nat ++ base_dialogue 128 ++ [(1, 0); (1, 0); (0, 1); (1, 0); (2, 0); (0, 2)]%nat.

Lemma classic_first L : first_party classic_dialogue ++ L =
  Out :: In :: first_party (base_dialogue 128) ++ Out :: Out :: In :: Out :: Out :: Out :: In :: In :: L.
Proof. unfold classic_dialogue. rewrite !first_app, <- !app_assoc. reflexivity. Qed.
Lemma classic_second L : second_party classic_dialogue ++ L =
  Out :: In :: second_party (base_dialogue 128) ++ In :: In :: Out :: In :: In :: In :: Out :: Out :: L.
Proof. unfold classic_dialogue. rewrite !second_app, <- !app_assoc. reflexivity. Qed.
Section Turns.
Variable sha : bytes -> bytes.
Variables gen20 gen8 gen : bytes -> nat -> bytes.
Variable G : curve.
Variable p : profile.
Variable a : option arch.
Lemma fol_classic_sender r rs msgs : classic_coins_ok r ->
  follows (second_party classic_dialogue) (classic_sender_with sha gen20 gen8 p a r (co_receiver sha gen G p rs) msgs) (left_over []).
Proof.
  intros (_ & _ & [Ld _] & _). rewrite <- (app_nil_r (second_party _)), classic_second. unfold classic_sender_with, classic_sender.
  do 2 (eapply fol_bind; [apply fol_any|]; intros ? ? ->).
  eapply fol_bind; [apply fol_validate|]. intros ? ? ->. cbv zeta. eapply fol_bind.
  { unfold sender_cote. eapply fol_bind.
    { replace 128%nat with (length (u8_vec_to_bool_vec (coin_delta r))) at 1 by (rewrite bits_length; lia). apply fol_co_receiver. }
    intros ? ? ->. cbv zeta. fol. }
  intros ? ? ->. eapply fol_bind.
  { unfold sender_correlation. eapply fol_bind; [apply fol_coin_receiver|]. intros ? ? ->. cbv zeta. fol. }
  intros ? ? ->. unfold sender_de_rot. cbv zeta. fol. apply fol_send.
Qed.
Lemma fol_classic_receiver r rs cs : classic_coins_ok r ->
  follows (first_party classic_dialogue) (classic_receiver_with sha gen20 gen8 p a r (co_sender sha gen G p rs) cs) (left_over []).
Proof.
  intros (_ & _ & _ & _ & [L0 _] & [L1 _]). rewrite <- (app_nil_r (first_party _)), classic_first. unfold classic_receiver_with, classic_receiver.
  eapply fol_bind; [apply fol_validate|]. intros ? ? ->.
  do 2 (eapply fol_bind; [apply fol_any|]; intros ? ? ->). cbv zeta. eapply fol_bind.
  { unfold receiver_cote. cbv zeta. eapply fol_bind.
    { replace 128%nat with (length (combine (coin_seed0 r) (coin_seed1 r))) at 1 by (rewrite combine_length; lia). apply fol_co_sender. }
    intros ? ? ->. fol. }
  intros ? ? ->. eapply fol_bind.
  { unfold receiver_correlation. eapply fol_bind; [apply fol_coin_sender|]. intros ? ? ->. cbv zeta.
    eapply fol_bind; [apply fol_any|]. intros ? [x y] ->. fol. apply fol_send. }
  intros ? ? ->. unfold receiver_de_rot. cbv zeta. fol.
Qed.
End Turns.

(** C142: whatever it is sent, a party sends and receives in the order of the dialogue, which depends on nothing. *)
Theorem C142_sender : forall sha gen20 gen8 gen G p a r rs msgs, classic_coins_ok r ->
  takes_turns (classic_sender_with sha gen20 gen8 p a r (co_receiver sha gen G p rs) msgs) (second_party classic_dialogue).
Proof. intros. apply fol_turns. now apply fol_classic_sender. Qed.
Print Assumptions C142_sender.
Theorem C142_receiver : forall sha gen20 gen8 gen G p a r rs choices, classic_coins_ok r ->
  takes_turns (classic_receiver_with sha gen20 gen8 p a r (co_sender sha gen G p rs) choices) (first_party classic_dialogue).
Proof. intros. apply fol_turns. now apply fol_classic_receiver. Qed.
Print Assumptions C142_receiver.
(** C142: a receiver and a sender, with whatever inputs, coins, builds and processors, both end after at most 538 steps. *)
Theorem C142_ends : forall sha gen20 gen8 gen G p a r rs choices sha' gen20' gen8' gen' G' p' a' r' rs' msgs,
  classic_coins_ok r -> classic_coins_ok r' ->
  never_stuck (classic_receiver_with sha gen20 gen8 p a r (co_sender sha gen G p rs) choices)
    (classic_sender_with sha' gen20' gen8' p' a' r' (co_receiver sha' gen' G' p' rs') msgs) (2 * frames classic_dialogue).
Proof. intros. apply dialogue_never_stuck; [now apply fol_classic_receiver|now apply fol_classic_sender]. Qed.
Print Assumptions C142_ends.

(** ** Sizes *)
(** The sender of [n] pairs of messages of [s] bytes: properties, base OT, coin, two lists of ciphertexts. *)
Definition classic_sender_sizes (n s : nat) : list nat := [23]%nat ++ base_receiver_sizes 128 ++ [32; 8 + n * (8 + s); 8 + n * (8 + s)]%nat.
(** The receiver of [n] messages: properties, base OT, matrix, commitment and coin, two sums. *)
Definition classic_receiver_sizes (n : nat) : list nat :=
  [23]%nat ++ base_sender_sizes 128 32 ++ [8 + 128 * (8 + (n + 192) / 8); 32; 32; 24; 24]%nat.

Lemma rows_size n l : Forall (fun b : bytes => length b = n) l -> length (enc_rows l) = (8 + length l * (8 + n))%nat.
Proof. intros H. apply vec_size. eapply Forall_impl; [|exact H]. cbn. intros b <-. apply bytes_size. Qed.
Lemma xor_ref_size p x y : oks (fun z => length z = length x) (bv_xor_assign_ref p x y).
Proof.
  unfold bv_xor_assign_ref. destruct (debug_assert _ _); cbn [obind]; try exact I.
  destruct (Nat.ltb_spec (length y) (length x)); [exact I|]. cbn [oks]. rewrite zip_len. lia.
Qed.
Lemma oks_bind {A B} (P : A -> Prop) (Q : B -> Prop) (o : outcome A) (f : A -> outcome B) : oks P o -> (forall a, P a -> oks Q (f a)) -> oks Q (obind o f).
Proof. destruct o; cbn; auto. Qed.
Lemma oks_foldM {A S} (f : S -> A -> outcome S) (I : S -> Prop) l : forall s, I s ->
  (forall s a, List.In a l -> I s -> oks I (f s a)) -> oks I (foldM f l s).
Proof.
  induction l as [|a l IH]; intros s Hs H; [exact Hs|]. cbn [foldM]. apply (oks_bind I); [apply H; [now left|exact Hs]|].
  intros s' Hs'. apply IH; [exact Hs'|]. intros; apply H; [now right|assumption].
Qed.
Lemma oks_zipM {A B C} (P : A -> Prop) (Q : C -> Prop) (f : A -> B -> outcome C) l : (forall a b, P a -> oks Q (f a b)) -> forall m, Forall P l ->
  oks (fun r => Forall Q r /\ length r = Nat.min (length l) (length m)) (zipM f l m).
Proof.
  intros H. induction l as [|a l IH]; intros [|b m] Hl; cbn [zipM]; try (split; [constructor|reflexivity]).
  inversion Hl; subst. eapply oks_bind; [apply H; assumption|]. intros c Hc. eapply oks_bind; [apply IH; assumption|]. intros r [Hr Lr].
  split; [now constructor|]. cbn [length Nat.min]. now rewrite Lr.
Qed.
Lemma oks_weak {A} (P Q : A -> Prop) o : oks P o -> (forall a, P a -> Q a) -> oks Q o.
Proof. destruct o; cbn; auto. Qed.

Section Sizes.
Variable sha : bytes -> bytes.
Variables gen20 gen8 gen : bytes -> nat -> bytes.
Variable G : curve.
Variable p : profile.
Variable a : option arch.
Hypothesis Hh : hash32 sha.
Hypothesis Hg : generator gen20.
Hypothesis HG : curve_ok G.
Lemma classic_u_size l x seed0 seed1 : length seed0 = 128%nat -> length seed1 = 128%nat -> length x = l ->
  oks (fun u => length (enc_rows u) = (8 + 128 * (8 + l / 8))%nat) (classic_u p (monochrome x COMP_SEC) (expand_rows gen20 l seed0) (expand_rows gen20 l seed1)).
Proof.
  intros L0 L1 Lx. unfold classic_u.
  match goal with |- oks _ (mapM ?f ?c) => pose proof (oks_mapM (fun _ (r : bytes) => length r = (l / 8)%nat) f c) as H; assert (Lc : length c = 128%nat) end.
  { rewrite !combine_length. unfold monochrome, expand_rows. rewrite repeat_length, !map_length, L0, L1. reflexivity. }
  eapply oks_weak; [apply H|].
  - intros [y [s t]] Hin. apply in_combine_l, repeat_spec in Hin. subst y. cbn [fst snd].
    eapply oks_bind; [apply xor_ref_size|]. intros u Lu. eapply oks_weak; [apply xor_ref_size|]. intros r ->. rewrite Lu.
    unfold pack_choices. now rewrite map_length, seq_length, Lx.
  - intros u F. pose proof (Forall2_length _ _ _ F) as Lu. rewrite (rows_size (l / 8)); [now rewrite <- Lu, Lc|].
    clear -F. induction F; constructor; assumption.
Qed.
Lemma classic_sums_size x t chi : Forall (fun r : bytes => length r = 16%nat) t -> Forall (fun r : bytes => length r = 16%nat) chi ->
  oks (fun s => length (fst s) = 16%nat /\ length (snd s) = 16%nat) (classic_receiver_sums p a x t chi).
Proof.
  intros Ht Hc. rewrite Forall_forall in Ht, Hc. unfold classic_receiver_sums. apply oks_foldM; [split; reflexivity|].
  intros [xs ts] [b [r c]] Hin [Lx Lt]. cbn [fst snd] in *. apply in_combine_r in Hin. apply in_combine_l in Hin as I1. apply in_combine_r in Hin as I2.
  apply Ht in I1. apply Hc in I2. unfold poly_from. destruct (debug_assert p _); cbn [obind]; try exact I. destruct (debug_assert p _); cbn [obind]; try exact I.
  eapply oks_bind with (P := fun z => length z = 16%nat).
  { destruct b; [|exact Lx]. eapply oks_weak; [apply xor_ref_size|]. cbn beta. intros z ->. exact Lx. }
  intros z Lz. eapply oks_bind; [apply keeps_oks, keeps_gf_mul; [exact Lt|now rewrite I1|now rewrite I2]|]. intros w Lw. split; assumption.
Qed.
Lemma elem_16 l : Forall elem l -> Forall (fun r : bytes => length r = 16%nat) l.
Proof. intros H. eapply Forall_impl; [|exact H]. now intros ? [? _]. Qed.
Lemma sized_classic_receiver C i r rs cs : classic_coins_ok r ->
  sized C i (classic_receiver_sizes (length cs)) (classic_receiver_with sha gen20 gen8 p a r (co_sender sha gen G p rs) cs) (fun M _ => M = []).
Proof.
  intros (_ & [Lr _] & _ & Lb & [L0 F0] & [L1 F1]). unfold classic_receiver_sizes, classic_receiver_with, classic_receiver. cbn [app].
  eapply sized_bind; [apply sized_validate; reflexivity|]. intros ? ? _ ->.
  do 2 (eapply sized_bind; [apply sized_any|]; intros ? ? _ ->). cbv zeta. unfold receiver_cote. cbv zeta.
  eapply sized_bind with (R := fun M t => M = [32; 32; 24; 24]%nat /\ Forall elem t).
  { eapply sized_bind.
    { replace 128%nat with (length (combine (coin_seed0 r) (coin_seed1 r))) at 1 by (rewrite combine_length; lia). apply sized_co_sender; [exact HG|].
      apply Forall_forall. intros [x y] Hxy. rewrite Forall_forall in F0, F1. split;
      [apply (F0 x (in_combine_l _ _ _ _ Hxy))|apply (F1 y (in_combine_r _ _ _ _ Hxy))]. }
    intros ? ? _ ->. eapply sized_bind; [apply sized_lift, classic_u_size; [exact L0|exact L1|reflexivity]|]. intros ? ? u [-> Hu].
    rewrite app_length, Lb in Hu. eapply sized_bind; [apply sized_send; exact Hu|]. intros ? ? _ ->.
    apply sized_lift. destruct (transpose _) eqn:E; cbn [oks]; auto. eapply transposed; [|exact E]. unfold expand_rows. now rewrite map_length. }
  intros ? ? t [-> Ht]. eapply sized_bind with (R := fun M _ => M = []).
  { unfold receiver_correlation. eapply sized_bind; [apply sized_coin_sender; [exact Hh|exact Lr]|]. intros ? ? seed ->. cbv zeta.
    eapply sized_bind; [apply sized_lift, classic_sums_size; apply elem_16; [exact Ht|]; apply (chi_ok sha gen20 gen8 Hg)|]. intros ? ? [x y] [-> [Lx Ly]].
    cbn [fst snd] in Lx, Ly. eapply sized_bind; [apply sized_send; rewrite bytes_size, Lx; reflexivity|]. intros ? ? _ ->.
    apply sized_send. rewrite bytes_size, Ly. reflexivity. }
  intros ? ? _ ->. unfold receiver_de_rot. cbv zeta.
  do 2 (eapply sized_bind; [apply sized_recv|]; intros ? ? ? ->; eapply sized_bind; [apply sized_any|]; intros ? ? ? ->). apply sized_any.
Qed.
Lemma sized_classic_sender C i r rs msgs s : classic_coins_ok r -> Forall (fun m : bytes * bytes => length (fst m) = s /\ length (snd m) = s) msgs ->
  sized C i (classic_sender_sizes (length msgs) s) (classic_sender_with sha gen20 gen8 p a r (co_receiver sha gen G p rs) msgs) (fun M _ => M = []).
Proof.
  intros ([Ls _] & _ & [Ld _] & _) Hm. unfold classic_sender_sizes, classic_sender_with, classic_sender. cbn [app].
  do 2 (eapply sized_bind; [apply sized_any|]; intros ? ? _ ->).
  eapply sized_bind; [apply sized_validate; reflexivity|]. intros ? ? _ ->. cbv zeta. unfold sender_cote.
  eapply sized_bind.
  { eapply sized_bind.
    { replace 128%nat with (length (u8_vec_to_bool_vec (coin_delta r))) at 1 by (rewrite bits_length; lia). apply sized_co_receiver; exact HG. }
    intros ? ? ? ->. eapply sized_bind; [apply sized_any|]. intros ? ? ? ->. cbv zeta. eapply sized_bind; [apply sized_recv|]. intros ? ? ? ->.
    do 2 (eapply sized_bind; [apply sized_any|]; intros ? ? ? ->). apply sized_any. }
  intros ? ? q ->. eapply sized_bind.
  { unfold sender_correlation. eapply sized_bind; [apply sized_coin_receiver; exact Ls|]. intros ? ? seed ->. cbv zeta.
    eapply sized_bind; [apply sized_any|]. intros ? ? ? ->.
    do 2 (eapply sized_bind; [apply sized_recv|]; intros ? ? ? ->; eapply sized_bind; [apply sized_any|]; intros ? ? ? ->). apply sized_any. }
  intros ? ? _ ->. unfold sender_de_rot. cbv zeta.
  eapply sized_bind; [apply (sized_lift _ _ _ _ (fun _ => length msgs <= length q)%nat); destruct (Nat.ltb_spec (length q) (length msgs)) as [|Lq]; [exact I|exact Lq]|].
  intros ? ? _ [-> Lq].
  eapply sized_bind.
  { apply sized_lift, (oks_zipM (fun m : bytes * bytes => length (fst m) = s /\ length (snd m) = s) (fun m : bytes * bytes => length (fst m) = s /\ length (snd m) = s)); [|exact Hm].
    intros m v [M0 M1]. unfold classic_encrypt. eapply oks_bind; [apply keeps_oks, keeps_xor_bytes|]. intros c0 E0.
    eapply oks_bind; [apply keeps_oks, keeps_xor_bytes|]. intros c1 E1. cbn [oks fst snd]. now rewrite E0, E1. }
  intros ? ? d [-> [Fd Lk]]. rewrite map_length, combine_length, seq_length, firstn_length in Lk.
  assert (Lm : length d = length msgs) by lia.
  eapply sized_bind; [apply sized_send; rewrite (rows_size s); [now rewrite map_length, Lm|]; apply Forall_map; eapply Forall_impl; [|exact Fd]; now intros ? [? _]|].
  intros ? ? _ ->. apply sized_send. rewrite (rows_size s); [now rewrite map_length, Lm|]. apply Forall_map. eapply Forall_impl; [|exact Fd]. now intros ? [_ ?].
Qed.
End Sizes.

(** C142, sizes: whatever it is sent, the receiver sends frames of sizes that follow from the number of its choices, and the
    sender frames of sizes that follow from the number and the length of its messages.  A party that fails stops early. *)
Theorem C142_receiver_sizes : forall sha gen20 gen8 gen G p a r rs choices ins,
  hash32 sha -> generator gen20 -> curve_ok G -> classic_coins_ok r ->
  sends_sizes (classic_receiver_with sha gen20 gen8 p a r (co_sender sha gen G p rs) choices) (classic_receiver_sizes (length choices)) ins.
Proof. intros. eapply (sized_feed (fun _ _ => True)); [now apply sized_classic_receiver|auto]. Unshelve. exact 0%nat. Qed.
Print Assumptions C142_receiver_sizes.
Theorem C142_sender_sizes : forall sha gen20 gen8 gen G p a r rs msgs s ins,
  curve_ok G -> classic_coins_ok r -> Forall (fun m : bytes * bytes => length (fst m) = s /\ length (snd m) = s) msgs ->
  sends_sizes (classic_sender_with sha gen20 gen8 p a r (co_receiver sha gen G p rs) msgs) (classic_sender_sizes (length msgs) s) ins.
Proof. intros. eapply (sized_feed (fun _ _ => True)); [now apply sized_classic_sender|auto]. Unshelve. exact 0%nat. Qed.
Print Assumptions C142_sender_sizes.

(** ** Example *)
Example C142_case :
  frames classic_dialogue = 269%nat /\ classic_coins_ok classic_toy /\ curve_ok toy_curve /\ generator toy_gen /\
  N.of_nat (list_sum (classic_receiver_sizes 8)) = 18739 /\ N.of_nat (list_sum (classic_sender_sizes 8 16)) = 4579.
Proof. split; [vm_compute; reflexivity|]. split; [exact classic_toy_ok|]. split; [exact toy_curve_ok|]. split; [exact toy_gen_ok|]. split; vm_compute; reflexivity. Qed.
