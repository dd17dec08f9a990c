(** Property C107 for the third version: the sizes of its messages depend on the length of the passwords alone. *)
From Coq Require Import List NArith Bool Arith Lia.
From Verif Require Import Base MUtil MWires MCircuit MGarble MPar MBincode MProc MOt MApricot MMany MFpake MChannel MMain.
From Verif Require Import SpecWires SpecOt SpecApricot SpecMany SpecMfpake SpecFpake SpecWhole SpecSizes SpecSizes3.
From Verif Require Import PBase PProc PHang PHangOt PUtil PWires PWiresSpec PBinKey PPar PMany PBounds PWhole PCircuit PCircuit2 PHalf PFpake PSizes PSizes2 PSizes3.
From Verif Require Import CCircuit COt CApricot CMany CFpake CMfpake CFpake3 CChannel CMain CCrash CWhole CSizes.
Import ListNotations.
Open Scope N_scope.

Lemma sized_is {A B} C i L (a : A) (f : A -> proc B) Q : sized C i L (f a) Q -> sized C i L (pbind (lift (Ok a)) f) Q.
Proof. exact (fun H => H). Qed.
Lemma mapM_oks {A B} (P : B -> Prop) (f : A -> outcome B) l : (forall a, In a l -> oks P (f a)) -> oks (fun r => length r = length l /\ Forall P r) (mapM f l).
Proof.
  intros H. pose proof (oks_mapM (fun _ => P) f l H) as K. destruct (mapM f l) as [r| | |]; try exact I. cbn [oks] in *.
  split; [symmetry; exact (Forall2_length _ _ _ K)|]. clear -K. induction K; constructor; auto.
Qed.
Lemma oks_weak {A} (P Q : A -> Prop) (o : outcome A) : oks P o -> (forall a, P a -> Q a) -> oks Q o.
Proof. destruct o; cbn; auto. Qed.
Lemma oks_bind {A B} (P : A -> Prop) (Q : B -> Prop) (o : outcome A) f : oks P o -> (forall a, P a -> oks Q (f a)) -> oks Q (obind o f).
Proof. destruct o; cbn; auto. Qed.
Lemma label_pairs_size z k n : all_binary z ->
  oks (fun ms => length ms = n /\ Forall (fun m : bytes * bytes => length (fst m) = 32%nat) ms) (label_pairs z k n).
Proof.
  intros Hz. unfold label_pairs.
  match goal with |- oks _ (mapM ?f _) => pose proof (mapM_oks (fun m : bytes * bytes => length (fst m) = 32%nat) f (seq 0 n)) as K end.
  rewrite seq_length in K. apply K. clear K. intros i _.
  apply (oks_bind (fun w => In w z)).
  { pose proof (keeps_idx z (k + i)) as K. destruct (idx z (k + i)) as [w| | |]; cbn in *; auto. eapply nth_error_In; exact K. }
  intros w Hw. cbn. unfold all_binary in Hz. rewrite Forall_forall in Hz. destruct (Hz w Hw) as [(_ & L & _) _]. exact L.
Qed.
Lemma choice_bits_size v n : oks (fun cs => length cs = n) (choice_bits v n).
Proof.
  unfold choice_bits. pose proof (mapM_oks (fun _ => True) (bit_at v) (seq 0 n) (fun _ _ => oks_any _)) as K.
  destruct (mapM _ _); cbn in *; auto. now rewrite seq_length in K.
Qed.
Lemma encode_flat_size p z k n v : oks (fun e => length e = (n * 32)%nat) (encode_flat p z k n v).
Proof.
  apply keeps_oks. unfold encode_flat, LENGTH. apply keeps_rows; [apply repeat_length|lia|]. intros i row Hi Lr.
  apply (keeps_bind (fun _ => True)). { unfold bit_at. eapply keeps_bind; [apply keeps_idx|]. intros; exact I. }
  intros b _. eapply keeps_bind; [apply keeps_idx|]. intros w _. eapply keeps_weak; [apply keeps_xor_bytes_inplace|]. cbn beta. congruence.
Qed.

Section Third.
Variable sha : bytes -> bytes.
Variable fill : bytes -> nat -> bytes.
Variable gen : bytes -> nat -> bytes.
Variable G : curve.
Variable p : profile.
Variable a : arch.
Variable cores : nat.
Variable g : garbling.
Hypothesis Hf : generator fill.
Hypothesis Hh : hash32 sha.
Hypothesis HG : curve_ok G.
Hypothesis Hg : garbling_ok g.
Variables (l d : nat) (t : N).
Hypothesis Hl : good_length l.
Hypothesis Ht : t <= 65534.
Notation ext_s r rs := (sender_with sha fill p a cores r (co_receiver sha gen G p rs)).
Notation ext_r r rs := (receiver_with sha fill p a cores r (co_sender sha gen G p rs)).

Lemma sized_ext_s C i L r rs ms n : coins_ok r -> length ms = n -> Forall (fun m : bytes * bytes => length (fst m) = 32%nat) ms ->
  sized C i (ext_sender_sizes n 32 ++ L) (ext_s r rs ms) (fun M _ => M = L).
Proof.
  intros ([Ls _] & _ & [Ld _] & _) Lm Fm. unfold sender_with. rewrite <- Lm. apply sized_ap_sender; auto.
  intros m Hm. rewrite Forall_forall in Fm. apply Fm. eapply nth_error_In; exact Hm.
Qed.
Lemma sized_ext_r C i L r rs cs n : coins_ok r -> length cs = n ->
  sized C i (ext_receiver_sizes n ++ L) (ext_r r rs cs) (fun M _ => M = L).
Proof.
  intros (_ & [Lr _] & _ & _ & S0 & S1) Lc. unfold receiver_with. rewrite <- Lc. apply sized_ap_receiver; auto.
Qed.
Lemma third_garbled : exists gc dk zs, build_circuit_v2 p (l * 8) t = Ok (circ2 (l * 8) t) /\
  garble_zipped sha p g (circ2 (l * 8) t) = Ok (gc, zs, dk) /\ all_binary zs /\ length zs = (l * 8 * 3)%nat /\
  length (enc_garbled (g_order g gc)) = garbled_size3 l.
Proof.
  destruct (good_supported _ Hl) as (Hsup & Hn & Hn1).
  destruct (circ2_half sha p g (l * 8) t Hh Hg Hn Ht Hn1 Hsup) as (gc & ek & dk & zs & l0 & l1 & H).
  exists gc, dk, zs. split; [now apply build_circuit_v2_eq|]. split; [exact (garble_zipped_ok sha p g _ gc ek dk zs l0 l1 H)|].
  split; [exact (zs_binary sha p g _ _ _ _ _ _ _ H)|]. split; [exact (hk_length _ _ _ _ _ _ _ _ _ _ _ H)|].
  exact (garbled_size3_ok sha p g Hh Hg l t Hl Ht gc ek dk zs l0 l1 H).
Qed.

Lemma sized_many_sender C i L keys rm ms w : (1 <= w)%nat -> length keys = d -> key_pairs keys -> fits cores d -> (d <= 31)%nat ->
  length ms = (2 ^ d)%nat -> Forall (fun m : bytes => length m = w) ms ->
  sized C i (many_sender_sizes d w ++ L) (many_sender sha fill p cores keys (co_sender sha gen G p rm) ms d) (fun M _ => M = L).
Proof.
  intros H1w Lk [_ Hk] Hfit Hd Lm Fm. unfold many_sender.
  eapply sized_bind; [apply sized_lift, keeps_oks, keeps_idx|]. intros ? ? m0 [-> Hm0].
  assert (Lm0 : length m0 = w) by (rewrite Forall_forall in Fm; apply Fm; eapply nth_error_In; exact Hm0). rewrite Lm0.
  rewrite (y_ok sha fill Hf p cores keys ms d w); [|lia|exact Lk|exact H1w|exact Fm|lia|now apply fits_guard].
  apply sized_is. cbn [many_sender_sizes app].
  eapply sized_bind; [apply sized_send|].
  { rewrite (concat_length_w w); [lia|]. intros q Hq. apply (Y_len sha fill Hf); auto. lia. }
  intros ? ? _ ->. rewrite <- Lk. apply sized_co_sender; [exact HG|]. eapply Forall_impl; [|exact Hk]. intros k [[A _] [B _]]. split; assumption.
Qed.
Lemma sized_many_receiver C i L rm index : (d <= 31)%nat ->
  sized C i (many_receiver_sizes d ++ L) (many_receiver sha fill p (co_receiver sha gen G p rm) index d) (fun M _ => M = L).
Proof.
  intros Hd. unfold many_receiver. eapply sized_bind.
  { apply sized_lift. instantiate (1 := fun cs => length cs = d). unfold many_choices.
    match goal with |- oks _ (mapM ?f _) => pose proof (oks_mapM (fun _ _ => True) f (seq 0 d) (fun _ _ => oks_any _)) as H end.
    destruct (mapM _ _) as [cs| | |]; try exact I. cbn [oks] in *. now rewrite <- (Forall2_length _ _ _ H), seq_length. }
  intros ? ? cs [-> Lc]. eapply sized_bind; [apply sized_recv|]. intros ? ? y ->.
  eapply sized_bind; [unfold many_receiver_sizes; rewrite <- Lc; apply sized_co_receiver; exact HG|]. intros ? ? ms ->.
  do 4 (eapply sized_bind; [apply sized_any|]; intros ? ? ? ->). apply sized_any.
Qed.

Lemma sized_server3 C i keys rm r1 rs1 r2 rs2 r3 rs3 mask pws : coins_ok r1 -> coins_ok r2 -> coins_ok r3 ->
  length keys = d -> key_pairs keys -> fits cores d -> password_list d l pws -> length mask = l ->
  sized C i (server3_sizes d l)
    (server_v3 sha p mask g (ext_s r1 rs1) (fun d ms => many_sender sha fill p cores keys (co_sender sha gen G p rm) ms d) (ext_s r2 rs2) (ext_r r3 rs3) pws t)
    (fun M _ => M = []).
Proof.
  intros Hr1 Hr2 Hr3 Lk Hk Hfit (Hd & Lp & Fp) Lm. unfold server_v3, server3_sizes.
  assert (Hpow : N.of_nat (length pws) = 2 ^ N.of_nat d) by (rewrite Lp, Nnat.Nat2N.inj_pow; reflexivity).
  destruct pws as [|p0 pws]; [exfalso; cbn [length] in Lp; pose proof (Nat.pow_nonzero 2 d); lia|].
  assert (L0 : length p0 = l) by now apply Forall_inv in Fp.
  destruct third_garbled as (gc & dk & zs & Eb & Eg & Bz & Lz & Egs).
  eapply (sized_bind _ _ _ (fun M km => M = ext_receiver_sizes (8 * l) /\ snd km = mask)).
  - unfold garbler_server_v3. apply sized_is. cbv zeta. rewrite L0, Eb. apply sized_is. rewrite Eg. apply sized_is. cbv beta iota. cbn [app].
    eapply sized_bind; [apply sized_send; exact Egs|]. intros ? ? _ ->.
    eapply sized_bind; [apply sized_lift, label_pairs_size; exact Bz|]. intros ? ? m1 [-> [L1 F1]].
    eapply sized_bind; [apply sized_ext_s; [exact Hr1|lia|exact F1]|]. intros ? ? _ ->.
    eapply sized_bind; [apply sized_lift, encode_flat_size|]. intros ? ? em [-> Le].
    eapply sized_bind; [apply sized_send; rewrite Le; lia|]. intros ? ? _ ->.
    rewrite Hpow, log2_pow2; [|reflexivity|lia]. apply sized_is. rewrite Nnat.Nat2N.id.
    rewrite mask_passwords_ok by auto. apply sized_is.
    eapply sized_bind; [apply sized_many_sender; auto|].
    { destruct Hl; lia. }
    { rewrite map_length. exact Lp. }
    { apply Forall_forall. intros x Hx. apply in_map_iff in Hx as (w & <- & Hw). rewrite Forall_forall in Fp. rewrite xor_length; [exact Lm|]. now rewrite (Fp w Hw). }
    intros ? ? _ ->.
    eapply sized_bind; [apply sized_lift, label_pairs_size; exact Bz|]. intros ? ? m2 [-> [L2 F2]].
    eapply sized_bind; [apply sized_ext_s; [exact Hr2|lia|exact F2]|]. intros ? ? _ ->.
    eapply sized_bind; [apply sized_any|]. intros ? ? k ->. cbn. auto.
  - intros j M [k1 m] [-> Em]. cbn [snd] in Em. subst m. unfold evaluator_server_v3.
    eapply (sized_bind _ _ _ (fun M _ => M = [])); [|intros ? ? k2 ->; reflexivity].
    apply sized_is. cbv zeta. rewrite L0.
    eapply sized_bind; [apply sized_recv|]. intros ? ? m1 ->. eapply sized_bind; [apply sized_any|]. intros ? ? gc1 ->.
    eapply sized_bind; [apply sized_recv|]. intros ? ? m2 ->. eapply sized_bind; [apply sized_any|]. intros ? ? cl ->.
    eapply sized_bind; [apply sized_lift, choice_bits_size|]. intros ? ? cs [-> Lc].
    rewrite <- (app_nil_r (ext_receiver_sizes _)). eapply sized_bind; [apply sized_ext_r; [exact Hr3|cbn beta in Lc; lia]|]. intros ? ? em ->.
    eapply sized_bind; [apply sized_recv|]. intros ? ? se ->.
    do 4 (eapply sized_bind; [apply sized_any|]; intros ? ? ? ->). apply sized_any.
Qed.

Lemma sized_client3 C i rm r1 rs1 r2 rs2 r3 rs3 pw index : coins_ok r1 -> coins_ok r2 -> coins_ok r3 -> (d <= 31)%nat -> length pw = l ->
  sized C i (client3_sizes d l)
    (client_v3 sha p g (ext_r r1 rs1) (fun d i => many_receiver sha fill p (co_receiver sha gen G p rm) i d) (ext_r r2 rs2) (ext_s r3 rs3) pw (N.of_nat (2 ^ d)) index t)
    (fun M _ => M = []).
Proof.
  intros Hr1 Hr2 Hr3 Hd Lpw. unfold client_v3, client3_sizes.
  assert (Hpow : N.of_nat (2 ^ d) = 2 ^ N.of_nat d) by (rewrite Nnat.Nat2N.inj_pow; reflexivity).
  destruct third_garbled as (gc & dk & zs & Eb & Eg & Bz & Lz & Egs).
  eapply (sized_bind _ _ _ (fun M _ => M = [garbled_size3 l; 8 + 8 * l * 36]%nat ++ ext_sender_sizes (8 * l) 32 ++ [(8 * l * 32)%nat])).
  - unfold evaluator_client_v3. cbv zeta. rewrite Lpw.
    eapply sized_bind; [apply sized_recv|]. intros ? ? m1 ->. eapply sized_bind; [apply sized_any|]. intros ? ? gc1 ->.
    eapply sized_bind; [apply sized_lift, choice_bits_size|]. intros ? ? cs [-> Lc].
    eapply sized_bind; [apply sized_ext_r; [exact Hr1|cbn beta in Lc; lia]|]. intros ? ? ce ->.
    eapply sized_bind; [apply sized_recv|]. intros ? ? em ->.
    rewrite Hpow, log2_pow2; [|reflexivity|lia]. apply sized_is. rewrite Nnat.Nat2N.id.
    eapply sized_bind; [apply sized_many_receiver; exact Hd|]. intros ? ? mp ->.
    eapply sized_bind; [apply sized_lift, choice_bits_size|]. intros ? ? cs2 [-> Lc2].
    eapply sized_bind; [apply sized_ext_r; [exact Hr2|cbn beta in Lc2; lia]|]. intros ? ? me ->.
    do 6 (eapply sized_bind; [apply sized_any|]; intros ? ? ? ->). reflexivity.
  - intros j M [k1 mp] ->. unfold garbler_client_v3.
    eapply (sized_bind _ _ _ (fun M _ => M = [])); [|intros ? ? k2 ->; reflexivity].
    cbv zeta. rewrite Lpw, Eb. apply sized_is. rewrite Eg. apply sized_is. cbv beta iota. cbn [app].
    eapply sized_bind.
    { apply sized_lift. match goal with |- oks _ (mapM ?f _) => apply (mapM_oks (WF 2) f (seq 0 (l * 8))) end. intros k _.
      apply (oks_bind (fun _ => True)); [apply oks_any|]. intros b _.
      apply (oks_bind (fun w => In w zs)).
      { pose proof (keeps_idx zs (l * 8 * 2 + k)) as K. destruct (idx zs (l * 8 * 2 + k)) as [w| | |]; cbn in *; auto. eapply nth_error_In; exact K. }
      intros w Hw. cbn. unfold all_binary in Bz. rewrite Forall_forall in Bz. destruct (Bz w Hw) as [B0 B1]. destruct b; assumption. }
    intros ? ? input [-> [Li Fi]]. rewrite seq_length in Li.
    eapply sized_bind; [apply sized_send; exact Egs|]. intros ? ? _ ->.
    eapply sized_bind; [apply sized_send; rewrite (wires_size 2) by exact Fi; rewrite label_size2; lia|]. intros ? ? _ ->.
    eapply sized_bind; [apply sized_lift, label_pairs_size; exact Bz|]. intros ? ? m2 [-> [L2 F2]].
    eapply sized_bind; [apply sized_ext_s; [exact Hr3|lia|exact F2]|]. intros ? ? _ ->.
    eapply sized_bind; [apply sized_any|]. intros ? ? z0 ->.
    eapply sized_bind; [apply sized_lift, encode_flat_size|]. intros ? ? em [-> Le].
    eapply sized_bind; [apply sized_send; cbn beta in Le; rewrite Le; lia|]. intros ? ? _ ->. apply sized_any.
Qed.
End Third.

(** C107: whatever the peer sends, the sizes of the frames of the two sides of the third version follow from the
    length of the passwords and the number of index bits: not from the passwords, the mask, the index, the
    randomness or the messages of the peer.  The client needs no condition on what it is sent. *)
Theorem C107_v3_server : forall sha fill gen G p a cores g l d t keys rm r1 rs1 r2 rs2 r3 rs3 mask passwords ins,
  generator fill -> hash32 sha -> curve_ok G -> garbling_ok g -> good_length l -> t <= 65534 ->
  coins_ok r1 -> coins_ok r2 -> coins_ok r3 -> length keys = d -> key_pairs keys -> fits cores d ->
  password_list d l passwords -> length mask = l ->
  sends_sizes (server_v3 sha p mask g (sender_with sha fill p a cores r1 (co_receiver sha gen G p rs1))
     (fun d ms => many_sender sha fill p cores keys (co_sender sha gen G p rm) ms d)
     (sender_with sha fill p a cores r2 (co_receiver sha gen G p rs2))
     (receiver_with sha fill p a cores r3 (co_sender sha gen G p rs3)) passwords t) (server3_sizes d l) ins.
Proof.
  intros. apply (sized_feed (fun _ _ => True) _ 0); [|auto]. apply sized_server3; assumption.
Qed.
Print Assumptions C107_v3_server.
Theorem C107_v3_client : forall sha fill gen G p a cores g d t rm r1 rs1 r2 rs2 r3 rs3 pw index ins,
  generator fill -> hash32 sha -> curve_ok G -> garbling_ok g -> good_length (length pw) -> t <= 65534 ->
  coins_ok r1 -> coins_ok r2 -> coins_ok r3 -> (d <= 31)%nat ->
  sends_sizes (client_v3 sha p g (receiver_with sha fill p a cores r1 (co_sender sha gen G p rs1))
     (fun d i => many_receiver sha fill p (co_receiver sha gen G p rm) i d)
     (receiver_with sha fill p a cores r2 (co_sender sha gen G p rs2))
     (sender_with sha fill p a cores r3 (co_receiver sha gen G p rs3)) pw (N.of_nat (2 ^ d)) index t) (client3_sizes d (length pw)) ins.
Proof.
  intros. apply (sized_feed (fun _ _ => True) _ 0); [|auto]. apply sized_client3; auto.
Qed.
Print Assumptions C107_v3_client.

(** The sizes for one byte, against the garbled circuit that the garbler makes; the hypotheses can be met. *)
Example C107_v3_case :
  match build_circuit_v2 Debug 8 2 with
  | Ok c => match garble_zipped toy Debug demo_garbling c with
            | Ok (gc, _, _) => Nat.eqb (length (enc_garbled gc)) (garbled_size3 1)
            | _ => false end
  | _ => false end = true /\
  good_length 1 /\ hash32 toy /\ generator toy_gen /\ curve_ok toy_curve /\ coins_ok toy_coins /\ garbling_ok demo_garbling /\
  key_pairs (toy_keys 1) /\ password_list 1 1 [[5]; [6]] /\ fits 4 1.
Proof.
  split; [vm_compute; reflexivity|]. split; [left; lia|].
  split; [exact toy_hash32|]. split; [exact toy_gen_ok|]. split; [exact toy_curve_ok|]. split; [exact toy_coins_ok|]. split; [exact demo_garbling_ok|].
  split; [apply toy_keys_ok; lia|]. split; [|left; lia]. split; [lia|]. split; [reflexivity|]. repeat constructor.
Qed.
