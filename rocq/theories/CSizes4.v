(** Property C107 for the two older versions. *)
From Coq Require Import List NArith Bool Arith Lia.
From Verif Require Import Base MUtil MWires MCircuit MGarble MPar MBincode MProc MOt MApricot MMany MFpake MLegacy MChannel MMain.
From Verif Require Import SpecWires SpecOt SpecApricot SpecMany SpecMfpake SpecFpake SpecLegacy SpecWhole SpecSizes SpecSizes3 SpecSizes4.
From Verif Require Import PBase PProc PHang PHangOt PUtil PWires PWiresSpec PBinKey PPar PMany PBounds PWhole PCircuit PCircuit2 PHalf PFpake PLegacy PSizes PSizes2 PSizes3.
From Verif Require Import CCircuit COt CApricot CMany CFpake CMfpake CFpake3 CLegacy CChannel CMain CCrash CWhole CSizes CSizes3.
Import ListNotations.
Open Scope N_scope.

Lemma flat_labels_size z k n v : all_binary z -> oks (fun e => length e = (n * 32)%nat) (flat_labels z k n v).
Proof.
  intros Hz. unfold flat_labels.
  match goal with |- oks _ (obind (mapM ?f _) _) => pose proof (mapM_oks (fun b : bytes => length b = 32%nat) f (seq 0 n)) as K end.
  rewrite seq_length in K. eapply oks_bind; [apply K|].
  - intros i _. apply (oks_bind (fun _ => True)); [apply oks_any|]. intros b _.
    apply (oks_bind (fun w => In w z)).
    { pose proof (keeps_idx z (k + i)) as K2. destruct (idx z (k + i)) as [w| | |]; cbn in *; auto. eapply nth_error_In; exact K2. }
    intros w Hw. cbn. unfold all_binary in Hz. rewrite Forall_forall in Hz. destruct (Hz w Hw) as [(_ & L0 & _) (_ & L1 & _)]. destruct b; assumption.
  - intros rows [L F]. cbn. rewrite <- L. clear -F. induction F as [|r rows H _ IH]; [reflexivity|]. cbn [concat length Nat.mul]. rewrite app_length, H, IH. reflexivity.
Qed.
Lemma hidden_keys_size labels rows number index n : length labels = n -> Forall (fun m : bytes * bytes => length (fst m) = 32%nat) labels ->
  Forall (shape n) rows ->
  oks (fun ks => length ks = (N.to_nat number * n)%nat /\ Forall (fun m : bytes * bytes => length (fst m) = 32%nat) ks) (hidden_keys labels rows number index).
Proof.
  intros Ll Fl Fr. unfold hidden_keys.
  assert (K : forall is ks rows, Forall (shape n) rows -> Forall (fun m : bytes * bytes => length (fst m) = 32%nat) ks ->
    oks (fun st => length (fst st) = (length ks + length is * n)%nat /\ Forall (fun m : bytes * bytes => length (fst m) = 32%nat) (fst st))
      (foldM (fun (st : list (bytes * bytes) * list (list bytes)) i => let '(ks, rows) := st in
      if N.of_nat i =? index then Ok (ks ++ labels, rows)
      else match rows with [] => Panic PUnwrap | r :: rows' => Ok (ks ++ map (fun k => (k, k)) r, rows') end) is (ks, rows))).
  { clear rows Fr. induction is as [|i is IH]; intros ks rows Fr Fk; cbn [foldM].
    - cbn. split; [lia|exact Fk].
    - destruct (N.of_nat i =? index); cbn [obind].
      + specialize (IH (ks ++ labels) rows Fr). rewrite app_length, Ll in IH. eapply oks_weak; [apply IH; apply Forall_app; auto|].
        cbn beta. intros st [E F]. split; [rewrite E; cbn [length]; lia|exact F].
      + destruct rows as [|r rows]; cbn [obind]; [exact I|]. inversion Fr as [|? ? [Lr Hr] Fr']; subst.
        specialize (IH (ks ++ map (fun k => (k, k)) r) rows Fr'). rewrite app_length, map_length, Lr in IH. eapply oks_weak; [apply IH; apply Forall_app; split; [exact Fk|]|].
        { apply Forall_map. eapply Forall_impl; [|exact Hr]. cbn. auto. }
        cbn beta. intros st [E F]. split; [rewrite E; cbn [length]; lia|exact F]. }
  specialize (K (seq 0 (N.to_nat number)) [] rows Fr (Forall_nil _)). rewrite seq_length in K.
  match goal with |- oks _ (obind ?x _) => destruct x as [[ks r]| | |]; try exact I end. exact K.
Qed.

Section Older.
Variable sha : bytes -> bytes.
Variable fill : bytes -> nat -> bytes.
Variable gen : bytes -> nat -> bytes.
Variable G : curve.
Variable p : profile.
Variable a : arch.
Variable cores : nat.
Variable g : garbling.
Hypothesis Hf : generator fill.
Hypothesis Hh : hash32 sha.
Hypothesis HG : curve_ok G.
Hypothesis Hg : garbling_ok g.
Variables (l d : nat) (t : N).
Hypothesis Hl : good_length l.
Hypothesis Ht : t <= 65534.
Notation ext_s r rs := (sender_with sha fill p a cores r (co_receiver sha gen G p rs)).
Notation ext_r r rs := (receiver_with sha fill p a cores r (co_sender sha gen G p rs)).
Notation many_s keys rm := (fun d ms => many_sender sha fill p cores keys (co_sender sha gen G p rm) ms d).
Notation many_r rm := (fun d i => many_receiver sha fill p (co_receiver sha gen G p rm) i d).

Lemma first_garbled : exists gc dk zs, build_circuit p (l * 8) t = Ok (circ1 (l * 8) t) /\
  garble_zipped sha p g (circ1 (l * 8) t) = Ok (gc, zs, dk) /\ all_binary zs /\ length zs = (l * 8 * 2)%nat /\
  length (enc_garbled (g_order g gc)) = garbled_size l.
Proof.
  destruct (good_supported _ Hl) as (Hsup & Hn & Hn1).
  destruct (circ1_half sha p g (l * 8) t Hh Hg Hn Ht Hn1 Hsup) as (gc & ek & dk & zs & l0 & l1 & H).
  exists gc, dk, zs. split; [now apply build_circuit_eq|]. split; [exact (garble_zipped_ok sha p g _ gc ek dk zs l0 l1 H)|].
  split; [exact (zs_binary sha p g _ _ _ _ _ _ _ H)|]. split; [exact (hk_length _ _ _ _ _ _ _ _ _ _ _ H)|].
  exact (garbled_size_ok sha p g Hh Hg l t Hl Ht gc ek dk zs l0 l1 H).
Qed.
Lemma labels_sized (f : nat -> nat) v zs : all_binary zs ->
  oks (fun ws => length ws = (l * 8)%nat /\ Forall (WF 2) ws) (mapM (fun i => let* b := bit_at v i in let* w := idx zs (f i) in Ok (if b : bool then snd w else fst w)) (seq 0 (l * 8))).
Proof.
  intros Bz. match goal with |- oks _ (mapM ?f _) => pose proof (mapM_oks (WF 2) f (seq 0 (l * 8))) as K end. rewrite seq_length in K. apply K. clear K.
  intros k _. apply (oks_bind (fun _ => True)); [apply oks_any|]. intros b _.
  apply (oks_bind (fun w => In w zs)).
  { pose proof (keeps_idx zs (f k)) as K. destruct (idx zs (f k)) as [w| | |]; cbn in *; auto. eapply nth_error_In; exact K. }
  intros w Hw. cbn. unfold all_binary in Bz. rewrite Forall_forall in Bz. destruct (Bz w Hw) as [B0 B1]. destruct b; assumption.
Qed.

Lemma sized_server1 C i keys rm r1 rs1 r2 rs2 pws : coins_ok r1 -> coins_ok r2 ->
  length keys = d -> key_pairs keys -> fits cores d -> password_list d l pws ->
  sized C i (server1_sizes d l) (server_v1 sha p g (ext_s r1 rs1) (many_s keys rm) (ext_r r2 rs2) pws t) (fun M _ => M = []).
Proof.
  intros Hr1 Hr2 Lk Hk Hfit (Hd & Lp & Fp). unfold server_v1, server1_sizes.
  assert (Hpow : N.of_nat (length pws) = 2 ^ N.of_nat d) by (rewrite Lp, Nnat.Nat2N.inj_pow; reflexivity).
  destruct pws as [|p0 pws]; [exfalso; cbn [length] in Lp; pose proof (Nat.pow_nonzero 2 d); lia|].
  assert (L0 : length p0 = l) by now apply Forall_inv in Fp.
  destruct first_garbled as (gc & dk & zs & Eb & Eg & Bz & Lz & Egs).
  eapply (sized_bind _ _ _ (fun M _ => M = ext_receiver_sizes (2 ^ d * (8 * l)))).
  - unfold garbler_server_v1. apply sized_is. cbv zeta. rewrite L0, Eb. apply sized_is. rewrite Eg. apply sized_is. cbv beta iota. cbn [app].
    eapply sized_bind; [apply sized_send; exact Egs|]. intros ? ? _ ->.
    eapply sized_bind; [apply sized_lift, label_pairs_size; exact Bz|]. intros ? ? m1 [-> [L1 F1]].
    eapply sized_bind; [apply sized_ext_s; [exact Hf|exact HG|exact Hr1|lia|exact F1]|]. intros ? ? _ ->.
    rewrite Hpow, log2_pow2; [|reflexivity|lia]. apply sized_is. rewrite Nnat.Nat2N.id.
    eapply sized_bind; [apply sized_any|]. intros ? ? _ ->.
    eapply sized_bind; [apply sized_lift, (mapM_oks (fun e : bytes => length e = (8 * l * 32)%nat))|].
    { intros v _. eapply oks_weak; [apply flat_labels_size; exact Bz|]. cbn beta. intros e E. rewrite E. lia. }
    intros ? ? encs [-> [Le Fe]].
    eapply sized_bind; [apply sized_many_sender with (t := t); auto|].
    { destruct Hl; lia. }
    { rewrite Le. exact Lp. }
    intros ? ? _ ->. apply sized_any.
  - intros j M k1 ->. unfold evaluator_server_v1, evaluator_server_v1_seen.
    eapply (sized_bind _ _ _ (fun M _ => M = [])); [|intros ? ? k2 ->; reflexivity].
    eapply (sized_bind _ _ _ (fun M _ => M = [])); [|intros ? ? [k2 seen] ->; reflexivity].
    apply sized_is. cbv zeta. rewrite L0.
    eapply sized_bind; [apply sized_recv|]. intros ? ? m1 ->. eapply sized_bind; [apply sized_any|]. intros ? ? gc1 ->.
    eapply sized_bind; [apply sized_recv|]. intros ? ? m2 ->. eapply sized_bind; [apply sized_any|]. intros ? ? cl ->.
    eapply sized_bind; [apply sized_lift, (mapM_oks (fun cs : list bool => length cs = (l * 8)%nat)); intros; apply choice_bits_size|]. intros ? ? cs [-> [Lc Fc]].
    rewrite <- (app_nil_r (ext_receiver_sizes _)). eapply sized_bind; [apply sized_ext_r; auto|].
    { rewrite <- Lp, <- Lc. clear -Fc. induction Fc as [|c cs H _ IH]; [reflexivity|]. cbn [concat length Nat.mul]. rewrite app_length, H, IH. lia. }
    intros ? ? em ->. do 4 (eapply sized_bind; [apply sized_any|]; intros ? ? ? ->). reflexivity.
Qed.
Lemma sized_client1 C i rand rm r1 rs1 r2 rs2 pw index : coins_ok r1 -> coins_ok r2 -> (1 <= d <= 31)%nat -> length pw = l -> keys_ok rand ->
  sized C i (client1_sizes d l) (client_v1 sha p rand g (ext_r r1 rs1) (many_r rm) (ext_s r2 rs2) pw (N.of_nat (2 ^ d)) index t) (fun M _ => M = []).
Proof.
  intros Hr1 Hr2 Hd Lpw Hkeys. unfold client_v1, client1_sizes.
  assert (Hpow : N.of_nat (2 ^ d) = 2 ^ N.of_nat d) by (rewrite Nnat.Nat2N.inj_pow; reflexivity).
  destruct first_garbled as (gc & dk & zs & Eb & Eg & Bz & Lz & Egs).
  eapply (sized_bind _ _ _ (fun M _ => M = [garbled_size l; 8 + 8 * l * 36]%nat ++ ext_sender_sizes (2 ^ d * (8 * l)) 32)).
  - unfold evaluator_client_v1. cbv zeta. rewrite Lpw.
    eapply sized_bind; [apply sized_recv|]. intros ? ? m1 ->. eapply sized_bind; [apply sized_any|]. intros ? ? gc1 ->.
    eapply sized_bind; [apply sized_lift, choice_bits_size|]. intros ? ? cs [-> Lc].
    eapply sized_bind; [apply sized_ext_r; [exact Hf|exact Hh|exact HG|exact Hr1|cbn beta in Lc; lia]|]. intros ? ? ce ->.
    rewrite Hpow, log2_pow2; [|reflexivity|lia]. apply sized_is. rewrite Nnat.Nat2N.id.
    eapply sized_bind; [apply sized_many_receiver; [exact HG|lia]|]. intros ? ? mp ->.
    do 3 (eapply sized_bind; [apply sized_any|]; intros ? ? ? ->). apply sized_any.
  - intros j M k1 ->. unfold garbler_client_v1.
    eapply (sized_bind _ _ _ (fun M _ => M = [])); [|intros ? ? k2 ->; reflexivity].
    cbv zeta. rewrite Lpw, Eb. apply sized_is. rewrite Eg. apply sized_is. cbv beta iota. cbn [app].
    eapply sized_bind; [apply sized_lift, label_pairs_size; exact Bz|]. intros ? ? labels [-> [Ll Fl]].
    eapply sized_bind; [apply sized_lift, (labels_sized (fun i => i)); exact Bz|]. intros ? ? input [-> [Li Fi]].
    eapply sized_bind; [apply sized_send; exact Egs|]. intros ? ? _ ->.
    eapply sized_bind; [apply sized_send; rewrite (wires_size 2) by exact Fi; rewrite label_size2; lia|]. intros ? ? _ ->.
    assert (H2 : (2 <= 2 ^ d)%nat) by (change 2%nat with (2 ^ 1)%nat at 1; apply Nat.pow_le_mono_r; lia).
    assert (H32 : N.of_nat (2 ^ d) < 2 ^ 32) by (rewrite Hpow; apply N.pow_lt_mono_r; lia).
    destruct (random_rows_ok p rand (2 ^ d - 2) (l * 8) Hkeys) as [Er Fr]; [rewrite Nat.sub_add by exact H2; exact H32|].
    rewrite Nat.sub_add in Er by exact H2. rewrite Er. apply sized_is.
    eapply sized_bind; [apply sized_lift, (hidden_keys_size _ _ _ _ (l * 8)); [exact Ll|exact Fl|]|].
    { apply Forall_app. split; [exact Fr|]. constructor; [|constructor]. apply total_ok. exact Fr. }
    intros ? ? ks [-> [Lks Fks]]. rewrite Nnat.Nat2N.id in Lks.
    rewrite <- (app_nil_r (ext_sender_sizes _ _)). eapply sized_bind; [apply sized_ext_s; [exact Hf|exact HG|exact Hr2|rewrite Lks; lia|exact Fks]|]. intros ? ? _ ->.
    apply sized_any.
Qed.

Lemma sized_server2 C i keys rm keys' rm' r1 rs1 r2 rs2 r3 rs3 mask mask' pws : coins_ok r1 -> coins_ok r2 -> coins_ok r3 ->
  length keys = d -> key_pairs keys -> length keys' = d -> key_pairs keys' -> fits cores d -> password_list d l pws -> length mask = l -> length mask' = l ->
  sized C i (server2_sizes d l) (server_v2 sha p mask mask' g (ext_s r1 rs1) (many_s keys rm) (ext_s r2 rs2) (ext_r r3 rs3) (many_s keys' rm') pws t) (fun M _ => M = []).
Proof.
  intros Hr1 Hr2 Hr3 Lk Hk Lk' Hk' Hfit (Hd & Lp & Fp) Lm Lm'. unfold server_v2, server2_sizes.
  assert (Hpow : N.of_nat (length pws) = 2 ^ N.of_nat d) by (rewrite Lp, Nnat.Nat2N.inj_pow; reflexivity).
  destruct pws as [|p0 pws]; [exfalso; cbn [length] in Lp; pose proof (Nat.pow_nonzero 2 d); lia|].
  assert (L0 : length p0 = l) by now apply Forall_inv in Fp.
  assert (Fm : forall m, length m = l -> Forall (fun m : bytes => length m = l) (map (xor m) (p0 :: pws))).
  { intros m Em. apply Forall_forall. intros x Hx. apply in_map_iff in Hx as (w & <- & Hw). rewrite Forall_forall in Fp. rewrite xor_length; [exact Em|]. now rewrite (Fp w Hw). }
  destruct (third_garbled sha p g Hh Hg l t Hl Ht) as (gc & dk & zs & Eb & Eg & Bz & Lz & Egs).
  eapply (sized_bind _ _ _ (fun M _ => M = ext_receiver_sizes (8 * l) ++ many_sender_sizes d l)).
  - unfold garbler_server_v2. eapply (sized_bind _ _ _ (fun M _ => M = ext_receiver_sizes (8 * l) ++ many_sender_sizes d l)); [|intros ? ? [k m] ->; reflexivity].
    unfold garbler_server_v3. apply sized_is. cbv zeta. rewrite L0, Eb. apply sized_is. rewrite Eg. apply sized_is. cbv beta iota. cbn [app].
    eapply sized_bind; [apply sized_send; exact Egs|]. intros ? ? _ ->.
    eapply sized_bind; [apply sized_lift, label_pairs_size; exact Bz|]. intros ? ? m1 [-> [L1 F1]].
    eapply sized_bind; [apply sized_ext_s; [exact Hf|exact HG|exact Hr1|lia|exact F1]|]. intros ? ? _ ->.
    eapply sized_bind; [apply sized_lift, encode_flat_size|]. intros ? ? em [-> Le].
    eapply sized_bind; [apply sized_send; rewrite Le; lia|]. intros ? ? _ ->.
    rewrite Hpow, log2_pow2; [|reflexivity|lia]. apply sized_is. rewrite Nnat.Nat2N.id.
    rewrite mask_passwords_ok by auto. apply sized_is.
    eapply sized_bind; [apply sized_many_sender with (t := t); auto|].
    { destruct Hl; lia. }
    { rewrite map_length. exact Lp. }
    intros ? ? _ ->.
    eapply sized_bind; [apply sized_lift, label_pairs_size; exact Bz|]. intros ? ? m2 [-> [L2 F2]].
    eapply sized_bind; [apply sized_ext_s; [exact Hf|exact HG|exact Hr2|lia|exact F2]|]. intros ? ? _ ->.
    eapply sized_bind; [apply sized_any|]. intros ? ? k ->. reflexivity.
  - intros j M k1 ->. unfold evaluator_server_v2.
    eapply (sized_bind _ _ _ (fun M _ => M = [])); [|intros ? ? k2 ->; reflexivity].
    apply sized_is. cbv zeta. rewrite L0.
    eapply sized_bind; [apply sized_recv|]. intros ? ? m1 ->. eapply sized_bind; [apply sized_any|]. intros ? ? gc1 ->.
    eapply sized_bind; [apply sized_recv|]. intros ? ? m2 ->. eapply sized_bind; [apply sized_any|]. intros ? ? cl ->.
    eapply sized_bind; [apply sized_lift, choice_bits_size|]. intros ? ? cs [-> Lc].
    rewrite mask_passwords_ok by auto. apply sized_is.
    eapply sized_bind; [apply sized_ext_r; [exact Hf|exact Hh|exact HG|exact Hr3|cbn beta in Lc; lia]|]. intros ? ? em ->.
    rewrite Hpow, log2_pow2; [|reflexivity|lia]. apply sized_is. rewrite Nnat.Nat2N.id.
    rewrite <- (app_nil_r (many_sender_sizes _ _)). eapply sized_bind; [apply sized_many_sender with (t := t); auto|].
    { destruct Hl; lia. }
    { rewrite map_length. exact Lp. }
    intros ? ? _ ->. eapply sized_bind; [apply sized_recv|]. intros ? ? se ->.
    do 4 (eapply sized_bind; [apply sized_any|]; intros ? ? ? ->). apply sized_any.
Qed.
Lemma sized_client2 C i rm rm' r1 rs1 r2 rs2 r3 rs3 pw index : coins_ok r1 -> coins_ok r2 -> coins_ok r3 -> (d <= 31)%nat -> length pw = l ->
  sized C i (client2_sizes d l) (client_v2 sha p g (ext_r r1 rs1) (many_r rm) (ext_r r2 rs2) (ext_s r3 rs3) (many_r rm') pw (N.of_nat (2 ^ d)) index t) (fun M _ => M = []).
Proof.
  intros Hr1 Hr2 Hr3 Hd Lpw. unfold client_v2, client2_sizes.
  assert (Hpow : N.of_nat (2 ^ d) = 2 ^ N.of_nat d) by (rewrite Nnat.Nat2N.inj_pow; reflexivity).
  destruct (third_garbled sha p g Hh Hg l t Hl Ht) as (gc & dk & zs & Eb & Eg & Bz & Lz & Egs).
  eapply (sized_bind _ _ _ (fun M _ => M = [garbled_size3 l; 8 + 8 * l * 36]%nat ++ ext_sender_sizes (8 * l) 32 ++ many_receiver_sizes d ++ [(8 * l * 32)%nat])).
  - unfold evaluator_client_v2. eapply (sized_bind _ _ _ (fun M _ => M = [garbled_size3 l; 8 + 8 * l * 36]%nat ++ ext_sender_sizes (8 * l) 32 ++ many_receiver_sizes d ++ [(8 * l * 32)%nat])); [|intros ? ? [k m] E; exact E].
    unfold evaluator_client_v3. cbv zeta. rewrite Lpw.
    eapply sized_bind; [apply sized_recv|]. intros ? ? m1 ->. eapply sized_bind; [apply sized_any|]. intros ? ? gc1 ->.
    eapply sized_bind; [apply sized_lift, choice_bits_size|]. intros ? ? cs [-> Lc].
    eapply sized_bind; [apply sized_ext_r; [exact Hf|exact Hh|exact HG|exact Hr1|cbn beta in Lc; lia]|]. intros ? ? ce ->.
    eapply sized_bind; [apply sized_recv|]. intros ? ? em ->.
    rewrite Hpow, log2_pow2; [|reflexivity|lia]. apply sized_is. rewrite Nnat.Nat2N.id.
    eapply sized_bind; [apply sized_many_receiver; [exact HG|exact Hd]|]. intros ? ? mp ->.
    eapply sized_bind; [apply sized_lift, choice_bits_size|]. intros ? ? cs2 [-> Lc2].
    eapply sized_bind; [apply sized_ext_r; [exact Hf|exact Hh|exact HG|exact Hr2|cbn beta in Lc2; lia]|]. intros ? ? me ->.
    do 6 (eapply sized_bind; [apply sized_any|]; intros ? ? ? ->). reflexivity.
  - intros j M k1 ->. unfold garbler_client_v2.
    eapply (sized_bind _ _ _ (fun M _ => M = [])); [|intros ? ? k2 ->; reflexivity].
    cbv zeta. rewrite Lpw, Eb. apply sized_is. rewrite Eg. apply sized_is. cbv beta iota. cbn [app].
    eapply sized_bind; [apply sized_lift, (labels_sized (fun i => (l * 8 * 2 + i)%nat)); exact Bz|]. intros ? ? input [-> [Li Fi]].
    eapply sized_bind; [apply sized_send; exact Egs|]. intros ? ? _ ->.
    eapply sized_bind; [apply sized_send; rewrite (wires_size 2) by exact Fi; rewrite label_size2; lia|]. intros ? ? _ ->.
    eapply sized_bind; [apply sized_lift, label_pairs_size; exact Bz|]. intros ? ? m2 [-> [L2 F2]].
    eapply sized_bind; [apply sized_ext_s; [exact Hf|exact HG|exact Hr3|lia|exact F2]|]. intros ? ? _ ->.
    rewrite Hpow, log2_pow2; [|reflexivity|lia]. apply sized_is. rewrite Nnat.Nat2N.id.
    eapply sized_bind; [apply sized_many_receiver; [exact HG|exact Hd]|]. intros ? ? mp ->.
    eapply sized_bind; [apply sized_any|]. intros ? ? z0 ->.
    eapply sized_bind; [apply sized_lift, encode_flat_size|]. intros ? ? em [-> Le].
    eapply sized_bind; [apply sized_send; cbn beta in Le; rewrite Le; lia|]. intros ? ? _ ->. apply sized_any.
Qed.
End Older.

(** C107: the same for the two sides of the two older versions, whatever the peer sends.  The sizes of the first
    version grow with the number of passwords on both sides. *)
Theorem C107_v1_server : forall sha fill gen G p a cores g l d t keys rm r1 rs1 r2 rs2 passwords ins,
  generator fill -> hash32 sha -> curve_ok G -> garbling_ok g -> good_length l -> t <= 65534 ->
  coins_ok r1 -> coins_ok r2 -> length keys = d -> key_pairs keys -> fits cores d -> password_list d l passwords ->
  sends_sizes (server_v1 sha p g (sender_with sha fill p a cores r1 (co_receiver sha gen G p rs1))
     (fun d ms => many_sender sha fill p cores keys (co_sender sha gen G p rm) ms d)
     (receiver_with sha fill p a cores r2 (co_sender sha gen G p rs2)) passwords t) (server1_sizes d l) ins.
Proof.
  intros. apply (sized_feed (fun _ _ => True) _ 0); [|auto]. apply sized_server1; assumption.
Qed.
Print Assumptions C107_v1_server.
Theorem C107_v1_client : forall sha fill gen G p a cores g d t rand rm r1 rs1 r2 rs2 pw index ins,
  generator fill -> hash32 sha -> curve_ok G -> garbling_ok g -> good_length (length pw) -> t <= 65534 ->
  coins_ok r1 -> coins_ok r2 -> keys_ok rand -> (1 <= d <= 31)%nat ->
  sends_sizes (client_v1 sha p rand g (receiver_with sha fill p a cores r1 (co_sender sha gen G p rs1))
     (fun d i => many_receiver sha fill p (co_receiver sha gen G p rm) i d)
     (sender_with sha fill p a cores r2 (co_receiver sha gen G p rs2)) pw (N.of_nat (2 ^ d)) index t) (client1_sizes d (length pw)) ins.
Proof.
  intros. apply (sized_feed (fun _ _ => True) _ 0); [|auto]. apply sized_client1; auto.
Qed.
Print Assumptions C107_v1_client.
Theorem C107_v2_server : forall sha fill gen G p a cores g l d t keys rm keys' rm' r1 rs1 r2 rs2 r3 rs3 mask mask' passwords ins,
  generator fill -> hash32 sha -> curve_ok G -> garbling_ok g -> good_length l -> t <= 65534 ->
  coins_ok r1 -> coins_ok r2 -> coins_ok r3 -> length keys = d -> key_pairs keys -> length keys' = d -> key_pairs keys' -> fits cores d ->
  password_list d l passwords -> length mask = l -> length mask' = l ->
  sends_sizes (server_v2 sha p mask mask' g (sender_with sha fill p a cores r1 (co_receiver sha gen G p rs1))
     (fun d ms => many_sender sha fill p cores keys (co_sender sha gen G p rm) ms d)
     (sender_with sha fill p a cores r2 (co_receiver sha gen G p rs2))
     (receiver_with sha fill p a cores r3 (co_sender sha gen G p rs3))
     (fun d ms => many_sender sha fill p cores keys' (co_sender sha gen G p rm') ms d) passwords t) (server2_sizes d l) ins.
Proof.
  intros. apply (sized_feed (fun _ _ => True) _ 0); [|auto]. apply sized_server2; assumption.
Qed.
Print Assumptions C107_v2_server.
Theorem C107_v2_client : forall sha fill gen G p a cores g d t rm rm' r1 rs1 r2 rs2 r3 rs3 pw index ins,
  generator fill -> hash32 sha -> curve_ok G -> garbling_ok g -> good_length (length pw) -> t <= 65534 ->
  coins_ok r1 -> coins_ok r2 -> coins_ok r3 -> (d <= 31)%nat ->
  sends_sizes (client_v2 sha p g (receiver_with sha fill p a cores r1 (co_sender sha gen G p rs1))
     (fun d i => many_receiver sha fill p (co_receiver sha gen G p rm) i d)
     (receiver_with sha fill p a cores r2 (co_sender sha gen G p rs2))
     (sender_with sha fill p a cores r3 (co_receiver sha gen G p rs3))
     (fun d i => many_receiver sha fill p (co_receiver sha gen G p rm') i d) pw (N.of_nat (2 ^ d)) index t) (client2_sizes d (length pw)) ins.
Proof.
  intros. apply (sized_feed (fun _ _ => True) _ 0); [|auto]. apply sized_client2; auto.
Qed.
Print Assumptions C107_v2_client.

(** The random keys of a row exist, and the sizes for two passwords of one byte. *)
Example C107_older_case : keys_ok demo_keys /\ good_length 1 /\ password_list 1 1 [[5]; [6]] /\ key_pairs (toy_keys 1) /\ fits 4 1 /\
  hd 0%nat (server1_sizes 1 1) = 1862%nat /\ hd 0%nat (server2_sizes 1 1) = garbled_size3 1 /\
  length (server1_sizes 1 1) = 274%nat.
Proof.
  split; [exact demo_keys_ok|]. split; [left; lia|]. split; [|split; [apply toy_keys_ok; lia|split; [left; lia|]]].
  - split; [lia|]. split; [reflexivity|]. repeat constructor.
  - split; [reflexivity|]. split; [reflexivity|]. vm_compute. reflexivity.
Qed.
