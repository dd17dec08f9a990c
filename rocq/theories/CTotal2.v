(** C131: release builds of the three versions of the one-of-many exchange always end with a key. *)
From Coq Require Import List NArith Bool Lia Arith.
From Verif Require Import Base MUtil MWires MCircuit MGarble MPar MBincode MProc MOt MApricot MMany MFpake MLegacy.
From Verif Require Import SpecUtil SpecWires SpecCircuit SpecGarble SpecBincode SpecOt SpecApricot SpecFpake SpecMany SpecMfpake SpecLegacy SpecTotal.
From Verif Require Import PBase PUtil PWires PGarble PHalf PProc POt PPar PApricotRun PFpake CMfpake PFpake3 PTotal PTotal2 PTotal3 PTotal4 PTotal5 PLegacy CCircuit CGarble COt CApricot CFpake CFpake3 CLegacy CTotal.
Import ListNotations.
Open Scope N_scope.

(** C131: whatever the length of the passwords, the thresholds and the distance, both sides end with a key of
    32 bytes. *)
Theorem C131_exchange_ends : forall sha g g' dom manyS manyR ot1S ot1R ot2S ot2R ot3S ot3R d l passwords mask index pw password t t',
  hash32 sha -> any_coins g -> any_coins g' -> many_correct dom manyS manyR ->
  ot_correct extension_ok ot1S ot1R -> ot_correct extension_ok ot2S ot2R -> ot_correct extension_ok ot3S ot3R ->
  dom d -> password_list d l passwords -> (1 <= l)%nat -> usize_ok (l * 64) -> length mask = l ->
  nth_error passwords (N.to_nat index) = Some pw -> length password = l ->
  exists k k', length k = 32%nat /\ length k' = 32%nat /\
    runs (server_v3 sha Release mask g ot1S manyS ot2S ot3R passwords t)
         (client_v3 sha Release g' ot1R manyR ot2R ot3S password (N.of_nat (2 ^ d)) index t') (Ok k) (Ok k').
Proof.
  intros sha g g' dom manyS manyR ot1S ot1R ot2S ot2R ot3S ot3R d l passwords mask index pw password t t'
    Hs Hg Hg' Hm H1 H2 H3 Hd Hpl Hl Hu Lm Hi Lp.
  assert (Lpw : length pw = l) by (destruct Hpl as (_ & _ & F); rewrite Forall_forall in F; apply F; eapply nth_error_In; eauto).
  destruct (release_server_garbles sha Hs g Hg l Hl Hu t passwords mask pw password (list_first d l passwords Hpl) Lm Lpw Lp
    ot1S ot1R ot2S ot2R dom manyS manyR d index H1 H2 Hm Hd Hpl Hi) as (k1 & k1' & L1 & L1' & R1).
  destruct (release_client_garbles sha Hs g' Hg' l Hl Hu t' passwords mask pw password (list_first d l passwords Hpl) Lm Lpw Lp ot3S ot3R H3) as (k2 & k2' & L2 & L2' & R2).
  exists (combine_keys k1 k2'), (combine_keys k1' k2). split; [|split].
  - unfold combine_keys, xor. rewrite zipWith_length, L1, L2'. reflexivity.
  - unfold combine_keys, xor. rewrite zipWith_length, L1', L2. reflexivity.
  - unfold server_v3, client_v3. eapply runs_bind; [exact R1|]. cbv beta iota. eapply runs_bind; [apply runs_flip; exact R2|]. apply runs_ret.
Qed.
Print Assumptions C131_exchange_ends.

(** 16 bytes are 128 bits, whose modulus 129 debug builds do not support, and both thresholds wrap. *)
Example many_ends_example : exists k k', length k = 32%nat /\ length k' = 32%nat /\
  runs (server_v3 toy Release (repeat 9 16) demo_garbling (demo_sender Release) (demo_many Release) (demo_sender Release) (demo_receiver Release)
         [repeat 1 16; repeat 2 16; repeat 3 16; repeat 4 16] 65535)
       (client_v3 toy Release demo_garbling (demo_receiver Release) (demo_one Release) (demo_receiver Release) (demo_sender Release)
         (repeat 255 16) 4 2 70000) (Ok k) (Ok k').
Proof.
  apply (C131_exchange_ends toy demo_garbling demo_garbling (fun d => d = 2%nat) (demo_many Release) (demo_one Release)
    (demo_sender Release) (demo_receiver Release) (demo_sender Release) (demo_receiver Release) (demo_sender Release) (demo_receiver Release)
    2 16 _ (repeat 9 16) 2 (repeat 3 16) (repeat 255 16) 65535 70000);
    [exact toy_hash32|exact demo_any|exact demo_any|apply demo_many_ok|apply demo_OT|apply demo_OT|apply demo_OT|reflexivity|
    |lia|reflexivity|reflexivity|reflexivity|reflexivity].
  split; [lia|]. split; [reflexivity|]. repeat constructor.
Qed.

(** C131 for the exchange of [mfpake_many] and [mfpake_single]. *)
Theorem C131_mfpake_ends : forall sha g g' dom manyS manyR otS otR otS' otR' d l passwords mask index pw password t t',
  hash32 sha -> any_coins g -> any_coins g' -> many_correct dom manyS manyR -> ot_correct extension_ok otS otR -> ot_correct extension_ok otS' otR' ->
  dom d -> password_list d l passwords -> (1 <= l)%nat -> usize_ok (l * 64) -> length mask = l ->
  nth_error passwords (N.to_nat index) = Some pw -> length password = l ->
  exists k k', length k = 32%nat /\ length k' = 32%nat /\
    runs (mfpake_many sha Release mask g manyS otS otR' passwords t)
         (mfpake_single sha Release g' manyR otS' otR password index (N.of_nat (2 ^ d)) t') (Ok k) (Ok k').
Proof.
  intros sha g g' dom manyS manyR otS otR otS' otR' d l passwords mask index pw password t t' Hs Hg Hg' Hm Hot Hot' Hd Hpl H1 Hu Lm Hi Lpw.
  assert (Hpl' := Hpl). destruct Hpl' as (Hd31 & Lp & Fp).
  assert (Lpwi : length pw = l) by (rewrite Forall_forall in Fp; apply Fp; eapply nth_error_In; eauto).
  set (x := xor (xor mask pw) password).
  assert (Lx : length x = length mask) by (unfold x; rewrite !xor_length; rewrite ?xor_length; lia).
  destruct (half_runs sha g otS otR mask x t Hs Hg Hot) as (k1 & k1' & L1 & L1' & R1); [exact Lx|lia|now rewrite Lm|].
  destruct (half_runs sha g' otS' otR' x mask t' Hs Hg' Hot') as (k2 & k2' & L2 & L2' & R2); [now symmetry|lia|now rewrite Lx, Lm|].
  exists (combine_keys k1 k2'), (combine_keys k1' k2). split; [|split].
  - unfold combine_keys, xor. rewrite zipWith_length, L1, L2'. reflexivity.
  - unfold combine_keys, xor. rewrite zipWith_length, L1', L2. reflexivity.
  - assert (Hpow : 2 ^ N.of_nat d = N.of_nat (2 ^ d)) by (now rewrite Nat2N.inj_pow).
    assert (Hlog : forall q w, 32 <= w <= 64 -> log2_ q w (N.of_nat (2 ^ d)) = Ok (N.of_nat d)).
    { intros q w Hw. rewrite <- Hpow. apply log2_pow2; [apply N.le_lt_trans with 64; [lia|reflexivity]|lia]. }
    destruct (list_first d l passwords Hpl) as (p0 & E0 & L0). unfold mfpake_many, mfpake_single.
    eapply runs_lift_l. { unfold idx. rewrite E0. reflexivity. } rewrite L0.
    eapply runs_lift_l. { apply mask_passwords_ok; auto. }
    eapply runs_lift_l. { rewrite Lp. apply Hlog. lia. }
    eapply runs_lift_r. { apply Hlog. lia. }
    rewrite Nat2N.id. eapply runs_bind.
    { apply (Hm d (map (xor mask) passwords) index (xor mask pw)); auto.
      - now rewrite map_length.
      - exists l. split; [lia|]. apply Forall_map. eapply Forall_impl; [|exact Fp]. intros y Hy. cbn beta. rewrite xor_length; congruence.
      - now apply map_nth_error. }
    eapply runs_lift_r. { apply xor_bytes_inplace_ok. rewrite xor_length; congruence. }
    fold x. eapply runs_bind; [exact R1|]. eapply runs_bind; [apply runs_flip; exact R2|]. apply runs_ret.
Qed.
Print Assumptions C131_mfpake_ends.
Example mfpake_ends_example : exists k k', length k = 32%nat /\ length k' = 32%nat /\
  runs (mfpake_many toy Release (repeat 9 16) demo_garbling (demo_many Release) (demo_sender Release) (demo_receiver Release)
         [repeat 1 16; repeat 2 16; repeat 3 16; repeat 4 16] 65535)
       (mfpake_single toy Release demo_garbling (demo_one Release) (demo_sender Release) (demo_receiver Release) (repeat 255 16) 2 4 70000) (Ok k) (Ok k').
Proof.
  apply (C131_mfpake_ends toy demo_garbling demo_garbling (fun d => d = 2%nat) (demo_many Release) (demo_one Release)
    (demo_sender Release) (demo_receiver Release) (demo_sender Release) (demo_receiver Release) 2 16 _ (repeat 9 16) 2 (repeat 3 16) (repeat 255 16) 65535 70000);
    [exact toy_hash32|exact demo_any|exact demo_any|apply demo_many_ok|apply demo_OT|apply demo_OT|reflexivity|
    |lia|reflexivity|reflexivity|reflexivity|reflexivity].
  split; [lia|]. split; [reflexivity|]. repeat constructor.
Qed.

(** C131 for the first version, with at least two passwords. *)
Theorem C131_v1_ends : forall sha g g' dom manyS manyR ot1S ot1R ot2S ot2R rand d l passwords index pw password t t',
  hash32 sha -> any_coins g -> any_coins g' -> many_correct dom manyS manyR ->
  ot_correct extension_ok ot1S ot1R -> ot_correct extension_ok ot2S ot2R -> keys_ok rand ->
  dom d -> (1 <= d)%nat -> password_list d l passwords -> (1 <= l)%nat -> usize_ok (2 ^ d * (l * 64)) ->
  nth_error passwords index = Some pw -> length password = l ->
  exists k k', length k = 32%nat /\ length k' = 32%nat /\
    runs (server_v1 sha Release g ot1S manyS ot2R passwords t)
         (client_v1 sha Release rand g' ot1R manyR ot2S password (N.of_nat (2 ^ d)) (N.of_nat index) t') (Ok k) (Ok k').
Proof.
  intros sha g g' dom manyS manyR ot1S ot1R ot2S ot2R rand d l passwords index pw password t t'
    Hs Hg Hg' Hm H1 H2 Hk Hd Hd1 (H31 & Ll & F) Hl Hu Hi Lp.
  assert (B1 : (2 ^ 1 <= 2 ^ d)%nat) by (apply Nat.pow_le_mono_r; lia). cbn [Nat.pow Nat.mul Nat.add] in B1.
  assert (B2 : N.of_nat (2 ^ d) < 2 ^ 32). { rewrite Nat2N.inj_pow. apply N.pow_lt_mono_r; [reflexivity|apply N.le_lt_trans with 31; [lia|reflexivity]]. }
  set (c := (2 ^ d)%nat) in *.
  assert (Hu1 : usize_ok (l * 64)). { eapply usize_le; [|exact Hu]. rewrite <- (Nat.mul_1_l (l * 64)) at 1. apply Nat.mul_le_mono_r. lia. }
  destruct (release_server_v1 sha Hs g Hg l Hl Hu1 passwords pw password t F Lp index Hi ot1S ot1R dom manyS manyR d H1 Hm Hd H31 Ll) as (k1 & k1' & L1 & L1' & R1).
  assert (Ec : c = (c - 2 + 2)%nat) by lia.
  destruct (release_client_v1 sha Hs g' Hg' l Hl Hu1 passwords pw password t' F Lp index Hi ot2S ot2R rand (c - 2) H2 Hk) as (k2 & k2' & seen & L2 & L2' & R2).
  { now rewrite <- Ec. } { now rewrite <- Ec. } { rewrite <- Ec. eapply usize_le; [|exact Hu]. apply Nat.mul_le_mono_l. lia. }
  rewrite <- Ec in R2.
  exists (combine_keys k1 k2'), (combine_keys k1' k2). split; [|split].
  - unfold combine_keys, xor. rewrite zipWith_length, L1, L2'. reflexivity.
  - unfold combine_keys, xor. rewrite zipWith_length, L1', L2. reflexivity.
  - unfold server_v1, client_v1. eapply runs_bind; [exact R1|]. cbv beta iota. eapply runs_bind; [apply runs_flip|apply runs_ret].
    unfold evaluator_server_v1. eapply runs_then_r; [exact R2|reflexivity].
Qed.
Print Assumptions C131_v1_ends.

(** C131 for the second version. *)
Theorem C131_v2_ends : forall sha g g' dom manyS manyR ot1S ot1R ot2S ot2R ot3S ot3R d l passwords mask mask' index pw password t t',
  hash32 sha -> any_coins g -> any_coins g' -> many_correct dom manyS manyR ->
  ot_correct extension_ok ot1S ot1R -> ot_correct extension_ok ot2S ot2R -> ot_correct extension_ok ot3S ot3R ->
  dom d -> password_list d l passwords -> (1 <= l)%nat -> usize_ok (l * 64) -> length mask = l -> length mask' = l ->
  nth_error passwords (N.to_nat index) = Some pw -> length password = l ->
  exists k k', length k = 32%nat /\ length k' = 32%nat /\
    runs (server_v2 sha Release mask mask' g ot1S manyS ot2S ot3R manyS passwords t)
         (client_v2 sha Release g' ot1R manyR ot2R ot3S manyR password (N.of_nat (2 ^ d)) index t') (Ok k) (Ok k').
Proof.
  intros sha g g' dom manyS manyR ot1S ot1R ot2S ot2R ot3S ot3R d l passwords mask mask' index pw password t t'
    Hs Hg Hg' Hm H1 H2 H3 Hd Hpl Hl Hu Lm Lm' Hi Lp.
  destruct (release_server_v2 sha Hs g Hg l Hl Hu passwords mask pw password t Lm Lp dom manyS manyR d index Hm Hd Hpl Hi ot1S ot1R ot2S ot2R H1 H2) as (k1 & k1' & L1 & L1' & R1).
  destruct (release_client_v2 sha Hs g' Hg' l Hl Hu passwords mask' pw password t' Lm' Lp dom manyS manyR d index Hm Hd Hpl Hi ot3S ot3R H3) as (k2 & k2' & L2 & L2' & R2).
  exists (combine_keys k1 k2'), (combine_keys k1' k2). split; [|split].
  - unfold combine_keys, xor. rewrite zipWith_length, L1, L2'. reflexivity.
  - unfold combine_keys, xor. rewrite zipWith_length, L1', L2. reflexivity.
  - unfold server_v2, client_v2. eapply runs_bind; [exact R1|]. cbv beta iota. eapply runs_bind; [apply runs_flip; exact R2|]. apply runs_ret.
Qed.
Print Assumptions C131_v2_ends.

Example v1_ends_example : exists k k', length k = 32%nat /\ length k' = 32%nat /\
  runs (server_v1 toy Release demo_garbling (demo_sender Release) (demo_many Release) (demo_receiver Release)
         [repeat 1 16; repeat 2 16; repeat 3 16; repeat 4 16] 65535)
       (client_v1 toy Release demo_keys demo_garbling (demo_receiver Release) (demo_one Release) (demo_sender Release) (repeat 255 16) 4 2 70000) (Ok k) (Ok k').
Proof.
  apply (C131_v1_ends toy demo_garbling demo_garbling (fun d => d = 2%nat) (demo_many Release) (demo_one Release)
    (demo_sender Release) (demo_receiver Release) (demo_sender Release) (demo_receiver Release) demo_keys
    2 16 _ 2 (repeat 3 16) (repeat 255 16) 65535 70000);
    [exact toy_hash32|exact demo_any|exact demo_any|apply demo_many_ok|apply demo_OT|apply demo_OT|exact demo_keys_ok|reflexivity|lia|
    |lia|reflexivity|reflexivity|reflexivity].
  split; [lia|]. split; [reflexivity|]. repeat constructor.
Qed.
Example v2_ends_example : exists k k', length k = 32%nat /\ length k' = 32%nat /\
  runs (server_v2 toy Release (repeat 9 16) (repeat 7 16) demo_garbling (demo_sender Release) (demo_many Release) (demo_sender Release) (demo_receiver Release)
         (demo_many Release) [repeat 1 16; repeat 2 16; repeat 3 16; repeat 4 16] 65535)
       (client_v2 toy Release demo_garbling (demo_receiver Release) (demo_one Release) (demo_receiver Release) (demo_sender Release) (demo_one Release)
         (repeat 255 16) 4 2 70000) (Ok k) (Ok k').
Proof.
  apply (C131_v2_ends toy demo_garbling demo_garbling (fun d => d = 2%nat) (demo_many Release) (demo_one Release)
    (demo_sender Release) (demo_receiver Release) (demo_sender Release) (demo_receiver Release) (demo_sender Release) (demo_receiver Release)
    2 16 _ (repeat 9 16) (repeat 7 16) 2 (repeat 3 16) (repeat 255 16) 65535 70000);
    [exact toy_hash32|exact demo_any|exact demo_any|apply demo_many_ok|apply demo_OT|apply demo_OT|apply demo_OT|reflexivity|
    |lia|reflexivity|reflexivity|reflexivity|reflexivity|reflexivity].
  split; [lia|]. split; [reflexivity|]. repeat constructor.
Qed.
