(** C110: a peer without the password against the third version of the one-of-many key exchange
    (many_fpake.rs:64-421). *)
From Coq Require Import List NArith Bool Lia Arith Permutation.
From Verif Require Import Base MUtil MWires MCircuit MGarble MPar MBincode MProc MOt MApricot MMany MFpake.
From Verif Require Import SpecUtil SpecWires SpecCircuit SpecGarble SpecBincode SpecOt SpecApricot SpecFpake SpecMany SpecMfpake SpecSteal SpecSteal3.
From Verif Require Import PBase PUtil PWires PGarble PCircuit PHalf PProc POt PApricotRun PFpake PLeak PSteal PSteal2 PSteal3.
From Verif Require Import CCircuit CGarble COt CApricot CMany CFpake CMfpake CFpake3 CSteal.
Import ListNotations.
Open Scope N_scope.

(** C110 is false: a client that knows none of the passwords, and deviates only in what it computes from the
    messages it receives and in the threshold of its own circuit, ends with the server's key and with the distance
    of its guess to the password at an index of its choice. *)
Theorem C110_wrong_client_gets_key_refuted : forall sha p p' g g' dom manyS manyR ot1S ot1R ot2S ot2R ot3S ot3R d l passwords mask index pw guess t,
  hash32 sha -> garbling_ok g -> garbling_ok g' -> many_correct dom manyS manyR ->
  ot_correct extension_ok ot1S ot1R -> ot_correct extension_ok ot2S ot2R -> ot_correct extension_ok ot3S ot3R ->
  dom d -> password_list d l passwords -> good_length l -> length mask = l ->
  nth_error passwords (N.to_nat index) = Some pw -> length guess = l -> (t < l * 8)%nat -> leaky3 (l * 8) (g_ri g) ->
  exists key, length key = 32%nat /\
    runs (server_v3 sha p mask g ot1S manyS ot2S ot3R passwords (N.of_nat t))
         (evil_client_v3 sha p' g' ot1R manyR ot2R ot3S guess d index t) (Ok key) (Ok (key, distance pw guess)).
Proof.
  intros sha p p' g g' dom manyS manyR ot1S ot1R ot2S ot2R ot3S ot3R d l passwords mask index pw guess t
    Hs Hg Hg' Hm H1 H2 H3 Hd Hpl Hgl Lm Hi Lg Ht Hk.
  assert (Lpw : length pw = l) by (destruct Hpl as (_ & _ & F); rewrite Forall_forall in F; apply F; eapply nth_error_In; eauto).
  pose proof (list_first _ _ _ Hpl) as Hp0. assert (Hb : N.of_nat (length guess * 8) <= 65534) by (destruct (good_supported _ Hgl) as (_ & Hn & _); rewrite Lg; lia).
  destruct (v3_steal_client sha Hs p p' g Hg l Hgl passwords mask pw guess t Hp0 Lm Lpw Lg Ht Hk ot1S ot1R ot2S ot2R dom manyS manyR d index
    H1 H2 Hm Hd Hpl Hi) as (k & Lk & R).
  destruct (C51_client_garbles sha p' p g' ot3S ot3R l passwords mask pw guess (N.of_nat (length guess * 8))) as (m0 & m1 & _ & R'); auto.
  rewrite (proj2 (N.leb_le _ _)) in R' by (pose proof (distance_le pw guess); lia).
  rewrite (distance_comm guess pw) in R.
  eexists. split; [|unfold server_v3, evil_client_v3; eapply runs_bind; [exact R|]; cbv beta iota;
    eapply runs_bind; [apply runs_flip; exact R'|]; apply runs_ret].
  apply combine_length; [exact Lk|apply Hs].
Qed.
Print Assumptions C110_wrong_client_gets_key_refuted.

(** C110: a server that knows no password ends with the client's key and with the distance of its guess to the
    client's password. *)
Theorem C110_wrong_server_gets_key_refuted : forall sha p p' g g' dom manyS manyR ot1S ot1R ot2S ot2R ot3S ot3R d mask index password guess t,
  hash32 sha -> garbling_ok g -> garbling_ok g' -> many_correct dom manyS manyR ->
  ot_correct extension_ok ot1S ot1R -> ot_correct extension_ok ot2S ot2R -> ot_correct extension_ok ot3S ot3R ->
  dom d -> (d <= 31)%nat -> index < 2 ^ N.of_nat d -> good_length (length password) -> length mask = length password ->
  length guess = length password -> (t < length password * 8)%nat -> leaky3 (length password * 8) (g_ri g) ->
  exists key, length key = 32%nat /\
    runs (evil_server_v3 sha p' mask g' ot1S manyS ot2S ot3R guess d t)
         (client_v3 sha p g ot1R manyR ot2R ot3S password (N.of_nat (2 ^ d)) index (N.of_nat t)) (Ok (key, distance password guess)) (Ok key).
Proof.
  intros sha p p' g g' dom manyS manyR ot1S ot1R ot2S ot2R ot3S ot3R d mask index password guess t
    Hs Hg Hg' Hm H1 H2 H3 Hd Hd31 Hi Hgl Lm Lg Ht Hk. set (l := length password) in *.
  set (passwords := repeat guess (2 ^ d)).
  assert (Hpl : password_list d l passwords).
  { split; [exact Hd31|]. split; [apply repeat_length|]. apply Forall_forall. intros y Hy. apply repeat_spec in Hy. now subst y. }
  assert (Hpow : 2 ^ N.of_nat d = N.of_nat (2 ^ d)) by (now rewrite Nat2N.inj_pow).
  assert (Hgi : nth_error passwords (N.to_nat index) = Some guess) by (apply nth_error_repeat; rewrite Hpow in Hi; lia).
  pose proof (list_first _ _ _ Hpl) as Hp0. assert (Hb : N.of_nat (length guess * 8) <= 65534) by (destruct (good_supported _ Hgl) as (_ & Hn & _); rewrite Lg; lia).
  destruct (C51_server_garbles sha p' p g' dom manyS manyR ot1S ot1R ot2S ot2R d l passwords mask index guess password (N.of_nat (length guess * 8)))
    as (l0 & l1 & _ & R); auto.
  rewrite (proj2 (N.leb_le _ _)) in R by (pose proof (distance_le password guess); lia).
  destruct (v3_steal_server sha Hs p p' g Hg l Hgl mask guess password t Lm Lg eq_refl Ht Hk ot3S ot3R H3) as (k & Lk & R').
  rewrite (distance_comm guess password) in R'.
  eexists. split; [|unfold evil_server_v3, client_v3; eapply runs_bind; [exact R|]; cbv beta iota;
    eapply runs_bind; [apply runs_flip; exact R'|]; apply runs_ret].
  apply combine_length; [apply Hs|exact Lk].
Qed.
Print Assumptions C110_wrong_server_gets_key_refuted.

(** ** Examples *)
Lemma demo_leaky3 : leaky3 (2 * 8) (g_ri demo_garbling).
Proof. exists 0%nat. split; [lia|]. reflexivity. Qed.

(** Four passwords of two bytes, threshold 1, and a client that guesses [255; 0] at index 2: it has the key, and the
    distance 8. *)
Example steal_v3_example : exists key, length key = 32%nat /\
  runs (server_v3 toy Debug [200; 3] demo_garbling (demo_sender Debug) (demo_many Debug) (demo_sender Debug) (demo_receiver Debug)
          [[1; 2]; [3; 4]; [5; 6]; [7; 8]] 1)
       (evil_client_v3 toy Release demo_garbling (demo_receiver Release) (demo_one Release) (demo_receiver Release) (demo_sender Release)
          [255; 0] 2 2 1)
    (Ok key) (Ok (key, 8%nat)).
Proof.
  apply (C110_wrong_client_gets_key_refuted toy Debug Release demo_garbling demo_garbling (fun d => d = 2%nat) (demo_many Debug) (demo_one Release)
    (demo_sender Debug) (demo_receiver Release) (demo_sender Debug) (demo_receiver Release) (demo_sender Release) (demo_receiver Debug)
    2 2 [[1; 2]; [3; 4]; [5; 6]; [7; 8]] [200; 3] 2 [5; 6] [255; 0] 1);
    [exact toy_hash32|exact demo_garbling_ok|exact demo_garbling_ok|apply demo_many_ok|apply demo_OT|apply demo_OT|apply demo_OT|reflexivity|
    |unfold good_length; lia|reflexivity|reflexivity|reflexivity|lia|exact demo_leaky3].
  split; [lia|]. split; [reflexivity|]. repeat constructor.
Qed.

(** A server that guesses [255; 0] against the client's password [5; 7]. *)
Example steal_v3_server_example : exists key, length key = 32%nat /\
  runs (evil_server_v3 toy Debug [200; 3] demo_garbling (demo_sender Debug) (demo_many Debug) (demo_sender Debug) (demo_receiver Debug) [255; 0] 2 1)
       (client_v3 toy Release demo_garbling (demo_receiver Release) (demo_one Release) (demo_receiver Release) (demo_sender Release) [5; 7] 4 3 1)
    (Ok (key, 9%nat)) (Ok key).
Proof.
  exact (C110_wrong_server_gets_key_refuted toy Release Debug demo_garbling demo_garbling (fun d => d = 2%nat) (demo_many Debug) (demo_one Release)
    (demo_sender Debug) (demo_receiver Release) (demo_sender Debug) (demo_receiver Release) (demo_sender Release) (demo_receiver Debug)
    2 [200; 3] 3 [5; 7] [255; 0] 1 toy_hash32 demo_garbling_ok demo_garbling_ok (demo_many_ok Debug Release) (demo_OT Debug Release) (demo_OT Debug Release)
    (demo_OT Release Debug) eq_refl ltac:(lia) ltac:(reflexivity) ltac:(unfold good_length; cbn [length]; lia) eq_refl eq_refl ltac:(cbn [length]; lia) demo_leaky3).
Qed.
