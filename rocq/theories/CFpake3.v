(** C51: the third version of the one-of-many key exchange, many_fpake.rs:64-421. *)
From Coq Require Import List NArith Bool Lia Arith Permutation.
From Verif Require Import Base MUtil MWires MCircuit MGarble MPar MBincode MProc MOt MApricot MMany MFpake.
From Verif Require Import SpecUtil SpecWires SpecCircuit SpecGarble SpecBincode SpecOt SpecApricot SpecFpake SpecMany SpecMfpake.
From Verif Require Import PBase PUtil PWires PGarble PCircuit PCircuit2 PHalf PProc POt PApricotRun PFpake PFpake3.
From Verif Require Import CCircuit CGarble COt CApricot CMany CFpake CMfpake.
Import ListNotations.
Open Scope N_scope.

(** Circuit and output wire for passwords of l bytes. *)
Notation v3_circuit l t := (circ2 (l * 8) t).
Notation v3_output l := (5 * (l * 8) + 1)%nat.

Lemma list_first d l passwords : password_list d l passwords -> exists p0, nth_error passwords 0 = Some p0 /\ length p0 = l.
Proof.
  intros (_ & L & F). destruct passwords as [|x r]. { pose proof (Nat.pow_nonzero 2 d). cbn in L. lia. }
  exists x. inversion F; auto.
Qed.

(** C51, first half: the server's key is the digest of the label for 1, the client's that of the label
    for [distance <= threshold]; the client also holds the password at its index masked with the
    mask the server returns. *)
Theorem C51_server_garbles : forall sha p p' g dom manyS manyR ot1S ot1R ot2S ot2R d l passwords mask index pw password t,
  hash32 sha -> garbling_ok g -> many_correct dom manyS manyR -> ot_correct extension_ok ot1S ot1R -> ot_correct extension_ok ot2S ot2R ->
  dom d -> password_list d l passwords -> good_length l -> length mask = l ->
  nth_error passwords (N.to_nat index) = Some pw -> length password = l -> t <= 65534 ->
  exists l0 l1, labels_of sha p g (v3_circuit l t) (v3_output l) l0 l1 /\
  runs (garbler_server_v3 sha p mask g ot1S manyS ot2S passwords t)
       (evaluator_client_v3 sha p' ot1R manyR ot2R password (N.of_nat (2 ^ d)) index)
    (Ok (sha (dec_string (v3_output l) 1 l1), mask))
    (Ok (sha (dec_string (v3_output l) 1 (if N.of_nat (distance password pw) <=? t then l1 else l0)), xor mask pw)).
Proof.
  intros sha p p' g dom manyS manyR ot1S ot1R ot2S ot2R d l passwords mask index pw password t Hs Hg Hm H1 H2 Hd Hpl Hgl Lm Hi Lp Ht.
  assert (Lpw : length pw = l) by (destruct Hpl as (_ & _ & F); rewrite Forall_forall in F; apply F; eapply nth_error_In; eauto).
  eapply v3_server_garbles; eauto using list_first.
Qed.
Print Assumptions C51_server_garbles.

(** C51, second half: the same with the roles of garbler and evaluator exchanged, for any mask. *)
Theorem C51_client_garbles : forall sha p p' g otS otR l passwords mask pw password t,
  hash32 sha -> garbling_ok g -> ot_correct extension_ok otS otR ->
  (exists p0, nth_error passwords 0 = Some p0 /\ length p0 = l) -> good_length l -> length mask = l -> length pw = l -> length password = l -> t <= 65534 ->
  exists l0 l1, labels_of sha p g (v3_circuit l t) (v3_output l) l0 l1 /\
  runs (garbler_client_v3 sha p g otS password (xor mask pw) t) (evaluator_server_v3 sha p' otR passwords mask)
    (Ok (sha (dec_string (v3_output l) 1 l1)))
    (Ok (sha (dec_string (v3_output l) 1 (if N.of_nat (distance pw password) <=? t then l1 else l0)))).
Proof. intros. now apply v3_client_garbles. Qed.
Print Assumptions C51_client_garbles.

(** C51, both halves: with e the distance of the client's password to the indexed one, the keys of
    the two sides. *)
Theorem C51_both_halves : forall sha p p' g g' dom manyS manyR ot1S ot1R ot2S ot2R ot3S ot3R d l passwords mask index pw password t t',
  hash32 sha -> garbling_ok g -> garbling_ok g' -> many_correct dom manyS manyR ->
  ot_correct extension_ok ot1S ot1R -> ot_correct extension_ok ot2S ot2R -> ot_correct extension_ok ot3S ot3R ->
  dom d -> password_list d l passwords -> good_length l -> length mask = l ->
  nth_error passwords (N.to_nat index) = Some pw -> length password = l -> t <= 65534 -> t' <= 65534 ->
  let o := v3_output l in let e := N.of_nat (distance pw password) in
  exists l0 l1 m0 m1, labels_of sha p g (v3_circuit l t) o l0 l1 /\ labels_of sha p' g' (v3_circuit l t') o m0 m1 /\
  runs (server_v3 sha p mask g ot1S manyS ot2S ot3R passwords t)
       (client_v3 sha p' g' ot1R manyR ot2R ot3S password (N.of_nat (2 ^ d)) index t')
    (Ok (xor (sha (dec_string o 1 l1)) (sha (dec_string o 1 (if e <=? t' then m1 else m0)))))
    (Ok (xor (sha (dec_string o 1 (if e <=? t then l1 else l0))) (sha (dec_string o 1 m1)))).
Proof.
  intros sha p p' g g' dom manyS manyR ot1S ot1R ot2S ot2R ot3S ot3R d l passwords mask index pw password t t'
    Hs Hg Hg' Hm H1 H2 H3 Hd Hpl Hgl Lm Hi Lp Ht Ht' o e.
  assert (Lpw : length pw = l) by (destruct Hpl as (_ & _ & F); rewrite Forall_forall in F; apply F; eapply nth_error_In; eauto).
  destruct (C51_server_garbles sha p p' g dom manyS manyR ot1S ot1R ot2S ot2R d l passwords mask index pw password t) as (l0 & l1 & HL & R); auto.
  destruct (C51_client_garbles sha p' p g' ot3S ot3R l passwords mask pw password t') as (m0 & m1 & HL' & R'); eauto using list_first.
  rewrite distance_comm in R. exists l0, l1, m0, m1. split; [exact HL|]. split; [exact HL'|].
  unfold server_v3, client_v3. eapply runs_bind; [exact R|]. cbv beta iota. eapply runs_bind; [apply runs_flip; exact R'|]. apply runs_ret.
Qed.
Print Assumptions C51_both_halves.

Theorem C51_keys_agree : forall sha p p' g g' dom manyS manyR ot1S ot1R ot2S ot2R ot3S ot3R d l passwords mask index pw password t t',
  hash32 sha -> garbling_ok g -> garbling_ok g' -> many_correct dom manyS manyR ->
  ot_correct extension_ok ot1S ot1R -> ot_correct extension_ok ot2S ot2R -> ot_correct extension_ok ot3S ot3R ->
  dom d -> password_list d l passwords -> good_length l -> length mask = l ->
  nth_error passwords (N.to_nat index) = Some pw -> length password = l -> t <= 65534 -> t' <= 65534 ->
  N.of_nat (distance pw password) <= t -> N.of_nat (distance pw password) <= t' ->
  exists key, length key = 32%nat /\
    runs (server_v3 sha p mask g ot1S manyS ot2S ot3R passwords t)
         (client_v3 sha p' g' ot1R manyR ot2R ot3S password (N.of_nat (2 ^ d)) index t') (Ok key) (Ok key).
Proof.
  intros sha p p' g g' dom manyS manyR ot1S ot1R ot2S ot2R ot3S ot3R d l passwords mask index pw password t t'
    Hs Hg Hg' Hm H1 H2 H3 Hd Hpl Hgl Lm Hi Lp Ht Ht' He He'.
  destruct (C51_both_halves sha p p' g g' dom manyS manyR ot1S ot1R ot2S ot2R ot3S ot3R d l passwords mask index pw password t t')
    as (l0 & l1 & m0 & m1 & _ & _ & R); auto.
  rewrite (proj2 (N.leb_le _ _) He), (proj2 (N.leb_le _ _) He') in R. eexists. split; [|exact R].
  rewrite xor_length; [apply Hs|]. now rewrite !(proj1 (Hs _)).
Qed.
Print Assumptions C51_keys_agree.

(** C51: over a threshold, the half keys of that half differ or the digest collides on the strings of
    its two output labels. *)
Theorem C51_beyond_threshold : forall sha p g l t l0 l1, labels_of sha p g (v3_circuit l t) (v3_output l) l0 l1 ->
  let o := v3_output l in
  sha (dec_string o 1 l1) <> sha (dec_string o 1 l0) \/ clash sha (dec_string o 1 l0) (dec_string o 1 l1).
Proof.
  intros sha p g l t l0 l1 (ek & s & _ & _ & _ & Hne) o.
  destruct (list_eq_dec N.eq_dec (sha (dec_string o 1 l1)) (sha (dec_string o 1 l0))) as [E|E]; [right|left; exact E].
  split; [|now symmetry]. intros Q. apply Hne. exact (dec_string_inj _ _ _ _ Q).
Qed.
Print Assumptions C51_beyond_threshold.

Definition demo_many (p : profile) : nat -> list bytes -> proc unit :=
  fun d ms => many_sender toy toy_gen p 4 (toy_keys 2) (co_sender toy toy_gen toy_curve p (fun _ => 1)) ms d.
Definition demo_one (p : profile) : nat -> N -> proc bytes :=
  fun d i => many_receiver toy toy_gen p (co_receiver toy toy_gen toy_curve p (fun _ => 1)) i d.
Lemma demo_many_ok p p' : many_correct (fun d => d = 2%nat) (demo_many p) (demo_one p').
Proof.
  intros d ms i m -> L Hs Hn.
  destruct (C42_one_of_many_over_base_OT toy toy_gen toy_gen toy_curve p p' 4 (toy_keys 2) (fun _ => 1) (fun _ => 1) ms 2 i) as (m' & E & R);
    auto using toy_gen_ok, toy_curve_ok.
  - apply toy_keys_ok. lia.
  - assert (Hlt : (N.to_nat i < length ms)%nat) by (apply nth_error_Some; congruence). rewrite L in Hlt. lia.
  - left. lia.
  - rewrite Hn in E. inversion E. subst. exact R.
Qed.
Example v3_example : exists key, length key = 32%nat /\
  runs (server_v3 toy Debug [200; 3] demo_garbling (demo_sender Debug) (demo_many Debug) (demo_sender Debug) (demo_receiver Debug) [[1; 2]; [3; 4]; [5; 6]; [7; 8]] 1)
       (client_v3 toy Release demo_garbling (demo_receiver Release) (demo_one Release) (demo_receiver Release) (demo_sender Release) [5; 7] 4 2 1)
    (Ok key) (Ok key).
Proof.
  apply (C51_keys_agree toy Debug Release demo_garbling demo_garbling (fun d => d = 2%nat) (demo_many Debug) (demo_one Release)
    (demo_sender Debug) (demo_receiver Release) (demo_sender Debug) (demo_receiver Release) (demo_sender Release) (demo_receiver Debug)
    2 2 [[1; 2]; [3; 4]; [5; 6]; [7; 8]] [200; 3] 2 [5; 6] [5; 7] 1 1);
    [exact toy_hash32|exact demo_garbling_ok|exact demo_garbling_ok|apply demo_many_ok|apply demo_OT|apply demo_OT|apply demo_OT|reflexivity|
    |unfold good_length; lia|reflexivity|reflexivity|reflexivity|discriminate|discriminate|vm_compute; discriminate|vm_compute; discriminate].
  split; [lia|]. split; [reflexivity|]. repeat constructor.
Qed.
