(** C112: who decides what the key is (fpake.rs:26-99). *)
From Coq Require Import List NArith Bool Lia Arith Permutation.
From Verif Require Import Base MUtil MWires MCircuit MGarble MPar MBincode MProc MOt MApricot MFpake.
From Verif Require Import SpecUtil SpecWires SpecCircuit SpecGarble SpecBincode SpecOt SpecApricot SpecFpake SpecSteal SpecForce.
From Verif Require Import PBase PUtil PWires PGarble PCircuit PHalf PProc PFpake PSteal2 PForce.
From Verif Require Import CCircuit CGarble COt CApricot CFpake CSteal.
Import ListNotations.
Open Scope N_scope.

(** C112 is false.  A garbler makes the half key of the evaluator the digest of a label and of a wire number of its
    choice, whatever the evaluator's password is. *)
Theorem C112_half_key_forced_refuted : forall sha p otS otR pw o l,
  ot_correct extension_ok otS otR -> (1 <= length pw <= 4095)%nat -> (length pw * 8 <= o <= 40 * length pw)%nat -> label 2 l ->
  runs (forcing_garbler otS (length pw * 8) o l) (evaluator sha p otR pw) (Ok tt) (Ok (sha (dec_string o 1 l))).
Proof. intros sha p otS otR pw o l Hot Hl Ho HL. apply forcing_runs; auto; try lia. apply label_WF; auto using sup2. Qed.
Print Assumptions C112_half_key_forced_refuted.

Lemma xor_itself k : xor k k = repeat 0 (length k).
Proof. unfold xor. induction k as [|a k IH]; [reflexivity|]. cbn [zipWith length repeat]. now rewrite N.lxor_nilpotent, IH. Qed.

Lemma forced sha p p' g otS otR otS' otR' pw guess t F :
  hash32 sha -> garbling_ok g -> ot_correct extension_ok otS otR -> ot_correct extension_ok otS' otR' ->
  length guess = length pw -> good_length (length pw) -> t <= 65534 ->
  (forall gc gc2 ek dk zs l0 l1, half_key sha p (g_rd g) (g_ri g) (circ1 (length pw * 8) t) gc ek dk zs l0 l1 -> same_garbled gc2 gc ->
     F gc2 (zipWith pick zs (u8_vec_to_bool_vec pw ++ u8_vec_to_bool_vec guess)) = Ok l1) ->
  runs (fpake_server sha p g otS otR' pw t) (forcing_client p' F otS' otR guess) (Ok (repeat 0 32)) (Ok tt).
Proof.
  intros Hs Hg Hot Hot' Hl Hgl Ht HF.
  destruct (reading_runs sha Hs p p' g Hg otS otR Hot pw guess t Hl Hgl Ht F HF) as (l & Wl & R).
  unfold fpake_server, forcing_client. rewrite Hl.
  eapply runs_bind; [exact R|].
  eapply runs_peq_r; [apply pbind_ret|].
  eapply runs_bind.
  { apply runs_flip. apply forcing_runs; auto; unfold good_length in Hgl; lia. }
  unfold combine_keys. rewrite xor_itself. rewrite (proj1 (Hs _)). apply runs_ret.
Qed.

(** C112: a client with a password within the threshold makes the server's key zero. *)
Theorem C112_insider_refuted : forall sha p p' g otS otR otS' otR' pw pw' t,
  hash32 sha -> garbling_ok g -> ot_correct extension_ok otS otR -> ot_correct extension_ok otS' otR' ->
  length pw' = length pw -> good_length (length pw) -> t <= 65534 -> N.of_nat (distance pw pw') <= t ->
  runs (fpake_server sha p g otS otR' pw t) (forcing_client p' (by_evaluation sha p') otS' otR pw') (Ok (repeat 0 32)) (Ok tt).
Proof.
  intros sha p p' g otS otR otS' otR' pw pw' t Hs Hg Hot Hot' Hl Hgl Ht Hd. apply forced; auto.
  intros gc gc2 ek dk zs l0 l1 H Same. destruct (good_supported _ Hgl) as (Hsup & Hn & H1).
  assert (Lb : length (u8_vec_to_bool_vec pw) = (length pw * 8)%nat) by apply bits_length8.
  assert (Lb' : length (u8_vec_to_bool_vec pw') = (length pw * 8)%nat) by (rewrite bits_length8, Hl; reflexivity).
  unfold by_evaluation. rewrite (hk_evaluate _ _ _ _ _ _ _ _ _ _ _ H); [|rewrite app_length; cbn [circ1 num_inputs]; lia|exact Same].
  assert (Ev : circuit_outputs (circ1 (length pw * 8) t) (bit_values (u8_vec_to_bool_vec pw ++ u8_vec_to_bool_vec pw')) = [1]).
  { unfold bit_values. rewrite map_app. fold (bit_values (u8_vec_to_bool_vec pw)). fold (bit_values (u8_vec_to_bool_vec pw')).
    rewrite circ1_outputs by assumption. rewrite hamming_bits by auto. now rewrite (proj2 (N.leb_le _ _) Hd). }
  rewrite Ev. reflexivity.
Qed.
Print Assumptions C112_insider_refuted.

(** C112: and so does a client without one. *)
Theorem C112_outsider_refuted : forall sha p p' g otS otR otS' otR' pw guess t,
  hash32 sha -> garbling_ok g -> ot_correct extension_ok otS otR -> ot_correct extension_ok otS' otR' ->
  length guess = length pw -> good_length (length pw) -> (t < length pw * 8)%nat -> leaky (length pw * 8) (g_ri g) ->
  runs (fpake_server sha p g otS otR' pw (N.of_nat t)) (forcing_client p' (by_stealing sha p' (length pw * 8) t) otS' otR guess)
    (Ok (repeat 0 32)) (Ok tt).
Proof.
  intros sha p p' g otS otR otS' otR' pw guess t Hs Hg Hot Hot' Hl Hgl Ht Hk.
  destruct (good_supported _ Hgl) as (Hsup & Hn & H1). apply forced; auto. { lia. }
  intros gc gc2 ek dk zs l0 l1 H Same. unfold by_stealing.
  set (c := circ1 (length pw * 8) (N.of_nat t)) in *.
  assert (H2 : Forall (fun m => m = 2) (input_domains c)).
  { cbn [c circ1 input_domains]. apply Forall_forall. intros m Hm. now apply repeat_spec in Hm. }
  rewrite (circ1_steal sha Hs p p' (g_rd g) (g_ri g) (length pw * 8) t) with (gc := gc) (ek := ek) (dk := dk) (l0 := l0) (l1 := l1); auto.
  - now apply samples_ok.
  - exists (length pw * 4)%nat. lia.
  - apply bits_length8.
  - rewrite bits_length8, Hl. reflexivity.
Qed.
Print Assumptions C112_outsider_refuted.

(** ** Examples *)
(** "abc" against "abb" with threshold 1, and against "zzz": the server's key is zero. *)
Example insider_example :
  runs (fpake_server toy Debug demo_garbling (demo_sender Debug) (demo_receiver Debug) [97; 98; 99] 1)
       (forcing_client Release (by_evaluation toy Release) (demo_sender Release) (demo_receiver Release) [97; 98; 98]) (Ok (repeat 0 32)) (Ok tt).
Proof.
  exact (C112_insider_refuted toy Debug Release demo_garbling (demo_sender Debug) (demo_receiver Release)
    (demo_sender Release) (demo_receiver Debug) [97; 98; 99] [97; 98; 98] 1 toy_hash32 demo_garbling_ok
    (demo_OT Debug Release) (demo_OT Release Debug) eq_refl ltac:(unfold good_length; cbn [length]; lia) ltac:(discriminate) ltac:(vm_compute; discriminate)).
Qed.
Example outsider_example :
  runs (fpake_server toy Debug demo_garbling (demo_sender Debug) (demo_receiver Debug) [97; 98; 99] 1)
       (forcing_client Release (by_stealing toy Release 24 1) (demo_sender Release) (demo_receiver Release) [122; 122; 122]) (Ok (repeat 0 32)) (Ok tt).
Proof.
  exact (C112_outsider_refuted toy Debug Release demo_garbling (demo_sender Debug) (demo_receiver Release)
    (demo_sender Release) (demo_receiver Debug) [97; 98; 99] [122; 122; 122] 1 toy_hash32 demo_garbling_ok
    (demo_OT Debug Release) (demo_OT Release Debug) eq_refl ltac:(unfold good_length; cbn [length]; lia) ltac:(cbn [length]; lia) demo_leaky).
Qed.
