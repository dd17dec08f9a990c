(** C111: what a garbler that sends what it likes makes of the key (fpake.rs:26-99). *)
From Coq Require Import List NArith Bool Lia Arith Permutation.
From Verif Require Import Base MUtil MWires MCircuit MGarble MPar MBincode MProc MOt MApricot MFpake.
From Verif Require Import SpecUtil SpecWires SpecCircuit SpecGarble SpecBincode SpecOt SpecApricot SpecFpake SpecSteal SpecTell.
From Verif Require Import PBase PUtil PWires PGarble PHalf PProc PFpake PSteal2 PTell.
From Verif Require Import CCircuit CGarble COt CApricot CFpake CSteal.
Import ListNotations.
Open Scope N_scope.

(** C111 is false: the half key of the evaluator is not tied to a comparison.  A garbler can make it a digest of
    the password that the garbler can compute for any candidate. *)
Theorem C111_half_key_refuted : forall sha p otS otR pw,
  ot_correct extension_ok otS otR -> bytes_ok pw -> (1 <= length pw <= 32)%nat ->
  runs (telling_garbler otS (length pw * 8)) (evaluator sha p otR pw) (Ok tt) (Ok (told sha pw)).
Proof. intros. now apply telling_runs. Qed.
Print Assumptions C111_half_key_refuted.

(** C111: a client without the password ends with all of the server's key but the password. *)
Theorem C111_wrong_client_refuted : forall sha p p' g otS otR otS' otR' pw guess t,
  hash32 sha -> garbling_ok g -> ot_correct extension_ok otS otR -> ot_correct extension_ok otS' otR' ->
  bytes_ok pw -> (length pw <= 32)%nat ->
  length guess = length pw -> good_length (length pw) -> (t < length pw * 8)%nat -> leaky (length pw * 8) (g_ri g) ->
  exists k, length k = 32%nat /\
    runs (fpake_server sha p g otS otR' pw (N.of_nat t)) (telling_client sha p' otS' otR guess t) (Ok (combine_keys k (told sha pw))) (Ok k).
Proof.
  intros sha p p' g otS otR otS' otR' pw guess t Hs Hg Hot Hot' Hok Hl32 Hl Hgl Ht Hk.
  destruct (C77_half_key_stolen_refuted sha p p' g otS otR pw guess t Hs Hg Hot Hl Hgl Ht Hk) as (k & Lk & R).
  exists k. split; [exact Lk|]. unfold fpake_server, telling_client.
  eapply runs_bind; [exact R|]. cbv beta iota. rewrite Hl.
  eapply runs_bind; [apply runs_flip; apply C111_half_key_refuted; auto; unfold good_length in Hgl; lia|]. apply runs_ret.
Qed.
Print Assumptions C111_wrong_client_refuted.

(** C111: and so does a server. *)
Theorem C111_wrong_server_refuted : forall sha p p' g otS otR otS' otR' pw guess t,
  hash32 sha -> garbling_ok g -> ot_correct extension_ok otS otR -> ot_correct extension_ok otS' otR' ->
  bytes_ok pw -> (length pw <= 32)%nat ->
  length guess = length pw -> good_length (length pw) -> (t < length pw * 8)%nat -> leaky (length pw * 8) (g_ri g) ->
  exists k, length k = 32%nat /\
    runs (telling_server sha p' otS' otR guess t) (fpake_client sha p g otS otR' pw (N.of_nat t)) (Ok k) (Ok (combine_keys k (told sha pw))).
Proof.
  intros sha p p' g otS otR otS' otR' pw guess t Hs Hg Hot Hot' Hok Hl32 Hl Hgl Ht Hk.
  destruct (C77_half_key_stolen_refuted sha p p' g otS otR pw guess t Hs Hg Hot Hl Hgl Ht Hk) as (k & Lk & R).
  exists k. split; [exact Lk|]. unfold fpake_client, telling_server. rewrite Hl.
  eapply runs_bind; [apply C111_half_key_refuted; auto; unfold good_length in Hgl; lia|].
  eapply runs_bind; [apply runs_flip; exact R|]. cbv beta iota. apply runs_ret.
Qed.
Print Assumptions C111_wrong_server_refuted.

(** C111: with the honest side's key the attacker then searches a list of passwords on its own.  It finds the
    password, and any other it finds is a collision of the digest. *)
Theorem C111_offline_search_refuted : forall sha k pw dictionary,
  hash32 sha -> length k = 32%nat -> In pw dictionary -> Forall (fun q => length q = length pw) dictionary ->
  let found := try_passwords sha k (combine_keys k (told sha pw)) dictionary in
  In pw found /\ (forall q, In q found -> q = pw \/ clash sha (told_string q) (told_string pw)).
Proof.
  intros sha k pw dictionary Hs Lk Hin HF found. split.
  - apply filter_In. split; [exact Hin|]. apply bytes_eqb_eq. reflexivity.
  - intros q Hq. apply filter_In in Hq as [Hq E]. apply bytes_eqb_eq in E.
    rewrite Forall_forall in HF. specialize (HF q Hq).
    destruct (list_eq_dec N.eq_dec (told_string q) (told_string pw)) as [Es|Es]; [left; now apply told_inj|right].
    split; [exact Es|]. unfold combine_keys in E. apply xor_cancel in E; [exact E| |]; rewrite Lk; apply Hs.
Qed.
Print Assumptions C111_offline_search_refuted.

(** ** Examples *)
(** The password "abc" against a client that guesses "zzz"; then the search finds "abc". *)
Example telling_example : exists k, length k = 32%nat /\
  runs (fpake_server toy Debug demo_garbling (demo_sender Debug) (demo_receiver Debug) [97; 98; 99] 1)
       (telling_client toy Release (demo_sender Release) (demo_receiver Release) [122; 122; 122] 1)
    (Ok (combine_keys k (told toy [97; 98; 99]))) (Ok k).
Proof.
  exact (C111_wrong_client_refuted toy Debug Release demo_garbling (demo_sender Debug) (demo_receiver Release)
    (demo_sender Release) (demo_receiver Debug) [97; 98; 99] [122; 122; 122] 1 toy_hash32 demo_garbling_ok
    (demo_OT Debug Release) (demo_OT Release Debug) ltac:(repeat constructor) ltac:(cbn [length]; lia) eq_refl
    ltac:(unfold good_length; cbn [length]; lia) ltac:(cbn [length]; lia) demo_leaky).
Qed.
Example search_example : let k := repeat 7 32 in
  try_passwords toy k (combine_keys k (told toy [97; 98; 99])) [[97; 98; 98]; [97; 98; 99]; [122; 122; 122]] = [[97; 98; 99]].
Proof. vm_compute. reflexivity. Qed.
