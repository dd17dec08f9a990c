(** C103: failures that depend on the password. *)
From Coq Require Import List NArith Bool Arith Lia.
From Verif Require Import Base MUtil MWires MCircuit MGarble MBincode MProc MOt MApricot MFpake MChannel MMain.
From Verif Require Import SpecUtil SpecWires SpecCircuit SpecGarble SpecBincode SpecOt SpecApricot SpecFpake SpecMain SpecHostile SpecPicky.
From Verif Require Import PBase PProc PFpake PUtil PHostile PPicky CUtil CCircuit CGarble COt CApricot CFpake CChannel CMain.
Import ListNotations.
Open Scope N_scope.

(** The peer picks a position; the evaluator panics if its password has a 1 there, and otherwise returns a half key
    that the peer knows. *)
Theorem C103_failure_is_independent_refuted : forall sha p otS otR l i,
  hash32 sha -> ot_correct extension_ok otS otR -> (i < l * 8)%nat -> usize_ok (l * 8 + 1) ->
  exists k, forall pw, length pw = l ->
  runs (picky_garbler otS (l * 8) i) (evaluator sha p otR pw) (Ok tt) (if bit_of pw i then Panic PIndex else Ok k).
Proof.
  intros sha p otS otR l i Hs Hot Hi Hu.
  exists (sha (be_bytes 8 (N.of_nat (l * 8)) ++ u16_be 1 ++ wval (picked sha p (l * 8)))). intros pw <-. now apply picky_run.
Qed.
Print Assumptions C103_failure_is_independent_refuted.

(** As many sessions as the password has bits tell the whole password: it is decoded from which of them failed. *)
Theorem C103_failures_tell_nothing_refuted : forall sha p otS otR l,
  hash32 sha -> ot_correct extension_ok otS otR -> usize_ok (l * 8 + 1) ->
  exists (ks : nat -> bytes) (decode : list bool -> bytes), forall pw, length pw = l -> bytes_ok pw ->
  exists failed, length failed = (l * 8)%nat /\ decode failed = pw /\ forall i, (i < l * 8)%nat ->
    runs (picky_garbler otS (l * 8) i) (evaluator sha p otR pw) (Ok tt) (if nth i failed false then Panic PIndex else Ok (ks i)).
Proof.
  intros sha p otS otR l Hs Hot Hu.
  exists (fun i => sha (be_bytes 8 (N.of_nat (l * 8)) ++ u16_be 1 ++ wval (picked sha p (l * 8)))), (fun f => map bits_value (chunks8 l f)).
  intros pw <- Hb. exists (u8_vec_to_bool_vec pw). destruct (C02_unpack_bits pw) as [L N]. split; [lia|]. split; [now apply repack|].
  intros i Hi. rewrite N by lia. now apply picky_run.
Qed.
Print Assumptions C103_failures_tell_nothing_refuted.

(** The whole client program over the crate's OT and authenticated channel, connecting to such a server: it panics, or
    goes on to the second half of the exchange and ends with a key, as if nothing had happened. *)
Theorem C103_client_refuted : forall hmac xpub xdh sha fill gen G p p' sec sec' a a' cores cores' r rs rs' r2 rs2 rs2' g pw guess t i,
  dh_ok xpub xdh -> hash32 sha -> generator fill -> generator gen -> curve_ok G ->
  (1 <= cores)%nat -> (1 <= cores')%nat -> coins_ok r -> coins_ok r2 -> garbling_ok g ->
  good_length (length pw) -> length guess = length pw -> t <= 65534 -> (i < length pw * 8)%nat ->
  let first := picky_garbler (sender_with sha fill p a cores r (co_receiver sha gen G p rs)) (length pw * 8) i in
  let second := evaluator sha p (receiver_with sha fill p a cores r2 (co_sender sha gen G p rs2)) guess in
  let client := main_client hmac xpub xdh sha p' sec' g (sender_with sha fill p' a' cores' r2 (co_receiver sha gen G p' rs2'))
                  (receiver_with sha fill p' a' cores' r (co_sender sha gen G p' rs')) pw t in
  if bit_of pw i then always (serve hmac xpub xdh sec first) client (Ok tt) (Panic PIndex)
  else exists k key, always (serve hmac xpub xdh sec (let! _ := first in second)) client (Ok k) (Ok key).
Proof.
  intros hmac xpub xdh sha fill gen G p p' sec sec' a a' cores cores' r rs rs' r2 rs2 rs2' g pw guess t i
    Hdh Hs Hf Hge HG Hc Hc' Hr Hr2 Hg Hgl Hlen Ht Hi first second client.
  assert (Hot : ot_correct extension_ok (sender_with sha fill p a cores r (co_receiver sha gen G p rs))
                  (receiver_with sha fill p' a' cores' r (co_sender sha gen G p' rs'))) by now apply C35_extension_over_base_OT.
  assert (Hot2 : ot_correct extension_ok (sender_with sha fill p' a' cores' r2 (co_receiver sha gen G p' rs2'))
                  (receiver_with sha fill p a cores r2 (co_sender sha gen G p rs2))) by now apply C35_extension_over_base_OT.
  assert (Hu : usize_ok (length pw * 8 + 1)).
  { destruct (good_supported _ Hgl) as (_ & Hn & _). apply usize_small. apply N.le_lt_trans with 65535; [lia|reflexivity]. }
  pose proof (picky_run sha p' _ _ pw i Hs Hot Hi Hu) as R. destruct (bit_of pw i).
  - apply always_runs. unfold client, main_client. apply serve_runs; auto. unfold fpake_client. apply runs_stop_r. exact R.
  - destruct (fpake_run sha Hs p' p g Hg _ _ Hot2 pw guess t Hlen Hgl Ht) as (_ & _ & l0 & l1 & _ & _ & _ & _ & R2).
    eexists. eexists. apply always_runs. unfold client, main_client. apply serve_runs; auto. unfold fpake_client.
    eapply runs_bind; [exact R|]. apply (runs_peq_l (pbind second ret)); [apply pbind_ret|].
    eapply runs_bind; [apply runs_flip; exact R2|]. apply runs_ret.
Qed.
Print Assumptions C103_client_refuted.

(** And the server program against such a client. *)
Theorem C103_server_refuted : forall hmac xpub xdh sha fill gen G p p' sec sec' a a' cores cores' r rs rs' r2 rs2 rs2' g pw guess t i,
  dh_ok xpub xdh -> hash32 sha -> generator fill -> generator gen -> curve_ok G ->
  (1 <= cores)%nat -> (1 <= cores')%nat -> coins_ok r -> coins_ok r2 -> garbling_ok g ->
  good_length (length pw) -> length guess = length pw -> t <= 65534 -> (i < length pw * 8)%nat ->
  let first := evaluator sha p' (receiver_with sha fill p' a' cores' r (co_sender sha gen G p' rs')) guess in
  let second := picky_garbler (sender_with sha fill p' a' cores' r2 (co_receiver sha gen G p' rs2')) (length pw * 8) i in
  let server := main_server hmac xpub xdh sha p sec g (sender_with sha fill p a cores r (co_receiver sha gen G p rs))
                  (receiver_with sha fill p a cores r2 (co_sender sha gen G p rs2)) pw t in
  exists key, always server (connect hmac xpub xdh sec' (let! _ := first in second)) (if bit_of pw i then Panic PIndex else Ok key) (Ok tt).
Proof.
  intros hmac xpub xdh sha fill gen G p p' sec sec' a a' cores cores' r rs rs' r2 rs2 rs2' g pw guess t i
    Hdh Hs Hf Hge HG Hc Hc' Hr Hr2 Hg Hgl Hlen Ht Hi first second server.
  assert (Hot : ot_correct extension_ok (sender_with sha fill p a cores r (co_receiver sha gen G p rs))
                  (receiver_with sha fill p' a' cores' r (co_sender sha gen G p' rs'))) by now apply C35_extension_over_base_OT.
  assert (Hot2 : ot_correct extension_ok (sender_with sha fill p' a' cores' r2 (co_receiver sha gen G p' rs2'))
                  (receiver_with sha fill p a cores r2 (co_sender sha gen G p rs2))) by now apply C35_extension_over_base_OT.
  assert (Hu : usize_ok (length pw * 8 + 1)).
  { destruct (good_supported _ Hgl) as (_ & Hn & _). apply usize_small. apply N.le_lt_trans with 65535; [lia|reflexivity]. }
  pose proof (picky_run sha p _ _ pw i Hs Hot2 Hi Hu) as R.
  destruct (fpake_run sha Hs p p' g Hg _ _ Hot pw guess t Hlen Hgl Ht) as (_ & _ & l0 & l1 & _ & _ & _ & _ & R2).
  eexists. apply always_runs. unfold server, main_server. apply serve_runs; auto. unfold fpake_server.
  eapply runs_bind; [exact R2|]. destruct (bit_of pw i).
  - apply runs_flip. apply runs_stop_r. exact R.
  - apply runs_flip. apply (runs_peq_l (pbind second ret)); [apply pbind_ret|]. eapply runs_bind; [exact R|]. apply runs_ret.
Qed.
Print Assumptions C103_server_refuted.

(** Two passwords, a session with each, and the conditions of the theorems. *)
Example C103_case : let pw := [97; 106; 98] in let pw' := [97; 107; 98] in
  bit_of pw 8 = false /\ bit_of pw' 8 = true /\ good_length (length pw) /\
  (exists k, runs (picky_garbler (demo_sender Debug) 24 8) (evaluator toy Release (demo_receiver Release) pw) (Ok tt) (Ok k)) /\
  runs (picky_garbler (demo_sender Debug) 24 8) (evaluator toy Release (demo_receiver Release) pw') (Ok tt) (Panic PIndex).
Proof.
  cbv zeta. destruct (C103_failure_is_independent_refuted toy Release (demo_sender Debug) (demo_receiver Release) 3 8 toy_hash32 (demo_OT _ _)
    ltac:(lia) ltac:(reflexivity)) as (k & H). split; [reflexivity|]. split; [reflexivity|]. split.
  - unfold good_length; cbn [length]; lia.
  - split; [exists k; exact (H [97; 106; 98] eq_refl)|exact (H [97; 107; 98] eq_refl)].
Qed.
