(** C82: a circuit chosen by a hostile peer. *)
From Coq Require Import List NArith Bool Arith Lia.
From Verif Require Import Base MUtil MWires MCircuit MGarble MBincode MProc MOt MApricot MFpake MChannel MMain.
From Verif Require Import SpecWires SpecCircuit SpecGarble SpecBincode SpecOt SpecApricot SpecFpake SpecMain SpecHostile.
From Verif Require Import PBase PProc PFpake PUtil PHostile PCircuit2 PHalf CCircuit CGarble COt CApricot CFpake CChannel CMain.
Import ListNotations.
Open Scope N_scope.

(** Any circuit in which wires are written before they are read is evaluated without an uninitialised read, whatever
    the tables and the labels. *)
Theorem C82_no_uninitialised_read : forall sha p gc x, written_first (gc_circuit gc) -> evaluate sha p gc x <> UB.
Proof. intros sha p gc x W E. pose proof (safe_evaluate sha p gc W x) as S. now rewrite E in S. Qed.
Print Assumptions C82_no_uninitialised_read.

(** The circuits of the crate are such. *)
Theorem C82_own_circuits_are_safe : forall sha p c f h x, wf_circuit c -> evaluate sha p (mkGC c f h) x <> UB.
Proof.
  intros sha p c f h x W. apply C82_no_uninitialised_read. cbn [gc_circuit]. split.
  - intros k g Hk i Hi. destruct (wf_gates c W k g Hk) as (Eo & Fi & _). rewrite Forall_forall in Fi. specialize (Fi i Hi).
    destruct (Nat.lt_ge_cases i (num_inputs c)) as [|Hge]; [now left|]. right.
    assert (Lk : (k < length (gates c))%nat) by (apply nth_error_Some; congruence).
    destruct (nth_error (gates c) (i - num_inputs c)) as [h'|] eqn:Eh; [|apply nth_error_None in Eh; lia].
    exists (i - num_inputs c)%nat, h'. split; [lia|]. split; [exact Eh|]. rewrite (proj1 (wf_gates c W _ _ Eh)). lia.
  - intros i Hi. rewrite (wf_wires c W) in Hi. destruct (Nat.lt_ge_cases i (num_inputs c)) as [|Hge]; [now left|]. right.
    destruct (nth_error (gates c) (i - num_inputs c)) as [h'|] eqn:Eh; [|apply nth_error_None in Eh; lia].
    exists h'. split; [eapply nth_error_In; eauto|]. rewrite (proj1 (wf_gates c W _ _ Eh)). lia.
Qed.
Print Assumptions C82_own_circuits_are_safe.

(** But the evaluator takes the circuit from its peer: a hostile garbler makes it read uninitialised memory, and
    another makes it panic, whatever its password. *)
Theorem C82_evaluator_is_memory_safe_refuted : forall sha p otS otR pw,
  ot_correct extension_ok otS otR -> (0 < length pw)%nat -> usize_ok (length pw * 8 + 1) ->
  let n := (length pw * 8)%nat in
  runs (hostile_garbler otS n (self_reading n)) (evaluator sha p otR pw) (Ok tt) UB.
Proof.
  intros sha p otS otR pw Hot H0 Hu n.
  destruct (hostile_run sha p otS otR pw (self_reading n) Hot H0) as (gc2 & S & R); [unfold usize_ok in *; lia|now apply self_reading_ok|].
  apply R. fold n. rewrite (evaluate_self sha p n gc2); [reflexivity|unfold n; lia|exact S].
Qed.
Print Assumptions C82_evaluator_is_memory_safe_refuted.
Theorem C82_evaluator_never_panics_refuted : forall sha p otS otR pw,
  ot_correct extension_ok otS otR -> (0 < length pw)%nat -> usize_ok (length pw * 8 + 1) ->
  let n := (length pw * 8)%nat in
  runs (hostile_garbler otS n (without_table n)) (evaluator sha p otR pw) (Ok tt) (Panic PKey).
Proof.
  intros sha p otS otR pw Hot H0 Hu n.
  destruct (hostile_run sha p otS otR pw (without_table n) Hot H0) as (gc2 & S & R); [unfold usize_ok in *; lia|now apply without_table_ok|].
  apply R. fold n. rewrite (evaluate_without sha p n gc2); [reflexivity|unfold n; lia|exact S].
Qed.
Print Assumptions C82_evaluator_never_panics_refuted.

(** The whole client program, connecting to a hostile server over the crate's OT and authenticated channel. *)
Theorem C82_client_is_memory_safe_refuted : forall hmac xpub xdh sha fill gen G p p' sec sec' a a' cores cores' r rs rs' g otS pw t,
  dh_ok xpub xdh -> hash32 sha -> generator fill -> generator gen -> curve_ok G ->
  (1 <= cores)%nat -> (1 <= cores')%nat -> coins_ok r -> (0 < length pw)%nat -> usize_ok (length pw * 8 + 1) ->
  let n := (length pw * 8)%nat in
  let evil gc := serve hmac xpub xdh sec (hostile_garbler (sender_with sha fill p a cores r (co_receiver sha gen G p rs)) n gc) in
  let client := main_client hmac xpub xdh sha p' sec' g otS (receiver_with sha fill p' a' cores' r (co_sender sha gen G p' rs')) pw t in
  always (evil (self_reading n)) client (Ok tt) UB /\ always (evil (without_table n)) client (Ok tt) (Panic PKey).
Proof.
  intros hmac xpub xdh sha fill gen G p p' sec sec' a a' cores cores' r rs rs' g otS pw t Hdh Hs Hf Hge HG Hc Hc' Hr H0 Hu n evil client.
  assert (Hot : ot_correct extension_ok (sender_with sha fill p a cores r (co_receiver sha gen G p rs))
                  (receiver_with sha fill p' a' cores' r (co_sender sha gen G p' rs'))).
  { now apply C35_extension_over_base_OT. }
  split; apply always_runs; unfold evil, client, main_client; apply serve_runs; auto; unfold fpake_client.
  - apply runs_ub_r. apply (C82_evaluator_is_memory_safe_refuted sha p' _ _ pw Hot H0 Hu).
  - apply runs_stop_r. apply (C82_evaluator_never_panics_refuted sha p' _ _ pw Hot H0 Hu).
Qed.
Print Assumptions C82_client_is_memory_safe_refuted.

(** A circuit, not numbered as the builder does, that writes first; circuits of the crate; and a hostile session. *)
Example C82_written_first_example : written_first (mkCircuit 3 1 1 [mkGate 2 2 [0%nat] GAdd; mkGate 1 2 [0%nat; 2%nat] GAdd] [2]) /\
  ~ written_first (gc_circuit (self_reading 8)) /\ written_first (gc_circuit (without_table 8)).
Proof.
  split; [|split].
  - split.
    + intros [|[|k]] g; cbn; [|intros [= <-]|destruct k; discriminate].
      * intros [= <-] i [<-|[]]. left. lia.
      * intros i [<-|[<-|[]]]; [left; lia|]. right. exists 0%nat, (mkGate 2 2 [0%nat] GAdd). auto.
    + cbn. intros i Hi. assert (i = 2)%nat as -> by lia. right. eexists. split; [left; reflexivity|reflexivity].
  - intros [H _]. destruct (H 0%nat _ eq_refl 8%nat (or_introl eq_refl)) as [L|(j & h & Hj & _)]; [cbn in L; lia|lia].
  - split.
    + intros [|k] g; [|destruct k; discriminate]. cbn. intros [= <-] i [<-|[]]. left. lia.
    + cbn. intros i Hi. assert (i = 8)%nat as -> by lia. right. eexists. split; [left; reflexivity|reflexivity].
Qed.
Example C82_own_circuits_example : forall f h x, evaluate toy Debug (mkGC demo f h) x <> UB.
Proof. intros f h x. exact (C82_own_circuits_are_safe toy Debug demo f h x demo_wf). Qed.
Example C82_hostile_session_example :
  always (serve toy_mac toy_pub toy_dh [7] (hostile_garbler (demo_sender Debug) 24 (self_reading 24)))
    (main_client toy_mac toy_pub toy_dh toy Release [8] demo_garbling
       (sender_with toy toy_gen Release ARM64 2 toy_coins (co_receiver toy toy_gen toy_curve Release (fun _ => 1)))
       (demo_receiver Release) [97; 106; 98] 5) (Ok tt) UB.
Proof.
  refine (proj1 (C82_client_is_memory_safe_refuted toy_mac toy_pub toy_dh toy toy_gen toy_gen toy_curve Debug Release [7] [8] X86 ARM64 4 2 toy_coins
    (fun _ => 1) (fun _ => 1) demo_garbling (sender_with toy toy_gen Release ARM64 2 toy_coins (co_receiver toy toy_gen toy_curve Release (fun _ => 1)))
    [97; 106; 98] 5 toy_dh_ok toy_hash32 toy_gen_ok toy_gen_ok toy_curve_ok _ _ toy_coins_ok _ _)); [lia|lia|cbn; lia|reflexivity].
Qed.
