(** C115: the greatest threshold. *)
From Coq Require Import List NArith Bool Lia Arith Permutation.
From Verif Require Import Base MUtil MWires MCircuit MGarble MPar MBincode MProc MOt MApricot MMany MFpake MLegacy.
From Verif Require Import SpecUtil SpecWires SpecCircuit SpecGarble SpecBincode SpecOt SpecApricot SpecFpake SpecLong.
From Verif Require Import PBase PUtil PWires PGarble PCircuit PHalf PProc POt PFpake PLong PKey4 PTop CCircuit CGarble COt CApricot CFpake CLong.
Import ListNotations.
Open Scope N_scope.

(** What the greatest threshold would mean: two passwords of the same length never differ in more bits
    than they have, so that a threshold of as many bits lets every password pass.  That is so for the
    thresholds up to 65534. *)
Lemma weight_le b : (weight b <= 8)%nat.
Proof.
  unfold weight. assert (G : forall (f : N -> bool) l, (length (filter f l) <= length l)%nat).
  { intros f l. induction l as [|x l IH]; [cbn; lia|]. cbn [filter length]. destruct (f x); cbn [length]; lia. }
  eapply Nat.le_trans; [apply G|]. rewrite map_length, seq_length. lia.
Qed.
Lemma distance_le a : forall b, (distance a b <= length a * 8)%nat.
Proof.
  induction a as [|x a IH]; intros [|y b]; cbn [distance length]; try lia.
  pose proof (weight_le (N.lxor x y)). specialize (IH b). lia.
Qed.
Theorem C115_everyone_passes : forall sha p p' g otS otR pw pw' t,
  hash32 sha -> garbling_ok g -> ot_correct extension_ok otS otR ->
  length pw' = length pw -> good_length (length pw) -> N.of_nat (length pw * 8) <= t -> t <> 65535 -> t < 65536 ->
  exists k, length k = 32%nat /\ runs (garbler sha p g otS pw t) (evaluator sha p' otR pw') (Ok k) (Ok k).
Proof.
  intros sha p p' g otS otR pw pw' t Hs Hg Hot Hl Hgl Ht Hne Hlt. pose proof (distance_le pw pw').
  apply C44_half_keys_agree; auto; lia.
Qed.
Print Assumptions C115_everyone_passes.

(** With 65535, a debug build panics in every garbler, before it sends anything. *)
Lemma build_debug n : build_circuit Debug n 65535 = Panic POverflow /\ build_circuit_v2 Debug n 65535 = Panic POverflow.
Proof.
  unfold build_circuit, build_circuit_v2, uadd. destruct (N.of_nat n mod 65536 + 1 <? 2 ^ 16); split; reflexivity.
Qed.
Theorem C115_debug_refuted : forall sha mask rand g ot ot1 ot2 otR many_ot many_otR pw rest masked index number,
  garbler sha Debug g ot pw 65535 = Done (Panic POverflow) /\
  fpake_server sha Debug g ot otR pw 65535 = Done (Panic POverflow) /\
  garbler_server_v3 sha Debug mask g ot1 many_ot ot2 (pw :: rest) 65535 = Done (Panic POverflow) /\
  garbler_client_v3 sha Debug g ot pw masked 65535 = Done (Panic POverflow) /\
  garbler_server_v1 sha Debug g ot many_ot (pw :: rest) 65535 = Done (Panic POverflow) /\
  garbler_client_v1 sha Debug rand g ot pw index number 65535 = Done (Panic POverflow) /\
  garbler_client_v2 sha Debug g ot many_otR pw index number 65535 = Done (Panic POverflow).
Proof.
  intros. assert (E : garbler sha Debug g ot pw 65535 = Done (Panic POverflow)).
  { unfold garbler. now rewrite (proj1 (build_debug _)). }
  split; [exact E|]. split. { unfold fpake_server. now rewrite E. }
  split. { unfold garbler_server_v3. change (idx (pw :: rest) 0) with (Ok pw). cbn [lift pbind]. now rewrite (proj2 (build_debug _)). }
  split. { unfold garbler_client_v3. now rewrite (proj2 (build_debug _)). }
  split. { unfold garbler_server_v1. change (idx (pw :: rest) 0) with (Ok pw). cbn [lift pbind]. now rewrite (proj1 (build_debug _)). }
  split. { unfold garbler_client_v1. now rewrite (proj1 (build_debug _)). }
  unfold garbler_client_v2. now rewrite (proj2 (build_debug _)).
Qed.
Print Assumptions C115_debug_refuted.

(** The circuit of a release build: the last gate asks whether the distance is below 0. *)
Notation top_circuit l := (circK (l * 8) (sum_modulus l) 0).

(** In release builds no password passes, not even the same one: the half keys differ unless the hash
    function collides. *)
Theorem C115_release_refuted : forall sha p' g otS otR pw pw',
  hash32 sha -> garbling_ok g -> ot_correct extension_ok otS otR ->
  length pw' = length pw -> workable_length (length pw) ->
  let c := top_circuit (length pw) in let o := fpake_output (length pw) in
  build_circuit Release (length pw * 8) 65535 = Ok c /\
  exists k k' ek s l0 l1,
    runs (garbler sha Release g otS pw 65535) (evaluator sha p' otR pw') (Ok k) (Ok k') /\
    garble_run sha Release (g_rd g) (g_ri g) c = Ok (ek, o, s) /\
    genuine c (g_rd g) (gs_wires s) o 0 l0 /\ genuine c (g_rd g) (gs_wires s) o 1 l1 /\
    (k <> k' \/ clash sha (dec_string o 1 l0) (dec_string o 1 l1)).
Proof.
  intros sha p' g otS otR pw pw' Hs Hg Hot Hl Hw c o.
  split. { unfold c. destruct (workable _ Hw) as (_ & _ & _ & Hlt & _). now apply build_circuit_top. }
  destruct (fpake_run_top sha Hs p' g Hg otS otR Hot pw pw' Hl Hw) as (ek & s & l0 & l1 & Er & G0 & G1 & Hne & R).
  do 2 eexists. exists ek, s, l0, l1. split; [exact R|]. split; [exact Er|]. split; [exact G0|]. split; [exact G1|].
  destruct (list_eq_dec N.eq_dec (sha (dec_string o 1 l1)) (sha (dec_string o 1 l0))) as [E|E]; [right|left; exact E].
  split; [|now symmetry]. intros Q. apply Hne. exact (dec_string_inj _ _ _ _ Q).
Qed.
Print Assumptions C115_release_refuted.

(** The whole exchange: a server in a release build with the greatest threshold, and a client with the
    same password, do not get the same key. *)
Theorem C115_exchange_refuted : forall sha p' g g' otS otR otS' otR' pw t',
  hash32 sha -> garbling_ok g -> garbling_ok g' -> ot_correct extension_ok otS otR -> ot_correct extension_ok otS' otR' ->
  good_length (length pw) -> t' <= 65534 ->
  let c := top_circuit (length pw) in let o := fpake_output (length pw) in
  exists key key' ek s l0 l1,
    runs (fpake_server sha Release g otS otR' pw 65535) (fpake_client sha p' g' otS' otR pw t') (Ok key) (Ok key') /\
    garble_run sha Release (g_rd g) (g_ri g) c = Ok (ek, o, s) /\
    genuine c (g_rd g) (gs_wires s) o 0 l0 /\ genuine c (g_rd g) (gs_wires s) o 1 l1 /\
    (key <> key' \/ clash sha (dec_string o 1 l0) (dec_string o 1 l1)).
Proof.
  intros sha p' g g' otS otR otS' otR' pw t' Hs Hg Hg' Hot Hot' Hgl Ht' c o.
  destruct (good_workable _ Hgl) as [Hw _].
  destruct (fpake_run_top sha Hs p' g Hg otS otR Hot pw pw eq_refl Hw) as (ek & s & l0 & l1 & Er & G0 & G1 & Hne & R1).
  assert (D0 : distance pw pw = 0%nat).
  { clear. induction pw as [|x l IH]; [reflexivity|]. cbn [distance]. rewrite IH, N.lxor_nilpotent. reflexivity. }
  destruct (C44_half_keys_agree sha p' Release g' otS' otR' pw pw t' Hs Hg' Hot' eq_refl Hgl Ht') as (k2 & L2 & R2).
  { rewrite D0. apply N.le_0_l. }
  set (a1 := sha (dec_string (4 * (length pw * 8) + 1) 1 l1)) in *. set (a0 := sha (dec_string (4 * (length pw * 8) + 1) 1 l0)) in *.
  exists (combine_keys a1 k2), (combine_keys k2 a0), ek, s, l0, l1.
  split.
  { unfold fpake_server, fpake_client. eapply runs_bind; [exact R1|]. eapply runs_bind; [apply runs_flip; exact R2|]. apply runs_ret. }
  split; [exact Er|]. split; [exact G0|]. split; [exact G1|].
  destruct (list_eq_dec N.eq_dec a1 a0) as [E|E]; [right|left].
  - split; [|now symmetry]. intros Q. apply Hne. exact (dec_string_inj _ _ _ _ Q).
  - intros Q. apply E. rewrite (C46_combine_commutes k2 a0) in Q.
    assert (La1 : length a1 = 32%nat) by apply Hs. assert (La0 : length a0 = 32%nat) by apply Hs.
    rewrite <- (xor_back a1 k2) by congruence. rewrite <- (xor_back a0 k2) by congruence.
    unfold combine_keys in Q. now rewrite Q.
Qed.
Print Assumptions C115_exchange_refuted.

(** The circuits of both builders in a release build, on equal passwords. *)
Example C115_circuits : exists c c', build_circuit Release 8 65535 = Ok c /\ build_circuit_v2 Release 8 65535 = Ok c' /\
  (exists v, eval Release c (repeat 1 16) = Ok v /\ nth 33 v 9 = 0) /\
  (exists v, eval Release c' (repeat 1 8 ++ repeat 0 8 ++ repeat 1 8) = Ok v /\ last v 9 = 0).
Proof. do 2 eexists. split; [vm_compute; reflexivity|]. split; [vm_compute; reflexivity|]. split; eexists; split; vm_compute; reflexivity. Qed.
Example C115_example : exists k k',
  runs (garbler toy Release demo_garbling (demo_sender Release) [97; 98; 99] 65535)
       (evaluator toy Debug (demo_receiver Debug) [97; 98; 99]) (Ok k) (Ok k').
Proof.
  destruct (C115_release_refuted toy Debug demo_garbling (demo_sender Release) (demo_receiver Debug) [97; 98; 99] [97; 98; 99])
    as (_ & k & k' & _ & _ & _ & _ & R & _);
    [exact toy_hash32|exact demo_garbling_ok|apply demo_OT|reflexivity|apply good_workable; unfold good_length; cbn [length]; lia|].
  exists k, k'. exact R.
Qed.
Example C115_example_passes : exists k,
  runs (garbler toy Release demo_garbling (demo_sender Release) [97; 98; 99] 65534)
       (evaluator toy Debug (demo_receiver Debug) [158; 157; 156]) (Ok k) (Ok k).
Proof.
  destruct (C115_everyone_passes toy Release Debug demo_garbling (demo_sender Release) (demo_receiver Debug) [97; 98; 99] [158; 157; 156] 65534)
    as (k & _ & R);
    [exact toy_hash32|exact demo_garbling_ok|apply demo_OT|reflexivity|unfold good_length; cbn [length]; lia|vm_compute; discriminate|discriminate|reflexivity|].
  exists k. exact R.
Qed.
