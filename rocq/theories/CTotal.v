(** C129: release builds garble, encode and evaluate without failing, for whatever moduli. *)
From Coq Require Import List NArith Bool Lia Arith.
From Verif Require Import Base MUtil MWires MCircuit MGarble MPar MBincode MProc MOt MApricot MMany MFpake.
From Verif Require Import SpecUtil SpecWires SpecCircuit SpecGarble SpecBincode SpecOt SpecApricot SpecFpake SpecTotal.
From Verif Require Import PBase PTotal PTotal2 PTotal3 CCircuit CGarble COt CApricot CFpake.
Import ListNotations.
Open Scope N_scope.

(** C129: every circuit whose gates fit can be garbled, every input can be encoded (values need not be below
    their modulus), and every encoded input can be evaluated. *)
Theorem C129_release_runs : forall sha rd ri c, hash32 sha -> garblable c -> matched c -> drawn c rd ri ->
  exists gc ek dk, garble sha Release rd ri c = Ok (gc, ek, dk) /\
  forall x, length x = num_inputs c ->
    exists ws out, encode Release ek x = Ok ws /\ evaluate sha Release gc ws = Ok out /\ length out = num_outputs c.
Proof. exact release_runs. Qed.
Print Assumptions C129_release_runs.

(** The distance circuits of all sizes but two out of 65536 are such circuits, whatever the threshold. *)
Theorem C129_distance_circuits : forall sha rd ri n t, hash32 sha -> (1 <= n)%nat -> N.of_nat n mod 65536 < 65534 ->
  (forall m, length (rd m) = 32%nat /\ bytes_ok (rd m)) -> (forall i, valid_sample 2 (ri i)) ->
  (exists c gc ek dk, build_circuit Release n t = Ok c /\ garble sha Release rd ri c = Ok (gc, ek, dk) /\
     forall x, length x = (2 * n)%nat -> exists ws w, encode Release ek x = Ok ws /\ evaluate sha Release gc ws = Ok [w]) /\
  (exists c gc ek dk, build_circuit_v2 Release n t = Ok c /\ garble sha Release rd ri c = Ok (gc, ek, dk) /\
     forall x, length x = (3 * n)%nat -> exists ws w, encode Release ek x = Ok ws /\ evaluate sha Release gc ws = Ok [w]).
Proof.
  intros sha rd ri n t Hs Hn Hm Hrd Hri.
  assert (One : forall c k, garblable c -> matched c -> num_inputs c = k -> num_outputs c = 1%nat -> (forall m, In m (input_domains c) -> m = 2) ->
    exists gc ek dk, garble sha Release rd ri c = Ok (gc, ek, dk) /\
    forall x, length x = k -> exists ws w, encode Release ek x = Ok ws /\ evaluate sha Release gc ws = Ok [w]).
  { intros c k Hc Hmc Ei Eo H2. destruct (release_runs sha rd ri c Hs Hc Hmc) as (gc & ek & dk & E & H).
    { split; [exact Hrd|]. intros i m Hi. rewrite (H2 m); [apply Hri|]. eapply nth_error_In; eauto. }
    exists gc, ek, dk. split; [exact E|]. intros x Lx. destruct (H x) as (ws & out & E1 & E2 & Lo); [congruence|].
    rewrite Eo in Lo. destruct out as [|w [|w' out]]; try discriminate. exists ws, w. split; [exact E1|exact E2]. }
  split.
  - destruct (build_total n t Hn Hm) as (c & Eb & Hc & Hmc & Ei & Eo & H2). destruct (One c _ Hc Hmc Ei Eo H2) as (gc & ek & dk & H). exists c, gc, ek, dk. split; [exact Eb|exact H].
  - destruct (build_total_v2 n t Hn Hm) as (c & Eb & Hc & Hmc & Ei & Eo & H2). destruct (One c _ Hc Hmc Ei Eo H2) as (gc & ek & dk & H). exists c, gc, ek, dk. split; [exact Eb|exact H].
Qed.
Print Assumptions C129_distance_circuits.

(** C129 is false for the other two sizes: for 65534 bits there is no domain for the modulus 65535, and for 65535
    bits the modulus wraps to 0.  The circuit is built, but cannot be garbled. *)
Theorem C129_sizes_refuted : forall sha rd ri n t, (1 <= n)%nat -> 65534 <= N.of_nat n mod 65536 ->
  (exists c, build_circuit Release n t = Ok c /\ forall r, garble sha Release rd ri c <> Ok r) /\
  (exists c, build_circuit_v2 Release n t = Ok c /\ forall r, garble sha Release rd ri c <> Ok r).
Proof. exact build_stuck. Qed.
Print Assumptions C129_sizes_refuted.

(** These sizes are no multiples of 8: an exchange between release builds ends with a key on each side whatever
    the length of the passwords.  (Whether the two keys agree is the matter of C46 and C47.) *)
Theorem C129_exchange_ends : forall sha g g' otS otR otS' otR' pw pw' t t', hash32 sha -> any_coins g -> any_coins g' ->
  ot_correct extension_ok otS otR -> ot_correct extension_ok otS' otR' -> length pw' = length pw -> (1 <= length pw)%nat -> usize_ok (length pw * 64) ->
  exists k k', length k = 32%nat /\ length k' = 32%nat /\
    runs (fpake_server sha Release g otS otR' pw t) (fpake_client sha Release g' otS' otR pw' t') (Ok k) (Ok k').
Proof. exact exchange_ends. Qed.
Print Assumptions C129_exchange_ends.

Lemma demo_any : any_coins demo_garbling.
Proof.
  destruct demo_garbling_ok as (_ & Hri & Ho). split; [|split; [exact Hri|exact Ho]].
  intros m. cbn [demo_garbling g_rd]. unfold demo_rd. destruct (m =? 2); (split; [reflexivity|]); now apply repeat_ok.
Qed.
(** A circuit with an AND gate over two inputs, and a projection to modulus 200, which is not supported. *)
Definition odd_circuit : circuit :=
  mkCircuit 4 2 1 [mkGate 2 2 [0; 1]%nat GAnd; mkGate 3 2 [2]%nat (GProj (PMap 200))] [2; 2].
Example odd_example : garblable odd_circuit /\ matched odd_circuit /\ drawn odd_circuit (g_rd demo_garbling) (g_ri demo_garbling) /\
  exists gc ek dk, garble toy Release (g_rd demo_garbling) (g_ri demo_garbling) odd_circuit = Ok (gc, ek, dk) /\
  exists ws out, encode Release ek [1; 7] = Ok ws /\ evaluate toy Release gc ws = Ok out /\ length out = 1%nat.
Proof.
  assert (Hc : garblable odd_circuit).
  { split; [reflexivity|]. split; [repeat constructor|]. split; [cbn; lia|]. intros [|[|k]] g Hk; cbn in Hk; [injection Hk as <-|injection Hk as <-|destruct k; discriminate].
    - split; [reflexivity|]. split; [repeat constructor; cbn; lia|]. split; [discriminate|]. split; [reflexivity|]. cbn. split; [lia|reflexivity].
    - split; [reflexivity|]. split; [repeat constructor; cbn; lia|]. split; [discriminate|]. split; [reflexivity|]. cbn. lia. }
  assert (Hm : matched odd_circuit).
  { split; [reflexivity|]. split.
    - intros m [<-|[<-|[]]]; (split; [lia|]); eexists; (split; [left; reflexivity|reflexivity]).
    - intros g [<-|[<-|[]]]; cbn; (split; [lia|]); (split; [|auto; lia]); intros i Hi; [destruct Hi as [<-|[<-|[]]]|destruct Hi as [<-|[]]]; reflexivity. }
  destruct demo_any as (Hrd & Hri & _).
  assert (Hd : drawn odd_circuit (g_rd demo_garbling) (g_ri demo_garbling)).
  { split; [exact Hrd|]. intros [|[|i]] m Hi; cbn in Hi; [injection Hi as <-; apply Hri|injection Hi as <-; apply Hri|destruct i; discriminate]. }
  split; [exact Hc|]. split; [exact Hm|]. split; [exact Hd|].
  destruct (C129_release_runs toy _ _ odd_circuit toy_hash32 Hc Hm Hd) as (gc & ek & dk & E & H). exists gc, ek, dk. split; [exact E|]. now apply (H [1; 7]).
Qed.
(** 128 bits, for which the modulus is 129. *)
Example bits_example : exists c gc ek dk, build_circuit Release 128 65535 = Ok c /\ garble toy Release (g_rd demo_garbling) (g_ri demo_garbling) c = Ok (gc, ek, dk) /\
  forall x, length x = 256%nat -> exists ws w, encode Release ek x = Ok ws /\ evaluate toy Release gc ws = Ok [w].
Proof.
  destruct demo_any as (Hrd & Hri & _). destruct (C129_distance_circuits toy (g_rd demo_garbling) (g_ri demo_garbling) 128 65535 toy_hash32) as (H & _); [lia|reflexivity|exact Hrd|exact Hri|exact H].
Qed.
Example size_witness : exists n c, N.of_nat n = 65534 /\ build_circuit Release n 0 = Ok c /\
  forall r, garble toy Release (g_rd demo_garbling) (g_ri demo_garbling) c <> Ok r.
Proof.
  assert (H : exists n, N.of_nat n = 65534) by (eexists; apply N2Nat.id). destruct H as (n & Hn).
  destruct (C129_sizes_refuted toy (g_rd demo_garbling) (g_ri demo_garbling) n 0) as ((c & E & H) & _); [lia|rewrite Hn; discriminate|].
  exists n, c. split; [exact Hn|]. split; [exact E|exact H].
Qed.
(** Passwords of 16 bytes. *)
Example exchange_example : exists k k', length k = 32%nat /\ length k' = 32%nat /\
  runs (fpake_server toy Release demo_garbling (demo_sender Release) (demo_receiver Release) (repeat 1 16) 3)
       (fpake_client toy Release demo_garbling (demo_sender Release) (demo_receiver Release) (repeat 2 16) 70000) (Ok k) (Ok k').
Proof. apply C129_exchange_ends; [exact toy_hash32|exact demo_any|exact demo_any|apply demo_OT|apply demo_OT|reflexivity|cbn; lia|reflexivity]. Qed.
