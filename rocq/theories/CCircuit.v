(** Properties C11-C17: circuits. *)
From Coq Require Import List NArith Bool Arith Lia.
From Verif Require Import Base MUtil MWires MCircuit MGarble SpecWires SpecCircuit SpecEval PCircuit PCircuit2 PBuilder PEval.
Import ListNotations.
Open Scope N_scope.

(** C11: build_circuit(n,t), evaluated in the clear on two n-bit strings, puts on its last wire
    whether their Hamming distance is at most t. *)
Theorem C11_hamming_threshold : forall p n t a b,
  N.of_nat n <= 65534 -> t <= 65534 -> length a = n -> length b = n ->
  exists c ws, build_circuit p n t = Ok c /\
    eval p c (bit_values a ++ bit_values b) = Ok ws /\
    length ws = num_wires c /\ num_outputs c = 1%nat /\
    nth (num_wires c - 1) ws 0 = (if N.of_nat (hamming a b) <=? t then 1 else 0).
Proof.
  intros p n t a b Hn Ht Ha Hb. exists (circ1 n t). eexists.
  split. { now apply build_circuit_eq. } split. { now apply circ1_eval. }
  assert (E := circ1_outputs n t Hn Ht a b Ha Hb). unfold circuit_outputs in E.
  cbn [circ1 num_wires num_outputs] in *.
  assert (L : length (circuit_values (circ1 n t) (bit_values a ++ bit_values b)) = (4 * n + 2)%nat).
  { assert (E2 := f_equal (@length N) E). rewrite skipn_length in E2. simpl length in E2. lia. }
  split; auto. split; auto.
  rewrite <- (firstn_skipn (4 * n + 2 - 1) (circuit_values _ _)), app_nth2;
    rewrite firstn_length, L, Nat.min_l by lia; [|lia].
  now rewrite Nat.sub_diag, E.
Qed.
Example C11_case : exists c, build_circuit Debug 3 1 = Ok c /\
  eval Debug c [1;0;1; 1;1;1] = Ok [1;0;1; 1;1;1; 0;1;0; 0;1;0; 1; 1].
Proof. eexists; split; reflexivity. Qed.
Print Assumptions C11_hamming_threshold.

(** C12: build_circuit_v2(n,t) compares the weight of the exclusive or of three strings. *)
Theorem C12_masked_hamming_threshold : forall p n t a b m,
  N.of_nat n <= 65534 -> t <= 65534 -> length a = n -> length b = n -> length m = n ->
  exists c ws, build_circuit_v2 p n t = Ok c /\
    eval p c (bit_values a ++ bit_values b ++ bit_values m) = Ok ws /\
    length ws = num_wires c /\ num_outputs c = 1%nat /\
    nth (num_wires c - 1) ws 0 = (if N.of_nat (weight3 a b m) <=? t then 1 else 0).
Proof.
  intros p n t a b m Hn Ht Ha Hb Hm. exists (circ2 n t). eexists.
  split. { now apply build_circuit_v2_eq. } split. { now apply circ2_eval. }
  assert (E := circ2_outputs n t Hn Ht a b m Ha Hb Hm). unfold circuit_outputs in E.
  cbn [circ2 num_wires num_outputs] in *.
  assert (L : length (circuit_values (circ2 n t) (bit_values a ++ bit_values b ++ bit_values m)) = (5 * n + 2)%nat).
  { assert (E2 := f_equal (@length N) E). rewrite skipn_length in E2. simpl length in E2. lia. }
  split; auto. split; auto.
  rewrite <- (firstn_skipn (5 * n + 2 - 1) (circuit_values _ _)), app_nth2;
    rewrite firstn_length, L, Nat.min_l by lia; [|lia].
  now rewrite Nat.sub_diag, E.
Qed.
(** With the third string the mask xor a password, the mask cancels. *)
Theorem C12_unmasks : forall a mask pw, length mask = length pw -> length a = length pw ->
  weight3 a mask (map (fun xy => xorb (fst xy) (snd xy)) (combine mask pw)) = hamming a pw.
Proof.
  intros a. induction a as [|x a IH]; intros [|m mask] [|y pw] H1 H2; try discriminate; auto.
  cbn [combine map weight3 hamming fst snd]. rewrite IH by (injection H1; injection H2; auto).
  destruct x, m, y; reflexivity.
Qed.
Example C12_case : exists c, build_circuit_v2 Debug 2 0 = Ok c /\
  eval Debug c [1;0; 1;1; 0;1] = Ok [1;0; 1;1; 0;1; 0;0; 0;0; 0; 1].
Proof. eexists; split; reflexivity. Qed.
Print Assumptions C12_masked_hamming_threshold.
Print Assumptions C12_unmasks.

(** C13: built circuits verify. *)
Theorem C13_built_verify : forall p n t, N.of_nat n <= 65534 -> t <= 65534 ->
  (exists c, build_circuit p n t = Ok c /\ verify_circuit c = Ok tt) /\
  (exists c, build_circuit_v2 p n t = Ok c /\ verify_circuit c = Ok tt).
Proof.
  intros p n t Hn Ht. split.
  - exists (circ1 n t). split. now apply build_circuit_eq. now apply circ1_verify.
  - exists (circ2 n t). split. now apply build_circuit_v2_eq. now apply circ2_verify.
Qed.
Example C13_case : N.of_nat 8 <= 65534 /\ exists c, build_circuit Debug 8 2 = Ok c /\ verify_circuit c = Ok tt.
Proof. split. cbv; discriminate. eexists; split; reflexivity. Qed.
(** One step beyond the bounds the builders panic in debug builds. *)
Theorem C13_bound_needed : forall n, N.of_nat n <= 65534 ->
  build_circuit Debug n 65535 = Panic POverflow /\ build_circuit_v2 Debug n 65535 = Panic POverflow.
Proof.
  intros n Hn. unfold build_circuit, build_circuit_v2.
  rewrite (N.mod_small (N.of_nat n) 65536) by lia.
  assert (E : uadd Debug 16 (N.of_nat n) 1 = Ok (N.of_nat n + 1)).
  { unfold uadd. change (2 ^ 16) with 65536. destruct (N.ltb_spec (N.of_nat n + 1) 65536); [auto|lia]. }
  rewrite E. cbn [obind]. split; reflexivity.
Qed.
Print Assumptions C13_built_verify.
Print Assumptions C13_bound_needed.

(** C14: exactly when verify_circuit accepts, and which error it gives. [u] enumerates the wires the
    gates mention. *)
Theorem C14_verify_circuit : forall c, exists u,
  NoDup u /\ (forall w, In w u <-> mentions (gates c) w) /\
  (verify_circuit c = Ok tt <-> num_wires c = length u /\ NoDup (map g_output (gates c))) /\
  (num_wires c <> length u -> verify_circuit c = Err (EBadWireCount (length u) (num_wires c))) /\
  (num_wires c = length u -> ~ NoDup (map g_output (gates c)) -> verify_circuit c = Err EBadOutputCount).
Proof. exact verify_char. Qed.
Example C14_case :
  verify_circuit (mkCircuit 3 2 1 [mkGate 2 2 [0;1]%nat GAdd] [2;2]) = Ok tt /\
  verify_circuit (mkCircuit 4 2 1 [mkGate 2 2 [0;1]%nat GAdd] [2;2]) = Err (EBadWireCount 3 4) /\
  verify_circuit (mkCircuit 3 2 1 [mkGate 2 2 [0;1]%nat GAdd; mkGate 2 2 [0]%nat GAdd] [2;2]) = Err EBadOutputCount.
Proof. repeat split. Qed.
Print Assumptions C14_verify_circuit.

(** C15 is false, in three ways. A digest function for the third one: the last 32 bytes. *)
Definition toy (x : bytes) : bytes := map (fun b => b mod 256) (firstn 32 (rev x ++ repeat 0 32)).
Lemma toy_hash32 : hash32 toy.
Proof.
  intros x. unfold toy. split.
  - rewrite map_length, firstn_length, app_length, repeat_length. lia.
  - apply Forall_forall. intros b Hb. apply in_map_iff in Hb as (y & <- & _). apply N.mod_lt. discriminate.
Qed.
Lemma set_idx_cases {A} (l : list A) i x : (exists l', set_idx l i x = Ok l') \/ set_idx l i x = Panic PIndex.
Proof. unfold set_idx. destruct (Nat.ltb i (length l)); eauto. Qed.
Definition c15_swapped : circuit :=
  mkCircuit 5 2 1 [mkGate 3 2 [0]%nat GAdd; mkGate 2 2 [1]%nat GAdd; mkGate 4 2 [2]%nat GAdd] [2;2].
Definition c15_uninit : circuit :=
  mkCircuit 3 1 1 [mkGate 1 2 [2]%nat GAdd; mkGate 2 2 [0]%nat GAdd] [2].
Theorem C15_verify_protects_refuted :
  (* the circuit for empty passwords is accepted but garbling it panics *)
  (forall p t, t <= 65534 -> exists c, build_circuit p 0 t = Ok c /\ verify_circuit c = Ok tt /\
     forall sha rd ri, exists r, garble sha p rd ri c = Panic r) /\
  (* an accepted circuit whose gate reads a wire that is written later: evaluation reads uninitialised
     memory whatever the tables are *)
  (verify_circuit c15_uninit = Ok tt /\
   forall sha p f half l, evaluate sha p (mkGC c15_uninit f half) [l] = UB) /\
  (* an accepted circuit whose gates are not numbered in order: clear evaluation gives 1, the honest
     garbled run is rejected by decode *)
  (verify_circuit c15_swapped = Ok tt /\ hash32 toy /\
   (forall p, exists ws, eval p c15_swapped [0; 1] = Ok ws /\ nth 4 ws 0 = 1) /\
   forall p, exists gc ek dk xs zs, garble toy p (fun _ => repeat 3 32) (fun i => repeat (N.of_nat i + 8) 32) c15_swapped = Ok (gc, ek, dk) /\
     encode p ek [0; 1] = Ok xs /\ evaluate toy p gc xs = Ok zs /\ decode toy dk zs = Err EDecode).
Proof.
  split; [|split].
  - intros p t Ht. exists (circ1 0 t). split. { apply build_circuit_eq; cbn; auto. discriminate. }
    split. { apply circ1_verify; auto. discriminate. }
    intros sha rd ri. unfold garble, garble_run, circ1. cbn. change (cd1 0) with 1.
    unfold ensure_delta. cbn. unfold wire_delta, wire_new. cbn.
    destruct (set_idx_cases (rd 1) 31 1) as [[w E]|E]; rewrite E; cbn; [|eauto].
    destruct (idx (rd 2) 31) as [b|e|r|] eqn:E2; unfold idx in E2; destruct (nth_error (rd 2) 31); try discriminate; cbn; [|eauto].
    destruct (set_idx_cases (rd 2) 31 (N.lor b 1)) as [[w2 E3]|E3]; rewrite E3; cbn; eauto.
  - split; [reflexivity|]. intros sha [|] f half l; reflexivity.
  - split; [reflexivity|]. split; [exact toy_hash32|]. split.
    + intros p. eexists. split. destruct p; reflexivity. reflexivity.
    + intros [|]; do 5 eexists; (split; [vm_compute; reflexivity|]); (split; [vm_compute; reflexivity|]);
        split; vm_compute; reflexivity.
Qed.
Print Assumptions C15_verify_protects_refuted.

(** C16 is false: AND ignores its second input, a constant multiple is not reduced, a sum overflows. *)
Definition c16_and : circuit := mkCircuit 3 2 1 [mkGate 2 2 [0;1]%nat GAnd] [2;2].
Definition c16_mul : circuit := mkCircuit 2 1 1 [mkGate 1 5 [0]%nat (GMul 3)] [5].
Definition c16_add : circuit := mkCircuit 4 3 1 [mkGate 3 30000 [0;1;2]%nat GAdd] [30000;30000;30000].
Theorem C16_eval_semantics_refuted : forall p,
  (wf_circuit c16_and /\ wf_inputs c16_and [1;0] /\
   eval p c16_and [1;0] = Ok [1;0;1] /\ circuit_values c16_and [1;0] = [1;0;0]) /\
  (wf_circuit c16_mul /\ wf_inputs c16_mul [4] /\
   eval p c16_mul [4] = Ok [4;12] /\ circuit_values c16_mul [4] = [4;2]) /\
  (wf_circuit c16_add /\ wf_inputs c16_add [29999;29999;29999] /\
   eval p c16_add [29999;29999;29999] <> Ok (circuit_values c16_add [29999;29999;29999])).
Proof.
  intros p.
  assert (W : forall ds g, (forall m, In m ds -> m = g_domain g) -> ds <> [] -> supported (g_domain g) ->
     gate_typed (mkCircuit (length ds + 1) (length ds) 1 [g] ds) g -> g_output g = length ds ->
     Forall (fun i => (i < length ds)%nat) (g_inputs g) -> wf_circuit (mkCircuit (length ds + 1) (length ds) 1 [g] ds)).
  { intros ds g Hd Hne Hs Ht Ho Hi. constructor; cbn; auto.
    - intros [|k] g' Hg; cbn in Hg; [|destruct k; discriminate]. inversion Hg; subst g'.
      split; [lia|]. split; [now rewrite Ho|]. auto.
    - apply Forall_forall. intros m Hm. now rewrite (Hd m Hm).
    - intros m Hm. exists g. split; auto. left. symmetry; auto. }
  split; [|split].
  - split. { apply (W [2;2]).
      - intros m [<-|[<-|[]]]; reflexivity.
      - discriminate.
      - left; cbn; lia.
      - exists 0%nat, 1%nat, []. auto.
      - reflexivity.
      - repeat constructor. }
    split. { split; auto. intros [|[|i]] Hi; cbn in *; try reflexivity; lia. }
    split; [destruct p|]; reflexivity.
  - split. { apply (W [5]).
      - intros m [<-|[]]; reflexivity.
      - discriminate.
      - left; cbn; lia.
      - exists 0%nat, []. repeat split.
      - reflexivity.
      - repeat constructor. }
    split. { split; auto. intros [|i] Hi; cbn in *; try reflexivity; lia. }
    split; [destruct p|]; reflexivity.
  - split. { apply (W [30000;30000;30000]).
      - intros m [<-|[<-|[<-|[]]]]; reflexivity.
      - discriminate.
      - right; cbn; lia.
      - split; [discriminate|]. intros i [<-|[<-|[<-|[]]]]; reflexivity.
      - reflexivity.
      - repeat constructor. }
    split. { split; auto. intros [|[|[|i]]] Hi; cbn in *; try reflexivity; lia. }
    destruct p; vm_compute; discriminate.
Qed.
Print Assumptions C16_eval_semantics_refuted.

(** What holds of C16: clear evaluation is right exactly when it is right on every gate ([eval_right_gate]): an AND gate
    needs first input 0 or second input 1, a constant multiple must stay below the domain, a sum below 65536.  A release
    build may also wrap to the right value by chance. *)
Theorem C16_eval_semantics_exactly : forall p c x, wf_circuit c -> wf_inputs c x ->
  (eval p c x = Ok (circuit_values c x) <-> forall g, In g (gates c) -> eval_right_gate p c x g).
Proof. exact eval_exact. Qed.
(** It does not need all of [wf_circuit] when the gates are right. *)
Theorem C16_eval_semantics_when_right : forall p c x,
  num_wires c = (num_inputs c + length (gates c))%nat -> length x = num_inputs c ->
  (forall k g, nth_error (gates c) k = Some g ->
     g_output g = (num_inputs c + k)%nat /\ Forall (fun i => (i < g_output g)%nat) (g_inputs g) /\ eval_ok_gate c x g) ->
  eval p c x = Ok (circuit_values c x).
Proof. exact eval_correct. Qed.
Example C16_case : eval Debug (mkCircuit 4 2 1 [mkGate 2 7 [0;1]%nat GAdd; mkGate 3 7 [2]%nat (GProj (PLess 3))] [7;7]) [6;3]
  = Ok [6;3;2;1].
Proof. reflexivity. Qed.
Print Assumptions C16_eval_semantics_when_right.
Print Assumptions C16_eval_semantics_exactly.
(** The condition decides the witnesses above. *)
Example C16_decides : ~ eval_right_gate Debug c16_and [1;0] (mkGate 2 2 [0;1]%nat GAnd) /\ eval_right_gate Debug c16_and [1;1] (mkGate 2 2 [0;1]%nat GAnd) /\
  eval_right_gate Release c16_add [29999;29999;29999] (mkGate 3 32768 [0;1;2]%nat GAdd).
Proof.
  split; [intros [E|E]; discriminate E|]. split; [right; reflexivity|]. right. split; reflexivity.
Qed.

(** C17 is false: a gate that reads an input together with an intermediate wire adds a domain for the
    intermediate wire, and a gate that reads the inputs in another order lists domains in that order. *)
Definition c17_gates : list gate := [mkGate 3 2 [0;1]%nat GAdd; mkGate 4 2 [2;3]%nat GAdd].
Definition c17_order : list gate :=
  [mkGate 2 3 [1]%nat (GProj (PMap 2)); mkGate 3 5 [0]%nat (GProj (PMap 2)); mkGate 4 2 [2;3]%nat GAdd].
Theorem C17_builder_metadata_refuted :
  (let c := build (fold_left add_gate c17_gates (builder_new 3)) in
   verify_circuit c = Ok tt /\ num_inputs c = 3%nat /\ length (input_domains c) = 4%nat) /\
  (let c := build (fold_left add_gate c17_order (builder_new 2)) in
   verify_circuit c = Ok tt /\ num_inputs c = 2%nat /\
   (* input 0 is read at modulus 5 but its label is created at modulus 3 *)
   nth 0 (input_domains c) 0 = 3 /\ g_domain (nth 1 (gates c) (mkGate 0 0 [] GAdd)) = 5).
Proof. vm_compute. repeat split. Qed.
(** The input domains are right exactly when the wires read by the gates that read an input are as many as the
    inputs, and the i-th of these reads is at the modulus at which input i is read. *)
Theorem C17_input_domains_exactly : forall n gs,
  let c := build (fold_left add_gate gs (builder_new n)) in
  let reads := flat_map (fun g => map (fun i => (i, g_domain g)) (g_inputs g)) (filter (reads_input n) gs) in
  (length (input_domains c) = n /\
   forall i g, (i < n)%nat -> In g gs -> In i (g_inputs g) -> nth i (input_domains c) 0 = g_domain g) <->
  (length reads = n /\ forall i m, (i < n)%nat -> In (i, m) reads -> snd (nth i reads (0%nat, 0)) = m).
Proof.
  intros n gs c reads.
  assert (E : input_domains c = map snd reads).
  { destruct (built_gates n gs) as [Eg En]. unfold built in Eg, En. unfold c, build. cbn [input_domains]. rewrite Eg, En. unfold reads.
    change (fun g => existsb (fun i => Nat.ltb i n) (g_inputs g)) with (reads_input n).
    induction (filter (reads_input n) gs) as [|g l IH]; [reflexivity|]. cbn [flat_map]. rewrite map_app, IH, map_map. reflexivity. }
  rewrite E, map_length.
  assert (R : forall i m, (i < n)%nat -> (In (i, m) reads <-> exists g, In g gs /\ In i (g_inputs g) /\ g_domain g = m)).
  { intros i m Hi. unfold reads. rewrite in_flat_map. split.
    - intros (g & Hg & H). apply filter_In in Hg as [Hg _]. apply in_map_iff in H as (j & H & Hj). injection H as -> <-. eauto.
    - intros (g & Hg & Hin & <-). exists g. split; [apply filter_In; split; [exact Hg|]|now apply (in_map (fun i => (i, g_domain g)))].
      unfold reads_input. apply existsb_exists. exists i. split; [exact Hin|]. now apply Nat.ltb_lt. }
  change 0 with (snd (0%nat, 0)) at 1. split; intros [L H]; (split; [exact L|]).
  - intros i m Hi Hr. apply R in Hr as (g & Hg & Hin & <-); [|exact Hi]. rewrite <- map_nth. now apply H.
  - intros i g Hi Hg Hin. rewrite map_nth. apply H; [exact Hi|]. apply R; eauto.
Qed.
(** The rest of C17.  [unread gs w]: some gate writes w and neither it nor a later gate reads it. *)
Theorem C17_builder_metadata : forall n gs,
  let c := build (fold_left add_gate gs (builder_new n)) in
  gates c = gs /\ num_inputs c = n /\
  (exists u, NoDup u /\ (forall w, In w u <-> mentions gs w) /\ num_wires c = length u) /\
  (exists o, NoDup o /\ (forall w, In w o <-> unread gs w) /\ num_outputs c = length o) /\
  (flat_map g_inputs (filter (reads_input n) gs) = seq 0 n ->
     length (input_domains c) = n /\
     forall i, (i < n)%nat -> exists g, In g gs /\ In i (g_inputs g) /\ nth i (input_domains c) 0 = g_domain g) /\
  (verify_circuit c = Ok tt <-> NoDup (map g_output gs)).
Proof. exact builder_metadata. Qed.
Example C17_case : let gs := [mkGate 2 2 [0;1]%nat GAdd; mkGate 3 2 [2]%nat (GProj (PMap 9))] in
  flat_map g_inputs (filter (reads_input 2) gs) = seq 0 2 /\ unread gs 3 /\
  build (fold_left add_gate gs (builder_new 2)) = mkCircuit 4 2 1 gs [2;2].
Proof.
  split; [reflexivity|]. split; [|reflexivity].
  exists [mkGate 2 2 [0;1]%nat GAdd], (mkGate 3 2 [2]%nat (GProj (PMap 9))), [].
  split; [reflexivity|]. split; [reflexivity|]. intros h [<-|[]] [H|[]]; discriminate.
Qed.
Print Assumptions C17_builder_metadata_refuted.
Print Assumptions C17_builder_metadata.
Print Assumptions C17_input_domains_exactly.
Example C17_decides : length (flat_map (fun g => map (fun i => (i, g_domain g)) (g_inputs g)) (filter (reads_input 3) c17_gates)) = 4%nat /\
  flat_map (fun g => map (fun i => (i, g_domain g)) (g_inputs g)) (filter (reads_input 2) c17_order) = [(1%nat, 3); (0%nat, 5)] /\
  flat_map (fun g => map (fun i => (i, g_domain g)) (g_inputs g)) (filter (reads_input 2) [mkGate 2 2 [0;1]%nat GAdd; mkGate 3 2 [2]%nat (GProj (PMap 9))]) = [(0%nat, 2); (1%nat, 2)].
Proof. repeat split. Qed.
