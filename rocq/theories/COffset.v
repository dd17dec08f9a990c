(** C101: moving circuits (CircuitBuilder::offset). *)
From Coq Require Import List NArith Bool Arith Lia.
From Verif Require Import Base MWires MCircuit SpecWires SpecCircuit SpecOffset POffset.
Import ListNotations.
Open Scope N_scope.

(** The gates of a moved circuit compute the same on the moved wires, whatever the other wires hold. *)
Theorem C101_same_function : forall n gs k,
  let b := fold_left add_gate gs (builder_new n) in
  same_up_to (fun w => w + k)%nat (gates (build b)) (gates (build (builder_offset b k))).
Proof. exact offset_same. Qed.
Print Assumptions C101_same_function.

(** That meaning of gates agrees with the one of the other theorems if the gates are numbered after the inputs. *)
Theorem C101_same_meaning : forall gs n vals,
  length vals = n ->
  (forall j g, nth_error gs j = Some g -> g_output g = (n + j)%nat /\ Forall (fun i => (i < n + j)%nat) (g_inputs g)) ->
  forall w, (w < n + length gs)%nat -> run_memory gs (fun i => nth i vals 0) w = nth w (run_gates gs vals) 0.
Proof. exact run_memory_list. Qed.
Print Assumptions C101_same_meaning.

(** Moving keeps the numbers of wires, inputs and outputs and the verdict of the verification; it can be done in
    steps, and before or after gates are added. *)
Theorem C101_keeps_metadata : forall n gs k,
  let c := build (fold_left add_gate gs (builder_new n)) in
  let d := build (builder_offset (fold_left add_gate gs (builder_new n)) k) in
  num_wires d = num_wires c /\ num_inputs d = num_inputs c /\ num_outputs d = num_outputs c /\ verify_circuit d = verify_circuit c.
Proof. exact offset_circuit. Qed.
Print Assumptions C101_keeps_metadata.
Theorem C101_in_steps : forall b k l g,
  builder_offset (builder_offset b k) l = builder_offset b (k + l) /\
  builder_offset (add_gate b g) k =
  add_gate (builder_offset b k) (mkGate (g_output g + k) (g_domain g) (map (fun i => i + k)%nat (g_inputs g)) (g_kind g)).
Proof. intros. split; [apply offset_offset|apply offset_add]. Qed.
Print Assumptions C101_in_steps.

(** [next_wire] is the output of the last gate, moved along; 0 before the first gate. *)
Theorem C101_next_wire : forall n gs k,
  let b := fold_left add_gate gs (builder_new n) in
  b_next b = last (map g_output gs) 0%nat /\ b_next (builder_offset b k) = (last (map g_output gs) 0 + k)%nat.
Proof. exact next_wire. Qed.
Print Assumptions C101_next_wire.

(** But a moved circuit cannot be evaluated: the table of wires has room for the unmoved ones only.  This is so for
    all circuits in which a gate writes the highest wire, for all inputs. *)
Theorem C101_moved_circuit_evaluates_refuted : forall n gs k p x, (0 < k)%nat ->
  (exists g, In g gs /\ forall w, mentions gs w -> (w <= g_output g)%nat) ->
  ~ evaluates (eval p (build (builder_offset (fold_left add_gate gs (builder_new n)) k)) x).
Proof. intros n gs k p x Hk H [ws E]. destruct (offset_eval n gs k p x Hk H) as [r Hr]. congruence. Qed.
Print Assumptions C101_moved_circuit_evaluates_refuted.
(** It is accepted by the verification, and the unmoved one can be evaluated. *)
Example C101_case : let gs := [mkGate 2 2 [0;1]%nat GAdd; mkGate 3 2 [2]%nat (GProj (PMap 9))] in
  let b := fold_left add_gate gs (builder_new 2) in
  (exists g, In g gs /\ forall w, mentions gs w -> (w <= g_output g)%nat) /\
  evaluates (eval Debug (build b) [1; 1]) /\ verify_circuit (build (builder_offset b 1)) = Ok tt /\
  eval Debug (build (builder_offset b 1)) [1; 1] = Panic PIndex /\
  gates (build (builder_offset b 5)) = [mkGate 7 2 [5;6]%nat GAdd; mkGate 8 2 [7]%nat (GProj (PMap 9))] /\
  b_next (builder_offset b 5) = 8%nat /\ b_unread (builder_offset b 5) = [8%nat] /\ input_domains (build (builder_offset b 5)) = [].
Proof.
  cbv zeta. split.
  - exists (mkGate 3 2 [2]%nat (GProj (PMap 9))). split; [cbn; auto|]. intros w (g & [<-|[<-|[]]] & [H| ->]); cbn in *; lia.
  - split; [eexists; vm_compute; reflexivity|]. vm_compute. repeat split.
Qed.
Example C101_meaning_case : let gs := [mkGate 2 2 [0;1]%nat GAdd; mkGate 3 2 [2]%nat (GProj (PMap 9))] in
  run_memory gs (fun i => nth i [1; 0] 0) 3 = 1 /\ run_gates gs [1; 0] = [1; 0; 1; 1].
Proof. vm_compute. auto. Qed.
