(** C95: what a garbled circuit without projection gates hides (garble.rs:147-272, the half gates at 226-252). *)
From Coq Require Import List NArith Bool Lia Arith.
From Verif Require Import Base MUtil MWires MCircuit MGarble SpecUtil SpecWires SpecCircuit SpecGarble SpecBincode SpecPrivate.
From Verif Require Import PWires PGarble PPrivate CCircuit CGarble.
Import ListNotations.
Open Scope N_scope.

(** Circuits of additions, constant multiples and AND gates are garbled perfectly hidingly. For any two inputs with the same outputs there
    is a map between worlds (hash function, samples of the input labels) that has the map for the exchanged inputs as its inverse and under
    which the evaluator sees exactly the same garbled circuit, decoding key and labels. The offsets are the same in both worlds, and
    the two hash functions differ only at strings the evaluator could form from labels of values the wires do not have.
    The worlds are those in which no label of one input of an AND gate is a label of its other input; C23 shows what a gate reading one wire
    twice gives away, C76 and C93 what projections give away. *)
Theorem C95_projection_free_private : forall p rd c, wf_circuit c -> projection_free c -> usize_ok (num_wires c) ->
  exists F : list N -> list N -> (bytes -> bytes) * (nat -> bytes) -> (bytes -> bytes) * (nat -> bytes),
  forall x x' w, wf_inputs c x -> wf_inputs c x' -> circuit_outputs c x = circuit_outputs c x' -> fair p rd c w ->
    fair p rd c (F x x' w) /\
    (exists r, view p rd c x w = Ok r /\ view p rd c x' (F x x' w) = Ok r) /\
    same_world (F x' x (F x x' w)) w /\
    (forall q, fst (F x x' w) q <> fst w q -> unheld p rd c x w q).
Proof.
  intros p rd c Hwf Hpf Hus. exists (fun x x' w => swap rd c x x' p w). intros x x' w.
  exact (swap_ok p rd c Hwf Hpf Hus x x' w).
Qed.
Print Assumptions C95_projection_free_private.

(** The sum of two bits and one of them, multiplied; a third input is doubled modulo 3. *)
Definition mixed : circuit := mkCircuit 6 3 1
  [mkGate 3 2 [0;1]%nat GAdd; mkGate 4 3 [2]%nat (GMul 2); mkGate 5 2 [3;1]%nat GAnd] [2;2;3].
Definition mixed_ri (i : nat) : bytes := if Nat.eqb i 2 then repeat 1 32 else repeat (N.of_nat i + 20) 32.
Lemma mixed_wf : wf_circuit mixed.
Proof.
  constructor; try reflexivity; cbn.
  - auto.
  - intros [|[|[|k]]] g Hg; cbn in Hg; [| | |destruct k; discriminate]; inversion Hg; subst g; cbn;
      (split; [reflexivity|]); (split; [repeat constructor|]); (split; [|left; lia]); unfold gate_typed; cbn.
    + split; [discriminate|]. intros i [<-|[<-|[]]]; reflexivity.
    + exists 2%nat, []. repeat split; lia.
    + exists 3%nat, 1%nat, []. repeat split.
  - repeat apply Forall_cons; try apply Forall_nil; left; lia.
  - intros m [<-|[<-|[<-|[]]]].
    + eexists. split; [left; reflexivity|]. now left.
    + eexists. split; [left; reflexivity|]. now left.
    + eexists. split; [right; left; reflexivity|]. now left.
Qed.
Lemma mixed_samples : good_samples mixed demo_rd mixed_ri.
Proof.
  split; [exact demo_rd_ok|]. intros i m Hm d Hd.
  destruct i as [|[|[|i]]]; cbn in Hm; [| | |destruct i; discriminate]; inversion Hm; subst m; vm_compute in Hd; inversion Hd; subst d;
    (split; [reflexivity|]); (split; [reflexivity|]); (split; [repeat constructor|]); try (intros H; now destruct H); intros _ j Hj;
    unfold digit; cbn [wide]; change (ndigits 3) with 32%nat in Hj; change (wide 3) with false; cbv iota;
    cbn [wval]; unfold mixed_ri; cbn [Nat.eqb]; rewrite PCircuit.nth_repeat_lt by auto; lia.
Qed.
Lemma mixed_fair : fair Debug demo_rd mixed (toy, mixed_ri).
Proof.
  split; [exact toy_hash32|]. split; [exact mixed_samples|]. cbn [fst snd]. intros ek st s E.
  assert (Z : nth 3 (gs_wires s) wire_empty = mkWire Binary (repeat 1 32) /\ nth 1 (gs_wires s) wire_empty = mkWire Binary (repeat 21 32)).
  { vm_compute in E. inversion E; subst. split; reflexivity. }
  intros g a b l Hg Ek Ei u v x y Hu Hv (d & Ed & Lx & Gx) (d' & Ed' & Ly & Gy) Exy.
  assert (a = 3%nat /\ b = 1%nat) as [-> ->].
  { destruct Hg as [<-|[<-|[<-|[]]]]; cbn in Ek, Ei; try discriminate. inversion Ei; subst; auto. }
  change (modulus mixed 3) with 2 in *. change (modulus mixed 1) with 2 in *.
  specialize (Gx 0%nat ltac:(cbn; lia)). specialize (Gy 0%nat ltac:(cbn; lia)).
  destruct Z as [Z3 Z1]. rewrite Z3 in Gx. rewrite Z1 in Gy.
  vm_compute in Ed, Ed'. inversion Ed; subst d. inversion Ed'; subst d'.
  unfold digit in Gx, Gy. change (wide 2) with false in *. cbv iota in Gx, Gy. rewrite Exy in Gx. rewrite Gy in Gx.
  assert (u = 0 \/ u = 1) as [-> | ->] by lia; assert (v = 0 \/ v = 1) as [-> | ->] by lia; discriminate Gx.
Qed.
Example C95_case : wf_circuit mixed /\ projection_free mixed /\ usize_ok (num_wires mixed) /\
  wf_inputs mixed [0;0;1] /\ wf_inputs mixed [1;0;2] /\ circuit_values mixed [0;0;1] <> circuit_values mixed [1;0;2] /\
  circuit_outputs mixed [0;0;1] = circuit_outputs mixed [1;0;2] /\ fair Debug demo_rd mixed (toy, mixed_ri).
Proof.
  split; [exact mixed_wf|]. split. { intros g k [<-|[<-|[<-|[]]]]; discriminate. }
  split; [reflexivity|]. split. { split; [reflexivity|]. intros [|[|[|i]]] Hi; cbn in Hi |- *; try reflexivity; lia. }
  split. { split; [reflexivity|]. intros [|[|[|i]]] Hi; cbn in Hi |- *; try reflexivity; lia. }
  split; [vm_compute; discriminate|]. split; [reflexivity|]. exact mixed_fair.
Qed.
