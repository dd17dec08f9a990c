(** C23 for any wire: what the table of an AND gate gives away (garble.rs:226-252). *)
From Coq Require Import List NArith Bool Lia Arith.
From Verif Require Import Base MUtil MWires MCircuit MGarble SpecUtil SpecWires SpecCircuit SpecGarble.
From Verif Require Import PWires PGarble PAnd CCircuit CGarble CSteal.
Import ListNotations.
Open Scope N_scope.

(** C23 is false for inner wires as well: the two rows of an AND gate that reads one wire twice, and either of the two labels of that
    wire, xor to the offset of modulus 2 if the label has colour 1, and to zero if it has colour 0 (the rows
    then xor to the label itself, whoever holds it). *)
Theorem C23_and_leak_any_wire_refuted : forall sha256 p rd ri c gc ek dk s k g a l d,
  hash32 sha256 -> good_samples c rd ri -> wf_circuit c ->
  garble sha256 p rd ri c = Ok (gc, ek, dk) -> garble_run sha256 p rd ri c = Ok (ek, first_output c, s) ->
  nth_error (gates c) k = Some g -> g_kind g = GAnd -> g_inputs g = a :: a :: l ->
  wire_delta 2 (rd 2) = Ok d ->
  exists tg te, alookup Nat.eqb (g_output g) (gc_half gc) = Some (tg, te) /\
    forall v x j, v < 2 -> genuine c rd (gs_wires s) a v x -> (j < 32)%nat ->
      N.lxor (N.lxor (nth j (wval tg) 0) (nth j (wval te) 0)) (nth j (wval x) 0) = colour_of 2 x * nth j (wval d) 0.
Proof.
  intros sha256 p rd ri c gc ek dk s k g a l d Hsha Hsam Hwf Eg Er Hk Ek Ei Ed.
  exact (and_leak sha256 p rd ri c Hsha Hsam Hwf gc ek dk s Eg Er k g a l Hk Ek Ei d Ed).
Qed.
Print Assumptions C23_and_leak_any_wire_refuted.

(** The square of one bit: for the input 1 the label has colour 1. *)
Definition square : circuit := mkCircuit 2 1 1 [mkGate 1 2 [0;0]%nat GAnd] [2].
Lemma square_wf : wf_circuit square.
Proof.
  constructor; try reflexivity; cbn.
  - intros [|k] g Hg; cbn in Hg; [|destruct k; discriminate]. inversion Hg; subst g; cbn.
    split; [reflexivity|]. split; [repeat constructor|]. split; [|left; lia]. exists 0%nat, 0%nat, []. repeat split; auto.
  - apply Forall_cons; [left; lia|apply Forall_nil].
  - intros m [<-|[]]. eexists. split; [left; reflexivity|]. now left.
Qed.
Lemma square_samples : good_samples square demo_rd less_ri.
Proof.
  split; [exact demo_rd_ok|]. intros [|i] m Hm; cbn in Hm; [|destruct i; discriminate]. inversion Hm; subst m.
  intros d Hd. rewrite (domain_new_supported 2) in Hd by (left; lia). inversion Hd; subst d. apply zeros_label. left; lia.
Qed.
Example C23_any_wire_case : exists gc ek dk s tg te d x, garble toy Debug demo_rd less_ri square = Ok (gc, ek, dk) /\
  alookup Nat.eqb 1%nat (gc_half gc) = Some (tg, te) /\ wire_delta 2 (demo_rd 2) = Ok d /\
  genuine square demo_rd (gs_wires s) 0 1 x /\ colour_of 2 x = 1 /\
  forall j, (j < 32)%nat -> N.lxor (N.lxor (nth j (wval tg) 0) (nth j (wval te) 0)) (nth j (wval x) 0) = nth j (wval d) 0.
Proof.
  set (d := mkWire Binary (repeat 7 32)). assert (Ed : wire_delta 2 (demo_rd 2) = Ok d) by (vm_compute; reflexivity). clearbody d.
  assert (Hi : wf_inputs square [1]). { split; [reflexivity|]. intros [|i] Hi; cbn in *; lia. }
  destruct (C18_garbled_evaluation toy Debug demo_rd less_ri square [1] toy_hash32 square_samples square_wf Hi)
    as (gc & ek & dk & s & xs & zs & Eg & Er & Ee & _ & _ & _ & Hgen & _).
  destruct (C23_and_leak_any_wire_refuted toy Debug demo_rd less_ri square gc ek dk s 0 _ 0 [] d toy_hash32 square_samples square_wf
    Eg Er eq_refl eq_refl eq_refl Ed) as (tg & te & Et & H).
  assert (Hc : colour_of 2 (nth 0 xs wire_empty) = 1).
  { assert (E : match garble toy Debug demo_rd less_ri square with Ok (_, e, _) =>
      match encode Debug e [1] with Ok y => colour_of 2 (nth 0 y wire_empty) | _ => 0 end | _ => 0 end = 1) by (vm_compute; reflexivity).
    rewrite Eg, Ee in E. exact E. }
  assert (Hg : genuine square demo_rd (gs_wires s) 0 1 (nth 0 xs wire_empty)) by (apply Hgen; cbn; lia).
  exists gc, ek, dk, s, tg, te, d, (nth 0 xs wire_empty). repeat (split; [assumption|]).
  intros j Hj. rewrite (H 1 (nth 0 xs wire_empty) j) by (auto; lia). now rewrite Hc, N.mul_1_l.
Qed.
