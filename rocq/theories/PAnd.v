(** The table of an AND gate whose two inputs are one wire. *)
From Coq Require Import List NArith Bool Arith Lia.
From Verif Require Import Base MUtil MWires MCircuit MGarble SpecWires SpecCircuit SpecGarble PBase PWires PWiresSpec PGarble PGarbleSpec PLeak.
Import ListNotations.
Open Scope N_scope.

Ltac xor_solve :=
  rewrite ?N.lxor_0_r, ?N.lxor_0_l; apply N.bits_inj; intro; rewrite ?N.lxor_spec, ?N.bits_0;
  repeat match goal with |- context [N.testbit ?a ?n] => destruct (N.testbit a n) end; reflexivity.

Section And.
Variable sha256 : bytes -> bytes.
Variable p : profile.
Variable rd : N -> bytes.
Variable ri : nat -> bytes.
Variable c : circuit.
Hypothesis Hsha : hash32 sha256.
Hypothesis Hsam : good_samples c rd ri.
Hypothesis Hwf : wf_circuit c.
Variables (gc : garbled) (ek : encoding_key) (dk : decoding_key) (s : gstate).
Hypothesis Eg : garble sha256 p rd ri c = Ok (gc, ek, dk).
Hypothesis Er : garble_run sha256 p rd ri c = Ok (ek, first_output c, s).
Variables (k : nat) (g : gate) (a : nat) (l : list nat).
Hypothesis Hk : nth_error (gates c) k = Some g.
Hypothesis Ek : g_kind g = GAnd.
Hypothesis Ei : g_inputs g = a :: a :: l.
Variable d : wire.
Hypothesis Ed : wire_delta 2 (rd 2) = Ok d.
Notation wa := (nth a (gs_wires s) wire_empty).

Lemma and_sum j0 j : WF 2 wa -> (j < 32)%nat ->
  N.lxor (nth j (wval (and_tg sha256 rd wa wa j0)) 0) (nth j (wval (and_te sha256 rd wa wa j0)) 0) =
  N.lxor (nth j (wval wa) 0) (color wa * nth j (wval (D rd 2)) 0).
Proof.
  intros Ha Hj. destruct Hsam as [Hrd _]. pose proof (D_WF rd Hrd 2 sup2) as HD.
  assert (HH : forall w n, WF 2 (hh sha256 w n)) by (intros; apply hh_WF; exact Hsha).
  pose proof (color_lt 2 wa sup2 Ha) as Hc. unfold and_tg, and_te.
  destruct (N.eqb_spec (color wa) 0) as [E|E]; cbn [negb].
  - rewrite E. repeat rewrite nth_padd2 by auto 12 using padd_WF, sup2. rewrite N.mul_0_l. xor_solve.
  - replace (color wa) with 1 by lia. repeat rewrite nth_padd2 by auto 12 using padd_WF, sup2. rewrite N.mul_1_l. xor_solve.
Qed.

Lemma and_table : modulus c a = 2 /\ WF 2 wa /\
  alookup Nat.eqb (g_output g) (gc_half gc) =
    Some (and_tg sha256 rd wa wa (S (ands c k)), and_te sha256 rd wa wa (S (ands c k))).
Proof.
  destruct (run_inv sha256 p rd ri c Hsha Hsam Hwf gc ek dk s Eg Er) as [Egc HI].
  destruct (wf_gates c Hwf k g Hk) as (Eo & Hins & Hty & Hsup).
  unfold gate_typed in Hty. rewrite Ek in Hty. destruct Hty as (i & i' & l' & Ei' & Ma & _).
  rewrite Ei in Ei'. inversion Ei'; subst i i' l'.
  destruct HI as (Hlw & HW & _ & _ & Hgood & _). assert (Hkl : (k < length (gates c))%nat) by (apply nth_error_Some; congruence).
  specialize (Hgood k g Hkl Hk). unfold good_gate in Hgood. rewrite Ek in Hgood. destruct (Hgood a a l Ei) as (_ & Et).
  rewrite Ei in Hins. inversion Hins as [|? ? Hi _ Q]; subst.
  split; [exact Ma|]. split; [|exact Et]. rewrite <- Ma. apply HW. lia.
Qed.

Lemma and_leak : exists tg te, alookup Nat.eqb (g_output g) (gc_half gc) = Some (tg, te) /\
  forall v x j, v < 2 -> genuine c rd (gs_wires s) a v x -> (j < 32)%nat ->
    N.lxor (N.lxor (nth j (wval tg) 0) (nth j (wval te) 0)) (nth j (wval x) 0) = colour_of 2 x * nth j (wval d) 0.
Proof.
  destruct and_table as (Ma & Ha & Et). eexists _, _. split; [exact Et|].
  intros v x j Hv Hg Hj. rewrite and_sum by auto.
  destruct (run_inv sha256 p rd ri c Hsha Hsam Hwf gc ek dk s Eg Er) as [_ HI].
  destruct Hsam as [Hrd _]. pose proof (D_WF rd Hrd 2 sup2) as HD.
  assert (EdD : D rd 2 = d) by (unfold D; now rewrite Ed).
  assert (Hao : (a < num_wires c)%nat).
  { destruct (wf_gates c Hwf k g Hk) as (Eo & Hins & _). rewrite Ei in Hins. inversion Hins as [|? ? Hi _ Q]; subst.
    rewrite (wf_wires c Hwf). assert (k < length (gates c))%nat by (apply nth_error_Some; congruence). lia. }
  assert (Ex : x = lab rd 2 wa v).
  { apply (genuine_unique c rd (gs_wires s) a v); [rewrite Ma; exact sup2|exact Hg|].
    rewrite <- Ma. eapply lab_genuine; eauto. now rewrite Ma. }
  assert (Hx : WF 2 x) by (rewrite Ex; apply lab_WF; auto using sup2).
  assert (Ec : colour_of 2 x = color x).
  { rewrite (color_last 2) by auto using sup2. unfold colour_of. rewrite digit_dg; [reflexivity|exact Hx|]. cbn. lia. }
  assert (Es : color x = (color wa + v) mod 2) by (rewrite Ex; apply color_shift; auto using sup2, D_delta).
  pose proof (color_lt 2 wa sup2 Ha) as Hc. rewrite Ec, Es, <- EdD.
  assert (Ev : v = 0 \/ v = 1) by lia. assert (Ew : color wa = 0 \/ color wa = 1) by lia.
  destruct Ev as [-> | ->]; rewrite Ex.
  - rewrite (lab2_0 rd Hrd) by auto. destruct Ew as [-> | ->]; cbn [N.add]; change ((0 + 0) mod 2) with 0; change ((1 + 0) mod 2) with 1;
      rewrite ?N.mul_0_l, ?N.mul_1_l; xor_solve.
  - rewrite (lab2_1 rd Hrd), nth_padd2 by auto. destruct Ew as [-> | ->]; change ((0 + 1) mod 2) with 1; change ((1 + 1) mod 2) with 0;
      rewrite ?N.mul_0_l, ?N.mul_1_l; xor_solve.
Qed.
End And.
