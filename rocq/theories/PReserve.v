(** Lemmas about the memory reserved by [evaluate]. *)
From Coq Require Import List NArith Arith Lia.
From Verif Require Import Base MWires MCircuit MGarble MBincode MReserve SpecBincode SpecCanon SpecCircuit PBase PBincode PCanon PCircuit.
Import ListNotations.
Open Scope N_scope.

(** A circuit without gates that claims n wires and k inputs. *)
Definition hollow (n k : nat) : circuit := mkCircuit n k 0 [] [].
Definition hollow_frame (n k : nat) : bytes := enc_garbled (mkGC (hollow n k) [] []).

Lemma hollow_length n k : length (hollow_frame n k) = 56%nat.
Proof.
  unfold hollow_frame, enc_garbled, enc_circuit, enc_map, enc_vec, hollow. cbn [gc_circuit gc_f gc_half num_wires num_inputs num_outputs gates input_domains flat_map].
  rewrite !app_length, !len_usize. reflexivity.
Qed.
Lemma hollow_ok n k : usize_ok n -> usize_ok k -> garbled_ok (mkGC (hollow n k) [] []).
Proof.
  intros Hn Hk. assert (Z : usize_ok 0) by (unfold usize_ok; reflexivity).
  unfold garbled_ok, circuit_ok, map_ok, vec_ok. cbn.
  repeat split; auto; constructor.
Qed.
Lemma hollow_reserves p s n ours : usize_ok n -> usize_ok (length ours) ->
  evaluator_reserves p s (hollow_frame n (length ours)) (enc_wires []) ours = with_capacity s n.
Proof.
  intros Hn Hk. unfold evaluator_reserves, deserialize.
  destruct (rt_garbled (mkGC (hollow n (length ours)) [] []) [] (hollow_ok _ _ Hn Hk)) as (g & E & S1).
  rewrite app_nil_r in E. unfold hollow_frame. rewrite E. cbn [obind].
  destruct S1 as [S1 _]. cbn [gc_circuit] in S1.
  assert (W : dec_wires (enc_wires []) = Ok ([], [])).
  { rewrite <- (app_nil_r (enc_wires [])). apply rt_wires. split; [unfold usize_ok; reflexivity|constructor]. }
  rewrite W. cbn [obind app]. unfold evaluate_reserves. rewrite S1. cbn [hollow num_inputs num_wires].
  rewrite Nat.eqb_refl. destruct p; reflexivity.
Qed.

Lemma enc_usizes_length l : length (enc_vec enc_usize l) = (8 + 8 * length l)%nat.
Proof.
  unfold enc_vec. rewrite app_length, len_usize. f_equal.
  induction l as [|x l IH]; cbn [flat_map length]; [reflexivity|]. rewrite app_length, len_usize, IH. lia.
Qed.
Lemma enc_gates_length gs :
  (8 * length (flat_map (fun g => g_output g :: g_inputs g) gs) <= length (flat_map enc_gate gs))%nat.
Proof.
  induction gs as [|g gs IH]; cbn [flat_map]; [cbn; lia|].
  rewrite !app_length. cbn [length]. assert (G : (8 + 8 * length (g_inputs g) <= length (enc_gate g))%nat)
    by (unfold enc_gate; rewrite !app_length, len_usize, enc_usizes_length; lia).
  try rewrite !app_length. lia.
Qed.
Lemma verified_wires c : verify_circuit c = Ok tt -> (8 * num_wires c <= length (enc_circuit c))%nat.
Proof.
  intros H. destruct (verify_char c) as (u & N1 & M & V & _). destruct (proj1 V H) as [E _].
  assert (L : (length u <= length (flat_map (fun g => g_output g :: g_inputs g) (gates c)))%nat).
  { apply NoDup_incl_length; auto. intros w Hw. apply M in Hw. destruct Hw as (g & Hg & O).
    apply in_flat_map. exists g. split; auto. cbn. destruct O as [O|O]; auto. }
  pose proof (enc_gates_length (gates c)). unfold enc_circuit. rewrite !app_length, !len_usize. unfold enc_vec at 1. rewrite app_length. lia.
Qed.
Lemma verified_reserves p s m1 m2 ours gc b : bytes_ok m1 -> deserialize dec_garbled m1 = Ok gc ->
  verify_circuit (gc_circuit gc) = Ok tt -> evaluator_reserves p s m1 m2 ours = Ok b ->
  8 * b <= s * N.of_nat (length m1).
Proof.
  intros Hm D V. unfold evaluator_reserves. rewrite D. cbn [obind].
  destruct (deserialize dec_wires m2) as [x| | |]; cbn [obind]; try discriminate.
  unfold evaluate_reserves. destruct (debug_assert _ _); cbn [obind]; try discriminate.
  unfold with_capacity. destruct (_ <? _); intros [= <-].
  unfold deserialize in D. destruct (dec_garbled m1) as [[g rest]| | |] eqn:E; cbn [obind] in D; try discriminate. injection D as ->.
  destruct (cn_garbled _ _ _ Hm E) as (f & h & _ & _ & _ & -> & _).
  pose proof (verified_wires _ V). rewrite app_length.
  assert (L : 8 * N.of_nat (num_wires (gc_circuit gc)) <=
    N.of_nat (length (enc_circuit (gc_circuit gc)) + length (enc_map enc_wires f ++ enc_map enc_wire2 h ++ rest))) by lia.
  rewrite N.mul_assoc, (N.mul_comm s). now apply N.mul_le_mono_r.
Qed.
Lemma verified_no_overflow p s m1 m2 ours gc : bytes_ok m1 -> deserialize dec_garbled m1 = Ok gc ->
  verify_circuit (gc_circuit gc) = Ok tt -> s * N.of_nat (length m1) < 8 * 2 ^ 63 ->
  evaluator_reserves p s m1 m2 ours <> Panic POverflow.
Proof.
  intros Hm D V B. unfold evaluator_reserves. rewrite D. cbn [obind].
  destruct (deserialize_total dec_wires m2 tp_wires) as [[x ->]| -> ]; cbn [obind]; try discriminate.
  unfold evaluate_reserves, debug_assert, assert_.
  assert (A' : forall k : outcome N, (k <> Panic POverflow) ->
    obind (if is_debug p then if Nat.eqb (length (x ++ ours)) (num_inputs (gc_circuit gc)) then Ok tt else Panic PAssert else Ok tt) (fun _ => k) <> Panic POverflow).
  { intros k K. destruct (is_debug p); [|exact K]. destruct (Nat.eqb _ _); [exact K|discriminate]. }
  apply A'. clear A'. unfold with_capacity.
  destruct (N.ltb_spec (N.of_nat (num_wires (gc_circuit gc)) * s) (2 ^ 63)) as [|G]; [discriminate|]. exfalso.
  unfold deserialize in D. destruct (dec_garbled m1) as [[g rest]| | |] eqn:E; cbn [obind] in D; try discriminate. injection D as ->.
  destruct (cn_garbled _ _ _ Hm E) as (f & h & _ & _ & _ & -> & _).
  pose proof (verified_wires _ V). rewrite app_length in B.
  assert (L : 8 * N.of_nat (num_wires (gc_circuit gc)) <=
    N.of_nat (length (enc_circuit (gc_circuit gc)) + length (enc_map enc_wires f ++ enc_map enc_wire2 h ++ rest))) by lia.
  apply (N.mul_le_mono_r _ _ s) in L. lia.
Qed.

Lemma honest_reserves p s c f h theirs ours : garbled_ok (mkGC c f h) -> wires_ok theirs ->
  (length theirs + length ours = num_inputs c)%nat -> N.of_nat (num_wires c) * s < 2 ^ 63 ->
  evaluator_reserves p s (enc_garbled (mkGC c f h)) (enc_wires theirs) ours = Ok (N.of_nat (num_wires c) * s).
Proof.
  intros G W L B. unfold evaluator_reserves, deserialize.
  destruct (rt_garbled _ [] G) as (g & E & S1 & _). rewrite app_nil_r in E. rewrite E. cbn [obind].
  cbn [gc_circuit] in S1.
  pose proof (rt_wires theirs [] W) as D. rewrite app_nil_r in D. rewrite D. cbn [obind].
  unfold evaluate_reserves. rewrite S1, app_length, L, Nat.eqb_refl. unfold with_capacity.
  rewrite (proj2 (N.ltb_lt _ _) B). destruct p; reflexivity.
Qed.
