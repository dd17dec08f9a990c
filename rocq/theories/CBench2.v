(** C130: the benchmarks of garbling and of the 1-out-of-2 OTs. *)
From Coq Require Import List NArith Bool Lia Arith.
From Verif Require Import Base MUtil MWires MCircuit MGarble MPar MBincode MProc MOt MApricot MClassic MMany MFpake MBench2.
From Verif Require Import SpecUtil SpecWires SpecCircuit SpecGarble SpecBincode SpecOt SpecApricot SpecClassic SpecFpake SpecTotal.
From Verif Require Import PBase PUtil PWires PGarble PBincode PHalf PProc POt PFpake PTotal PTotal2 PTotal3 CCircuit CGarble COt CApricot CClassic CFpake CTotal.
Import ListNotations.
Open Scope N_scope.

Lemma bench_size j : (j <= 19)%nat -> (1 <= 2 ^ j)%nat /\ N.of_nat (2 ^ j) mod 65536 < 65534 /\ usize_ok (4 * 2 ^ j + 2).
Proof.
  intros H. split; [pose proof (Nat.pow_nonzero 2 j); lia|]. unfold usize_ok. rewrite Nat2N.inj_add, Nat2N.inj_mul, Nat2N.inj_pow.
  change (N.of_nat 2) with 2. change (N.of_nat 4) with 4. do 20 (destruct j as [|j]; [vm_compute; auto|]). lia.
Qed.

(** C130, benches/garble.rs: the circuit of every size is garbled and evaluated. *)
Theorem C130_garble : forall sha rd ri i, hash32 sha -> (1 <= i <= 16)%nat ->
  (forall m, length (rd m) = 32%nat /\ bytes_ok (rd m)) -> (forall k, valid_sample 2 (ri k)) ->
  exists w, garble_bench sha rd ri i = Ok [w].
Proof.
  intros sha rd ri i Hs Hi Hrd Hri. destruct (bench_size i) as (H1 & H2 & _); [lia|].
  destruct (C129_distance_circuits sha rd ri (2 ^ i) 8 Hs H1 H2 Hrd Hri) as ((c & gc & ek & dk & Eb & Eg & H) & _).
  destruct (H (repeat 1 (2 * 2 ^ i))) as (ws & w & E1 & E2); [apply repeat_length|].
  exists w. unfold garble_bench. rewrite Eb. cbn [obind]. rewrite Eg. cbn [obind]. rewrite E1. exact E2.
Qed.
Print Assumptions C130_garble.

Lemma bench_messages sha g j : hash32 sha -> any_coins g -> (j <= 19)%nat ->
  exists z, ot_bench_messages sha g (2 * 2 ^ j) = Ok (label_messages z) /\ all_binary z /\ length z = (2 * 2 ^ j)%nat.
Proof.
  intros Hs Hg Hj. destruct (bench_size j Hj) as (H1 & H2 & H3). set (n := (2 ^ j)%nat) in *.
  set (q := N.of_nat n mod 65536) in *. set (c := shape 2 n (fun i => [i; i + n]%nat) (q + 1) 1).
  assert (Eb : build_circuit Release n 0 = Ok c).
  { unfold build_circuit. rewrite !uadd_release. cbn [obind]. change (2 ^ 16) with 65536. fold q. rewrite (N.mod_small (q + 1)) by lia. reflexivity. }
  assert (Hc : garblable c) by (apply shape_garblable; [exact H1|lia|lia|apply shape_ins]).
  assert (Hm : matched c) by (apply shape_matched; [exact H1|lia|lia|apply shape_ins]).
  assert (Hd : forall x, In x (input_domains c) -> x = 2) by (intros x Hx; now apply repeat_spec in Hx).
  assert (Hne : In 2 (input_domains c)). { unfold c, shape. cbn [input_domains]. destruct (n * 2)%nat as [|k] eqn:E; [lia|]. now left. }
  assert (Hok : circuit_ok c) by (apply shape_ok; auto; lia).
  destruct (zipped_total sha Hs g Hg c Hc Hm Hd Hne Hok) as (gc & zs & dk & Eg & Hz & Lz & _).
  exists zs. split; [|split; [exact Hz|]].
  - unfold ot_bench_messages. rewrite (Nat.mul_comm 2 n), Nat.div_mul by lia. rewrite Eb. cbn [obind]. rewrite Eg. reflexivity.
  - rewrite Lz. change (num_inputs c) with (n * 2)%nat. lia.
Qed.
(** The receiver asks for the first label of every pair. *)
Lemma bench_selection z out : is_selection (label_messages z) (repeat false (length z)) out -> out = map fst (label_messages z).
Proof.
  intros [L H]. rewrite repeat_length in L. assert (Ll : length (label_messages z) = length z) by apply map_length.
  apply (nth_ext _ _ [] []). { rewrite map_length, Ll. exact L. }
  intros i Hi. assert (Hz : (i < length z)%nat) by (eapply Nat.lt_le_trans; [exact Hi|apply Nat.eq_le_incl; exact L]). apply nth_error_nth.
  pose proof (nth_error_nth_lt (label_messages z) i ([], []) ltac:(rewrite Ll; exact Hz)) as E.
  refine (eq_trans (H i _ false E _) _); [now apply nth_error_repeat|]. f_equal. unfold selected.
  symmetry. exact (map_nth fst (label_messages z) ([], []) i).
Qed.
Lemma labels_payload z : all_binary z -> usize_ok (length z) -> payload_ok (label_messages z).
Proof.
  intros Hz Hu. split; [unfold label_messages; now rewrite map_length|]. apply Forall_map. eapply Forall_impl; [|exact Hz].
  intros w [(_ & L0 & B0 & _) (_ & L1 & B1 & _)]. split; (split; [|assumption]); cbn [fst snd]; rewrite ?L0, ?L1; reflexivity.
Qed.
Lemma bench_ot sha g (ok : list (bytes * bytes) -> Prop) otS otR j : hash32 sha -> any_coins g -> ot_correct ok otS otR -> (j <= 19)%nat ->
  (forall z, all_binary z -> length z = (2 * 2 ^ j)%nat -> usize_ok (length z) -> ok (label_messages z)) ->
  exists msgs, ot_bench_messages sha g (2 ^ S j) = Ok msgs /\ length msgs = (2 ^ S j)%nat /\
    runs (otS msgs) (ot_bench_receiver otR (2 ^ S j)) (Ok tt) (Ok (map fst msgs)).
Proof.
  intros Hs Hg Hot Hj Hok. rewrite Nat.pow_succ_r'.
  destruct (bench_messages sha g j Hs Hg Hj) as (z & E & Hz & Lz). destruct (bench_size j Hj) as (_ & _ & Hu).
  exists (label_messages z). split; [exact E|]. assert (Ll : length (label_messages z) = length z) by apply map_length. split; [congruence|].
  destruct (Hot (label_messages z) (repeat false (length z))) as (out & R & Sel).
  - now rewrite repeat_length.
  - apply Hok; [exact Hz|exact Lz|]. eapply usize_le; [|exact Hu]. lia.
  - apply bench_selection in Sel. subst out. unfold ot_bench_receiver. rewrite <- Lz. exact R.
Qed.
Lemma bench_eights j : (2 <= j)%nat -> ((2 * 2 ^ j) mod 8 = 0)%nat /\ (0 < 2 * 2 ^ j)%nat.
Proof.
  intros H. split; [|pose proof (Nat.pow_nonzero 2 j); lia]. replace j with (S (S (j - 2))) by lia. rewrite !Nat.pow_succ_r', !Nat.mul_assoc.
  change (2 * 2 * 2)%nat with 8%nat. rewrite Nat.mul_comm. apply Nat.mod_mul. lia.
Qed.

(** C130, benches/apricot.rs: for every size both threads end and the receiver gets the first label of every pair. *)
Theorem C130_apricot : forall sha fill gen G g p p' a a' cores cores' r rs rr i,
  hash32 sha -> generator fill -> generator gen -> curve_ok G -> any_coins g -> (1 <= cores)%nat -> (1 <= cores')%nat -> coins_ok r ->
  (3 <= i <= 20)%nat ->
  exists msgs, ot_bench_messages sha g (2 ^ i) = Ok msgs /\ length msgs = (2 ^ i)%nat /\
    runs (sender_with sha fill p a cores r (co_receiver sha gen G p rs) msgs)
      (ot_bench_receiver (receiver_with sha fill p' a' cores' r (co_sender sha gen G p' rr)) (2 ^ i)) (Ok tt) (Ok (map fst msgs)).
Proof.
  intros sha fill gen G g p p' a a' cores cores' r rs rr i Hs Hf Hg HG Ha H1 H2 Hr Hi. destruct i as [|j]; [lia|].
  apply (bench_ot sha g extension_ok); [exact Hs|exact Ha| |lia|].
  - exact (C35_extension_over_base_OT sha fill gen G p p' a a' cores cores' r rs rr Hs Hf Hg HG H1 H2 Hr).
  - intros z Hz Lz Hu. destruct (bench_eights j) as [H8 H0]; [lia|]. rewrite <- Lz in H8, H0. exact (labels_extension z Hz H0 H8 Hu).
Qed.
Print Assumptions C130_apricot.

(** C130, benches/apricot_classic.rs: the same for the classic extension. *)
Theorem C130_classic : forall sha gen20 gen8 G g p p' a a' r rs rr i,
  hash32 sha -> generator gen20 -> generator gen8 -> curve_ok G -> any_coins g -> classic_coins_ok r -> (3 <= i <= 20)%nat ->
  exists msgs, ot_bench_messages sha g (2 ^ i) = Ok msgs /\ length msgs = (2 ^ i)%nat /\
    runs (classic_sender_with sha gen20 gen8 p a r (co_receiver sha gen20 G p rs) msgs)
      (ot_bench_receiver (classic_receiver_with sha gen20 gen8 p' a' r (co_sender sha gen20 G p' rr)) (2 ^ i)) (Ok tt) (Ok (map fst msgs)).
Proof.
  intros sha gen20 gen8 G g p p' a a' r rs rr i Hs Hg H8 HG Ha Hr Hi. destruct i as [|j]; [lia|].
  apply (bench_ot sha g classic_ok); [exact Hs|exact Ha| |lia|].
  - exact (C36_classic_over_base_OT sha gen20 gen8 G p p' a a' r rs rr Hg H8 HG Hr).
  - intros z Hz Lz Hu. destruct (bench_eights j) as [H H0]; [lia|]. rewrite <- Lz in H, H0.
    assert (Ll : length (label_messages z) = length z) by apply map_length.
    split; [exact (labels_payload z Hz Hu)|]. rewrite Ll. split; [exact H0|exact H].
Qed.
Print Assumptions C130_classic.

(** C130, benches/chou_orlandi.rs: the same for the base OT, from two messages on. *)
Theorem C130_chou_orlandi : forall sha gen G g p p' rs rr i,
  hash32 sha -> generator gen -> curve_ok G -> any_coins g -> (1 <= i <= 18)%nat ->
  exists msgs, ot_bench_messages sha g (2 ^ i) = Ok msgs /\ length msgs = (2 ^ i)%nat /\
    runs (co_sender sha gen G p rs msgs) (ot_bench_receiver (co_receiver sha gen G p' rr) (2 ^ i)) (Ok tt) (Ok (map fst msgs)).
Proof.
  intros sha gen G g p p' rs rr i Hs Hg HG Ha Hi. destruct i as [|j]; [lia|].
  apply (bench_ot sha g payload_ok); [exact Hs|exact Ha| |lia|].
  - exact (C33_base_OT_correct sha gen G p p' rs rr Hg HG).
  - intros z Hz _ Hu. exact (labels_payload z Hz Hu).
Qed.
Print Assumptions C130_chou_orlandi.

Example garble_bench_example : exists w, garble_bench toy (g_rd demo_garbling) (g_ri demo_garbling) 3 = Ok [w].
Proof. destruct demo_any as (H1 & H2 & _). exact (C130_garble toy _ _ 3 toy_hash32 ltac:(lia) H1 H2). Qed.
Example apricot_bench_example : exists msgs, ot_bench_messages toy demo_garbling (2 ^ 3) = Ok msgs /\ length msgs = (2 ^ 3)%nat /\
  runs (sender_with toy toy_gen Debug X86 1 toy_coins (co_receiver toy toy_gen toy_curve Debug (fun _ => 1)) msgs)
    (ot_bench_receiver (receiver_with toy toy_gen Debug X86 1 toy_coins (co_sender toy toy_gen toy_curve Debug (fun _ => 1))) (2 ^ 3))
    (Ok tt) (Ok (map fst msgs)).
Proof.
  exact (C130_apricot toy toy_gen toy_gen toy_curve demo_garbling Debug Debug X86 X86 1 1 toy_coins (fun _ => 1) (fun _ => 1) 3
    toy_hash32 toy_gen_ok toy_gen_ok toy_curve_ok demo_any ltac:(lia) ltac:(lia) toy_coins_ok ltac:(lia)).
Qed.
Example classic_bench_example : exists msgs, ot_bench_messages toy demo_garbling (2 ^ 3) = Ok msgs /\ length msgs = (2 ^ 3)%nat /\
  runs (classic_sender_with toy toy_gen toy_gen Debug (Some X86) classic_toy (co_receiver toy toy_gen toy_curve Debug (fun _ => 1)) msgs)
    (ot_bench_receiver (classic_receiver_with toy toy_gen toy_gen Debug None classic_toy (co_sender toy toy_gen toy_curve Debug (fun _ => 1))) (2 ^ 3))
    (Ok tt) (Ok (map fst msgs)).
Proof.
  exact (C130_classic toy toy_gen toy_gen toy_curve demo_garbling Debug Debug (Some X86) None classic_toy (fun _ => 1) (fun _ => 1) 3
    toy_hash32 toy_gen_ok toy_gen_ok toy_curve_ok demo_any classic_toy_ok ltac:(lia)).
Qed.
Example chou_orlandi_bench_example : exists msgs, ot_bench_messages toy demo_garbling (2 ^ 1) = Ok msgs /\ length msgs = (2 ^ 1)%nat /\
  runs (co_sender toy toy_gen toy_curve Debug (fun _ => 1) msgs) (ot_bench_receiver (co_receiver toy toy_gen toy_curve Debug (fun _ => 1)) (2 ^ 1))
    (Ok tt) (Ok (map fst msgs)).
Proof.
  exact (C130_chou_orlandi toy toy_gen toy_curve demo_garbling Debug Debug (fun _ => 1) (fun _ => 1) 1
    toy_hash32 toy_gen_ok toy_curve_ok demo_any ltac:(lia)).
Qed.
