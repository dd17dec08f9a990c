(** C128: what the benchmarks in benches/ measure. *)
From Coq Require Import List NArith Bool Lia Arith.
From Verif Require Import Base MUtil MWires MCircuit MGarble MPar MBincode MProc MOt MApricot MMany MFpake MBench.
From Verif Require Import SpecUtil SpecWires SpecCircuit SpecGarble SpecBincode SpecOt SpecApricot SpecFpake SpecMany SpecMfpake.
From Verif Require Import PBase PUtil PWires PGarble PCircuit PHalf PProc POt PFpake PMany PHang PBad.
From Verif Require Import CCircuit CGarble COt CApricot CMany CFpake CMfpake CFpake3 CBad.
Import ListNotations.
Open Scope N_scope.

(** The lengths at which the key exchange works, among the sizes of benches/fpake.rs. *)
Lemma bench_size_good i : (6 <= i <= 12)%nat -> i <> 7%nat -> good_length (fpake_bench_size i).
Proof.
  intros H Hi. unfold good_length, fpake_bench_size.
  do 13 (destruct i as [|i]; [first [lia|vm_compute; intuition lia]|]). lia.
Qed.

(** C128, benches/fpake.rs: for all sizes but one, both threads end with the same key. *)
Theorem C128_fpake : forall sha g g' otS otR otS' otR' i,
  hash32 sha -> garbling_ok g -> garbling_ok g' -> ot_correct extension_ok otS otR -> ot_correct extension_ok otS' otR' ->
  (6 <= i <= 12)%nat -> i <> 7%nat ->
  exists key, length key = 32%nat /\
    runs (fpake_bench_1 sha g otS otR' (fpake_bench_size i)) (fpake_bench_2 sha g' otS' otR (fpake_bench_size i)) (Ok key) (Ok key).
Proof.
  intros sha g g' otS otR otS' otR' i Hs Hg Hg' H H' Hi Hne.
  apply (C46_keys_agree sha Release Release g g' otS otR otS' otR' (repeat 42 (fpake_bench_size i)) (repeat 42 (fpake_bench_size i)) 0 0);
    auto; try discriminate; try (rewrite distance_self; discriminate).
  rewrite repeat_length. now apply bench_size_good.
Qed.
Print Assumptions C128_fpake.

(** The two half keys of a run in release mode, if the labels of the inputs are binary. *)
Definition half_keys (sha : bytes -> bytes) (g : garbling) (pw : bytes) : option (bytes * bytes) :=
  match garble_zipped sha Release g (fpake_circuit (length pw) 0) with
  | Ok (gc, zs, dk) =>
      match deserialize dec_garbled (enc_garbled (g_order g gc)) with
      | Ok gc2 =>
          match evaluate sha Release gc2 (zipWith pick zs (u8_vec_to_bool_vec pw ++ u8_vec_to_bool_vec pw)) with
          | Ok out =>
              match garbler_half_key dk, evaluator_half_key sha Release gc2 out with
              | Ok k, Ok k' =>
                  if Nat.eqb (length zs) (length pw * 8 * 2) && forallb (fun z => wire_bin (fst z) && wire_bin (snd z)) zs
                  then Some (k, k') else None
              | _, _ => None
              end
          | _ => None
          end
      | _ => None
      end
  | _ => None
  end.
Lemma half_keys_run sha g otS otR pw k k' : hash32 sha -> ot_correct extension_ok otS otR -> (1 <= length pw)%nat -> N.of_nat (length pw * 8) <= 65534 ->
  half_keys sha g pw = Some (k, k') ->
  runs (garbler sha Release g otS pw 0) (evaluator sha Release otR pw) (Ok k) (Ok k').
Proof.
  intros Hs Hot H1 H2. unfold half_keys.
  destruct (garble_zipped sha Release g (fpake_circuit (length pw) 0)) as [[[gc zs] dk]| | |] eqn:Eg; try discriminate.
  destruct (deserialize dec_garbled _) as [gc2| | |] eqn:Ed; try discriminate.
  destruct (evaluate sha Release gc2 _) as [out| | |] eqn:Ev; try discriminate.
  destruct (garbler_half_key dk) as [k1| | |] eqn:Ek; try discriminate.
  destruct (evaluator_half_key sha Release gc2 out) as [k1'| | |] eqn:Ek'; try discriminate.
  destruct (Nat.eqb _ _ && _) eqn:Eb; [|discriminate]. intros Q. injection Q as <- <-.
  apply andb_true_iff in Eb as [Hl Hz]. apply Nat.eqb_eq in Hl. eapply fpake_direct; eauto; [discriminate|].
  apply Forall_forall. intros z Hin. rewrite forallb_forall in Hz. specialize (Hz z Hin). apply andb_true_iff in Hz as [Z0 Z1].
  split; now apply wire_bin_WF.
Qed.

(** C128 is false for benches/fpake.rs at 128 bits (i = 7): the two threads may end with different keys
    although the passwords are equal, whichever correct OTs are used.  The benchmark does not notice. *)
Theorem C128_fpake_refuted : forall otS otR otS' otR',
  ot_correct extension_ok otS otR -> ot_correct extension_ok otS' otR' ->
  exists sha g g', hash32 sha /\ coins_for (fpake_bench_size 7) g /\ coins_for (fpake_bench_size 7) g' /\
  exists key key', key <> key' /\
    runs (fpake_bench_1 sha g otS otR' (fpake_bench_size 7)) (fpake_bench_2 sha g' otS' otR (fpake_bench_size 7)) (Ok key) (Ok key').
Proof.
  intros otS otR otS' otR' H H'. exists carry_sha, carry_garbling, still.
  split; [exact carry_hash32|]. split; [destruct carry_garbling_ok as [A B]; split; [exact A|apply B; reflexivity || (split; reflexivity)]|].
  split; [apply still_ok|].
  set (pw := repeat 42 (fpake_bench_size 7)).
  assert (E : exists k1 k1' k2 k2', half_keys carry_sha carry_garbling pw = Some (k1, k1') /\ half_keys carry_sha still pw = Some (k2, k2') /\
    combine_keys k1 k2' <> combine_keys k2 k1').
  { do 4 eexists. split; [vm_compute; reflexivity|]. split; [vm_compute; reflexivity|]. vm_compute. discriminate. }
  destruct E as (k1 & k1' & k2 & k2' & E1 & E2 & Ne).
  exists (combine_keys k1 k2'), (combine_keys k2 k1'). split; [exact Ne|].
  assert (Hl : length pw = 16%nat) by reflexivity.
  assert (R1 := half_keys_run carry_sha carry_garbling otS otR pw k1 k1' carry_hash32 H).
  assert (R2 := half_keys_run carry_sha still otS' otR' pw k2 k2' carry_hash32 H').
  unfold fpake_bench_1, fpake_bench_2. fold pw.
  eapply runs_bind; [apply R1; [rewrite Hl; lia|rewrite Hl; discriminate|exact E1]|].
  eapply runs_bind; [apply runs_flip; apply R2; [rewrite Hl; lia|rewrite Hl; discriminate|exact E2]|]. apply runs_ret.
Qed.
Print Assumptions C128_fpake_refuted.

(** The logarithm of benches/one_of_many.rs. *)
Lemma bench_log2_pow i : (i <= 31)%nat -> bench_log2 (N.of_nat (2 ^ i)) = N.of_nat i.
Proof.
  intros H. rewrite Nat2N.inj_pow. change (N.of_nat 2) with 2.
  do 32 (destruct i as [|i]; [vm_compute; reflexivity|]). lia.
Qed.
Lemma bench_list_ok i l : (i <= 31)%nat -> password_list i l (repeat (repeat 0 l) (N.to_nat (N.of_nat (2 ^ i)))).
Proof.
  intros H. rewrite Nat2N.id. split; [exact H|]. split; [apply repeat_length|].
  apply Forall_forall. intros x Hx. apply repeat_spec in Hx. subst. apply repeat_length.
Qed.
Lemma bench_same_length n l : (1 <= l)%nat -> same_length (repeat (repeat (0 : N) l) n).
Proof.
  intros H. exists l. split; [exact H|]. apply Forall_forall. intros x Hx. apply repeat_spec in Hx. subst. apply repeat_length.
Qed.
Lemma bench_nth n i (x : bytes) : (i < n)%nat -> nth_error (repeat x n) i = Some x.
Proof. intros H. rewrite (nth_error_nth' _ x) by now rewrite repeat_length. now rewrite nth_repeat. Qed.

(** C128, benches/one_of_many.rs: the receiver gets its message if the number of cores of the sender
    suits the number of messages. *)
Theorem C128_one_of_many : forall sha fill gen G cores keys rs rr i,
  generator fill -> generator gen -> curve_ok G -> key_pairs keys -> length keys = i -> (2 <= i <= 22)%nat -> fits cores i ->
  runs (many_bench_1 sha fill cores keys (co_sender sha gen G Release rs) (N.of_nat (2 ^ i)))
       (many_bench_2 sha fill (co_receiver sha gen G Release rr) (N.of_nat (2 ^ i))) (Ok tt) (Ok (repeat 0 256)).
Proof.
  intros sha fill gen G cores keys rs rr i Hf Hge HG Hk Lk Hi Hfit.
  unfold many_bench_1, many_bench_2. rewrite bench_log2_pow, Nat2N.id by lia.
  assert (Hp : (1 <= 2 ^ i)%nat) by (clear; induction i; cbn; lia).
  assert (Hlt : (N.of_nat (2 ^ i) / 2 < N.of_nat (2 ^ i))) by (apply N.div_lt; lia).
  change (2048 / 8)%nat with 256%nat. unfold many_bench_messages. change (2048 / 8)%nat with 256%nat. rewrite Nat2N.id.
  destruct (C42_one_of_many_over_base_OT sha fill gen G Release Release cores keys rs rr (repeat (repeat 0 256) (2 ^ i)) i (N.of_nat (2 ^ i) / 2))
    as (m & E & R); auto.
  - apply repeat_length.
  - apply bench_same_length. lia.
  - rewrite bench_nth in E; [injection E as <-; exact R|]. lia.
Qed.
Print Assumptions C128_one_of_many.

(** The last chunk is not full when the number of cores is not a power of two. *)
Lemma odd_cores i cores : (1 <= cores)%nat -> (2 ^ i mod cores <> 0)%nat -> (cores * cores <= 2 ^ i)%nat ->
  (cores < 2 ^ i)%nat /\ (2 ^ i mod (2 ^ i / cores) <> 0)%nat.
Proof.
  intros Hc Hm Hq. set (x := (2 ^ i)%nat) in *. assert (E := Nat.div_mod x cores ltac:(lia)).
  assert (Hr : (x mod cores < cores)%nat) by (apply Nat.mod_upper_bound; lia).
  assert (Hk : (cores <= x / cores)%nat) by (apply Nat.div_le_lower_bound; lia).
  split.
  - destruct (Nat.eq_dec cores 1) as [->|]; [now rewrite Nat.mod_1_r in Hm|].
    apply Nat.lt_le_trans with (cores * cores)%nat; [|exact Hq]. destruct cores as [|[|c]]; lia.
  - assert (E2 : (x mod (x / cores) = x mod cores)%nat).
    { symmetry. apply (Nat.mod_unique x (x / cores) cores (x mod cores)); [lia|]. rewrite (Nat.mul_comm (x / cores)). exact E. }
    rewrite E2. exact Hm.
Qed.

(** C128 is false for it on machines whose number of cores is not a power of two: once the number of
    messages is at least the square of the number of cores, the sender writes behind the end of its
    buffer before it has sent anything. *)
Theorem C128_one_of_many_refuted : forall sha fill cores keys base i ins,
  generator fill -> length keys = i -> (3 <= i <= 22)%nat ->
  (1 <= cores)%nat -> (2 ^ i mod cores <> 0)%nat -> (cores * cores <= 2 ^ i)%nat ->
  feed (many_bench_1 sha fill cores keys base (N.of_nat (2 ^ i))) ins = (UB, []).
Proof.
  intros sha fill cores keys base i ins Hf Lk Hi Hc Hm Hq. destruct (odd_cores i cores Hc Hm Hq) as [A B].
  unfold many_bench_1, many_bench_messages. rewrite bench_log2_pow, !Nat2N.id by lia.
  apply C43_release_core_count_refuted; auto; try lia.
  - rewrite repeat_length. lia.
  - apply bench_same_length. change (2048 / 8)%nat with 256%nat. lia.
Qed.
Print Assumptions C128_one_of_many_refuted.

(** C128, benches/many_fpake.rs, "mfPAKE": both threads end with the same key. *)
Theorem C128_v3 : forall sha g g' dom manyS manyR ot1S ot1R ot2S ot2R ot3S ot3R mask i,
  hash32 sha -> garbling_ok g -> garbling_ok g' -> many_correct dom manyS manyR ->
  ot_correct extension_ok ot1S ot1R -> ot_correct extension_ok ot2S ot2R -> ot_correct extension_ok ot3S ot3R ->
  dom i -> (4 <= i <= 22)%nat -> length mask = 256%nat ->
  exists key, length key = 32%nat /\
    runs (v3_bench_1 sha mask g ot1S manyS ot2S ot3R (N.of_nat (2 ^ i)))
         (v3_bench_2 sha g' ot1R manyR ot2R ot3S (N.of_nat (2 ^ i))) (Ok key) (Ok key).
Proof.
  intros sha g g' dom manyS manyR ot1S ot1R ot2S ot2R ot3S ot3R mask i Hs Hg Hg' Hm H1 H2 H3 Hd Hi Lm.
  assert (Hp : (2 <= 2 ^ i)%nat) by (destruct i as [|i]; [lia|]; assert (1 <= 2 ^ i)%nat by (clear; induction i; cbn; lia); cbn; lia).
  assert (En : nth_error (list_bench_passwords (N.of_nat (2 ^ i))) (N.to_nat list_bench_index) = Some (repeat 0 256)).
  { unfold list_bench_passwords. change (2048 / 8)%nat with 256%nat. rewrite Nat2N.id. apply bench_nth. change (N.to_nat list_bench_index) with 1%nat. lia. }
  destruct (C51_keys_agree sha Release Release g g' dom manyS manyR ot1S ot1R ot2S ot2R ot3S ot3R i 256 (list_bench_passwords (N.of_nat (2 ^ i)))
    mask list_bench_index (repeat 0 256) (repeat 0 256) 0 0) as (key & Lk & R); auto; try discriminate; try (rewrite distance_self; discriminate).
  - apply bench_list_ok. lia.
  - unfold good_length. lia.
  - exists key. split; [exact Lk|]. unfold v3_bench_2, list_bench_password. eapply runs_lift_r; [|exact R].
    unfold idx. rewrite En. reflexivity.
Qed.
Print Assumptions C128_v3.

(** C128, benches/many_fpake.rs, "mfPAKE,hd": both threads end with the same key. *)
Theorem C128_mfpake : forall sha g g' dom manyS manyR otS otR otS' otR' mask i,
  hash32 sha -> garbling_ok g -> garbling_ok g' ->
  many_correct dom manyS manyR -> ot_correct extension_ok otS otR -> ot_correct extension_ok otS' otR' ->
  dom i -> (4 <= i <= 22)%nat -> length mask = 256%nat ->
  exists key, length key = 32%nat /\
    runs (mfpake_bench_1 sha mask g manyS otS otR' (N.of_nat (2 ^ i)))
         (mfpake_bench_2 sha g' manyR otS' otR (N.of_nat (2 ^ i))) (Ok key) (Ok key).
Proof.
  intros sha g g' dom manyS manyR otS otR otS' otR' mask i Hs Hg Hg' Hm H1 H2 Hd Hi Lm.
  assert (Hp : (2 <= 2 ^ i)%nat) by (destruct i as [|i]; [lia|]; assert (1 <= 2 ^ i)%nat by (clear; induction i; cbn; lia); cbn; lia).
  assert (En : nth_error (list_bench_passwords (N.of_nat (2 ^ i))) (N.to_nat list_bench_index) = Some (repeat 0 256)).
  { unfold list_bench_passwords. change (2048 / 8)%nat with 256%nat. rewrite Nat2N.id. apply bench_nth. change (N.to_nat list_bench_index) with 1%nat. lia. }
  destruct (C48_keys_agree sha Release Release g g' dom manyS manyR otS otR otS' otR' i 256 (list_bench_passwords (N.of_nat (2 ^ i)))
    mask list_bench_index (repeat 0 256) (repeat 0 256) 0 0) as (key & Lk & R); auto; try discriminate; try (rewrite distance_self; discriminate).
  - apply bench_list_ok. lia.
  - unfold good_length. lia.
  - exists key. split; [exact Lk|]. unfold mfpake_bench_2, list_bench_password. eapply runs_lift_r; [|exact R].
    unfold idx. rewrite En. reflexivity.
Qed.
Print Assumptions C128_mfpake.

(** C128 is false for it, too, on machines whose number of cores is not a power of two. *)
Theorem C128_mfpake_refuted : forall sha fill cores keys base mask g otS otR i ins,
  generator fill -> length keys = i -> length mask = 256%nat -> (4 <= i <= 22)%nat ->
  (1 <= cores)%nat -> (2 ^ i mod cores <> 0)%nat -> (cores * cores <= 2 ^ i)%nat ->
  feed (mfpake_bench_1 sha mask g (fun d ms => many_sender sha fill Release cores keys base ms d) otS otR (N.of_nat (2 ^ i))) ins = (UB, []).
Proof.
  intros sha fill cores keys base mask g otS otR i ins Hf Lk Lm Hi Hc Hm Hq. destruct (odd_cores i cores Hc Hm Hq) as [A B].
  assert (Hp : (1 <= 2 ^ i)%nat) by (clear; induction i; cbn; lia).
  set (ps := @repeat bytes (repeat 0 256) (N.to_nat (N.of_nat (2 ^ i)))) in *.
  assert (Ll : length ps = (2 ^ i)%nat) by (unfold ps; rewrite repeat_length; lia).
  assert (Fl : Forall (fun pw : bytes => length pw = 256%nat) ps) by apply (bench_list_ok i 256 ltac:(lia)).
  unfold mfpake_bench_1. change (list_bench_passwords (N.of_nat (2 ^ i))) with ps.
  assert (E0 : @idx bytes ps 0 = Ok (repeat 0 256)) by (unfold ps, idx; rewrite Nat2N.id, bench_nth by lia; reflexivity).
  unfold mfpake_many. rewrite E0. cbn [lift pbind]. rewrite repeat_length, (mask_passwords_ok Release mask ps 256 Lm Fl). cbn [lift pbind].
  rewrite Ll, Nat2N.inj_pow. change (N.of_nat 2) with 2. rewrite log2_pow2 by (try reflexivity; lia). cbn [lift pbind]. rewrite Nat2N.id.
  rewrite feed_bind.
  assert (U : feed (many_sender sha fill Release cores keys base (map (xor mask) ps) i) ins = (UB, [])).
  { apply C43_release_core_count_refuted; auto; try lia.
    - rewrite map_length, Ll. lia.
    - exists 256%nat. split; [lia|]. apply Forall_forall. intros x Hx. apply in_map_iff in Hx as (y & <- & Hy).
      rewrite Forall_forall in Fl. rewrite xor_length; [exact Lm|]. rewrite Lm. symmetry. now apply Fl. }
  rewrite feed_feedr in U. destruct (feedr _ ins) as [[o out] rest]. cbn in U. injection U as -> ->. reflexivity.
Qed.
Print Assumptions C128_mfpake_refuted.

Example fpake_bench_example : exists key, length key = 32%nat /\
  runs (fpake_bench_1 toy demo_garbling (demo_sender Release) (demo_receiver Release) (fpake_bench_size 6))
       (fpake_bench_2 toy demo_garbling (demo_sender Release) (demo_receiver Release) (fpake_bench_size 6)) (Ok key) (Ok key).
Proof.
  apply C128_fpake; [exact toy_hash32|exact demo_garbling_ok|exact demo_garbling_ok|apply demo_OT|apply demo_OT|lia|lia].
Qed.
Example fpake_bench_witness : exists sha g g' key key', key <> key' /\
  runs (fpake_bench_1 sha g (demo_sender Release) (demo_receiver Release) 16)
       (fpake_bench_2 sha g' (demo_sender Release) (demo_receiver Release) 16) (Ok key) (Ok key').
Proof.
  destruct (C128_fpake_refuted (demo_sender Release) (demo_receiver Release) (demo_sender Release) (demo_receiver Release))
    as (sha & g & g' & _ & _ & _ & key & key' & Ne & R); [apply demo_OT|apply demo_OT|]. exists sha, g, g', key, key'. split; [exact Ne|exact R].
Qed.
Example many_bench_example :
  runs (many_bench_1 toy toy_gen 4 (toy_keys 3) (co_sender toy toy_gen toy_curve Release (fun _ => 1)) 8)
       (many_bench_2 toy toy_gen (co_receiver toy toy_gen toy_curve Release (fun _ => 1)) 8) (Ok tt) (Ok (repeat 0 256)).
Proof.
  apply (C128_one_of_many toy toy_gen toy_gen toy_curve 4 (toy_keys 3) (fun _ => 1) (fun _ => 1) 3);
    [exact toy_gen_ok|exact toy_gen_ok|exact toy_curve_ok|apply toy_keys_ok; lia|reflexivity|lia|right; right; split; [lia|reflexivity]].
Qed.
Example many_bench_witness : forall base ins, feed (many_bench_1 toy toy_gen 3 (toy_keys 4) base 16) ins = (UB, []).
Proof.
  intros. apply (C128_one_of_many_refuted toy toy_gen 3 (toy_keys 4) base 4 ins); try reflexivity; try exact toy_gen_ok; cbn; lia.
Qed.
Definition bench_many : nat -> list bytes -> proc unit :=
  fun d ms => many_sender toy toy_gen Release 4 (toy_keys 4) (co_sender toy toy_gen toy_curve Release (fun _ => 1)) ms d.
Lemma bench_many_ok : many_correct (fun d => d = 4%nat) bench_many (demo_one Release).
Proof.
  intros d ms i m -> L Hs Hn.
  destruct (C42_one_of_many_over_base_OT toy toy_gen toy_gen toy_curve Release Release 4 (toy_keys 4) (fun _ => 1) (fun _ => 1) ms 4 i) as (m' & E & R);
    auto using toy_gen_ok, toy_curve_ok.
  - apply toy_keys_ok. lia.
  - assert (Hlt : (N.to_nat i < length ms)%nat) by (apply nth_error_Some; congruence). rewrite L in Hlt. lia.
  - right. right. split; [lia|reflexivity].
  - rewrite Hn in E. inversion E. subst. exact R.
Qed.
Example list_bench_examples :
  (exists key, length key = 32%nat /\
    runs (v3_bench_1 toy (repeat 7 256) demo_garbling (demo_sender Release) bench_many (demo_sender Release) (demo_receiver Release) 16)
         (v3_bench_2 toy demo_garbling (demo_receiver Release) (demo_one Release) (demo_receiver Release) (demo_sender Release) 16) (Ok key) (Ok key)) /\
  (exists key, length key = 32%nat /\
    runs (mfpake_bench_1 toy (repeat 7 256) demo_garbling bench_many (demo_sender Release) (demo_receiver Release) 16)
         (mfpake_bench_2 toy demo_garbling (demo_one Release) (demo_sender Release) (demo_receiver Release) 16) (Ok key) (Ok key)).
Proof.
  split.
  - apply (C128_v3 toy demo_garbling demo_garbling (fun d => d = 4%nat) bench_many (demo_one Release)
      (demo_sender Release) (demo_receiver Release) (demo_sender Release) (demo_receiver Release) (demo_sender Release) (demo_receiver Release)
      (repeat 7 256) 4); try exact toy_hash32; try exact demo_garbling_ok; try apply bench_many_ok; try apply demo_OT; try reflexivity. lia.
  - apply (C128_mfpake toy demo_garbling demo_garbling (fun d => d = 4%nat) bench_many (demo_one Release)
      (demo_sender Release) (demo_receiver Release) (demo_sender Release) (demo_receiver Release)
      (repeat 7 256) 4); try exact toy_hash32; try exact demo_garbling_ok; try apply bench_many_ok; try apply demo_OT; try reflexivity. lia.
Qed.
Example mfpake_bench_witness : forall base otS otR ins,
  feed (mfpake_bench_1 toy (repeat 7 256) demo_garbling (fun d ms => many_sender toy toy_gen Release 3 (toy_keys 4) base ms d) otS otR 16) ins = (UB, []).
Proof.
  intros. apply (C128_mfpake_refuted toy toy_gen 3 (toy_keys 4) base (repeat 7 256) demo_garbling otS otR 4 ins);
    try reflexivity; try exact toy_gen_ok; cbn; lia.
Qed.
