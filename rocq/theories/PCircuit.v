(** Proofs about MCircuit. *)
From Coq Require Import List NArith Bool Arith Lia.
From Verif Require Import Base MWires MCircuit SpecWires SpecCircuit PBase PWires PGarble.
Import ListNotations.
Open Scope N_scope.

(** ** Distinct wires *)
Lemma nat_mem_In x l : nat_mem x l = true <-> In x l.
Proof.
  unfold nat_mem. rewrite existsb_exists. split.
  - intros (y & Hy & E). apply Nat.eqb_eq in E. now subst.
  - intros H. exists x. split; auto. apply Nat.eqb_refl.
Qed.
Lemma nat_mem_false x l : nat_mem x l = false <-> ~ In x l.
Proof. rewrite <- nat_mem_In. destruct (nat_mem x l); split; intros; congruence. Qed.
Lemma unique_In l seen x : In x (unique l seen) <-> In x l /\ ~ In x seen.
Proof.
  revert seen. induction l as [|y l IH]; intros seen; cbn [unique].
  - simpl; tauto.
  - destruct (nat_mem y seen) eqn:E.
    + apply nat_mem_In in E. rewrite IH. simpl. split; [tauto|]. intros [[->|H] H2]; tauto.
    + apply nat_mem_false in E. simpl. rewrite IH. simpl. split.
      * intros [->|[H1 H2]]; tauto.
      * intros [[->|H1] H2]; [tauto|]. destruct (Nat.eq_dec y x); tauto.
Qed.
Lemma unique_NoDup l seen : NoDup (unique l seen).
Proof.
  revert seen. induction l as [|y l IH]; intros seen; cbn [unique]. { constructor. }
  destruct (nat_mem y seen); auto. constructor; auto. rewrite unique_In. simpl. tauto.
Qed.
Lemma mentioned_In gs w : In w (mentioned gs) <-> mentions gs w.
Proof.
  unfold mentioned, mentions. rewrite in_app_iff, in_flat_map, in_map_iff. split.
  - intros [(g & Hg & Hw)|(g & Hw & Hg)]; eauto.
  - intros (g & Hg & [Hw|Hw]); eauto.
Qed.
Lemma count_wires_unique gs u : NoDup u -> (forall w, In w u <-> mentions gs w) -> count_wires gs = length u.
Proof.
  intros Hn Hu. unfold count_wires. apply Nat.le_antisymm; apply NoDup_incl_length.
  - apply unique_NoDup.
  - intros x Hx. apply unique_In in Hx. apply Hu, mentioned_In. tauto.
  - auto.
  - intros x Hx. apply unique_In. split; [now apply mentioned_In, Hu|simpl; tauto].
Qed.
Lemma all_insert_NoDup l seen : all_insert l seen = true <-> NoDup l /\ (forall x, In x l -> ~ In x seen).
Proof.
  revert seen. induction l as [|y l IH]; intros seen; cbn [all_insert].
  - split; auto. intros _. split. constructor. simpl; tauto.
  - destruct (nat_mem y seen) eqn:E.
    + apply nat_mem_In in E. split; [discriminate|]. intros [_ H]. exfalso. apply (H y); simpl; auto.
    + apply nat_mem_false in E. rewrite IH. split.
      * intros [Hn H]. split.
        -- constructor; auto. intros Hy. apply (H y Hy). simpl; auto.
        -- intros x [->|Hx]; auto. intros Hs. apply (H x Hx). simpl; auto.
      * intros [Hn H]. inversion Hn; subst. split; auto. intros x Hx [->|Hs]; auto.
        apply (H x); simpl; auto.
Qed.
Lemma verify_char c : exists u, NoDup u /\ (forall w, In w u <-> mentions (gates c) w) /\
  (verify_circuit c = Ok tt <-> num_wires c = length u /\ NoDup (map g_output (gates c))) /\
  (num_wires c <> length u -> verify_circuit c = Err (EBadWireCount (length u) (num_wires c))) /\
  (num_wires c = length u -> ~ NoDup (map g_output (gates c)) -> verify_circuit c = Err EBadOutputCount).
Proof.
  exists (unique (mentioned (gates c)) []). split. { apply unique_NoDup. }
  split. { intros w. rewrite unique_In, mentioned_In. simpl. tauto. }
  fold (count_wires (gates c)). unfold verify_circuit.
  pose proof (all_insert_NoDup (map g_output (gates c)) []) as Ha.
  assert (Ha' : all_insert (map g_output (gates c)) [] = true <-> NoDup (map g_output (gates c))).
  { rewrite Ha. simpl. tauto. } clear Ha.
  destruct (Nat.eqb_spec (count_wires (gates c)) (num_wires c)) as [E|E]; cbn [negb].
  - destruct (all_insert _ _).
    + split; [|split]; try tauto; try congruence. split; auto. intros _. split; auto. now apply Ha'.
    + split; [|split]; try tauto; try congruence. split; [discriminate|]. intros [_ H]. apply Ha' in H. discriminate.
  - split; [|split]; try tauto; try congruence. split; [discriminate|]. intros [H _]. congruence.
Qed.

(** ** Layers of gates *)
Lemma run_gates_app gs1 gs2 v : run_gates (gs1 ++ gs2) v = run_gates gs2 (run_gates gs1 v).
Proof. revert v. induction gs1; intros; simpl; auto. Qed.
Lemma run_layer gs : forall v w, (forall g, In g gs -> Forall (fun i => (i < length v)%nat) (g_inputs g)) ->
  run_gates gs (v ++ w) =
  v ++ w ++ map (fun g => gate_value g (map (fun i => nth i v 0) (g_inputs g))) gs.
Proof.
  induction gs as [|g gs IH]; intros v w H; cbn [run_gates map].
  - now rewrite app_nil_r.
  - assert (E : map (fun i => nth i (v ++ w) 0) (g_inputs g) = map (fun i => nth i v 0) (g_inputs g)).
    { apply map_ext_in. intros i Hi. apply app_nth1.
      specialize (H g (or_introl eq_refl)). rewrite Forall_forall in H. auto. }
    rewrite E. rewrite <- app_assoc, IH by (intros; apply H; simpl; auto).
    rewrite <- app_assoc. reflexivity.
Qed.
Lemma run_layer0 gs v : (forall g, In g gs -> Forall (fun i => (i < length v)%nat) (g_inputs g)) ->
  run_gates gs v = v ++ map (fun g => gate_value g (map (fun i => nth i v 0) (g_inputs g))) gs.
Proof. intros H. pose proof (run_layer gs v [] H) as E. now rewrite app_nil_r in E. Qed.

(** ** eval agrees with circuit_values when nothing overflows *)
Lemma eval_sum p ws vs l acc : (forall i, In i l -> nth_error ws i = Some (vs i)) ->
  acc + fold_right N.add 0 (map vs l) < 65536 ->
  foldM (fun acc i => let* x := idx ws i in uadd p 16 acc x) l acc = Ok (acc + fold_right N.add 0 (map vs l)).
Proof.
  revert acc. induction l as [|i l IH]; intros acc H Hs; cbn [foldM map fold_right] in *.
  - now rewrite N.add_0_r.
  - unfold idx at 1. rewrite (H i) by (simpl; auto). cbn [unwrap obind]. unfold uadd.
    change (2 ^ 16) with 65536. destruct (N.ltb_spec (acc + vs i) 65536); [|lia].
    cbn [obind]. rewrite IH. f_equal. lia. intros; apply H; simpl; auto. lia.
Qed.

Lemma eval_correct p c x :
  num_wires c = (num_inputs c + length (gates c))%nat -> length x = num_inputs c ->
  (forall k g, nth_error (gates c) k = Some g ->
     g_output g = (num_inputs c + k)%nat /\ Forall (fun i => (i < g_output g)%nat) (g_inputs g) /\ eval_ok_gate c x g) ->
  eval p c x = Ok (circuit_values c x).
Proof.
  intros Hnw Hlx Hg. unfold eval.
  set (v := fun i => nth i (circuit_values c x) 0).
  assert (Hlen : length (circuit_values c x) = num_wires c).
  { unfold circuit_values. rewrite run_gates_length. lia. }
  destruct (foldM_inv (fun ws (ix : nat * N) => set_idx ws (fst ix) (snd ix))
    (fun q ws => length ws = num_wires c /\ forall i, (i < q)%nat -> nth_error ws i = Some (v i))
    (combine (seq 0 (length x)) x) (repeat 0 (num_wires c))) as (ws & E & Hl & Hws).
  - split. apply repeat_length. intros; lia.
  - intros q [i xi] ws Hq [Hl Hws]. cbn [fst snd].
    assert (Hql : (q < length x)%nat).
    { assert (nth_error (combine (seq 0 (length x)) x) q <> None) by congruence.
      apply nth_error_Some in H. rewrite combine_length, seq_length in H. lia. }
    rewrite (nth_error_nth' _ (0%nat, 0)) in Hq by (rewrite combine_length, seq_length; lia).
    rewrite combine_nth in Hq by apply seq_length. rewrite seq_nth in Hq by auto.
    inversion Hq; subst i xi. rewrite set_idx_lt by lia.
    eexists; split; [reflexivity|]. split. now rewrite set_nth_length.
    intros i Hi. rewrite set_nth_nth_error by lia. destruct (Nat.eqb_spec i q) as [->|].
    + f_equal. unfold v, circuit_values. symmetry. apply run_gates_prefix. auto.
    + apply Hws. lia.
  - rewrite E. cbn [obind]. rewrite combine_length, seq_length, Nat.min_id in Hws.
    destruct (foldM_inv (fun ws g => let* v := eval_gate p ws g in set_idx ws (g_output g) v)
      (fun q ws => length ws = num_wires c /\ forall i, (i < num_inputs c + q)%nat -> nth_error ws i = Some (v i))
      (gates c) ws) as (ws' & E' & Hl' & Hws').
    + split; auto. intros; apply Hws. lia.
    + clear ws E Hl Hws. intros k g ws Hk [Hl Hws].
      destruct (Hg k g Hk) as (Ho & Hi & Hok). rewrite Forall_forall in Hi.
      assert (Hkl : (k < length (gates c))%nat) by (apply nth_error_Some; congruence).
      assert (Hv : v (num_inputs c + k)%nat = gate_value g (map v (g_inputs g))).
      { unfold v, circuit_values. rewrite <- Hlx. apply run_gates_nth; auto.
        rewrite Hlx, <- Ho. apply Forall_forall. auto. }
      assert (Hev : eval_gate p ws g = Ok (v (num_inputs c + k)%nat)).
      { rewrite Hv. unfold eval_gate, gate_value, eval_ok_gate in *.
        assert (Hr : forall i, In i (g_inputs g) -> nth_error ws i = Some (v i)).
        { intros i Hin. apply Hws. specialize (Hi i Hin). lia. }
        destruct (g_kind g) as [|q|[m|t]|].
        - destruct Hok as [Hd Hs]. rewrite (eval_sum p ws v) by auto. cbn [obind]. rewrite N.add_0_l.
          unfold urem. destruct (N.eqb_spec (g_domain g) 0); [contradiction|]. reflexivity.
        - destruct Hok as (i & l & Ei & Hd & Hs). rewrite Ei in *. fold (v i) in Hd, Hs.
          cbn [hd_error unwrap obind map nth]. unfold idx. rewrite (Hr i) by (simpl; auto). cbn [unwrap obind].
          unfold umul. change (2 ^ 16) with 65536. destruct (N.ltb_spec (v i * q) 65536); [|lia].
          now rewrite N.mod_small.
        - destruct Hok as [Hne Hm]. destruct (g_inputs g) as [|i l] eqn:Ei; [congruence|].
          cbn [hd_error unwrap obind map nth]. unfold idx. rewrite (Hr i) by (simpl; auto). cbn [unwrap obind project].
          unfold urem. destruct (N.eqb_spec m 0); [contradiction|]. reflexivity.
        - destruct (g_inputs g) as [|i l] eqn:Ei; [congruence|].
          cbn [hd_error unwrap obind map nth]. unfold idx. rewrite (Hr i) by (simpl; auto). reflexivity.
        - destruct Hok as (i & j & l & Ei & Hd & Hs). rewrite Ei in *. fold (v i) (v j) in Hd, Hs.
          cbn [hd_error unwrap obind map nth]. unfold idx. rewrite (Hr i) by (simpl; auto). cbn [unwrap obind].
          destruct Hs as [Hs|Hs]; rewrite Hs; [|reflexivity].
          assert (v i = 0 \/ v i = 1) as [Z|Z] by lia; rewrite Z; reflexivity. }
      rewrite Hev. cbn [obind]. rewrite set_idx_lt by lia. eexists; split; [reflexivity|].
      split. now rewrite set_nth_length. intros i Hi'. rewrite set_nth_nth_error by lia. rewrite Ho.
      destruct (Nat.eqb_spec i (num_inputs c + k)) as [->|]; auto. apply Hws. lia.
    + rewrite E'. f_equal. apply (nth_ext _ _ 0 0). lia. intros i Hi.
      apply nth_error_nth with (d := 0). apply Hws'. lia.
Qed.

(** ** The circuits of build_circuit and build_circuit_v2 *)
Lemma map_seq_nth {A} (l : list A) d n : n = length l -> map (fun i => nth i l d) (seq 0 n) = l.
Proof.
  intros ->. apply (nth_ext _ _ d d). { now rewrite map_length, seq_length. }
  intros i Hi. rewrite map_length, seq_length in Hi.
  rewrite nth_indep with (d' := nth 0 l d) by (rewrite map_length, seq_length; auto).
  rewrite (map_nth (fun i => nth i l d)). now rewrite seq_nth.
Qed.
Lemma map_seq_shift {A} (f : nat -> A) s n : map f (seq s n) = map (fun i => f (s + i)%nat) (seq 0 n).
Proof.
  revert s. induction n; intros; cbn [seq map]; auto. rewrite Nat.add_0_r. f_equal.
  rewrite IHn, <- seq_shift, map_map. apply map_ext. intros. f_equal. lia.
Qed.
Lemma map_add_seq f s n : (forall i, f i = (s + i)%nat) -> map f (seq 0 n) = seq s n.
Proof.
  intros H. rewrite (map_ext _ (fun i => (s + i)%nat)) by auto. rewrite <- (map_seq_shift (fun x => x)). apply map_id.
Qed.
Lemma slice_nth {A} (u l w : list A) d n : n = length l ->
  map (fun i => nth i (u ++ l ++ w) d) (seq (length u) n) = l.
Proof.
  intros ->. rewrite map_seq_shift. rewrite <- (map_seq_nth l d (length l)) at 2 by auto.
  apply map_ext_in. intros i Hi. apply in_seq in Hi.
  rewrite app_nth2 by lia. rewrite app_nth1 by lia. f_equal. lia.
Qed.
Lemma nth_map_seq {A} (f : nat -> A) n i d : (i < n)%nat -> nth i (map f (seq 0 n)) d = f i.
Proof.
  intros Hi. rewrite nth_indep with (d' := f 0%nat) by (rewrite map_length, seq_length; auto).
  rewrite map_nth, seq_nth; auto.
Qed.
Lemma nth_error_map_seq {A} (f : nat -> A) n i : (i < n)%nat -> nth_error (map f (seq 0 n)) i = Some (f i).
Proof. intros Hi. rewrite (nth_error_nth' _ (f 0%nat)) by (rewrite map_length, seq_length; auto). now rewrite nth_map_seq. Qed.
Lemma fold_sum_bits l : fold_right N.add 0 (bit_values l) = N.of_nat (length (filter (fun b => b) l)).
Proof. induction l as [|[] l IH]; cbn [bit_values map fold_right filter length]; auto; fold (bit_values l); rewrite IH; lia. Qed.
Lemma filter_len_le {A} (f : A -> bool) l : (length (filter f l) <= length l)%nat.
Proof. induction l; simpl; auto. destruct (f a); simpl; lia. Qed.
Lemma bit_values_length l : length (bit_values l) = length l.
Proof. apply map_length. Qed.
Lemma bit_values_nth l : forall i, nth i (bit_values l) 0 = if nth i l false then 1 else 0.
Proof. induction l; intros [|i]; simpl; auto. Qed.
Lemma bit_values_lt l i : nth i (bit_values l) 0 < 2.
Proof.
  destruct (Nat.lt_ge_cases i (length (bit_values l))).
  - assert (H1 : In (nth i (bit_values l) 0) (bit_values l)) by now apply nth_In.
    apply in_map_iff in H1 as (b & <- & _). destruct b; lia.
  - rewrite nth_overflow by auto. lia.
Qed.

(** The common tail (projections, sum, comparison) of both builders: m1 input wires, first layer of n xors. *)
Definition tail_gates (base n : nat) (cd t1 : N) : list gate :=
  map (fun i => mkGate (i + (base + n)) 2 [i + base]%nat (GProj (PMap cd))) (seq 0 n) ++
  [mkGate (base + n + n) cd (seq (base + n) n) GAdd;
   mkGate (base + n + n + 1) cd [base + n + n]%nat (GProj (PLess t1))].

Lemma tail_values u d cd t1 : let n := length d in
  cd = N.of_nat n + 1 ->
  run_gates (tail_gates (length u) n cd t1) (u ++ bit_values d) =
  (u ++ bit_values d) ++ bit_values d ++
    [N.of_nat (length (filter (fun b => b) d));
     if N.of_nat (length (filter (fun b => b) d)) <? t1 then 1 else 0].
Proof.
  intros n Hcd. unfold tail_gates. rewrite run_gates_app.
  pose proof (bit_values_length d) as Hbl. fold n in Hbl.
  rewrite (run_layer0 (map _ (seq 0 n))).
  2:{ intros g Hg. apply in_map_iff in Hg as (i & <- & Hi). apply in_seq in Hi.
      cbn [g_inputs]. constructor; auto. rewrite app_length. lia. }
  assert (E : map (fun g => gate_value g (map (fun i => nth i (u ++ bit_values d) 0) (g_inputs g)))
     (map (fun i => mkGate (i + (length u + n)) 2 [(i + length u)%nat] (GProj (PMap cd))) (seq 0 n)) = bit_values d).
  { rewrite map_map. unfold gate_value. cbn [g_kind g_inputs map nth].
    transitivity (map (fun i => nth i (bit_values d) 0) (seq 0 n)); [|now apply map_seq_nth]. apply map_ext_in. intros i Hi. apply in_seq in Hi.
    rewrite app_nth2 by lia. rewrite Nat.add_sub. apply N.mod_small.
    pose proof (bit_values_lt d i). lia. }
  rewrite E. cbn [run_gates]. unfold gate_value. cbn [g_kind g_inputs g_domain map nth].
  assert (Es : map (fun i => nth i ((u ++ bit_values d) ++ bit_values d) 0) (seq (length u + n) n) = bit_values d).
  { replace (length u + n)%nat with (length (u ++ bit_values d)) by (rewrite app_length; lia).
    pose proof (slice_nth (u ++ bit_values d) (bit_values d) [] 0 n) as HS. rewrite app_nil_r in HS. auto. }
  rewrite Es. rewrite fold_sum_bits. pose proof (filter_len_le (fun b => b) d).
  rewrite N.mod_small by lia.
  rewrite app_nth2 by (rewrite !app_length; lia).
  replace (length u + n + n - length ((u ++ bit_values d) ++ bit_values d))%nat with 0%nat by (rewrite !app_length; lia).
  cbn [nth]. rewrite <- !app_assoc. reflexivity.
Qed.

Definition xor_list (a b : list bool) : list bool := zipWith xorb a b.
Lemma hamming_filter a b : hamming a b = length (filter (fun b => b) (xor_list a b)).
Proof.
  revert b. induction a as [|x a IH]; intros [|y b]; cbn [hamming xor_list zipWith filter length]; auto.
  rewrite IH. destruct (xorb x y); reflexivity.
Qed.
Lemma weight3_filter a b c : length b = length c ->
  weight3 a b c = length (filter (fun b => b) (xor_list a (xor_list b c))).
Proof.
  revert b c. induction a as [|x a IH]; intros [|y b] [|z c] Hl; cbn [weight3 xor_list zipWith filter length]; auto; try discriminate.
  rewrite IH by (simpl in Hl; lia). destruct (xorb x (xorb y z)); reflexivity.
Qed.
Lemma xor_list_length a b : length a = length b -> length (xor_list a b) = length a.
Proof. intros. unfold xor_list. rewrite zipWith_length. lia. Qed.

Section V1.
Variables (n : nat) (t : N) (p : profile).
Hypothesis Hn : (N.of_nat n <= 65534).
Hypothesis Ht : t <= 65534.
Definition cd1 : N := N.of_nat n + 1.
Definition xors1 : list gate := map (fun i => mkGate (i + 2 * n) 2 [i; i + n]%nat GAdd) (seq 0 n).
Definition circ1 : circuit :=
  mkCircuit (4 * n + 2) (n * 2) 1 (xors1 ++ tail_gates (2 * n) n cd1 (t + 1)) (repeat 2 (n * 2)).
Lemma build_circuit_eq : build_circuit p n t = Ok circ1.
Proof.
  unfold build_circuit, uadd. rewrite (N.mod_small _ 65536) by lia. change (2 ^ 16) with 65536.
  destruct (N.ltb_spec (N.of_nat n + 1) 65536); [|lia]. cbn [obind].
  destruct (N.ltb_spec (t + 1) 65536); [|lia]. cbn [obind].
  unfold circ1, xors1, tail_gates, cd1.
  replace (2 * n + n)%nat with (3 * n)%nat by lia. replace (3 * n + n)%nat with (4 * n)%nat by lia. reflexivity.
Qed.
Lemma circ1_values a b : length a = n -> length b = n ->
  circuit_values circ1 (bit_values a ++ bit_values b) =
  (bit_values a ++ bit_values b) ++ bit_values (xor_list a b) ++ bit_values (xor_list a b) ++
    [N.of_nat (hamming a b); if N.of_nat (hamming a b) <=? t then 1 else 0].
Proof.
  intros Ha Hb. unfold circuit_values, circ1. cbn [gates]. rewrite run_gates_app.
  pose proof (bit_values_length a). pose proof (bit_values_length b).
  rewrite (run_layer0 xors1).
  2:{ intros g Hg. apply in_map_iff in Hg as (i & <- & Hi). apply in_seq in Hi.
      cbn [g_inputs]. constructor; [|constructor; auto]; rewrite app_length; lia. }
  assert (E : map (fun g => gate_value g (map (fun i => nth i (bit_values a ++ bit_values b) 0) (g_inputs g))) xors1
     = bit_values (xor_list a b)).
  { unfold xors1. rewrite map_map. unfold gate_value. cbn [g_kind g_inputs g_domain map nth fold_right].
    rewrite <- (map_seq_nth (bit_values (xor_list a b)) 0 n).
    2:{ rewrite bit_values_length, xor_list_length; congruence. }
    apply map_ext_in. intros i Hi. apply in_seq in Hi.
    rewrite app_nth1 by lia. rewrite app_nth2 by lia. replace (i + n - length (bit_values a))%nat with i by lia.
    rewrite !bit_values_nth. unfold xor_list.
    rewrite (zipWith_nth _ _ _ _ false false) by lia.
    destruct (nth i a false), (nth i b false); reflexivity. }
  rewrite E. replace (2 * n)%nat with (length (bit_values a ++ bit_values b)) by (rewrite app_length; lia).
  pose proof (xor_list_length a b ltac:(congruence)) as Hx.
  replace n with (length (xor_list a b)) at 1 by congruence.
  rewrite tail_values by (unfold cd1; congruence).
  rewrite <- !app_assoc. do 4 f_equal. rewrite hamming_filter. f_equal. f_equal.
  destruct (N.ltb_spec (N.of_nat (length (filter (fun b => b) (xor_list a b)))) (t + 1)),
    (N.leb_spec (N.of_nat (length (filter (fun b => b) (xor_list a b)))) t); auto; lia.
Qed.

Lemma circ1_outputs a b : length a = n -> length b = n ->
  circuit_outputs circ1 (bit_values a ++ bit_values b) = [if N.of_nat (hamming a b) <=? t then 1 else 0].
Proof.
  intros Ha Hb. unfold circuit_outputs. rewrite circ1_values by auto. cbn [circ1 num_wires num_outputs].
  pose proof (xor_list_length a b ltac:(congruence)).
  set (pre := (bit_values a ++ bit_values b) ++ bit_values (xor_list a b) ++ bit_values (xor_list a b) ++ [N.of_nat (hamming a b)]).
  replace ((bit_values a ++ bit_values b) ++ _) with (pre ++ [if N.of_nat (hamming a b) <=? t then 1 else 0])
    by (unfold pre; rewrite <- !app_assoc; reflexivity).
  rewrite skipn_app. replace (4 * n + 2 - 1 - length pre)%nat with 0%nat.
  - rewrite skipn_all2. reflexivity. unfold pre. rewrite !app_length, !bit_values_length. simpl. lia.
  - unfold pre. rewrite !app_length, !bit_values_length. simpl. lia.
Qed.

Lemma circ1_eval_ok a b k g : length a = n -> length b = n -> nth_error (gates circ1) k = Some g ->
  g_output g = (n * 2 + k)%nat /\ Forall (fun i => (i < g_output g)%nat) (g_inputs g) /\ eval_ok_gate circ1 (bit_values a ++ bit_values b) g.
Proof.
  intros Ha Hb Hk. assert (Hlt : (k < length (gates circ1))%nat) by (apply nth_error_Some; congruence).
  unfold circ1 in Hk, Hlt. cbn [gates] in Hk, Hlt. unfold tail_gates, xors1 in Hk, Hlt.
  rewrite !app_length, !map_length, !seq_length in Hlt. cbn [length] in Hlt.
  unfold eval_ok_gate. rewrite circ1_values by auto. set (vals := _ ++ _).
  assert (Hv2 : forall i, (i < 3 * n)%nat -> nth i vals 0 < 2).
  { intros i Hi. unfold vals. rewrite app_assoc. rewrite app_nth1.
    2:{ rewrite !app_length, !bit_values_length, xor_list_length by congruence. lia. }
    rewrite <- !app_assoc.
    replace (bit_values a ++ bit_values b ++ bit_values (xor_list a b)) with (bit_values (a ++ b ++ xor_list a b)).
    apply bit_values_lt. unfold bit_values. now rewrite !map_app. }
  destruct (Nat.lt_ge_cases k n) as [H1|H1].
  - rewrite nth_error_app1 in Hk by (rewrite map_length, seq_length; auto).
    rewrite nth_error_map_seq in Hk by auto. inversion Hk; subst g. cbn [g_output g_inputs g_kind g_domain map fold_right].
    split; [lia|]. split. { constructor; [|constructor; auto]; lia. } split; [lia|].
    pose proof (Hv2 k ltac:(lia)). pose proof (Hv2 (k + n)%nat ltac:(lia)). lia.
  - rewrite nth_error_app2 in Hk by (rewrite map_length, seq_length; auto).
    rewrite map_length, seq_length in Hk.
    destruct (Nat.lt_ge_cases (k - n) n) as [H2|H2].
    + rewrite nth_error_app1 in Hk by (rewrite map_length, seq_length; auto).
      rewrite nth_error_map_seq in Hk by auto. inversion Hk; subst g. cbn [g_output g_inputs g_kind g_domain].
      split; [lia|]. split. { constructor; auto. lia. } split; [discriminate|]. unfold cd1; lia.
    + rewrite nth_error_app2 in Hk by (rewrite map_length, seq_length; auto).
      rewrite map_length, seq_length in Hk.
      destruct (k - n - n)%nat as [|[|j]] eqn:Ej; cbn [nth_error] in Hk; [| |destruct j; discriminate];
        inversion Hk; subst g; cbn [g_output g_inputs g_kind g_domain].
      * split; [lia|]. split. { apply Forall_forall. intros i Hi. apply in_seq in Hi. lia. }
        split; [unfold cd1; lia|].
        assert (E : map (fun i => nth i vals 0) (seq (2 * n + n) n) = bit_values (xor_list a b)).
        { unfold vals. rewrite app_assoc.
          replace (2 * n + n)%nat with (length ((bit_values a ++ bit_values b) ++ bit_values (xor_list a b))).
          apply slice_nth. rewrite bit_values_length, xor_list_length; congruence.
          rewrite !app_length, !bit_values_length, xor_list_length by congruence. lia. }
        change (n + (n + 0) + n)%nat with (2 * n + n)%nat. rewrite E, fold_sum_bits. pose proof (filter_len_le (fun b => b) (xor_list a b)).
        rewrite xor_list_length in H by congruence. lia.
      * split; [lia|]. split. { constructor; auto. lia. } discriminate.
Qed.

Lemma circ1_eval a b : length a = n -> length b = n ->
  eval p circ1 (bit_values a ++ bit_values b) = Ok (circuit_values circ1 (bit_values a ++ bit_values b)).
Proof.
  intros Ha Hb. apply eval_correct.
  - unfold circ1, tail_gates, xors1. cbn [num_wires num_inputs gates].
    rewrite !app_length, !map_length, !seq_length. simpl. lia.
  - rewrite app_length, !bit_values_length. cbn [circ1 num_inputs]. lia.
  - intros k g Hk. cbn [circ1 num_inputs]. now apply circ1_eval_ok.
Qed.

Lemma circ1_mentions w : mentions (gates circ1) w <-> (w < 4 * n + 2)%nat.
Proof.
  unfold mentions, circ1, tail_gates, xors1. cbn [gates]. split.
  - intros (g & Hg & Hw). apply in_app_iff in Hg as [Hg|Hg]; [|apply in_app_iff in Hg as [Hg|Hg]].
    + apply in_map_iff in Hg as (i & <- & Hi). apply in_seq in Hi. cbn [g_inputs g_output] in Hw. simpl in Hw. lia.
    + apply in_map_iff in Hg as (i & <- & Hi). apply in_seq in Hi. cbn [g_inputs g_output] in Hw. simpl in Hw. lia.
    + destruct Hg as [<-|[<-|[]]]; cbn [g_inputs g_output] in Hw.
      * rewrite in_seq in Hw. lia.
      * simpl in Hw. lia.
  - intros Hw.
    destruct (Nat.lt_ge_cases w n); [|destruct (Nat.lt_ge_cases w (2 * n)); [|destruct (Nat.lt_ge_cases w (3 * n));
      [|destruct (Nat.lt_ge_cases w (4 * n))]]].
    + exists (mkGate (w + 2 * n) 2 [w; w + n]%nat GAdd). split; [|simpl; auto].
      apply in_app_iff. left. apply in_map_iff. exists w. split; auto. apply in_seq; lia.
    + exists (mkGate ((w - n) + 2 * n) 2 [w - n; (w - n) + n]%nat GAdd). split; [|simpl; lia].
      apply in_app_iff. left. apply in_map_iff. exists (w - n)%nat. split; auto. apply in_seq; lia.
    + exists (mkGate ((w - 2 * n) + 2 * n) 2 [w - 2 * n; (w - 2 * n) + n]%nat GAdd). split; [|simpl; lia].
      apply in_app_iff. left. apply in_map_iff. exists (w - 2 * n)%nat. split; auto. apply in_seq; lia.
    + exists (mkGate (2 * n + n + n) cd1 (seq (2 * n + n) n) GAdd). split.
      { rewrite !in_app_iff. right; right. simpl; auto. } left. cbn [g_inputs]. apply in_seq. lia.
    + exists (mkGate (2 * n + n + n + 1) cd1 [2 * n + n + n]%nat (GProj (PLess (t + 1)))). split.
      { rewrite !in_app_iff. right; right. simpl; auto. } cbn [g_inputs g_output]. simpl. lia.
Qed.

Lemma circ1_outs : map g_output (gates circ1) = seq (2 * n) (2 * n + 2).
Proof.
  unfold circ1, tail_gates, xors1. cbn [gates]. rewrite !map_app, !map_map. cbn [map g_output].
  replace (2 * n + 2)%nat with (n + (n + 2))%nat by lia. rewrite !seq_app.
  apply f_equal2; [|apply f_equal2].
  - apply map_add_seq. intros; lia.
  - apply map_add_seq. intros; lia.
  - cbn [seq]. replace (2 * n + n + n + 1)%nat with (S (2 * n + n + n)) by lia. reflexivity.
Qed.

Lemma circ1_verify : verify_circuit circ1 = Ok tt.
Proof.
  destruct (verify_char circ1) as (u & Hnd & Hu & Hv & _). apply Hv. split.
  - rewrite <- (count_wires_unique _ _ Hnd Hu).
    rewrite (count_wires_unique (gates circ1) (seq 0 (4 * n + 2))).
    + now rewrite seq_length.
    + apply seq_NoDup.
    + intros w. rewrite circ1_mentions, in_seq. lia.
  - rewrite circ1_outs. apply seq_NoDup.
Qed.

(** Moduli and well-formedness. *)
Lemma circ1_moduli : wire_moduli circ1 = repeat 2 (3 * n) ++ repeat cd1 (n + 1) ++ [2].
Proof.
  unfold wire_moduli, circ1, tail_gates, xors1. cbn [input_domains gates].
  rewrite !map_app, !map_map. cbn [map output_domain g_kind g_domain].
  assert (E : forall (x : N) k, map (fun _ : nat => x) (seq 0 k) = repeat x k).
  { intros x k. rewrite <- (seq_length k 0) at 2. generalize (seq 0 k). induction l; simpl; congruence. }
  unfold output_domain. cbn [g_kind g_domain]. rewrite !E.
  replace (3 * n)%nat with (n * 2 + n)%nat by lia. rewrite !repeat_app. rewrite <- !app_assoc. reflexivity.
Qed.
Lemma nth_repeat_lt {A} (x d : A) k i : (i < k)%nat -> nth i (repeat x k) d = x.
Proof. intros. apply (repeat_spec k). apply nth_In. now rewrite repeat_length. Qed.
Lemma circ1_modulus i : (i < 4 * n + 2)%nat ->
  modulus circ1 i = if Nat.ltb i (3 * n) then 2 else if Nat.ltb i (4 * n + 1) then cd1 else 2.
Proof.
  intros Hi. unfold modulus. rewrite circ1_moduli. destruct (Nat.ltb_spec i (3 * n)).
  - rewrite app_nth1 by (rewrite repeat_length; auto). now apply nth_repeat_lt.
  - rewrite app_nth2 by (rewrite repeat_length; auto). rewrite repeat_length.
    destruct (Nat.ltb_spec i (4 * n + 1)).
    + rewrite app_nth1 by (rewrite repeat_length; lia). apply nth_repeat_lt. lia.
    + rewrite app_nth2 by (rewrite repeat_length; lia). rewrite repeat_length.
      replace (i - 3 * n - (n + 1))%nat with 0%nat by lia. reflexivity.
Qed.

Lemma circ1_wf : (1 <= n)%nat -> supported cd1 -> wf_circuit circ1.
Proof.
  intros H1 Hs. assert (S2 : supported 2) by (left; lia).
  assert (Hgl : length (gates circ1) = (2 * n + 2)%nat) by (rewrite <- (map_length g_output), circ1_outs, seq_length; auto).
  constructor.
  - cbn [circ1 input_domains num_inputs]. apply repeat_length.
  - rewrite Hgl. cbn [circ1 num_wires num_inputs]. lia.
  - rewrite Hgl. cbn [circ1 num_outputs]. lia.
  - intros k g Hk.
    destruct (circ1_eval_ok (repeat false n) (repeat false n) k g (repeat_length _ _) (repeat_length _ _) Hk) as (Ho & Hi & _).
    cbn [circ1 num_inputs]. split; auto. split; auto. clear Ho Hi.
    assert (Hlt : (k < length (gates circ1))%nat) by (apply nth_error_Some; congruence). rewrite Hgl in Hlt.
    unfold circ1 in Hk. cbn [gates] in Hk. unfold tail_gates, xors1 in Hk.
    destruct (Nat.lt_ge_cases k n) as [Hk1|Hk1].
    + rewrite nth_error_app1 in Hk by (rewrite map_length, seq_length; auto).
      rewrite nth_error_map_seq in Hk by auto. inversion Hk; subst g. unfold gate_typed. cbn [g_kind g_domain g_inputs].
      split; auto. split; [discriminate|]. intros i [<-|[<-|[]]]; rewrite circ1_modulus by lia.
      destruct (Nat.ltb_spec k (3 * n)); auto; lia. destruct (Nat.ltb_spec (k + n) (3 * n)); auto; lia.
    + rewrite nth_error_app2 in Hk by (rewrite map_length, seq_length; auto).
      rewrite map_length, seq_length in Hk.
      destruct (Nat.lt_ge_cases (k - n) n) as [Hk2|Hk2].
      * rewrite nth_error_app1 in Hk by (rewrite map_length, seq_length; auto).
        rewrite nth_error_map_seq in Hk by auto. inversion Hk; subst g. unfold gate_typed. cbn [g_kind g_domain g_inputs].
        split; auto. eexists _, _. split; [reflexivity|]. split; auto. rewrite circ1_modulus by lia.
        match goal with |- context [Nat.ltb ?x ?y] => destruct (Nat.ltb_spec x y) end; auto; lia.
      * rewrite nth_error_app2 in Hk by (rewrite map_length, seq_length; auto).
        rewrite map_length, seq_length in Hk.
        destruct (k - n - n)%nat as [|[|j]] eqn:Ej; cbn [nth_error] in Hk; [| |destruct j; discriminate]; inversion Hk; subst g;
          unfold gate_typed; cbn [g_inputs g_kind g_domain].
        -- split; auto. split. { destruct n; [lia|]. discriminate. }
           intros i Hi. apply in_seq in Hi. rewrite circ1_modulus by lia.
           destruct (Nat.ltb_spec i (3 * n)); [lia|]. destruct (Nat.ltb_spec i (4 * n + 1)); auto; lia.
        -- split; auto. eexists _, _. split; [reflexivity|]. split; auto. rewrite circ1_modulus by lia.
           match goal with |- context [Nat.ltb ?x ?y] => destruct (Nat.ltb_spec x y) end; [lia|].
           match goal with |- context [Nat.ltb ?x ?y] => destruct (Nat.ltb_spec x y) end; auto; lia.
  - cbn [circ1 input_domains]. apply Forall_repeat. auto.
  - intros m Hm. cbn [circ1 input_domains] in Hm. apply repeat_spec in Hm. subst m.
    exists (mkGate (0 + 2 * n) 2 [0; 0 + n]%nat GAdd). split; [|left; reflexivity].
    cbn [circ1 gates]. apply in_app_iff. left. apply in_map_iff. exists 0%nat. split; auto. apply in_seq. lia.
Qed.
Lemma circ1_inputs a b : length a = n -> length b = n -> wf_inputs circ1 (bit_values a ++ bit_values b).
Proof.
  intros Ha Hb. split. { rewrite app_length, !bit_values_length. cbn [circ1 num_inputs]. lia. }
  cbn [circ1 num_inputs]. intros i Hi. rewrite circ1_modulus by lia. destruct (Nat.ltb_spec i (3 * n)); [|lia].
  replace (bit_values a ++ bit_values b) with (bit_values (a ++ b)) by (unfold bit_values; now rewrite map_app).
  apply bit_values_lt.
Qed.
End V1.
