(** CircuitBuilder::offset. *)
From Coq Require Import List NArith Bool Arith Lia.
From Verif Require Import Base MWires MCircuit SpecWires SpecCircuit SpecOffset PBase PCircuit PBuilder PHostile.
Import ListNotations.
Open Scope N_scope.

Definition shift_gate (k : nat) (g : gate) : gate :=
  mkGate (g_output g + k) (g_domain g) (map (fun i => i + k)%nat (g_inputs g)) (g_kind g).

Lemma offset_gates b k : b_gates (builder_offset b k) = map (shift_gate k) (b_gates b).
Proof. reflexivity. Qed.

Lemma mem_shift x k l : nat_mem (x + k) (map (fun y => y + k)%nat l) = nat_mem x l.
Proof.
  induction l as [|y l IH]; [reflexivity|]. cbn [map nat_mem existsb] in *. unfold nat_mem in IH. rewrite IH. f_equal.
  destruct (Nat.eqb_spec (x + k) (y + k)), (Nat.eqb_spec x y); auto; lia.
Qed.
Lemma insert_shift x k l : set_insert (x + k) (map (fun y => y + k)%nat l) = map (fun y => y + k)%nat (set_insert x l).
Proof. unfold set_insert. rewrite mem_shift. now destruct (nat_mem x l). Qed.
Lemma remove_shift x k l : set_remove (x + k) (map (fun y => y + k)%nat l) = map (fun y => y + k)%nat (set_remove x l).
Proof.
  unfold set_remove. induction l as [|y l IH]; [reflexivity|]. cbn [map filter]. rewrite IH.
  destruct (Nat.eqb_spec (x + k) (y + k)), (Nat.eqb_spec x y); try lia; reflexivity.
Qed.
Lemma fold_remove_shift k ins : forall l,
  fold_left (fun s i => set_remove i s) (map (fun i => i + k)%nat ins) (map (fun y => y + k)%nat l) =
  map (fun y => y + k)%nat (fold_left (fun s i => set_remove i s) ins l).
Proof. induction ins as [|i ins IH]; intros l; [reflexivity|]. cbn [map fold_left]. now rewrite remove_shift, IH. Qed.

(** Offsetting before or after adding a gate. *)
Lemma offset_add b g k : builder_offset (add_gate b g) k = add_gate (builder_offset b k) (shift_gate k g).
Proof.
  unfold builder_offset, add_gate, shift_gate. cbn [b_gates b_next b_inputs b_unread g_output g_inputs g_domain g_kind].
  rewrite map_app, insert_shift, fold_remove_shift. reflexivity.
Qed.
Lemma offset_offset b k l : builder_offset (builder_offset b k) l = builder_offset b (k + l).
Proof.
  unfold builder_offset. cbn [b_gates b_next b_inputs b_unread]. rewrite !map_map. f_equal; try lia.
  - apply map_ext. intros g. cbn [g_output g_domain g_inputs g_kind]. rewrite map_map. f_equal; [lia|]. apply map_ext. intros; lia.
  - apply map_ext. intros; lia.
Qed.

Lemma mentions_shift k gs w : mentions (map (shift_gate k) gs) w <-> exists v, w = (v + k)%nat /\ mentions gs v.
Proof.
  unfold mentions. split.
  - intros (g' & Hg & H). apply in_map_iff in Hg as (g & <- & Hg). cbn [shift_gate g_inputs g_output] in H.
    destruct H as [H| ->]; [apply in_map_iff in H as (v & <- & H)|]; eauto 7.
  - intros (v & -> & g & Hg & H). exists (shift_gate k g). split; [now apply in_map|]. cbn [shift_gate g_inputs g_output].
    destruct H as [H| ->]; auto. left. now apply (in_map (fun i => i + k)%nat).
Qed.
Lemma shift_inj k (u : list nat) : NoDup u -> NoDup (map (fun y => y + k)%nat u).
Proof.
  induction 1 as [|x u H _ IH]; cbn; constructor; auto. intros Hi. apply in_map_iff in Hi as (y & E & Hy).
  replace x with y in H by lia. auto.
Qed.
Lemma shift_inj_inv k (u : list nat) : NoDup (map (fun y => y + k)%nat u) -> NoDup u.
Proof.
  induction u as [|x u IH]; cbn; intros H; [constructor|]. inversion H; subst. constructor; auto.
  intros Hx. apply H2. now apply (in_map (fun y => y + k)%nat).
Qed.
Lemma count_shift k gs : count_wires (map (shift_gate k) gs) = count_wires gs.
Proof.
  set (u := unique (mentioned gs) []).
  assert (Hu : forall w, In w u <-> mentions gs w). { intros w. unfold u. rewrite unique_In, mentioned_In. simpl. tauto. }
  assert (Hn : NoDup u) by apply unique_NoDup.
  rewrite (count_wires_unique gs u Hn Hu), (count_wires_unique _ (map (fun y => y + k)%nat u)).
  - now rewrite map_length.
  - now apply shift_inj.
  - intros w. rewrite mentions_shift, in_map_iff. split; intros (v & H1 & H2); exists v; split; auto; now apply Hu.
Qed.

Lemma offset_circuit n gs k :
  let c := build (fold_left add_gate gs (builder_new n)) in
  let d := build (builder_offset (fold_left add_gate gs (builder_new n)) k) in
  num_wires d = num_wires c /\ num_inputs d = num_inputs c /\ num_outputs d = num_outputs c /\ verify_circuit d = verify_circuit c.
Proof.
  cbv zeta. fold (built n gs). destruct (built_gates n gs) as [Eg En].
  assert (Ew : num_wires (build (builder_offset (built n gs) k)) = num_wires (build (built n gs))).
  { unfold build. cbn [num_wires]. rewrite offset_gates, Eg. apply count_shift. }
  split; [exact Ew|]. split; [reflexivity|]. split; [apply map_length|].
  unfold verify_circuit. rewrite Ew. cbn [build gates]. rewrite offset_gates, Eg, count_shift.
  destruct (negb _); [reflexivity|].
  assert (E : all_insert (map g_output (map (shift_gate k) gs)) [] = all_insert (map g_output gs) []).
  { rewrite map_map. cbn [shift_gate g_output]. rewrite <- (map_map g_output (fun y => y + k)%nat).
    generalize (map g_output gs). intros l.
    assert (G : forall s, all_insert (map (fun y => y + k)%nat l) (map (fun y => y + k)%nat s) = all_insert l s).
    { induction l as [|x l IH]; intros s; [reflexivity|]. cbn [map all_insert]. rewrite mem_shift.
      destruct (nat_mem x s); [reflexivity|]. apply (IH (x :: s)). }
    apply (G []). }
  now rewrite E.
Qed.

Lemma offset_same n gs k :
  let b := fold_left add_gate gs (builder_new n) in
  same_up_to (fun w => w + k)%nat (gates (build b)) (gates (build (builder_offset b k))).
Proof.
  cbv zeta. fold (built n gs). cbn [build gates]. rewrite offset_gates. destruct (built_gates n gs) as [-> _].
  unfold same_up_to. induction gs as [|g gs IH]; intros mem mem' Hm w; cbn [map run_memory]; [apply Hm|].
  apply IH. clear w IH. intros w. cbn [shift_gate g_output g_inputs].
  replace (gate_value (shift_gate k g) (map mem' (map (fun i => i + k)%nat (g_inputs g)))) with (gate_value g (map mem (g_inputs g))).
  - destruct (Nat.eqb_spec (w + k) (g_output g + k)), (Nat.eqb_spec w (g_output g)); try lia; auto.
  - rewrite map_map. rewrite (map_ext (fun x => mem' (x + k)%nat) mem) by exact Hm. reflexivity.
Qed.

(** The circuits that the crate evaluates: run on a memory or on the list of wires is the same. *)
Lemma run_memory_list : forall gs n vals,
  length vals = n ->
  (forall j g, nth_error gs j = Some g -> g_output g = (n + j)%nat /\ Forall (fun i => (i < n + j)%nat) (g_inputs g)) ->
  forall w, (w < n + length gs)%nat -> run_memory gs (fun i => nth i vals 0) w = nth w (run_gates gs vals) 0.
Proof.
  assert (X : forall gs m m', (forall w, m w = m' w) -> forall w, run_memory gs m w = run_memory gs m' w).
  { induction gs as [|g gs IH]; intros m m' H w; cbn [run_memory]; auto. apply IH. intros v.
    rewrite (map_ext m m' H). now rewrite H. }
  induction gs as [|g gs IH]; intros n vals L H w Hw; cbn [run_memory run_gates]; [reflexivity|].
  rewrite <- (IH (S n)).
  - destruct (H 0%nat g eq_refl) as [Ho _]. apply X. intros v. rewrite Ho, Nat.add_0_r. destruct (Nat.eqb_spec v n) as [->|Hv].
    + rewrite app_nth2, L, Nat.sub_diag by lia. reflexivity.
    + destruct (Nat.lt_ge_cases v n). { now rewrite app_nth1 by lia. }
      rewrite !nth_overflow; auto; try lia. rewrite app_length. cbn. lia.
  - rewrite app_length. cbn. lia.
  - intros j h Hj. destruct (H (S j) h Hj) as [H1 H2]. split; [lia|]. eapply Forall_impl; [|exact H2]. intros i Hi. cbn beta in *. lia.
  - cbn [length] in Hw. lia.
Qed.

(** Evaluation ends with a value or a panic, never changes the number of wires. *)
Definition calm {A} (P : A -> Prop) (o : outcome A) : Prop := match o with Ok a => P a | Panic _ => True | _ => False end.
Lemma calm_bind {A B} (P : A -> Prop) (Q : B -> Prop) (o : outcome A) (f : A -> outcome B) :
  calm P o -> (forall a, P a -> calm Q (f a)) -> calm Q (obind o f).
Proof. destruct o; cbn; auto; contradiction. Qed.
Lemma calm_foldM {A S} (P : S -> Prop) (f : S -> A -> outcome S) l :
  (forall s a, P s -> calm P (f s a)) -> forall s, P s -> calm P (foldM f l s).
Proof.
  intros H. induction l as [|a l IH]; intros s Hs; cbn [foldM]; [exact Hs|]. apply (calm_bind P); auto.
Qed.
Lemma calm_idx {A} (l : list A) i : calm (fun _ => True) (idx l i).
Proof. unfold idx. destruct (nth_error l i); exact I. Qed.
Lemma calm_set {A} (l : list A) i x : calm (fun m => length m = length l) (set_idx l i x).
Proof.
  unfold set_idx. destruct (Nat.ltb i (length l)); [|exact I]. cbn. revert i. induction l as [|y l IH]; intros [|i]; cbn; auto.
Qed.
Lemma calm_gate p ws g : calm (fun _ => True) (eval_gate p ws g).
Proof.
  assert (R : forall a b, calm (fun _ : N => True) (urem a b)) by (intros; unfold urem; destruct (_ =? 0); exact I).
  unfold eval_gate. destruct (g_kind g) as [|m|pk|].
  - apply (calm_bind (fun _ => True)); [|intros; apply R]. apply calm_foldM; [|exact I]. intros s i _.
    apply (calm_bind (fun _ => True)); [apply calm_idx|]. intros x _. unfold uadd. destruct (_ <? _); [exact I|]. destruct (is_debug p); exact I.
  - unfold unwrap. destruct (hd_error _); [|exact I]. cbn [obind]. apply (calm_bind (fun _ => True)); [apply calm_idx|]. intros x _.
    unfold umul. destruct (_ <? _); [exact I|]. destruct (is_debug p); exact I.
  - unfold unwrap. destruct (hd_error _); [|exact I]. cbn [obind]. apply (calm_bind (fun _ => True)); [apply calm_idx|]. intros x _.
    destruct pk; cbn [project]; [apply R|exact I].
  - unfold unwrap. destruct (hd_error _); [|exact I]. cbn [obind]. apply (calm_bind (fun _ => True)); [apply calm_idx|]. intros x _. exact I.
Qed.

(** Evaluating a circuit some gate of which writes a wire outside of the table panics. *)
Lemma eval_outside p c x : (exists g, In g (gates c) /\ (num_wires c <= g_output g)%nat) -> exists r, eval p c x = Panic r.
Proof.
  intros (g & Hg & Ho). apply in_split in Hg as (l1 & l2 & E).
  assert (C : calm (fun _ => False) (eval p c x)).
  { unfold eval. apply (calm_bind (fun ws => length ws = num_wires c)).
    - apply calm_foldM; [|apply repeat_length]. intros s ix Hs.
      generalize (calm_set s (fst ix) (snd ix)). destruct (set_idx s (fst ix) (snd ix)); cbn; congruence.
    - intros ws L. rewrite E, foldM_app. apply (calm_bind (fun ws => length ws = num_wires c)).
      + apply calm_foldM; [|exact L]. intros s h Hs. apply (calm_bind (fun _ => True)); [apply calm_gate|]. intros v _.
        generalize (calm_set s (g_output h) v). destruct (set_idx s (g_output h) v); cbn; congruence.
      + intros ws' L'. cbn [foldM]. apply (calm_bind (fun _ => False)); [|contradiction].
        apply (calm_bind (fun _ => True)); [apply calm_gate|]. intros v _. unfold set_idx.
        destruct (Nat.ltb_spec (g_output g) (length ws')); [lia|exact I]. }
  destruct (eval p c x); cbn in C; try contradiction. eauto.
Qed.

(** The number of wires of a built circuit is at most one more than the highest wire. *)
Lemma wires_below gs m : (forall w, mentions gs w -> (w <= m)%nat) -> (count_wires gs <= S m)%nat.
Proof.
  intros H. unfold count_wires. rewrite <- (seq_length (S m) 0). apply NoDup_incl_length; [apply unique_NoDup|].
  intros w Hw. apply unique_In in Hw. destruct Hw as [Hw _]. apply mentioned_In in Hw. apply in_seq. specialize (H w Hw). lia.
Qed.
Lemma offset_eval n gs k p x : (0 < k)%nat ->
  (exists g, In g gs /\ forall w, mentions gs w -> (w <= g_output g)%nat) ->
  exists r, eval p (build (builder_offset (fold_left add_gate gs (builder_new n)) k)) x = Panic r.
Proof.
  intros Hk (g & Hg & H). apply eval_outside. fold (built n gs). cbn [build gates num_wires]. rewrite offset_gates.
  destruct (built_gates n gs) as [-> _]. exists (shift_gate k g). split; [now apply in_map|]. rewrite count_shift.
  pose proof (wires_below gs (g_output g) H). cbn [shift_gate g_output]. lia.
Qed.
Lemma next_wire_from gs : forall b, b_next (fold_left add_gate gs b) = last (map g_output gs) (b_next b).
Proof.
  induction gs as [|g gs IH] using rev_ind; intros b; [reflexivity|].
  rewrite fold_left_app, map_app. cbn [fold_left map]. now rewrite last_last.
Qed.
Lemma next_wire n gs k : let b := fold_left add_gate gs (builder_new n) in
  b_next b = last (map g_output gs) 0%nat /\ b_next (builder_offset b k) = (last (map g_output gs) 0 + k)%nat.
Proof. cbv zeta. split; [apply next_wire_from|]. cbn [builder_offset b_next]. f_equal. apply next_wire_from. Qed.
