(** CircuitBuilder. *)
From Coq Require Import List NArith Bool Arith Lia.
From Verif Require Import Base MWires MCircuit SpecWires SpecCircuit PBase PCircuit.
Import ListNotations.
Open Scope N_scope.

(** A wire is an output of the built circuit if some gate writes it and neither that gate nor a
    later one reads it. *)
Definition unread (gs : list gate) (w : nat) : Prop :=
  exists l1 g l2, gs = l1 ++ g :: l2 /\ g_output g = w /\
    forall h, In h (g :: l2) -> ~ In w (g_inputs h).

Definition built (n : nat) (gs : list gate) : builder := fold_left add_gate gs (builder_new n).

Lemma built_snoc n gs g : built n (gs ++ [g]) = add_gate (built n gs) g.
Proof. unfold built. now rewrite fold_left_app. Qed.
Lemma built_gates n gs : b_gates (built n gs) = gs /\ b_inputs (built n gs) = n.
Proof.
  induction gs as [|g gs IH] using rev_ind. { auto. }
  rewrite built_snoc. cbn [add_gate b_gates b_inputs]. destruct IH as [-> ->]. auto.
Qed.
Lemma set_remove_In x l y : In y (set_remove x l) <-> In y l /\ y <> x.
Proof.
  unfold set_remove. rewrite filter_In. destruct (Nat.eqb_spec x y); simpl; split; intros [? ?]; split; auto; congruence.
Qed.
Lemma fold_remove_In ins : forall s y, In y (fold_left (fun s i => set_remove i s) ins s) <-> In y s /\ ~ In y ins.
Proof.
  induction ins as [|i ins IH]; intros s y; cbn [fold_left]. { simpl; tauto. }
  rewrite IH, set_remove_In. simpl. split; intros; intuition.
Qed.
Lemma fold_remove_NoDup ins : forall s, NoDup s -> NoDup (fold_left (fun s i => set_remove i s) ins s).
Proof. induction ins; intros s H; cbn [fold_left]; auto. apply IHins. now apply NoDup_filter. Qed.
Lemma set_insert_In x l y : In y (set_insert x l) <-> y = x \/ In y l.
Proof.
  unfold set_insert. destruct (nat_mem x l) eqn:E; simpl; [|split; intros [|]; auto].
  apply nat_mem_In in E. split; auto. intros [->|]; auto.
Qed.
Lemma set_insert_NoDup x l : NoDup l -> NoDup (set_insert x l).
Proof.
  intros H. unfold set_insert. destruct (nat_mem x l) eqn:E; auto. constructor; auto. now apply nat_mem_false.
Qed.
Lemma unread_snoc gs g w : unread (gs ++ [g]) w <-> (w = g_output g \/ unread gs w) /\ ~ In w (g_inputs g).
Proof.
  split.
  - intros (l1 & h & l2 & E & Ho & Hr). destruct (@exists_last _ (h :: l2)) as (l3 & g' & E3); [discriminate|].
    rewrite E3 in E. rewrite app_assoc in E. apply app_inj_tail in E as [E ->].
    split. 2:{ apply Hr. rewrite E3. apply in_app_iff. simpl; auto. }
    destruct l3 as [|h' l3]; cbn [app] in E3; inversion E3; subst.
    + auto.
    + right. exists l1, h', l3. split; auto. split; auto. intros k Hk. apply Hr.
      change (h' :: l3 ++ [g']) with ((h' :: l3) ++ [g']). apply in_app_iff. auto.
  - intros [[->|(l1 & h & l2 & -> & Ho & Hr)] Hn].
    + exists gs, g, []. split; auto. split; auto. intros h [<-|[]]; auto.
    + exists l1, h, (l2 ++ [g]). split. { now rewrite <- app_assoc. } split; auto.
      intros k Hk. change (h :: l2 ++ [g]) with ((h :: l2) ++ [g]) in Hk. apply in_app_iff in Hk as [Hk|[<-|[]]]; auto.
Qed.
Lemma built_unread n gs : NoDup (b_unread (built n gs)) /\ forall w, In w (b_unread (built n gs)) <-> unread gs w.
Proof.
  induction gs as [|g gs [IH1 IH2]] using rev_ind.
  - split. constructor. intros w. simpl. split; [tauto|]. intros (l1 & h & l2 & E & _). destruct l1; discriminate.
  - rewrite built_snoc. cbn [add_gate b_unread]. split.
    + apply fold_remove_NoDup, set_insert_NoDup, IH1.
    + intros w. rewrite fold_remove_In, set_insert_In, unread_snoc, IH2. tauto.
Qed.

Definition reads_input (n : nat) (g : gate) : bool := existsb (fun i => Nat.ltb i n) (g_inputs g).
Lemma doms_nth gs : forall i, (i < length (flat_map g_inputs gs))%nat ->
  exists g, In g gs /\ In (nth i (flat_map g_inputs gs) 0%nat) (g_inputs g) /\
    nth i (flat_map (fun g => map (fun _ => g_domain g) (g_inputs g)) gs) 0 = g_domain g.
Proof.
  induction gs as [|g gs IH]; cbn [flat_map length]; intros i Hi. { lia. }
  rewrite app_length in Hi. destruct (Nat.lt_ge_cases i (length (g_inputs g))).
  - exists g. rewrite !app_nth1 by (try rewrite map_length; auto). split; [simpl; auto|]. split. now apply nth_In.
    rewrite nth_indep with (d' := g_domain g) by (rewrite map_length; auto).
    apply (map_nth (fun _ => g_domain g) (g_inputs g) 0%nat i).
  - destruct (IH (i - length (g_inputs g))%nat) as (h & Hh & H1 & H2); [lia|].
    exists h. rewrite !app_nth2 by (try rewrite map_length; auto). rewrite map_length. split; simpl; auto.
Qed.
Lemma doms_length gs : length (flat_map (fun g => map (fun _ => g_domain g) (g_inputs g)) gs) = length (flat_map g_inputs gs).
Proof. induction gs; cbn [flat_map]; auto. rewrite !app_length, map_length. congruence. Qed.

Lemma builder_metadata n gs : let c := build (built n gs) in
  gates c = gs /\ num_inputs c = n /\
  (exists u, NoDup u /\ (forall w, In w u <-> mentions gs w) /\ num_wires c = length u) /\
  (exists o, NoDup o /\ (forall w, In w o <-> unread gs w) /\ num_outputs c = length o) /\
  (flat_map g_inputs (filter (reads_input n) gs) = seq 0 n ->
     length (input_domains c) = n /\
     forall i, (i < n)%nat -> exists g, In g gs /\ In i (g_inputs g) /\ nth i (input_domains c) 0 = g_domain g) /\
  (verify_circuit c = Ok tt <-> NoDup (map g_output gs)).
Proof.
  cbv zeta. unfold build. cbn [gates num_inputs num_wires num_outputs input_domains].
  destruct (built_gates n gs) as [-> ->]. split; auto. split; auto.
  assert (Hu : exists u, NoDup u /\ (forall w, In w u <-> mentions gs w) /\ count_wires gs = length u).
  { exists (unique (mentioned gs) []). split. apply unique_NoDup. split; auto. intros w. rewrite unique_In, mentioned_In. simpl; tauto. }
  split; auto.
  destruct (built_unread n gs) as [Hn Hr]. split; eauto. split.
  - intros E. rewrite doms_length. fold (reads_input n) in *.
    change (fun g => existsb (fun i => Nat.ltb i n) (g_inputs g)) with (reads_input n). rewrite E, seq_length. split; auto.
    intros i Hi. destruct (doms_nth (filter (reads_input n) gs) i) as (g & Hg & H1 & H2).
    { rewrite E, seq_length; auto. } rewrite E, seq_nth in H1 by auto. apply filter_In in Hg as [Hg _]. eauto.
  - destruct (verify_char (mkCircuit (count_wires gs) n (length (b_unread (built n gs))) gs
      (flat_map (fun g => map (fun _ => g_domain g) (g_inputs g)) (filter (fun g => existsb (fun i => Nat.ltb i n) (g_inputs g)) gs))))
      as (u & H1 & H2 & Hv & _). rewrite Hv. cbn [num_wires gates] in *.
    rewrite (count_wires_unique gs u H1 H2). tauto.
Qed.
