(** Evaluating a circuit that a hostile peer chose. *)
From Coq Require Import List NArith Bool Arith Lia.
From Verif Require Import Base MUtil MWires MCircuit MGarble MBincode MProc MFpake SpecWires SpecCircuit SpecOt SpecApricot SpecBincode SpecHostile.
From Verif Require Import PBase PUtil PWires PBincode PHalf PProc PFpake.
Import ListNotations.
Open Scope N_scope.

(** ** No uninitialised read in circuits that write before they read *)
Definition safe {A} (P : A -> Prop) (o : outcome A) : Prop := match o with Ok a => P a | UB => False | _ => True end.
Notation any := (fun _ => True).
Lemma safe_bind {A B} (P : A -> Prop) (Q : B -> Prop) o (f : A -> outcome B) : safe P o -> (forall a, P a -> safe Q (f a)) -> safe Q (obind o f).
Proof. destruct o; cbn; auto. Qed.
Lemma safe_any {A} (P : A -> Prop) o : safe P o -> safe any o.
Proof. destruct o; cbn; auto. Qed.
Lemma safe_mapM {A B} (P : B -> Prop) (f : A -> outcome B) l : (forall a, In a l -> safe P (f a)) -> safe any (mapM f l).
Proof.
  induction l as [|a l IH]; intros H; cbn [mapM]; [exact I|].
  apply (safe_bind any); [apply (safe_any P), H; now left|]. intros b _. apply (safe_bind any); [apply IH; intros; apply H; now right|]. intros; exact I.
Qed.
Lemma safe_zipM {A B C} (f : A -> B -> outcome C) l m : (forall a b, safe any (f a b)) -> safe any (zipM f l m).
Proof.
  intros H. revert m. induction l as [|a l IH]; intros [|b m]; cbn [zipM]; try exact I.
  apply (safe_bind any); [apply H|]. intros c _. apply (safe_bind any); [apply IH|]. intros; exact I.
Qed.
Lemma safe_foldM {A S} (f : S -> A -> outcome S) l : (forall s a, safe any (f s a)) -> forall s, safe any (foldM f l s).
Proof. intros H. induction l as [|a l IH]; intros s; cbn [foldM]; [exact I|]. apply (safe_bind any); [apply H|]. intros s' _. apply IH. Qed.
Lemma safe_idx {A} (l : list A) i : safe (fun a => nth_error l i = Some a) (idx l i).
Proof. unfold idx. destruct (nth_error l i); cbn; auto. Qed.
Lemma safe_set_idx {A} (l : list A) i x : safe (fun m => (i < length l)%nat /\ m = set_nth l i x) (set_idx l i x).
Proof. unfold set_idx. destruct (Nat.ltb_spec i (length l)); cbn; auto. Qed.
Lemma safe_assert p b : safe any (debug_assert p b).
Proof. unfold debug_assert. destruct (is_debug p), b; exact I. Qed.
Lemma safe_urem a b : safe any (urem a b).
Proof. unfold urem. destruct (b =? 0); exact I. Qed.
Lemma safe_usub p w a b : safe any (usub p w a b).
Proof. unfold usub. destruct (b <=? a); [exact I|]. destruct (is_debug p); exact I. Qed.
Lemma safe_uadd p w a b : safe any (uadd p w a b).
Proof. unfold uadd. destruct (a + b <? 2 ^ w); [exact I|]. destruct (is_debug p); exact I. Qed.
Lemma safe_umul p w a b : safe any (umul p w a b).
Proof. unfold umul. destruct (a * b <? 2 ^ w); [exact I|]. destruct (is_debug p); exact I. Qed.
Ltac step := apply (safe_bind any); [|intros ? _].
Lemma safe_wmap w f : (forall x, safe any (f x)) -> safe any (wmap w f).
Proof. intros H. unfold wmap. step; [apply (safe_mapM any); auto|exact I]. Qed.
Lemma safe_wmap16 p w f : (forall x, safe any (f x)) -> safe any (wmap16 p w f).
Proof. intros H. unfold wmap16. step; [apply (safe_mapM any); auto|]. step; [apply safe_assert|exact I]. Qed.
Lemma safe_wmap2 p a b f : (forall x y, safe any (f x y)) -> safe any (wmap2 p a b f).
Proof. intros H. unfold wmap2. step; [apply safe_assert|]. step; [now apply safe_zipM|exact I]. Qed.
Lemma safe_wmap2_16 p a b f : (forall x y, safe any (f x y)) -> safe any (wmap2_16 p a b f).
Proof. intros H. unfold wmap2_16. step; [apply safe_assert|]. step; [now apply safe_zipM|]. step; [apply safe_assert|exact I]. Qed.
Lemma safe_wadd p a b : safe any (wadd p a b).
Proof. unfold wadd. destruct (wdom a); first [apply safe_wmap2|apply safe_wmap2_16]; intros; first [exact I|apply safe_urem]. Qed.
Lemma safe_wsub p a b : safe any (wsub p a b).
Proof.
  unfold wsub. destruct (wdom a); first [apply safe_wmap2|apply safe_wmap2_16]; intros; try exact I;
    (step; [apply safe_usub|]; step; [apply safe_uadd|apply safe_urem]).
Qed.
Lemma safe_wmul p a k : safe any (wmul p a k).
Proof.
  unfold wmul. step; [apply safe_assert|]. destruct (wdom a); first [apply safe_wmap|apply safe_wmap16]; intros; try exact I.
  - step; [apply safe_umul|]. step; [apply safe_urem|exact I].
  - step; [apply safe_urem|exact I].
Qed.
Lemma safe_from_array p b d : safe any (from_array p b d).
Proof.
  unfold from_array. destruct d; try (apply safe_wmap || apply safe_wmap16); intros; try exact I; try apply safe_urem.
Qed.
Lemma safe_hash_wire sha p o w t : safe any (hash_wire sha p o w t).
Proof. unfold hash_wire. apply safe_from_array. Qed.
Lemma safe_hash_half sha p w j : safe any (hash_half sha p w j).
Proof. unfold hash_half. apply safe_from_array. Qed.
Lemma safe_wsum p l : safe any (wsum p l).
Proof. unfold wsum. destruct l; [exact I|]. apply safe_foldM. intros. apply safe_wadd. Qed.
Lemma safe_weak {A} (P Q : A -> Prop) o : safe P o -> (forall a, P a -> Q a) -> safe Q o.
Proof. destruct o; cbn; auto. Qed.
Lemma nth_error_skip {A} (l : list A) k n : nth_error (skipn k l) n = nth_error l (k + n).
Proof. revert l. induction k as [|k IH]; intros [|a l]; cbn; auto. now destruct n. Qed.
Lemma nth_error_seq_eq n k i : nth_error (seq 0 n) k = Some i -> i = k.
Proof.
  intros H. assert (k < n)%nat by (rewrite <- (seq_length n 0); apply nth_error_Some; congruence).
  apply (nth_error_nth _ _ 0%nat) in H. now rewrite seq_nth in H.
Qed.
Lemma safe_foldM_inv {A S} (f : S -> A -> outcome S) (I : nat -> S -> Prop) l : forall s0,
  I 0%nat s0 -> (forall k a s, nth_error l k = Some a -> I k s -> safe (I (Datatypes.S k)) (f s a)) -> safe (I (length l)) (foldM f l s0).
Proof.
  revert I. induction l as [|a l IH]; intros I s0 H0 Hs; cbn [foldM length]; [exact H0|].
  apply (safe_bind (I 1%nat)); [now apply (Hs 0%nat a)|]. intros s1 H1. apply (IH (fun k => I (Datatypes.S k))); [exact H1|].
  intros k b s Hk HI. apply (Hs (Datatypes.S k)); auto.
Qed.

Section Circuit.
Variables (sha : bytes -> bytes) (p : profile) (gc : garbled).
Let c := gc_circuit gc.
Hypothesis W : written_first c.
Definition written (k i : nat) : Prop :=
  (i < num_inputs c)%nat \/ exists j h, (j < k)%nat /\ nth_error (gates c) j = Some h /\ g_output h = i.
Definition init_upto (k : nat) (ws : list (option wire)) : Prop := length ws = num_wires c /\ forall i, written k i -> nth_error ws i <> Some None.

Lemma safe_read ws k i : init_upto k ws -> written k i -> safe any (read_init ws i).
Proof.
  intros [_ H] Hi. unfold read_init, idx. specialize (H i Hi). destruct (nth_error ws i) as [[w|]|]; cbn; auto.
Qed.
Lemma init_set ws k g w ws' : nth_error (gates c) k = Some g -> init_upto k ws -> (g_output g < length ws)%nat -> ws' = set_nth ws (g_output g) (Some w) -> init_upto (S k) ws'.
Proof.
  intros Hk [L H] Ho ->. split; [now rewrite set_nth_length|]. intros i Hi. rewrite set_nth_nth_error by exact Ho.
  destruct (Nat.eqb_spec i (g_output g)) as [|Hne]; [discriminate|]. apply H.
  destruct Hi as [Hi|(j & h & Hj & Ej & Eo)]; [now left|]. right. exists j, h. split; [|auto].
  assert (j <> k); [|lia]. intros ->. congruence.
Qed.
Lemma safe_gate k g s : nth_error (gates c) k = Some g -> init_upto k (fst (fst s)) ->
  safe (fun s' => init_upto (S k) (fst (fst s'))) (eval_garbled_gate sha p gc s g).
Proof.
  intros Hk HI. destruct s as [[ws j0] j1]. cbn [fst] in HI. unfold eval_garbled_gate.
  assert (R : forall i, In i (g_inputs g) -> safe any (read_init ws i)).
  { intros i Hi. eapply safe_read; [exact HI|]. exact (proj1 W k g Hk i Hi). }
  assert (R0 : forall i n, nth_error (g_inputs g) n = Some i -> safe any (read_init ws i)).
  { intros i n Hi. apply R. eapply nth_error_In; eauto. }
  assert (K : forall (o : outcome (wire * nat * nat)), safe any o ->
    safe (fun s' : list (option wire) * nat * nat => init_upto (S k) (fst (fst s')))
      (let* (w, j0, j1) := o in let* ws := set_idx ws (g_output g) (Some w) in Ok (ws, j0, j1))).
  { intros o Ho. apply (safe_bind any); [exact Ho|]. intros [[w a] b] _.
    apply (safe_bind (fun m => (g_output g < length ws)%nat /\ m = set_nth ws (g_output g) (Some w))); [apply safe_set_idx|].
    intros m [Lo Em]. cbn. eapply init_set; eauto. }
  destruct (g_kind g); apply K.
  - step; [apply (safe_mapM any); exact R|]. step; [apply safe_wsum|exact I].
  - apply (safe_bind (fun i => nth_error (g_inputs g) 0 = Some i)); [apply safe_idx|]. intros i Hi.
    step; [eapply R0; eauto|]. step; [apply safe_wmul|exact I].
  - apply (safe_bind (fun i => nth_error (g_inputs g) 0 = Some i)); [apply safe_idx|]. intros i Hi.
    step; [eapply R0; eauto|]. step; [destruct (alookup Nat.eqb (g_output g) (gc_f gc)); exact I|].
    step; [eapply safe_any, safe_idx|]. step; [apply safe_hash_wire|]. step; [apply safe_wsub|exact I].
  - apply (safe_bind (fun i => nth_error (g_inputs g) 0 = Some i)); [apply safe_idx|]. intros i Hi.
    apply (safe_bind (fun i => nth_error (g_inputs g) 1 = Some i)); [apply safe_idx|]. intros i' Hi'.
    step; [eapply R0; eauto|]. step; [eapply R0; eauto|]. cbv zeta.
    apply (safe_bind any); [destruct (alookup Nat.eqb (g_output g) (gc_half gc)); exact I|]. intros [tg te] _.
    step; [apply safe_hash_half|]. step; [destruct (negb _); [apply safe_wadd|exact I]|].
    step; [apply safe_hash_half|]. step; [destruct (negb _); [step; apply safe_wadd|exact I]|]. step; [apply safe_wadd|exact I].
Qed.
Lemma safe_evaluate x : safe any (evaluate sha p gc x).
Proof.
  unfold evaluate. fold c. step; [apply safe_assert|].
  apply (safe_bind (fun ws => init_upto 0 ws)).
  - apply (safe_weak (fun ws => length ws = num_wires c /\ forall i, (i < length (seq 0 (num_inputs c)))%nat -> nth_error ws i <> Some None)).
    + apply (safe_foldM_inv _ (fun k ws => length ws = num_wires c /\ forall i, (i < k)%nat -> nth_error ws i <> Some None)).
      * split; [apply repeat_length|]. intros; lia.
      * intros k i ws Hk [L H]. apply nth_error_seq_eq in Hk. subst i.
        apply (safe_bind any); [eapply safe_any, safe_idx|]. intros xi _.
        eapply safe_weak; [apply safe_set_idx|]. intros m [Lk ->]. split; [now rewrite set_nth_length|].
        intros i Hi. rewrite set_nth_nth_error by exact Lk. destruct (Nat.eqb_spec i k); [discriminate|]. apply H. lia.
    + intros ws [L H]. split; [exact L|]. rewrite seq_length in H. intros i [Hi|(j & h & Hj & _)]; [auto|lia].
  - intros ws H0. apply (safe_bind (fun s => init_upto (length (gates c)) (fst (fst s)))).
    + apply (safe_foldM_inv (eval_garbled_gate sha p gc) (fun k s => init_upto k (fst (fst s)))); [exact H0|]. intros k g s Hk HI. now apply safe_gate.
    + intros [[ws' j0] j1] [L H]. cbn [fst] in *. destruct (Nat.leb_spec (num_outputs c) (num_wires c)); [|exact I].
      apply (safe_mapM any). intros o Ho. apply In_nth_error in Ho as [n Hn].
      destruct o; [exact I|]. rewrite nth_error_skip in Hn.
      assert (Ln : (num_wires c - num_outputs c + n < num_wires c)%nat) by (rewrite <- L; apply nth_error_Some; congruence).
      revert Hn. apply H. destruct (proj2 W (num_wires c - num_outputs c + n)%nat) as [Hi|(h & Hh & Eo)]; [lia|now left|].
      right. apply In_nth_error in Hh as [j Hj]. exists j, h. split; [|auto]. apply nth_error_Some. congruence.
Qed.
End Circuit.

(** ** The runs *)
Lemma runs_stop_r {A B C} (p : proc A) (q : proc B) (g : B -> proc C) oa r : runs p q oa (Panic r) -> runs p (pbind q g) oa (Panic r).
Proof.
  intros H. eapply (runs_peq_l (pbind p ret)); [apply pbind_ret|].
  pose proof (reach_map (@ret A) g _ _ H) as R. unfold runs, map_cfg in *. cbn in R. destruct oa; exact R.
Qed.
Lemma runs_ub_r {A B C} (p : proc A) (q : proc B) (g : B -> proc C) oa : runs p q oa UB -> runs p (pbind q g) oa UB.
Proof.
  intros H. eapply (runs_peq_l (pbind p ret)); [apply pbind_ret|].
  pose proof (reach_map (@ret A) g _ _ H) as R. unfold runs, map_cfg in *. cbn in R. destruct oa; exact R.
Qed.
Definition zero_wire : wire := mkWire Binary (repeat 0 32).
Lemma zero_WF : WF 2 zero_wire.
Proof. repeat split; auto. all: repeat constructor. Qed.
Lemma map_rep {A B} (f : A -> B) a n : map f (repeat a n) = repeat (f a) n.
Proof. induction n; cbn; congruence. Qed.
Lemma Forall_rep {A} (P : A -> Prop) a n : P a -> Forall P (repeat a n).
Proof. intros H. induction n; cbn; constructor; auto. Qed.
Lemma zip_rep (bs : list bool) : zipWith pick (repeat (zero_wire, zero_wire) (length bs)) bs = repeat zero_wire (length bs).
Proof. induction bs as [|[] bs IH]; cbn; f_equal; auto. Qed.

Lemma hostile_run sha p otS otR pw gc : ot_correct extension_ok otS otR -> (0 < length pw)%nat -> usize_ok (length pw * 8) -> garbled_ok gc ->
  exists gc2, same_garbled gc2 gc /\ forall o,
    (let* out := evaluate sha p gc2 (repeat zero_wire (length pw * 8)) in evaluator_half_key sha p gc2 out) = o ->
    runs (hostile_garbler otS (length pw * 8) gc) (evaluator sha p otR pw) (Ok tt) o.
Proof.
  intros Hot H0 Hu Hgc. set (n := (length pw * 8)%nat) in *.
  destruct (rt_garbled_any_order gc gc [] Hgc) as (gc2 & E & S); [repeat split; auto|]. rewrite app_nil_r in E.
  exists gc2. split; [exact S|]. intros o Ho.
  assert (Lb : length (u8_vec_to_bool_vec pw) = n) by apply bits_length8.
  unfold hostile_garbler, evaluator.
  assert (Em : repeat (repeat 0 32, repeat 0 32) n = label_messages (repeat (zero_wire, zero_wire) n)).
  { unfold label_messages. rewrite map_rep. reflexivity. }
  rewrite Em.
  destruct (Hot (label_messages (repeat (zero_wire, zero_wire) n)) (u8_vec_to_bool_vec pw)) as (out & R & Sel).
  { unfold label_messages. now rewrite map_length, repeat_length. }
  { apply labels_extension; rewrite ?repeat_length; auto; [|unfold n; lia|unfold n; apply Nat.mod_mul; lia].
    apply Forall_rep. split; apply zero_WF. }
  apply selection_labels in Sel; [|now rewrite repeat_length]. rewrite <- Lb, zip_rep in Sel. 
  eapply runs_bind; [exact R|].
  eapply runs_lift_r. { rewrite Sel. apply received_labels. apply Forall_rep. apply zero_WF. }
  rewrite Lb. apply runs_send_recv.
  eapply runs_lift_r. { unfold deserialize. rewrite E. reflexivity. }
  apply (runs_peq_l (pbind (send (enc_wires [])) ret)); [apply pbind_ret|]. apply runs_send_recv.
  eapply runs_lift_r. { apply sent_wires; [constructor|]. reflexivity. }
  cbn [app]. destruct (evaluate sha p gc2 (repeat zero_wire n)); cbn [lift pbind] in *; subst o; apply runs_done.
Qed.

Lemma fold_zero n m : (n <= m)%nat -> foldM (fun ws i => let* xi := idx (repeat zero_wire n) i in set_idx ws i (Some xi)) (seq 0 n) (repeat None m) =
  Ok (repeat (Some zero_wire) n ++ repeat None (m - n)).
Proof.
  intros Hm. assert (G : forall k j, (j + k = n)%nat -> foldM (fun ws i => let* xi := idx (repeat zero_wire n) i in set_idx ws i (Some xi)) (seq j k)
     (repeat (Some zero_wire) j ++ repeat None (m - j)) = Ok (repeat (Some zero_wire) n ++ repeat None (m - n))).
  { induction k as [|k IH]; intros j Hj; cbn [seq foldM]; [now replace j with n by lia|].
    unfold idx at 1. rewrite nth_error_repeat by lia. cbn [unwrap obind]. unfold set_idx at 1.
    rewrite app_length, !repeat_length, (proj2 (Nat.ltb_lt _ _)) by lia. cbn [obind].
    rewrite <- (IH (S j)) by lia. f_equal.
    assert (Es : forall t, set_nth (repeat (Some zero_wire) j ++ None :: t) j (Some zero_wire) = repeat (Some zero_wire) (S j) ++ t).
    { clear. intros t. induction j as [|j IH]; [reflexivity|]. cbn [repeat app set_nth]. f_equal. exact IH. }
    replace (m - j)%nat with (S (m - S j)) by lia. apply Es. }
  specialize (G n 0%nat eq_refl). cbn [repeat app] in G. now rewrite Nat.sub_0_r in G.
Qed.
Lemma evaluate_self sha p n gc2 : (0 < n)%nat -> same_garbled gc2 (self_reading n) -> evaluate sha p gc2 (repeat zero_wire n) = UB.
Proof.
  intros H0 (Ec & _ & _). unfold evaluate. rewrite Ec. cbn [gc_circuit self_reading num_inputs num_wires gates].
  rewrite repeat_length, Nat.eqb_refl, debug_assert_true. cbn [obind]. rewrite fold_zero by lia. cbn [obind foldM].
  unfold eval_garbled_gate. cbn [g_kind g_inputs mapM unwrap]. unfold read_init at 1, idx at 1.
  rewrite nth_error_app2, repeat_length, Nat.sub_diag by (rewrite repeat_length; lia). replace (n + 1 - n)%nat with 1%nat by lia. reflexivity.
Qed.
Lemma evaluate_without sha p n gc2 : (0 < n)%nat -> same_garbled gc2 (without_table n) -> evaluate sha p gc2 (repeat zero_wire n) = Panic PKey.
Proof.
  intros H0 (Ec & Ef & _). unfold evaluate. rewrite Ec. cbn [gc_circuit without_table num_inputs num_wires gates].
  rewrite repeat_length, Nat.eqb_refl, debug_assert_true. cbn [obind]. rewrite fold_zero by lia. cbn [obind foldM].
  unfold eval_garbled_gate. cbn [g_kind g_inputs g_output]. rewrite (Ef n). unfold idx at 1. cbn [nth_error unwrap obind]. unfold read_init at 1, idx at 1.
  rewrite nth_error_app1 by (rewrite repeat_length; lia). rewrite nth_error_repeat by lia. reflexivity.
Qed.
Lemma hostile_circuit_ok n i k : usize_ok (n + 1) -> usize_ok i -> kind_ok k -> circuit_ok (mkCircuit (n + 1) n 1 [mkGate n 2 [i] k] (repeat 2 n)).
Proof.
  unfold usize_ok. intros Hn Hi Hk. unfold circuit_ok, vec_ok, usize_ok. cbn [num_wires num_inputs num_outputs gates input_domains].
  rewrite repeat_length. cbn [length]. repeat split; try lia; try reflexivity.
  - constructor; [|constructor]. unfold gate_ok, vec_ok, usize_ok. cbn. repeat split; try lia; try reflexivity; auto.
  - apply Forall_rep. reflexivity.
Qed.
Lemma self_reading_ok n : usize_ok (n + 1) -> garbled_ok (self_reading n).
Proof.
  intros Hn. split; [apply hostile_circuit_ok; auto; [unfold usize_ok in *; lia|exact I]|].
  split; (split; [split; [reflexivity|constructor]|constructor]).
Qed.
Lemma without_table_ok n : usize_ok (n + 1) -> garbled_ok (without_table n).
Proof.
  intros Hn. split; [apply hostile_circuit_ok; auto; [unfold usize_ok in *; lia|reflexivity]|].
  split; (split; [split; [reflexivity|constructor]|constructor]).
Qed.
