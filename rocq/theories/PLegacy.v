(** The circuit of [build_circuit] does not care which password comes first; runs of the legacy key
    exchanges. *)
From Coq Require Import List NArith Bool Lia Arith Permutation.
From Verif Require Import Base MUtil MWires MCircuit MGarble MPar MBincode MProc MOt MApricot MMany MFpake MLegacy.
From Verif Require Import SpecUtil SpecWires SpecCircuit SpecGarble SpecBincode SpecOt SpecApricot SpecFpake SpecMany SpecMfpake SpecLegacy.
From Verif Require Import PBase PUtil PWires PGarble PCircuit PCircuit2 PHalf PProc POt PPar PApricotRun PFpake CFpake CMfpake PFpake3.
Import ListNotations.
Open Scope N_scope.

(** ** Swapping the two passwords *)
Section Swap.
Variable sha : bytes -> bytes.
Variable p : profile.

Lemma set_nth_app {A} (l r : list A) i v : (length l <= i)%nat -> set_nth (l ++ r) i v = l ++ set_nth r (i - length l) v.
Proof.
  revert i. induction l as [|x l IH]; intros i H; cbn [app length] in *; [now rewrite Nat.sub_0_r|].
  destruct i; [lia|]. cbn [set_nth]. rewrite IH by lia. reflexivity.
Qed.
Lemma set_idx_app {A} (l r : list A) i v : (length l <= i)%nat ->
  set_idx (l ++ r) i v = (let* x := set_idx r (i - length l) v in Ok (l ++ x)).
Proof.
  intros H. unfold set_idx. rewrite app_length.
  destruct (Nat.ltb_spec i (length l + length r)), (Nat.ltb_spec (i - length l) (length r)); try lia; cbn [obind]; auto.
  now rewrite set_nth_app.
Qed.
Lemma read_app pre rest i : (length pre <= i)%nat -> read_init (pre ++ rest) i = read_init rest (i - length pre).
Proof. intros H. unfold read_init, idx. now rewrite nth_error_app2. Qed.
Lemma mapM_ext_in {A B} (f h : A -> outcome B) l : (forall a, In a l -> f a = h a) -> mapM f l = mapM h l.
Proof. induction l as [|a l IH]; intros H; cbn [mapM]; auto. rewrite H by now left. rewrite IH; auto. intros; apply H; now right. Qed.

(** Gates that only look at wires from k on. *)
Definition beyond (k : nat) (g : gate) : Prop :=
  (k <= g_output g)%nat /\ Forall (le k) (g_inputs g) /\ match g_kind g with GAdd | GProj _ => True | _ => False end.
Lemma gate_beyond gc k g pre pre' rest j0 j1 ws a b : beyond k g -> length pre = k -> length pre' = k ->
  eval_garbled_gate sha p gc (pre ++ rest, j0, j1) g = Ok (ws, a, b) ->
  exists rest', ws = pre ++ rest' /\ eval_garbled_gate sha p gc (pre' ++ rest, j0, j1) g = Ok (pre' ++ rest', a, b).
Proof.
  intros (Ho & Hi & Hk) L L'. unfold eval_garbled_gate. rewrite Forall_forall in Hi.
  assert (R : forall q, length q = k -> forall i, In i (g_inputs g) -> read_init (q ++ rest) i = read_init rest (i - k)).
  { intros q Lq i Hin. rewrite read_app by (rewrite Lq; auto). now rewrite Lq. }
  destruct (g_kind g) eqn:Ek; try contradiction.
  - rewrite (mapM_ext_in _ (fun i => read_init rest (i - k)) (g_inputs g)) by (apply (R pre L)).
    rewrite (mapM_ext_in (read_init (pre' ++ rest)) (fun i => read_init rest (i - k)) (g_inputs g)) by (apply (R pre' L')).
    destruct (mapM _ (g_inputs g)) as [ins| | |]; cbn [obind]; try discriminate.
    destruct (wsum p ins) as [w| | |]; cbn [obind]; try discriminate.
    rewrite !set_idx_app by lia. rewrite L, L'.
    destruct (set_idx rest _ _) as [x| | |]; cbn [obind]; try discriminate.
    intros [= <- <- <-]. exists x. auto.
  - destruct (idx (g_inputs g) 0) as [ii| | |] eqn:Ei; cbn [obind]; try discriminate.
    assert (Hin : In ii (g_inputs g)). { unfold idx in Ei. destruct (nth_error (g_inputs g) 0) eqn:En; [|discriminate]. injection Ei as <-. eapply nth_error_In; eauto. }
    rewrite (R pre L), (R pre' L') by exact Hin.
    destruct (read_init rest _) as [wi| | |]; cbn [obind]; try discriminate.
    destruct (unwrap _ _) as [tbl| | |]; cbn [obind]; try discriminate.
    destruct (idx tbl _) as [ci| | |]; cbn [obind]; try discriminate.
    destruct (hash_wire _ _ _ _ _) as [hw| | |]; cbn [obind]; try discriminate.
    destruct (wsub _ _ _) as [w| | |]; cbn [obind]; try discriminate.
    rewrite !set_idx_app by lia. rewrite L, L'.
    destruct (set_idx rest _ _) as [x| | |]; cbn [obind]; try discriminate.
    intros [= <- <- <-]. exists x. auto.
Qed.
Lemma gates_beyond gc k gs pre pre' : Forall (beyond k) gs -> length pre = k -> length pre' = k -> forall rest j0 j1 ws a b,
  foldM (eval_garbled_gate sha p gc) gs (pre ++ rest, j0, j1) = Ok (ws, a, b) ->
  exists rest', ws = pre ++ rest' /\ foldM (eval_garbled_gate sha p gc) gs (pre' ++ rest, j0, j1) = Ok (pre' ++ rest', a, b).
Proof.
  intros F L L'. induction F as [|g gs Hg F IH]; intros rest j0 j1 ws a b E; cbn [foldM] in *.
  - injection E as <- <- <-. eauto.
  - destruct (eval_garbled_gate sha p gc (pre ++ rest, j0, j1) g) as [[[w x] y]| | |] eqn:Eg; cbn [obind] in E; try discriminate.
    destruct (gate_beyond _ _ _ _ pre' _ _ _ _ _ _ Hg L L' Eg) as (r & -> & ->). cbn [obind]. now apply IH.
Qed.

Lemma place_inputs (x : list wire) N0 k : (k <= length x)%nat -> (k <= N0)%nat ->
  foldM (fun ws i => let* xi := idx x i in set_idx ws i (Some xi)) (seq 0 k) (repeat None N0) =
  Ok (map Some (firstn k x) ++ repeat None (N0 - k)).
Proof.
  induction k as [|k IH]; intros H H'. { cbn. now rewrite Nat.sub_0_r. }
  rewrite seq_S, foldM_app, IH by lia. cbn [obind foldM Nat.add].
  rewrite (idx_lt x k wire_empty) by lia. cbn [obind].
  rewrite set_idx_app by (rewrite map_length, firstn_length; lia).
  rewrite map_length, firstn_length, Nat.min_l by lia. rewrite Nat.sub_diag.
  replace (N0 - k)%nat with (S (N0 - S k)) by lia. cbn [repeat]. unfold set_idx. cbn [length Nat.ltb Nat.leb set_nth obind].
  assert (E : firstn (S k) x = firstn k x ++ [nth k x wire_empty]).
  { clear - H. revert k H. induction x as [|y x IHx]; intros [|k] H; cbn in *; try lia; auto. f_equal. apply IHx. lia. }
  rewrite E, map_app, <- app_assoc. reflexivity.
Qed.
Lemma xor_phase gc n a b m k : length a = n -> length b = n -> Forall (WF 2) a -> Forall (WF 2) b -> (k <= n)%nat -> (n <= m)%nat ->
  foldM (eval_garbled_gate sha p gc) (map (fun i => mkGate (i + 2 * n) 2 [i; i + n]%nat GAdd) (seq 0 k))
    (map Some (a ++ b) ++ repeat None m, 0%nat, 0%nat) =
  Ok (map Some (a ++ b) ++ map Some (firstn k (zipWith (padd 2) a b)) ++ repeat None (m - k), 0%nat, 0%nat).
Proof.
  intros La Lb Fa Fb. induction k as [|k IH]; intros H Hm. { cbn. now rewrite Nat.sub_0_r. }
  assert (Lz : length (zipWith (padd 2) a b) = n) by (rewrite zipWith_length; lia).
  rewrite seq_S, map_app, foldM_app, IH by lia. cbn [obind foldM map Nat.add].
  unfold eval_garbled_gate. cbn [g_kind g_inputs g_output mapM].
  assert (Rd : forall rest i, (i < 2 * n)%nat -> read_init (map Some (a ++ b) ++ rest) i = Ok (nth i (a ++ b) wire_empty)).
  { intros rest i Hi. unfold read_init. rewrite (idx_lt _ _ (Some wire_empty)) by (rewrite app_length, map_length, app_length; lia).
    cbn [obind]. rewrite app_nth1 by (rewrite map_length, app_length; lia). rewrite (map_nth Some). reflexivity. }
  rewrite !Rd by lia. cbn [obind].
  rewrite app_nth1, app_nth2 by lia. replace (k + n - length a)%nat with k by lia.
  rewrite (wsum_ok p 2); [|exact sup2|apply nth_WF; auto; lia|constructor; [apply nth_WF; auto; lia|constructor]].
  cbn [obind psum].
  rewrite app_assoc. rewrite set_idx_app by (rewrite app_length, !map_length, firstn_length, app_length; lia).
  rewrite app_length, !map_length, firstn_length, app_length, Nat.min_l by lia.
  replace (k + 2 * n - (length a + length b + k))%nat with 0%nat by lia.
  replace (m - k)%nat with (S (m - S k)) by lia. cbn [repeat]. unfold set_idx. cbn [length Nat.ltb Nat.leb set_nth obind].
  rewrite <- !app_assoc. do 3 f_equal.
  assert (E : forall x : list wire, (k < length x)%nat -> firstn (S k) x = firstn k x ++ [nth k x wire_empty]).
  { clear. intros x H. revert k H. induction x as [|y x IHx]; intros [|k] H; cbn in *; try lia; auto. f_equal. apply IHx. lia. }
  rewrite E by lia. rewrite (map_app Some (firstn k _)), <- app_assoc. cbn [map app]. do 3 f_equal.
  rewrite (zipWith_nth _ _ _ _ wire_empty wire_empty wire_empty) by lia. reflexivity.
Qed.
Lemma tail_beyond n cd t1 : Forall (beyond (2 * n)) (tail_gates (2 * n) n cd t1).
Proof.
  unfold tail_gates. apply Forall_app. split.
  - apply Forall_map, Forall_forall. intros i Hi. apply in_seq in Hi. unfold beyond. cbn [g_output g_inputs g_kind].
    repeat split; auto; [lia|]. constructor; [lia|constructor].
  - repeat constructor; cbn [g_output g_inputs g_kind]; try lia.
    apply Forall_forall. intros i Hi. apply in_seq in Hi. lia.
Qed.

Lemma zipWith_padd_comm a : forall b, Forall (WF 2) a -> Forall (WF 2) b -> zipWith (padd 2) a b = zipWith (padd 2) b a.
Proof.
  induction a as [|x a IH]; intros [|y b] Fa Fb; auto. inversion Fa; inversion Fb; subst. cbn [zipWith]. rewrite IH by auto.
  f_equal. apply padd_comm; auto using sup2.
Qed.
Lemma evaluate_swap gc n t a b out : gc_circuit gc = circ1 n t -> length a = n -> length b = n -> Forall (WF 2) a -> Forall (WF 2) b ->
  evaluate sha p gc (a ++ b) = Ok out -> evaluate sha p gc (b ++ a) = Ok out.
Proof.
  intros Ec La Lb Fa Fb. unfold evaluate. rewrite Ec. cbn [circ1 num_inputs num_wires num_outputs gates].
  rewrite !app_length. replace (Nat.eqb (length a + length b) (n * 2)) with true by (symmetry; apply Nat.eqb_eq; lia).
  replace (Nat.eqb (length b + length a) (n * 2)) with true by (symmetry; apply Nat.eqb_eq; lia).
  rewrite debug_assert_true. cbn [obind].
  rewrite !place_inputs by (rewrite ?app_length; lia). cbn [obind].
  rewrite !firstn_all2 by (rewrite app_length; lia).
  rewrite !foldM_app. unfold xors1.
  rewrite !(xor_phase gc n) by (auto; lia). cbn [obind].
  rewrite (zipWith_padd_comm b a) by auto.
  set (r := map Some (firstn n (zipWith (padd 2) a b)) ++ repeat None (4 * n + 2 - n * 2 - n)).
  destruct (foldM _ (tail_gates _ _ _ _) (map Some (a ++ b) ++ r, 0%nat, 0%nat)) as [[[ws j] j']| | |] eqn:Et; cbn [obind]; try discriminate.
  destruct (gates_beyond gc (2 * n) _ (map Some (a ++ b)) (map Some (b ++ a)) (tail_beyond n _ _)
    ltac:(rewrite map_length, app_length; lia) ltac:(rewrite map_length, app_length; lia) _ _ _ _ _ _ Et) as (r' & -> & ->).
  cbn [obind]. destruct (Nat.leb 1 (4 * n + 2)); [|discriminate].
  rewrite !skipn_app, !map_length, !app_length.
  rewrite (skipn_all2 (map Some (a ++ b))), (skipn_all2 (map Some (b ++ a))) by (rewrite map_length, app_length; lia).
  replace (length b + length a)%nat with (length a + length b)%nat by lia. auto.
Qed.
End Swap.

(** ** Rows of keys *)
Section Rows.
Variable n : nat.
Definition shape (r : list bytes) : Prop := length r = n /\ Forall (fun b : bytes => length b = 32%nat) r.
Definition cell (j k : nat) (r : list bytes) : N := nth k (nth j r []) 0.
Definition rx (a b : list bytes) : list bytes := zipWith xor a b.
Definition zeros : list bytes := repeat (repeat 0 32) n.
Definition total (R : list (list bytes)) : list bytes := fold_left rx R zeros.
Definition xors (l : list N) : N := fold_right N.lxor 0 l.

Lemma shape_nth r j : shape r -> (j < n)%nat -> length (nth j r []) = 32%nat.
Proof. intros [L F] H. rewrite Forall_forall in F. apply F, nth_In. lia. Qed.
Lemma shape_rx a b : shape a -> shape b -> shape (rx a b).
Proof.
  intros [La Fa] [Lb Fb]. split; [unfold rx; rewrite zipWith_length; lia|].
  apply Forall_forall. intros x Hx. apply (@In_nth bytes _ _ []) in Hx as (i & Hi & <-). unfold rx in *. rewrite zipWith_length in Hi.
  rewrite (zipWith_nth xor _ _ _ [] []) by lia. rewrite Forall_forall in Fa, Fb.
  rewrite xor_length; rewrite ?(Fa (nth i a [])), ?(Fb (nth i b [])); auto; apply nth_In; lia.
Qed.
Lemma cell_rx a b j k : shape a -> shape b -> (j < n)%nat -> (k < 32)%nat -> cell j k (rx a b) = N.lxor (cell j k a) (cell j k b).
Proof.
  intros Ha Hb Hj Hk. pose proof (shape_nth _ _ Ha Hj). pose proof (shape_nth _ _ Hb Hj). destruct Ha as [La Fa], Hb as [Lb Fb].
  unfold cell, rx. rewrite (zipWith_nth xor _ _ _ [] []) by lia. unfold xor. now rewrite (zipWith_nth _ _ _ _ 0 0) by lia.
Qed.
Lemma shape_ext a b : shape a -> shape b -> (forall j k, (j < n)%nat -> (k < 32)%nat -> cell j k a = cell j k b) -> a = b.
Proof.
  intros Ha Hb H. assert (La := proj1 Ha). assert (Lb := proj1 Hb). apply (@nth_ext bytes _ _ [] []); [exact (eq_trans La (eq_sym Lb))|].
  intros j Hj. assert (Hj' : (j < n)%nat) by lia. pose proof (shape_nth _ _ Ha Hj') as E1. pose proof (shape_nth _ _ Hb Hj') as E2.
  apply (nth_ext _ _ 0 0); [exact (eq_trans E1 (eq_sym E2))|]. intros k Hk. apply H; lia.
Qed.
Lemma shape_zeros : shape zeros.
Proof. split; [apply repeat_length|]. apply Forall_forall. intros x Hx. apply repeat_spec in Hx as ->. apply repeat_length. Qed.
Lemma cell_zeros j k : cell j k zeros = 0.
Proof.
  unfold cell, zeros. assert (E : @nth bytes j (repeat (repeat 0 32) n) [] = repeat 0 32 \/ @nth bytes j (repeat (repeat 0 32) n) [] = []).
  { destruct (Nat.lt_ge_cases j n) as [H|H]; [left|right]; [|apply nth_overflow; now rewrite repeat_length].
    rewrite (@nth_indep bytes _ _ [] (repeat 0 32)) by (now rewrite repeat_length). apply nth_repeat. }
  destruct E as [-> | ->]; [apply nth_repeat|destruct k; reflexivity].
Qed.
Lemma xors_app a b : xors (a ++ b) = N.lxor (xors a) (xors b).
Proof. induction a as [|x a IH]; cbn [xors app fold_right]; [now rewrite N.lxor_0_l|]. fold (xors (a ++ b)) (xors a). rewrite IH. symmetry. apply N.lxor_assoc. Qed.
Lemma fold_rx R : forall acc, shape acc -> Forall shape R -> shape (fold_left rx R acc) /\
  forall j k, (j < n)%nat -> (k < 32)%nat -> cell j k (fold_left rx R acc) = N.lxor (cell j k acc) (xors (map (cell j k) R)).
Proof.
  induction R as [|r R IH]; intros acc Ha F; cbn [fold_left map xors fold_right]. { split; auto. intros. now rewrite N.lxor_0_r. }
  inversion F; subst. destruct (IH (rx acc r)) as [S E]; auto using shape_rx. split; auto.
  intros j k Hj Hk. rewrite E, cell_rx by auto. fold (xors (map (cell j k) R)). apply N.lxor_assoc.
Qed.
Lemma total_ok R : Forall shape R -> shape (total R) /\
  forall j k, (j < n)%nat -> (k < 32)%nat -> cell j k (total R) = xors (map (cell j k) R).
Proof.
  intros F. destruct (fold_rx R zeros shape_zeros F) as [S E]. split; [exact S|]. intros j k Hj Hk. unfold total. rewrite E by auto.
  now rewrite cell_zeros, N.lxor_0_l.
Qed.
(** The rows cancel, so with another row inserted the total is that row. *)
Lemma total_inserted rs w i : Forall shape rs -> shape w -> let rows := rs ++ [total rs] in
  total (firstn i rows ++ w :: skipn i rows) = w.
Proof.
  intros F Hw rows. destruct (total_ok rs F) as [St Et].
  assert (Fr : Forall shape rows) by (apply Forall_app; auto).
  assert (FR : Forall shape (firstn i rows ++ w :: skipn i rows)).
  { rewrite <- (firstn_skipn i rows) in Fr. apply Forall_app in Fr as [F1 F2]. apply Forall_app; auto. }
  destruct (total_ok _ FR) as [SR ER]. apply shape_ext; auto. intros j k Hj Hk. rewrite ER by auto.
  rewrite map_app, xors_app. cbn [map xors fold_right]. fold (xors (map (cell j k) (skipn i rows))).
  rewrite (N.lxor_comm (cell j k w)), <- N.lxor_assoc, <- xors_app, <- map_app, firstn_skipn.
  unfold rows. rewrite map_app, xors_app. cbn [map xors fold_right]. rewrite N.lxor_0_r, Et by auto. fold (xors (map (cell j k) rs)).
  now rewrite N.lxor_nilpotent, N.lxor_0_l.
Qed.
End Rows.

(** ** What is sent and received by the client that garbles *)
Lemma random_rows_ok p rand count n : keys_ok rand -> N.of_nat (count + 2) < 2 ^ 32 ->
  let rs := map (fun r => map (rand r) (seq 0 n)) (seq 0 count) in
  random_rows p rand (N.of_nat (count + 2)) n = Ok (rs ++ [total n rs]) /\ Forall (shape n) rs.
Proof.
  intros Hk Hc rs. assert (F : Forall (shape n) rs).
  { apply Forall_map, Forall_forall. intros r _. split; [rewrite map_length; apply seq_length|]. apply Forall_map, Forall_forall. intros j _. apply Hk. }
  split; [|exact F]. unfold random_rows.
  destruct (N.eqb_spec (N.of_nat (count + 2)) 0); [lia|].
  assert (Eu : usub p 32 (N.of_nat (count + 2)) 2 = Ok (N.of_nat count)).
  { unfold usub. destruct (N.leb_spec 2 (N.of_nat (count + 2))); [|lia]. f_equal. lia. }
  rewrite Eu. cbn [obind]. rewrite Nat2N.id. fold rs.
  assert (E : forall R acc, shape n acc -> Forall (shape n) R ->
    foldM (fun acc row => zipM (xor_bytes_inplace p) acc row) R acc = Ok (fold_left rx R acc)).
  { clear. induction R as [|r R IH]; intros acc Ha F; cbn [foldM fold_left]; auto. inversion F as [|? ? Hr F']; subst.
    assert (Ez : zipM (xor_bytes_inplace p) acc r = Ok (rx acc r)).
    { destruct Ha as [La Fa], Hr as [Lr Fr]. clear IH F F'. subst n. unfold rx. revert r Lr Fr. induction Fa as [|x acc Hx Fa IH]; intros [|y r] Lr Fr; try discriminate; auto.
      inversion Fr; subst. cbn [zipM zipWith]. rewrite xor_bytes_inplace_ok by congruence. cbn [obind]. rewrite IH by (auto; cbn in Lr; congruence). reflexivity. }
    rewrite Ez. cbn [obind]. apply IH; auto using shape_rx. }
  rewrite E by (auto; apply shape_zeros). reflexivity.
Qed.

Definition dup (r : list bytes) : list (bytes * bytes) := map (fun k => (k, k)) r.
Lemma hidden_keys_ok labels rows index number : (index < number)%nat -> length rows = (number - 1)%nat ->
  hidden_keys labels rows (N.of_nat number) (N.of_nat index) =
  Ok (concat (map dup (firstn index rows) ++ labels :: map dup (skipn index rows))).
Proof.
  intros Hi Hl. unfold hidden_keys. rewrite Nat2N.id.
  assert (T : forall k l ks rs, (forall i, In i l -> i <> index) -> length l = k -> (k <= length rs)%nat ->
    foldM (fun (st : list (bytes * bytes) * list (list bytes)) i => let '(ks, rows) := st in
      if N.of_nat i =? N.of_nat index then Ok (ks ++ labels, rows)
      else match rows with [] => Panic PUnwrap | r :: rows' => Ok (ks ++ map (fun k => (k, k)) r, rows') end) l (ks, rs) =
    Ok (ks ++ concat (map dup (firstn k rs)), skipn k rs)).
  { clear. induction k as [|k IH]; intros [|i l] ks rs Hne Hl Hr; try discriminate; cbn [foldM]. { cbn. now rewrite app_nil_r. }
    destruct rs as [|r rs]; cbn in Hr; [lia|]. destruct (N.eqb_spec (N.of_nat i) (N.of_nat index)) as [E|_]; [exfalso; apply (Hne i); [now left|lia]|].
    cbn [obind]. rewrite IH by (try (intros; apply Hne; now right); cbn in Hl; lia). cbn [firstn skipn map concat]. now rewrite <- app_assoc. }
  assert (Es : seq 0 number = seq 0 index ++ index :: seq (S index) (number - S index)).
  { replace (index :: seq (S index) (number - S index)) with (seq index (S (number - S index))) by reflexivity. rewrite <- seq_app. f_equal. lia. }
  rewrite Es, foldM_app.
  rewrite (T index) by (try (intros i Hin; apply in_seq in Hin); rewrite ?seq_length; lia). cbn [obind foldM].
  rewrite N.eqb_refl. cbn [obind].
  rewrite (T (number - S index)%nat) by (try (intros i Hin; apply in_seq in Hin); rewrite ?seq_length, ?skipn_length; lia). cbn [obind app].
  f_equal. rewrite concat_app. cbn [concat]. rewrite <- app_assoc. do 4 f_equal. apply firstn_all2. rewrite skipn_length. lia.
Qed.

Definition choose (m : bytes * bytes) (c : bool) : bytes := selected c m.
Lemma selection_unique msgs cs out : length cs = length msgs -> is_selection msgs cs out -> out = zipWith choose msgs cs.
Proof.
  intros Hl [Lo Hs]. apply (@nth_ext bytes _ _ [] []). { rewrite zipWith_length. lia. }
  intros i Hi. assert (Hi' : (i < length cs)%nat) by congruence.
  rewrite (zipWith_nth choose _ _ _ ([], []) false) by lia.
  assert (Hm : (i < length msgs)%nat) by lia.
  specialize (Hs i (nth i msgs ([], [])) (nth i cs false) (nth_error_nth' _ _ Hm) (nth_error_nth' _ _ Hi')).
  exact (@nth_error_nth bytes _ i _ [] Hs).
Qed.
Lemma zipWith_concat {A B C} (f : A -> B -> C) ls : forall ms, Forall2 (fun (l : list A) (m : list B) => length l = length m) ls ms ->
  zipWith f (concat ls) (concat ms) = concat (zipWith (zipWith f) ls ms).
Proof. intros ms F. induction F as [|l m ls ms H F IH]; auto. cbn [concat zipWith]. now rewrite zipWith_app, IH. Qed.
Lemma choose_dup r cs : length cs = length r -> zipWith choose (dup r) cs = r.
Proof. revert cs. induction r as [|k r IH]; intros [|c cs] H; try discriminate; auto. cbn [dup map zipWith]. fold (dup r). rewrite IH by (cbn in H; lia). unfold choose, selected. now destruct c. Qed.
Lemma choose_dups rows : forall css n, Forall (shape n) rows -> length css = length rows -> Forall (fun cs : list bool => length cs = n) css ->
  zipWith (zipWith choose) (map dup rows) css = rows.
Proof.
  induction rows as [|r rows IH]; intros [|cs css] n F L Fc; try discriminate; auto. inversion F as [|? ? [Lr _] F']; inversion Fc; subst.
  cbn [map zipWith]. rewrite choose_dup by congruence. erewrite IH; eauto.
Qed.
Lemma choose_labels z bs : length bs = length z -> zipWith choose (label_messages z) bs = map wval (zipWith pick z bs).
Proof.
  revert bs. induction z as [|w z IH]; intros [|b bs] H; try discriminate; auto. unfold label_messages in *. cbn [map zipWith].
  rewrite IH by (cbn in H; lia). unfold choose, selected, pick. cbn [fst snd]. now destruct b.
Qed.

Lemma row_concat (n : nat) (R : list (list bytes)) : Forall (fun r => length r = n) R -> forall i, row_of n i (concat R) = nth i R [] \/ (length R <= i)%nat.
Proof.
  intros F. induction F as [|r R Hr F IH]; intros i; [right; cbn; lia|]. destruct i as [|i].
  - left. unfold row_of. cbn [Nat.mul skipn concat nth]. rewrite firstn_app. rewrite <- Hr at 1 2. rewrite firstn_all, Nat.sub_diag.
    cbn [firstn]. apply app_nil_r.
  - destruct (IH i) as [E|E]; [left|right; cbn; lia]. unfold row_of in *. cbn [nth concat Nat.mul]. rewrite skipn_app.
    rewrite (skipn_all2 r) by lia. replace (n + i * n - length r)%nat with (i * n)%nat by lia. exact E.
Qed.
Lemma idx_concat (n : nat) (R : list (list bytes)) i j : Forall (fun r => length r = n) R -> (i < length R)%nat -> (j < n)%nat ->
  idx (concat R) (i * n + j) = Ok (nth j (nth i R []) []).
Proof.
  intros F Hi Hj. destruct (row_concat n R F i) as [E|E]; [|lia]. rewrite <- E. unfold row_of. rewrite nth_firstn by lia. rewrite nth_skipn.
  apply idx_lt. assert (L : length (concat R) = (length R * n)%nat). { clear - F. induction F; cbn; auto. rewrite app_length. lia. }
  rewrite L. nia.
Qed.
Lemma xor_all_ok p (n : nat) R : Forall (shape n) R -> xor_all p (concat R) (length R) n = Ok (total n R).
Proof.
  intros F. assert (Fl : Forall (fun r : list bytes => length r = n) R) by (eapply Forall_impl; [|exact F]; intros r [H _]; exact H).
  unfold xor_all, total. change (repeat (repeat 0 LENGTH) n) with (zeros n).
  assert (T : forall R2 k acc, (k + length R2 = length R)%nat -> skipn k R = R2 -> shape n acc -> Forall (shape n) R2 ->
    foldM (fun acc i => mapM (fun jx : nat * bytes => let* r := idx (concat R) (i * n + fst jx) in xor_bytes_inplace p (snd jx) r) (enumerate acc))
      (seq k (length R2)) acc = Ok (fold_left rx R2 acc)).
  { induction R2 as [|r R2 IH]; intros k acc Hk Hs Ha F2; cbn [length seq foldM fold_left]; auto.
    inversion F2 as [|? ? Hr F2']; subst. cbn [length] in Hk.
    assert (En : nth k R [] = r). { rewrite <- (firstn_skipn k R), Hs, app_nth2; rewrite firstn_length_le by lia; [|lia]. now rewrite Nat.sub_diag. }
    assert (Es : mapM (fun jx : nat * bytes => let* r := idx (concat R) (k * n + fst jx) in xor_bytes_inplace p (snd jx) r) (enumerate acc) = Ok (rx acc r)).
    { destruct Ha as [La Fa]. destruct Hr as [Lr Fr].
      rewrite (mapM_Ok _ (fun jx : nat * bytes => xor (snd jx) (nth (fst jx) r []))).
      - f_equal. unfold enumerate, rx. apply (@nth_ext bytes _ _ [] []). { rewrite map_length, combine_length, seq_length, zipWith_length. lia. }
        intros j Hj. rewrite map_length, combine_length, seq_length in Hj.
        rewrite (nth_indep _ [] ((fun jx : nat * bytes => xor (snd jx) (nth (fst jx) r [])) (0%nat, []))) by (rewrite map_length, combine_length, seq_length; exact Hj).
        rewrite (map_nth (fun jx : nat * bytes => xor (snd jx) (nth (fst jx) r []))). rewrite combine_nth by now rewrite seq_length. cbn [fst snd].
        rewrite seq_nth by lia. rewrite (zipWith_nth xor _ _ _ [] []) by lia. reflexivity.
      - intros [j x] Hin. unfold enumerate in Hin. assert (Hx := in_combine_r _ _ _ _ Hin). apply in_combine_l, in_seq in Hin. cbn [fst snd].
        rewrite (idx_concat n) by (auto; lia). cbn [obind]. rewrite En. apply xor_bytes_inplace_ok.
        rewrite Forall_forall in Fa, Fr. rewrite (Fa x Hx), (Fr (nth j r [])); auto. apply nth_In. lia. }
    rewrite Es. cbn [obind]. apply IH; auto using shape_rx; [lia|].
    replace (S k) with (k + 1)%nat by lia. rewrite <- (skipn_skipn' 1 k). rewrite Hs. reflexivity. }
  rewrite (T R 0%nat); auto. apply shape_zeros.
Qed.

Lemma seg_pick_ok z k v : let n := (length v * 8)%nat in (k + n <= length z)%nat -> 
  mapM (fun i => let* b := bit_at v i in let* w := idx z (k + i) in Ok (if b : bool then snd w else fst w)) (seq 0 n) =
  Ok (zipWith pick (seg z k n) (u8_vec_to_bool_vec v)).
Proof.
  intros n H. pose proof (seg_length z k n H) as Ls. assert (Lb : length (u8_vec_to_bool_vec v) = n) by apply bits_length8.
  set (ws := zipWith pick (seg z k n) (u8_vec_to_bool_vec v)).
  assert (Lw : length ws = n) by (unfold ws; rewrite pick_length; lia).
  rewrite (mapM_Ok _ (fun i => (fun w : wire => w) (nth i ws wire_empty))).
  - rewrite <- Lw. now rewrite (map_nth_seq (fun w : wire => w)), map_id.
  - intros i Hi. apply in_seq in Hi. rewrite bit_at_ok by lia. cbn [obind].
    rewrite (idx_lt z (k + i) (wire_empty, wire_empty)) by lia. cbn [obind]. unfold ws.
    rewrite pick_nth by lia. rewrite seg_nth by lia. reflexivity.
Qed.
Lemma flat_labels_ok z k v : let n := (length v * 8)%nat in (k + n <= length z)%nat ->
  flat_labels z k n v = Ok (concat (map wval (zipWith pick (seg z k n) (u8_vec_to_bool_vec v)))).
Proof.
  intros n H. unfold flat_labels. pose proof (seg_pick_ok z k v H) as E. fold n in E.
  assert (E2 : mapM (fun i => let* b := bit_at v i in let* w := idx z (k + i) in Ok (wval (if b : bool then snd w else fst w))) (seq 0 n) =
    Ok (map wval (zipWith pick (seg z k n) (u8_vec_to_bool_vec v)))).
  { revert E. generalize (zipWith pick (seg z k n) (u8_vec_to_bool_vec v)). generalize (seq 0 n). induction l as [|i l IH]; intros ws; cbn [mapM].
    - intros [= <-]. reflexivity.
    - destruct (bit_at v i) as [b| | |]; cbn [obind]; try discriminate. destruct (idx z (k + i)) as [w| | |]; cbn [obind]; try discriminate.
      destruct (mapM _ l) as [r| | |] eqn:El; cbn [obind]; try discriminate. intros [= <-]. rewrite (IH r eq_refl). reflexivity. }
  rewrite E2. reflexivity.
Qed.
Lemma wires_from_bytes_ok p ws : Forall (WF 2) ws -> wires_from_bytes p (concat (map wval ws)) = Ok ws.
Proof.
  intros F. unfold wires_from_bytes.
  assert (Fl : Forall (fun w => length (wval w) = 32%nat) ws). { eapply Forall_impl; [|exact F]. intros w (_ & H & _). exact H. }
  assert (E : forall f, (length ws * 32 <= f)%nat -> chunks_exact_fuel f LENGTH (concat (map wval ws)) = map wval ws).
  { clear F. induction Fl as [|w ws Hw Fl IH]; intros f Hf.
    - destruct f; reflexivity.
    - destruct f as [|f]; [cbn in Hf; lia|]. cbn [chunks_exact_fuel map concat].
      rewrite app_length, Hw. change (Nat.leb LENGTH (32 + length (concat (map wval ws)))) with true. cbv iota.
      rewrite firstn_app, skipn_app, Hw. change (LENGTH - 32)%nat with 0%nat. change LENGTH with 32%nat. rewrite <- Hw at 1. rewrite firstn_all.
      rewrite (skipn_all2 (wval w)) by lia. cbn [firstn skipn app]. rewrite app_nil_r. f_equal. apply IH. cbn in Hf. lia. }
  rewrite E. now apply received_labels.
  clear E. induction Fl as [|w ws Hw Fl IH]; cbn [length map concat]; [lia|]. inversion F; subst. rewrite app_length, Hw. cbn [Nat.mul]. specialize (IH H2). lia.
Qed.

(** ** Runs of the first version *)
Section V1.
Variable sha : bytes -> bytes.
Hypothesis Hsha : hash32 sha.
Variables p p' : profile.
Variable g : garbling.
Hypothesis Hg : garbling_ok g.
Variable l : nat.
Hypothesis Hgl : good_length l.
Variables (passwords : list bytes) (pw password : bytes) (t : N).
Hypothesis Fp : Forall (fun q : bytes => length q = l) passwords.
Hypothesis Lpass : length password = l.
Hypothesis Ht : t <= 65534.
Variable index : nat.
Hypothesis Hi : nth_error passwords index = Some pw.
Let n := (l * 8)%nat.
Let c := circ1 n t.
Let o := (4 * n + 1)%nat.

Lemma v1_first : exists p0, idx passwords 0 = Ok p0 /\ length p0 = l.
Proof.
  assert (H : (index < length passwords)%nat) by (apply nth_error_Some; congruence).
  exists (nth 0 passwords []). split; [apply idx_lt; lia|]. rewrite Forall_forall in Fp. apply Fp. apply nth_In. lia.
Qed.
Lemma v1_pw : length pw = l.
Proof. rewrite Forall_forall in Fp. apply Fp. eapply nth_error_In; eauto. Qed.
Lemma v1_n : (0 < n)%nat /\ (n mod 8 = 0)%nat /\ usize_ok n /\ N.of_nat n <= 65534 /\ (1 <= n)%nat /\ supported (cd1 n).
Proof.
  destruct (good_supported _ Hgl) as (Hs & Hn & H1). fold n in Hs, Hn, H1.
  assert (H8 : (n mod 8 = 0)%nat) by (apply Nat.mod_mul; lia).
  assert (Hu : usize_ok n) by (apply usize_small; apply N.le_lt_trans with 65534; [lia|reflexivity]).
  repeat split; auto.
Qed.

Lemma v1_common : exists gc ek dk zs l0 l1, half_key sha p (g_rd g) (g_ri g) c gc ek dk zs l0 l1 /\
  all_binary zs /\ length zs = (n * 2)%nat /\ first_output c = o /\
  (forall a b, length a = l -> length b = l -> forall gc2, same_garbled gc2 gc ->
     evaluate sha p' gc2 (zipWith pick (seg zs n n) (u8_vec_to_bool_vec b) ++ zipWith pick (seg zs 0 n) (u8_vec_to_bool_vec a)) =
     Ok [if N.of_nat (distance a b) <=? t then l1 else l0]) /\
  (forall p2 gc2 w, same_garbled gc2 gc -> evaluator_half_key sha p2 gc2 [w] = Ok (sha (dec_string o 1 w))).
Proof.
  destruct v1_n as (_ & _ & _ & Hn & H1 & Hs).
  destruct (circ1_half sha p g n t Hsha Hg Hn Ht H1 Hs) as (gc & ek & dk & zs & l0 & l1 & H). fold c in H.
  exists gc, ek, dk, zs, l0, l1. split; [exact H|].
  pose proof (zs_binary _ _ _ _ _ _ _ _ _ _ H) as Hz.
  pose proof (hk_length _ _ _ _ _ _ _ _ _ _ _ H) as Lz. cbn [c circ1 num_inputs] in Lz.
  assert (Eo : first_output c = o) by (unfold first_output, o; cbn [c circ1 num_wires num_outputs]; lia).
  do 3 (split; [assumption|]). split.
  - intros a b La Lb gc2 Same.
    assert (Hbits : forall v, length v = l -> length (u8_vec_to_bool_vec v) = n) by (intros v Lv; rewrite bits_length8, Lv; reflexivity).
    apply (evaluate_swap sha p' gc2 n t).
    + destruct Same as (Ec & _). rewrite Ec. exact (hk_circuit _ _ _ _ _ _ _ _ _ _ _ H).
    + rewrite pick_length, seg_length; rewrite ?seg_length, ?Hbits; auto; lia.
    + rewrite pick_length, seg_length; rewrite ?seg_length, ?Hbits; auto; lia.
    + apply picked_labels, seg_binary, Hz.
    + apply picked_labels, seg_binary, Hz.
    + rewrite <- zipWith_app by (rewrite seg_length, Hbits; auto; lia).
      replace (seg zs 0 n ++ seg zs n n) with zs.
      2: { unfold seg. cbn [skipn]. rewrite (firstn_all2 (skipn n zs)) by (rewrite skipn_length; lia). symmetry. apply firstn_skipn. }
      rewrite (hk_evaluate _ _ _ _ _ _ _ _ _ _ _ H); [| |exact Same].
      2: { rewrite !app_length, !Hbits by auto. cbn [c circ1 num_inputs]. lia. }
      assert (Ev : circuit_outputs c (bit_values (u8_vec_to_bool_vec a ++ u8_vec_to_bool_vec b)) = [if N.of_nat (distance a b) <=? t then 1 else 0]).
      { unfold bit_values. rewrite map_app. fold (bit_values (u8_vec_to_bool_vec a)). fold (bit_values (u8_vec_to_bool_vec b)).
        unfold c. rewrite circ1_outputs by (first [assumption|apply Hbits; assumption]). rewrite hamming_bits by congruence. reflexivity. }
      rewrite Ev. cbn [nth]. destruct (N.of_nat (distance a b) <=? t); reflexivity.
  - intros p2 gc2 w Same.
    assert (Hnw : usize_ok (num_wires c)) by (apply usize_small; cbn [c circ1 num_wires]; apply N.le_lt_trans with 300000; [lia|reflexivity]).
    assert (Hnw1 : (1 <= num_wires c)%nat) by (cbn [c circ1 num_wires]; lia).
    rewrite (evaluator_half_key_ok _ _ _ _ _ _ _ _ _ _ H p2 gc2 _ Same eq_refl Hnw1 Hnw). now rewrite Eo.
Qed.
Lemma v1_labels gc ek dk zs l0 l1 : half_key sha p (g_rd g) (g_ri g) c gc ek dk zs l0 l1 -> first_output c = o -> labels_of sha p g c o l0 l1.
Proof.
  intros H Eo. destruct (hk_genuine _ _ _ _ _ _ _ _ _ _ _ H) as (s & Er & G0 & G1). rewrite Eo in *.
  exists ek, s. pose proof (hk_differ _ _ _ _ _ _ _ _ _ _ _ H). auto.
Qed.

(** First half: the server garbles. *)
Lemma v1_server_garbles otS otR dom manyS manyR d :
  ot_correct extension_ok otS otR -> many_correct dom manyS manyR -> dom d ->
  (d <= 31)%nat -> length passwords = (2 ^ d)%nat ->
  exists l0 l1, labels_of sha p g c o l0 l1 /\
  runs (garbler_server_v1 sha p g otS manyS passwords t)
       (evaluator_client_v1 sha p' otR manyR password (N.of_nat (2 ^ d)) (N.of_nat index))
    (Ok (sha (dec_string o 1 l1)))
    (Ok (sha (dec_string o 1 (if N.of_nat (distance password pw) <=? t then l1 else l0)))).
Proof.
  intros Hot Hm Hd Hd31 Lp.
  destruct v1_common as (gc & ek & dk & zs & l0 & l1 & H & Hz & Lz & Eo & Hev & Hek).
  exists l0, l1. split; [eapply v1_labels; eauto|].
  destruct v1_n as (Hn0 & Hn8 & Hnu & Hn & _ & _). destruct v1_first as (p0 & E0 & L0).
  assert (Hbits : forall v, length v = l -> length (u8_vec_to_bool_vec v) = n) by (intros v Lv; rewrite bits_length8, Lv; reflexivity).
  assert (Hpow : 2 ^ N.of_nat d = N.of_nat (2 ^ d)) by (now rewrite Nat2N.inj_pow).
  assert (Hlog : forall q w, 32 <= w <= 64 -> log2_ q w (N.of_nat (2 ^ d)) = Ok (N.of_nat d)).
  { intros q w Hw. rewrite <- Hpow. apply log2_pow2; [apply N.le_lt_trans with 64; [lia|reflexivity]|lia]. }
  unfold garbler_server_v1, evaluator_client_v1. rewrite Lpass. fold n.
  eapply runs_lift_l; [exact E0|]. cbv beta. rewrite L0. fold n.
  eapply runs_lift_l; [apply build_circuit_eq; assumption|]. fold c.
  eapply runs_lift_l; [exact (garble_zipped_ok _ _ _ _ _ _ _ _ _ _ H)|]. cbv beta iota.
  apply runs_send_recv.
  destruct (sent_garbled _ _ _ _ _ _ _ _ _ _ Hg H) as (gc2 & Egc & Same).
  eapply runs_lift_r; [exact Egc|].
  eapply runs_lift_l; [apply label_pairs_ok; lia|].
  eapply runs_lift_r. { unfold n. rewrite <- Lpass. apply choice_bits_ok. }
  destruct (Hot (label_messages (seg zs 0 n)) (u8_vec_to_bool_vec password)) as (out1 & R1 & Sel1).
  { unfold label_messages. rewrite map_length, seg_length, Hbits; auto; lia. }
  { apply seg_extension; auto; lia. }
  apply selection_labels in Sel1; [|rewrite seg_length, Hbits; auto; lia].
  eapply runs_bind; [exact R1|].
  eapply runs_lift_l. { rewrite Lp. apply Hlog. lia. }
  eapply runs_lift_r. { apply Hlog. lia. }
  eapply runs_lift_l. { unfold slice_from. rewrite (proj2 (Nat.leb_le _ _)) by lia. reflexivity. }
  set (enc := fun v => concat (map wval (zipWith pick (seg zs n n) (u8_vec_to_bool_vec v)))).
  eapply runs_lift_l with (a := map enc passwords).
  { apply mapM_Ok. intros v Hv. rewrite Forall_forall in Fp. specialize (Fp v Hv).
    pose proof (flat_labels_ok zs n v) as Q. cbv zeta in Q. rewrite Fp in Q. fold n in Q. apply Q. lia. }
  rewrite Nat2N.id.
  eapply runs_bind.
  { apply (Hm d (map enc passwords) (N.of_nat index) (enc pw)); auto.
    - now rewrite map_length.
    - exists (n * 32)%nat. split; [lia|]. apply Forall_map. eapply Forall_impl; [|exact Fp]. intros v Hv. cbn beta in *. unfold enc.
      assert (Lw : length (zipWith pick (seg zs n n) (u8_vec_to_bool_vec v)) = n) by (rewrite pick_length, seg_length; rewrite ?seg_length, ?Hbits; auto; lia).
      assert (Fw : Forall (WF 2) (zipWith pick (seg zs n n) (u8_vec_to_bool_vec v))) by (apply picked_labels, seg_binary, Hz).
      revert Lw Fw. generalize (zipWith pick (seg zs n n) (u8_vec_to_bool_vec v)). clear. intros ws <- Fw. induction Fw as [|w ws (_ & Hw & _) Fw IH]; cbn [map concat length]; auto. etransitivity; [apply app_length|]. etransitivity; [exact (f_equal2 Nat.add Hw IH)|]. lia.
    - rewrite Nat2N.id. now apply map_nth_error. }
  eapply runs_lift_r. { rewrite Sel1. apply received_labels. apply picked_labels, seg_binary, Hz. }
  eapply runs_lift_r. { unfold enc. apply wires_from_bytes_ok. apply picked_labels, seg_binary, Hz. }
  eapply runs_lift_r. { apply Hev; [exact Lpass|exact v1_pw|exact Same]. }
  rewrite (garbler_half_key_ok _ _ _ _ _ _ _ _ _ _ H), Eo. rewrite Hek by exact Same. apply runs_done.
Qed.

(** Second half: the client garbles.  [seen] is what the server received from the OT: the random keys
    with the row of labels inserted at the client's index. *)
Lemma v1_client_garbles otS otR rand count :
  ot_correct extension_ok otS otR -> keys_ok rand -> length passwords = (count + 2)%nat -> N.of_nat (count + 2) < 2 ^ 32 ->
  let rs := map (fun r => map (rand r) (seq 0 n)) (seq 0 count) in
  let rows := rs ++ [total n rs] in
  exists l0 l1 labels, labels_of sha p g c o l0 l1 /\ shape n labels /\ Forall (shape n) rs /\
  runs (garbler_client_v1 sha p rand g otS password (N.of_nat index) (N.of_nat (count + 2)) t)
       (evaluator_server_v1_seen sha p' otR passwords)
    (Ok (sha (dec_string o 1 l1)))
    (Ok (sha (dec_string o 1 (if N.of_nat (distance password pw) <=? t then l1 else l0)),
         concat (firstn index rows ++ labels :: skipn index rows))).
Proof.
  intros Hot Hk Lp Hc rs rows.
  destruct v1_common as (gc & ek & dk & zs & l0 & l1 & H & Hz & Lz & Eo & Hev & Hek).
  destruct v1_n as (Hn0 & Hn8 & Hnu & Hn & _ & _). destruct v1_first as (p0 & E0 & L0).
  assert (Hbits : forall v, length v = l -> length (u8_vec_to_bool_vec v) = n) by (intros v Lv; rewrite bits_length8, Lv; reflexivity).
  set (w2 := zipWith pick (seg zs n n) (u8_vec_to_bool_vec pw)).
  assert (F2 : Forall (WF 2) w2) by (apply picked_labels, seg_binary, Hz).
  assert (L2 : length w2 = n) by (unfold w2; rewrite pick_length, seg_length; rewrite ?Hbits, ?seg_length; auto using v1_pw; lia).
  set (w1 := zipWith pick (seg zs 0 n) (u8_vec_to_bool_vec password)).
  assert (F1 : Forall (WF 2) w1) by (apply picked_labels, seg_binary, Hz).
  assert (L1 : length w1 = n) by (unfold w1; rewrite pick_length, seg_length; rewrite ?Hbits, ?seg_length; auto; lia).
  destruct (random_rows_ok p rand count n Hk Hc) as [Er Frs]. fold rs in Er, Frs.
  assert (Sw : shape n (map wval w2)).
  { split; [now rewrite map_length|]. apply Forall_map. eapply Forall_impl; [|exact F2]. intros w (_ & Q & _). exact Q. }
  exists l0, l1, (map wval w2). split; [eapply v1_labels; eauto|]. split; [exact Sw|]. split; [exact Frs|].
  assert (Hilt : (index < count + 2)%nat) by (rewrite <- Lp; apply nth_error_Some; congruence).
  assert (Lrs : length rs = count) by (unfold rs; now rewrite map_length, seq_length).
  assert (Lrows : length rows = (count + 1)%nat) by (unfold rows; rewrite app_length, Lrs; reflexivity).
  assert (Frows : Forall (shape n) rows) by (apply Forall_app; split; [exact Frs|constructor; [apply (total_ok n rs Frs)|constructor]]).
  set (R := firstn index rows ++ map wval w2 :: skipn index rows).
  assert (FR : Forall (shape n) R).
  { unfold R. rewrite <- (firstn_skipn index rows) in Frows. apply Forall_app in Frows as [Fa Fb]. apply Forall_app; auto. }
  assert (LR : length R = (count + 2)%nat) by (unfold R; rewrite app_length; cbn [length]; rewrite firstn_length, skipn_length; lia).
  unfold garbler_client_v1, evaluator_server_v1_seen. rewrite Lpass. fold n.
  eapply runs_lift_r; [exact E0|]. cbv beta. rewrite L0. fold n.
  eapply runs_lift_l; [apply build_circuit_eq; assumption|]. fold c.
  eapply runs_lift_l; [exact (garble_zipped_ok _ _ _ _ _ _ _ _ _ _ H)|]. cbv beta iota.
  eapply runs_lift_l; [apply label_pairs_ok; lia|].
  eapply runs_lift_l with (a := w1). { pose proof (seg_pick_ok zs 0 password) as Q. cbv zeta in Q. rewrite Lpass in Q. fold n in Q. cbn [Nat.add] in Q. apply Q. lia. }
  apply runs_send_recv.
  destruct (sent_garbled _ _ _ _ _ _ _ _ _ _ Hg H) as (gc2 & Egc & Same).
  eapply runs_lift_r; [exact Egc|].
  apply runs_send_recv.
  eapply runs_lift_r. { apply sent_wires; [exact F1|rewrite L1; exact Hnu]. }
  eapply runs_lift_l; [exact Er|]. fold rows.
  eapply runs_lift_l. { apply hidden_keys_ok; [exact Hilt|]. rewrite Lrows. lia. }
  eapply runs_lift_r with (a := map u8_vec_to_bool_vec passwords).
  { apply mapM_Ok. intros v Hv. rewrite Forall_forall in Fp. unfold n. rewrite <- (Fp v Hv). apply choice_bits_ok. }
  set (M := map dup (firstn index rows) ++ label_messages (seg zs n n) :: map dup (skipn index rows)).
  destruct (nth_error_split _ _ Hi) as (P1 & P2 & EP & LP1).
  assert (LP2 : length P2 = (count + 1 - index)%nat). { rewrite EP, app_length in Lp. cbn [length] in Lp. lia. }
  assert (FC : Forall (fun cs : list bool => length cs = n) (map u8_vec_to_bool_vec passwords)).
  { apply Forall_map. eapply Forall_impl; [|exact Fp]. intros v Hv. apply Hbits. exact Hv. }
  assert (FMl : Forall (fun ms : list (bytes * bytes) => length ms = n) M).
  { unfold M. rewrite <- (firstn_skipn index rows) in Frows. apply Forall_app in Frows as [Fa Fb]. apply Forall_app. split; [|constructor].
    - apply Forall_map. eapply Forall_impl; [|exact Fa]. intros r [Q _]. unfold dup. now rewrite map_length.
    - unfold label_messages. rewrite map_length. apply seg_length. lia.
    - apply Forall_map. eapply Forall_impl; [|exact Fb]. intros r [Q _]. unfold dup. now rewrite map_length. }
  assert (LM : length M = (count + 2)%nat) by (unfold M; rewrite app_length; cbn [length]; rewrite !map_length, firstn_length, skipn_length; lia).
  assert (Lcat : forall (A : Type) (L : list (list A)), Forall (fun x => length x = n) L -> length (concat L) = (length L * n)%nat).
  { intros A L F. clear - F. induction F; cbn; auto. rewrite app_length. lia. }
  assert (LcM : length (concat M) = ((count + 2) * n)%nat) by (rewrite Lcat, LM; auto).
  destruct (Hot (concat M) (concat (map u8_vec_to_bool_vec passwords))) as (out & Rn & Sel).
  { rewrite LcM, Lcat by exact FC. rewrite map_length. congruence. }
  { split; [|split; [|split]].
    - unfold usize_ok. rewrite LcM. apply N.le_lt_trans with (2 ^ 32 * 65534); [nia|reflexivity].
    - rewrite LcM. nia.
    - rewrite LcM. unfold n. rewrite Nat.mul_assoc. apply Nat.mod_mul. lia.
    - exists 32%nat. split; [lia|]. split; [reflexivity|]. apply Forall_concat.
      assert (Fd : forall L, Forall (shape n) L -> Forall (Forall (fun m : bytes * bytes => length (fst m) = 32%nat /\ length (snd m) = 32%nat)) (map dup L)).
      { intros L FL. apply Forall_map. eapply Forall_impl; [|exact FL]. intros r [_ Q]. unfold dup. apply Forall_map. eapply Forall_impl; [|exact Q]. cbn [fst snd]. auto. }
      rewrite <- (firstn_skipn index rows) in Frows. apply Forall_app in Frows as [Fa Fb]. unfold M. apply Forall_app. split; [|constructor]; auto.
      unfold label_messages. apply Forall_map. eapply Forall_impl; [|apply (seg_binary zs n n Hz)]. intros w [(_ & Q0 & _) (_ & Q1 & _)]. cbn [fst snd]. auto. }
  apply selection_unique in Sel. 2: { rewrite LcM, Lcat by exact FC. rewrite map_length. congruence. }
  assert (Eout : out = concat R).
  { rewrite Sel, zipWith_concat.
    2: { clear - FC FMl LM Lp. assert (Q : length M = length (map u8_vec_to_bool_vec passwords)) by (rewrite map_length; congruence).
         revert FC Q. generalize (map u8_vec_to_bool_vec passwords). clear LM. induction FMl as [|x L Hx F IH]; intros [|y cs] FC Q; try discriminate; constructor; inversion FC; subst; auto; congruence. }
    f_equal. rewrite EP, map_app. cbn [map]. unfold M, R. rewrite EP in FC. rewrite map_app in FC. apply Forall_app in FC as [FC1 FC2]. cbn [map] in FC2. apply Forall_cons_iff in FC2 as [_ FC2].
    rewrite <- (firstn_skipn index rows) in Frows. apply Forall_app in Frows as [Fa Fb].
    rewrite zipWith_app by (rewrite !map_length, firstn_length; lia). cbn [zipWith].
    rewrite (choose_dups _ _ n) by (auto; rewrite map_length, firstn_length; lia).
    rewrite (choose_dups _ _ n) by (auto; rewrite map_length, skipn_length; lia).
    rewrite choose_labels by (rewrite seg_length, Hbits; auto using v1_pw; lia). reflexivity. }
  rewrite Eout in Rn.
  eapply runs_bind; [exact Rn|].
  eapply runs_lift_r. { rewrite Lp, <- LR. apply xor_all_ok. exact FR. }
  unfold R at 1. pose proof (total_inserted n rs (map wval w2) index Frs Sw) as Et. cbv zeta in Et. fold rows in Et.
  eapply runs_lift_r with (a := w2).
  { unfold R. rewrite Et. rewrite mapM_map. rewrite (mapM_Ok _ (fun w => w)); [now rewrite map_id|].
    intros w Hw. apply from_bytes_binary. rewrite Forall_forall in F2. auto. }
  eapply runs_lift_r. { apply Hev; [exact Lpass|exact v1_pw|exact Same]. }
  eapply runs_lift_r. { apply Hek. exact Same. }
  rewrite (garbler_half_key_ok _ _ _ _ _ _ _ _ _ _ H), Eo. apply runs_ret.
Qed.
End V1.

(** ** The server's guess *)
Lemma xor_strings_eq a b : xor_strings a b = xor a b.
Proof. revert b. induction a as [|x a IH]; intros [|y b]; auto. unfold xor_strings, xor in *. cbn [combine map zipWith fst snd]. now rewrite IH. Qed.
Lemma xor_row_eq a b : xor_row a b = rx a b.
Proof.
  revert b. induction a as [|x a IH]; intros [|y b]; auto. unfold xor_row, rx in *. cbn [combine map zipWith fst snd]. now rewrite IH, xor_strings_eq.
Qed.
Lemma xor_rows_eq n R : Forall (shape n) R -> xor_rows (length R) n (concat R) = total n R.
Proof.
  intros F. assert (Fl : Forall (fun r : list bytes => length r = n) R) by (eapply Forall_impl; [|exact F]; intros r [H _]; exact H).
  assert (E : xor_rows (length R) n (concat R) = fold_right rx (zeros n) R).
  { unfold xor_rows. change (repeat (repeat 0 32) n) with (zeros n).
    assert (Q : forall is, (forall i, In i is -> (i < length R)%nat) ->
      fold_right (fun i acc => xor_row (row_of n i (concat R)) acc) (zeros n) is = fold_right rx (zeros n) (map (fun i => nth i R []) is)).
    { induction is as [|i is IH]; intros H; cbn [fold_right map]; auto. rewrite IH by (intros; apply H; now right).
      rewrite xor_row_eq. destruct (row_concat n R Fl i) as [-> |Q]; auto. specialize (H i (or_introl eq_refl)). lia. }
    rewrite Q by (intros i Hi; apply in_seq in Hi; lia). f_equal. rewrite (map_nth_seq (fun x : list bytes => x)). apply map_id. }
  rewrite E. destruct (total_ok n R F) as [St Et].
  assert (G : forall L, Forall (shape n) L -> shape n (fold_right rx (zeros n) L) /\
    forall j k, (j < n)%nat -> (k < 32)%nat -> cell j k (fold_right rx (zeros n) L) = xors (map (cell j k) L)).
  { clear. intros L F. induction F as [|r L Hr F [IH1 IH2]]; cbn [fold_right map xors]. { split; [apply shape_zeros|]. intros. apply cell_zeros. }
    split; [auto using shape_rx|]. intros j k Hj Hk. rewrite (cell_rx n) by auto. now rewrite IH2. }
  destruct (G R F) as [Sg Eg]. apply (shape_ext n); auto. intros j k Hj Hk. now rewrite Eg, Et.
Qed.
Lemma guess_ok n rs labels index : Forall (shape n) rs -> shape n labels -> (index <= S (length rs))%nat ->
  let rows := rs ++ [total n rs] in
  let seen := concat (firstn index rows ++ labels :: skipn index rows) in
  row_of n index seen = labels /\
  (guess (length rs + 2) n seen = Some index \/ In labels rows).
Proof.
  intros F Hl Hi rows seen. set (R := firstn index rows ++ labels :: skipn index rows) in *.
  assert (Lr : length rows = S (length rs)) by (unfold rows; rewrite app_length; cbn; lia).
  assert (LR : length R = (length rs + 2)%nat) by (unfold R; rewrite app_length; cbn [length]; rewrite firstn_length, skipn_length; lia).
  assert (Fr : Forall (shape n) rows) by (apply Forall_app; split; [exact F|constructor; [apply (total_ok n rs F)|constructor]]).
  assert (FR : Forall (shape n) R).
  { unfold R. rewrite <- (firstn_skipn index rows) in Fr. apply Forall_app in Fr as [Fa Fb]. apply Forall_app; auto. }
  assert (Fl : Forall (fun r : list bytes => length r = n) R) by (eapply Forall_impl; [|exact FR]; intros r [H _]; exact H).
  assert (Row : forall i, (i < length R)%nat -> row_of n i seen = nth i R []).
  { intros i H. destruct (row_concat n R Fl i) as [E|E]; [exact E|lia]. }
  assert (L1 : length (firstn index rows) = index) by (rewrite firstn_length; lia).
  assert (Ni : nth index R [] = labels). { unfold R. rewrite app_nth2 by lia. now rewrite L1, Nat.sub_diag. }
  split. { rewrite Row by lia. exact Ni. }
  assert (Tot : xor_rows (length rs + 2) n seen = labels).
  { unfold seen. rewrite <- LR, xor_rows_eq by exact FR. apply (total_inserted n rs labels index F Hl). }
  unfold guess. rewrite Tot.
  assert (Sr : forall a b, same_row a b = true <-> a = b).
  { intros a b. unfold same_row. match goal with |- context [if ?q then _ else _] => destruct q end; split; intros; auto; discriminate. }
  destruct (find _ _) as [i|] eqn:Ef.
  - apply find_some in Ef as [Hin Hs]. apply in_seq in Hin. apply Sr in Hs. rewrite Row in Hs by lia.
    destruct (Nat.eq_dec i index) as [-> |Hne]; [now left|]. right. unfold R in Hs.
    destruct (Nat.lt_ge_cases i index) as [Hlt|Hge].
    + rewrite app_nth1 in Hs by lia. rewrite nth_firstn in Hs by lia. rewrite <- Hs. apply nth_In. lia.
    + rewrite app_nth2 in Hs by lia. rewrite L1 in Hs. destruct (i - index)%nat as [|k] eqn:Ek; [lia|]. cbn [nth] in Hs. rewrite nth_skipn in Hs.
      rewrite <- Hs. apply nth_In. lia.
  - exfalso. eapply find_none in Ef; [|apply (in_seq (length rs + 2) 0 index); lia]. cbv beta in Ef.
    rewrite Row, Ni in Ef by lia. rewrite (proj2 (Sr labels labels) eq_refl) in Ef. discriminate.
Qed.

(** ** Runs of the second version *)
Section V2.
Variable sha : bytes -> bytes.
Hypothesis Hsha : hash32 sha.
Variables p p' : profile.
Variable g : garbling.
Hypothesis Hg : garbling_ok g.
Variable l : nat.
Hypothesis Hgl : good_length l.
Variables (passwords : list bytes) (mask pw password : bytes) (t : N).
Hypothesis Lm : length mask = l.
Hypothesis Lpass : length password = l.
Hypothesis Ht : t <= 65534.
Let n := (l * 8)%nat.
Let c := circ2 n t.
Let o := (5 * n + 1)%nat.
Let masked := xor mask pw.
Variables (dom : nat -> Prop) (manyS : nat -> list bytes -> proc unit) (manyR : nat -> N -> proc bytes) (d : nat) (index : N).
Hypothesis Hm : many_correct dom manyS manyR.
Hypothesis Hd : dom d.
Hypothesis Hlist : password_list d l passwords.
Hypothesis Hi : nth_error passwords (N.to_nat index) = Some pw.

Lemma v2_p0 : exists p0, nth_error passwords 0 = Some p0 /\ length p0 = l.
Proof.
  destruct Hlist as (_ & Lp & F). destruct passwords as [|p0 ps]. { cbn in Lp. pose proof (Nat.pow_nonzero 2 d). lia. }
  exists p0. split; [reflexivity|]. now inversion F.
Qed.
Lemma v2_pw : length pw = l.
Proof. destruct Hlist as (_ & _ & F). rewrite Forall_forall in F. apply F. eapply nth_error_In; eauto. Qed.

Lemma v2_server_garbles ot1S ot1R ot2S ot2R :
  ot_correct extension_ok ot1S ot1R -> ot_correct extension_ok ot2S ot2R ->
  exists l0 l1, labels_of sha p g c o l0 l1 /\
  runs (garbler_server_v2 sha p mask g ot1S manyS ot2S passwords t)
       (evaluator_client_v2 sha p' ot1R manyR ot2R password (N.of_nat (2 ^ d)) index)
    (Ok (sha (dec_string o 1 l1)))
    (Ok (sha (dec_string o 1 (if N.of_nat (distance password pw) <=? t then l1 else l0)))).
Proof.
  intros H1 H2. destruct (v3_server_garbles sha Hsha p p' g Hg l Hgl passwords mask pw password t v2_p0 Lm v2_pw Lpass Ht
    ot1S ot1R ot2S ot2R dom manyS manyR d index H1 H2 Hm Hd Hlist Hi) as (l0 & l1 & Hl & R).
  exists l0, l1. split; [exact Hl|]. unfold garbler_server_v2, evaluator_client_v2. eapply runs_bind; [exact R|]. apply runs_ret.
Qed.

Lemma v2_client_garbles otS otR : ot_correct extension_ok otS otR ->
  exists l0 l1, labels_of sha p g c o l0 l1 /\
  runs (garbler_client_v2 sha p g otS manyR password index (N.of_nat (2 ^ d)) t)
       (evaluator_server_v2 sha p' mask otR manyS passwords)
    (Ok (sha (dec_string o 1 l1)))
    (Ok (sha (dec_string o 1 (if N.of_nat (distance pw password) <=? t then l1 else l0)))).
Proof.
  intros Hot.
  destruct (v3_common sha Hsha p p' g Hg l Hgl mask pw password t Lm v2_pw Lpass Ht) as (gc & ek & dk & zs & l0 & l1 & H & Hz & Lz & Eo & Hev & Hek).
  fold n in H, Lz, Eo, Hev, Hek. fold c in H, Eo. fold o in Eo, Hek.
  exists l0, l1. split. { eapply common_labels; eauto. }
  destruct (n_facts l Hgl mask pw password t Lm v2_pw Lpass Ht) as (Hn0 & Hn8 & Hnu & Hn). fold n in Hn0, Hn8, Hnu, Hn.
  destruct (first_password l passwords v2_p0) as (p0 & E0 & L0). pose proof v2_pw as Lpw.
  assert (Lmk : length masked = l) by (unfold masked; rewrite xor_length; congruence).
  assert (Hbits : forall v, length v = l -> length (u8_vec_to_bool_vec v) = n) by (intros v Lv; rewrite bits_length8, Lv; reflexivity).
  destruct Hlist as (Hd31 & Lp & Fp).
  assert (Hpow : 2 ^ N.of_nat d = N.of_nat (2 ^ d)) by (now rewrite Nat2N.inj_pow).
  assert (Hlog : forall q w, 32 <= w <= 64 -> log2_ q w (N.of_nat (2 ^ d)) = Ok (N.of_nat d)).
  { intros q w Hw. rewrite <- Hpow. apply log2_pow2; [apply N.le_lt_trans with 64; [lia|reflexivity]|lia]. }
  set (w1 := zipWith pick (seg zs 0 n) (u8_vec_to_bool_vec masked)).
  set (w2 := zipWith pick (seg zs n n) (u8_vec_to_bool_vec mask)).
  set (w3 := zipWith pick (seg zs (n * 2) n) (u8_vec_to_bool_vec password)).
  assert (F1 : Forall (WF 2) w1) by (apply picked_labels, seg_binary, Hz).
  assert (F2 : Forall (WF 2) w2) by (apply picked_labels, seg_binary, Hz).
  assert (F3 : Forall (WF 2) w3) by (apply picked_labels, seg_binary, Hz).
  assert (L1 : length w1 = n) by (unfold w1; rewrite pick_length, seg_length; rewrite ?Hbits, ?seg_length; auto; lia).
  assert (L2 : length w2 = n) by (unfold w2; rewrite pick_length, seg_length; rewrite ?Hbits, ?seg_length; auto; lia).
  assert (L3 : length w3 = n) by (unfold w3; rewrite pick_length, seg_length; rewrite ?Hbits, ?seg_length; auto; lia).
  unfold garbler_client_v2, evaluator_server_v2. rewrite Lpass. fold n.
  eapply runs_lift_r; [exact E0|]. cbv beta. rewrite L0. fold n.
  eapply runs_lift_l; [apply build_circuit_v2_eq; assumption|]. fold c.
  eapply runs_lift_l; [exact (garble_zipped_ok _ _ _ _ _ _ _ _ _ _ H)|]. cbv beta iota.
  eapply runs_lift_l with (a := w3). { pose proof (seg_pick_ok zs (n * 2) password) as Q. cbv zeta in Q. rewrite Lpass in Q. fold n in Q. apply Q. lia. }
  apply runs_send_recv.
  destruct (sent_garbled _ _ _ _ _ _ _ _ _ _ Hg H) as (gc2 & Egc & Same).
  eapply runs_lift_r; [exact Egc|].
  apply runs_send_recv.
  eapply runs_lift_r. { apply sent_wires; [exact F3|rewrite L3; exact Hnu]. }
  eapply runs_lift_l; [apply label_pairs_ok; lia|].
  eapply runs_lift_r. { unfold n. rewrite <- Lm. apply choice_bits_ok. }
  eapply runs_lift_r. { apply mask_passwords_ok; auto. }
  destruct (Hot (label_messages (seg zs n n)) (u8_vec_to_bool_vec mask)) as (out & R & Sel).
  { unfold label_messages. rewrite map_length, seg_length, Hbits; auto; lia. }
  { apply seg_extension; auto; lia. }
  apply selection_labels in Sel; [|rewrite seg_length, Hbits; auto; lia].
  eapply runs_bind; [exact R|].
  eapply runs_lift_l. { apply Hlog. lia. }
  eapply runs_lift_r. { rewrite Lp. apply Hlog. lia. }
  rewrite Nat2N.id.
  eapply runs_bind.
  { apply runs_flip. apply (Hm d (map (xor mask) passwords) index masked); auto.
    - now rewrite map_length.
    - exists l. split; [destruct Hgl; lia|]. apply Forall_map. eapply Forall_impl; [|exact Fp]. intros y Hy. cbn beta. rewrite xor_length; congruence.
    - unfold masked. now apply map_nth_error. }
  eapply runs_lift_l. { apply (idx_lt _ 0 (wire_empty, wire_empty)). lia. }
  eapply runs_lift_l. { unfold n. rewrite <- Lmk. apply encode_flat_ok; [|exact Hz]. rewrite Lmk. fold n. lia. }
  apply runs_send_recv. rewrite Lmk. fold n.
  fold w1.
  eapply runs_lift_r. { rewrite Sel. fold w2. apply (idx_lt _ 0 (wval wire_empty)). rewrite map_length. lia. }
  rewrite (map_nth wval).
  assert (L20 : length (wval (nth 0 w2 wire_empty)) = 32%nat). { destruct (nth_WF w2 0 F2) as (_ & Q & _); [lia|exact Q]. }
  rewrite L20.
  eapply runs_lift_r. { rewrite Sel. apply payload_ok_wires; auto. }
  eapply runs_lift_r. { apply bytes_ok_wires; auto. }
  eapply runs_lift_r. { apply Hev; [exact Lmk|exact Lm|exact Lpass|exact Same]. }
  unfold masked. rewrite dist3_server by congruence.
  rewrite (garbler_half_key_ok _ _ _ _ _ _ _ _ _ _ H), Eo. rewrite Hek by exact Same. apply runs_done.
Qed.
End V2.
