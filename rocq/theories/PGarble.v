(** Correctness of garbling. *)
From Coq Require Import List NArith Bool Arith Lia ZifyBool ZifyNat ZifyN.
From Verif Require Import Base PBase MUtil MWires SpecWires PWires MCircuit SpecCircuit MGarble.
Import ListNotations.
Open Scope N_scope.

(** ** Values *)
Lemma run_gates_length gs vals : length (run_gates gs vals) = (length vals + length gs)%nat.
Proof. revert vals; induction gs; simpl; intros; [lia|]. rewrite IHgs, app_length; simpl; lia. Qed.
Lemma run_gates_prefix gs vals i : (i < length vals)%nat -> nth i (run_gates gs vals) 0 = nth i vals 0.
Proof.
  revert vals; induction gs; simpl; intros; auto.
  rewrite IHgs by (rewrite app_length; simpl; lia). now rewrite app_nth1.
Qed.
Lemma run_gates_nth gs vals k g :
  nth_error gs k = Some g -> Forall (fun i => (i < length vals + k)%nat) (g_inputs g) ->
  nth (length vals + k) (run_gates gs vals) 0 =
  gate_value g (map (fun i => nth i (run_gates gs vals) 0) (g_inputs g)).
Proof.
  revert vals k; induction gs; simpl; intros vals k Hk Hi.
  - destruct k; discriminate.
  - destruct k; simpl in Hk.
    + inversion Hk; subst. rewrite Nat.add_0_r in *.
      rewrite run_gates_prefix by (rewrite app_length; simpl; lia).
      rewrite app_nth2, Nat.sub_diag by lia. simpl. f_equal.
      apply map_ext_in. intros i Hin. rewrite Forall_forall in Hi. specialize (Hi i Hin).
      rewrite run_gates_prefix by (rewrite app_length; simpl; lia). now rewrite app_nth1.
    + specialize (IHgs (vals ++ [gate_value a (map (fun i => nth i vals 0) (g_inputs a))]) k Hk).
      rewrite app_length in IHgs; simpl in IHgs.
      replace (length vals + S k)%nat with (length vals + 1 + k)%nat in * by lia. auto.
Qed.

Lemma gate_value_ext g a b : a = b -> gate_value g a = gate_value g b.
Proof. congruence. Qed.

(** ** Samples and offsets *)
Section Garbling.
Variable sha256 : bytes -> bytes.
Variable p : profile.
Variable rd : N -> bytes.
Variable ri : nat -> bytes.
Hypothesis Hsha : hash32 sha256.
Hypothesis Hrd : forall m, supported m -> valid_sample m (rd m).

Definition D (m : N) : wire := match wire_delta m (rd m) with Ok d => d | _ => wire_empty end.
Lemma D_ok m : supported m -> wire_delta m (rd m) = Ok (D m) /\ is_delta m (D m).
Proof. intros Hs. destruct (wire_delta_ok m (rd m) Hs (Hrd m Hs)) as (d & E & H). unfold D. rewrite E. auto. Qed.
Lemma D_WF m : supported m -> WF m (D m).
Proof. intros Hs. now destruct (D_ok m Hs) as [_ [? _]]. Qed.
Lemma D_delta m : supported m -> is_delta m (D m).
Proof. intros Hs. now destruct (D_ok m Hs). Qed.

Definition dl_good (dl : deltas) : Prop := forall m v, alookup N.eqb m dl = Some v -> v = D m.
Definition has (dl : deltas) (m : N) : Prop := alookup N.eqb m dl = Some (D m).

Lemma ensure_delta_ok dl m : supported m -> dl_good dl ->
  exists dl', ensure_delta rd dl m = Ok dl' /\ dl_good dl' /\ has dl' m /\ (forall m', has dl m' -> has dl' m').
Proof.
  intros Hs Hg. unfold ensure_delta. destruct (alookup N.eqb m dl) eqn:E.
  - exists dl. repeat split; auto. unfold has. rewrite E. f_equal. now apply Hg.
  - destruct (D_ok m Hs) as [-> _]. simpl. eexists; split; eauto.
    assert (Heq : forall x y, (x =? y) = true <-> x = y) by apply N.eqb_eq.
    assert (Hm : has (ainsert N.eqb m (D m) dl) m).
    { unfold has. apply alookup_ainsert_same. apply N.eqb_refl. }
    split; [|split]; auto.
    + intros m' v Hv. destruct (N.eq_dec m' m) as [->|Hn].
      * unfold has in Hm. congruence.
      * rewrite alookup_ainsert_other in Hv by auto. auto.
    + intros m' Hm'. unfold has in *. destruct (N.eq_dec m' m) as [->|Hn]; auto.
      rewrite alookup_ainsert_other by auto. auto.
Qed.

Lemma gate_typed_outdom c g : gate_typed c g -> supported (g_domain g) -> supported (output_domain g).
Proof.
  unfold gate_typed, output_domain. destruct (g_kind g); auto.
  - intros (i & l & _ & _ & H) _. destruct k; auto.
  - intros; unfold supported; lia.
Qed.

Lemma garble_deltas_ok c gs : (forall g, In g gs -> gate_typed c g /\ supported (g_domain g)) ->
  exists dl, garble_deltas rd gs = Ok dl /\ dl_good dl /\
    forall g, In g gs -> has dl (g_domain g) /\ has dl (output_domain g).
Proof.
  intros H. unfold garble_deltas.
  destruct (foldM_inv (fun dl g =>
    let* dl := ensure_delta rd dl (g_domain g) in
    match g_kind g with
    | GProj (PMap t) => ensure_delta rd dl t
    | GProj (PLess _) => ensure_delta rd dl 2
    | _ => Ok dl
    end) (fun k dl => dl_good dl /\ forall g, In g (firstn k gs) -> has dl (g_domain g) /\ has dl (output_domain g))
    gs []) as (dl & E & Hg & Hh).
  - split. { intros m v; simpl; discriminate. } simpl; tauto.
  - intros k g dl Hk [Hg Hh].
    pose proof (nth_error_In _ _ Hk) as Hin. destruct (H g Hin) as [Ht Hs].
    pose proof (gate_typed_outdom c g Ht Hs) as Ho.
    destruct (ensure_delta_ok dl (g_domain g) Hs Hg) as (dl1 & E1 & G1 & H1 & M1). rewrite E1. cbn [obind].
    assert (Hfn : firstn (S k) gs = firstn k gs ++ [g]).
    { now apply firstn_S. }
    assert (exists dl2, match g_kind g with
      | GProj (PMap t) => ensure_delta rd dl1 t
      | GProj (PLess _) => ensure_delta rd dl1 2
      | _ => Ok dl1 end = Ok dl2 /\ dl_good dl2 /\ has dl2 (output_domain g) /\ (forall m, has dl1 m -> has dl2 m))
      as (dl2 & E2 & G2 & H2 & M2).
    { revert Ho H1. unfold output_domain, gate_typed in *. destruct (g_kind g) as [|c0|k0|]; intros Ho H1.
      - exists dl1; auto.
      - exists dl1; auto.
      - destruct k0; apply ensure_delta_ok; auto.
      - exists dl1. repeat split; auto. destruct Ht as (a & b & l & _ & _ & _ & Ht). rewrite <- Ht. auto. }
    exists dl2. split; auto. split; auto. intros g' Hg'. rewrite Hfn in Hg'. apply in_app_or in Hg' as [Hg'|[<-|[]]].
    + destruct (Hh g' Hg'). auto.
    + auto.
  - rewrite firstn_all in Hh. eauto.
Qed.

Lemma garble_inputs_ok doms : Forall supported doms ->
  (forall i m, nth_error doms i = Some m -> valid_sample m (ri i)) ->
  exists ws, garble_inputs ri doms = Ok ws /\ length ws = length doms /\
    forall i, (i < length doms)%nat -> WF (nth i doms 0) (nth i ws wire_empty).
Proof.
  intros Hs Hv. unfold garble_inputs.
  assert (G : forall l off, Forall supported l -> (forall i m, nth_error l i = Some m -> valid_sample m (ri (off + i)%nat)) ->
    exists ws, mapM (fun im : nat * N => wire_new (snd im) (ri (fst im))) (combine (seq off (length l)) l) = Ok ws /\
      length ws = length l /\ forall i, (i < length l)%nat -> WF (nth i l 0) (nth i ws wire_empty)).
  { clear. induction l; simpl; intros off Hs Hv.
    - exists []. split; auto. split; auto. intros i Hi; inversion Hi.
    - inversion Hs; subst. pose proof (Hv 0%nat a eq_refl) as Hv0. rewrite Nat.add_0_r in Hv0.
      destruct (wire_new_ok a (ri off)) as (w & E & Hw); auto. rewrite E. cbn [obind].
      destruct (IHl (S off)) as (ws & E2 & L & Hws); auto.
      { intros i m Hi. specialize (Hv (S i) m Hi). replace (S off + i)%nat with (off + S i)%nat by lia. auto. }
      rewrite E2. cbn [obind]. eexists; split; eauto. simpl. split; auto.
      intros i Hi. destruct i; auto. apply Hws; lia. }
  apply G; auto.
Qed.

(** ** Hash-derived labels *)
Definition hw (out : nat) (w : wire) (n : N) : wire :=
  match from_array p (sha256 (usize_be out ++ wval w)) (dom_of n) with Ok r => r | _ => wire_empty end.
Lemma hash_wire_ok out w t n : supported n -> WF n t -> hash_wire sha256 p out w t = Ok (hw out w n) /\ WF n (hw out w n).
Proof.
  intros Hs (Hd & _). unfold hash_wire, hw. rewrite Hd.
  destruct (Hsha (usize_be out ++ wval w)) as [Hl Hb].
  destruct (from_array_WF p n _ Hs Hl Hb) as (r & E & Hr). rewrite E. auto.
Qed.
Definition hh (w : wire) (j : nat) : wire := mkWire Binary (sha256 (wval w ++ usize_be j)).
Lemma hash_half_ok w j : hash_half sha256 p w j = Ok (hh w j).
Proof. reflexivity. Qed.
Lemma sup2 : supported 2. Proof. unfold supported; lia. Qed.
Lemma hh_WF w j : WF 2 (hh w j).
Proof.
  destruct (Hsha (wval w ++ usize_be j)) as [Hl Hb].
  split; auto. split; auto. split; auto. split; auto.
Qed.

(** ** What a garbled gate looks like *)
Definition proj_val (k : projkind) (x : N) : N := match k with PMap m => x mod m | PLess t => if x <? t then 1 else 0 end.
Lemma project_ok k x : supported (proj_domain k) -> project k x = Ok (proj_val k x).
Proof.
  destruct k; simpl; auto. intros. unfold urem. destruct (N.eqb_spec m 0); auto.
  unfold supported in H; lia.
Qed.
Lemma proj_val_lt k x : supported (proj_domain k) -> proj_val k x < proj_domain k.
Proof.
  destruct k; simpl; intros. apply N.mod_lt; unfold supported in H; lia. destruct (x <? t); lia.
Qed.

Definition lab (m : N) (w : wire) (x : N) : wire := padd m w (pmul m (D m) x).
Lemma lab_WF m w x : supported m -> WF m w -> WF m (lab m w x).
Proof. intros. apply padd_WF; auto. apply pmul_WF; auto. now apply D_WF. Qed.

(** The output label for 0 is computed from the input label of colour 0. *)
Definition zero_of (out : nat) (m n : N) (k : projkind) (wi : wire) : wire :=
  pneg n (padd n (hw out (psub m wi (pmul m (D m) (color wi))) n) (pmul n (D n) (proj_val k (m - color wi)))).
Definition table_ok (out : nat) (m n : N) (k : projkind) (wi w : wire) (tbl : list wire) : Prop :=
  length tbl = N.to_nat m /\
  (forall x, x < m ->
    nth_error tbl (N.to_nat ((color wi + x) mod m)) =
    Some (padd n (padd n (hw out (lab m wi x) n) w) (pmul n (D n) (proj_val k x)))) /\
  w = zero_of out m n k wi.

Lemma mod_shift_inj m c x y : c < m -> x < m -> y < m -> (c + x) mod m = (c + y) mod m -> x = y.
Proof.
  intros Hc Hx Hy E.
  destruct (N.lt_ge_cases (c + x) m), (N.lt_ge_cases (c + y) m).
  - rewrite !N.mod_small in E; lia.
  - rewrite N.mod_small in E by lia. replace (c + y) with (c + y - m + 1 * m) in E by lia.
    rewrite N.mod_add, N.mod_small in E; lia.
  - rewrite (N.mod_small (c + y)) in E by lia. replace (c + x) with (c + x - m + 1 * m) in E by lia.
    rewrite N.mod_add, N.mod_small in E; lia.
  - replace (c + x) with (c + x - m + 1 * m) in E by lia. replace (c + y) with (c + y - m + 1 * m) in E by lia.
    rewrite !N.mod_add, !N.mod_small in E; lia.
Qed.

Lemma garble_proj_ok dl ws g k i l :
  g_kind g = GProj k -> g_inputs g = i :: l -> supported (g_domain g) -> supported (proj_domain k) ->
  (i < length ws)%nat -> WF (g_domain g) (nth i ws wire_empty) ->
  has dl (g_domain g) -> has dl (proj_domain k) ->
  exists w tbl, garble_proj sha256 p dl ws g k = Ok (w, tbl) /\ WF (proj_domain k) w /\
    table_ok (g_output g) (g_domain g) (proj_domain k) k (nth i ws wire_empty) w tbl.
Proof.
  intros Hk Hin Hs Hn Hi Hw Hdm Hdn. unfold garble_proj.
  set (m := g_domain g) in *. set (n := proj_domain k) in *. set (wi := nth i ws wire_empty) in *.
  rewrite Hin. rewrite (idx_lt (i :: l) 0 0%nat) by (simpl; lia). cbn [obind nth].
  rewrite (idx_lt ws i wire_empty) by auto. cbn [obind]. fold wi.
  unfold dlookup. rewrite Hdm, Hdn. cbn [obind unwrap].
  pose proof (color_lt m wi Hs Hw) as Hc.
  pose proof (D_WF m Hs) as HDm. pose proof (D_WF n Hn) as HDn.
  rewrite (wmul_ok p m) by auto. cbn [obind].
  rewrite (wsub_ok p m) by auto using pmul_WF. cbn [obind].
  destruct (hash_wire_ok (g_output g) (psub m wi (pmul m (D m) (color wi))) (D n) n Hn HDn) as [-> Hhw]. cbn [obind].
  unfold usub at 1. destruct (N.leb_spec (color wi) m); [|lia]. cbn [obind].
  rewrite project_ok by auto. cbn [obind].
  pose proof (proj_val_lt k (m - color wi) Hn) as Hpv. fold n in Hpv.
  rewrite (wmul_ok p n) by auto. cbn [obind].
  rewrite (wadd_ok p n) by auto using pmul_WF. cbn [obind].
  set (w0 := padd n _ _). assert (Hw0 : WF n w0) by (apply padd_WF; auto using pmul_WF).
  rewrite (wneg_ok p n) by auto. cbn [obind].
  set (w := pneg n w0). assert (HW : WF n w) by (apply pneg_WF; auto).
  set (ct := fun x => padd n (padd n (hw (g_output g) (lab m wi x) n) w) (pmul n (D n) (proj_val k x))).
  set (body := fun (tbl : list wire) (xn : nat) => _).
  assert (Hbody : forall tbl xn, (xn < N.to_nat m)%nat -> length tbl = N.to_nat m ->
     body tbl xn = Ok (set_nth tbl (N.to_nat ((color wi + N.of_nat xn) mod m)) (ct (N.of_nat xn)))).
  { intros tbl xn Hx Hl. unfold body.
    assert (Hxm : N.of_nat xn < m) by lia.
    rewrite (wmul_ok p m) by auto. cbn [obind].
    rewrite (wadd_ok p m) by auto using pmul_WF. cbn [obind]. fold (lab m wi (N.of_nat xn)).
    destruct (hash_wire_ok (g_output g) (lab m wi (N.of_nat xn)) w n Hn HW) as [-> Hh]. cbn [obind].
    rewrite (wadd_ok p n) by auto. cbn [obind].
    rewrite project_ok by auto. cbn [obind].
    rewrite (wmul_ok p n) by (auto; apply proj_val_lt; auto). cbn [obind].
    rewrite (wadd_ok p n) by auto using pmul_WF, padd_WF. cbn [obind].
    unfold uadd. change (2 ^ 16) with 65536.
    destruct (N.ltb_spec (N.of_nat xn + color wi) 65536); [|unfold supported in Hs; lia]. cbn [obind].
    unfold urem. destruct (N.eqb_spec m 0); [lia|]. cbn [obind].
    rewrite (N.add_comm (N.of_nat xn)). rewrite set_idx_lt. reflexivity.
    rewrite Hl. pose proof (N.mod_lt (color wi + N.of_nat xn) m). lia. }
  destruct (foldM_inv body (fun q tbl => length tbl = N.to_nat m /\
      forall x, (x < q)%nat -> nth_error tbl (N.to_nat ((color wi + N.of_nat x) mod m)) = Some (ct (N.of_nat x)))
      (seq 0 (N.to_nat m)) (repeat wire_empty (N.to_nat m))) as (tbl & Et & Hl & Ht).
  - split. apply repeat_length. intros; lia.
  - intros q a tbl Hq [Hl Ht].
    assert (Hq' : (q < N.to_nat m)%nat). { rewrite <- (seq_length (N.to_nat m) 0). apply nth_error_Some. congruence. }
    assert (a = q). { rewrite (nth_error_nth' _ 0%nat) in Hq by (rewrite seq_length; auto).
      rewrite seq_nth in Hq by auto. inversion Hq; auto. } subst a.
    eexists. split. { apply Hbody; auto. }
    assert (Hb : forall y, (y < N.to_nat m)%nat -> (N.to_nat ((color wi + N.of_nat y) mod m) < N.to_nat m)%nat).
    { intros. pose proof (N.mod_lt (color wi + N.of_nat y) m). lia. }
    split. { now rewrite set_nth_length. }
    intros x Hx. rewrite set_nth_nth_error by (rewrite Hl; apply Hb; auto).
    destruct (Nat.eqb_spec (N.to_nat ((color wi + N.of_nat x) mod m)) (N.to_nat ((color wi + N.of_nat q) mod m))) as [E|E].
    + apply N2Nat.inj in E. apply mod_shift_inj in E; try lia. now rewrite E.
    + apply Ht. assert (x <> q) by (intros ->; auto). lia.
  - rewrite Et. cbn [obind]. exists w, tbl. split; [reflexivity|]. split; [exact HW|]. split; [exact Hl|]. split; [|reflexivity].
    intros x Hx. rewrite seq_length in Ht. specialize (Ht (N.to_nat x)). rewrite N2Nat.id in Ht. apply Ht. lia.
Qed.

(** AND gate. *)
Definition and_tg (wa wb : wire) (j0 : nat) : wire :=
  let t := padd 2 (hh wa j0) (hh (padd 2 wa (D 2)) j0) in
  if negb (color wb =? 0) then padd 2 t (D 2) else t.
Definition and_te (wa wb : wire) (j1 : nat) : wire :=
  padd 2 (padd 2 (hh wb j1) (hh (padd 2 wb (D 2)) j1)) wa.
Definition and_out (wa wb : wire) (j0 j1 : nat) : wire :=
  padd 2
    (if negb (color wa =? 0) then padd 2 (hh wa j0) (and_tg wa wb j0) else hh wa j0)
    (if negb (color wb =? 0) then padd 2 (hh wb j1) (padd 2 (and_te wa wb j1) wa) else hh wb j1).
Lemma and_tg_WF wa wb j : WF 2 wa -> WF 2 wb -> WF 2 (and_tg wa wb j).
Proof.
  intros. unfold and_tg. pose proof sup2. pose proof (D_WF 2 H1).
  destruct (negb _); auto using padd_WF, hh_WF.
Qed.
Lemma and_te_WF wa wb j : WF 2 wa -> WF 2 wb -> WF 2 (and_te wa wb j).
Proof. intros. unfold and_te. pose proof sup2. pose proof (D_WF 2 H1). auto using padd_WF, hh_WF. Qed.
Lemma and_out_WF wa wb j0 j1 : WF 2 wa -> WF 2 wb -> WF 2 (and_out wa wb j0 j1).
Proof.
  intros. unfold and_out. pose proof sup2. pose proof (D_WF 2 H1).
  destruct (negb (color wa =? 0)), (negb (color wb =? 0)); auto 7 using padd_WF, hh_WF, and_tg_WF, and_te_WF.
Qed.

Lemma garble_and_ok dl ws g a b l j0 j1 :
  g_inputs g = a :: b :: l -> (a < length ws)%nat -> (b < length ws)%nat ->
  WF 2 (nth a ws wire_empty) -> WF 2 (nth b ws wire_empty) -> has dl 2 ->
  garble_and sha256 p dl ws g j0 j1 =
    Ok (and_out (nth a ws wire_empty) (nth b ws wire_empty) j0 j1,
        (and_tg (nth a ws wire_empty) (nth b ws wire_empty) j0, and_te (nth a ws wire_empty) (nth b ws wire_empty) j1)).
Proof.
  intros Hin Ha Hb Hwa Hwb Hd. unfold garble_and. pose proof sup2 as S2. pose proof (D_WF 2 S2) as HD.
  unfold dlookup. rewrite Hd. cbn [obind unwrap]. rewrite Hin.
  rewrite (idx_lt (a :: b :: l) 0 0%nat), (idx_lt (a :: b :: l) 1 0%nat) by (simpl; lia). cbn [obind nth].
  rewrite (idx_lt ws a wire_empty), (idx_lt ws b wire_empty) by auto. cbn [obind].
  set (wa := nth a ws wire_empty) in *. set (wb := nth b ws wire_empty) in *.
  rewrite !hash_half_ok. cbn [obind].
  rewrite (wadd_ok p 2 wa) by auto. cbn [obind]. rewrite hash_half_ok. cbn [obind].
  rewrite (wadd_ok p 2 (hh wa j0)) by auto using hh_WF. cbn [obind].
  unfold and_out, and_tg, and_te.
  destruct (negb (color wb =? 0)); [rewrite (wadd_ok p 2 (padd 2 (hh wa j0) _)) by auto using padd_WF, hh_WF|]; cbn [obind];
  (destruct (negb (color wa =? 0)); [rewrite (wadd_ok p 2 (hh wa j0)) by auto using padd_WF, hh_WF|]; cbn [obind];
   rewrite (wadd_ok p 2 wb) by auto; cbn [obind]; rewrite hash_half_ok; cbn [obind];
   rewrite (wadd_ok p 2 (hh wb j1)) by auto using hh_WF; cbn [obind];
   rewrite (wadd_ok p 2 (padd 2 (hh wb j1) _)) by auto using padd_WF, hh_WF; cbn [obind]).
  all: repeat (rewrite (wadd_ok p 2) by auto 8 using padd_WF, hh_WF; cbn [obind]).
  all: reflexivity.
Qed.

(** Half-gate algebra, bytewise. *)
Lemma nth_padd2 a b i : WF 2 a -> WF 2 b -> (i < 32)%nat ->
  nth i (wval (padd 2 a b)) 0 = N.lxor (nth i (wval a) 0) (nth i (wval b) 0).
Proof.
  intros Ha Hb Hi. pose proof (padd_dg 2 sup2 a b Ha Hb) as E. unfold dg in E.
  change (wide 2) with false in E. cbv iota in E. rewrite E.
  destruct Ha as (_ & La & _), Hb as (_ & Lb & _).
  rewrite (zipWith_nth _ _ _ _ 0 0) by lia. reflexivity.
Qed.
Lemma WF2_ext a b : WF 2 a -> WF 2 b -> (forall i, (i < 32)%nat -> nth i (wval a) 0 = nth i (wval b) 0) -> a = b.
Proof.
  intros Ha Hb H. apply (WF_eq 2); auto. unfold dg. change (wide 2) with false. cbv iota.
  destruct Ha as (_ & La & _), Hb as (_ & Lb & _).
  apply (nth_ext_eq _ _ 0). congruence. intros; apply H; lia.
Qed.
Lemma lab2_0 w : WF 2 w -> lab 2 w 0 = w.
Proof. intros. unfold lab. apply padd_pmul_0; auto using sup2, D_WF. Qed.
Lemma lab2_1 w : WF 2 w -> lab 2 w 1 = padd 2 w (D 2).
Proof. intros. unfold lab. rewrite pmul_1; auto using sup2, D_WF. Qed.

Ltac xor_solve :=
  apply N.bits_inj; intro; rewrite ?N.lxor_spec;
  repeat match goal with |- context [N.testbit ?a ?n] => destruct (N.testbit a n) end; reflexivity.

Lemma half_gate wa wb va vb j0 j1 :
  WF 2 wa -> WF 2 wb -> va < 2 -> vb < 2 ->
  let la := lab 2 wa va in let lb := lab 2 wb vb in
  padd 2
    (if negb (color la =? 0) then padd 2 (hh la j0) (and_tg wa wb j0) else hh la j0)
    (if negb (color lb =? 0) then padd 2 (hh lb j1) (padd 2 (and_te wa wb j1) la) else hh lb j1)
  = lab 2 (and_out wa wb j0 j1) (va * vb).
Proof.
  intros Ha Hb Hva Hvb la lb. pose proof sup2 as S2. pose proof (D_WF 2 S2) as HD.
  assert (Hca : color la = (color wa + va) mod 2) by (apply color_shift; auto using D_delta).
  assert (Hcb : color lb = (color wb + vb) mod 2) by (apply color_shift; auto using D_delta).
  assert (Hla : WF 2 la) by (apply lab_WF; auto). assert (Hlb : WF 2 lb) by (apply lab_WF; auto).
  rewrite Hca, Hcb. clear Hca Hcb. unfold and_out, and_tg, and_te.
  pose proof (color_lt 2 wa S2 Ha) as Ca. pose proof (color_lt 2 wb S2 Hb) as Cb.
  assert (Ea : color wa = 0 \/ color wa = 1) by lia. assert (Eb : color wb = 0 \/ color wb = 1) by lia.
  assert (Va : va = 0 \/ va = 1) by lia. assert (Vb : vb = 0 \/ vb = 1) by lia.
  pose proof (lab2_0 wa Ha). pose proof (lab2_1 wa Ha). pose proof (lab2_0 wb Hb). pose proof (lab2_1 wb Hb).
  destruct Va as [-> | ->], Vb as [-> | ->]; unfold la, lb in *; clear la lb;
  destruct Ea as [-> | ->], Eb as [-> | ->];
  repeat match goal with |- context [negb ?b] => let v := eval vm_compute in (negb b) in change (negb b) with v end; cbv iota;
  repeat match goal with |- context [lab 2 _ (?x * ?y)] => let v := eval vm_compute in (x * y) in change (x * y) with v end;
  rewrite ?H, ?H0, ?H1, ?H2;
  rewrite ?lab2_0, ?lab2_1 by auto 12 using padd_WF, hh_WF;
  (apply WF2_ext; [auto 12 using padd_WF, hh_WF | auto 12 using padd_WF, hh_WF |]);
  intros i Hi; repeat (rewrite nth_padd2 by auto 12 using padd_WF, hh_WF); xor_solve.
Qed.

(** ** The gate loop of [garble] *)
Section Circ.
Variable c : circuit.
Hypothesis Hwf : wf_circuit c.
Hypothesis Hri : forall i m, nth_error (input_domains c) i = Some m -> valid_sample m (ri i).

Notation n0 := (num_inputs c).
Definition is_and (g : gate) : bool := match g_kind g with GAnd => true | _ => false end.
Definition ands (k : nat) : nat := length (filter is_and (firstn k (gates c))).
Definition wn (ws : list wire) (i : nat) : wire := nth i ws wire_empty.

Definition good_gate (ws : list wire) (f : list (nat * list wire)) (half : list (nat * (wire * wire)))
  (k : nat) (g : gate) : Prop :=
  match g_kind g with
  | GAdd => forall i l, g_inputs g = i :: l ->
      wn ws (g_output g) = psum (g_domain g) (map (wn ws) l) (wn ws i)
  | GMul q => forall i l, g_inputs g = i :: l -> wn ws (g_output g) = pmul (g_domain g) (wn ws i) q
  | GProj kk => forall i l, g_inputs g = i :: l ->
      exists tbl, alookup Nat.eqb (g_output g) f = Some tbl /\
        table_ok (g_output g) (g_domain g) (proj_domain kk) kk (wn ws i) (wn ws (g_output g)) tbl
  | GAnd => forall a b l, g_inputs g = a :: b :: l ->
      wn ws (g_output g) = and_out (wn ws a) (wn ws b) (S (ands k)) (S (ands k)) /\
      alookup Nat.eqb (g_output g) half =
        Some (and_tg (wn ws a) (wn ws b) (S (ands k)), and_te (wn ws a) (wn ws b) (S (ands k)))
  end.

Definition decvals (ws : list wire) (o : nat) : list bytes :=
  map (fun x => hash sha256 o (N.of_nat x) (lab (modulus c o) (wn ws o) (N.of_nat x)))
    (seq 0 (N.to_nat (modulus c o))).

Notation start := (num_wires c - num_outputs c)%nat.

Definition Inv (k : nat) (s : gstate) : Prop :=
  length (gs_wires s) = (n0 + k)%nat /\
  (forall i, (i < n0 + k)%nat -> WF (modulus c i) (wn (gs_wires s) i)) /\
  gs_j0 s = ands k /\ gs_j1 s = ands k /\
  (forall k' g, (k' < k)%nat -> nth_error (gates c) k' = Some g ->
     good_gate (gs_wires s) (gs_f s) (gs_half s) k' g) /\
  length (gs_d s) = (n0 + k - start)%nat /\
  (forall i, (start + i < n0 + k)%nat -> nth_error (gs_d s) i = Some (decvals (gs_wires s) (start + i))).

Lemma good_gate_ext ws ws' f f' half half' k g :
  nth_error (gates c) k = Some g ->
  (forall i, (i <= g_output g)%nat -> wn ws' i = wn ws i) ->
  alookup Nat.eqb (g_output g) f' = alookup Nat.eqb (g_output g) f ->
  alookup Nat.eqb (g_output g) half' = alookup Nat.eqb (g_output g) half ->
  good_gate ws f half k g -> good_gate ws' f' half' k g.
Proof.
  intros Hk Hws Hf Hh Hg. destruct (wf_gates c Hwf k g Hk) as (Ho & Hi & _ & _). rewrite Forall_forall in Hi.
  unfold good_gate in *. destruct (g_kind g).
  - intros i l El. rewrite El in Hi. rewrite (Hws (g_output g)), (Hws i) by (auto; specialize (Hi i (or_introl eq_refl)); lia).
    rewrite (Hg i l El). f_equal. apply map_ext_in. intros j Hj. symmetry. apply Hws.
    specialize (Hi j (or_intror Hj)). lia.
  - intros i l El. rewrite El in Hi. rewrite (Hws (g_output g)), (Hws i) by (auto; specialize (Hi i (or_introl eq_refl)); lia). eauto.
  - intros i l El. destruct (Hg i l El) as (tbl & E & T). rewrite El in Hi.
    rewrite (Hws (g_output g)), (Hws i) by (auto; specialize (Hi i (or_introl eq_refl)); lia). rewrite Hf. eauto.
  - intros a b l El. rewrite El in Hi. rewrite Hh.
    rewrite (Hws (g_output g)), (Hws a), (Hws b) by (auto; pose proof (Hi a (or_introl eq_refl)); pose proof (Hi b (or_intror (or_introl eq_refl))); lia).
    eauto.
Qed.

Lemma modulus_supported i : (i < num_wires c)%nat -> supported (modulus c i).
Proof.
  intros Hi. unfold modulus, wire_moduli. pose proof (wf_indoms c Hwf). pose proof (wf_wires c Hwf).
  destruct (Nat.lt_ge_cases i n0).
  - rewrite app_nth1 by lia. apply (Forall_nth_in supported). apply wf_insupp; auto. lia.
  - rewrite app_nth2 by lia.
    destruct (nth_error (gates c) (i - length (input_domains c))) as [g|] eqn:E.
    2:{ apply nth_error_None in E. lia. }
    rewrite nth_indep with (d' := output_domain g) by (rewrite map_length; lia).
    rewrite map_nth. rewrite (nth_error_nth _ _ g E).
    destruct (wf_gates c Hwf _ g E) as (_ & _ & Ht & Hs). eapply gate_typed_outdom; eauto.
Qed.
Lemma modulus_out k g : nth_error (gates c) k = Some g -> modulus c (n0 + k) = output_domain g.
Proof.
  intros E. unfold modulus, wire_moduli. pose proof (wf_indoms c Hwf).
  rewrite app_nth2 by lia. replace (n0 + k - length (input_domains c))%nat with k by lia.
  assert (k < length (gates c))%nat by (apply nth_error_Some; congruence).
  rewrite nth_indep with (d' := output_domain g) by (rewrite map_length; lia).
  rewrite map_nth. now rewrite (nth_error_nth _ _ g E).
Qed.
Lemma ands_S k g : nth_error (gates c) k = Some g -> ands (S k) = if is_and g then S (ands k) else ands k.
Proof.
  intros E. unfold ands. rewrite (firstn_S _ _ _ E), filter_app, app_length. simpl.
  destruct (is_and g); simpl; lia.
Qed.

Lemma nat_eqb_iff : forall x y, Nat.eqb x y = true <-> x = y.
Proof. intros; apply Nat.eqb_eq. Qed.

Section Loop.
Variable dl : deltas.
Hypothesis Hdl : forall g, In g (gates c) -> has dl (g_domain g) /\ has dl (output_domain g).

(** The part of [garble_gate] that computes the output label. *)
Lemma garble_label_ok k g s :
  nth_error (gates c) k = Some g -> Inv k s ->
  exists s', 
    garble_label sha256 p dl s g = Ok s' /\
    (exists w, gs_wires s' = gs_wires s ++ [w] /\ WF (output_domain g) w) /\
    gs_j0 s' = ands (S k) /\ gs_j1 s' = ands (S k) /\ gs_d s' = gs_d s /\
    (forall k' g', (k' < S k)%nat -> nth_error (gates c) k' = Some g' ->
     good_gate (gs_wires s') (gs_f s') (gs_half s') k' g').
Proof.
  intros Hk (Hl & HW & Hj0 & Hj1 & Hg & Hd & Hdv).
  pose proof (nth_error_In _ _ Hk) as Hin. destruct (Hdl g Hin) as [Hm Ho].
  destruct (wf_gates c Hwf k g Hk) as (Hout & Hins & Ht & Hs). rewrite Forall_forall in Hins.
  pose proof (ands_S k g Hk) as HandS.
  assert (Hold : forall w, forall i, (i < n0 + k)%nat -> wn (gs_wires s ++ [w]) i = wn (gs_wires s) i).
  { intros. unfold wn. apply app_nth1. lia. }
  assert (Hnew : forall w, wn (gs_wires s ++ [w]) (g_output g) = w).
  { intros. unfold wn. rewrite app_nth2 by lia. replace (g_output g - length (gs_wires s))%nat with 0%nat by lia. reflexivity. }
  assert (Hgood : forall w f' half',
     (forall o, o <> g_output g -> alookup Nat.eqb o f' = alookup Nat.eqb o (gs_f s)) ->
     (forall o, o <> g_output g -> alookup Nat.eqb o half' = alookup Nat.eqb o (gs_half s)) ->
     good_gate (gs_wires s ++ [w]) f' half' k g ->
     forall k' g', (k' < S k)%nat -> nth_error (gates c) k' = Some g' -> good_gate (gs_wires s ++ [w]) f' half' k' g').
  { intros w f' half' Hf Hh Hgg k' g' Hk' Hg'. destruct (Nat.eq_dec k' k) as [->|Hne].
    - replace g' with g by congruence. auto.
    - destruct (wf_gates c Hwf k' g' Hg') as (Hout' & _).
      apply (good_gate_ext (gs_wires s) _ (gs_f s) _ (gs_half s)); auto.
      + intros. apply Hold. lia.
      + apply Hf. lia.
      + apply Hh. lia.
      + apply Hg; auto. lia. }
  unfold garble_label. unfold gate_typed in Ht. destruct (g_kind g) as [|q|kk|] eqn:Ek.
  - (* Add *)
    destruct Ht as [Hne Hdom]. destruct (g_inputs g) as [|i l] eqn:Ei; [congruence|].
    assert (HWF : forall j, In j (i :: l) -> WF (g_domain g) (wn (gs_wires s) j)).
    { intros j Hj. rewrite <- (Hdom j Hj). apply HW. specialize (Hins j Hj). lia. }
    rewrite (mapM_Ok _ (wn (gs_wires s))).
    2:{ intros j Hj. unfold wn. apply idx_lt. specialize (Hins j Hj). lia. }
    cbn [obind map].
    rewrite (wsum_ok p (g_domain g)); auto.
    2:{ apply HWF; simpl; auto. }
    2:{ apply Forall_map, Forall_forall. intros. apply HWF; simpl; auto. }
    cbn [obind]. eexists; split; [reflexivity|]. cbn [gs_wires gs_j0 gs_j1 gs_d gs_f gs_half].
    unfold is_and in HandS. rewrite Ek in HandS. rewrite HandS.
    split. { eexists; split; [reflexivity|]. unfold output_domain. rewrite Ek.
      apply psum_WF; auto. apply HWF; simpl; auto. apply Forall_map, Forall_forall. intros. apply HWF; simpl; auto. }
    repeat (split; auto). apply Hgood; auto.
    unfold good_gate. rewrite Ek. intros i' l' El. rewrite Ei in El. inversion El; subst i' l'.
    rewrite Hnew. rewrite Hold by (specialize (Hins i (or_introl eq_refl)); lia).
    f_equal. apply map_ext_in. intros j Hj. symmetry. apply Hold. specialize (Hins j (or_intror Hj)). lia.
  - (* Mul *)
    destruct Ht as (i & l & Ei & Hdom & Hq). rewrite Ei. rewrite (idx_lt (i :: l) 0 0%nat) by (simpl; lia). cbn [obind nth].
    assert (Hi : (i < n0 + k)%nat). { rewrite <- Hout. apply Hins. rewrite Ei; simpl; auto. }
    rewrite (idx_lt _ i wire_empty) by lia. cbn [obind]. fold (wn (gs_wires s) i).
    assert (HWi : WF (g_domain g) (wn (gs_wires s) i)) by (rewrite <- Hdom; apply HW; lia).
    rewrite (wmul_ok p (g_domain g)) by auto. cbn [obind].
    eexists; split; [reflexivity|]. cbn [gs_wires gs_j0 gs_j1 gs_d gs_f gs_half].
    unfold is_and in HandS. rewrite Ek in HandS. rewrite HandS.
    split. { eexists; split; [reflexivity|]. unfold output_domain. rewrite Ek. apply pmul_WF; auto. }
    repeat (split; auto). apply Hgood; auto.
    unfold good_gate. rewrite Ek. intros i' l' El. rewrite Ei in El. inversion El; subst i' l'.
    rewrite Hnew. now rewrite Hold.
  - (* Proj *)
    destruct Ht as (i & l & Ei & Hdom & Hsp).
    assert (Hi : (i < n0 + k)%nat). { rewrite <- Hout. apply Hins. rewrite Ei; simpl; auto. }
    assert (HWi : WF (g_domain g) (wn (gs_wires s) i)) by (rewrite <- Hdom; apply HW; lia).
    assert (Hod : output_domain g = proj_domain kk) by (unfold output_domain; rewrite Ek; destruct kk; reflexivity).
    destruct (garble_proj_ok dl (gs_wires s) g kk i l) as (w & tbl & E & Hw & Htbl); auto.
    { lia. } { congruence. }
    rewrite E. cbn [obind].
    eexists; split; [reflexivity|]. cbn [gs_wires gs_j0 gs_j1 gs_d gs_f gs_half].
    unfold is_and in HandS. rewrite Ek in HandS. rewrite HandS.
    split. { eexists; split; [reflexivity|]. rewrite Hod. auto. }
    repeat (split; auto). apply Hgood; auto.
    + intros o Hne. apply alookup_ainsert_other; auto. apply nat_eqb_iff.
    + unfold good_gate. rewrite Ek. intros i' l' El. rewrite Ei in El. inversion El; subst i' l'.
      exists tbl. split. { apply alookup_ainsert_same, Nat.eqb_refl. }
      rewrite Hnew. rewrite Hold by auto. auto.
  - (* And *)
    destruct Ht as (a & b & l & Ei & Hda & Hdb & Hd2).
    assert (Ha : (a < n0 + k)%nat). { rewrite <- Hout. apply Hins. rewrite Ei; simpl; auto. }
    assert (Hb : (b < n0 + k)%nat). { rewrite <- Hout. apply Hins. rewrite Ei; simpl; auto. }
    assert (HWa : WF 2 (wn (gs_wires s) a)) by (rewrite <- Hda; apply HW; lia).
    assert (HWb : WF 2 (wn (gs_wires s) b)) by (rewrite <- Hdb; apply HW; lia).
    rewrite Hd2 in Hm. cbv zeta.
    rewrite (garble_and_ok dl (gs_wires s) g a b l) by (auto; lia). cbn [obind].
    eexists; split; [reflexivity|]. cbn [gs_wires gs_j0 gs_j1 gs_d gs_f gs_half].
    unfold is_and in HandS. rewrite Ek in HandS. rewrite HandS.
    split. { eexists; split; [reflexivity|]. unfold output_domain. rewrite Ek. apply and_out_WF; auto. }
    rewrite Hj0, Hj1. repeat (split; auto). apply Hgood; auto.
    + intros o Hne. apply alookup_ainsert_other; auto. apply nat_eqb_iff.
    + unfold good_gate. rewrite Ek. intros a' b' l' El. rewrite Ei in El. inversion El; subst a' b' l'.
      rewrite Hnew. rewrite !Hold by auto. split; auto.
      apply alookup_ainsert_same, Nat.eqb_refl.
Qed.

Lemma garble_gate_ok k g s :
  nth_error (gates c) k = Some g -> Inv k s ->
  exists s', garble_gate sha256 p dl start s g = Ok s' /\ Inv (S k) s'.
Proof.
  intros Hk HI. destruct (garble_label_ok k g s Hk HI) as (s1 & E1 & (w & Ew & Hw) & Hj0 & Hj1 & Hd1 & Hgood).
  unfold garble_gate. rewrite E1. cbn [obind]. clear E1.
  destruct HI as (Hl & HW & _ & _ & _ & Hd & Hdv).
  destruct (wf_gates c Hwf k g Hk) as (Hout & Hins & Ht & Hs).
  pose proof (modulus_out k g Hk) as Hmod.
  assert (Hsod : supported (output_domain g)) by (eapply gate_typed_outdom; eauto).
  assert (Hl1 : length (gs_wires s1) = (n0 + S k)%nat) by (rewrite Ew, app_length; simpl; lia).
  assert (Hold : forall i, (i < n0 + k)%nat -> wn (gs_wires s1) i = wn (gs_wires s) i).
  { intros. unfold wn. rewrite Ew. apply app_nth1. lia. }
  assert (Hnew : wn (gs_wires s1) (n0 + k) = w).
  { unfold wn. rewrite Ew, app_nth2 by lia. replace (n0 + k - length (gs_wires s))%nat with 0%nat by lia. reflexivity. }
  assert (HW1 : forall i, (i < n0 + S k)%nat -> WF (modulus c i) (wn (gs_wires s1) i)).
  { intros i Hi. destruct (Nat.eq_dec i (n0 + k)) as [->|Hne].
    - rewrite Hnew, Hmod. auto.
    - rewrite Hold by lia. apply HW. lia. }
  assert (Hdv1 : forall i, (start + i < n0 + k)%nat -> nth_error (gs_d s1) i = Some (decvals (gs_wires s1) (start + i))).
  { intros i Hi. rewrite Hd1, Hdv by auto. f_equal. unfold decvals. apply map_ext_in. intros x _.
    now rewrite Hold. }
  pose proof (In_nth_error _ _ (nth_error_In _ _ Hk)) as _.
  destruct (Hdl g (nth_error_In _ _ Hk)) as [_ Hhas].
  destruct (Nat.leb_spec start (g_output g)) as [Hle|Hgt].
  - assert (Ed : garble_dec sha256 p dl (gs_wires s1) g = Ok (decvals (gs_wires s1) (n0 + k))).
    { unfold garble_dec, decvals. rewrite Hmod. apply mapM_Ok. intros x Hx. apply in_seq in Hx.
      rewrite (idx_lt _ _ wire_empty) by lia. cbn [obind]. unfold dlookup. rewrite Hhas. cbn [obind unwrap].
      rewrite (wmul_ok p (output_domain g)) by (auto using D_WF; lia). cbn [obind].
      fold (wn (gs_wires s1) (g_output g)). rewrite Hout. rewrite Hnew.
      rewrite (wadd_ok p (output_domain g)) by (auto using D_WF, pmul_WF). reflexivity. }
    rewrite Ed. cbn [obind]. eexists; split; [reflexivity|].
    unfold Inv. cbn [gs_wires gs_j0 gs_j1 gs_d gs_f gs_half].
    split; [exact Hl1|]. split; [exact HW1|]. split; [auto|]. split; [auto|]. split; [auto|].
    split. { rewrite app_length, Hd1; simpl. lia. }
    intros i Hi. destruct (Nat.eq_dec (start + i) (n0 + k)) as [E|E].
    + rewrite nth_error_app2 by (rewrite Hd1; lia). rewrite Hd1.
      replace (i - length (gs_d s))%nat with 0%nat by lia. simpl. now rewrite E.
    + rewrite nth_error_app1 by (rewrite Hd1; lia). apply Hdv1. lia.
  - exists s1. split; auto. unfold Inv.
    split; [exact Hl1|]. split; [exact HW1|]. split; [auto|]. split; [auto|]. split; [auto|].
    split. { rewrite Hd1. lia. }
    intros i Hi. apply Hdv1. lia.
Qed.
End Loop.

(** [garble_run] succeeds and its final state satisfies the invariant. *)
Lemma garble_run_ok : exists ek s,
  garble_run sha256 p rd ri c = Ok (ek, start, s) /\ Inv (length (gates c)) s /\
  ek_wires ek = firstn n0 (gs_wires s) /\
  (forall g, In g (gates c) -> has (ek_delta ek) (g_domain g) /\ has (ek_delta ek) (output_domain g)).
Proof.
  unfold garble_run.
  destruct (garble_deltas_ok c (gates c)) as (dl & Edl & Hgd & Hdl).
  { intros g Hin. apply In_nth_error in Hin as (k & Hk). destruct (wf_gates c Hwf k g Hk) as (_ & _ & ? & ?); auto. }
  rewrite Edl. cbn [obind].
  destruct (garble_inputs_ok (input_domains c) (wf_insupp c Hwf) Hri) as (ws & Ews & Hlw & HWs).
  rewrite Ews. cbn [obind]. pose proof (wf_indoms c Hwf) as Hid. pose proof (wf_wires c Hwf) as Hnw. pose proof (wf_outs c Hwf) as Hno.
  destruct (Nat.leb_spec n0 (length ws)); [|lia]. cbn [obind].
  destruct (Nat.leb_spec (num_outputs c) (num_wires c)); [|lia]. cbn [obind].
  assert (HI0 : Inv 0 (mkGS ws [] [] [] 0 0)).
  { unfold Inv. cbn [gs_wires gs_j0 gs_j1 gs_d gs_f gs_half]. split; [lia|].
    split. { intros i Hi. unfold modulus, wire_moduli, wn. rewrite app_nth1 by lia. apply HWs. lia. }
    split; [reflexivity|]. split; [reflexivity|]. split; [intros; lia|]. split; [simpl; lia|]. intros; lia. }
  destruct (foldM_inv (garble_gate sha256 p dl start)
     (fun k s => Inv k s /\ firstn n0 (gs_wires s) = firstn n0 ws) (gates c) (mkGS ws [] [] [] 0 0)) as (s & Es & HI & Hf).
  - split; auto.
  - intros k g s Hk [HI Hf]. destruct (garble_gate_ok dl Hdl k g s Hk HI) as (s' & Es' & HI').
    exists s'. split; auto. split; auto. rewrite <- Hf.
    pose proof HI as (Hl & _).
    (* wires only grow *)
    revert Es'. unfold garble_gate.
    destruct (garble_label_ok dl Hdl k g s Hk) as (s1 & E1 & (w & Ew & _) & _ & _ & _ & _); [assumption|].
    rewrite E1. cbn [obind]. intros Es'.
    assert (gs_wires s' = gs_wires s1).
    { destruct (Nat.leb start (g_output g)).
      - apply obind_Ok in Es' as (v & _ & Es'). inversion Es'; reflexivity.
      - inversion Es'; reflexivity. }
    rewrite H1, Ew. apply firstn_app_le. lia.
  - rewrite Es. cbn [obind]. eexists _, s. split; [reflexivity|]. split; [auto|]. cbn [ek_wires ek_delta].
    split; auto.
Qed.

(** ** Evaluation *)
Section Eval.
Variable x : list N.
Hypothesis Hx : wf_inputs c x.
Notation V := (circuit_values c x).
Definition v (i : nat) : N := nth i V 0.

Lemma V_length : length V = num_wires c.
Proof. unfold circuit_values. rewrite run_gates_length. destruct Hx as [-> _]. now rewrite (wf_wires c Hwf). Qed.
Lemma v_input i : (i < n0)%nat -> v i = nth i x 0.
Proof. intros Hi. unfold v, circuit_values. apply run_gates_prefix. destruct Hx; lia. Qed.
Lemma v_gate k g : nth_error (gates c) k = Some g -> v (n0 + k) = gate_value g (map v (g_inputs g)).
Proof.
  intros Hk. unfold v, circuit_values. destruct Hx as [Hl _]. rewrite <- Hl.
  apply run_gates_nth; auto. destruct (wf_gates c Hwf k g Hk) as (Ho & Hi & _). rewrite Hl, <- Ho. auto.
Qed.
Lemma v_lt i : (i < num_wires c)%nat -> v i < modulus c i.
Proof.
  induction i as [i IH] using (well_founded_induction lt_wf). intros Hi.
  destruct (Nat.lt_ge_cases i n0).
  - rewrite v_input by auto. now apply Hx.
  - pose proof (wf_wires c Hwf) as Hnw.
    destruct (nth_error (gates c) (i - n0)) as [g|] eqn:E.
    2:{ apply nth_error_None in E. lia. }
    replace i with (n0 + (i - n0))%nat by lia. rewrite (v_gate _ g E), (modulus_out _ g E).
    destruct (wf_gates c Hwf _ g E) as (Ho & Hins & Ht & Hs). rewrite Forall_forall in Hins.
    pose proof (supported_2 _ Hs).
    unfold gate_value, output_domain, gate_typed in *. destruct (g_kind g) as [|q|[m|t]|].
    + apply N.mod_lt; lia.
    + apply N.mod_lt; lia.
    + destruct Ht as (? & ? & ? & ? & Hm). simpl in Hm. pose proof (supported_2 _ Hm). apply N.mod_lt; lia.
    + destruct (_ <? t); lia.
    + destruct Ht as (a & b & l & Ei & Ha & Hb & _). rewrite Ei in *. simpl.
      pose proof (Hins a (or_introl eq_refl)). pose proof (Hins b (or_intror (or_introl eq_refl))).
      pose proof (IH a) as IHa. pose proof (IH b) as IHb. rewrite Ha in IHa. rewrite Hb in IHb.
      assert (v a < 2) by (apply IHa; lia). assert (v b < 2) by (apply IHb; lia). nia.
Qed.

Section WithState.
Variable s : gstate.
Hypothesis HI : Inv (length (gates c)) s.
Notation ws := (gs_wires s).
Definition L (i : nat) : wire := lab (modulus c i) (wn ws i) (v i).

Lemma ws_WF i : (i < num_wires c)%nat -> WF (modulus c i) (wn ws i).
Proof. intros. destruct HI as (_ & HW & _). apply HW. now rewrite <- (wf_wires c Hwf). Qed.
Lemma L_WF i : (i < num_wires c)%nat -> WF (modulus c i) (L i).
Proof. intros. apply lab_WF. now apply modulus_supported. now apply ws_WF. Qed.

Lemma psum_labels m l A a :
  supported m -> WF m A -> a < m -> (forall j, In j l -> modulus c j = m /\ (j < num_wires c)%nat) ->
  psum m (map L l) (padd m A (pmul m (D m) a)) =
  padd m (psum m (map (wn ws) l) A) (pmul m (D m) ((a + fold_right N.add 0 (map v l)) mod m)).
Proof.
  intros Hs. pose proof (supported_2 m Hs). pose proof (D_WF m Hs) as HD. revert A a.
  induction l as [|j l IH]; intros A a HA Ha Hl; cbn [map psum fold_left fold_right].
  - rewrite N.add_0_r, N.mod_small by lia. reflexivity.
  - destruct (Hl j (or_introl eq_refl)) as [Hj Hjn].
    assert (HWj : WF m (wn ws j)) by (rewrite <- Hj; apply ws_WF; auto).
    assert (Hvj : v j < m) by (rewrite <- Hj; apply v_lt; auto).
    unfold psum in IH.
    replace (padd m (padd m A (pmul m (D m) a)) (L j))
      with (padd m (padd m A (wn ws j)) (pmul m (D m) ((a + v j) mod m))).
    + rewrite IH; auto using padd_WF.
      * f_equal. f_equal. rewrite N.add_mod_idemp_l by lia. f_equal. lia.
      * apply N.mod_lt; lia.
      * intros; apply Hl; simpl; auto.
    + unfold L, lab. rewrite Hj. rewrite <- pmul_add by auto.
      rewrite !padd_assoc by auto using padd_WF, pmul_WF. f_equal.
      rewrite <- !padd_assoc by auto using padd_WF, pmul_WF.
      f_equal. apply padd_comm; auto using pmul_WF.
Qed.

Notation gc := (mkGC c (gs_f s) (gs_half s)).

Definition EI (k : nat) (st : list (option wire) * nat * nat) : Prop :=
  let '(es, j0, j1) := st in
  length es = num_wires c /\ j0 = ands k /\ j1 = ands k /\
  forall i, (i < n0 + k)%nat -> nth_error es i = Some (Some (L i)).

Lemma read_init_ok es i : nth_error es i = Some (Some (L i)) -> read_init es i = Ok (L i).
Proof. intros E. unfold read_init, idx. rewrite E. reflexivity. Qed.

Lemma eval_gate_ok k g st : nth_error (gates c) k = Some g -> EI k st ->
  exists st', eval_garbled_gate sha256 p gc st g = Ok st' /\ EI (S k) st'.
Proof.
  intros Hk. destruct st as [[es j0] j1]. intros (Hle & Hj0 & Hj1 & Hes).
  destruct (wf_gates c Hwf k g Hk) as (Hout & Hins & Ht & Hs). rewrite Forall_forall in Hins.
  pose proof (supported_2 _ Hs) as H2m.
  assert (Hkl : (k < length (gates c))%nat) by (apply nth_error_Some; congruence).
  pose proof (wf_wires c Hwf) as Hnw.
  assert (HE : exists jj, (ands (S k) = jj) /\
    match g_kind g with
    | GAdd =>
        let* ins := mapM (read_init es) (g_inputs g) in
        let* w := wsum p ins in Ok (w, j0, j1)
    | GMul q =>
        let* ii := idx (g_inputs g) 0 in
        let* wi := read_init es ii in
        let* w := wmul p wi q in Ok (w, j0, j1)
    | GProj _ =>
        let* ii := idx (g_inputs g) 0 in
        let* wi := read_init es ii in
        let* tbl := unwrap PKey (alookup Nat.eqb (g_output g) (gs_f s)) in
        let* cipher := idx tbl (N.to_nat (color wi)) in
        let* hw := hash_wire sha256 p (g_output g) wi cipher in
        let* w := wsub p cipher hw in Ok (w, j0, j1)
    | GAnd =>
        let* a := idx (g_inputs g) 0 in
        let* b := idx (g_inputs g) 1 in
        let* wa := read_init es a in
        let* wb := read_init es b in
        let* (tg, te) := unwrap PKey (alookup Nat.eqb (g_output g) (gs_half s)) in
        let* wg := hash_half sha256 p wa (S j0) in
        let* wg := (if negb (color wa =? 0) then wadd p wg tg else Ok wg) in
        let* we := hash_half sha256 p wb (S j1) in
        let* we := (if negb (color wb =? 0) then let* s := wadd p te wa in wadd p we s else Ok we) in
        let* w := wadd p wg we in Ok (w, S j0, S j1)
    end = Ok (L (n0 + k), jj, jj)).
  { pose proof (v_gate k g Hk) as Hv. pose proof (modulus_out k g Hk) as Hmo.
    pose proof (ands_S k g Hk) as HandS. unfold is_and in HandS.
    destruct HI as (_ & _ & _ & _ & Hgood & _ & _). specialize (Hgood k g Hkl Hk).
    unfold good_gate in Hgood. rewrite Hout in Hgood. unfold gate_value in Hv. unfold output_domain in Hmo.
    unfold gate_typed in Ht. destruct (g_kind g) as [|q|kk|] eqn:Ek; (eexists; split; [reflexivity|]).
    - (* Add *)
      destruct Ht as [Hne Hdom]. destruct (g_inputs g) as [|i l] eqn:Ei; [congruence|].
      rewrite (mapM_Ok _ L). 2:{ intros j Hj. apply read_init_ok, Hes. specialize (Hins j Hj). lia. }
      cbn [obind map].
      assert (Hall : forall j, In j (i :: l) -> modulus c j = g_domain g /\ (j < num_wires c)%nat).
      { intros j Hj. split; auto. specialize (Hins j Hj). lia. }
      destruct (Hall i (or_introl eq_refl)) as [Hi1 Hi2].
      assert (HLi : WF (g_domain g) (L i)) by (rewrite <- Hi1; apply L_WF; auto).
      rewrite (wsum_ok p (g_domain g)); auto.
      2:{ apply Forall_map, Forall_forall. intros j Hj. destruct (Hall j (or_intror Hj)) as [<- ?]. apply L_WF; auto. }
      cbn [obind]. rewrite HandS, Hj0, Hj1. do 3 f_equal.
      replace (L i) with (padd (g_domain g) (wn ws i) (pmul (g_domain g) (D (g_domain g)) (v i)))
        by (unfold L, lab; now rewrite Hi1).
      assert (HWi : WF (g_domain g) (wn ws i)) by (rewrite <- Hi1; apply ws_WF; auto).
      rewrite psum_labels; auto.
      2:{ rewrite <- Hi1; apply v_lt; auto. }
      2:{ intros; apply Hall; simpl; auto. }
      unfold L, lab. rewrite Hmo, Hv. rewrite (Hgood i l eq_refl). reflexivity.
    - (* Mul *)
      destruct Ht as (i & l & Ei & Hdom & Hq). rewrite Ei in *. rewrite (idx_lt (i :: l) 0 0%nat) by (simpl; lia). cbn [obind nth].
      specialize (Hins i (or_introl eq_refl)).
      rewrite (read_init_ok es i) by (apply Hes; lia). cbn [obind].
      assert (HLi : WF (g_domain g) (L i)) by (rewrite <- Hdom; apply L_WF; lia).
      assert (HWi : WF (g_domain g) (wn ws i)) by (rewrite <- Hdom; apply ws_WF; lia).
      assert (Hvi : v i < g_domain g) by (rewrite <- Hdom; apply v_lt; lia).
      rewrite (wmul_ok p (g_domain g)) by auto. cbn [obind]. rewrite HandS, Hj0, Hj1. do 3 f_equal.
      unfold L, lab. rewrite Hmo, Hv, Hdom. rewrite (Hgood i l eq_refl). cbn [map nth].
      rewrite pmul_padd by auto using pmul_WF, D_WF. f_equal. apply pmul_pmul; auto using D_WF.
    - (* Proj *)
      destruct Ht as (i & l & Ei & Hdom & Hsp). rewrite Ei in *. rewrite (idx_lt (i :: l) 0 0%nat) by (simpl; lia). cbn [obind nth].
      specialize (Hins i (or_introl eq_refl)).
      rewrite (read_init_ok es i) by (apply Hes; lia). cbn [obind].
      assert (HWi : WF (g_domain g) (wn ws i)) by (rewrite <- Hdom; apply ws_WF; lia).
      assert (Hvi : v i < g_domain g) by (rewrite <- Hdom; apply v_lt; lia).
      destruct (Hgood i l eq_refl) as (tbl & Etbl & Hlt & Htbl & _). rewrite Hout, Etbl. cbn [unwrap obind].
      assert (Hc : color (L i) = (color (wn ws i) + v i) mod g_domain g).
      { unfold L, lab. rewrite Hdom. apply color_shift; auto using D_delta. }
      rewrite Hc. unfold idx. rewrite (Htbl (v i) Hvi). cbn [unwrap obind].
      set (n := proj_domain kk) in *.
      assert (HmoN : modulus c (n0 + k) = n) by (rewrite Hmo; unfold n; destruct kk; reflexivity).
      assert (HWo : WF n (wn ws (n0 + k))) by (rewrite <- HmoN; apply ws_WF; lia).
      assert (EL : lab (g_domain g) (wn ws i) (v i) = L i) by (unfold L; now rewrite Hdom).
      rewrite EL.
      assert (Hh0 : WF n (hw (n0 + k) (L i) n)).
      { destruct (hash_wire_ok (n0 + k) (L i) (D n) n Hsp (D_WF n Hsp)); auto. }
      set (ct := padd n (padd n (hw (n0 + k) (L i) n) (wn ws (n0 + k))) (pmul n (D n) (proj_val kk (v i)))).
      assert (Hct : WF n ct) by (apply padd_WF; auto using padd_WF, pmul_WF, D_WF).
      destruct (hash_wire_ok (n0 + k) (L i) ct n Hsp Hct) as [-> _]. cbn [obind].
      rewrite (wsub_ok p n) by auto. cbn [obind]. rewrite HandS, Hj0, Hj1. do 3 f_equal.
      unfold ct. rewrite padd_assoc by auto using pmul_WF, D_WF.
      rewrite psub_padd by auto using padd_WF, pmul_WF, D_WF.
      unfold L, lab. rewrite HmoN, Hv. destruct kk; reflexivity.
    - (* And *)
      destruct Ht as (a & b & l & Ei & Hda & Hdb & Hd2). rewrite Ei in *.
      pose proof (Hins a (or_introl eq_refl)) as Ha. pose proof (Hins b (or_intror (or_introl eq_refl))) as Hb.
      rewrite (idx_lt (a :: b :: l) 0 0%nat), (idx_lt (a :: b :: l) 1 0%nat) by (simpl; lia). cbn [obind nth].
      rewrite (read_init_ok es a), (read_init_ok es b) by (apply Hes; lia). cbn [obind].
      destruct (Hgood a b l eq_refl) as [Hwo Hlk]. rewrite Hout, Hlk. cbn [unwrap obind].
      assert (HWa : WF 2 (wn ws a)) by (rewrite <- Hda; apply ws_WF; lia).
      assert (HWb : WF 2 (wn ws b)) by (rewrite <- Hdb; apply ws_WF; lia).
      assert (HLa : WF 2 (L a)) by (rewrite <- Hda; apply L_WF; lia).
      assert (HLb : WF 2 (L b)) by (rewrite <- Hdb; apply L_WF; lia).
      assert (Hva : v a < 2) by (rewrite <- Hda; apply v_lt; lia).
      assert (Hvb : v b < 2) by (rewrite <- Hdb; apply v_lt; lia).
      rewrite !hash_half_ok. cbn [obind]. rewrite HandS, Hj0, Hj1.
      pose proof (and_tg_WF (wn ws a) (wn ws b) (S (ands k)) HWa HWb) as Htg.
      pose proof (and_te_WF (wn ws a) (wn ws b) (S (ands k)) HWa HWb) as Hte.
      pose proof (half_gate (wn ws a) (wn ws b) (v a) (v b) (S (ands k)) (S (ands k)) HWa HWb Hva Hvb) as HG.
      cbv zeta in HG.
      assert (ELa : lab 2 (wn ws a) (v a) = L a) by (unfold L; now rewrite Hda).
      assert (ELb : lab 2 (wn ws b) (v b) = L b) by (unfold L; now rewrite Hdb).
      rewrite ELa, ELb in HG.
      assert (ELo : lab 2 (and_out (wn ws a) (wn ws b) (S (ands k)) (S (ands k))) (v a * v b) = L (n0 + k)).
      { unfold L. rewrite Hmo, Hv, Hwo. reflexivity. }
      rewrite ELo in HG. clear ELa ELb ELo. rewrite <- HG. pose proof sup2 as S2.
      destruct (negb (color (L a) =? 0)), (negb (color (L b) =? 0));
        cbn [obind]; repeat (rewrite (wadd_ok p 2) by auto using padd_WF, hh_WF; cbn [obind]); reflexivity. }
  destruct HE as (jj & Hjj & HE). unfold eval_garbled_gate. cbn [gc_f gc_half].
  match type of HE with ?A = _ => match goal with |- exists st', obind ?B _ = _ /\ _ => change B with A end end.
  rewrite HE. cbn [obind]. rewrite set_idx_lt by lia. cbn [obind].
  eexists; split; [reflexivity|]. unfold EI. split. { now rewrite set_nth_length. }
  split; auto. split; auto. intros i Hi. rewrite set_nth_nth_error by lia. rewrite Hout.
  destruct (Nat.eqb_spec i (n0 + k)) as [->|Hne]; auto. apply Hes. lia.
Qed.

Lemma evaluate_ok : evaluate sha256 p gc (map L (seq 0 n0)) = Ok (map L (seq start (num_outputs c))).
Proof.
  unfold evaluate. cbn [gc_circuit]. rewrite map_length, seq_length, Nat.eqb_refl, debug_assert_true. cbn [obind].
  pose proof (wf_wires c Hwf) as Hnw. pose proof (wf_outs c Hwf) as Hno.
  destruct (foldM_inv (fun (ws : list (option wire)) i => let* xi := idx (map L (seq 0 n0)) i in set_idx ws i (Some xi))
     (fun q es => length es = num_wires c /\ forall i, (i < q)%nat -> nth_error es i = Some (Some (L i)))
     (seq 0 n0) (repeat None (num_wires c))) as (es & Ees & Hl & Hes).
  - split. apply repeat_length. intros; lia.
  - intros q a es Hq [Hl Hes].
    assert (Hq' : (q < n0)%nat). { rewrite <- (seq_length n0 0). apply nth_error_Some. congruence. }
    assert (a = q). { rewrite (nth_error_nth' _ 0%nat) in Hq by (rewrite seq_length; auto).
      rewrite seq_nth in Hq by auto. inversion Hq; auto. } subst a.
    rewrite (idx_lt _ _ (L 0)) by (rewrite map_length, seq_length; auto). cbn [obind].
    rewrite map_nth, seq_nth by auto. simpl Nat.add.
    rewrite set_idx_lt by lia. eexists; split; [reflexivity|]. split. { now rewrite set_nth_length. }
    intros i Hi. rewrite set_nth_nth_error by lia.
    destruct (Nat.eqb_spec i q) as [->|]; auto. apply Hes; lia.
  - rewrite Ees. cbn [obind]. rewrite seq_length in Hes.
    destruct (foldM_inv (eval_garbled_gate sha256 p gc) EI (gates c) (es, 0%nat, 0%nat)) as (st & Est & HEI).
    + unfold EI. rewrite Nat.add_0_r. auto.
    + intros. eapply eval_gate_ok; eauto.
    + rewrite Est. cbn [obind]. destruct st as [[es' j0] j1]. destruct HEI as (Hl' & _ & _ & Hes').
      cbn [obind]. destruct (Nat.leb_spec (num_outputs c) (num_wires c)); [|lia].
      assert (E : skipn start es' = map Some (map L (seq start (num_outputs c)))).
      { apply (nth_ext _ _ None None).
        - rewrite skipn_length, !map_length, seq_length. lia.
        - intros i Hi. rewrite skipn_length in Hi. rewrite nth_skipn.
          assert (Hi' : (start + i < n0 + length (gates c))%nat) by lia.
          specialize (Hes' _ Hi'). rewrite (nth_error_nth _ _ _ Hes').
          rewrite map_map. rewrite nth_indep with (d' := Some (L 0)) by (rewrite map_length, seq_length; lia).
          rewrite (map_nth (fun i => Some (L i))). rewrite seq_nth by lia. reflexivity. }
      rewrite E. rewrite mapM_map. erewrite mapM_Ok; [|reflexivity]. now rewrite map_id.
Qed.

(** ** Encoding *)
Lemma encode_ok ek : ek_wires ek = firstn n0 ws ->
  (forall g, In g (gates c) -> has (ek_delta ek) (g_domain g) /\ has (ek_delta ek) (output_domain g)) ->
  encode p ek x = Ok (map L (seq 0 n0)).
Proof.
  intros Hek Hdl. pose proof (wf_wires c Hwf) as Hnw. destruct HI as (Hlw & _).
  unfold encode. rewrite Hek, firstn_length. destruct Hx as [Hlx Hxl].
  replace (Nat.eqb _ _) with true by (symmetry; apply Nat.eqb_eq; lia). rewrite debug_assert_true. cbn [obind].
  assert (Hhas : forall i, (i < n0)%nat -> has (ek_delta ek) (modulus c i)).
  { intros i Hi. pose proof (wf_indoms c Hwf) as Hid.
    destruct (wf_inused c Hwf (modulus c i)) as (g & Hg & Hor).
    { unfold modulus, wire_moduli. rewrite app_nth1 by lia. apply nth_In. lia. }
    destruct (Hdl g Hg) as [H1 H2]. destruct Hor as [<- | <-]; auto. }
  rewrite (zipM_seq _ L wire_empty 0).
  - do 2 f_equal. f_equal. rewrite firstn_length. lia.
  - rewrite firstn_length. lia.
  - intros i Hi. rewrite firstn_length in Hi. assert (Hi' : (i < n0)%nat) by lia.
    rewrite nth_firstn by auto. fold (wn ws i).
    assert (Hin : (i < num_wires c)%nat) by lia.
    pose proof (ws_WF i Hin) as HWi. pose proof (modulus_supported i Hin) as Hsi.
    rewrite (wire_domain_WF (modulus c i)) by auto. unfold dlookup. rewrite (Hhas i Hi'). cbn [unwrap obind].
    rewrite (wmul_ok p (modulus c i)) by (auto using D_WF). cbn [obind].
    rewrite (wadd_ok p (modulus c i)) by auto using pmul_WF, D_WF. unfold L, lab. now rewrite v_input.
Qed.
End WithState.
End Eval.

(** ** Decoding *)
Section Dec.
Variable s : gstate.
Hypothesis HI : Inv (length (gates c)) s.
Notation ws := (gs_wires s).
Notation dk := (mkDK (gs_d s) start).
Definition G (o : nat) (k : N) : wire := lab (modulus c o) (wn ws o) k.

Lemma gs_d_length : length (gs_d s) = num_outputs c.
Proof.
  pose proof (wf_wires c Hwf). pose proof (wf_outs c Hwf).
  destruct HI as (_ & _ & _ & _ & _ & Hl & _). rewrite Hl. lia.
Qed.
Lemma gs_d_idx i : (i < num_outputs c)%nat -> idx (gs_d s) i = Ok (decvals ws (start + i)).
Proof.
  pose proof (wf_wires c Hwf). pose proof (wf_outs c Hwf). intros Hi.
  destruct HI as (_ & _ & _ & _ & _ & _ & Hd). unfold idx. rewrite Hd by lia. reflexivity.
Qed.
Lemma decvals_idx o k : (k < N.to_nat (modulus c o))%nat ->
  idx (decvals ws o) k = Ok (sha256 (dec_string o (N.of_nat k) (G o (N.of_nat k)))).
Proof.
  intros Hk. unfold idx, decvals. erewrite map_nth_error. reflexivity.
  rewrite (nth_error_nth' _ 0%nat) by (rewrite seq_length; auto). rewrite seq_nth by auto. reflexivity.
Qed.
Lemma decvals_idx_inv o k h : idx (decvals ws o) k = Ok h -> (k < N.to_nat (modulus c o))%nat.
Proof.
  unfold idx. destruct (nth_error (decvals ws o) k) eqn:E; [|discriminate]. intros _.
  assert (nth_error (decvals ws o) k <> None) by congruence. apply nth_error_Some in H.
  unfold decvals in H. now rewrite map_length, seq_length in H.
Qed.

Lemma dec_string_inj o k a b : dec_string o k a = dec_string o k b -> wval a = wval b.
Proof. unfold dec_string. intros E. apply app_inv_head in E. apply app_inv_head in E. auto. Qed.

(** Searching with the right label finds the right value unless an earlier candidate clashes. *)
Lemma search_hit o (vv : N) ks : (o < num_wires c)%nat -> vv < modulus c o -> In (N.to_nat vv) ks ->
  (forall k, In k ks -> (k < N.to_nat (modulus c o))%nat) ->
  decode_search sha256 o (G o vv) (decvals ws o) ks = Ok (Some vv) \/
  exists k, k < modulus c o /\ k <> vv /\
    clash sha256 (dec_string o k (G o vv)) (dec_string o k (G o k)).
Proof.
  intros Ho Hv. induction ks as [|k ks IH]; intros Hin Hall. { destruct Hin. }
  cbn [decode_search]. assert (Hk := Hall k (or_introl eq_refl)).
  rewrite decvals_idx by auto. cbn [obind].
  change (hash sha256 o (N.of_nat k) (G o vv)) with (sha256 (dec_string o (N.of_nat k) (G o vv))).
  destruct (bytes_eqb _ _) eqn:E.
  - apply bytes_eqb_eq in E. destruct (N.eq_dec (N.of_nat k) vv) as [->|Hne]; auto.
    right. exists (N.of_nat k). split; [lia|]. split; auto. split; auto.
    intros Es. apply dec_string_inj in Es. apply Hne. symmetry.
    pose proof (modulus_supported o Ho) as Hs. pose proof (ws_WF s HI o Ho) as HW.
    apply (label_inj (modulus c o) (wn ws o) (D (modulus c o))); auto using D_delta; [lia|].
    destruct (lab_WF (modulus c o) (wn ws o) vv Hs HW) as [Hd1 _].
    destruct (lab_WF (modulus c o) (wn ws o) (N.of_nat k) Hs HW) as [Hd2 _].
    unfold G, lab in *. destruct (padd _ _ (pmul _ _ vv)), (padd _ _ (pmul _ _ (N.of_nat k))).
    simpl in *. congruence.
  - destruct Hin as [->|Hin].
    + rewrite N2Nat.id in E. replace (bytes_eqb _ _) with true in E; [discriminate|].
      symmetry. now apply bytes_eqb_eq.
    + apply IH; auto. intros; apply Hall; simpl; auto.
Qed.

Definition Clash (i : nat) (vv : N) : Prop :=
  exists k, k < modulus c (start + i) /\ k <> vv /\
    clash sha256 (dec_string (start + i) k (G (start + i) vv)) (dec_string (start + i) k (G (start + i) k)).

Lemma decode_hit vs n i y :
  length y = num_outputs c -> (i + n = num_outputs c)%nat ->
  (forall j, (j < num_wires c)%nat -> vs j < modulus c j) ->
  decode_loop sha256 dk (map (fun o => G o (vs o)) (seq (start + i) n)) i y
    = Ok (firstn i y ++ map vs (seq (start + i) n)) \/
  exists j, (j < num_outputs c)%nat /\ Clash j (vs (start + j)%nat).
Proof.
  pose proof (wf_wires c Hwf) as Hnw. pose proof (wf_outs c Hwf) as Hno.
  revert i y. induction n as [|n IH]; intros i y Hy Hi Hv; cbn [seq map decode_loop].
  - left. rewrite app_nil_r, firstn_all2 by lia. reflexivity.
  - cbn [dk_hashes dk_offset]. rewrite gs_d_idx by lia. cbn [obind].
    assert (Ho : (start + i < num_wires c)%nat) by lia.
    pose proof (modulus_supported _ Ho) as Hs. pose proof (Hv _ Ho) as Hvo.
    unfold G at 1. rewrite (wire_domain_WF (modulus c (start + i))); auto.
    2:{ apply lab_WF; auto. apply (ws_WF s HI); auto. } fold (G (start + i) (vs (start + i)%nat)).
    destruct (search_hit (start + i) (vs (start + i)%nat) (seq 0 (N.to_nat (modulus c (start + i))))) as [E|E]; auto.
    + apply in_seq. lia.
    + intros k Hk. apply in_seq in Hk. lia.
    + rewrite E. cbn [obind]. rewrite set_idx_lt by lia. cbn [obind].
      specialize (IH (S i) (set_nth y i (vs (start + i)%nat))).
      replace (start + S i)%nat with (S (start + i)) in IH by lia.
      destruct IH as [-> |IH]; auto. { now rewrite set_nth_length. } { lia. }
      left. f_equal. rewrite firstn_set_nth by lia. rewrite <- app_assoc. reflexivity.
    + right. exists i. split; [lia|]. exact E.
Qed.

(** Soundness of the search: an accepted wire carries the bytes of a genuine label, or a clash. *)
Lemma search_sound o z ks r : decode_search sha256 o z (decvals ws o) ks = Ok (Some r) ->
  r < modulus c o /\ (wval z = wval (G o r) \/ clash sha256 (dec_string o r z) (dec_string o r (G o r))).
Proof.
  induction ks as [|k ks IH]; cbn [decode_search]; [discriminate|].
  destruct (idx (decvals ws o) k) as [h| | |] eqn:Eh; try discriminate. cbn [obind].
  pose proof (decvals_idx_inv _ _ _ Eh) as Hk. rewrite decvals_idx in Eh by auto. inversion Eh; subst h.
  change (hash sha256 o (N.of_nat k) z) with (sha256 (dec_string o (N.of_nat k) z)).
  destruct (bytes_eqb _ _) eqn:E; auto.
  intros [= <-]. split; [lia|]. apply bytes_eqb_eq in E.
  destruct (list_eq_dec N.eq_dec (wval z) (wval (G o (N.of_nat k)))) as [?|Hn]; auto.
  right. split; auto. intros Es. apply dec_string_inj in Es. contradiction.
Qed.

Lemma decode_loop_sound z : forall i y r, decode_loop sha256 dk z i y = Ok r ->
  length y = num_outputs c ->
  (length z + i <= Nat.max i (num_outputs c))%nat /\ length r = num_outputs c /\
  (forall j, (j < i)%nat \/ (i + length z <= j)%nat -> nth j r 0 = nth j y 0) /\
  (forall j w, nth_error z j = Some w ->
     let o := (start + (i + j))%nat in let k := nth (i + j) r 0 in
     k < modulus c o /\ (wval w = wval (G o k) \/ clash sha256 (dec_string o k w) (dec_string o k (G o k)))).
Proof.
  induction z as [|w z IH]; intros i y r; cbn [decode_loop length].
  - intros [= <-] Hy. split; [lia|]. split; auto. split; auto. intros j w Hj. destruct j; discriminate.
  - cbn [dk_hashes dk_offset]. unfold idx at 1.
    destruct (nth_error (gs_d s) i) as [hs|] eqn:Ei; [|discriminate].
    assert (Hi : (i < num_outputs c)%nat). { rewrite <- gs_d_length. apply nth_error_Some. congruence. }
    pose proof (gs_d_idx i Hi) as Eh. unfold idx in Eh. rewrite Ei in Eh. inversion Eh; subst hs. cbn [unwrap obind].
    destruct (decode_search _ _ _ _ _) as [[k|]| | |] eqn:Es; try discriminate. cbn [obind].
    intros E Hy. rewrite set_idx_lt in E by lia. cbn [obind] in E.
    apply IH in E. 2:{ now rewrite set_nth_length. }
    destruct E as (Hl & Hr & Hout & Hin). split; [lia|]. split; auto.
    assert (Hki : nth i r 0 = k). { rewrite Hout by lia. now rewrite nth_set_nth_same by lia. }
    split.
    + intros j Hj. rewrite Hout by lia. rewrite nth_set_nth_other by lia. reflexivity.
    + intros [|j] w' Hw; cbn [nth_error] in Hw.
      * inversion Hw; subst w'. rewrite Nat.add_0_r. cbv zeta. rewrite Hki. now apply search_sound in Es.
      * specialize (Hin j w' Hw). rewrite <- Nat.add_succ_comm. exact Hin.
Qed.
End Dec.
End Circ.
End Garbling.
