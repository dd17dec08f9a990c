(** Garbling and evaluation use the hash function on strings of 40 bytes only; the strings of 42 bytes are those
    the keys are hashes of. *)
From Coq Require Import List NArith Bool Arith Lia.
From Verif Require Import Base MUtil MWires MCircuit MGarble MBincode MProc MMany MFpake PBase PProc PBincode SpecCircuit.
Import ListNotations.
Open Scope N_scope.

(** ** Outcomes of two computations *)
Definition orel {A B} (R : A -> B -> Prop) (o : outcome A) (o' : outcome B) : Prop :=
  match o, o' with
  | Ok a, Ok b => R a b
  | Err e, Err e' => e = e'
  | Panic r, Panic r' => r = r'
  | UB, UB => True
  | _, _ => False
  end.
Definition same {A} (P : A -> Prop) (a b : A) : Prop := a = b /\ P a.
Definition oall {A} (P : A -> Prop) (o : outcome A) : Prop := match o with Ok a => P a | _ => True end.

Lemma orel_bind {A B C D} (R : A -> B -> Prop) (S : C -> D -> Prop) o o' k k' :
  orel R o o' -> (forall a b, R a b -> orel S (k a) (k' b)) -> orel S (obind o k) (obind o' k').
Proof. destruct o, o'; cbn; intros H K; try contradiction; auto. Qed.
Lemma orel_same {A} (P : A -> Prop) o : oall P o -> orel (same P) o o.
Proof. destruct o; cbn; auto. intros H. split; auto. Qed.
Lemma orel_refl {A} (o : outcome A) : orel eq o o.
Proof. destruct o; cbn; auto. Qed.
Lemma orel_bind_same {A C D} (P : A -> Prop) (S : C -> D -> Prop) o k k' :
  oall P o -> (forall a, P a -> orel S (k a) (k' a)) -> orel S (obind o k) (obind o k').
Proof. intros H K. destruct o; cbn; auto. Qed.
Lemma orel_same_eq {A} (P : A -> Prop) o o' : orel (same P) o o' -> o' = o /\ oall P o.
Proof. destruct o, o'; cbn; intros H; try contradiction; try (subst; auto; fail). destruct H as [-> H]. auto. Qed.
Lemma oall_bind {A B} (P : A -> Prop) (Q : B -> Prop) o k : oall P o -> (forall a, P a -> oall Q (k a)) -> oall Q (obind o k).
Proof. destruct o; cbn; auto. Qed.
Lemma oall_True {A} (o : outcome A) : oall (fun _ => True) o.
Proof. destruct o; cbn; auto. Qed.
Lemma orel_foldM {A S S'} (R : S -> S' -> Prop) (f : S -> A -> outcome S) (f' : S' -> A -> outcome S') l :
  (forall s s' a, In a l -> R s s' -> orel R (f s a) (f' s' a)) -> forall s s', R s s' -> orel R (foldM f l s) (foldM f' l s').
Proof.
  induction l as [|a l IH]; intros Hf s s' H; cbn [foldM]; [exact H|].
  eapply orel_bind; [apply Hf; [now left|exact H]|]. intros b b' Hb. apply IH; auto. intros; apply Hf; auto. now right.
Qed.
Lemma oall_foldM {A S} (P : S -> Prop) (f : S -> A -> outcome S) l :
  (forall s a, In a l -> P s -> oall P (f s a)) -> forall s, P s -> oall P (foldM f l s).
Proof.
  induction l as [|a l IH]; intros Hf s H; cbn [foldM]; [exact H|].
  eapply oall_bind; [apply Hf; [now left|exact H]|]. intros b Hb. apply IH; auto. intros; apply Hf; auto. now right.
Qed.
Lemma oall_mapM {A B} (P : B -> Prop) (f : A -> outcome B) l : (forall a, In a l -> oall P (f a)) -> oall (Forall P) (mapM f l).
Proof.
  induction l as [|a l IH]; intros Hf; cbn [mapM]; [constructor|].
  eapply oall_bind; [apply Hf; now left|]. intros b Hb. eapply oall_bind; [apply IH; intros; apply Hf; now right|].
  intros bs Hbs. constructor; auto.
Qed.
Lemma oall_mapM_length {A B} (f : A -> outcome B) l : oall (fun m => length m = length l) (mapM f l).
Proof. destruct (mapM f l) eqn:E; cbn; auto. eapply mapM_length; eauto. Qed.
Lemma oall_zipM_length {A B C} (f : A -> B -> outcome C) l : forall m, oall (fun r => length r = Nat.min (length l) (length m)) (zipM f l m).
Proof.
  induction l as [|a l IH]; intros [|b m]; cbn [zipM]; try reflexivity.
  eapply oall_bind; [apply oall_True|]. intros c _. eapply oall_bind; [apply IH|]. intros r Hr. cbn in *. lia.
Qed.
Lemma oall_idx {A} (P : A -> Prop) l i : Forall P l -> oall P (idx l i).
Proof. intros H. destruct (idx l i) eqn:E; cbn; auto. apply idx_inv in E. apply nth_error_In in E. rewrite Forall_forall in H. auto. Qed.
Lemma set_idx_inv {A} (l : list A) i x m : set_idx l i x = Ok m -> m = set_nth l i x.
Proof. unfold set_idx. destruct (Nat.ltb i (length l)); intros E; congruence. Qed.
Lemma oall_set_idx {A} (P : A -> Prop) l i x : Forall P l -> P x -> oall (Forall P) (set_idx l i x).
Proof. intros H Hx. destruct (set_idx l i x) eqn:E; cbn; auto. apply set_idx_inv in E. subst. now apply Forall_set_nth. Qed.

(** ** Lengths of labels *)
Definition len32 (w : wire) : Prop := length (wval w) = 32%nat.
Lemma to_u16s_length l : forall n, length l = (2 * n)%nat -> length (to_u16s l) = n.
Proof.
  intros n. revert l. induction n as [|n IH]; intros [|a [|b l]] H; cbn in *; try lia. rewrite (IH l) by lia. reflexivity.
Qed.
Lemma of_u16s_length l : length (of_u16s l) = (2 * length l)%nat.
Proof. unfold of_u16s. induction l as [|a l IH]; cbn in *; lia. Qed.
Lemma len_wmap w op : len32 w -> oall len32 (wmap w op).
Proof.
  intros H. unfold wmap. eapply oall_bind; [apply oall_mapM_length|]. intros v Hv. unfold len32. cbn. now rewrite Hv.
Qed.
Lemma len_wmap16 p w op : len32 w -> oall len32 (wmap16 p w op).
Proof.
  intros H. unfold wmap16. eapply oall_bind; [apply oall_mapM_length|]. intros v Hv. eapply oall_bind; [apply oall_True|]. intros _ _.
  unfold len32. cbn [wval oall]. rewrite of_u16s_length, Hv, (to_u16s_length _ 16) by exact H. reflexivity.
Qed.
Lemma len_wmap2 p a b op : len32 a -> len32 b -> oall len32 (wmap2 p a b op).
Proof.
  intros Ha Hb. unfold wmap2. eapply oall_bind; [apply oall_True|]. intros _ _. eapply oall_bind; [apply oall_zipM_length|].
  intros v Hv. unfold len32 in *. cbn. now rewrite Hv, Ha, Hb.
Qed.
Lemma len_wmap2_16 p a b op : len32 a -> len32 b -> oall len32 (wmap2_16 p a b op).
Proof.
  intros Ha Hb. unfold wmap2_16. eapply oall_bind; [apply oall_True|]. intros _ _. eapply oall_bind; [apply oall_zipM_length|].
  intros v Hv. eapply oall_bind; [apply oall_True|]. intros _ _. unfold len32 in *. cbn [wval oall].
  rewrite of_u16s_length, Hv, !(to_u16s_length _ 16) by assumption. reflexivity.
Qed.
Lemma len_wadd p a b : len32 a -> len32 b -> oall len32 (wadd p a b).
Proof. intros. unfold wadd. destruct (wdom a); auto using len_wmap2, len_wmap2_16. Qed.
Lemma len_wsub p a b : len32 a -> len32 b -> oall len32 (wsub p a b).
Proof. intros. unfold wsub. destruct (wdom a); auto using len_wmap2, len_wmap2_16. Qed.
Lemma len_wneg p a : len32 a -> oall len32 (wneg p a).
Proof. intros. unfold wneg. destruct (wdom a); auto using len_wmap, len_wmap16. Qed.
Lemma len_wmul p a r : len32 a -> oall len32 (wmul p a r).
Proof. intros. unfold wmul. eapply oall_bind; [apply oall_True|]. intros _ _. destruct (wdom a); auto using len_wmap, len_wmap16. Qed.
Lemma len_from_array p v d : length v = 32%nat -> oall len32 (from_array p v d).
Proof. intros H. unfold from_array. destruct d; try exact H; [apply len_wmap|apply len_wmap16]; exact H. Qed.
Lemma len_wsum p l : Forall len32 l -> oall len32 (wsum p l).
Proof.
  intros H. unfold wsum. destruct l as [|w l]; cbn [oall]; auto. inversion H; subst. apply oall_foldM; auto.
  intros s a Hin Hs. apply len_wadd; auto. rewrite Forall_forall in *. auto.
Qed.
Lemma len_wire_new m r : length r = 32%nat -> oall len32 (wire_new m r).
Proof. intros H. unfold wire_new. eapply oall_bind; [apply oall_True|]. intros d _. exact H. Qed.
Lemma oall_set_idx_length {A} (l : list A) i x : oall (fun m => length m = length l) (set_idx l i x).
Proof. destruct (set_idx l i x) eqn:E; cbn; auto. apply set_idx_inv in E. subst. apply set_nth_length. Qed.
Lemma len_wire_delta m r : length r = 32%nat -> oall len32 (wire_delta m r).
Proof.
  intros H. unfold wire_delta. eapply oall_bind; [apply len_wire_new, H|]. intros w Hw.
  destruct (wdom w).
  - eapply oall_bind; [apply oall_True|]. intros b _. eapply oall_bind; [apply oall_set_idx_length|]. intros v Hv. unfold len32. cbn. now rewrite Hv.
  - eapply oall_bind; [apply oall_set_idx_length|]. intros v Hv. unfold len32. cbn. now rewrite Hv.
  - eapply oall_bind; [apply oall_set_idx_length|]. intros v Hv. unfold len32. cbn [oall wval]. rewrite of_u16s_length, Hv, (to_u16s_length _ 16) by exact Hw. reflexivity.
  - eapply oall_bind; [apply oall_set_idx_length|]. intros v Hv. unfold len32. cbn. now rewrite Hv.
  - eapply oall_bind; [apply oall_set_idx_length|]. intros v Hv. unfold len32. cbn [oall wval]. rewrite of_u16s_length, Hv, (to_u16s_length _ 16) by exact Hw. reflexivity.
Qed.

(** ** Two hash functions that agree on short strings *)
Definition agrees (sha sha' : bytes -> bytes) : Prop := forall m, (length m <= 41)%nat -> sha' m = sha m.
Definition short32 (sha : bytes -> bytes) : Prop := forall m, (length m <= 41)%nat -> length (sha m) = 32%nat.
Lemma len_app8 (w : wire) i : len32 w -> (length (usize_be i ++ wval w) <= 41)%nat /\ (length (wval w ++ usize_be i) <= 41)%nat.
Proof. intros H. unfold usize_be. rewrite !app_length, be_bytes_length, H. lia. Qed.

Section Agree.
Variables sha sha' : bytes -> bytes.
Variable p : profile.
Hypothesis Hs : short32 sha.
Hypothesis Ha : agrees sha sha'.

Lemma agree_hash_wire i w t : len32 w -> hash_wire sha' p i w t = hash_wire sha p i w t.
Proof. intros H. unfold hash_wire. rewrite Ha; [reflexivity|]. now apply len_app8. Qed.
Lemma agree_hash_half w j : len32 w -> hash_half sha' p w j = hash_half sha p w j.
Proof. intros H. unfold hash_half. rewrite Ha; [reflexivity|]. now apply len_app8. Qed.
Lemma len_hash_wire i w t : len32 w -> oall len32 (hash_wire sha p i w t).
Proof. intros H. apply len_from_array, Hs. now apply len_app8. Qed.
Lemma len_hash_half w j : len32 w -> oall len32 (hash_half sha p w j).
Proof. intros H. apply len_from_array, Hs. now apply len_app8. Qed.

Definition dl_len (dl : deltas) : Prop := forall m w, alookup N.eqb m dl = Some w -> len32 w.
Lemma len_dlookup dl m : dl_len dl -> oall len32 (dlookup m dl).
Proof. intros H. unfold dlookup. destruct (alookup N.eqb m dl) eqn:E; cbn; auto. eapply H; eauto. Qed.

Ltac known l := eapply orel_bind_same; [first [apply l; auto | apply oall_True]|].
Ltac step_ l := eapply orel_bind_same; [l|].

Lemma agree_proj dl ws g k : dl_len dl -> Forall len32 ws ->
  orel (same (fun wt => len32 (fst wt))) (garble_proj sha p dl ws g k) (garble_proj sha' p dl ws g k).
Proof.
  intros Hd Hw. unfold garble_proj.
  eapply orel_bind_same; [apply oall_True|]. intros ii _.
  eapply orel_bind_same; [apply oall_idx; exact Hw|]. intros wi Hwi.
  eapply orel_bind_same; [apply len_dlookup, Hd|]. intros dm Hdm.
  eapply orel_bind_same; [apply len_dlookup, Hd|]. intros dn Hdn.
  eapply orel_bind_same; [apply len_wmul, Hdm|]. intros dmc Hdmc.
  eapply orel_bind_same; [apply len_wsub; [exact Hwi|exact Hdmc]|]. intros wi0 Hwi0.
  rewrite agree_hash_wire by exact Hwi0.
  eapply orel_bind_same; [apply len_hash_wire; assumption|]. intros hw Hhw.
  eapply orel_bind_same; [apply oall_True|]. intros y _.
  eapply orel_bind_same; [apply oall_True|]. intros py _.
  eapply orel_bind_same; [apply len_wmul, Hdn|]. intros dny Hdny.
  eapply orel_bind_same; [apply len_wadd; [exact Hhw|exact Hdny]|]. intros w Hw1.
  eapply orel_bind_same; [apply len_wneg, Hw1|]. intros w2 Hw2.
  eapply orel_bind with (R := eq).
  - apply orel_foldM; [|reflexivity]. intros tbl ? xn _ <-.
    eapply orel_bind_same; [apply len_wmul, Hdm|]. intros dmx Hdmx.
    eapply orel_bind_same; [apply len_wadd; [exact Hwi|exact Hdmx]|]. intros wx Hwx.
    rewrite agree_hash_wire by exact Hwx. apply orel_refl.
  - intros tbl ? <-. cbn. split; auto.
Qed.

Lemma oall_if {A} (P : A -> Prop) (b : bool) (x y : outcome A) : oall P x -> oall P y -> oall P (if b then x else y).
Proof. now destruct b. Qed.
Lemma agree_and dl ws g j0 j1 : dl_len dl -> Forall len32 ws ->
  orel (same (fun wt => len32 (fst wt))) (garble_and sha p dl ws g j0 j1) (garble_and sha' p dl ws g j0 j1).
Proof.
  intros Hd Hw. unfold garble_and.
  eapply orel_bind_same; [apply len_dlookup, Hd|]. intros delta Hdelta.
  eapply orel_bind_same; [apply oall_True|]. intros ia _.
  eapply orel_bind_same; [apply oall_idx; exact Hw|]. intros wa Hwa.
  eapply orel_bind_same; [apply oall_True|]. intros ib _.
  eapply orel_bind_same; [apply oall_idx; exact Hw|]. intros wb Hwb.
  cbv zeta. rewrite !(agree_hash_half wa), !(agree_hash_half wb) by assumption.
  eapply orel_bind_same; [apply len_hash_half; assumption|]. intros ha0 Hha0.
  eapply orel_bind_same; [apply len_wadd; [exact Hwa|exact Hdelta]|]. intros wad Hwad.
  rewrite (agree_hash_half wad) by exact Hwad.
  eapply orel_bind_same; [apply len_hash_half; assumption|]. intros ha1 Hha1.
  eapply orel_bind_same; [apply len_wadd; [exact Hha0|exact Hha1]|]. intros tg0 Htg0.
  eapply orel_bind_same; [apply oall_if; [apply len_wadd; [exact Htg0|exact Hdelta]|exact Htg0]|]. intros tg Htg.
  eapply orel_bind_same; [apply len_hash_half; assumption|]. intros wg0 Hwg0.
  eapply orel_bind_same; [apply oall_if; [apply len_wadd; [exact Hwg0|exact Htg]|exact Hwg0]|]. intros wg Hwg.
  eapply orel_bind_same; [apply len_hash_half; assumption|]. intros hb0 Hhb0.
  eapply orel_bind_same; [apply len_wadd; [exact Hwb|exact Hdelta]|]. intros wbd Hwbd.
  rewrite (agree_hash_half wbd) by exact Hwbd.
  eapply orel_bind_same; [apply len_hash_half; assumption|]. intros hb1 Hhb1.
  eapply orel_bind_same; [apply len_wadd; [exact Hhb0|exact Hhb1]|]. intros te0 Hte0.
  eapply orel_bind_same; [apply len_wadd; [exact Hte0|exact Hwa]|]. intros te Hte.
  eapply orel_bind_same; [apply len_hash_half; assumption|]. intros we0 Hwe0.
  eapply orel_bind_same.
  { apply oall_if; [|exact Hwe0]. eapply oall_bind; [apply len_wadd; [exact Hte|exact Hwa]|]. intros s Hs'. apply len_wadd; [exact Hwe0|exact Hs']. }
  intros we Hwe. eapply orel_bind_same; [apply len_wadd; [exact Hwg|exact Hwe]|]. intros w Hw1. cbn. split; auto.
Qed.

(** States that differ in the decoding information only, which is made of hashes of the same strings. *)
Definition sim_state (s s' : gstate) : Prop :=
  gs_wires s' = gs_wires s /\ gs_f s' = gs_f s /\ gs_half s' = gs_half s /\ gs_j0 s' = gs_j0 s /\ gs_j1 s' = gs_j1 s /\
  Forall len32 (gs_wires s) /\
  exists strs, Forall (Forall (fun x : bytes => length x = 42%nat)) strs /\ gs_d s = map (map sha) strs /\ gs_d s' = map (map sha') strs.

Lemma agree_label dl s s' g : dl_len dl -> sim_state s s' -> orel sim_state (garble_label sha p dl s g) (garble_label sha' p dl s' g).
Proof.
  intros Hd (Ew & Ef & Eh & E0 & E1 & Hw & Hstrs). unfold garble_label. rewrite Ew, Ef, Eh, E0, E1.
  assert (Hnew : forall w, len32 w -> Forall len32 (gs_wires s ++ [w])) by (intros w H; apply Forall_app; split; auto).
  destruct (g_kind g) as [|c|k|].
  - eapply orel_bind_same; [apply oall_mapM; intros; apply oall_idx; exact Hw|]. intros ins Hins.
    eapply orel_bind_same; [apply len_wsum, Hins|]. intros w Hl. exact (conj eq_refl (conj eq_refl (conj eq_refl (conj eq_refl (conj eq_refl (conj (Hnew w Hl) Hstrs)))))).
  - eapply orel_bind_same; [apply oall_True|]. intros ii _.
    eapply orel_bind_same; [apply oall_idx; exact Hw|]. intros wi Hwi.
    eapply orel_bind_same; [apply len_wmul, Hwi|]. intros w Hl. exact (conj eq_refl (conj eq_refl (conj eq_refl (conj eq_refl (conj eq_refl (conj (Hnew w Hl) Hstrs)))))).
  - eapply orel_bind; [apply agree_proj; auto|]. intros [w tbl] ? [<- Hl]. exact (conj eq_refl (conj eq_refl (conj eq_refl (conj eq_refl (conj eq_refl (conj (Hnew w Hl) Hstrs)))))).
  - eapply orel_bind; [apply agree_and; auto|]. intros [w t] ? [<- Hl]. exact (conj eq_refl (conj eq_refl (conj eq_refl (conj eq_refl (conj eq_refl (conj (Hnew w Hl) Hstrs)))))).
Qed.

(** The decoding information as strings. *)
Definition dec_strings (dl : deltas) (ws : list wire) (g : gate) : outcome (list bytes) :=
  mapM (fun xn =>
    let x := N.of_nat xn in
    let* w := idx ws (g_output g) in
    let* d := dlookup (output_domain g) dl in
    let* dx := wmul p d x in
    let* wx := wadd p w dx in
    Ok (usize_be (g_output g) ++ u16_be x ++ wval wx)) (seq 0 (N.to_nat (output_domain g))).
Lemma mapM_post {A B C} (f : A -> outcome B) (h : B -> C) l : mapM (fun a => let* b := f a in Ok (h b)) l = let* m := mapM f l in Ok (map h m).
Proof. induction l as [|a l IH]; cbn; auto. destruct (f a); cbn; auto. rewrite IH. destruct (mapM f l); reflexivity. Qed.
Lemma garble_dec_strings h dl ws g : garble_dec h p dl ws g = let* strs := dec_strings dl ws g in Ok (map h strs).
Proof.
  unfold garble_dec, dec_strings. rewrite <- mapM_post. apply mapM_ext. intros xn _. cbv zeta.
  destruct (idx ws (g_output g)); cbn; auto. destruct (dlookup (output_domain g) dl); cbn; auto.
  destruct (wmul p a0 (N.of_nat xn)); cbn; auto. destruct (wadd p a a1); cbn; auto.
Qed.
Lemma len_dec_strings dl ws g : dl_len dl -> Forall len32 ws -> oall (Forall (fun x : bytes => length x = 42%nat)) (dec_strings dl ws g).
Proof.
  intros Hd Hw. unfold dec_strings. apply oall_mapM. intros xn _. cbv zeta.
  eapply oall_bind; [apply oall_idx; exact Hw|]. intros w Hl. eapply oall_bind; [apply len_dlookup, Hd|]. intros d Hdl.
  eapply oall_bind; [apply len_wmul, Hdl|]. intros dx Hdx. eapply oall_bind; [apply len_wadd; [exact Hl|exact Hdx]|]. intros wx Hwx.
  cbn [oall]. unfold usize_be, u16_be. rewrite !app_length, !be_bytes_length, Hwx. reflexivity.
Qed.
Lemma agree_gate dl start s s' g : dl_len dl -> sim_state s s' -> orel sim_state (garble_gate sha p dl start s g) (garble_gate sha' p dl start s' g).
Proof.
  intros Hd H. unfold garble_gate. eapply orel_bind; [apply agree_label; eauto|]. clear s s' H. intros s s' H.
  destruct (Nat.leb start (g_output g)); [|exact H].
  destruct H as (Ew & Ef & Eh & E0 & E1 & Hw & strs & Hl & Ed & Ed').
  rewrite !garble_dec_strings, Ew. pose proof (len_dec_strings dl (gs_wires s) g Hd Hw) as Hn.
  destruct (dec_strings dl (gs_wires s) g) as [n| | |]; cbn; auto.
  unfold sim_state; cbn. do 6 (split; [first [assumption|reflexivity]|]). exists (strs ++ [n]). split; [apply Forall_app; split; auto|]. rewrite !map_app, Ed, Ed'. auto.
Qed.

Variable rd : N -> bytes.
Variable ri : nat -> bytes.
Hypothesis Hrd : forall m, length (rd m) = 32%nat.
Hypothesis Hri : forall i, length (ri i) = 32%nat.
Lemma len_ensure dl m : dl_len dl -> oall dl_len (ensure_delta rd dl m).
Proof.
  intros H. unfold ensure_delta. destruct (alookup N.eqb m dl); [exact H|].
  eapply oall_bind; [apply len_wire_delta, Hrd|]. intros w Hw m' w' E.
  destruct (N.eq_dec m' m) as [->|Hne].
  - rewrite alookup_ainsert_same in E by apply N.eqb_refl. congruence.
  - rewrite alookup_ainsert_other in E; [eapply H; eauto|apply N.eqb_eq|exact Hne].
Qed.
Lemma len_deltas gs : oall dl_len (garble_deltas rd gs).
Proof.
  unfold garble_deltas. apply oall_foldM; [|intros m w; discriminate]. intros dl g _ H.
  eapply oall_bind; [apply len_ensure, H|]. intros dl' H'. destruct (g_kind g) as [| |[t|t]|]; auto using len_ensure.
Qed.
Lemma len_inputs doms : oall (Forall len32) (garble_inputs ri doms).
Proof. unfold garble_inputs. apply oall_mapM. intros im _. apply len_wire_new, Hri. Qed.
Definition sim_run (r r' : encoding_key * nat * gstate) : Prop := fst r' = fst r /\ sim_state (snd r) (snd r').
Lemma agree_run c : orel sim_run (garble_run sha p rd ri c) (garble_run sha' p rd ri c).
Proof.
  unfold garble_run. eapply orel_bind_same; [apply len_deltas|]. intros dl Hd.
  eapply orel_bind_same; [apply len_inputs|]. intros ws Hw.
  eapply orel_bind_same; [apply oall_True|]. intros ins _.
  eapply orel_bind_same; [apply oall_True|]. intros start _.
  eapply orel_bind.
  - apply orel_foldM with (R := sim_state); [intros; now apply agree_gate|].
    unfold sim_state. cbn. do 6 (split; [auto; fail|]). exists []. auto.
  - intros s s' H. split; [reflexivity|exact H].
Qed.
Definition sim_dk (d d' : decoding_key) : Prop := dk_offset d' = dk_offset d /\ exists strs, Forall (Forall (fun x : bytes => length x = 42%nat)) strs /\ dk_hashes d = map (map sha) strs /\ dk_hashes d' = map (map sha') strs.
Lemma agree_garble c : orel (fun r r' => fst r' = fst r /\ sim_dk (snd r) (snd r')) (garble sha p rd ri c) (garble sha' p rd ri c).
Proof.
  unfold garble. eapply orel_bind; [apply agree_run|]. intros [[ek st] s] [[ek' st'] s'] [E (Ew & Ef & Eh & _ & _ & _ & strs)].
  cbn in E, Ef, Eh, strs. inversion E; subst. cbn. rewrite Ef, Eh. split; [reflexivity|]. split; [reflexivity|exact strs].
Qed.

(** ** Evaluation of any circuit *)
Definition slot_len (o : option wire) : Prop := match o with Some w => len32 w | None => True end.
Definition tables_len (gc : garbled) : Prop :=
  (forall k t, alookup Nat.eqb k (gc_f gc) = Some t -> Forall len32 t) /\ (forall k t, alookup Nat.eqb k (gc_half gc) = Some t -> len32 (fst t) /\ len32 (snd t)).
Lemma len_read ws i : Forall slot_len ws -> oall len32 (read_init ws i).
Proof. intros H. unfold read_init. eapply oall_bind; [apply oall_idx; exact H|]. intros [w|] Hw; [exact Hw|exact I]. Qed.
Lemma agree_eval_gate gc s g : tables_len gc -> Forall slot_len (fst (fst s)) ->
  orel (same (fun s => Forall slot_len (fst (fst s)))) (eval_garbled_gate sha p gc s g) (eval_garbled_gate sha' p gc s g).
Proof.
  intros [Hf Hh] Hs'. destruct s as [[ws j0] j1]. cbn [fst] in Hs'. unfold eval_garbled_gate.
  eapply orel_bind with (R := same (fun r => len32 (fst (fst r)))).
  - destruct (g_kind g) as [|c|k|].
    + eapply orel_bind_same; [apply oall_mapM; intros; apply len_read; exact Hs'|]. intros ins Hins.
      eapply orel_bind_same; [apply len_wsum, Hins|]. intros w Hw. split; auto.
    + eapply orel_bind_same; [apply oall_True|]. intros ii _.
      eapply orel_bind_same; [apply len_read, Hs'|]. intros wi Hwi.
      eapply orel_bind_same; [apply len_wmul, Hwi|]. intros w Hw. split; auto.
    + eapply orel_bind_same; [apply oall_True|]. intros ii _.
      eapply orel_bind_same; [apply len_read, Hs'|]. intros wi Hwi.
      eapply orel_bind_same with (P := Forall len32).
      { destruct (alookup Nat.eqb (g_output g) (gc_f gc)) eqn:E; cbn; eauto. }
      intros tbl Htbl. eapply orel_bind_same; [apply oall_idx; exact Htbl|]. intros ci Hci.
      rewrite agree_hash_wire by exact Hwi.
      eapply orel_bind_same; [apply len_hash_wire; assumption|]. intros hw Hhw.
      eapply orel_bind_same; [apply len_wsub; [exact Hci|exact Hhw]|]. intros w Hw. split; auto.
    + eapply orel_bind_same; [apply oall_True|]. intros a _.
      eapply orel_bind_same; [apply oall_True|]. intros b _.
      eapply orel_bind_same; [apply len_read, Hs'|]. intros wa Hwa.
      eapply orel_bind_same; [apply len_read, Hs'|]. intros wb Hwb.
      cbv zeta. rewrite (agree_hash_half wa), (agree_hash_half wb) by assumption.
      eapply orel_bind_same with (P := fun t => len32 (fst t) /\ len32 (snd t)).
      { destruct (alookup Nat.eqb (g_output g) (gc_half gc)) eqn:E; cbn; eauto. }
      intros [tg te] [Htg Hte]. cbn [fst snd] in *.
      eapply orel_bind_same; [apply len_hash_half; assumption|]. intros wg0 Hwg0.
      eapply orel_bind_same; [apply oall_if; [apply len_wadd; [exact Hwg0|exact Htg]|exact Hwg0]|]. intros wg Hwg.
      eapply orel_bind_same; [apply len_hash_half; assumption|]. intros we0 Hwe0.
      eapply orel_bind_same.
      { apply oall_if; [|exact Hwe0]. eapply oall_bind; [apply len_wadd; [exact Hte|exact Hwa]|]. intros s Hss. apply len_wadd; [exact Hwe0|exact Hss]. }
      intros we Hwe. eapply orel_bind_same; [apply len_wadd; [exact Hwg|exact Hwe]|]. intros w Hw. split; auto.
  - intros [[w j0'] j1'] ? [<- Hw]. cbn [fst] in Hw. eapply orel_bind_same; [apply oall_set_idx; [exact Hs'|exact Hw]|].
    intros ws' Hws'. split; auto.
Qed.
Lemma agree_evaluate gc x : tables_len gc -> Forall len32 x -> orel (same (Forall len32)) (evaluate sha p gc x) (evaluate sha' p gc x).
Proof.
  intros Ht Hx. unfold evaluate. eapply orel_bind_same; [apply oall_True|]. intros _ _.
  eapply orel_bind_same with (P := Forall slot_len).
  { apply oall_foldM; [|apply Forall_repeat; exact I]. intros ws i _ Hw. eapply oall_bind; [apply oall_idx; exact Hx|].
    intros xi Hxi. apply oall_set_idx; auto. }
  intros ws Hw. eapply orel_bind.
  - apply orel_foldM with (R := same (fun s : list (option wire) * nat * nat => Forall slot_len (fst (fst s)))); [|split; auto].
    intros s ? g _ [<- Hs']. now apply agree_eval_gate.
  - intros [[ws' j0] j1] ? [<- Hw']. cbn [fst] in Hw'. destruct (Nat.leb _ _); [|reflexivity]. apply orel_same. apply oall_mapM.
    intros [w|] Hin; [|exact I]. apply Forall_skipn with (n := (num_wires (gc_circuit gc) - num_outputs (gc_circuit gc))%nat) in Hw'.
    rewrite Forall_forall in Hw'. exact (Hw' _ Hin).
Qed.
End Agree.

(** ** Decoded labels *)
Definition pall {A} (P : A -> Prop) (d : parser A) : Prop := forall l, oall (fun at_ => P (fst at_)) (d l).
Lemma pall_many {A} (P : A -> Prop) d n : pall P d -> forall l, oall (fun r => Forall P (fst r)) (dec_many d n l).
Proof.
  intros Hd. induction n as [|n IH]; intros l; cbn [dec_many]; [constructor|].
  eapply oall_bind; [apply Hd|]. intros [a t] Ha. eapply oall_bind; [apply IH|]. intros [as_ t'] Has. cbn. constructor; auto.
Qed.
Lemma pall_vec {A} (P : A -> Prop) d : pall P d -> pall (Forall P) (dec_vec d).
Proof.
  intros Hd l. unfold dec_vec. eapply oall_bind; [apply oall_True|]. intros [n l1] _.
  destruct (N.of_nat (length l1) <? n); [exact I|]. apply pall_many, Hd.
Qed.
Lemma pall_wire : pall len32 dec_wire.
Proof.
  intros l. unfold dec_wire. eapply oall_bind; [apply oall_True|]. intros [d l1] _.
  destruct (take 32 l1) as [[v l2]| | |] eqn:E; cbn; auto. apply take_inv in E. unfold len32. cbn. tauto.
Qed.
Lemma pall_map {V} (P : V -> Prop) d : pall P d -> pall (fun m => forall k v, alookup Nat.eqb k m = Some v -> P v) (dec_map d).
Proof.
  intros Hd l. unfold dec_map. eapply oall_bind.
  - apply (pall_vec (fun kv : nat * V => P (snd kv))). intros l'. unfold dec_entry. eapply oall_bind; [apply oall_True|].
    intros [k l1] _. eapply oall_bind; [apply Hd|]. intros [v l2] Hv. exact Hv.
  - intros [es l1] Hes. cbn [fst oall] in *.
    assert (G : forall es m, Forall (fun kv : nat * V => P (snd kv)) es -> (forall k v, alookup Nat.eqb k m = Some v -> P v) ->
      forall k v, alookup Nat.eqb k (fold_left (fun m kv => ainsert Nat.eqb (fst kv) (snd kv) m) es m) = Some v -> P v).
    { clear. induction es as [|[k0 v0] es IH]; intros m Hes Hm; cbn [fold_left]; auto. inversion Hes; subst. apply IH; auto.
      intros k v E. cbn [fst snd] in *. destruct (Nat.eq_dec k k0) as [->|Hne].
      - rewrite alookup_ainsert_same in E by apply Nat.eqb_refl. congruence.
      - rewrite alookup_ainsert_other in E; [eapply Hm; eauto|apply Nat.eqb_eq|exact Hne]. }
    apply G; auto. intros k v; discriminate.
Qed.
Lemma pall_garbled : pall tables_len dec_garbled.
Proof.
  intros l. unfold dec_garbled. eapply oall_bind; [apply oall_True|]. intros [c l1] _.
  eapply oall_bind; [apply pall_map, pall_vec, pall_wire|]. intros [f l2] Hf.
  eapply oall_bind.
  { apply (pall_map (fun w : wire * wire => len32 (fst w) /\ len32 (snd w))). intros l'. unfold dec_wire2.
    eapply oall_bind; [apply pall_wire|]. intros [a l3] Ha'. eapply oall_bind; [apply pall_wire|]. intros [b l4] Hb. cbn. auto. }
  intros [h l3] Hh. cbn in *. split; cbn; auto.
Qed.
Lemma oall_deserialize {A} (P : A -> Prop) d m : pall P d -> oall P (deserialize d m).
Proof. intros H. unfold deserialize. eapply oall_bind; [apply H|]. intros [a t] Ha'. exact Ha'. Qed.
