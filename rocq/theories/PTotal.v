(** In release mode the operations on wires, garbling and evaluation always succeed. *)
From Coq Require Import List NArith Bool Lia Arith.
From Verif Require Import Base MUtil MWires MCircuit MGarble SpecWires SpecCircuit SpecTotal PBase PWires.
Import ListNotations.
Open Scope N_scope.

Definition totals {A} (P : A -> Prop) (o : outcome A) : Prop := exists a, o = Ok a /\ P a.
Lemma tot_ok {A} (P : A -> Prop) a : P a -> totals P (Ok a).
Proof. intros H. now exists a. Qed.
Lemma tot_bind {A B} (P : A -> Prop) (Q : B -> Prop) o (f : A -> outcome B) : totals P o -> (forall a, P a -> totals Q (f a)) -> totals Q (obind o f).
Proof. intros (a & -> & Ha) H. apply H, Ha. Qed.
Lemma tot_weak {A} (P Q : A -> Prop) (o : outcome A) : totals P o -> (forall a, P a -> Q a) -> totals Q o.
Proof. intros (a & -> & Ha) H. exists a. auto. Qed.
Lemma tot_mapM {A B} (R : B -> Prop) (f : A -> outcome B) l : (forall a, In a l -> totals R (f a)) ->
  totals (fun m => length m = length l /\ Forall R m) (mapM f l).
Proof.
  induction l as [|a l IH]; intros H; cbn [mapM]; [apply tot_ok; split; auto|].
  eapply tot_bind; [apply H; now left|]. intros b Hb. eapply tot_bind; [apply IH; intros; apply H; now right|].
  intros m [L F]. apply tot_ok. cbn. split; [lia|]. now constructor.
Qed.
Lemma tot_zipM {A B C} (P : A -> Prop) (Q : B -> Prop) (R : C -> Prop) (f : A -> B -> outcome C) : (forall a b, P a -> Q b -> totals R (f a b)) ->
  forall l m, Forall P l -> Forall Q m -> length m = length l ->
  totals (fun r => length r = length l /\ Forall R r) (zipM f l m).
Proof.
  intros H. induction l as [|a l IH]; intros [|b m] FP FQ L; try discriminate; cbn [zipM]; [apply tot_ok; split; auto|].
  inversion FP; inversion FQ; subst. eapply tot_bind; [apply H; assumption|]. intros c Hc. eapply tot_bind; [apply (IH m); auto|].
  intros r [Lr F]. apply tot_ok. cbn. split; [lia|]. now constructor.
Qed.

(** ** Wires *)
Definition dom_ok (d : domain) : Prop := match d with U8 m => 0 < m < 256 | U16 m => 0 < m < 65536 | _ => True end.
Definition good (w : wire) : Prop := dom_ok (wdom w) /\ length (wval w) = 32%nat /\ bytes_ok (wval w).
(** The last component is below the modulus. *)
Definition small (w : wire) : Prop := match wdom w with U8 m | U16 m => color w < m | Binary => color w < 2 | U8MAX => color w < 256 | U16MAX => True end.
Definition kept (d : domain) (w : wire) : Prop := good w /\ wdom w = d /\ small w.

Lemma tot_any {A} (o : outcome A) a : o = Ok a -> totals (fun _ => True) o.
Proof. intros ->. now apply tot_ok. Qed.
Lemma uadd_tot w a b : totals (fun _ => True) (uadd Release w a b).
Proof. unfold uadd. destruct (_ <? _); now apply tot_ok. Qed.
Lemma usub_tot w a b : totals (fun _ => True) (usub Release w a b).
Proof. unfold usub. destruct (_ <=? _); now apply tot_ok. Qed.
Lemma umul_tot w a b : totals (fun _ => True) (umul Release w a b).
Proof. unfold umul. destruct (_ <? _); now apply tot_ok. Qed.
Lemma urem_tot a m : 0 < m -> totals (fun x => x < m) (urem a m).
Proof. intros H. unfold urem. destruct (N.eqb_spec m 0); [lia|]. apply tot_ok. apply N.mod_lt. lia. Qed.

Lemma binary_small w : wdom w = Binary -> small w.
Proof. intros E. unfold small, color. rewrite E. change 1 with (N.ones 1). rewrite N.land_ones. apply N.mod_lt. discriminate. Qed.
Lemma bytes_small m d v : d = U8 m -> length v = 32%nat -> Forall (fun x => x < m) v -> small (mkWire d v).
Proof. intros -> L F. unfold small, color. cbn [wdom wval]. rewrite Forall_forall in F. apply F, nth_In. rewrite L. cbn. lia. Qed.
Lemma max_small v : length v = 32%nat -> Forall (fun x => x < 256) v -> small (mkWire U8MAX v).
Proof. intros L F. unfold small, color. cbn [wdom wval]. rewrite Forall_forall in F. apply F, nth_In. rewrite L. cbn. lia. Qed.
Lemma words_small m d v : d = U16 m -> m < 65536 -> length v = 16%nat -> Forall (fun x => x < m) v -> small (mkWire d (of_u16s v)).
Proof.
  intros -> Hm L F. unfold small, color. cbn [wdom wval].
  rewrite to_u16s_of by (eapply Forall_impl; [|exact F]; intros; cbn in *; lia).
  rewrite Forall_forall in F. apply F, nth_In. rewrite L. cbn. lia.
Qed.
Lemma words_length v : length v = 32%nat -> length (to_u16s v) = 16%nat.
Proof. intros H. now apply to_u16s_length_aux. Qed.

Lemma kept_intro d v : dom_ok d -> length v = 32%nat -> bytes_ok v -> small (mkWire d v) -> kept d (mkWire d v).
Proof. intros D L B S. split; [split; [exact D|split; [exact L|exact B]]|]. split; [reflexivity|exact S]. Qed.
(** A map over the bytes, or the words, of a wire. *)
Lemma wmap_tot (R : N -> Prop) w op : good w -> (forall x, x < 256 -> totals R (op x)) -> (forall x, R x -> x < 256) ->
  (forall v, length v = 32%nat -> Forall R v -> small (mkWire (wdom w) v)) ->
  totals (kept (wdom w)) (wmap w op).
Proof.
  intros (D & L & B) H H' S. unfold wmap. eapply tot_bind; [apply (tot_mapM R); intros a Ha; apply H; unfold bytes_ok in B; rewrite Forall_forall in B; now apply B|].
  intros v [Lv F]. apply tot_ok. apply kept_intro; [exact D|congruence|eapply Forall_impl; [|exact F]; exact H'|]. apply S; [congruence|exact F].
Qed.
Lemma wmap16_tot (R : N -> Prop) w op : good w -> (forall x, totals R (op x)) -> (forall v, length v = 16%nat -> Forall R v -> small (mkWire (wdom w) (of_u16s v))) ->
  totals (kept (wdom w)) (wmap16 Release w op).
Proof.
  intros (D & L & B) H S. unfold wmap16. eapply tot_bind; [apply (tot_mapM R); intros; apply H|].
  intros v [Lv F]. rewrite words_length in Lv by exact L. cbn [debug_assert is_debug obind]. apply tot_ok.
  apply kept_intro; [exact D|rewrite of_u16s_length; lia|apply of_u16s_ok|]. now apply S.
Qed.
Lemma wmap2_tot (R : N -> Prop) w o op : good w -> good o -> (forall x y, x < 256 -> y < 256 -> totals R (op x y)) -> (forall x, R x -> x < 256) ->
  (forall v, length v = 32%nat -> Forall R v -> small (mkWire (wdom w) v)) -> totals (kept (wdom w)) (wmap2 Release w o op).
Proof.
  intros (D & L & B) (D' & L' & B') H H' S. unfold wmap2. cbn [debug_assert is_debug obind].
  eapply tot_bind; [apply (tot_zipM (fun x => x < 256) (fun x => x < 256) R); [exact H|exact B|exact B'|congruence]|].
  intros v [Lv F]. apply tot_ok. apply kept_intro; [exact D|congruence|eapply Forall_impl; [|exact F]; exact H'|]. apply S; [congruence|exact F].
Qed.
Lemma wmap2_16_tot (R : N -> Prop) w o op : good w -> good o -> (forall x y, totals R (op x y)) ->
  (forall v, length v = 16%nat -> Forall R v -> small (mkWire (wdom w) (of_u16s v))) -> totals (kept (wdom w)) (wmap2_16 Release w o op).
Proof.
  intros (D & L & B) (D' & L' & B') H S. unfold wmap2_16. cbn [debug_assert is_debug obind].
  eapply tot_bind; [apply (tot_zipM (fun _ => True) (fun _ => True) R); [intros; apply H|apply Forall_forall; auto|apply Forall_forall; auto|rewrite !words_length; auto]|].
  intros v [Lv F]. rewrite words_length in Lv by exact L. cbn [debug_assert is_debug obind]. apply tot_ok.
  apply kept_intro; [exact D|rewrite of_u16s_length; lia|apply of_u16s_ok|]. now apply S.
Qed.

Ltac wire_case w G :=
  let D := fresh "D" in destruct (wdom w) as [|m|m| |] eqn:D; destruct G as (G1 & G2 & G3); rewrite D in G1; cbn [dom_ok] in G1.
Lemma wadd_tot a b : good a -> good b -> totals (kept (wdom a)) (wadd Release a b).
Proof.
  intros Ga Gb. pose proof Ga as G. unfold wadd. wire_case a G; rewrite <- D.
  - apply (wmap2_tot (fun x => x < 256)); auto; [intros; apply tot_ok; now apply lxor_byte|intros; apply binary_small; exact D].
  - apply (wmap2_tot (fun x => x < m)); [auto|auto| |intros; lia|]; [intros; apply urem_tot; lia|intros; rewrite D; eapply bytes_small; eauto].
  - apply (wmap2_16_tot (fun x => x < m)); auto; [intros; apply urem_tot; lia|intros; rewrite D; eapply words_small; eauto; lia].
  - apply (wmap2_tot (fun x => x < 256)); auto; [intros; apply tot_ok; apply N.mod_lt; discriminate|intros; rewrite D; now apply max_small].
  - apply (wmap2_16_tot (fun _ => True)); auto; [intros; now apply tot_ok|intros; unfold small; cbn [wdom]; now rewrite D].
Qed.
Lemma wsub_tot a b : good a -> good b -> totals (kept (wdom a)) (wsub Release a b).
Proof.
  intros Ga Gb. pose proof Ga as G. unfold wsub. wire_case a G; rewrite <- D.
  - apply (wmap2_tot (fun x => x < 256)); auto; [intros; apply tot_ok; now apply lxor_byte|intros; apply binary_small; exact D].
  - apply (wmap2_tot (fun x => x < m)); [auto|auto| |intros; lia|]; [|intros; rewrite D; eapply bytes_small; eauto].
    intros. eapply tot_bind; [apply usub_tot|intros]. eapply tot_bind; [apply uadd_tot|intros]. apply urem_tot; lia.
  - apply (wmap2_16_tot (fun x => x < m)); auto; [|intros; rewrite D; eapply words_small; eauto; lia].
    intros. eapply tot_bind; [apply usub_tot|intros]. eapply tot_bind; [apply uadd_tot|intros]. apply urem_tot; lia.
  - apply (wmap2_tot (fun x => x < 256)); auto; [intros; apply tot_ok; apply N.mod_lt; discriminate|intros; rewrite D; now apply max_small].
  - apply (wmap2_16_tot (fun _ => True)); auto; [intros; now apply tot_ok|intros; unfold small; cbn [wdom]; now rewrite D].
Qed.
Lemma wneg_tot a : good a -> totals (kept (wdom a)) (wneg Release a).
Proof.
  intros Ga. pose proof Ga as G. unfold wneg. wire_case a G; rewrite <- D.
  - apply (wmap_tot (fun x => x < 256)); auto; [intros; apply tot_ok; now apply lxor_byte|intros; apply binary_small; exact D].
  - apply (wmap_tot (fun x => x < m)); [auto| |intros; lia|]; [|intros; rewrite D; eapply bytes_small; eauto].
    intros. eapply tot_bind; [apply usub_tot|intros]. apply urem_tot; lia.
  - apply (wmap16_tot (fun x => x < m)); auto; [|intros; rewrite D; eapply words_small; eauto; lia].
    intros. eapply tot_bind; [apply usub_tot|intros]. apply urem_tot; lia.
  - apply (wmap_tot (fun x => x < 256)); auto; [intros; apply tot_ok; apply N.mod_lt; discriminate|intros; rewrite D; now apply max_small].
  - apply (wmap16_tot (fun _ => True)); auto; [intros; now apply tot_ok|intros; unfold small; cbn [wdom]; now rewrite D].
Qed.
Lemma wmul_tot a c : good a -> totals (kept (wdom a)) (wmul Release a c).
Proof.
  intros Ga. pose proof Ga as G. unfold wmul. cbn [debug_assert is_debug obind]. wire_case a G; rewrite <- D.
  - apply (wmap_tot (fun x => x < 256)); auto; [intros x Hx; apply tot_ok; destruct (c =? 0); [reflexivity|exact Hx]|intros; apply binary_small; exact D].
  - apply (wmap_tot (fun x => x < m)); [auto| |intros; lia|]; [|intros; rewrite D; eapply bytes_small; eauto].
    intros. eapply tot_bind; [apply umul_tot|intros]. eapply tot_bind; [apply urem_tot; lia|].
    intros r Hr. cbv beta in Hr. apply tot_ok. rewrite N.mod_small by lia. exact Hr.
  - apply (wmap16_tot (fun x => x < m)); auto; [|intros; rewrite D; eapply words_small; eauto; lia].
    intros. eapply tot_bind; [apply urem_tot; lia|]. intros r Hr. cbv beta in Hr. apply tot_ok. rewrite N.mod_small by lia. exact Hr.
  - apply (wmap_tot (fun x => x < 256)); auto; [intros; apply tot_ok; apply N.mod_lt; discriminate|intros; rewrite D; now apply max_small].
  - apply (wmap16_tot (fun _ => True)); auto; [intros; now apply tot_ok|intros; unfold small; cbn [wdom]; now rewrite D].
Qed.
Lemma from_array_tot v d : dom_ok d -> length v = 32%nat -> bytes_ok v -> totals (kept d) (from_array Release v d).
Proof.
  intros G L B. unfold from_array. assert (Gw : good (mkWire d v)) by (split; [exact G|split; [exact L|exact B]]).
  destruct d as [|m|m| |] eqn:D; cbn [dom_ok] in G.
  - apply tot_ok. apply kept_intro; auto. now apply binary_small.
  - apply (wmap_tot (fun x => x < m) (mkWire (U8 m) v)); [auto| |intros; lia|]; [intros; apply urem_tot; lia|intros v0 L0 F0; apply (bytes_small m (U8 m) v0 eq_refl L0 F0)].
  - apply (wmap16_tot (fun x => x < m) (mkWire (U16 m) v)); auto; [intros; apply urem_tot; lia|intros v0 L0 F0; apply (words_small m (U16 m) v0 eq_refl ltac:(lia) L0 F0)].
  - apply tot_ok. apply kept_intro; auto. now apply max_small.
  - apply tot_ok. now apply kept_intro.
Qed.
Lemma wsum_tot d l : l <> [] -> Forall (fun w => good w /\ wdom w = d) l -> totals (fun w => good w /\ wdom w = d) (wsum Release l).
Proof.
  intros Hn F. destruct l as [|w l]; [now elim Hn|]. cbn [wsum]. inversion F as [|x y Hw Fl]; subst x y. clear Hn F. revert w Hw.
  induction l as [|x l IH]; intros w [Gw Dw]; cbn [foldM]; [now apply tot_ok|]. inversion Fl as [|y z [Gx Dx] Fl']; subst.
  eapply tot_bind; [apply (wadd_tot w x); auto|]. intros s (Gs & Ds & _). apply IH; auto.
Qed.
Lemma wsum_small d l : l <> [] -> Forall (kept d) l -> totals (kept d) (wsum Release l).
Proof.
  intros Hn F. destruct l as [|w l]; [now elim Hn|]. cbn [wsum]. inversion F as [|x y Hw Fl]; subst x y. clear Hn F. revert w Hw.
  induction l as [|x l IH]; intros w Hw; cbn [foldM]; [now apply tot_ok|]. inversion Fl as [|y z (Gx & Dx & _) Fl']; subst.
  destruct Hw as (Gw & Dw & _). eapply tot_bind; [apply (wadd_tot w x); auto|]. rewrite Dw. intros s Hs. apply IH; auto.
Qed.
Lemma domain_tot m : m < 65535 -> totals (fun d => dom_ok d /\ domain_num d = m) (domain_new m).
Proof.
  intros H. unfold domain_new. destruct (N.eqb_spec m 0); [apply tot_ok; now subst|]. destruct (N.eqb_spec m 2); [apply tot_ok; now subst|].
  destruct (N.ltb_spec m 255); [apply tot_ok; cbn; lia|]. destruct (N.eqb_spec m 256); [apply tot_ok; now subst|].
  destruct (N.ltb_spec m 65535); [apply tot_ok; cbn; lia|lia].
Qed.
Lemma set_nth_len {A} (l : list A) i x : length (set_nth l i x) = length l.
Proof. revert i. induction l as [|a l IH]; intros [|i]; cbn; auto. Qed.
(** The domain that stands for a modulus. *)
Definition stands (m : N) (d : domain) : Prop := domain_new m = Ok d.
Lemma good_intro m d v : dom_ok d -> length v = 32%nat -> bytes_ok v -> stands m d -> good (mkWire d v) /\ stands m (wdom (mkWire d v)).
Proof. intros D L B S. split; [split; [exact D|split; [exact L|exact B]]|exact S]. Qed.
Lemma wire_new_tot m r : m < 65535 -> length r = 32%nat -> bytes_ok r -> totals (fun w => good w /\ stands m (wdom w)) (wire_new m r).
Proof.
  intros Hm L B. unfold wire_new. destruct (domain_tot m Hm) as (d & E & D & _). rewrite E. cbn [obind]. apply tot_ok. apply good_intro; auto.
Qed.
Lemma wire_delta_tot m r : m < 65535 -> length r = 32%nat -> bytes_ok r -> totals (fun w => good w /\ stands m (wdom w)) (wire_delta m r).
Proof.
  intros Hm L B. unfold wire_delta. eapply tot_bind; [now apply wire_new_tot|]. intros w [(D & Lw & Bw) Sw].
  destruct (wdom w) as [|k|k| |] eqn:Ed.
  - rewrite (idx_lt (wval w) (LENGTH - 1) 0) by (rewrite Lw; cbn; lia). cbn [obind].
    rewrite set_idx_lt by (rewrite Lw; cbn; lia). cbn [obind]. apply tot_ok. apply good_intro; auto; [rewrite set_nth_len; exact Lw|]. apply Forall_set_nth; [exact Bw|]; try reflexivity.
    apply lor_1_byte. unfold bytes_ok in Bw. rewrite Forall_forall in Bw. apply Bw. apply nth_In. rewrite Lw. cbn. lia.
  - rewrite set_idx_lt by (rewrite Lw; cbn; lia). cbn [obind]. apply tot_ok. apply good_intro; auto; [rewrite set_nth_len; exact Lw|]. apply Forall_set_nth; [exact Bw|reflexivity].
  - rewrite set_idx_lt by (rewrite words_length by exact Lw; cbn; lia). cbn [obind]. apply tot_ok. apply good_intro; auto; [|apply of_u16s_ok].
    rewrite of_u16s_length, set_nth_len, words_length by exact Lw. reflexivity.
  - rewrite set_idx_lt by (rewrite Lw; cbn; lia). cbn [obind]. apply tot_ok. apply good_intro; auto; [rewrite set_nth_len; exact Lw|]. apply Forall_set_nth; [exact Bw|reflexivity].
  - rewrite set_idx_lt by (rewrite words_length by exact Lw; cbn; lia). cbn [obind]. apply tot_ok. apply good_intro; auto; [|apply of_u16s_ok].
    rewrite of_u16s_length, set_nth_len, words_length by exact Lw. reflexivity.
Qed.

(** ** Garbling *)
Definition has (dl : deltas) (q : N) : Prop := exists v, alookup N.eqb q dl = Some v.
Definition dl_good (dl : deltas) : Prop := forall q v, alookup N.eqb q dl = Some v -> good v /\ stands q (wdom v).
Lemma dlookup_tot dl q : dl_good dl -> has dl q -> totals (fun v => good v /\ stands q (wdom v)) (dlookup q dl).
Proof. intros G (v & E). unfold dlookup. rewrite E. apply tot_ok. now apply G. Qed.

Section Release.
Variable sha : bytes -> bytes.
Hypothesis Hs : hash32 sha.
Variable rd : N -> bytes.
Variable ri : nat -> bytes.
Hypothesis Hrd : forall m, length (rd m) = 32%nat /\ bytes_ok (rd m).

Lemma ensure_tot dl m : dl_good dl -> m < 65535 ->
  totals (fun dl' => dl_good dl' /\ has dl' m /\ forall q, has dl q -> has dl' q) (ensure_delta rd dl m).
Proof.
  intros G Hm. unfold ensure_delta. destruct (alookup N.eqb m dl) as [v|] eqn:E.
  - apply tot_ok. split; [exact G|]. split; [now exists v|auto].
  - eapply tot_bind; [apply wire_delta_tot; [exact Hm|apply Hrd|apply Hrd]|]. intros w Hw. apply tot_ok. split; [|split].
    + intros q v Hq. destruct (N.eq_dec q m) as [->|Hne].
      * rewrite alookup_ainsert_same in Hq by apply N.eqb_refl. injection Hq as <-. exact Hw.
      * rewrite (alookup_ainsert_other N.eqb q m w dl N.eqb_eq Hne) in Hq. now apply G.
    + exists w. apply alookup_ainsert_same. apply N.eqb_refl.
    + intros q (v & Hq). exists v. rewrite (alookup_ainsert_other N.eqb q m w dl N.eqb_eq); [exact Hq|congruence].
Qed.
(** The offsets a gate uses. *)
Definition supplied (dl : deltas) (g : gate) : Prop :=
  has dl (g_domain g) /\ match g_kind g with GProj k => has dl (proj_domain k) | _ => True end.
Lemma deltas_tot gs n : (forall k g, nth_error gs k = Some g -> exists k', gate_fits n k' g) ->
  totals (fun dl => dl_good dl /\ forall k g, nth_error gs k = Some g -> supplied dl g) (garble_deltas rd gs).
Proof.
  intros Hg. unfold garble_deltas.
  destruct (foldM_inv (fun dl g =>
    let* dl := ensure_delta rd dl (g_domain g) in
    match g_kind g with
    | GProj (PMap t) => ensure_delta rd dl t
    | GProj (PLess _) => ensure_delta rd dl 2
    | _ => Ok dl
    end) (fun k dl => dl_good dl /\ forall j g, (j < k)%nat -> nth_error gs j = Some g -> supplied dl g) gs []) as (dl & E & G & H).
  - split; [intros q v; discriminate|intros; lia].
  - intros k g dl Hk (G & H). destruct (Hg k g Hk) as (k' & _ & _ & _ & Hd & Hkind).
    destruct (ensure_tot dl (g_domain g) G Hd) as (dl1 & -> & G1 & H1 & M1). cbn [obind].
    assert (Mono : forall a b h, (forall q, has a q -> has b q) -> supplied a h -> supplied b h).
    { intros a b h M [A B]. split; [now apply M|]. destruct (g_kind h) as [| |q|]; auto. }
    assert (Old : forall a, (forall q, has dl1 q -> has a q) -> forall j h, (j < k)%nat -> nth_error gs j = Some h -> supplied a h).
    { intros a M j h Hj Hh. eapply Mono; [exact M|]. eapply Mono; [exact M1|]. eapply H; eauto. }
    assert (New : forall a, dl_good a -> (forall q, has dl1 q -> has a q) -> supplied a g ->
      dl_good a /\ forall j h, (j < S k)%nat -> nth_error gs j = Some h -> supplied a h).
    { intros a Ga M Sg. split; [exact Ga|]. intros j h Hj Hh. destruct (Nat.eq_dec j k) as [->|Hne]; [congruence|]. eapply Old; eauto. lia. }
    destruct (g_kind g) as [| |[m|t]|] eqn:Ek.
    + exists dl1. split; [reflexivity|]. apply New; auto. split; [exact H1|now rewrite Ek].
    + exists dl1. split; [reflexivity|]. apply New; auto. split; [exact H1|now rewrite Ek].
    + destruct (ensure_tot dl1 m G1) as (dl2 & -> & G2 & H2 & M2); [lia|]. exists dl2. split; [reflexivity|].
      apply New; auto. split; [now apply M2|now rewrite Ek].
    + destruct (ensure_tot dl1 2 G1) as (dl2 & -> & G2 & H2 & M2); [reflexivity|]. exists dl2. split; [reflexivity|].
      apply New; auto. split; [now apply M2|now rewrite Ek].
    + exists dl1. split; [reflexivity|]. apply New; auto. split; [exact H1|now rewrite Ek].
  - exists dl. split; [exact E|]. split; [exact G|]. intros k g Hk. apply (H k g); [|exact Hk]. apply nth_error_Some. congruence.
Qed.

(** A wire of modulus m. *)
Definition wired (m : N) (w : wire) : Prop := exists d, stands m d /\ kept d w.
Lemma wired_good m w : wired m w -> good w.
Proof. now intros (d & _ & G & _). Qed.
Lemma wired_dom m w d : wired m w -> stands m d -> wdom w = d.
Proof. intros (d' & S & _ & D & _) S'. unfold stands in *. congruence. Qed.
Lemma stands_num m d : m < 65535 -> stands m d -> domain_num d = m /\ dom_ok d.
Proof. intros H S. destruct (domain_tot m H) as (d' & E & D & Q). unfold stands in S. rewrite E in S. injection S as <-. auto. Qed.
Lemma wired_color m w : 1 <= m -> m < 65535 -> wired m w -> color w < m.
Proof.
  intros H1 H2 (d & S & _ & D & Sm). destruct (stands_num m d H2 S) as [Q _]. unfold small in Sm. rewrite D in Sm.
  destruct d; cbn in Q; subst; auto; lia.
Qed.
Lemma sample_wired m w : m < 65535 -> wire_new m (wval w) = Ok w -> valid_sample m (wval w) -> wired m w.
Proof.
  intros Hm E V. unfold wire_new in E. destruct (domain_new m) as [d| | |] eqn:Ed; try discriminate. cbn in E. injection E as E. rewrite <- E in *. cbn [wval] in *.
  destruct (stands_num m d Hm Ed) as [Q Dk]. destruct (V d Ed) as (_ & L & B & Dg). cbn [wval] in *. exists d. split; [exact Ed|]. apply kept_intro; auto.
  unfold ndigits, digit, wide in Dg. cbn [wval] in Dg. unfold domain_new in Ed.
  destruct (N.eqb_spec m 0); [injection Ed as <-; exact I|]. destruct (N.eqb_spec m 2); [injection Ed as <-; now apply binary_small|].
  specialize (Dg n0). destruct (N.ltb_spec m 255).
  - injection Ed as <-. unfold small, color. cbn [wdom wval]. rewrite (proj2 (N.eqb_neq m 255)), (proj2 (N.ltb_ge 256 m)) in Dg by lia. cbn [orb] in Dg.
    apply (Dg 31%nat). lia.
  - destruct (N.eqb_spec m 256).
    + injection Ed as <-. now apply max_small.
    + destruct (N.ltb_spec m 65535); [|discriminate]. injection Ed as <-. unfold small, color. cbn [wdom wval].
      assert (Ew : (m =? 255) || (256 <? m) = true).
      { destruct (N.eqb_spec m 255); [reflexivity|]. cbn. apply N.ltb_lt. lia. }
      rewrite Ew in Dg. specialize (Dg 15%nat). rewrite to_u16s_nth by (rewrite L; cbn; lia). apply Dg. lia.
Qed.
Lemma inputs_tot doms : Forall (fun m => m < 65535) doms -> (forall i m, nth_error doms i = Some m -> valid_sample m (ri i)) ->
  totals (fun ws => length ws = length doms /\ forall i w, nth_error ws i = Some w -> wired (nth i doms 0) w) (garble_inputs ri doms).
Proof.
  intros F V. unfold garble_inputs.
  assert (H : forall o, (forall i m, nth_error doms i = Some m -> valid_sample m (ri (o + i)%nat)) ->
    totals (fun ws => length ws = length doms /\ forall i w, nth_error ws i = Some w -> wired (nth i doms 0) w)
    (mapM (fun im : nat * N => wire_new (snd im) (ri (fst im))) (combine (seq o (length doms)) doms))).
  { clear V. induction F as [|m doms Hm F IH]; intros o V; cbn [length seq combine mapM].
    - apply tot_ok. split; [reflexivity|]. intros [|i] w; discriminate.
    - assert (V0 : valid_sample m (ri o)) by (rewrite <- (Nat.add_0_r o); now apply V).
      cbn [fst snd].
      assert (T : totals (wired m) (wire_new m (ri o))).
      { destruct (domain_tot m Hm) as (d & Ed & _). unfold wire_new. rewrite Ed. cbn [obind]. apply tot_ok.
        apply sample_wired; auto. unfold wire_new. now rewrite Ed. }
      eapply tot_bind; [exact T|]. intros w Hw. eapply tot_bind; [apply (IH (S o))|].
      + intros i q Hq. rewrite Nat.add_succ_l, <- Nat.add_succ_r. now apply V.
      + intros ws (L & G). apply tot_ok. split; [cbn; lia|]. intros [|i] v; cbn; [intros E; injection E as <-; exact Hw|apply G]. }
  apply (H 0%nat). exact V.
Qed.

Lemma hash_wire_tot i w t : good t -> totals (kept (wdom t)) (hash_wire sha Release i w t).
Proof. intros [D _]. unfold hash_wire. apply from_array_tot; auto; apply Hs. Qed.
Lemma project_tot k x : match k with PMap m => 0 < m | _ => True end -> totals (fun _ => True) (project k x).
Proof. destruct k as [m|t]; intros H; cbn [project]; [|now apply tot_ok]. eapply tot_weak; [now apply urem_tot|auto]. Qed.
Lemma empty_good : good wire_empty.
Proof. split; [exact I|]. split; [reflexivity|]. apply Forall_forall. intros x Hx. apply repeat_spec in Hx. subst. reflexivity. Qed.
Lemma idx_tot {A} (P : A -> Prop) l i : (i < length l)%nat -> Forall P l -> totals (fun a => P a /\ nth_error l i = Some a) (idx l i).
Proof.
  intros H F. unfold idx. destruct (nth_error l i) as [a|] eqn:E; [|apply nth_error_None in E; lia]. cbn. apply tot_ok. split; [|reflexivity].
  rewrite Forall_forall in F. apply F. eapply nth_error_In; eauto.
Qed.

(** Where row x goes. *)
Definition row_at (m c x : N) : nat := match uadd Release 16 x c with Ok s => N.to_nat (s mod m) | _ => 0%nat end.
Lemma row_lt m c x : 0 < m -> (row_at m c x < N.to_nat m)%nat.
Proof. intros H. unfold row_at. destruct (uadd Release 16 x c); [|lia..]. assert (a mod m < m) by (apply N.mod_lt; lia). lia. Qed.

Lemma proj_tot dl ws g k wi : dl_good dl -> Forall good ws -> nth_error ws (nth 0 (g_inputs g) 0%nat) = Some wi -> g_inputs g <> [] ->
  has dl (g_domain g) -> has dl (proj_domain k) -> match k with PMap m => 0 < m | _ => True end ->
  totals (fun wt => wired (proj_domain k) (fst wt) /\ length (snd wt) = N.to_nat (g_domain g) /\
    Forall (fun e => good e /\ (e = wire_empty \/ stands (proj_domain k) (wdom e))) (snd wt) /\
    forall x, x < g_domain g -> exists e, nth_error (snd wt) (row_at (g_domain g) (color wi) x) = Some e /\ good e /\ stands (proj_domain k) (wdom e))
   (garble_proj sha Release dl ws g k).
Proof.
  intros G Fw Hi Hn Hd Hd' Hk. unfold garble_proj. destruct (g_inputs g) as [|ii rest]; [now elim Hn|]. cbn [idx nth_error unwrap obind nth] in *.
  assert (Gi : good wi). { rewrite Forall_forall in Fw. apply Fw. eapply nth_error_In; eauto. }
  unfold idx. rewrite Hi. cbn [unwrap obind]. set (c := color wi).
  eapply tot_bind; [apply dlookup_tot; [exact G|exact Hd]|]. intros dm [Gm Sm].
  eapply tot_bind; [apply dlookup_tot; [exact G|exact Hd']|]. intros dn [Gn Sn].
  eapply tot_bind; [apply wmul_tot; exact Gm|]. intros dmc (G1 & _).
  eapply tot_bind; [apply wsub_tot; [exact Gi|exact G1]|]. intros wi0 (G2 & _).
  eapply tot_bind; [apply hash_wire_tot; exact Gn|]. intros hw (G3 & D3 & _).
  eapply tot_bind; [apply usub_tot|]. intros y _.
  eapply tot_bind; [apply project_tot; exact Hk|]. intros py _.
  eapply tot_bind; [apply wmul_tot; exact Gn|]. intros dny (G4 & _).
  eapply tot_bind; [apply wadd_tot; [exact G3|exact G4]|]. intros w1 (G5 & D5 & _).
  eapply tot_bind; [apply wneg_tot; exact G5|]. intros w (G6 & D6 & S6).
  assert (Dw : wdom w = wdom dn) by congruence.
  set (m := g_domain g) in *. set (okE := fun e : wire => good e /\ stands (proj_domain k) (wdom e)).
  eapply tot_bind.
  { unfold totals. apply (foldM_inv _ (fun j tbl => length tbl = N.to_nat m /\ Forall (fun e => good e /\ (e = wire_empty \/ stands (proj_domain k) (wdom e))) tbl /\
      forall x, (x < j)%nat -> exists e, nth_error tbl (row_at m c (N.of_nat x)) = Some e /\ okE e)).
    - split; [apply repeat_length|]. split; [|intros; lia]. apply Forall_forall. intros e He. apply repeat_spec in He. subst.
      split; [apply empty_good|now left].
    - intros j x tbl Hj (L & F & Old). assert (Hx : x = j /\ (j < N.to_nat m)%nat).
      { assert (Hlt : (j < N.to_nat m)%nat) by (rewrite <- (seq_length (N.to_nat m) 0); apply nth_error_Some; congruence).
        split; [|exact Hlt]. rewrite (nth_error_nth' _ 0%nat) in Hj by now rewrite seq_length. rewrite seq_nth in Hj by exact Hlt. injection Hj as <-. reflexivity. }
      destruct Hx as [-> Hlt]. set (nx := N.of_nat j).
      assert (T : totals (fun tbl' => exists ct, okE ct /\ tbl' = set_nth tbl (row_at m c nx) ct)
        (let* dmx := wmul Release dm nx in let* wx := wadd Release wi dmx in let* hx := hash_wire sha Release (g_output g) wx w in
         let* hw0 := wadd Release hx w in let* px := project k nx in let* dnx := wmul Release dn px in let* ct := wadd Release hw0 dnx in
         let* pos := uadd Release 16 nx c in let* pos0 := urem pos m in set_idx tbl (N.to_nat pos0) ct)).
      { eapply tot_bind; [apply wmul_tot; exact Gm|]. intros dmx (T1 & _).
        eapply tot_bind; [apply wadd_tot; [exact Gi|exact T1]|]. intros wx (T2 & _).
        eapply tot_bind; [apply hash_wire_tot; exact G6|]. intros hx (T3 & E3 & _).
        eapply tot_bind; [apply wadd_tot; [exact T3|exact G6]|]. intros hw0 (T4 & E4 & _).
        eapply tot_bind; [apply project_tot; exact Hk|]. intros px _.
        eapply tot_bind; [apply wmul_tot; exact Gn|]. intros dnx (T5 & _).
        eapply tot_bind; [apply wadd_tot; [exact T4|exact T5]|]. intros ct (T6 & E6 & _).
        assert (Hrow := row_lt m c nx ltac:(lia)). unfold row_at in *. destruct (uadd_tot 16 nx c) as (pos & Ep & _). rewrite Ep in *. cbn [obind].
        unfold urem. destruct (N.eqb_spec m 0); [lia|]. cbn [obind]. rewrite set_idx_lt by lia. apply tot_ok. exists ct.
        split; [|reflexivity]. split; [exact T6|]. replace (wdom ct) with (wdom dn) by congruence. exact Sn. }
      destruct T as (tbl' & E & ct & Hct & ->). exists (set_nth tbl (row_at m c nx) ct). split; [exact E|].
      assert (Hrow := row_lt m c nx ltac:(lia)).
      split; [now rewrite set_nth_length|]. split. { apply Forall_set_nth; [exact F|]. destruct Hct. split; auto. }
      intros x Hx. destruct (Nat.eq_dec (row_at m c (N.of_nat x)) (row_at m c nx)) as [E2|E2].
      + exists ct. split; [|exact Hct]. rewrite E2, set_nth_nth_error, Nat.eqb_refl by lia. reflexivity.
      + destruct (Old x) as (e & He & Ok_); [destruct (Nat.eq_dec x j); [subst; now elim E2|lia]|]. exists e. split; [|exact Ok_].
        rewrite set_nth_nth_error by lia. destruct (Nat.eqb_spec (row_at m c (N.of_nat x)) (row_at m c nx)); [contradiction|exact He]. }
  cbv beta. intros tbl (L & F & A). apply tot_ok. cbn [fst snd].
  split; [exists (wdom dn); split; [exact Sn|split; [exact G6|split; [exact Dw|exact S6]]]|]. split; [exact L|]. split; [exact F|].
  intros x Hx. destruct (A (N.to_nat x)) as (e & He & Hok); [rewrite seq_length; lia|]. rewrite N2Nat.id in He. exists e. split; [exact He|exact Hok].
Qed.

(** Every row of a table that is small enough is written. *)
Lemma rows_filled m c r : c < m -> m <= 32768 -> (r < N.to_nat m)%nat -> exists x, x < m /\ row_at m c x = r.
Proof.
  intros Hc Hm Hr. set (x := if c <=? N.of_nat r then N.of_nat r - c else N.of_nat r + m - c).
  assert (Hx : x < m) by (unfold x; destruct (N.leb_spec c (N.of_nat r)); lia). exists x. split; [exact Hx|].
  unfold row_at, uadd. change (2 ^ 16) with 65536. rewrite (proj2 (N.ltb_lt (x + c) 65536)) by lia.
  assert (E : (x + c) mod m = N.of_nat r).
  { unfold x. destruct (N.leb_spec c (N.of_nat r)).
    - replace (N.of_nat r - c + c) with (N.of_nat r) by lia. apply N.mod_small. lia.
    - replace (N.of_nat r + m - c + c) with (N.of_nat r + 1 * m) by lia. rewrite N.mod_add by lia. apply N.mod_small. lia. }
  rewrite E. lia.
Qed.
Lemma stands2 : stands 2 Binary. Proof. reflexivity. Qed.
Definition table_ok (m range : N) (tbl : list wire) : Prop :=
  length tbl = N.to_nat m /\ Forall (fun e => good e /\ stands range (wdom e)) tbl.
Lemma proj_tables dl ws g k wi : dl_good dl -> Forall good ws -> nth_error ws (nth 0 (g_inputs g) 0%nat) = Some wi -> g_inputs g <> [] ->
  has dl (g_domain g) -> has dl (proj_domain k) -> match k with PMap m => 0 < m | _ => True end ->
  1 <= g_domain g -> g_domain g < 65535 -> wired (g_domain g) wi -> (g_domain g <= 32768 \/ proj_domain k = 2) ->
  totals (fun wt => wired (proj_domain k) (fst wt) /\ table_ok (g_domain g) (proj_domain k) (snd wt)) (garble_proj sha Release dl ws g k).
Proof.
  intros G F Hi Hn Hd Hd' Hk H1 H2 Hw Hrows. eapply tot_weak; [apply (proj_tot dl ws g k wi); auto|].
  intros [w tbl] (A & B & C & D). split; [exact A|]. split; [exact B|]. cbn [fst snd] in *. destruct Hrows as [Hrows|Hrows].
  - apply Forall_forall. intros e He. apply In_nth_error in He as (r & Er).
    assert (Hr : (r < N.to_nat (g_domain g))%nat) by (rewrite <- B; apply nth_error_Some; congruence).
    destruct (rows_filled (g_domain g) (color wi) r) as (x & Hx & Ex); auto; [now apply wired_color|].
    destruct (D x Hx) as (e' & E' & Ge & Se). rewrite Ex, Er in E'. injection E' as <-. auto.
  - eapply Forall_impl; [|exact C]. intros e [Ge [->|Se]]; split; auto. rewrite Hrows. exact stands2.
Qed.

Lemma hash_half_tot w j : totals (kept Binary) (hash_half sha Release w j).
Proof. unfold hash_half. apply from_array_tot; [exact I|apply Hs|apply Hs]. Qed.
Lemma tot_if {A} (P : A -> Prop) (b : bool) (o o' : outcome A) : totals P o -> totals P o' -> totals P (if b then o else o').
Proof. now destruct b. Qed.
Lemma and_tot dl ws g a b rest j0 j1 : dl_good dl -> has dl 2 -> g_inputs g = a :: b :: rest -> (a < length ws)%nat -> (b < length ws)%nat -> Forall good ws ->
  totals (fun wt => wired 2 (fst wt) /\ good (fst (snd wt)) /\ good (snd (snd wt))) (garble_and sha Release dl ws g j0 j1).
Proof.
  intros G H2 Ei Ha Hb F. unfold garble_and. eapply tot_bind; [apply dlookup_tot; [exact G|exact H2]|]. intros delta [Gd Sd].
  rewrite Ei. cbn [idx nth_error unwrap obind].
  eapply tot_bind; [apply (idx_tot good ws a); auto|]. intros wa [Ga _].
  eapply tot_bind; [apply (idx_tot good ws b); auto|]. intros wb [Gb _]. cbv zeta.
  eapply tot_bind; [apply hash_half_tot|]. intros ha0 (T0 & E0 & _).
  eapply tot_bind; [apply wadd_tot; [exact Ga|exact Gd]|]. intros wad _.
  eapply tot_bind; [apply hash_half_tot|]. intros ha1 (T1 & E1 & _).
  eapply tot_bind; [apply wadd_tot; [exact T0|exact T1]|]. intros tg0 (T2 & _).
  eapply (tot_bind good). { apply tot_if; [eapply tot_weak; [apply wadd_tot; [exact T2|exact Gd]|now intros x (? & _)]|now apply tot_ok]. } intros tg Gtg.
  eapply tot_bind; [apply hash_half_tot|]. intros wg0 K0.
  eapply (tot_bind (kept Binary)). { apply tot_if; [|now apply tot_ok]. destruct K0 as (K1 & <- & _). now apply wadd_tot. } intros wg Kg.
  eapply tot_bind; [apply hash_half_tot|]. intros hb0 (T3 & _).
  eapply tot_bind; [apply wadd_tot; [exact Gb|exact Gd]|]. intros wbd _.
  eapply tot_bind; [apply hash_half_tot|]. intros hb1 (T4 & _).
  eapply tot_bind; [apply wadd_tot; [exact T3|exact T4]|]. intros te0 (T5 & _).
  eapply tot_bind; [apply wadd_tot; [exact T5|exact Ga]|]. intros te (Gte & _).
  eapply tot_bind; [apply hash_half_tot|]. intros we0 K2.
  eapply (tot_bind (kept Binary)).
  { apply tot_if; [|now apply tot_ok]. eapply tot_bind; [apply wadd_tot; [exact Gte|exact Ga]|]. intros q (Gq & _).
    destruct K2 as (K3 & <- & _). now apply wadd_tot. }
  intros we (Gwe & _). destruct Kg as (Gwg & Dwg & _).
  eapply tot_bind; [apply wadd_tot; [exact Gwg|exact Gwe]|]. rewrite Dwg. intros w Kw. apply tot_ok. cbn [fst snd].
  split; [exists Binary; split; [exact stands2|exact Kw]|]. split; assumption.
Qed.
Lemma dec_tot dl ws g w : dl_good dl -> has dl (output_domain g) -> nth_error ws (g_output g) = Some w -> good w ->
  totals (fun l => length l = N.to_nat (output_domain g) /\ Forall (fun h => length h = 32%nat) l) (garble_dec sha Release dl ws g).
Proof.
  intros G H Hw Gw. unfold garble_dec. eapply tot_weak; [apply (tot_mapM (fun h => length h = 32%nat))|intros l [L F]; split; [rewrite L; apply seq_length|exact F]].
  intros x _. unfold idx. rewrite Hw. cbn [unwrap obind]. eapply tot_bind; [apply dlookup_tot; [exact G|exact H]|]. intros d [Gd _].
  eapply tot_bind; [apply wmul_tot; exact Gd|]. intros dx (Gx & _). eapply tot_bind; [apply wadd_tot; [exact Gw|exact Gx]|]. intros; apply tot_ok. apply Hs.
Qed.

Section Circuit.
Variable c : circuit.
Hypothesis Hc : garblable c.
Hypothesis Hm : matched c.
Hypothesis Hri : forall i m, nth_error (input_domains c) i = Some m -> valid_sample m (ri i).
Notation n := (num_inputs c).

Lemma modulus_gate k g : nth_error (gates c) k = Some g -> modulus c (n + k) = output_domain g.
Proof.
  intros Hk. destruct Hc as (Hn & _). unfold modulus, wire_moduli. rewrite Hn, app_nth2_plus.
  erewrite nth_error_nth; [reflexivity|]. now apply map_nth_error.
Qed.
Lemma modulus_input i : (i < n)%nat -> modulus c i = nth i (input_domains c) 0.
Proof. intros H. destruct Hc as (Hn & _). unfold modulus, wire_moduli. rewrite app_nth1; [reflexivity|lia]. Qed.

(** The tables and pairs stored after k gates. *)
Definition stored {V} (P : V -> Prop) (k : nat) (m : list (nat * V)) : Prop :=
  Forall (fun kv => (fst kv < n + k)%nat /\ P (snd kv)) m /\ NoDup (map fst m) /\ (length m <= k)%nat.
Definition filed (tbl : list wire) : Prop := (N.of_nat (length tbl) < 65536) /\ Forall good tbl.
Definition pair_filed (t : wire * wire) : Prop := good (fst t) /\ good (snd t).
Lemma stored_later {V} (P : V -> Prop) k m : stored P k m -> stored P (S k) m.
Proof. intros (A & B & C). split; [eapply Forall_impl; [|exact A]; intros kv [? ?]; split; [lia|auto]|]. split; [exact B|lia]. Qed.
Lemma stored_insert {V} (P : V -> Prop) k (m : list (nat * V)) v : stored P k m -> P v -> stored P (S k) (ainsert Nat.eqb (n + k)%nat v m).
Proof.
  intros (A & B & C) Hv. assert (E : filter (fun kv => negb (Nat.eqb (n + k) (fst kv))) m = m).
  { clear B C. induction A as [|kv m [H _] A IH]; [reflexivity|]. cbn [filter]. destruct (Nat.eqb_spec (n + k) (fst kv)); [lia|]. cbn. now rewrite IH. }
  unfold ainsert. rewrite E. split; [|split].
  - constructor; [cbn; split; [lia|exact Hv]|]. apply (stored_later P k m). split; [exact A|split; [exact B|exact C]].
  - cbn [map fst]. constructor; [|exact B]. intros Hin. apply in_map_iff in Hin as (kv & E1 & Hin). rewrite Forall_forall in A. destruct (A kv Hin). lia.
  - cbn [length]. lia.
Qed.
(** After k gates. *)
Definition GI (k : nat) (s : gstate) : Prop :=
  length (gs_wires s) = (n + k)%nat /\ (forall i w, nth_error (gs_wires s) i = Some w -> wired (modulus c i) w) /\
  (forall j g, (j < k)%nat -> nth_error (gates c) j = Some g ->
    match g_kind g with
    | GProj q => exists tbl, alookup Nat.eqb (g_output g) (gs_f s) = Some tbl /\ table_ok (g_domain g) (proj_domain q) tbl
    | GAnd => exists t, alookup Nat.eqb (g_output g) (gs_half s) = Some t /\ good (fst t) /\ good (snd t)
    | _ => True
    end) /\
  stored filed k (gs_f s) /\ stored pair_filed k (gs_half s).
Lemma all_good ws : (forall i w, nth_error ws i = Some w -> wired (modulus c i) w) -> Forall good ws.
Proof. intros H. apply Forall_forall. intros w Hw. apply In_nth_error in Hw as (i & Hi). eapply wired_good; eauto. Qed.
Lemma extend_wires ws w k : length ws = (n + k)%nat -> (forall i v, nth_error ws i = Some v -> wired (modulus c i) v) -> wired (modulus c (n + k)) w ->
  length (ws ++ [w]) = (n + S k)%nat /\ forall i v, nth_error (ws ++ [w]) i = Some v -> wired (modulus c i) v.
Proof.
  intros L H Hw. split; [rewrite app_length; cbn; lia|]. intros i v Hv. destruct (Nat.lt_ge_cases i (length ws)) as [Hi|Hi].
  - rewrite nth_error_app1 in Hv by exact Hi. now apply H.
  - rewrite nth_error_app2 in Hv by exact Hi. destruct (i - length ws)%nat as [|q] eqn:E; [|destruct q; discriminate]. cbn in Hv. injection Hv as <-.
    replace i with (n + k)%nat by lia. exact Hw.
Qed.
Lemma gate_at k g : nth_error (gates c) k = Some g -> In g (gates c).
Proof. apply nth_error_In. Qed.
Lemma ins_wired k g ws : length ws = (n + k)%nat -> (forall i v, nth_error ws i = Some v -> wired (modulus c i) v) -> nth_error (gates c) k = Some g ->
  forall i, In i (g_inputs g) -> exists w, nth_error ws i = Some w /\ wired (g_domain g) w.
Proof.
  intros L W Hk i Hi. destruct Hc as (_ & _ & _ & Hf). destruct (Hf k g Hk) as (_ & Fi & _). rewrite Forall_forall in Fi. specialize (Fi i Hi). cbv beta in Fi.
  destruct Hm as (_ & _ & Hg). destruct (Hg g (gate_at k g Hk)) as (_ & Hi' & _).
  destruct (nth_error ws i) as [w|] eqn:E; [|apply nth_error_None in E; lia]. exists w. split; [reflexivity|].
  rewrite <- (Hi' i Hi). now apply W.
Qed.
Lemma first_in {A} (l : list A) d : l <> [] -> exists a, nth_error l 0 = Some a /\ In a l /\ nth 0 l d = a.
Proof. destruct l as [|a l]; [easy|]. intros _. exists a. cbn. auto. Qed.
Lemma sum_tot m l (f : nat -> outcome wire) : m < 65535 -> l <> [] -> (forall i, In i l -> totals (wired m) (f i)) ->
  totals (wired m) (let* ins := mapM f l in wsum Release ins).
Proof.
  intros H1 Hne Hf. destruct (domain_tot m H1) as (d & Ed & _).
  eapply tot_bind; [apply (tot_mapM (wired m)); exact Hf|]. intros ins [Li Fi].
  eapply tot_weak; [apply (wsum_small d)|].
  - intros ->. apply Hne. now destruct l.
  - eapply Forall_impl; [|exact Fi]. intros w (d' & Sd & Kd). unfold stands in Sd. rewrite Ed in Sd. injection Sd as <-. exact Kd.
  - intros w Kw. exists d. split; [exact Ed|exact Kw].
Qed.
Lemma scaled_tot m w x : wired m w -> totals (wired m) (wmul Release w x).
Proof. intros (d & Sd & G & D & _). eapply tot_weak; [apply wmul_tot; exact G|]. intros v Kv. exists d. split; [exact Sd|]. now rewrite <- D. Qed.

Lemma label_tot dl k g s : dl_good dl -> supplied dl g -> nth_error (gates c) k = Some g -> GI k s ->
  totals (GI (S k)) (garble_label sha Release dl s g).
Proof.
  intros Gd Sg Hk (L & W & T & Sf & Sh). pose proof (ins_wired k g (gs_wires s) L W Hk) as Hin. pose proof Hc as (_ & _ & _ & Hf). destruct (Hf k g Hk) as (Ho & Fi & Hne & Hd & Hkind).
  pose proof Hm as (_ & _ & Hg). destruct (Hg g (gate_at k g Hk)) as (Hd1 & _ & Hbig). pose proof (modulus_gate k g Hk) as Mk. pose proof (all_good _ W) as Ag.
  assert (Uniq : forall j h, (j < k)%nat -> nth_error (gates c) j = Some h -> g_output h <> g_output g).
  { intros j h Hj Hh. destruct (Hf j h Hh) as (Eh & _). lia. }
  destruct (first_in (g_inputs g) 0%nat Hne) as (i0 & E0 & I0 & N0). destruct (Hin i0 I0) as (w0 & Hw0 & Ww0).
  unfold garble_label. unfold output_domain in Mk. destruct Sg as [Sg1 Sg2].
  assert (Fin : forall w f h d j0 j1, wired (modulus c (n + k)) w ->
    (forall j g', (j < S k)%nat -> nth_error (gates c) j = Some g' ->
      match g_kind g' with
      | GProj q => exists tbl, alookup Nat.eqb (g_output g') f = Some tbl /\ table_ok (g_domain g') (proj_domain q) tbl
      | GAnd => exists t, alookup Nat.eqb (g_output g') h = Some t /\ good (fst t) /\ good (snd t)
      | _ => True end) -> stored filed (S k) f -> stored pair_filed (S k) h ->
    totals (GI (S k)) (Ok (mkGS (gs_wires s ++ [w]) f h d j0 j1))).
  { intros w f h d j0 j1 Hw H F1 F2. apply tot_ok. destruct (extend_wires (gs_wires s) w k L W Hw) as [L' W']. split; [exact L'|]. split; [exact W'|].
    split; [exact H|]. split; assumption. }
  destruct (g_kind g) as [|cst|q|] eqn:Ek.
  - assert (Tsum : totals (wired (g_domain g)) (let* ins := mapM (idx (gs_wires s)) (g_inputs g) in wsum Release ins)).
    { apply sum_tot; auto. intros i Hi. destruct (Hin i Hi) as (w & Hw & Ww). unfold idx. rewrite Hw. now apply tot_ok. }
    destruct Tsum as (w & Ew & Ww). destruct (mapM (idx (gs_wires s)) (g_inputs g)) as [ins| | |]; try discriminate. cbn [obind] in *. rewrite Ew. cbn [obind].
    apply Fin; [now rewrite Mk| |now apply stored_later|now apply stored_later]. intros j h Hj Hh. destruct (Nat.eq_dec j k) as [->|Hjk]; [|apply (T j h); [lia|exact Hh]].
    rewrite Hk in Hh. injection Hh as <-. now rewrite Ek.
  - unfold idx at 1. rewrite E0. cbn [unwrap obind]. unfold idx. rewrite Hw0. cbn [unwrap obind].
    eapply tot_bind; [apply scaled_tot; exact Ww0|]. intros w Ww. apply Fin; [now rewrite Mk| |now apply stored_later|now apply stored_later].
    intros j h Hj Hh. destruct (Nat.eq_dec j k) as [->|Hjk]; [|apply (T j h); [lia|exact Hh]].
    rewrite Hk in Hh. injection Hh as <-. now rewrite Ek.
  - eapply tot_bind.
    + apply (proj_tables dl (gs_wires s) g q w0); auto.
      * now rewrite N0.
      * destruct q; [|exact I]. cbn in Hkind. lia.
      * destruct q as [m|t]; [exact Hbig|now right].
    + intros [w tbl] [Ww Ht]. cbn [fst snd] in *. rewrite Ho. apply Fin; [rewrite Mk; destruct q; exact Ww| | |now apply stored_later]; rewrite <- ?Ho.
      2: { rewrite Ho. apply stored_insert; [exact Sf|]. destruct Ht as [Lt Ft]. split; [rewrite Lt; lia|]. eapply Forall_impl; [|exact Ft]. now intros e [? _]. }
      intros j h Hj Hh. destruct (Nat.eq_dec j k) as [->|Hjk].
      * rewrite Hk in Hh. injection Hh as <-. rewrite Ek. exists tbl. split; [|exact Ht]. apply alookup_ainsert_same, Nat.eqb_refl.
      * assert (Hj' : (j < k)%nat) by lia. specialize (T j h Hj' Hh). destruct (g_kind h); auto. destruct T as (tb & A & B). exists tb. split; [|exact B].
        rewrite (alookup_ainsert_other Nat.eqb (g_output h) (g_output g) tbl (gs_f s) Nat.eqb_eq); [exact A|now apply (Uniq j)].
  - destruct Hkind as [H2 Hd2]. rewrite Hd2 in *. destruct (g_inputs g) as [|a [|b rest]] eqn:Ei; [cbn in H2; lia|cbn in H2; lia|].
    eapply tot_bind.
    + apply (and_tot dl (gs_wires s) g a b rest (S (gs_j0 s)) (S (gs_j1 s))); auto.
      * destruct (Hin a (or_introl eq_refl)) as (wa & Ha & _). apply nth_error_Some. congruence.
      * destruct (Hin b (or_intror (or_introl eq_refl))) as (wb & Hb & _). apply nth_error_Some. congruence.
    + intros [w t] (Ww & Ht). cbn [fst snd] in *. rewrite Ho. apply Fin; [now rewrite Mk| |now apply stored_later|now apply stored_insert]; rewrite <- ?Ho.
      intros j h Hj Hh. destruct (Nat.eq_dec j k) as [->|Hjk].
      * rewrite Hk in Hh. injection Hh as <-. rewrite Ek. exists t. split; [|exact Ht]. apply alookup_ainsert_same, Nat.eqb_refl.
      * assert (Hj' : (j < k)%nat) by lia. specialize (T j h Hj' Hh). destruct (g_kind h); auto. destruct T as (tb & A & B). exists tb. split; [|exact B].
        rewrite (alookup_ainsert_other Nat.eqb (g_output h) (g_output g) t (gs_half s) Nat.eqb_eq); [exact A|now apply (Uniq j)].
Qed.
Lemma label_d dl g s s' : garble_label sha Release dl s g = Ok s' -> gs_d s' = gs_d s.
Proof.
  unfold garble_label. destruct (g_kind g); intros H.
  - apply obind_Ok in H as (? & _ & H). apply obind_Ok in H as (? & _ & H). injection H as <-. reflexivity.
  - apply obind_Ok in H as (? & _ & H). apply obind_Ok in H as (? & _ & H). apply obind_Ok in H as (? & _ & H). injection H as <-. reflexivity.
  - apply obind_Ok in H as ([? ?] & _ & H). injection H as <-. reflexivity.
  - apply obind_Ok in H as ([? ?] & _ & H). injection H as <-. reflexivity.
Qed.
(** The decoding information after k gates. *)
Definition decoded (start k : nat) (d : list (list bytes)) : Prop :=
  map (@length bytes) d = map (fun g => N.to_nat (output_domain g)) (filter (fun g => Nat.leb start (g_output g)) (firstn k (gates c))) /\
  Forall (Forall (fun h => length h = 32%nat)) d.
Lemma firstn_snoc {A} (l : list A) k a : nth_error l k = Some a -> firstn (S k) l = firstn k l ++ [a].
Proof. revert k. induction l as [|x l IH]; intros [|k] H; try discriminate; [now injection H as ->|]. cbn [firstn app]. now rewrite <- IH. Qed.
Lemma gate_tot dl start k g s : dl_good dl -> supplied dl g -> nth_error (gates c) k = Some g -> GI k s /\ decoded start k (gs_d s) ->
  totals (fun s => GI (S k) s /\ decoded start (S k) (gs_d s)) (garble_gate sha Release dl start s g).
Proof.
  intros Gd Sg Hk [HI [HD HF]]. unfold garble_gate. destruct (label_tot dl k g s Gd Sg Hk HI) as (s' & Es & L & W & T & S12). rewrite Es. cbn [obind].
  apply label_d in Es. unfold decoded. rewrite (firstn_snoc _ _ _ Hk), filter_app, map_app. cbn [filter].
  destruct (Nat.leb start (g_output g)).
  2: { apply tot_ok. split; [split; [exact L|split; [exact W|split; [exact T|exact S12]]]|]. rewrite Es. cbn [map]. rewrite app_nil_r. split; assumption. }
  destruct Hc as (_ & _ & _ & Hf). destruct (Hf k g Hk) as (Ho & _).
  destruct (nth_error (gs_wires s') (g_output g)) as [w|] eqn:Ew; [|apply nth_error_None in Ew; lia].
  eapply tot_bind.
  - apply (dec_tot dl (gs_wires s') g w); auto; [|eapply wired_good; eauto].
    destruct Sg as [A B]. unfold output_domain. destruct (g_kind g) as [| |[m|t]|] eqn:Ek; auto.
    destruct (Hf k g Hk) as (_ & _ & _ & _ & Hkind). rewrite Ek in Hkind. destruct Hkind as [_ Hd2]. now rewrite <- Hd2.
  - intros v [Lv Fv]. apply tot_ok. split; [split; [exact L|split; [exact W|split; [exact T|exact S12]]]|]. cbn [gs_d]. rewrite Es, map_app, HD. cbn [map].
    split; [f_equal; f_equal; exact Lv|]. apply Forall_app. split; [exact HF|]. constructor; [exact Fv|constructor].
Qed.
(** What garbling leaves behind. *)
Definition made (gc : garbled) (ek : encoding_key) : Prop :=
  gc_circuit gc = c /\ length (ek_wires ek) = n /\ (forall i w, nth_error (ek_wires ek) i = Some w -> wired (nth i (input_domains c) 0) w) /\
  dl_good (ek_delta ek) /\ (forall g, In g (gates c) -> has (ek_delta ek) (g_domain g)) /\
  forall j g, nth_error (gates c) j = Some g ->
    match g_kind g with
    | GProj q => exists tbl, alookup Nat.eqb (g_output g) (gc_f gc) = Some tbl /\ table_ok (g_domain g) (proj_domain q) tbl
    | GAnd => exists t, alookup Nat.eqb (g_output g) (gc_half gc) = Some t /\ good (fst t) /\ good (snd t)
    | _ => True
    end.
Lemma garble_tot : totals (fun r => made (fst (fst r)) (snd (fst r)) /\
    (stored filed (length (gates c)) (gc_f (fst (fst r))) /\ stored pair_filed (length (gates c)) (gc_half (fst (fst r)))) /\
    decoded (num_wires c - num_outputs c) (length (gates c)) (dk_hashes (snd r)))
  (garble sha Release rd ri c).
Proof.
  pose proof Hc as (Hn & Hin & Hout & Hf). unfold garble, garble_run.
  destruct (deltas_tot (gates c) n) as (dl & Ed & Gd & Sd). { intros k g Hk. exists k. now apply Hf. } rewrite Ed. cbn [obind].
  destruct (inputs_tot (input_domains c) Hin Hri) as (ws & Ew & Lw & Ww). rewrite Ew. cbn [obind].
  assert (Eb : Nat.leb n (length ws) = true) by (apply Nat.leb_le; lia). rewrite Eb. cbn [obind]. clear Eb.
  rewrite (proj2 (Nat.leb_le _ _) Hout). cbn [obind].
  destruct (foldM_inv (garble_gate sha Release dl (num_wires c - num_outputs c)) (fun k s => GI k s /\ decoded (num_wires c - num_outputs c) k (gs_d s)) (gates c) (mkGS ws [] [] [] 0 0))
    as (s & Es & (L & W & T & S12) & HD).
  - split; [|split; [reflexivity|constructor]]. split; [cbn; lia|]. split; [|split; [intros; lia|split; (split; [constructor|split; [constructor|cbn; lia]])]].
    intros i w Hw. cbn in Hw. rewrite modulus_input; [now apply Ww|].
    assert (i < length ws)%nat by (apply nth_error_Some; congruence). lia.
  - intros k g s Hk HI. apply gate_tot; auto. now apply (Sd k).
  - rewrite Es. cbn [obind]. apply tot_ok. cbn [fst snd]. split; [|split; [exact S12|exact HD]]. split; [reflexivity|]. cbn [ek_wires ek_delta gc_f gc_half].
    rewrite firstn_all2 by lia. split; [lia|]. split; [exact Ww|]. split; [exact Gd|]. split.
    + intros g Hg. apply In_nth_error in Hg as (k & Hk). now apply (Sd k g Hk).
    + intros j g Hj. apply (T j g); [|exact Hj]. apply nth_error_Some. congruence.
Qed.

Section Made.
Variable gc : garbled.
Variable ek : encoding_key.
Hypothesis Hmade : made gc ek.
Definition typed_ins (ws : list wire) : Prop := length ws = n /\ forall i w, nth_error ws i = Some w -> wired (modulus c i) w.
Lemma zip_tot {A B C} (R : nat -> C -> Prop) (f : A -> B -> outcome C) : forall l m o, length m = length l ->
  (forall i a b, nth_error l i = Some a -> totals (R (o + i)%nat) (f a b)) ->
  totals (fun r => length r = length l /\ forall i x, nth_error r i = Some x -> R (o + i)%nat x) (zipM f l m).
Proof.
  induction l as [|a l IH]; intros [|b m] o L H; try discriminate; cbn [zipM]; [apply tot_ok; split; [reflexivity|]; intros [|i] x; discriminate|].
  eapply tot_bind; [apply (H 0%nat a b eq_refl)|]. intros x Hx. eapply tot_bind; [apply (IH m (S o)); [now injection L|]|].
  - intros i a' b' Ha. replace (S o + i)%nat with (o + S i)%nat by lia. now apply H.
  - intros r [Lr Hr]. apply tot_ok. split; [cbn; lia|]. intros [|i] y; cbn [nth_error]; [intros E; injection E as <-; exact Hx|].
    intros Hy. replace (o + S i)%nat with (S o + i)%nat by lia. now apply Hr.
Qed.
Lemma encode_tot x : length x = n -> totals typed_ins (encode Release ek x).
Proof.
  intros Lx. destruct Hmade as (_ & Lw & Ww & Gd & Hd & _). unfold encode. cbn [debug_assert is_debug obind].
  eapply tot_weak; [apply (zip_tot (fun i w => wired (modulus c i) w)) with (o := 0%nat); [congruence|]|].
  - intros i w b Hw. cbn [plus]. assert (Hi : (i < n)%nat) by (rewrite <- Lw; apply nth_error_Some; congruence).
    rewrite (modulus_input i Hi). specialize (Ww i w Hw). destruct Hc as (Hn & Hlt & _). destruct Hm as (_ & Hin & _).
    set (m := nth i (input_domains c) 0) in *. assert (Im : In m (input_domains c)) by (apply nth_In; lia).
    rewrite Forall_forall in Hlt. specialize (Hlt m Im). cbv beta in Hlt. destruct (Hin m Im) as (H1 & g & Hg & Eg).
    destruct Ww as (d & Sd & Gw & Dw & Sw). destruct (stands_num m d Hlt Sd) as [Q _].
    assert (Hh : has (ek_delta ek) (wire_domain w)) by (unfold wire_domain; rewrite Dw, Q, <- Eg; now apply Hd).
    eapply tot_bind; [apply dlookup_tot; [exact Gd|exact Hh]|]. intros v [Gv _]. eapply tot_bind; [apply wmul_tot; exact Gv|]. intros dx (Gx & _).
    eapply tot_weak; [apply wadd_tot; [exact Gw|exact Gx]|]. intros y Ky. exists d. split; [exact Sd|]. now rewrite <- Dw.
  - intros r [Lr Hr]. split; [congruence|exact Hr].
Qed.

(** The wires known after k gates. *)
Definition EI (k : nat) (s : list (option wire) * nat * nat) : Prop :=
  length (fst (fst s)) = num_wires c /\ forall i, (i < n + k)%nat -> exists w, nth_error (fst (fst s)) i = Some (Some w) /\ wired (modulus c i) w.
Lemma step_tot k g s : nth_error (gates c) k = Some g -> EI k s -> totals (EI (S k)) (eval_garbled_gate sha Release gc s g).
Proof.
  intros Hk. destruct s as [[ws j0] j1]. intros (L & W). cbn [fst] in L, W. pose proof Hc as (_ & _ & _ & Hf). destruct (Hf k g Hk) as (Ho & Fi & Hne & Hd & Hkind).
  pose proof Hm as (Hw & _ & Hg). destruct (Hg g (gate_at k g Hk)) as (Hd1 & Hmod & _). pose proof (modulus_gate k g Hk) as Mk.
  destruct Hmade as (_ & _ & _ & _ & _ & T). specialize (T k g Hk).
  assert (Kl : (k < length (gates c))%nat) by (apply nth_error_Some; congruence).
  assert (Rd : forall i, In i (g_inputs g) -> totals (wired (g_domain g)) (read_init ws i)).
  { intros i Hi. rewrite Forall_forall in Fi. destruct (W i (Fi i Hi)) as (w & Ew & Ww). unfold read_init, idx. rewrite Ew. cbn [unwrap obind].
    apply tot_ok. now rewrite <- (Hmod i Hi). }
  assert (Fin : forall (o : outcome (wire * nat * nat)), totals (fun r => wired (output_domain g) (fst (fst r))) o ->
    totals (EI (S k)) (let* (x, j1') := o in let (w, j0') := x in let* ws' := set_idx ws (g_output g) (Some w) in Ok (ws', j0', j1'))).
  { intros o (r & -> & Hr). destruct r as [[w a] b]. cbn [obind fst] in *. rewrite set_idx_lt by lia. cbn [obind]. apply tot_ok. split; cbn [fst].
    - now rewrite set_nth_len.
    - intros i Hi. rewrite set_nth_nth_error by lia. destruct (Nat.eqb_spec i (g_output g)) as [->|Hio].
      + exists w. split; [reflexivity|]. now rewrite Ho, Mk.
      + apply W. lia. }
  unfold eval_garbled_gate. apply Fin. clear Fin. destruct (first_in (g_inputs g) 0%nat Hne) as (i0 & E0 & I0 & _). unfold output_domain.
  destruct (g_kind g) as [|cst|q|] eqn:Ek.
  - destruct (sum_tot (g_domain g) (g_inputs g) (read_init ws) Hd Hne Rd) as (w & Ew & Ww).
    destruct (mapM (read_init ws) (g_inputs g)) as [ins| | |]; try discriminate. cbn [obind] in *. rewrite Ew. cbn [obind]. now apply tot_ok.
  - unfold idx. rewrite E0. cbn [unwrap obind]. eapply tot_bind; [apply Rd; exact I0|]. intros wi Wi.
    eapply tot_bind; [apply scaled_tot; exact Wi|]. intros w Ww. now apply tot_ok.
  - unfold idx at 1. rewrite E0. cbn [unwrap obind]. eapply tot_bind; [apply Rd; exact I0|]. intros wi Wi.
    destruct T as (tbl & Et & Lt & Ft). rewrite Et. cbn [unwrap obind].
    eapply tot_bind; [apply (idx_tot (fun e => good e /\ stands (proj_domain q) (wdom e)) tbl (N.to_nat (color wi))); [|exact Ft]|].
    { rewrite Lt. pose proof (wired_color (g_domain g) wi Hd1 Hd Wi). lia. }
    intros e [[Ge Se] _]. eapply tot_bind; [apply hash_wire_tot; exact Ge|]. intros hw (Gh & _).
    eapply tot_bind; [apply wsub_tot; [exact Ge|exact Gh]|]. intros w Kw. apply tot_ok. cbn [fst].
    destruct q; (exists (wdom e); split; [exact Se|exact Kw]).
  - destruct Hkind as [H2 Hd2]. destruct (g_inputs g) as [|a [|b rest]] eqn:Ei; [cbn in H2; lia|cbn in H2; lia|]. cbn [idx nth_error unwrap obind].
    eapply tot_bind; [apply (Rd a); now left|]. intros wa Wa. eapply tot_bind; [apply (Rd b); right; now left|]. intros wb Wb. cbv zeta.
    destruct T as ([tg te] & Et & Gg & Gt). rewrite Et. cbn [unwrap obind fst snd] in *. pose proof (wired_good _ _ Wa) as Ga.
    eapply tot_bind; [apply hash_half_tot|]. intros wg0 K0.
    eapply (tot_bind (kept Binary)). { apply tot_if; [|now apply tot_ok]. destruct K0 as (K1 & <- & _). now apply wadd_tot. } intros wg (Gwg & Dwg & _).
    eapply tot_bind; [apply hash_half_tot|]. intros we0 K2.
    eapply (tot_bind (kept Binary)).
    { apply tot_if; [|now apply tot_ok]. eapply tot_bind; [apply wadd_tot; [exact Gt|exact Ga]|]. intros y (Gy & _).
      destruct K2 as (K3 & <- & _). now apply wadd_tot. }
    intros we (Gwe & _). eapply tot_bind; [apply wadd_tot; [exact Gwg|exact Gwe]|]. rewrite Dwg. intros w Kw. apply tot_ok. cbn [fst].
    exists Binary. split; [exact stands2|exact Kw].
Qed.
Lemma place_tot x : typed_ins x ->
  totals (fun ws => EI 0 (ws, 0%nat, 0%nat)) (foldM (fun ws i => let* xi := idx x i in set_idx ws i (Some xi)) (seq 0 n) (repeat None (num_wires c))).
Proof.
  intros (L & W). destruct Hm as (Hw & _).
  destruct (foldM_inv (fun ws i => let* xi := idx x i in set_idx ws i (Some xi))
    (fun k ws => length ws = num_wires c /\ forall i, (i < k)%nat -> exists w, nth_error ws i = Some (Some w) /\ wired (modulus c i) w)
    (seq 0 n) (repeat None (num_wires c))) as (ws & E & Lw & H).
  - split; [apply repeat_length|intros; lia].
  - intros k i ws Hk (Lw & H). assert (Kn : (k < n)%nat) by (rewrite <- (seq_length n 0); apply nth_error_Some; congruence).
    assert (i = k) as ->. { apply (nth_error_nth _ _ 0%nat) in Hk. rewrite seq_nth in Hk by exact Kn. lia. }
    unfold idx. destruct (nth_error x k) as [xk|] eqn:Ex; [|apply nth_error_None in Ex; lia]. cbn [unwrap obind].
    rewrite set_idx_lt by lia. eexists. split; [reflexivity|]. split; [now rewrite set_nth_len|].
    intros i Hi. rewrite set_nth_nth_error by lia. destruct (Nat.eqb_spec i k) as [->|Hne]; [exists xk; split; [reflexivity|now apply W]|apply H; lia].
  - rewrite E. apply tot_ok. split; [exact Lw|]. cbn [fst]. intros i Hi. apply H. rewrite seq_length. lia.
Qed.
Lemma evaluate_tot x : typed_ins x -> totals (fun out => length out = num_outputs c) (evaluate sha Release gc x).
Proof.
  intros Hx. pose proof Hmade as (Ec & _). pose proof Hm as (Hw & _). pose proof Hc as (_ & _ & Hout & _). unfold evaluate. rewrite Ec. cbn [debug_assert is_debug obind].
  destruct (place_tot x Hx) as (ws & E & H0). rewrite E. cbn [obind].
  destruct (foldM_inv (eval_garbled_gate sha Release gc) EI (gates c) (ws, 0%nat, 0%nat) H0) as (s & Es & HI). { intros k g s Hk HI. now apply (step_tot k g s). }
  rewrite Es. cbn [obind]. destruct s as [[ws' a] b]. destruct HI as (L & H). cbn [fst] in L, H. rewrite (proj2 (Nat.leb_le _ _) Hout).
  eapply tot_weak; [apply (tot_mapM (fun _ => True))|].
  - intros o Ho. apply (In_nth _ _ None) in Ho as (i & Hi & Eo). rewrite skipn_length in Hi. rewrite nth_skipn in Eo.
    destruct (H (num_wires c - num_outputs c + i)%nat) as (w & Ew & _); [lia|]. apply (nth_error_nth _ _ None) in Ew. rewrite Ew in Eo. subst o. now apply tot_ok.
  - intros out [Lo _]. rewrite Lo, skipn_length, L. lia.
Qed.
End Made.
End Circuit.
End Release.
