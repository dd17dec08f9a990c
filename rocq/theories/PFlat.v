(** The circuit whose sum is in modulus 1. *)
From Coq Require Import List NArith Bool Arith Lia.
From Verif Require Import Base MUtil MWires MCircuit MGarble MPar MBincode MProc MMany MFpake.
From Verif Require Import SpecWires SpecCircuit SpecGarble SpecBincode SpecOt SpecApricot SpecFpake SpecLong.
From Verif Require Import PBase PUtil PWires PWiresSpec PGarble PGarbleSpec PBinKey PBincode PCircuit PHalf PProc PFpake PLong.
Import ListNotations.
Open Scope N_scope.

(** ** Labels of modulus 1 *)
Definition z1 : wire := mkWire (U8 1) (repeat 0 32).
Definition d1 : wire := mkWire (U8 1) (repeat 0 31 ++ [1]).

Lemma wadd_z1 p : wadd p z1 z1 = Ok z1. Proof. destruct p; reflexivity. Qed.
Lemma wsub_z1 p : wsub p z1 z1 = Ok z1. Proof. destruct p; reflexivity. Qed.
Lemma wneg_z1 p : wneg p z1 = Ok z1. Proof. destruct p; reflexivity. Qed.
Lemma wmul_d1 p : wmul p d1 0 = Ok z1. Proof. destruct p; reflexivity. Qed.
Lemma wsum_z1 p l : l <> [] -> Forall (fun w => w = z1) l -> wsum p l = Ok z1.
Proof.
  destruct l as [|a l]; [congruence|]. intros _ H. inversion H as [|? ? Ha Hl]; subst. cbn [wsum].
  clear H. induction l as [|b l IH]; [reflexivity|]. inversion Hl as [|? ? Hb Hl']; subst. cbn [foldM].
  rewrite wadd_z1. cbn [obind]. apply IH; auto.
Qed.
Lemma mapM_const {A B} (f : A -> outcome B) b l : (forall a, In a l -> f a = Ok b) -> mapM f l = Ok (repeat b (length l)).
Proof.
  intros H. rewrite (mapM_Ok f (fun _ => b) l) by exact H. f_equal. clear H.
  induction l; cbn; congruence.
Qed.
Lemma hash_z1 sha p out w t : hash32 sha -> wdom t = U8 1 -> hash_wire sha p out w t = Ok z1.
Proof.
  intros Hh E. unfold hash_wire, from_array, wmap. rewrite E. cbn [wval wdom].
  destruct (Hh (usize_be out ++ wval w)) as [L _].
  rewrite (mapM_const _ 0).
  - rewrite L. reflexivity.
  - intros x _. unfold urem. cbn [N.eqb]. now rewrite N.mod_1_r.
Qed.
Lemma z1_ok : wire_ok z1.
Proof. split; [cbn; unfold byte_ok; lia|]. split; [reflexivity|]. cbn [z1 wval]. apply Forall_repeat. unfold byte_ok. lia. Qed.
Lemma delta1 r : valid_sample 1 r -> wire_delta 1 r = Ok d1.
Proof.
  intros Hv. specialize (Hv (U8 1) eq_refl). destruct Hv as (Hd & Hl & Hb & Hx).
  assert (E : r = repeat 0 32).
  { cbn [wval] in *. apply (nth_ext _ _ 0 0). { rewrite Hl. reflexivity. }
    intros i Hi. rewrite nth_repeat.
    specialize (Hx ltac:(lia) i). unfold digit in Hx. cbn in Hx. rewrite Hl in Hi. specialize (Hx Hi). lia. }
  rewrite E. reflexivity.
Qed.

(** ** The gates of the circuit *)
Lemma circL_cases n cd t k g : nth_error (gates (circL n cd t)) k = Some g ->
  (k < n)%nat /\ g = mkGate (k + 2 * n) 2 [k; k + n]%nat GAdd \/
  (n <= k < 2 * n)%nat /\ g = mkGate (k + 2 * n) 2 [(k + n)%nat] (GProj (PMap cd)) \/
  (k = 2 * n)%nat /\ g = mkGate (4 * n) cd (seq (3 * n) n) GAdd \/
  (k = 2 * n + 1)%nat /\ g = mkGate (4 * n + 1) cd [(4 * n)%nat] (GProj (PLess (t + 1))).
Proof.
  intros Hk. assert (Hlt : (k < length (gates (circL n cd t)))%nat) by (apply nth_error_Some; congruence).
  unfold circL in Hk, Hlt. cbn [gates] in Hk, Hlt. unfold tail_gates, xors1 in Hk, Hlt.
  rewrite !app_length, !map_length, !seq_length in Hlt. cbn [length] in Hlt.
  destruct (Nat.lt_ge_cases k n) as [H1|H1].
  - rewrite nth_error_app1 in Hk by (rewrite map_length, seq_length; auto).
    rewrite nth_error_map_seq in Hk by auto. inversion Hk; subst g. left. split; auto.
  - rewrite nth_error_app2 in Hk by (rewrite map_length, seq_length; auto).
    rewrite map_length, seq_length in Hk. right.
    destruct (Nat.lt_ge_cases (k - n) n) as [H2|H2].
    + rewrite nth_error_app1 in Hk by (rewrite map_length, seq_length; auto).
      rewrite nth_error_map_seq in Hk by auto. inversion Hk; subst g. left. split; [lia|].
      f_equal; [lia|]. f_equal. lia.
    + rewrite nth_error_app2 in Hk by (rewrite map_length, seq_length; auto).
      rewrite map_length, seq_length in Hk. right.
      destruct (k - n - n)%nat as [|[|j]] eqn:Ej; cbn [nth_error] in Hk; [| |destruct j; discriminate];
        inversion Hk; subst g.
      * left. split; [lia|]. f_equal; [lia|]. f_equal. lia.
      * right. split; [lia|]. f_equal; [lia|]. f_equal. lia.
Qed.
Lemma circL_glength n cd t : length (gates (circL n cd t)) = (2 * n + 2)%nat.
Proof. rewrite <- (map_length g_output), circL_outs, seq_length. reflexivity. Qed.
Lemma circL_ok n t : t <= 65534 -> usize_ok (4 * n + 2) -> circuit_ok (circL n 1 t).
Proof.
  intros Ht Hu. unfold circuit_ok. cbn [circL num_wires num_inputs num_outputs].
  split; [exact Hu|]. split; [eapply usize_le; [|exact Hu]; lia|]. split; [eapply usize_le; [|exact Hu]; lia|]. split.
  - split. { rewrite circL_glength. eapply usize_le; [|exact Hu]; lia. }
    apply Forall_forall. intros g Hin. apply In_nth_error in Hin as [k Hk].
    pose proof (circL_gate n 1 t k g Hk) as [Ho Hi].
    assert (Hkl : (k < 2 * n + 2)%nat) by (rewrite <- (circL_glength n 1 t); apply nth_error_Some; congruence).
    split; [eapply usize_le; [|exact Hu]; lia|].
    assert (Hin : vec_ok usize_ok (g_inputs g)).
    { split.
      - eapply usize_le; [|exact Hu].
        destruct (circL_cases n 1 t k g Hk) as [[? ->]|[[? ->]|[[? ->]|[? ->]]]]; cbn [g_inputs length]; rewrite ?seq_length; lia.
      - eapply Forall_impl; [|exact Hi]. intros i H. cbv beta in H. rewrite Ho in H. eapply usize_le; [|exact Hu]. lia. }
    destruct (circL_cases n 1 t k g Hk) as [[? ->]|[[? ->]|[[? ->]|[? ->]]]]; cbn [g_domain g_kind kind_ok];
      unfold u16_ok; (split; [lia|]); (split; [exact Hin|]); auto; lia.
  - cbn [circL input_domains]. split. { rewrite repeat_length. eapply usize_le; [|exact Hu]; lia. }
    apply Forall_repeat. unfold u16_ok. lia.
Qed.

(** ** Garbling it *)
Section Flat.
Variable sha : bytes -> bytes.
Hypothesis Hsha : hash32 sha.
Variable p : profile.
Variable rd : N -> bytes.
Variable ri : nat -> bytes.
Hypothesis Hrd : forall m, supported m -> valid_sample m (rd m).
Hypothesis Hrd1 : valid_sample 1 (rd 1).
Hypothesis Hri : forall i, valid_sample 2 (ri i).
Variable n : nat.
Variable t : N.
Hypothesis Hn : (1 <= n)%nat.
Notation c := (circL n 1 t).
Notation D2 := (D rd 2).
Let S2 : supported 2 := sup2.

Lemma D1_ok : wire_delta 1 (rd 1) = Ok d1.
Proof. now apply delta1. Qed.
Lemma D2_ok : wire_delta 2 (rd 2) = Ok D2 /\ WF 2 D2.
Proof. split; [apply (D_ok rd Hrd 2 S2)|apply (D_WF rd Hrd 2 S2)]. Qed.

(** The offsets. *)
Definition dl_flat (dl : deltas) : Prop :=
  forall m v, alookup N.eqb m dl = Some v -> wire_delta m (rd m) = Ok v.
Lemma ensure_flat dl m v : dl_flat dl -> wire_delta m (rd m) = Ok v ->
  exists dl', ensure_delta rd dl m = Ok dl' /\ dl_flat dl' /\ alookup N.eqb m dl' = Some v /\
    forall m' v', alookup N.eqb m' dl = Some v' -> alookup N.eqb m' dl' = Some v'.
Proof.
  intros Hf Hv. unfold ensure_delta. destruct (alookup N.eqb m dl) as [v0|] eqn:E.
  - exists dl. split; [reflexivity|]. split; [exact Hf|]. split; [|auto].
    pose proof (Hf _ _ E) as H. rewrite Hv in H. congruence.
  - rewrite Hv. cbn [obind]. eexists. split; [reflexivity|].
    assert (Heq : forall x y, (x =? y) = true <-> x = y) by apply N.eqb_eq.
    assert (Hm : alookup N.eqb m (ainsert N.eqb m v dl) = Some v) by (apply alookup_ainsert_same; apply N.eqb_refl).
    split; [|split; [exact Hm|]].
    + intros m' v' H'. destruct (N.eq_dec m' m) as [->|Hne]; [congruence|].
      rewrite alookup_ainsert_other in H' by auto. auto.
    + intros m' v' H'. destruct (N.eq_dec m' m) as [->|Hne]; [congruence|].
      rewrite alookup_ainsert_other by auto. auto.
Qed.
Lemma deltas_flat : exists dl, garble_deltas rd (gates c) = Ok dl /\
  alookup N.eqb 2 dl = Some D2 /\ alookup N.eqb 1 dl = Some d1.
Proof.
  unfold garble_deltas. destruct D2_ok as [E2 _]. pose proof D1_ok as E1.
  destruct (foldM_inv (fun dl g =>
    let* dl := ensure_delta rd dl (g_domain g) in
    match g_kind g with
    | GProj (PMap t) => ensure_delta rd dl t
    | GProj (PLess _) => ensure_delta rd dl 2
    | _ => Ok dl
    end) (fun k dl => dl_flat dl /\ ((1 <= k)%nat -> alookup N.eqb 2 dl = Some D2) /\
      ((n + 1 <= k)%nat -> alookup N.eqb 1 dl = Some d1)) (gates c) []) as (dl & E & _ & H2 & H1).
  - split; [intros m v; discriminate|]. split; intros; lia.
  - intros k g dl Hk (Hf & H2 & H1).
    destruct (circL_cases n 1 t k g Hk) as [[Hc ->]|[[Hc ->]|[[Hc ->]|[Hc ->]]]]; cbn [g_domain g_kind].
    + destruct (ensure_flat dl 2 D2 Hf E2) as (dl1 & -> & F1 & L1 & M1). cbn [obind].
      exists dl1. split; [reflexivity|]. split; [exact F1|]. split; [intros; exact L1|]. intros; lia.
    + destruct (ensure_flat dl 2 D2 Hf E2) as (dl1 & -> & F1 & L1 & M1). cbn [obind].
      destruct (ensure_flat dl1 1 d1 F1 E1) as (dl2 & -> & F2 & L2 & M2).
      exists dl2. split; [reflexivity|]. split; [exact F2|]. split; intros; auto.
    + destruct (ensure_flat dl 1 d1 Hf E1) as (dl1 & -> & F1 & L1 & M1). cbn [obind].
      exists dl1. split; [reflexivity|]. split; [exact F1|]. split; intros; auto. apply M1, H2. lia.
    + destruct (ensure_flat dl 1 d1 Hf E1) as (dl1 & -> & F1 & L1 & M1). cbn [obind].
      destruct (ensure_flat dl1 2 D2 F1 E2) as (dl2 & -> & F2 & L2 & M2).
      exists dl2. split; [reflexivity|]. split; [exact F2|]. split; intros; auto.
  - rewrite circL_glength in H2, H1. exists dl. split; [exact E|]. split; [apply H2|apply H1]; lia.
Qed.

(** The projection of a bit to modulus 1. *)
Lemma proj_flat dl ws o i : alookup N.eqb 2 dl = Some D2 -> alookup N.eqb 1 dl = Some d1 ->
  (i < length ws)%nat -> WF 2 (nth i ws wire_empty) ->
  garble_proj sha p dl ws (mkGate o 2 [i] (GProj (PMap 1))) (PMap 1) = Ok (z1, [z1; z1]).
Proof.
  intros L2 L1 Hi Hw. unfold garble_proj. cbn [proj_domain g_inputs g_domain g_output].
  rewrite (idx_lt [i] 0 0%nat) by (simpl; lia). cbn [obind nth].
  rewrite (idx_lt ws i wire_empty) by auto. cbn [obind]. set (wi := nth i ws wire_empty) in *.
  unfold dlookup. rewrite L2, L1. cbn [unwrap obind].
  pose proof (color_lt 2 wi S2 Hw) as Hc. destruct D2_ok as [_ HD].
  rewrite (wmul_ok p 2) by auto. cbn [obind].
  rewrite (wsub_ok p 2) by auto using pmul_WF. cbn [obind].
  rewrite hash_z1 by auto. cbn [obind].
  unfold usub at 1. destruct (N.leb_spec (color wi) 2); [|lia]. cbn [obind].
  unfold project at 1, urem at 1. cbn [N.eqb obind]. rewrite N.mod_1_r. rewrite wmul_d1. cbn [obind].
  rewrite wadd_z1. cbn [obind]. rewrite wneg_z1. cbn [obind].
  change (N.to_nat 2) with 2%nat.
  set (body := fun (tbl : list wire) (xn : nat) => _).
  assert (Hbody : forall tbl xn, (xn < 2)%nat -> length tbl = 2%nat ->
     body tbl xn = Ok (set_nth tbl (N.to_nat ((N.of_nat xn + color wi) mod 2)) z1)).
  { intros tbl xn Hx Hl. unfold body.
    rewrite (wmul_ok p 2) by (auto; lia). cbn [obind].
    rewrite (wadd_ok p 2) by auto using pmul_WF. cbn [obind].
    rewrite hash_z1 by auto. cbn [obind]. rewrite wadd_z1. cbn [obind].
    unfold project, urem at 1. cbn [N.eqb obind]. rewrite N.mod_1_r. rewrite wmul_d1. cbn [obind].
    rewrite wadd_z1. cbn [obind]. unfold uadd. change (2 ^ 16) with 65536.
    destruct (N.ltb_spec (N.of_nat xn + color wi) 65536); [|lia]. cbn [obind].
    unfold urem. cbn [N.eqb Pos.eqb obind]. apply set_idx_lt.
    rewrite Hl. pose proof (N.mod_lt (N.of_nat xn + color wi) 2). lia. }
  cbn [seq foldM repeat]. rewrite Hbody by (cbn [length]; lia). cbn [obind].
  rewrite Hbody by (rewrite ?set_nth_length; cbn [length]; lia). cbn [obind].
  change (N.of_nat 0) with 0. change (N.of_nat 1) with 1.
  assert (Ec : color wi = 0 \/ color wi = 1) by lia. destruct Ec as [-> | ->]; reflexivity.
Qed.

(** The comparison in modulus 1. *)
Lemma less_flat dl ws o i : alookup N.eqb 2 dl = Some D2 -> alookup N.eqb 1 dl = Some d1 ->
  (i < length ws)%nat -> nth i ws wire_empty = z1 ->
  exists w, WF 2 w /\
  garble_proj sha p dl ws (mkGate o 1 [i] (GProj (PLess (t + 1)))) (PLess (t + 1)) =
    Ok (w, [padd 2 (padd 2 (hw sha p o z1 2) w) D2]).
Proof.
  intros L2 L1 Hi Hw. unfold garble_proj. cbn [proj_domain g_inputs g_domain g_output].
  rewrite (idx_lt [i] 0 0%nat) by (simpl; lia). cbn [obind nth].
  rewrite (idx_lt ws i wire_empty) by auto. cbn [obind]. rewrite Hw.
  unfold dlookup. rewrite L2, L1. cbn [unwrap obind]. destruct D2_ok as [_ HD].
  change (color z1) with 0.
  rewrite wmul_d1. cbn [obind]. rewrite wsub_z1. cbn [obind].
  destruct (hash_wire_ok sha p Hsha o z1 D2 2 S2 HD) as [-> Hh]. cbn [obind].
  unfold usub at 1. cbn [N.leb N.compare obind]. change (1 - 0) with 1.
  unfold project at 1. cbn [obind].
  set (b := if 1 <? t + 1 then 1 else 0). assert (Hb : b < 2) by (unfold b; destruct (1 <? t + 1); lia).
  rewrite (wmul_ok p 2) by auto. cbn [obind]. rewrite (wadd_ok p 2) by auto using pmul_WF. cbn [obind].
  rewrite (wneg_ok p 2) by auto using padd_WF, pmul_WF. cbn [obind].
  set (w := pneg 2 _). assert (HW : WF 2 w) by (apply pneg_WF; auto using padd_WF, pmul_WF).
  exists w. split; [exact HW|].
  change (N.to_nat 1) with 1%nat. cbn [seq foldM]. change (N.of_nat 0) with 0.
  rewrite wmul_d1. cbn [obind]. rewrite wadd_z1. cbn [obind].
  destruct (hash_wire_ok sha p Hsha o z1 w 2 S2 HW) as [-> _]. cbn [obind].
  rewrite (wadd_ok p 2) by auto. cbn [obind]. unfold project. cbn [obind].
  rewrite (proj2 (N.ltb_lt 0 (t + 1))) by lia.
  rewrite (wmul_ok p 2) by (auto; lia). cbn [obind]. rewrite pmul_1 by auto.
  rewrite (wadd_ok p 2) by auto using padd_WF. cbn [obind]. reflexivity.
Qed.

Definition GF (ws0 : list wire) (k : nat) (s : gstate) : Prop :=
  length (gs_wires s) = (2 * n + k)%nat /\ firstn (2 * n) (gs_wires s) = ws0 /\ gs_half s = [] /\
  (forall i, (i < 3 * n)%nat -> (i < 2 * n + k)%nat -> WF 2 (nth i (gs_wires s) wire_empty)) /\
  (forall i, (3 * n <= i < 4 * n + 1)%nat -> (i < 2 * n + k)%nat -> nth i (gs_wires s) wire_empty = z1) /\
  (forall o, (3 * n <= o < 4 * n)%nat -> (o < 2 * n + k)%nat -> alookup Nat.eqb o (gs_f s) = Some [z1; z1]) /\
  Forall (fun kv => wires_ok (snd kv)) (gs_f s) /\
  ((k <= 2 * n + 1)%nat -> gs_d s = []) /\
  ((2 * n + 2 <= k)%nat -> exists w, WF 2 w /\
    alookup Nat.eqb (4 * n + 1)%nat (gs_f s) = Some [padd 2 (padd 2 (hw sha p (4 * n + 1) z1 2) w) D2] /\
    exists h0, gs_d s = [[h0; sha (dec_string (4 * n + 1) 1 (padd 2 w D2))]]).

Lemma ainsert_tables o (tb : list wire) f : wires_ok tb -> Forall (fun kv : nat * list wire => wires_ok (snd kv)) f ->
  Forall (fun kv => wires_ok (snd kv)) (ainsert Nat.eqb o tb f).
Proof.
  intros Ht Hf. unfold ainsert. constructor; [exact Ht|]. rewrite Forall_forall in *. intros kv Hin.
  apply filter_In in Hin as [Hin _]. auto.
Qed.
Lemma nat_lookup_same {V} o (v : V) f : alookup Nat.eqb o (ainsert Nat.eqb o v f) = Some v.
Proof. apply alookup_ainsert_same. apply Nat.eqb_refl. Qed.
Lemma nat_lookup_other {V} o o' (v : V) f : o' <> o -> alookup Nat.eqb o' (ainsert Nat.eqb o v f) = alookup Nat.eqb o' f.
Proof. intros. apply alookup_ainsert_other; auto. intros. apply Nat.eqb_eq. Qed.

Section Step.
Variable dl : deltas.
Hypothesis L2 : alookup N.eqb 2 dl = Some D2.
Hypothesis L1 : alookup N.eqb 1 dl = Some d1.
Variable ws0 : list wire.

Lemma last_nth (ws : list wire) w i d : i = length ws -> nth i (ws ++ [w]) d = w.
Proof. intros ->. rewrite app_nth2, Nat.sub_diag by lia. reflexivity. Qed.
Lemma WF2_wire_ok w : WF 2 w -> wire_ok w.
Proof. apply WF_wire_ok. exact S2. Qed.
Lemma step_flat k g s : nth_error (gates c) k = Some g -> GF ws0 k s ->
  exists s', garble_gate sha p dl (4 * n + 1) s g = Ok s' /\ GF ws0 (S k) s'.
Proof.
  intros Hk (Hl & Hf & Hh & HW & HZ & HT & Hok & Hd & Hd').
  destruct D2_ok as [_ HD].
  assert (Hpre : forall w, firstn (2 * n) (gs_wires s ++ [w]) = ws0).
  { intros w. rewrite <- Hf. apply firstn_app_le. lia. }
  unfold garble_gate, garble_label.
  destruct (circL_cases n 1 t k g Hk) as [[Hc ->]|[[Hc ->]|[[Hc ->]|[Hc ->]]]]; cbn [g_kind g_inputs g_output].
  - (* exclusive or *)
    cbn [mapM]. rewrite (idx_lt _ k wire_empty), (idx_lt _ (k + n)%nat wire_empty) by lia. cbn [obind].
    assert (W1 : WF 2 (nth k (gs_wires s) wire_empty)) by (apply HW; lia).
    assert (W2 : Forall (WF 2) [nth (k + n) (gs_wires s) wire_empty]) by (constructor; auto; apply HW; lia).
    rewrite (wsum_ok p 2) by auto. cbn [obind].
    rewrite (proj2 (Nat.leb_gt (4 * n + 1) (k + 2 * n))) by lia.
    eexists. split; [reflexivity|]. unfold GF. cbn [gs_wires gs_f gs_half gs_d].
    split. { rewrite app_length. cbn [length]. lia. }
    split; [apply Hpre|]. split; [exact Hh|]. split.
    { intros i H1 H2. destruct (Nat.eq_dec i (2 * n + k)) as [->|Hne].
      - rewrite last_nth by lia. apply psum_WF; auto.
      - rewrite app_nth1 by lia. apply HW; lia. }
    split. { intros; lia. } split. { intros; lia. } split; [exact Hok|]. split; intros; [apply Hd|]; lia.
  - (* projection *)
    assert (W1 : WF 2 (nth (k + n) (gs_wires s) wire_empty)) by (apply HW; lia).
    rewrite (proj_flat dl _ _ (k + n)%nat L2 L1) by (auto; lia). cbn [obind].
    rewrite (proj2 (Nat.leb_gt (4 * n + 1) (k + 2 * n))) by lia.
    eexists. split; [reflexivity|]. unfold GF. cbn [gs_wires gs_f gs_half gs_d].
    split. { rewrite app_length. cbn [length]. lia. }
    split; [apply Hpre|]. split; [exact Hh|]. split.
    { intros i H1 H2. rewrite app_nth1 by lia. apply HW; lia. }
    split. { intros i H1 H2. destruct (Nat.eq_dec i (2 * n + k)) as [->|Hne].
      - apply last_nth. lia.
      - rewrite app_nth1 by lia. apply HZ; lia. }
    split. { intros o H1 H2. destruct (Nat.eq_dec o (k + 2 * n)) as [->|Hne].
      - apply nat_lookup_same.
      - rewrite nat_lookup_other by auto. apply HT; lia. }
    split. { apply ainsert_tables; auto. split; [cbn; unfold usize_ok; cbn; lia|]. repeat constructor; apply z1_ok. }
    split; intros; [apply Hd|]; lia.
  - (* sum *)
    rewrite (mapM_const _ z1).
    2:{ intros i Hi. apply in_seq in Hi. rewrite (idx_lt _ i wire_empty) by lia. f_equal. apply HZ; lia. }
    cbn [obind]. rewrite seq_length.
    rewrite wsum_z1. 2:{ destruct n; [lia|]. discriminate. } 2:{ apply Forall_repeat. reflexivity. } cbn [obind].
    rewrite (proj2 (Nat.leb_gt (4 * n + 1) (4 * n))) by lia.
    eexists. split; [reflexivity|]. unfold GF. cbn [gs_wires gs_f gs_half gs_d].
    split. { rewrite app_length. cbn [length]. lia. }
    split; [apply Hpre|]. split; [exact Hh|]. split.
    { intros i H1 H2. rewrite app_nth1 by lia. apply HW; lia. }
    split. { intros i H1 H2. destruct (Nat.eq_dec i (2 * n + k)) as [->|Hne].
      - apply last_nth. lia.
      - rewrite app_nth1 by lia. apply HZ; lia. }
    split. { intros o H1 H2. apply HT; lia. } split; [exact Hok|]. split; intros; [apply Hd|]; lia.
  - (* comparison *)
    destruct (less_flat dl (gs_wires s) (4 * n + 1)%nat (4 * n)%nat L2 L1) as (w & Hw & Ep).
    { lia. } { apply HZ; lia. }
    rewrite Ep. cbn [obind]. rewrite Nat.leb_refl.
    unfold garble_dec. unfold output_domain. cbn [g_kind proj_domain g_output]. change (N.to_nat 2) with 2%nat. cbn [seq mapM gs_wires].
    rewrite (idx_lt _ _ wire_empty) by (rewrite app_length; cbn [length]; lia). cbn [obind].
    rewrite last_nth by lia. unfold dlookup. rewrite L2. cbn [unwrap obind].
    rewrite (wmul_ok p 2) by (auto; cbn; lia). cbn [obind]. rewrite (wadd_ok p 2) by auto using pmul_WF. cbn [obind].
    rewrite (wmul_ok p 2) by (auto; cbn; lia). cbn [obind]. rewrite (wadd_ok p 2) by auto using pmul_WF. cbn [obind].
    change (N.of_nat 1) with 1. rewrite pmul_1 by auto.
    eexists. split; [reflexivity|]. unfold GF. cbn [gs_wires gs_f gs_half gs_d].
    split. { rewrite app_length. cbn [length]. lia. }
    split; [apply Hpre|]. split; [exact Hh|]. split.
    { intros i H1 H2. rewrite app_nth1 by lia. apply HW; lia. }
    split. { intros i H1 H2. rewrite app_nth1 by lia. apply HZ; lia. }
    split. { intros o H1 H2. rewrite nat_lookup_other by lia. apply HT; lia. }
    assert (Hhw : WF 2 (hw sha p (4 * n + 1) z1 2)) by apply (hash_wire_ok sha p Hsha _ z1 D2 2 S2 HD).
    split. { apply ainsert_tables; auto. split; [cbn; unfold usize_ok; cbn; lia|].
      constructor; [|constructor]. apply WF2_wire_ok. auto using padd_WF. }
    split; intros; [lia|]. exists w. split; [exact Hw|]. split; [apply nat_lookup_same|].
    rewrite Hd by lia. eexists. reflexivity.
Qed.
End Step.

(** ** What the evaluator gets *)
Section EvalFlat.
Variable p' : profile.
Variable gc : garbled.
Variable w : wire.
Hypothesis Ec : gc_circuit gc = c.
Hypothesis HT : forall o, (3 * n <= o < 4 * n)%nat -> alookup Nat.eqb o (gc_f gc) = Some [z1; z1].
Hypothesis Hw : WF 2 w.
Hypothesis Hct : alookup Nat.eqb (4 * n + 1)%nat (gc_f gc) = Some [padd 2 (padd 2 (hw sha p (4 * n + 1) z1 2) w) D2].

Definition EF (k : nat) (st : list (option wire) * nat * nat) : Prop :=
  let '(es, _, _) := st in length es = (4 * n + 2)%nat /\
  forall i, (i < 2 * n + k)%nat -> exists x, nth_error es i = Some (Some x) /\
    ((i < 3 * n)%nat -> WF 2 x) /\ ((3 * n <= i < 4 * n + 1)%nat -> x = z1) /\ (i = (4 * n + 1)%nat -> x = padd 2 w D2).

Lemma read_flat es i x : nth_error es i = Some (Some x) -> read_init es i = Ok x.
Proof. intros E. unfold read_init, idx. rewrite E. reflexivity. Qed.
Lemma EF_set k es j0 j1 o x : EF k (es, j0, j1) -> o = (2 * n + k)%nat -> (o < 4 * n + 2)%nat ->
  ((o < 3 * n)%nat -> WF 2 x) -> ((3 * n <= o < 4 * n + 1)%nat -> x = z1) -> (o = (4 * n + 1)%nat -> x = padd 2 w D2) ->
  exists es', set_idx es o (Some x) = Ok es' /\ EF (S k) (es', j0, j1).
Proof.
  intros (Hl & He) Eo Ho H1 H2 H3. rewrite set_idx_lt by lia. eexists. split; [reflexivity|].
  split. { now rewrite set_nth_length. }
  intros i Hi. rewrite set_nth_nth_error by lia. destruct (Nat.eqb_spec i o) as [->|Hne].
  - exists x. auto.
  - apply He. lia.
Qed.
Lemma eval_step_flat k g st : nth_error (gates c) k = Some g -> EF k st ->
  exists st', eval_garbled_gate sha p' gc st g = Ok st' /\ EF (S k) st'.
Proof.
  intros Hk. destruct st as [[es j0] j1]. intros HE. assert (HE' := HE). destruct HE' as (Hl & He).
  destruct D2_ok as [_ HD].
  unfold eval_garbled_gate.
  destruct (circL_cases n 1 t k g Hk) as [[Hc ->]|[[Hc ->]|[[Hc ->]|[Hc ->]]]]; cbn [g_kind g_inputs g_output].
  - destruct (He k) as (a & Ea & Wa & _). lia. destruct (He (k + n)%nat) as (b & Eb & Wb & _). lia.
    cbn [mapM]. rewrite (read_flat es k a Ea), (read_flat es (k + n)%nat b Eb). cbn [obind].
    specialize (Wa ltac:(lia)). specialize (Wb ltac:(lia)).
    assert (Fb : Forall (WF 2) [b]) by auto.
    rewrite (wsum_ok p' 2) by auto. cbn [obind].
    destruct (EF_set k es j0 j1 (k + 2 * n)%nat (psum 2 [b] a) HE) as (es' & -> & HE'); try lia; auto.
    { intros _. now apply psum_WF. }
    cbn [obind]. eauto.
  - destruct (He (k + n)%nat) as (b & Eb & Wb & _). lia. specialize (Wb ltac:(lia)).
    rewrite (idx_lt [(k + n)%nat] 0 0%nat) by (simpl; lia). cbn [obind nth].
    rewrite (read_flat es (k + n)%nat b Eb). cbn [obind]. rewrite HT by lia. cbn [unwrap obind].
    pose proof (color_lt 2 b S2 Wb) as Hcl.
    assert (Ei : idx [z1; z1] (N.to_nat (color b)) = Ok z1).
    { assert (Ecb : color b = 0 \/ color b = 1) by lia. destruct Ecb as [-> | ->]; reflexivity. }
    rewrite Ei. cbn [obind]. rewrite hash_z1 by auto. cbn [obind]. rewrite wsub_z1. cbn [obind].
    destruct (EF_set k es j0 j1 (k + 2 * n)%nat z1 HE) as (es' & -> & HE'); try lia; auto.
    cbn [obind]. eauto.
  - rewrite (mapM_const _ z1).
    2:{ intros i Hi. apply in_seq in Hi. destruct (He i) as (b & Eb & _ & Zb & _). lia.
        rewrite (read_flat es i b Eb). f_equal. apply Zb. lia. }
    cbn [obind]. rewrite seq_length.
    rewrite wsum_z1. 2:{ destruct n; [lia|]. discriminate. } 2:{ apply Forall_repeat. reflexivity. } cbn [obind].
    destruct (EF_set k es j0 j1 (4 * n)%nat z1 HE) as (es' & -> & HE'); try lia; auto.
    cbn [obind]. eauto.
  - destruct (He (4 * n)%nat) as (b & Eb & _ & Zb & _). lia. specialize (Zb ltac:(lia)). subst b.
    rewrite (idx_lt [(4 * n)%nat] 0 0%nat) by (simpl; lia). cbn [obind nth].
    rewrite (read_flat es (4 * n)%nat z1 Eb). cbn [obind]. rewrite Hct. cbn [unwrap obind].
    change (color z1) with 0. cbn [N.to_nat idx nth_error unwrap obind].
    change (hw sha p (4 * n + 1) z1 2) with (hw sha p' (4 * n + 1) z1 2).
    set (h := hw sha p' (4 * n + 1) z1 2).
    assert (Hh : WF 2 h) by apply (hash_wire_ok sha p' Hsha _ z1 D2 2 S2 HD).
    set (ct := padd 2 (padd 2 h w) D2). assert (Wct : WF 2 ct) by (unfold ct; auto using padd_WF).
    destruct (hash_wire_ok sha p' Hsha (4 * n + 1)%nat z1 ct 2 S2 Wct) as [-> _]. cbn [obind]. fold h.
    rewrite (wsub_ok p' 2) by auto. cbn [obind].
    destruct (EF_set k es j0 j1 (4 * n + 1)%nat (psub 2 ct h) HE) as (es' & -> & HE'); try lia.
    { intros _. unfold ct. rewrite padd_assoc by auto. apply psub_padd; auto using padd_WF. }
    cbn [obind]. eauto.
Qed.
Lemma evaluate_flat x : length x = (2 * n)%nat -> Forall (WF 2) x -> evaluate sha p' gc x = Ok [padd 2 w D2].
Proof.
  intros Hx HF. unfold evaluate. rewrite Ec. cbn [circL num_inputs num_wires num_outputs].
  replace (n * 2)%nat with (2 * n)%nat by lia.
  rewrite Hx, Nat.eqb_refl, debug_assert_true. cbn [obind].
  destruct (foldM_inv (fun (ws : list (option wire)) i => let* xi := idx x i in set_idx ws i (Some xi))
     (fun q es => length es = (4 * n + 2)%nat /\ forall i, (i < q)%nat -> nth_error es i = Some (Some (nth i x wire_empty)))
     (seq 0 (2 * n)) (repeat None (4 * n + 2))) as (es & Ees & Hl & Hes).
  - split. apply repeat_length. intros; lia.
  - intros q a es Hq [Hl Hes].
    assert (Hq' : (q < 2 * n)%nat). { rewrite <- (seq_length (2 * n) 0). apply nth_error_Some. congruence. }
    assert (a = q). { rewrite (nth_error_nth' _ 0%nat) in Hq by (rewrite seq_length; auto).
      rewrite seq_nth in Hq by auto. inversion Hq; auto. } subst a.
    rewrite (idx_lt x q wire_empty) by lia. cbn [obind].
    rewrite set_idx_lt by lia. eexists; split; [reflexivity|]. split. { now rewrite set_nth_length. }
    intros i Hi. rewrite set_nth_nth_error by lia.
    destruct (Nat.eqb_spec i q) as [->|]; auto. apply Hes; lia.
  - rewrite Ees. cbn [obind]. rewrite seq_length in Hes.
    change (xors1 n ++ tail_gates (2 * n) n 1 (t + 1)) with (gates c).
    destruct (foldM_inv (eval_garbled_gate sha p' gc) EF (gates c) (es, 0%nat, 0%nat)) as (st & Est & HEI).
    + split; [exact Hl|]. intros i Hi. rewrite Nat.add_0_r in Hi. exists (nth i x wire_empty).
      split; [now apply Hes|]. split; [|split; intros; lia].
      intros _. rewrite Forall_forall in HF. apply HF. apply nth_In. lia.
    + intros. eapply eval_step_flat; eauto.
    + rewrite Est. cbn [obind]. rewrite circL_glength in HEI.
      destruct st as [[es' j0] j1]. destruct HEI as (Hl' & Hes'). cbn [obind].
      rewrite (proj2 (Nat.leb_le 1 (4 * n + 2))) by lia.
      destruct (Hes' (4 * n + 1)%nat) as (y & Ey & _ & _ & Hy). lia. specialize (Hy eq_refl). subst y.
      assert (Hsk : skipn (4 * n + 2 - 1) es' = [Some (padd 2 w D2)]).
      { replace (4 * n + 2 - 1)%nat with (4 * n + 1)%nat by lia.
        apply nth_error_split in Ey as (l1 & l2 & -> & L1). rewrite app_length in Hl'. cbn [length] in Hl'.
        destruct l2; [|cbn [length] in Hl'; lia].
        rewrite skipn_app, <- L1, Nat.sub_diag, skipn_all. reflexivity. }
      rewrite Hsk. reflexivity.
Qed.
End EvalFlat.

(** ** All of it *)
Lemma garble_flat : t <= 65534 -> usize_ok (4 * n + 2) ->
  exists gc ek dk bk zs l1, garble sha p rd ri c = Ok (gc, ek, dk) /\ binary_of_ek p ek = Ok bk /\ zipped bk = Ok zs /\
    garbled_ok gc /\ gc_circuit gc = c /\ length zs = (2 * n)%nat /\ Forall (fun z => WF 2 (fst z) /\ WF 2 (snd z)) zs /\
    (exists hs, idx (dk_hashes dk) 0 = Ok hs /\ idx hs 1 = Ok (sha (dec_string (4 * n + 1) 1 l1))) /\ WF 2 l1 /\
    forall p' gc2 x, same_garbled gc2 gc -> length x = (2 * n)%nat -> Forall (WF 2) x -> evaluate sha p' gc2 x = Ok [l1].
Proof.
  intros Ht Hu. destruct deltas_flat as (dl & Edl & L2 & L1).
  destruct (garble_inputs_ok ri (repeat 2 (n * 2))) as (ws & Ews & Hlw & HWs).
  { apply Forall_repeat. exact S2. }
  { intros i m Hi. apply nth_error_In in Hi. apply repeat_spec in Hi. subst m. apply Hri. }
  rewrite repeat_length in Hlw, HWs.
  assert (HF : Forall (WF 2) ws).
  { apply Forall_forall. intros w Hin. apply (In_nth _ _ wire_empty) in Hin as (i & Hi & <-).
    rewrite Hlw in Hi. specialize (HWs i Hi). rewrite nth_repeat_lt in HWs by auto. exact HWs. }
  assert (Hfw : firstn (2 * n) ws = ws) by (apply firstn_all2; lia).
  assert (HI : GF ws 0 (mkGS ws [] [] [] 0 0)).
  { unfold GF. cbn [gs_wires gs_f gs_half gs_d]. split; [lia|]. split; [exact Hfw|]. split; [reflexivity|].
    split. { intros i _ Hi. rewrite Forall_forall in HF. apply HF. apply nth_In. lia. }
    split; [intros; lia|]. split; [intros; lia|]. split; [constructor|]. split; intros; [reflexivity|lia]. }
  destruct (foldM_inv (garble_gate sha p dl (4 * n + 1)) (GF ws) (gates c) _ HI) as (s & Es & HG).
  { intros. eapply step_flat; eauto. }
  rewrite circL_glength in HG.
  assert (Er : garble_run sha p rd ri c = Ok (mkEK ws dl, (4 * n + 1)%nat, s)).
  { unfold garble_run. rewrite Edl. cbn [obind]. cbn [circL input_domains num_inputs num_outputs num_wires]. rewrite Ews. cbn [obind].
    rewrite (proj2 (Nat.leb_le (n * 2) (length ws))) by lia. cbn [obind].
    rewrite (proj2 (Nat.leb_le 1 (4 * n + 2))) by lia. cbn [obind].
    replace (4 * n + 2 - 1)%nat with (4 * n + 1)%nat by lia.
    change (mkCircuit _ _ _ _ _) with c. rewrite Es. cbn [obind].
    replace (n * 2)%nat with (2 * n)%nat by lia. rewrite Hfw. reflexivity. }
  destruct (garble_run_keys _ _ _ _ _ _ _ _ Er) as (N1 & _ & K1 & _ & Len1 & _). rewrite circL_glength in Len1.
  destruct HG as (_ & _ & Hh & _ & _ & HT & Hok & _ & Hlast). destruct Hlast as (w & Hw & Hct & h0 & Hd). lia.
  destruct D2_ok as [_ HD].
  assert (Lab : Forall (label 2) ws) by (eapply Forall_impl; [|exact HF]; intros a Ha; apply label_WF; auto).
  assert (LD : label 2 D2) by (apply label_WF; auto).
  destruct (zipped_ok ws D2) as (zs & Ez & Eu & Lz).
  exists (mkGC c (gs_f s) (gs_half s)), (mkEK ws dl), (mkDK (gs_d s) (4 * n + 1)), (mkBK ws (map (fun w => padd 2 w D2) ws)), zs, (padd 2 w D2).
  split. { unfold garble. rewrite Er. reflexivity. }
  split; [exact (binary_of_ek_ok p ws dl D2 Lab LD L2)|]. split; [exact Ez|].
  split.
  { split; [now apply circL_ok|]. cbn [gc_f gc_half]. split.
    - split; [split|exact N1].
      + eapply usize_le; [|exact Hu]. lia.
      + rewrite Forall_forall in *. intros kv Hin. split; [|now apply Hok].
        destruct (K1 (fst kv)) as (g & kk & Hg & Eo & _). { apply in_map. exact Hin. }
        apply In_nth_error in Hg as [q Hq]. pose proof (circL_gate n 1 t q g Hq) as [Ho _].
        assert (q < 2 * n + 2)%nat by (rewrite <- (circL_glength n 1 t); apply nth_error_Some; congruence).
        eapply usize_le; [|exact Hu]. lia.
    - rewrite Hh. split; [split; [unfold usize_ok; cbn; lia|constructor]|constructor]. }
  split; [reflexivity|]. split; [lia|]. split.
  { assert (E1 : map fst zs = ws) by (unfold unzipped in Eu; congruence).
    assert (E2 : map snd zs = map (fun w => padd 2 w D2) ws) by (unfold unzipped in Eu; congruence).
    apply Forall_forall. intros z Hz. rewrite Forall_forall in HF. split.
    - apply HF. rewrite <- E1. now apply in_map.
    - assert (Hin : In (snd z) (map (fun w => padd 2 w D2) ws)) by (rewrite <- E2; now apply in_map).
      apply in_map_iff in Hin as (a & <- & Ha). auto using padd_WF. }
  split. { cbn [dk_hashes]. rewrite Hd. eexists. split; reflexivity. }
  split; [auto using padd_WF|].
  intros p' gc2 x Same Hx HFx. rewrite (evaluate_same sha p' gc2 _ x Same).
  apply evaluate_flat; auto. cbn [gc_f]. intros o Ho. apply HT; lia.
Qed.
End Flat.

(** ** A run of garbler and evaluator *)
Section RunFlat.
Variable sha : bytes -> bytes.
Hypothesis Hsha : hash32 sha.
Variables p p' : profile.
Variable g : garbling.
Hypothesis Hg : garbling_ok g.
Hypothesis Hg1 : valid_sample 1 (g_rd g 1).
Variable otS : list (bytes * bytes) -> proc unit.
Variable otR : list bool -> proc (list bytes).
Hypothesis Hot : ot_correct extension_ok otS otR.
Variables pw pw' : bytes.
Variable t : N.
Hypothesis Hlen : length pw' = length pw.
Hypothesis Hmod : sum_modulus (length pw) = 1.
Hypothesis Hpos : (1 <= length pw)%nat.
Hypothesis Husize : usize_ok (length pw * 64).
Hypothesis Ht : t <= 65534.
Let n := (length pw * 8)%nat.
Let c := circL n 1 t.

Lemma fpake_run_flat : exists l1, WF 2 l1 /\
  runs (garbler sha p g otS pw t) (evaluator sha p' otR pw')
    (Ok (sha (dec_string (4 * n + 1) 1 l1))) (Ok (sha (dec_string (4 * n + 1) 1 l1))).
Proof.
  assert (H1 : (1 <= n)%nat) by (unfold n; lia).
  assert (Hun : usize_ok n) by (eapply usize_le; [|exact Husize]; unfold n; lia).
  assert (Hnw : usize_ok (4 * n + 2)) by (eapply usize_le; [|exact Husize]; unfold n; lia).
  destruct Hg as (G1 & G2 & G3).
  destruct (garble_flat sha Hsha p (g_rd g) (g_ri g) G1 Hg1 G2 n t H1 Ht Hnw)
    as (gc & ek & dk & bk & zs & l1 & Eg & Ebk & Ez & Hok & Ec & Lz & Hz & Hkey & Wl & Hev).
  exists l1. split; [exact Wl|]. fold c in Eg, Ec.
  assert (Lb : length (u8_vec_to_bool_vec pw) = n) by apply bits_length8.
  assert (Lb' : length (u8_vec_to_bool_vec pw') = n) by (rewrite bits_length8, Hlen; reflexivity).
  assert (Em : N.of_nat n mod 65536 + 1 = 1) by exact Hmod.
  unfold garbler, evaluator. rewrite Lb.
  eapply runs_lift_l. { apply build_circuit_long; [rewrite Em; lia|exact Ht]. } rewrite Em. fold c.
  eapply runs_lift_l. { unfold garble_zipped. rewrite Eg. cbn [obind]. rewrite Ebk. cbn [obind]. rewrite Ez. reflexivity. } cbv beta iota.
  eapply runs_lift_l. { unfold slice_to. rewrite (proj2 (Nat.leb_le _ _)) by lia. reflexivity. }
  eapply runs_lift_l. { unfold slice_from. rewrite (proj2 (Nat.leb_le _ _)) by lia. reflexivity. }
  set (own := firstn n zs). set (theirs := skipn n zs).
  assert (Lo : length own = n) by (unfold own; rewrite firstn_length; lia).
  assert (Lt : length theirs = n) by (unfold theirs; rewrite skipn_length; lia).
  assert (Hown : all_binary own) by now apply all_binary_firstn.
  assert (Hth : all_binary theirs) by now apply all_binary_skipn.
  destruct (Hot (label_messages theirs) (u8_vec_to_bool_vec pw')) as (out & R & Sel).
  { unfold label_messages. rewrite map_length. lia. }
  { apply labels_extension; [exact Hth|lia| |rewrite Lt; exact Hun]. rewrite Lt. apply Nat.mod_mul. lia. }
  apply selection_labels in Sel; [|lia].
  eapply runs_bind; [exact R|].
  eapply runs_lift_r. { rewrite Sel. apply received_labels. now apply picked_labels. }
  apply runs_send_recv.
  assert (exists gc2, deserialize dec_garbled (enc_garbled (g_order g gc)) = Ok gc2 /\ same_garbled gc2 gc) as (gc2 & Egc & Same).
  { destruct (G3 gc) as (E1 & Pf & Ph).
    destruct (rt_garbled_any_order gc (g_order g gc) [] Hok) as (g2 & E & S).
    { split; [now symmetry|]. split; now apply Permutation.Permutation_sym. }
    exists g2. split; [|exact S]. unfold deserialize. rewrite app_nil_r in E. now rewrite E. }
  eapply runs_lift_r; [exact Egc|].
  eapply runs_lift_l. { apply bk_encode_pick. lia. }
  apply runs_send_recv.
  eapply runs_lift_r. { apply sent_wires; [now apply picked_labels|]. rewrite zipWith_length, Lo, Lb, Nat.min_id. exact Hun. }
  eapply runs_lift_r.
  { apply Hev; [exact Same| |].
    - rewrite app_length, !zipWith_length. lia.
    - apply Forall_app. split; now apply picked_labels. }
  assert (Ek : garbler_half_key dk = Ok (sha (dec_string (4 * n + 1) 1 l1))).
  { unfold garbler_half_key. destruct Hkey as (hs & -> & E). exact E. }
  assert (Ek' : evaluator_half_key sha p' gc2 [l1] = Ok (sha (dec_string (4 * n + 1) 1 l1))).
  { unfold evaluator_half_key. destruct Same as (-> & _). rewrite Ec. cbn [c circL num_wires].
    unfold usub. destruct (N.leb_spec 1 (N.of_nat (4 * n + 2))); [|lia]. cbn [obind idx nth_error unwrap].
    unfold dec_string, u16_be. do 4 f_equal. lia. }
  rewrite Ek, Ek'. apply runs_done.
Qed.
End RunFlat.
