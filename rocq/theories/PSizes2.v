(** The size of the garbled circuit, and of everything sent on a channel (C107). *)
From Coq Require Import List NArith Bool Arith Lia Permutation.
From Verif Require Import Base MUtil MWires MCircuit MGarble MPar MBincode MProc MOt MApricot MMany MFpake MChannel MMain.
From Verif Require Import SpecWires SpecCircuit SpecGarble SpecBincode SpecOt SpecApricot SpecMany SpecMfpake SpecFpake SpecWhole SpecSizes.
From Verif Require Import PBase PUtil PWires PWiresSpec PGarble PGarbleSpec PBinKey PBincode PCircuit PHalf PFpake PPar PProc PEnds PHang PBounds PWhole PSizes.
Import ListNotations.
Open Scope N_scope.

(** ** Labels and tables *)
Definition label_size (m : N) : nat := (length (enc_domain (dom_of m)) + 32)%nat.
Lemma wire_size m w : WF m w -> length (enc_wire w) = label_size m.
Proof. intros (Hd & Hl & _). unfold enc_wire, label_size. now rewrite app_length, Hd, Hl. Qed.
Lemma wires_size m ws : Forall (WF m) ws -> length (enc_wires ws) = (8 + length ws * label_size m)%nat.
Proof. intros H. apply vec_size. eapply Forall_impl; [|exact H]. intros w. apply wire_size. Qed.
Lemma label_size2 : label_size 2 = 36%nat.
Proof. reflexivity. Qed.
Lemma label_size_count l : good_length l -> label_size (cd1 (l * 8)) = count_label l.
Proof.
  intros H. unfold label_size, count_label, dom_of, cd1. destruct (N.eqb_spec (N.of_nat (l * 8) + 1) 2); [lia|].
  destruct (Nat.leb_spec l 15), (N.ltb_spec (N.of_nat (l * 8) + 1) 255); destruct H; try lia; [reflexivity|].
  destruct (N.eqb_spec (N.of_nat (l * 8) + 1) 256); [lia|reflexivity].
Qed.
Lemma table_WF sha p rd out m n k wi w tbl : hash32 sha -> (forall m, supported m -> valid_sample m (rd m)) -> supported m -> supported n -> WF m wi -> WF n w ->
  table_ok sha p rd out m n k wi w tbl -> Forall (WF n) tbl.
Proof.
  intros Hsha Hrd Hm Hn Hwi Hw (Hl & Ht & _).
  apply Forall_forall. intros t Hin. apply In_nth_error in Hin as [j Hj].
  assert (Hjl : (j < N.to_nat m)%nat) by (rewrite <- Hl; apply nth_error_Some; congruence).
  assert (Hm0 : 0 < m) by (unfold supported in Hm; lia).
  set (cc := color wi mod m). assert (Hcc : cc < m) by (apply N.mod_lt; lia).
  set (x := (N.of_nat j + (m - cc)) mod m). assert (Hx : x < m) by (apply N.mod_lt; lia).
  assert (Ej : (color wi + x) mod m = N.of_nat j).
  { unfold x. rewrite N.add_mod_idemp_r by lia. rewrite <- N.add_mod_idemp_l by lia. fold cc.
    replace (cc + (N.of_nat j + (m - cc))) with (N.of_nat j + 1 * m) by lia. rewrite N.mod_add by lia. apply N.mod_small. lia. }
  specialize (Ht x Hx). rewrite Ej, Nat2N.id, Hj in Ht. inversion Ht as [E].
  destruct (hash_wire_ok sha p Hsha out (lab rd m wi x) (D rd n) n Hn (D_WF rd Hrd n Hn)) as [_ Hh].
  apply padd_WF; auto. { apply padd_WF; auto. } apply pmul_WF; auto. now apply D_WF.
Qed.

(** ** The circuit *)
Lemma gate_size g : length (enc_gate g) = (18 + 8 * length (g_inputs g) + length (enc_kind (g_kind g)))%nat.
Proof.
  unfold enc_gate, enc_u16. rewrite !app_length, len_usize, len_uint, (vec_size _ 8); [lia|]. apply Forall_forall. intros. apply len_usize.
Qed.
Lemma circuit_size n t : length (enc_circuit (circ1 n t)) = (98 + 86 * n)%nat.
Proof.
  unfold enc_circuit. rewrite !app_length, !len_usize. unfold enc_vec at 1. rewrite app_length, len_usize.
  rewrite (vec_size enc_u16 2) by (apply Forall_forall; intros; apply len_uint).
  unfold circ1. cbn [gates input_domains]. rewrite repeat_length. unfold tail_gates, xors1. rewrite !flat_map_app, !app_length.
  rewrite (flat_size enc_gate 38) by (apply Forall_forall; intros g Hg; apply in_map_iff in Hg as (i & <- & _); rewrite gate_size; reflexivity).
  rewrite (flat_size enc_gate 36) by (apply Forall_forall; intros g Hg; apply in_map_iff in Hg as (i & <- & _); rewrite gate_size; reflexivity).
  cbn [flat_map]. rewrite app_nil_r, app_length, !gate_size. cbn [g_inputs g_kind length enc_kind enc_proj]. rewrite !map_length, !seq_length.
  unfold enc_tag, enc_u16. rewrite !app_length, !len_uint. lia.
Qed.

(** ** The tables *)
Lemma circ1_projs n t o : proj_out (gates (circ1 n t)) o <-> In o (seq (3 * n) n ++ [4 * n + 1]%nat).
Proof.
  unfold proj_out, circ1, tail_gates, xors1. cbn [gates]. rewrite in_app_iff, in_seq. cbn [In]. split.
  - intros (g & k & Hg & <- & Ek). apply in_app_iff in Hg as [Hg|Hg]; [apply in_map_iff in Hg as (i & <- & _); discriminate|].
    apply in_app_iff in Hg as [Hg|[<-|[<-|[]]]]; [|discriminate|cbn [g_output]; right; left; lia].
    apply in_map_iff in Hg as (i & <- & Hi). apply in_seq in Hi. cbn [g_output]. left. lia.
  - intros [H|[<-|[]]].
    + exists (mkGate o 2 [o - n]%nat (GProj (PMap (cd1 n)))), (PMap (cd1 n)). split; [|split; reflexivity].
      apply in_app_iff. right. apply in_app_iff. left. apply in_map_iff. exists (o - 3 * n)%nat. split; [|apply in_seq; lia].
      f_equal; [lia|]. f_equal. lia.
    + exists (mkGate (4 * n + 1) (cd1 n) [4 * n]%nat (GProj (PLess (t + 1)))), (PLess (t + 1)). split; [|split; reflexivity].
      apply in_app_iff. right. apply in_app_iff. right. right. left. f_equal; [lia|]. f_equal. lia.
Qed.
Lemma sum_perm (f : nat -> nat) l l' : Permutation l l' -> list_sum (map f l) = list_sum (map f l').
Proof. induction 1; cbn [map list_sum fold_right] in *; unfold list_sum in *; cbn [fold_right] in *; lia. Qed.
Lemma sum_const (f : nat -> nat) k l : (forall x, In x l -> f x = k) -> list_sum (map f l) = (length l * k)%nat.
Proof.
  induction l as [|a l IH]; intros H; [reflexivity|]. cbn [map length Nat.mul]. unfold list_sum in *. cbn [fold_right].
  rewrite (H a) by now left. rewrite IH; [reflexivity|]. intros x Hx. apply H. now right.
Qed.

Section Size.
Variable sha : bytes -> bytes.
Variable p : profile.
Variable g : garbling.
Hypothesis Hh : hash32 sha.
Hypothesis Hg : garbling_ok g.
Variables (l : nat) (t : N).
Hypothesis Hl : good_length l.
Hypothesis Ht : t <= 65534.
Let n := (l * 8)%nat.
Let c := circ1 n t.
Definition table_size (o : nat) : nat := if Nat.eqb o (4 * n + 1) then (16 + (n + 1) * 36)%nat else (16 + 2 * count_label l)%nat.

Lemma tables_size gc ek dk zs l0 l1 : half_key sha p (g_rd g) (g_ri g) c gc ek dk zs l0 l1 ->
  length (enc_map enc_wires (gc_f gc)) = (24 + n * (16 + 2 * count_label l) + (n + 1) * 36)%nat /\ gc_half gc = [].
Proof.
  intros H. destruct (good_supported l Hl) as (Hsup & Hn & Hn1). fold n in Hsup, Hn, Hn1.
  assert (Hwf : wf_circuit c) by (apply circ1_wf; auto).
  destruct (hk_state _ _ _ _ _ _ _ _ _ _ _ H) as (s & Er & -> & HI & _). cbn [gc_f gc_half].
  assert (Hsam : good_samples c (g_rd g) (g_ri g)).
  { apply samples_ok; [|exact Hg]. unfold c, circ1. cbn [input_domains]. apply Forall_forall. intros m Hm. now apply repeat_spec in Hm. }
  destruct (garble_run_keys sha p (g_rd g) (g_ri g) c ek _ s Er) as (N1 & N2 & K1 & K2 & _ & _).
  destruct HI as (_ & HW & _ & _ & Hgood & _). pose proof (wf_wires c Hwf) as Hnw.
  assert (HWw : forall i, (i < num_wires c)%nat -> WF (modulus c i) (wn (gs_wires s) i)) by (intros; apply HW; lia).
  assert (T : forall o k gt, In gt (gates c) -> g_output gt = o -> g_kind gt = GProj k ->
     exists tbl, alookup Nat.eqb o (gs_f s) = Some tbl /\ length tbl = N.to_nat (g_domain gt) /\ Forall (WF (proj_domain k)) tbl).
  { intros o k gt Hin Eo Ek. apply In_nth_error in Hin as [j Hj]. assert (Hjl : (j < length (gates c))%nat) by (apply nth_error_Some; congruence).
    specialize (Hgood j gt Hjl Hj). unfold good_gate in Hgood. rewrite Ek in Hgood.
    destruct (wf_gates c Hwf j gt Hj) as (Eout & Hins & Hty & Hs). unfold gate_typed in Hty. rewrite Ek in Hty.
    destruct Hty as (i & l' & Ei & Hmod & Hpd). destruct (Hgood i l' Ei) as (tbl & Et & Htbl).
    assert (Hi : (i < g_output gt)%nat) by (rewrite Ei in Hins; now inversion Hins).
    exists tbl. rewrite <- Eo. split; [exact Et|]. split; [apply Htbl|].
    eapply (table_WF sha p (g_rd g)); [exact Hh|apply Hg|exact Hs|exact Hpd| | |exact Htbl].
    - rewrite <- Hmod. apply HWw. lia.
    - assert (Em : modulus c (g_output gt) = proj_domain k).
      { unfold modulus, wire_moduli. rewrite app_nth2 by (rewrite (wf_indoms c Hwf); lia).
        rewrite (wf_indoms c Hwf), Eout. replace (num_inputs c + j - num_inputs c)%nat with j by lia.
        erewrite nth_error_nth; [|apply map_nth_error; exact Hj]. unfold output_domain. rewrite Ek. reflexivity. }
      rewrite <- Em. apply HWw. lia. }
  split.
  2:{ destruct (gs_half s) as [|[o x] r]; [reflexivity|]. exfalso. destruct (K2 o) as (gt & Hin & _ & Ek); [now left|].
      unfold c, circ1, tail_gates, xors1 in Hin. cbn [gates] in Hin. rewrite !in_app_iff, !in_map_iff in Hin.
      destruct Hin as [(i & <- & _)|[(i & <- & _)|[<-|[<-|[]]]]]; discriminate. }
  assert (P : Permutation (keys (gs_f s)) ((4 * n + 1)%nat :: seq (3 * n) n)).
  { apply NoDup_Permutation; [exact N1|constructor; [rewrite in_seq; lia|apply seq_NoDup]|]. intros o. split.
    - intros Ho. apply K1 in Ho. apply circ1_projs in Ho. apply in_app_iff in Ho. cbn [In] in *. tauto.
    - intros Ho. assert (Hp : proj_out (gates c) o) by (apply circ1_projs, in_app_iff; cbn [In] in *; tauto).
      destruct Hp as (gt & k & Hin & Eo & Ek). destruct (T o k gt Hin Eo Ek) as (tbl & Et & _).
      apply (alookup_in (gs_f s) N1) in Et. apply in_map_iff. now exists (o, tbl). }
  unfold enc_map, enc_vec. rewrite app_length, len_usize.
  rewrite (flat_map_sum _ (fun kv : nat * list wire => table_size (fst kv))).
  - rewrite <- (map_map fst table_size). fold (keys (gs_f s)). rewrite (sum_perm _ _ _ P).
    cbn [map]. unfold list_sum at 1. cbn [fold_right]. fold (list_sum (map table_size (seq (3 * n) n))).
    rewrite (sum_const _ (16 + 2 * count_label l)).
    + rewrite seq_length. unfold table_size. rewrite Nat.eqb_refl. lia.
    + intros o Ho. apply in_seq in Ho. unfold table_size. destruct (Nat.eqb_spec o (4 * n + 1)); [lia|reflexivity].
  - intros [o tbl] Hin. cbn [fst]. unfold enc_entry. cbn [fst snd]. rewrite app_length, len_usize.
    pose proof (proj2 (alookup_in (gs_f s) N1 o tbl) Hin) as El.
    assert (Ho : proj_out (gates c) o) by (apply K1, in_map_iff; now exists (o, tbl)).
    destruct Ho as (gt & k & Hgt & Eo & Ek). destruct (T o k gt Hgt Eo Ek) as (tbl' & Et & Lt & Ft).
    rewrite El in Et. injection Et as <-. rewrite (wires_size _ _ Ft), Lt. unfold table_size.
    unfold c, circ1, tail_gates, xors1 in Hgt. cbn [gates] in Hgt. rewrite !in_app_iff, !in_map_iff in Hgt.
    destruct Hgt as [(i & <- & _)|[(i & <- & Hi)|[<-|[<-|[]]]]]; try discriminate; cbn [g_kind g_output g_domain] in *; injection Ek as <-; subst o.
    + apply in_seq in Hi. destruct (Nat.eqb_spec (i + (2 * n + n)) (4 * n + 1)); [lia|]. cbn [proj_domain].
      unfold n. rewrite label_size_count by exact Hl. change (N.to_nat 2) with 2%nat. lia.
    + destruct (Nat.eqb_spec (2 * n + n + n + 1) (4 * n + 1)); [|lia]. cbn [proj_domain]. rewrite label_size2. unfold cd1. lia.
Qed.
Lemma garbled_size_ok gc ek dk zs l0 l1 : half_key sha p (g_rd g) (g_ri g) c gc ek dk zs l0 l1 ->
  length (enc_garbled (g_order g gc)) = garbled_size l.
Proof.
  intros H. destruct (tables_size _ _ _ _ _ _ H) as [Lf Lh]. destruct Hg as (_ & _ & Ho). destruct (Ho gc) as (Ec & Pf & Ph).
  unfold enc_garbled. rewrite !app_length, Ec, (hk_circuit _ _ _ _ _ _ _ _ _ _ _ H). unfold c. rewrite circuit_size.
  rewrite Lh in Ph. apply Permutation_sym, Permutation_nil in Ph. rewrite Ph.
  assert (E : length (enc_map enc_wires (gc_f (g_order g gc))) = length (enc_map enc_wires (gc_f gc))).
  { unfold enc_map, enc_vec. rewrite !app_length, !len_usize. f_equal. apply Permutation_length. now apply Permutation_flat_map. }
  rewrite E, Lf. unfold enc_map, enc_vec. cbn [flat_map]. rewrite app_nil_r, len_usize. unfold garbled_size, n. lia.
Qed.
End Size.

(** ** The halves *)
Lemma sized_garbler sha p g C i L ot pw t : hash32 sha -> garbling_ok g -> good_length (length pw) -> t <= 65534 ->
  (forall ms j M, length ms = (8 * length pw)%nat -> (forall m, nth_error ms 0 = Some m -> length (fst m) = 32%nat) ->
     sized C j (ext_sender_sizes (8 * length pw) 32 ++ M) (ot ms) (fun M' _ => M' = M)) ->
  sized C i (garbler_sizes (length pw) ++ L) (garbler sha p g ot pw t) (fun M _ => M = L).
Proof.
  intros Hh Hg Hl Ht Hot. unfold garbler_sizes. rewrite <- app_assoc. cbn [app]. unfold garbler. cbv zeta. rewrite bits_length8.
  destruct (good_supported _ Hl) as (Hsup & Hn & Hn1).
  rewrite (build_circuit_eq (length pw * 8) t p Hn Ht). eapply sized_bind; [apply sized_lift; instantiate (1 := fun x => x = circ1 (length pw * 8) t); reflexivity|].
  intros ? ? c0 [-> ->].
  destruct (circ1_half sha p g (length pw * 8) t Hh Hg Hn Ht Hn1 Hsup) as (gc & ek & dk & zs & l0 & l1 & H).
  rewrite (garble_zipped_ok sha p g _ gc ek dk zs l0 l1 H).
  eapply sized_bind; [apply sized_lift; instantiate (1 := fun x => x = (gc, zs, dk)); reflexivity|]. intros ? ? [[x y] z] [-> E]. injection E as -> -> ->.
  pose proof (hk_length _ _ _ _ _ _ _ _ _ _ _ H) as Lz. cbn [circ1 num_inputs] in Lz.
  pose proof (zs_binary sha p g _ _ _ _ _ _ _ H) as Bz.
  unfold slice_to, slice_from. replace (Nat.leb (length pw * 8) (length zs)) with true by (symmetry; apply Nat.leb_le; lia).
  eapply sized_bind; [apply sized_lift; instantiate (1 := fun x => x = firstn (length pw * 8) zs); reflexivity|]. intros ? ? own [-> ->].
  eapply sized_bind; [apply sized_lift; instantiate (1 := fun x => x = skipn (length pw * 8) zs); reflexivity|]. intros ? ? th [-> ->].
  eapply sized_bind; [apply Hot|].
  { unfold label_messages. rewrite map_length, skipn_length. lia. }
  { intros m Hm. unfold label_messages in Hm. apply nth_error_In, in_map_iff in Hm as (z & <- & Hz). cbn [fst].
    apply (all_binary_skipn (length pw * 8)) in Bz. unfold all_binary in Bz. rewrite Forall_forall in Bz. destruct (Bz z Hz) as [(_ & Lw & _) _]. exact Lw. }
  intros ? ? _ ->.
  eapply sized_bind; [apply sized_send; eapply (garbled_size_ok sha p g Hh Hg (length pw) t Hl Ht); exact H|]. intros ? ? _ ->.
  rewrite bk_encode_pick by (rewrite bits_length8, firstn_length; lia).
  eapply sized_bind; [apply sized_lift; instantiate (1 := fun x => x = zipWith pick (firstn (length pw * 8) zs) (u8_vec_to_bool_vec pw)); reflexivity|]. intros ? ? enc [-> ->].
  eapply sized_bind; [apply sized_send|].
  { rewrite (wires_size 2) by (apply picked_labels, all_binary_firstn; exact Bz).
    rewrite zipWith_length, firstn_length, bits_length8, label_size2. lia. }
  intros ? ? _ ->. apply sized_any.
Qed.
Lemma sized_evaluator sha p C i L ot pw :
  (forall cs j M, length cs = (8 * length pw)%nat -> sized C j (ext_receiver_sizes (8 * length pw) ++ M) (ot cs) (fun M' _ => M' = M)) ->
  sized C i (evaluator_sizes (length pw) ++ L) (evaluator sha p ot pw) (fun M _ => M = L).
Proof.
  intros Hot. unfold evaluator, evaluator_sizes.
  eapply sized_bind; [apply Hot; now rewrite bits_length8, Nat.mul_comm|]. intros ? ? enc ->.
  eapply sized_bind; [apply sized_any|]. intros ? ? our ->. eapply sized_bind; [apply sized_recv|]. intros ? ? m ->.
  eapply sized_bind; [apply sized_any|]. intros ? ? gc ->. eapply sized_bind; [apply sized_recv|]. intros ? ? m' ->.
  eapply sized_bind; [apply sized_any|]. intros ? ? their ->. eapply sized_bind; [apply sized_any|]. intros ? ? out ->. apply sized_any.
Qed.

(** ** Channels *)
Definition doubled (L : list nat) : list nat := flat_map (fun x => [x; 32]%nat) L.
Lemma sized_over_auth {A} hmac ks kr b (C : nat -> bytes -> Prop) (q : proc A) : (forall k m, length (hmac k m) = 32%nat) -> hangup q ->
  forall i L, sized C i L q (fun M _ => M = []) ->
  sized (auth_cond b C) (b + 2 * i)%nat (doubled L) (over_auth hmac ks kr q) (fun M _ => M = []).
Proof.
  intros Hm. induction 1 as [o|m k H IH|k o E Bo H IH]; intros i L Hq; cbn [over_auth sized] in *.
  - destruct o; cbn in *; auto. now subst L.
  - destruct L as [|x L]; [contradiction|]. destruct Hq as [H1 H2]. cbn [doubled flat_map app]. split; [exact H1|]. split; [apply Hm|]. now apply IH.
  - assert (N : forall j M, sized (auth_cond b C) j M (over_auth hmac ks kr (k None)) (fun M _ => M = [])).
    { intros j M. rewrite E. cbn. destruct o; cbn in *; auto; contradiction. }
    split; [|apply N]. intros m Cm. split; [|apply N]. intros code _.
    destruct (bytes_eqb code (hmac kr m)); [|apply N].
    replace (S (S (b + 2 * i))) with (b + 2 * S i)%nat by lia. apply IH. apply Hq. now apply Cm.
Qed.
Lemma connect_sizes {A} hmac xpub xdh sec (C : nat -> bytes -> Prop) (q : proc A) L ins :
  (forall k m, length (hmac k m) = 32%nat) -> length (xpub sec) = 32%nat -> hangup q -> sized C 0 L q (fun M _ => M = []) ->
  (forall j m, nth_error (messages_of ins) j = Some m -> C j m) -> sends_sizes (connect hmac xpub xdh sec q) (channel_sizes L) ins.
Proof.
  intros Hm Hx Hh Hq Hi. eapply (sized_feed (auth_cond 1 C) _ 0); [|now apply messages_cond].
  unfold connect, auth_client, recv_unwrap. cbn [pbind sized]. split; [|exact I]. intros m _. unfold ret. cbn [pbind].
  destruct (x_public m); cbn [lift pbind send sized oks]; auto. unfold channel_sizes. split; [exact Hx|]. unfold ret. cbn [pbind].
  change 1%nat with (1 + 2 * 0)%nat. apply sized_over_auth; auto.
Qed.
Lemma serve_sizes {A} hmac xpub xdh sec (C : nat -> bytes -> Prop) (q : proc A) L ins :
  (forall k m, length (hmac k m) = 32%nat) -> length (xpub sec) = 32%nat -> hangup q -> sized C 0 L q (fun M _ => M = []) ->
  (forall j m, nth_error (messages_of ins) j = Some m -> C j m) -> sends_sizes (serve hmac xpub xdh sec q) (channel_sizes L) ins.
Proof.
  intros Hm Hx Hh Hq Hi. eapply (sized_feed (auth_cond 1 C) _ 0); [|now apply messages_cond].
  unfold serve, auth_server, recv_unwrap, send, ret, channel_sizes. cbn [pbind sized]. split; [exact Hx|]. split; [|exact I]. intros m _. cbn [pbind].
  destruct (x_public m); cbn [lift pbind send sized oks]; auto.
  change 1%nat with (1 + 2 * 0)%nat. apply sized_over_auth; auto.
Qed.
