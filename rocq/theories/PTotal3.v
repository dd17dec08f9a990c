(** In release mode the exchange always ends with a key on each side. *)
From Coq Require Import List NArith Bool Lia Arith.
From Verif Require Import Base MUtil MWires MCircuit MGarble MBincode MProc MFpake.
From Verif Require Import SpecUtil SpecWires SpecCircuit SpecGarble SpecBincode SpecOt SpecApricot SpecFpake SpecTotal.
From Verif Require Import PBase PUtil PWires PCircuit PBincode PGarble PHalf PProc POt PFpake PTotal PTotal2.
Import ListNotations.
Open Scope N_scope.

Lemma usize_le a b : (a <= b)%nat -> usize_ok b -> usize_ok a.
Proof. unfold usize_ok. lia. Qed.
Lemma wired_WF w : wired 2 w -> WF 2 w.
Proof.
  intros (d & S & (_ & L & B) & D & _). apply label_WF; [exact sup2|]. split; [now rewrite D|]. split; [exact L|]. split; [exact B|congruence].
Qed.
Lemma WF_wired w : WF 2 w -> wired 2 w.
Proof.
  intros H. apply label_WF in H; [|exact sup2]. destruct H as (D & L & B & _). exists Binary. split; [exact stands2|].
  assert (E : wdom w = Binary) by (cbn in D; congruence). split; [split; [rewrite E; exact I|split; assumption]|]. split; [exact E|]. now apply binary_small.
Qed.
Lemma good_ok w : good w -> wire_ok w.
Proof.
  intros (D & L & B). split; [|split; assumption]. unfold dom_ok, domain_ok in *. destruct (wdom w); auto; [unfold byte_ok|unfold u16_ok]; lia.
Qed.
Lemma filed_ok c k f h : usize_ok (num_inputs c + k) -> stored c filed k f -> stored c pair_filed k h ->
  map_ok wires_ok f /\ map_ok (fun w => wire_ok (fst w) /\ wire_ok (snd w)) h.
Proof.
  intros Hu (A & B & C) (A' & B' & C'). split.
  - split; [|exact B]. split; [eapply usize_le; [|exact Hu]; lia|]. eapply Forall_impl; [|exact A]. intros kv [Hk [Hl F]].
    split; [eapply usize_le; [|exact Hu]; lia|]. split; [unfold usize_ok; eapply N.lt_trans; [exact Hl|reflexivity]|].
    eapply Forall_impl; [|exact F]. intros w Hw. now apply good_ok.
  - split; [|exact B']. split; [eapply usize_le; [|exact Hu]; lia|]. eapply Forall_impl; [|exact A']. intros kv [Hk [G1 G2]].
    split; [eapply usize_le; [|exact Hu]; lia|]. split; now apply good_ok.
Qed.

Section Half.
Variable sha : bytes -> bytes.
Hypothesis Hs : hash32 sha.
Variable g : garbling.
Hypothesis Hg : any_coins g.
Variable c : circuit.
Hypothesis Hc : garblable c.
Hypothesis Hm : matched c.
Hypothesis H2 : forall m, In m (input_domains c) -> m = 2.
Hypothesis Hne : In 2 (input_domains c).
Hypothesis Hok : circuit_ok c.

Lemma input_two i : (i < num_inputs c)%nat -> nth i (input_domains c) 0 = 2.
Proof. intros H. apply H2. apply nth_In. destruct Hc as (E & _). lia. Qed.
Lemma zipped_any : exists gc zs dk, garble_zipped sha Release g c = Ok (gc, zs, dk) /\ all_binary zs /\ length zs = num_inputs c /\ garbled_ok gc /\
  gc_circuit gc = c /\ decoded c (num_wires c - num_outputs c) (length (gates c)) (dk_hashes dk) /\
  forall gc2 ws, same_garbled gc2 gc -> length ws = num_inputs c -> Forall (WF 2) ws -> exists out, evaluate sha Release gc2 ws = Ok out /\ length out = num_outputs c.
Proof.
  destruct Hg as (Hrd & Hri & _).
  assert (Hri' : forall i m, nth_error (input_domains c) i = Some m -> valid_sample m (g_ri g i)).
  { intros i m Hi. apply nth_error_In in Hi. rewrite (H2 m Hi). apply Hri. }
  destruct (garble_tot sha Hs (g_rd g) (g_ri g) Hrd c Hc Hm Hri') as ([[gc ek] dk] & E & M & [Sf Sh] & Dk). cbn [fst snd] in *.
  unfold garble_zipped. rewrite E. cbn [obind]. pose proof M as (Ec & Lw & Ww & Gd & Hd & _).
  assert (Wd : Forall (wired 2) (ek_wires ek)).
  { apply Forall_forall. intros w Hw. apply In_nth_error in Hw as (i & Hi). rewrite <- (input_two i); [now apply Ww|].
    rewrite <- Lw. apply nth_error_Some. congruence. }
  unfold binary_of_ek.
  assert (Ef : forallb (fun w => wire_domain w =? 2) (ek_wires ek) = true).
  { apply forallb_forall. intros w Hw. rewrite Forall_forall in Wd. destruct (Wd w Hw) as (d & Sd & _ & Ed & _). unfold wire_domain. rewrite Ed.
    injection Sd as <-. reflexivity. }
  rewrite Ef. cbn [assert_ obind]. pose proof Hm as (Hwires & Hin & _). destruct (Hin 2 Hne) as (_ & gt & Hgt & Egt).
  assert (Hh : has (ek_delta ek) 2) by (rewrite <- Egt; now apply Hd).
  destruct (dlookup_tot (ek_delta ek) 2 Gd Hh) as (d & Ed & Gdd & Sd). rewrite Ed. cbn [obind].
  destruct (tot_mapM (wired 2) (fun w => wadd Release w d) (ek_wires ek)) as (ones & Eo & Lo & Fo).
  { intros w Hw. rewrite Forall_forall in Wd. destruct (Wd w Hw) as (d' & Sd' & Gw & Dw & _). eapply tot_weak; [apply wadd_tot; [exact Gw|exact Gdd]|].
    intros v Kv. exists d'. split; [exact Sd'|]. now rewrite <- Dw. }
  rewrite Eo. cbn [obind].
  set (zs := map (fun i => (nth i (ek_wires ek) wire_empty, nth i ones wire_empty)) (seq 0 (num_inputs c))).
  assert (Ez : zipped (mkBK (ek_wires ek) ones) = Ok zs).
  { unfold zipped. cbn [bk_zeros bk_ones]. rewrite Lw. apply mapM_Ok. intros i Hi. apply in_seq in Hi.
    rewrite (idx_lt _ _ wire_empty) by lia. cbn [obind]. rewrite (idx_lt _ _ wire_empty) by lia. reflexivity. }
  rewrite Ez. cbn [obind]. exists gc, zs, dk. split; [reflexivity|].
  assert (Hz : all_binary zs).
  { apply Forall_forall. intros z Hz. apply in_map_iff in Hz as (i & <- & Hi). apply in_seq in Hi. cbn [fst snd].
    rewrite Forall_forall in Wd, Fo. split; apply wired_WF; [apply Wd|apply Fo]; apply nth_In; lia. }
  assert (Lz : length zs = num_inputs c) by (unfold zs; rewrite map_length, seq_length; reflexivity).
  split; [exact Hz|]. split; [exact Lz|].
  split. { split; [now rewrite Ec|]. apply (filed_ok c (length (gates c))); auto. destruct Hok as (Hu & _). now rewrite <- Hwires. }
  split; [exact Ec|]. split; [exact Dk|].
  intros gc2 ws (E1 & E2 & E3) Lb F. assert (M2 : made c gc2 ek).
  { destruct M as (_ & M1 & M2 & M3 & M4 & M5). split; [congruence|]. split; [exact M1|]. split; [exact M2|]. split; [exact M3|]. split; [exact M4|].
    intros j gt' Hj. specialize (M5 j gt' Hj). rewrite (E2 (g_output gt')), (E3 (g_output gt')). exact M5. }
  apply (evaluate_tot sha Hs (g_ri g) c Hc Hm Hri' gc2 ek M2). split; [exact Lb|].
  intros i w Hw. assert (Hi : (i < num_inputs c)%nat) by (rewrite <- Lb; apply nth_error_Some; congruence).
  rewrite (modulus_input (g_ri g) c Hc Hri' i Hi), (input_two i Hi). apply WF_wired. rewrite Forall_forall in F. apply F. eapply nth_error_In. exact Hw.
Qed.
Lemma zipped_total : exists gc zs dk, garble_zipped sha Release g c = Ok (gc, zs, dk) /\ all_binary zs /\ length zs = num_inputs c /\ garbled_ok gc /\
  gc_circuit gc = c /\ decoded c (num_wires c - num_outputs c) (length (gates c)) (dk_hashes dk) /\
  forall gc2 bits, same_garbled gc2 gc -> length bits = num_inputs c -> exists out, evaluate sha Release gc2 (zipWith pick zs bits) = Ok out /\ length out = num_outputs c.
Proof.
  destruct zipped_any as (gc & zs & dk & Eg & Hz & Lz & Gok & Ec & Dk & Ev). exists gc, zs, dk. do 6 (split; [assumption|]).
  intros gc2 bits Same Lb. apply Ev; [exact Same|rewrite zipWith_length; lia|now apply picked_labels].
Qed.
End Half.

(** ** The shape of the circuit of [build_circuit] *)
Lemma shape_ins n : forall i, (i < n)%nat -> [i; (i + n)%nat] <> [] /\ Forall (fun j => (j < 2 * n)%nat) [i; (i + n)%nat].
Proof. intros i Hi. split; [discriminate|]. constructor; [lia|]. constructor; [lia|constructor]. Qed.
Section Fpake.
Variable sha : bytes -> bytes.
Hypothesis Hs : hash32 sha.
Variable g : garbling.
Hypothesis Hg : any_coins g.
Variables (n : nat) (m t1 : N).
Hypothesis Hn : (1 <= n)%nat.
Hypothesis Hm : 0 < m < 65535.
Hypothesis Ht : t1 < 65536.
Hypothesis Hu : usize_ok (4 * n + 2).
Notation c := (shape 2 n (fun i => [i; i + n]%nat) m t1).
Lemma shape_ok : circuit_ok c.
Proof.
  unfold circuit_ok. cbn [shape num_wires num_inputs num_outputs].
  split; [exact Hu|]. split; [eapply usize_le; [|exact Hu]; lia|]. split; [eapply usize_le; [|exact Hu]; lia|]. split.
  - split. { rewrite shape_glength. eapply usize_le; [|exact Hu]; lia. }
    apply Forall_forall. intros gt Hin. apply In_nth_error in Hin as [k Hk].
    assert (Hkl : (k < 2 * n + 2)%nat) by (rewrite <- (shape_glength 2 n (fun i => [i; i + n]%nat) m t1); apply nth_error_Some; congruence).
    assert (U : forall i, (i < 4 * n + 2)%nat -> usize_ok i) by (intros i Hi; eapply usize_le; [|exact Hu]; lia).
    destruct (shape_cases 2 n (fun i => [i; i + n]%nat) m t1 k gt Hk) as [[? ->]|[[? ->]|[[? ->]|[? ->]]]];
      unfold gate_ok; cbn [g_output g_domain g_inputs g_kind kind_ok]; unfold u16_ok; (split; [apply U; lia|]); (split; [lia|]);
      (split; [|try exact I; lia]); (split; [rewrite ?seq_length; cbn [length]; apply U; lia|]); apply Forall_forall.
    + intros i [<-|[<-|[]]]; apply U; lia.
    + intros i [<-|[]]; apply U; lia.
    + intros i Hi. apply in_seq in Hi. apply U. lia.
    + intros i [<-|[]]; apply U; lia.
  - cbn [shape input_domains]. split. { rewrite repeat_length. eapply usize_le; [|exact Hu]; lia. }
    apply Forall_forall. intros x Hx. apply repeat_spec in Hx. subst. reflexivity.
Qed.
Lemma shape_decoded d : decoded c (4 * n + 2 - 1) (length (gates c)) d -> exists h0 h1, d = [[h0; h1]] /\ length h1 = 32%nat.
Proof.
  intros [E F]. rewrite firstn_all in E.
  assert (Ef : filter (fun gt => Nat.leb (4 * n + 2 - 1) (g_output gt)) (gates c) = [mkGate ((2 + 2) * n + 1) m [(2 + 2) * n]%nat (GProj (PLess t1))]).
  { unfold shape. cbn [gates]. rewrite !filter_app.
    assert (No : forall (f : nat -> gate) k, (forall i, (i < k)%nat -> (g_output (f i) < 4 * n)%nat) -> filter (fun gt => Nat.leb (4 * n + 2 - 1) (g_output gt)) (map f (seq 0 k)) = []).
    { intros f k H. assert (H' : forall i, In i (seq 0 k) -> (g_output (f i) < 4 * n)%nat) by (intros i Hi; apply in_seq in Hi; apply H; lia).
      clear H. induction (seq 0 k) as [|i l IH]; [reflexivity|]. cbn [map filter]. rewrite IH by (intros; apply H'; now right).
      destruct (Nat.leb_spec (4 * n + 2 - 1) (g_output (f i))) as [Q|Q]; [|reflexivity]. specialize (H' i (or_introl eq_refl)). lia. }
    rewrite !No by (intros; cbn [g_output]; lia). cbn [app filter g_output].
    destruct (Nat.leb_spec (4 * n + 2 - 1) ((2 + 2) * n)) as [Q|Q]; [lia|]. destruct (Nat.leb_spec (4 * n + 2 - 1) ((2 + 2) * n + 1)) as [Q'|Q']; [reflexivity|lia]. }
  rewrite Ef in E. cbn in E. destruct d as [|x [|y d]]; try discriminate. cbn in E. injection E as E.
  destruct x as [|h0 [|h1 [|h2 x]]]; try discriminate. exists h0, h1. split; [reflexivity|].
  inversion F as [|? ? F1 _]; subst. inversion F1 as [|? ? _ F2]; subst. now inversion F2.
Qed.
End Fpake.

Lemma half_runs sha g otS otR pw pw' t : hash32 sha -> any_coins g -> ot_correct extension_ok otS otR ->
  length pw' = length pw -> (1 <= length pw)%nat -> usize_ok (length pw * 64) ->
  exists k k', length k = 32%nat /\ length k' = 32%nat /\ runs (garbler sha Release g otS pw t) (evaluator sha Release otR pw') (Ok k) (Ok k').
Proof.
  intros Hs Hg Hot Hlen H1 Hu. set (n := (length pw * 8)%nat).
  assert (Hn : (1 <= n)%nat) by (unfold n; lia). assert (Hsize : usize_ok (4 * n + 2)) by (eapply usize_le; [|exact Hu]; unfold n; lia).
  assert (Hun : usize_ok n) by (eapply usize_le; [|exact Hu]; unfold n; lia).
  set (q := N.of_nat n mod 65536). assert (Hq : q < 65534).
  { unfold q, n. rewrite Nat2N.inj_mul, N.mul_comm. change (N.of_nat 8) with 8. replace 65536 with (8 * 8192) by reflexivity.
    rewrite N.mul_mod_distr_l by discriminate. assert (N.of_nat (length pw) mod 8192 < 8192) by (apply N.mod_lt; discriminate). lia. }
  set (t1 := (t + 1) mod 65536). assert (Ht : t1 < 65536) by (apply N.mod_lt; discriminate).
  set (c := shape 2 n (fun i => [i; i + n]%nat) (q + 1) t1).
  assert (Eb : build_circuit Release n t = Ok c).
  { unfold build_circuit. rewrite !uadd_release. cbn [obind]. change (2 ^ 16) with 65536. fold q t1. rewrite (N.mod_small (q + 1)) by lia. reflexivity. }
  assert (Hc : garblable c) by (apply shape_garblable; [exact Hn|lia|lia|apply shape_ins]).
  assert (Hm : matched c) by (apply shape_matched; [exact Hn|lia|lia|apply shape_ins]).
  assert (H2 : forall x, In x (input_domains c) -> x = 2) by (intros x Hx; now apply repeat_spec in Hx).
  assert (Hne : In 2 (input_domains c)). { unfold c, shape. cbn [input_domains]. destruct (n * 2)%nat as [|j] eqn:E; [lia|]. now left. }
  assert (Hok : circuit_ok c) by (apply shape_ok; auto; lia).
  destruct (zipped_total sha Hs g Hg c Hc Hm H2 Hne Hok) as (gc & zs & dk & Eg & Hz & Lz & Gok & Ec & Dk & Ev).
  change (num_inputs c) with (n * 2)%nat in *. change (num_outputs c) with 1%nat in *. change (num_wires c) with (4 * n + 2)%nat in *.
  destruct (shape_decoded n (q + 1) t1 Hn ltac:(lia) Ht (dk_hashes dk) Dk) as (h0 & h1 & Ed & Lh).
  assert (exists gc2, deserialize dec_garbled (enc_garbled (g_order g gc)) = Ok gc2 /\ same_garbled gc2 gc) as (gc2 & Egc & Same).
  { destruct Hg as (_ & _ & Ho). destruct (Ho gc) as (O1 & O2 & O3). destruct (rt_garbled_any_order gc (g_order g gc) [] Gok) as (g2 & E & S).
    { split; [now symmetry|]. split; now apply Permutation.Permutation_sym. }
    exists g2. split; [|exact S]. unfold deserialize. rewrite app_nil_r in E. now rewrite E. }
  assert (Lb : length (u8_vec_to_bool_vec pw) = n) by apply bits_length8.
  assert (Lb' : length (u8_vec_to_bool_vec pw') = n) by (rewrite bits_length8, Hlen; reflexivity).
  destruct (Ev gc2 (u8_vec_to_bool_vec pw ++ u8_vec_to_bool_vec pw') Same) as (out & Eo & Lo'). { rewrite app_length. lia. }
  destruct out as [|w [|w' out]]; try discriminate.
  exists h1, (sha (be_bytes 8 (N.of_nat (4 * n + 1)) ++ u16_be 1 ++ wval w)). split; [exact Lh|]. split; [apply Hs|].
  unfold garbler, evaluator. rewrite Lb.
  eapply runs_lift_l; [exact Eb|]. eapply runs_lift_l; [exact Eg|]. cbv beta iota.
  eapply runs_lift_l. { unfold slice_to. rewrite (proj2 (Nat.leb_le _ _)) by lia. reflexivity. }
  eapply runs_lift_l. { unfold slice_from. rewrite (proj2 (Nat.leb_le _ _)) by lia. reflexivity. }
  set (own := firstn n zs). set (theirs := skipn n zs).
  assert (Lo : length own = n) by (unfold own; rewrite firstn_length; lia).
  assert (Lt : length theirs = n) by (unfold theirs; rewrite skipn_length; lia).
  assert (Hown : all_binary own) by now apply all_binary_firstn.
  assert (Hth : all_binary theirs) by now apply all_binary_skipn.
  destruct (Hot (label_messages theirs) (u8_vec_to_bool_vec pw')) as (outs & R & Sel).
  { unfold label_messages. rewrite map_length. lia. }
  { apply labels_extension; [exact Hth|lia| |rewrite Lt; exact Hun]. rewrite Lt. apply Nat.mod_mul. lia. }
  apply selection_labels in Sel; [|lia].
  eapply runs_bind; [exact R|].
  eapply runs_lift_r. { rewrite Sel. apply received_labels. now apply picked_labels. }
  apply runs_send_recv.
  eapply runs_lift_r; [exact Egc|].
  eapply runs_lift_l. { apply bk_encode_pick. lia. }
  apply runs_send_recv.
  eapply runs_lift_r. { apply sent_wires; [now apply picked_labels|]. rewrite zipWith_length, Lo, Lb, Nat.min_id. exact Hun. }
  eapply runs_lift_r. { rewrite <- zipWith_app by lia. unfold own, theirs. rewrite firstn_skipn. exact Eo. }
  assert (Ek : garbler_half_key dk = Ok h1) by (unfold garbler_half_key; rewrite Ed; reflexivity).
  assert (Ek' : evaluator_half_key sha Release gc2 [w] = Ok (sha (be_bytes 8 (N.of_nat (4 * n + 1)) ++ u16_be 1 ++ wval w))).
  { unfold evaluator_half_key. destruct Same as (-> & _). rewrite Ec. change (num_wires c) with (4 * n + 2)%nat.
    unfold usub. destruct (N.leb_spec 1 (N.of_nat (4 * n + 2))); [|lia]. cbn [obind idx nth_error unwrap].
    replace (N.of_nat (4 * n + 2) - 1) with (N.of_nat (4 * n + 1)) by lia. reflexivity. }
  rewrite Ek, Ek'. apply runs_done.
Qed.
Lemma exchange_ends sha g g' otS otR otS' otR' pw pw' t t' : hash32 sha -> any_coins g -> any_coins g' ->
  ot_correct extension_ok otS otR -> ot_correct extension_ok otS' otR' -> length pw' = length pw -> (1 <= length pw)%nat -> usize_ok (length pw * 64) ->
  exists k k', length k = 32%nat /\ length k' = 32%nat /\
    runs (fpake_server sha Release g otS otR' pw t) (fpake_client sha Release g' otS' otR pw' t') (Ok k) (Ok k').
Proof.
  intros Hs Hg Hg' Hot Hot' Hl H1 Hu.
  destruct (half_runs sha g otS otR pw pw' t Hs Hg Hot Hl H1 Hu) as (k1 & k1' & L1 & L1' & R1).
  destruct (half_runs sha g' otS' otR' pw' pw t' Hs Hg' Hot') as (k2 & k2' & L2 & L2' & R2); [auto|lia|now rewrite Hl|].
  exists (combine_keys k1 k2'), (combine_keys k2 k1'). split; [|split].
  - unfold combine_keys, xor. rewrite zipWith_length, L1, L2'. reflexivity.
  - unfold combine_keys, xor. rewrite zipWith_length, L2, L1'. reflexivity.
  - unfold fpake_server, fpake_client. eapply runs_bind; [exact R1|]. eapply runs_bind; [apply runs_flip; exact R2|]. apply runs_ret.
Qed.
