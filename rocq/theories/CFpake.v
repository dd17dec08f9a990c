(** C44, C45, C46, C47, C62: fpake.rs and main.rs. *)
From Coq Require Import List NArith Bool Lia Arith Permutation.
From Verif Require Import Base MUtil MWires MCircuit MGarble MPar MBincode MProc MOt MApricot MMany MFpake.
From Verif Require Import SpecUtil SpecWires SpecCircuit SpecGarble SpecBincode SpecOt SpecApricot SpecFpake.
From Verif Require Import PBase PUtil PWires PGarble PCircuit PHalf PProc POt PApricotRun PFpake CCircuit CGarble COt CApricot.
Import ListNotations.
Open Scope N_scope.

(** The circuit of a run and the number of its output wire, for passwords of [l] bytes. *)
Notation fpake_circuit l t := (circ1 (l * 8) t).
Notation fpake_output l := (4 * (l * 8) + 1)%nat.

(** *** C44 *)
(** C44: within the threshold both sides return the same half key, over any correct OT. *)
Theorem C44_half_keys_agree : forall sha p p' g otS otR pw pw' t,
  hash32 sha -> garbling_ok g -> ot_correct extension_ok otS otR ->
  length pw' = length pw -> good_length (length pw) -> t <= 65534 -> N.of_nat (distance pw pw') <= t ->
  exists k, length k = 32%nat /\ runs (garbler sha p g otS pw t) (evaluator sha p' otR pw') (Ok k) (Ok k).
Proof.
  intros sha p p' g otS otR pw pw' t Hs Hg Hot Hl Hgl Ht Hd.
  destruct (fpake_run sha Hs p p' g Hg otS otR Hot pw pw' t Hl Hgl Ht) as (ek & s & l0 & l1 & _ & _ & _ & _ & R).
  rewrite (proj2 (N.leb_le _ _) Hd) in R. eexists. split; [|exact R]. apply Hs.
Qed.
Print Assumptions C44_half_keys_agree.

(** C44: in particular over the OT extension and base OT of the crate. *)
Theorem C44_half_keys_agree_over_crate_OT : forall sha fill gen G p p' a a' cores cores' r rs rr g pw pw' t,
  hash32 sha -> generator fill -> generator gen -> curve_ok G -> (1 <= cores)%nat -> (1 <= cores')%nat -> coins_ok r ->
  garbling_ok g -> length pw' = length pw -> good_length (length pw) -> t <= 65534 -> N.of_nat (distance pw pw') <= t ->
  exists k, length k = 32%nat /\
    runs (garbler sha p g (sender_with sha fill p a cores r (co_receiver sha gen G p rs)) pw t)
         (evaluator sha p' (receiver_with sha fill p' a' cores' r (co_sender sha gen G p' rr)) pw') (Ok k) (Ok k).
Proof. intros. apply C44_half_keys_agree; auto. now apply C35_extension_over_base_OT. Qed.
Print Assumptions C44_half_keys_agree_over_crate_OT.

(** *** C45 *)
(** C45: beyond the threshold both sides still finish, and the half keys differ unless the hash
    function collides on the two strings made from the garbler's two labels of the output wire. *)
Theorem C45_half_keys_differ : forall sha p p' g otS otR pw pw' t,
  hash32 sha -> garbling_ok g -> ot_correct extension_ok otS otR ->
  length pw' = length pw -> good_length (length pw) -> t <= 65534 -> t < N.of_nat (distance pw pw') ->
  let c := fpake_circuit (length pw) t in let o := fpake_output (length pw) in
  exists k k' ek s l0 l1,
    runs (garbler sha p g otS pw t) (evaluator sha p' otR pw') (Ok k) (Ok k') /\
    garble_run sha p (g_rd g) (g_ri g) c = Ok (ek, o, s) /\
    genuine c (g_rd g) (gs_wires s) o 0 l0 /\ genuine c (g_rd g) (gs_wires s) o 1 l1 /\
    (k <> k' \/ clash sha (dec_string o 1 l0) (dec_string o 1 l1)).
Proof.
  intros sha p p' g otS otR pw pw' t Hs Hg Hot Hl Hgl Ht Hd c o.
  destruct (fpake_run sha Hs p p' g Hg otS otR Hot pw pw' t Hl Hgl Ht) as (ek & s & l0 & l1 & Er & G0 & G1 & Hne & R).
  rewrite (proj2 (N.leb_gt _ _) Hd) in R. do 2 eexists. exists ek, s, l0, l1.
  split; [exact R|]. split; [exact Er|]. split; [exact G0|]. split; [exact G1|].
  destruct (list_eq_dec N.eq_dec (sha (dec_string o 1 l1)) (sha (dec_string o 1 l0))) as [E|E]; [right|left; exact E].
  split; [|now symmetry]. intros Q. apply Hne. exact (dec_string_inj _ _ _ _ Q).
Qed.
Print Assumptions C45_half_keys_differ.

(** *** C46 *)
(** C46: [combine] is commutative and can be undone. *)
Theorem C46_combine_commutes : forall k k', combine_keys k k' = combine_keys k' k.
Proof. intros. unfold combine_keys, xor. apply zipWith_comm. intros. apply N.lxor_comm. Qed.
Print Assumptions C46_combine_commutes.
Lemma xor_cancel a : forall b c, length b = length a -> length c = length a -> xor a b = xor a c -> b = c.
Proof.
  induction a as [|x a IH]; intros [|y b] [|z c] H H'; try discriminate; auto. cbn. intros E. inversion E as [[E1 E2]].
  f_equal.
  - apply (f_equal (N.lxor x)) in E1. now rewrite <- !N.lxor_assoc, N.lxor_nilpotent, !N.lxor_0_l in E1.
  - apply IH; auto.
Qed.
Theorem C46_combine_injective : forall k k1 k2, length k1 = length k -> length k2 = length k ->
  combine_keys k k1 = combine_keys k k2 -> k1 = k2.
Proof. exact xor_cancel. Qed.
Print Assumptions C46_combine_injective.

(** C46: server (garbles first) and client (evaluates first) derive the same key when the distance is
    within both thresholds. *)
Theorem C46_keys_agree : forall sha p p' g g' otS otR otS' otR' pw pw' t t',
  hash32 sha -> garbling_ok g -> garbling_ok g' -> ot_correct extension_ok otS otR -> ot_correct extension_ok otS' otR' ->
  length pw' = length pw -> good_length (length pw) -> t <= 65534 -> t' <= 65534 ->
  N.of_nat (distance pw pw') <= t -> N.of_nat (distance pw' pw) <= t' ->
  exists key, length key = 32%nat /\
    runs (fpake_server sha p g otS otR' pw t) (fpake_client sha p' g' otS' otR pw' t') (Ok key) (Ok key).
Proof.
  intros sha p p' g g' otS otR otS' otR' pw pw' t t' Hs Hg Hg' Hot Hot' Hl Hgl Ht Ht' Hd Hd'.
  destruct (C44_half_keys_agree sha p p' g otS otR pw pw' t Hs Hg Hot Hl Hgl Ht Hd) as (k1 & L1 & R1).
  destruct (C44_half_keys_agree sha p' p g' otS' otR' pw' pw t' Hs Hg' Hot') as (k2 & L2 & R2); auto; [now rewrite Hl|].
  exists (combine_keys k1 k2). split. { unfold combine_keys, xor. rewrite zipWith_length, L1, L2. reflexivity. }
  unfold fpake_server, fpake_client. eapply runs_bind; [exact R1|].
  eapply runs_bind; [apply runs_flip; exact R2|].
  rewrite (C46_combine_commutes k2 k1). apply runs_ret.
Qed.
Print Assumptions C46_keys_agree.

Lemma distance_comm a : forall b, distance a b = distance b a.
Proof. induction a as [|x a IH]; intros [|y b]; cbn [distance]; auto. now rewrite IH, N.lxor_comm. Qed.

(** C46: if exactly one of the two garblers' thresholds is exceeded the keys differ, unless the hash
    function collides on the two strings of that garbler's output labels. *)
Theorem C46_keys_differ_on_one_threshold : forall sha p p' g g' otS otR otS' otR' pw pw' t t',
  hash32 sha -> garbling_ok g -> garbling_ok g' -> ot_correct extension_ok otS otR -> ot_correct extension_ok otS' otR' ->
  length pw' = length pw -> good_length (length pw) -> t <= 65534 -> t' <= 65534 ->
  t < N.of_nat (distance pw pw') <= t' ->
  let c := fpake_circuit (length pw) t in let o := fpake_output (length pw) in
  exists key key' ek s l0 l1,
    runs (fpake_server sha p g otS otR' pw t) (fpake_client sha p' g' otS' otR pw' t') (Ok key) (Ok key') /\
    garble_run sha p (g_rd g) (g_ri g) c = Ok (ek, o, s) /\
    genuine c (g_rd g) (gs_wires s) o 0 l0 /\ genuine c (g_rd g) (gs_wires s) o 1 l1 /\
    (key <> key' \/ clash sha (dec_string o 1 l0) (dec_string o 1 l1)).
Proof.
  intros sha p p' g g' otS otR otS' otR' pw pw' t t' Hs Hg Hg' Hot Hot' Hl Hgl Ht Ht' [Hd Hd'] c o.
  destruct (C45_half_keys_differ sha p p' g otS otR pw pw' t Hs Hg Hot Hl Hgl Ht Hd) as (k1 & k1' & ek & s & l0 & l1 & R1 & Er & G0 & G1 & Hne).
  destruct (C44_half_keys_agree sha p' p g' otS' otR' pw' pw t' Hs Hg' Hot') as (k2 & L2 & R2); auto; [now rewrite Hl|now rewrite distance_comm|].
  assert (L1 : length k1 = 32%nat /\ length k1' = 32%nat).
  { destruct (fpake_run sha Hs p p' g Hg otS otR Hot pw pw' t Hl Hgl Ht) as (ek2 & s2 & m0 & m1 & _ & _ & _ & _ & R).
    destruct (runs_fun _ _ _ _ _ _ R R1) as [E1 E2]. inversion E1; inversion E2. split; apply Hs. }
  destruct L1 as [L1 L1'].
  exists (combine_keys k1 k2), (combine_keys k2 k1'), ek, s, l0, l1.
  split. { unfold fpake_server, fpake_client. eapply runs_bind; [exact R1|]. eapply runs_bind; [apply runs_flip; exact R2|]. apply runs_ret. }
  split; [exact Er|]. split; [exact G0|]. split; [exact G1|]. destruct Hne as [Hne|Hc]; [left|right; exact Hc].
  intros E. apply Hne. rewrite C46_combine_commutes in E. eapply C46_combine_injective; [| |exact E]; congruence.
Qed.
Print Assumptions C46_keys_differ_on_one_threshold.

(** *** C62 *)
(** C62: the string hashed for a half key determines wire number, value and label. *)
Theorem C62_key_string_unambiguous : forall o o' x x' w w', usize_ok o -> usize_ok o' -> u16_ok x -> u16_ok x' ->
  (dec_string o x w = dec_string o' x' w' <-> o = o' /\ x = x' /\ wval w = wval w').
Proof.
  intros o o' x x' w w' Ho Ho' Hx Hx'. split; [|now intros (-> & -> & E); unfold dec_string; rewrite E].
  unfold dec_string. intros E.
  assert (E1 := f_equal (firstn 8) E). rewrite !firstn_app, !be_bytes_length, !Nat.sub_diag, !firstn_O, !app_nil_r in E1.
  rewrite !firstn_all2 in E1 by (rewrite be_bytes_length; lia).
  assert (Eo : N.of_nat o = N.of_nat o') by (apply (be_bytes_inj 8); auto).
  assert (o = o') by lia. subst o'. apply app_inv_head in E.
  assert (E2 := f_equal (firstn 2) E). rewrite !firstn_app, !be_bytes_length, !Nat.sub_diag, !firstn_O, !app_nil_r in E2.
  rewrite !firstn_all2 in E2 by (rewrite be_bytes_length; lia).
  assert (x = x') by (apply (be_bytes_inj 2); auto). subst x'. apply app_inv_head in E. auto.
Qed.
Print Assumptions C62_key_string_unambiguous.

(** C62: whatever garbled circuit the evaluator was sent, its half key equals the digest the garbler
    stored for value 1 of output wire o and label l only if its circuit ends in wire o and it
    computed the label l, or the hash function collides on the two strings. *)
Theorem C62_equal_half_keys : forall sha p gc output o l k,
  usize_ok (num_wires (gc_circuit gc)) -> (1 <= num_wires (gc_circuit gc))%nat -> usize_ok o ->
  evaluator_half_key sha p gc output = Ok k -> k = hash sha o 1 l ->
  exists w o', nth_error output 0 = Some w /\ num_wires (gc_circuit gc) = S o' /\
    ((o' = o /\ wval w = wval l) \/ clash sha (dec_string o' 1 w) (dec_string o 1 l)).
Proof.
  intros sha p gc output o l k Hn H1 Ho E Ek. unfold evaluator_half_key, usub in E.
  destruct (N.leb_spec 1 (N.of_nat (num_wires (gc_circuit gc)))); [|lia]. cbn [obind] in E.
  destruct (idx output 0) as [w| | |] eqn:Ew; try discriminate. cbn [obind] in E.
  apply idx_inv in Ew. exists w, (num_wires (gc_circuit gc) - 1)%nat. split; [exact Ew|]. split; [lia|].
  set (o' := (num_wires (gc_circuit gc) - 1)%nat).
  assert (Eo : N.of_nat (num_wires (gc_circuit gc)) - 1 = N.of_nat o') by (unfold o'; lia). rewrite Eo in E.
  assert (Es : sha (dec_string o' 1 w) = sha (dec_string o 1 l)).
  { transitivity k; [|rewrite Ek; reflexivity]. unfold dec_string. unfold u16_be in E. congruence. }
  destruct (list_eq_dec N.eq_dec (dec_string o' 1 w) (dec_string o 1 l)) as [Eq|Ne]; [left|right; split; auto].
  apply C62_key_string_unambiguous in Eq; try (unfold u16_ok; lia).
  - destruct Eq as (-> & _ & Eq). auto.
  - unfold usize_ok in *. unfold o'. lia.
  - exact Ho.
Qed.
Print Assumptions C62_equal_half_keys.

(** *** Instances *)
Definition demo_garbling : garbling := mkGarbling demo_rd (fun i => repeat (N.of_nat i mod 256) 32) (fun gc => gc).
Lemma byte_row b : b < 256 -> label 2 (mkWire Binary (repeat b 32)).
Proof.
  intros Hb. repeat split.
  - now apply repeat_ok.
  - intros H. now contradict H.
Qed.
Lemma demo_garbling_ok : garbling_ok demo_garbling.
Proof.
  split; [exact demo_rd_ok|]. split.
  - intros i d E. inversion E. subst. apply byte_row. apply N.mod_lt. discriminate.
  - intros gc. split; [reflexivity|]. split; apply Permutation_refl.
Qed.
Notation demo_sender p := (sender_with toy toy_gen p X86 4 toy_coins (co_receiver toy toy_gen toy_curve p (fun _ => 1))).
Notation demo_receiver p := (receiver_with toy toy_gen p ARM64 2 toy_coins (co_sender toy toy_gen toy_curve p (fun _ => 1))).
Lemma demo_OT p p' : ot_correct extension_ok (demo_sender p) (demo_receiver p').
Proof.
  apply C35_extension_over_base_OT; try lia; auto using toy_gen_ok, toy_coins_ok.
  - exact toy_hash32.
  - exact toy_curve_ok.
Qed.
Example near_passwords : exists k, length k = 32%nat /\
  runs (garbler toy Debug demo_garbling (demo_sender Debug) [97; 98; 99] 3)
       (evaluator toy Release (demo_receiver Release) [97; 106; 98]) (Ok k) (Ok k).
Proof.
  apply C44_half_keys_agree; [exact toy_hash32|exact demo_garbling_ok|apply demo_OT|reflexivity|unfold good_length; cbn [length]; lia|discriminate|vm_compute; discriminate].
Qed.
Example far_passwords : exists k k', k <> k' /\
  runs (garbler toy Debug demo_garbling (demo_sender Debug) [97; 98; 99] 1)
       (evaluator toy Release (demo_receiver Release) [97; 106; 98]) (Ok k) (Ok k').
Proof.
  destruct (C45_half_keys_differ toy Debug Release demo_garbling (demo_sender Debug) (demo_receiver Release) [97; 98; 99] [97; 106; 98] 1)
    as (k & k' & ek & s & l0 & l1 & R & Er & G0 & G1 & Hne); [exact toy_hash32|exact demo_garbling_ok|apply demo_OT|reflexivity|unfold good_length; cbn [length]; lia|discriminate|vm_compute; reflexivity|].
  exists k, k'. split; [|exact R]. destruct Hne as [Hne|[Hs Hc]]; [exact Hne|]. exfalso.
  (* the digest function of this example does not collide on these labels *)
  assert (L : forall w : wire, length (wval w) = 32%nat -> bytes_ok (wval w) -> toy (dec_string (fpake_output (length [97; 98; 99])) 1 w) = rev (wval w)).
  { intros w Hl Hb. unfold toy, dec_string. rewrite app_assoc, rev_app_distr, <- app_assoc, firstn_app, rev_length, Hl, Nat.sub_diag, firstn_O, app_nil_r.
    rewrite firstn_all2 by (rewrite rev_length; lia). rewrite <- (map_id (rev (wval w))) at 2. apply map_ext_in. intros b Hin.
    apply in_rev in Hin. unfold bytes_ok in Hb. rewrite Forall_forall in Hb. apply N.mod_small. now apply Hb. }
  assert (Lab : forall x l, genuine (fpake_circuit (length [97; 98; 99]) 1) (g_rd demo_garbling) (gs_wires s) (fpake_output (length [97; 98; 99])) x l ->
    length (wval l) = 32%nat /\ bytes_ok (wval l)).
  { intros x l (_ & _ & (_ & H1 & H2 & _) & _). auto. }
  destruct (Lab _ _ G0) as [A0 B0]. destruct (Lab _ _ G1) as [A1 B1]. rewrite !L in Hc by auto.
  apply Hs. unfold dec_string. do 2 f_equal. apply (f_equal (@rev N)) in Hc. now rewrite !rev_involutive in Hc.
Qed.
Example key_agreement : exists key, length key = 32%nat /\
  runs (fpake_server toy Debug demo_garbling (demo_sender Debug) (demo_receiver Debug) [97; 98; 99] 2)
       (fpake_client toy Release demo_garbling (demo_sender Release) (demo_receiver Release) [97; 106; 98] 4) (Ok key) (Ok key).
Proof.
  apply C46_keys_agree; [exact toy_hash32|exact demo_garbling_ok|exact demo_garbling_ok|apply demo_OT|apply demo_OT|reflexivity|unfold good_length; cbn [length]; lia|discriminate|discriminate|vm_compute; discriminate|vm_compute; discriminate].
Qed.
Example one_threshold_exceeded : 1 < N.of_nat (distance [97; 98; 99] [97; 106; 98]) <= 4.
Proof. vm_compute. split; [reflexivity|discriminate]. Qed.
Example key_strings : dec_string 13 1 (mkWire Binary [7]) <> dec_string 13 0 (mkWire Binary [7]).
Proof. intros E. apply C62_key_string_unambiguous in E; try reflexivity. destruct E as (_ & E & _). discriminate. Qed.

(** *** C47 *)
(** C47 is false: passwords of 16 bytes are summed modulo 129, and wires.rs adds components with
    [wrapping_add] on u8 before reducing; so the evaluator ends with a label the garbler never
    made.  In both build profiles equal passwords lead to different half keys. *)
Definition carry_sha (x : bytes) : bytes := if Nat.eqb (length x) 40 then repeat 128 32 else toy x.
Definition carry_rd (m : N) : bytes := if (128 <? m) && (m <? 255) then repeat (m - 1) 32 else demo_rd m.
Definition carry_garbling : garbling := mkGarbling carry_rd (fun i => repeat (N.of_nat i mod 256) 32) (fun gc => gc).
Definition wire_bin (w : wire) : bool :=
  match wdom w with Binary => true | _ => false end && Nat.eqb (length (wval w)) 32 && forallb (fun b => b <? 256) (wval w).
Definition carry_keys (p : profile) (pw : bytes) (t : N) : bool :=
  match garble_zipped carry_sha p carry_garbling (fpake_circuit (length pw) t) with
  | Ok (gc, zs, dk) =>
      match deserialize dec_garbled (enc_garbled gc) with
      | Ok gc2 =>
          match evaluate carry_sha p gc2 (zipWith pick zs (u8_vec_to_bool_vec pw ++ u8_vec_to_bool_vec pw)) with
          | Ok out =>
              match garbler_half_key dk, evaluator_half_key carry_sha p gc2 out with
              | Ok k, Ok k' => negb (bytes_eqb k k') && Nat.eqb (length zs) (length pw * 8 * 2) &&
                  forallb (fun z => wire_bin (fst z) && wire_bin (snd z)) zs
              | _, _ => false
              end
          | _ => false
          end
      | _ => false
      end
  | _ => false
  end.
Lemma wire_bin_WF w : wire_bin w = true -> WF 2 w.
Proof.
  unfold wire_bin. rewrite !andb_true_iff. intros [[Hd Hl] Hb]. apply label_WF; [exact sup2|]. destruct w as [d v]. simpl in *.
  destruct d; try discriminate. apply Nat.eqb_eq in Hl. repeat split; auto.
  - apply Forall_forall. intros b Hin. rewrite forallb_forall in Hb. apply N.ltb_lt. now apply Hb.
  - intros H. now contradict H.
Qed.
Lemma carry_run p otS otR pw t : ot_correct extension_ok otS otR -> (1 <= length pw)%nat -> N.of_nat (length pw * 8) <= 65534 -> t <= 65534 ->
  carry_keys p pw t = true ->
  exists k k', k <> k' /\ runs (garbler carry_sha p carry_garbling otS pw t) (evaluator carry_sha p otR pw) (Ok k) (Ok k').
Proof.
  intros Hot H1 H2 H3. unfold carry_keys.
  destruct (garble_zipped carry_sha p carry_garbling (fpake_circuit (length pw) t)) as [[[gc zs] dk]| | |] eqn:Eg; try discriminate.
  destruct (deserialize dec_garbled (enc_garbled gc)) as [gc2| | |] eqn:Ed; try discriminate.
  destruct (evaluate carry_sha p gc2 _) as [out| | |] eqn:Ev; try discriminate.
  destruct (garbler_half_key dk) as [k| | |] eqn:Ek; try discriminate.
  destruct (evaluator_half_key carry_sha p gc2 out) as [k'| | |] eqn:Ek'; try discriminate.
  rewrite !andb_true_iff. intros [[Hk Hl] Hz]. exists k, k'. split.
  - intros <-. rewrite bytes_eqb_refl in Hk. discriminate.
  - apply Nat.eqb_eq in Hl. eapply fpake_direct; eauto.
    apply Forall_forall. intros z Hin. rewrite forallb_forall in Hz. specialize (Hz z Hin). apply andb_true_iff in Hz as [Z0 Z1].
    split; now apply wire_bin_WF.
Qed.
Lemma carry_hash32 : hash32 carry_sha.
Proof.
  intros x. unfold carry_sha. destruct (Nat.eqb (length x) 40); [|apply toy_hash32]. split; [reflexivity|now apply repeat_ok].
Qed.
Lemma repeat_label m b : b < m -> m <= 256 -> wide m = false -> forall d, domain_new m = Ok d -> label m (mkWire d (repeat b 32)).
Proof.
  intros Hb Hm Hw d Hd. split; [exact Hd|]. split; [reflexivity|]. split; [apply repeat_ok; lia|].
  intros _ i Hi. unfold digit, ndigits in *. rewrite Hw in *. cbn [wval]. rewrite (nth_indep _ 0 b) by exact Hi. now rewrite nth_repeat.
Qed.
(** The randomness of the counterexample is a legitimate draw for every modulus that occurs. *)
Lemma carry_garbling_ok : garbling_ok carry_garbling /\ forall m, 128 < m < 255 -> valid_sample m (carry_rd m).
Proof.
  assert (H : forall m, 128 < m < 255 -> valid_sample m (carry_rd m)).
  { intros m Hm d Hd. unfold carry_rd. rewrite (proj2 (N.ltb_lt _ _)), (proj2 (N.ltb_lt _ _)) by lia. cbn [andb].
    apply repeat_label; auto; try lia.
    unfold wide. destruct (N.eqb_spec m 255), (N.ltb_spec 256 m); try lia; reflexivity. }
  split; [|exact H]. destruct demo_garbling_ok as (_ & A & B). split; [|split; [exact A|exact B]].
  intros m Hm. destruct (N.ltb_spec 128 m) as [H1|H1]; [destruct (N.ltb_spec m 255) as [H2|H2]|]; [now apply H| |];
    simpl; unfold carry_rd; [rewrite (proj2 (N.ltb_ge m 255)), andb_false_r by lia|rewrite (proj2 (N.ltb_ge 128 m)) by lia; cbn [andb]];
    now apply demo_rd_ok.
Qed.
Theorem C47_every_length_refuted : ~ (forall sha p g otS otR pw t,
  hash32 sha -> garbling_ok g -> (forall m, 128 < m < 255 -> valid_sample m (g_rd g m)) -> ot_correct extension_ok otS otR ->
  (1 <= length pw)%nat -> t <= 65534 ->
  exists k, runs (garbler sha p g otS pw t) (evaluator sha p otR pw) (Ok k) (Ok k)).
Proof.
  intros H. destruct carry_garbling_ok as [G1 G2].
  assert (E : carry_keys Debug (repeat 5 16) 0 = true) by (vm_compute; reflexivity).
  destruct (carry_run Debug (demo_sender Debug) (demo_receiver Debug) (repeat 5 16) 0) as (k & k' & Hne & R);
    auto using demo_OT; [cbn; lia|discriminate|discriminate|].
  destruct (H carry_sha Debug carry_garbling (demo_sender Debug) (demo_receiver Debug) (repeat 5 16) 0) as (k2 & R2);
    auto using demo_OT, carry_hash32; [cbn; lia|discriminate|].
  destruct (runs_fun _ _ _ _ _ _ R R2) as [E1 E2]. congruence.
Qed.
Print Assumptions C47_every_length_refuted.
(** The same in release builds, and over any correct OT. *)
Theorem C47_sixteen_bytes_refuted : forall p otS otR, ot_correct extension_ok otS otR ->
  exists sha g pw, hash32 sha /\ garbling_ok g /\ valid_sample 129 (g_rd g 129) /\ length pw = 16%nat /\
  exists k k', k <> k' /\ runs (garbler sha p g otS pw 0) (evaluator sha p otR pw) (Ok k) (Ok k').
Proof.
  intros p otS otR Hot. destruct carry_garbling_ok as [G1 G2]. exists carry_sha, carry_garbling, (repeat 5 16).
  split; [exact carry_hash32|]. split; [exact G1|]. split; [apply G2; lia|]. split; [reflexivity|].
  apply carry_run; auto; [cbn; lia|discriminate|discriminate|]. destruct p; vm_compute; reflexivity.
Qed.
Print Assumptions C47_sixteen_bytes_refuted.
