(** C76, C77, C78, C79: what the tables of the projection gates give away (garble.rs:197-225), and how a peer
    without the password uses it against the key exchanges of fpake.rs and
    many_fpake.rs. *)
From Coq Require Import List NArith Bool Lia Arith Permutation.
From Verif Require Import Base MUtil MWires MCircuit MGarble MPar MBincode MProc MOt MApricot MMany MFpake.
From Verif Require Import SpecUtil SpecWires SpecCircuit SpecGarble SpecBincode SpecOt SpecApricot SpecFpake SpecMany SpecMfpake SpecSteal.
From Verif Require Import PBase PUtil PWires PGarble PCircuit PHalf PProc POt PApricotRun PFpake PLeak PSteal PSteal2.
From Verif Require Import CCircuit CGarble COt CApricot CMany CFpake CMfpake CFpake3.
Import ListNotations.
Open Scope N_scope.

(** *** C76 *)
(** C76 is false: if the zero label of the input wire of a projection to modulus n has colour 0, then the
    first row of the gate's table is (digit by digit, modulo n) minus the offset of modulus n times the
    modulus of the input wire. *)
Theorem C76_projection_offset_refuted : forall sha256 p rd ri c gc ek dk s k g i l n d,
  hash32 sha256 -> good_samples c rd ri -> wf_circuit c ->
  garble sha256 p rd ri c = Ok (gc, ek, dk) -> garble_run sha256 p rd ri c = Ok (ek, first_output c, s) ->
  nth_error (gates c) k = Some g -> g_kind g = GProj (PMap n) -> g_inputs g = i :: l -> n <> 2 ->
  wire_delta n (rd n) = Ok d -> colour_of (g_domain g) (nth i (gs_wires s) wire_empty) = 0 ->
  exists tbl r, alookup Nat.eqb (g_output g) (gc_f gc) = Some tbl /\ nth_error tbl 0 = Some r /\
    forall j, (j < ndigits n)%nat -> dplus n (digit n r j) (dtimes n (digit n d j) (g_domain g mod n)) = 0.
Proof.
  intros sha256 p rd ri c gc ek dk s k g i l n d Hsha Hsam Hwf Eg Er Hk Ek Ei Hn Ed Hc.
  destruct (table_found sha256 p rd ri c Hsha Hsam Hwf gc ek dk s Eg Er k g (PMap n) i l Hk Ek Ei) as (tbl & Et).
  destruct (leak_map sha256 p rd ri c Hsha Hsam Hwf gc ek dk s Eg Er k g (PMap n) i l tbl Hk Ek Ei Et n d eq_refl Hn Ed Hc) as (r & Er0 & H).
  exists tbl, r. auto.
Qed.
Print Assumptions C76_projection_offset_refuted.

(** C76: for a comparison the first row is then the complement of the offset of modulus 2. *)
Theorem C76_comparison_offset_refuted : forall sha256 p rd ri c gc ek dk s k g i l t d,
  hash32 sha256 -> good_samples c rd ri -> wf_circuit c ->
  garble sha256 p rd ri c = Ok (gc, ek, dk) -> garble_run sha256 p rd ri c = Ok (ek, first_output c, s) ->
  nth_error (gates c) k = Some g -> g_kind g = GProj (PLess t) -> g_inputs g = i :: l -> 0 < t <= g_domain g ->
  wire_delta 2 (rd 2) = Ok d -> colour_of (g_domain g) (nth i (gs_wires s) wire_empty) = 0 ->
  exists tbl r, alookup Nat.eqb (g_output g) (gc_f gc) = Some tbl /\ nth_error tbl 0 = Some r /\
    forall j, (j < 32)%nat -> N.lxor (nth j (wval r) 0) (nth j (wval d) 0) = 255.
Proof.
  intros sha256 p rd ri c gc ek dk s k g i l t d Hsha Hsam Hwf Eg Er Hk Ek Ei Ht Ed Hc.
  destruct (table_found sha256 p rd ri c Hsha Hsam Hwf gc ek dk s Eg Er k g (PLess t) i l Hk Ek Ei) as (tbl & Et).
  destruct (leak_less sha256 p rd ri c Hsha Hsam Hwf gc ek dk s Eg Er k g (PLess t) i l tbl Hk Ek Ei Et t d eq_refl Ht Ed Hc) as (r & Er0 & H).
  exists tbl, r. auto.
Qed.
Print Assumptions C76_comparison_offset_refuted.

(** *** C77 *)
(** C77 is false: whatever it guesses, an evaluator that deviates only in what it computes from the messages
    it receives ends with the garbler's half key and with the exact distance of its guess to the password. *)
Theorem C77_half_key_stolen_refuted : forall sha p p' g otS otR pw guess t,
  hash32 sha -> garbling_ok g -> ot_correct extension_ok otS otR ->
  length guess = length pw -> good_length (length pw) -> (t < length pw * 8)%nat -> leaky (length pw * 8) (g_ri g) ->
  exists k, length k = 32%nat /\
    runs (garbler sha p g otS pw (N.of_nat t)) (evil_evaluator sha p' otR guess t) (Ok k) (Ok (k, distance pw guess)).
Proof. intros sha p p' g otS otR pw guess t Hs Hg Hot Hl Hgl Ht Hk. exact (steal_run sha Hs p p' g Hg otS otR Hot pw guess t Hl Hgl Ht Hk). Qed.
Print Assumptions C77_half_key_stolen_refuted.

(** C77: in particular over the OT of the crate. *)
Theorem C77_half_key_stolen_over_crate_OT_refuted : forall sha fill gen G p p' a a' cores cores' r rs rr g pw guess t,
  hash32 sha -> generator fill -> generator gen -> curve_ok G -> (1 <= cores)%nat -> (1 <= cores')%nat -> coins_ok r ->
  garbling_ok g -> length guess = length pw -> good_length (length pw) -> (t < length pw * 8)%nat -> leaky (length pw * 8) (g_ri g) ->
  exists k, length k = 32%nat /\
    runs (garbler sha p g (sender_with sha fill p a cores r (co_receiver sha gen G p rs)) pw (N.of_nat t))
         (evil_evaluator sha p' (receiver_with sha fill p' a' cores' r (co_sender sha gen G p' rr)) guess t) (Ok k) (Ok (k, distance pw guess)).
Proof. intros. apply C77_half_key_stolen_refuted; auto. now apply C35_extension_over_base_OT. Qed.
Print Assumptions C77_half_key_stolen_over_crate_OT_refuted.

(** The distances to 8 * len + 1 guesses determine the password. *)
Lemma zeros_bits len : u8_vec_to_bool_vec (repeat 0 len) = repeat false (8 * len).
Proof.
  apply (nth_ext _ _ false false). { now rewrite bits_length, !repeat_length. }
  intros j Hj. rewrite bits_length, repeat_length in Hj. rewrite bits_nth by now rewrite repeat_length. unfold bit_of.
  now rewrite !nth_repeat, N.bits_0.
Qed.
Lemma probe_length len i : length (probe len i) = len.
Proof. unfold probe. now rewrite map_length, seq_length. Qed.
Lemma probe_bits len i : u8_vec_to_bool_vec (probe len i) = map (Nat.eqb i) (seq 0 (8 * len)).
Proof.
  apply (nth_ext _ _ false (Nat.eqb i 0)). { now rewrite bits_length, map_length, seq_length, probe_length. }
  intros j Hj. rewrite bits_length, probe_length in Hj. rewrite bits_nth by now rewrite probe_length.
  rewrite map_nth, seq_nth by auto. cbn [plus]. unfold bit_of, probe.
  assert (Hd : (j / 8 < len)%nat) by (apply Nat.div_lt_upper_bound; lia).
  rewrite nth_indep with (d' := (fun b => if Nat.eqb b (i / 8) then 2 ^ N.of_nat (i mod 8) else 0) 0%nat) by now rewrite map_length, seq_length.
  rewrite (map_nth (fun b => if Nat.eqb b (i / 8) then 2 ^ N.of_nat (i mod 8) else 0)), seq_nth by auto. cbn [plus].
  pose proof (Nat.div_mod j 8 ltac:(lia)). pose proof (Nat.div_mod i 8 ltac:(lia)).
  destruct (Nat.eqb_spec (j / 8) (i / 8)) as [E|E].
  - rewrite N.pow2_bits_eqb. destruct (Nat.eqb_spec i j) as [->|Hne]; [apply N.eqb_refl|]. apply N.eqb_neq. intros Q. apply Nat2N.inj in Q. lia.
  - rewrite N.bits_0. symmetry. apply Nat.eqb_neq. intros ->. lia.
Qed.
Lemma probe_less pw i : (i < 8 * length pw)%nat ->
  Nat.ltb (distance pw (probe (length pw) i)) (distance pw (repeat 0 (length pw))) = bit_of pw i.
Proof.
  intros Hi. rewrite <- !hamming_bits by now rewrite ?probe_length, ?repeat_length.
  rewrite probe_bits, zeros_bits. rewrite <- bits_nth by auto. pose proof (bits_length pw) as L.
  pose proof (hamming_single (u8_vec_to_bool_vec pw) i ltac:(lia)) as H. rewrite L in H.
  destruct (nth i (u8_vec_to_bool_vec pw) false); [apply Nat.ltb_lt|apply Nat.ltb_ge]; lia.
Qed.
Lemma byte_sum x : byte_ok x -> fold_left N.add (map (fun j => if N.testbit x (N.of_nat j) then 2 ^ N.of_nat j else 0) (seq 0 8)) 0 = x.
Proof.
  intros Hx. apply eq_trans with (bits_value (byte_bits x)); [|now apply bits_value_byte]. rewrite byte_bits_testbit. cbn [seq map fold_left bits_value].
  repeat match goal with |- context [N.testbit x ?k] => destruct (N.testbit x k) end; reflexivity.
Qed.

(** C77: 8 * length + 1 such distances give the password itself. *)
Theorem C77_password_recovered_refuted : forall pw, bytes_ok pw -> recover (length pw) (distance pw) = pw.
Proof.
  intros pw Hok. unfold recover. apply (nth_ext _ _ 0 0). { now rewrite map_length, seq_length. }
  intros b Hb. rewrite map_length, seq_length in Hb.
  rewrite PCircuit.nth_map_seq by auto. cbn [plus].
  rewrite <- (byte_sum (nth b pw 0)). 2:{ exact (proj1 (Forall_forall _ _) Hok _ (nth_In pw 0 Hb)). }
  f_equal. apply map_ext_in. intros j Hj. apply in_seq in Hj. rewrite probe_less by lia. unfold bit_of.
  replace ((8 * b + j) / 8)%nat with b by (symmetry; rewrite Nat.mul_comm, Nat.div_add_l, Nat.div_small by lia; lia).
  replace ((8 * b + j) mod 8)%nat with j by (rewrite Nat.mul_comm, Nat.add_comm, Nat.mod_add, Nat.mod_small by lia; lia).
  reflexivity.
Qed.
Print Assumptions C77_password_recovered_refuted.

(** *** C78 *)
Lemma own_half sha p p' g otS otR pw guess : hash32 sha -> garbling_ok g -> ot_correct extension_ok otS otR ->
  length guess = length pw -> good_length (length pw) ->
  exists k, length k = 32%nat /\
    runs (garbler sha p g otS guess (N.of_nat (length guess * 8))) (evaluator sha p' otR pw) (Ok k) (Ok k).
Proof.
  intros Hs Hg Hot Hl Hgl. apply C44_half_keys_agree; auto.
  - now rewrite Hl.
  - unfold good_length in Hgl. lia.
  - pose proof (distance_le guess pw). lia.
Qed.
Lemma combine_length k1 k2 : length k1 = 32%nat -> length k2 = 32%nat -> length (combine_keys k1 k2) = 32%nat.
Proof. intros L1 L2. unfold combine_keys, xor. now rewrite zipWith_length, L1, L2. Qed.

(** C78 is false: a client without the password ends with the server's key, and with the distance. *)
Theorem C78_wrong_client_gets_key_refuted : forall sha p p' g g' otS otR otS' otR' pw guess t,
  hash32 sha -> garbling_ok g -> garbling_ok g' -> ot_correct extension_ok otS otR -> ot_correct extension_ok otS' otR' ->
  length guess = length pw -> good_length (length pw) -> (t < length pw * 8)%nat -> leaky (length pw * 8) (g_ri g) ->
  exists key, length key = 32%nat /\
    runs (fpake_server sha p g otS otR' pw (N.of_nat t)) (evil_client sha p' g' otS' otR guess t) (Ok key) (Ok (key, distance pw guess)).
Proof.
  intros sha p p' g g' otS otR otS' otR' pw guess t Hs Hg Hg' Hot Hot' Hl Hgl Ht Hk.
  destruct (C77_half_key_stolen_refuted sha p p' g otS otR pw guess t Hs Hg Hot Hl Hgl Ht Hk) as (k1 & L1 & R1).
  destruct (own_half sha p' p g' otS' otR' pw guess Hs Hg' Hot' Hl Hgl) as (k2 & L2 & R2).
  exists (combine_keys k1 k2). split; [now apply combine_length|].
  unfold fpake_server, evil_client. eapply runs_bind; [exact R1|]. cbv beta iota.
  eapply runs_bind; [apply runs_flip; exact R2|]. apply runs_ret.
Qed.
Print Assumptions C78_wrong_client_gets_key_refuted.

(** C78: and so does a server without the password. *)
Theorem C78_wrong_server_gets_key_refuted : forall sha p p' g g' otS otR otS' otR' pw guess t,
  hash32 sha -> garbling_ok g -> garbling_ok g' -> ot_correct extension_ok otS otR -> ot_correct extension_ok otS' otR' ->
  length guess = length pw -> good_length (length pw) -> (t < length pw * 8)%nat -> leaky (length pw * 8) (g_ri g) ->
  exists key, length key = 32%nat /\
    runs (evil_server sha p' g' otS' otR guess t) (fpake_client sha p g otS otR' pw (N.of_nat t)) (Ok (key, distance pw guess)) (Ok key).
Proof.
  intros sha p p' g g' otS otR otS' otR' pw guess t Hs Hg Hg' Hot Hot' Hl Hgl Ht Hk.
  destruct (C77_half_key_stolen_refuted sha p p' g otS otR pw guess t Hs Hg Hot Hl Hgl Ht Hk) as (k1 & L1 & R1).
  destruct (own_half sha p' p g' otS' otR' pw guess Hs Hg' Hot' Hl Hgl) as (k2 & L2 & R2).
  exists (combine_keys k1 k2). split; [now apply combine_length|].
  unfold fpake_client, evil_server. eapply runs_bind; [exact R2|].
  eapply runs_bind; [apply runs_flip; exact R1|]. cbv beta iota. rewrite (C46_combine_commutes k2 k1). apply runs_ret.
Qed.
Print Assumptions C78_wrong_server_gets_key_refuted.

(** C78: over the OT of the crate. *)
Theorem C78_wrong_client_over_crate_OT_refuted : forall sha fill gen G p p' g g' a a' cores cores' r r' rs rr rs' rr' pw guess t,
  hash32 sha -> generator fill -> generator gen -> curve_ok G -> (1 <= cores)%nat -> (1 <= cores')%nat -> coins_ok r -> coins_ok r' ->
  garbling_ok g -> garbling_ok g' ->
  length guess = length pw -> good_length (length pw) -> (t < length pw * 8)%nat -> leaky (length pw * 8) (g_ri g) ->
  exists key, length key = 32%nat /\
    runs (fpake_server sha p g (sender_with sha fill p a cores r (co_receiver sha gen G p rs))
            (receiver_with sha fill p a cores r' (co_sender sha gen G p rr)) pw (N.of_nat t))
         (evil_client sha p' g' (sender_with sha fill p' a' cores' r' (co_receiver sha gen G p' rr'))
            (receiver_with sha fill p' a' cores' r (co_sender sha gen G p' rs')) guess t) (Ok key) (Ok (key, distance pw guess)).
Proof. intros. apply C78_wrong_client_gets_key_refuted; auto; now apply C35_extension_over_base_OT. Qed.
Print Assumptions C78_wrong_client_over_crate_OT_refuted.

(** *** C79 *)
(** C79 is false: a client that knows none of the passwords ends with the server's key, and with the distance
    of its guess to the password at an index of its choice. *)
Theorem C79_wrong_single_gets_key_refuted : forall sha p p' g g' dom manyS manyR otS otR otS' otR' d l passwords mask index pw guess t,
  hash32 sha -> garbling_ok g -> garbling_ok g' ->
  many_correct dom manyS manyR -> ot_correct extension_ok otS otR -> ot_correct extension_ok otS' otR' ->
  dom d -> password_list d l passwords -> good_length l -> length mask = l ->
  nth_error passwords (N.to_nat index) = Some pw -> length guess = l -> (t < l * 8)%nat -> leaky (l * 8) (g_ri g) ->
  exists key, length key = 32%nat /\
    runs (mfpake_many sha p mask g manyS otS otR' passwords (N.of_nat t)) (evil_single sha p' g' manyR otS' otR d index guess t)
      (Ok key) (Ok (key, distance pw guess)).
Proof.
  intros sha p p' g g' dom manyS manyR otS otR otS' otR' d l passwords mask index pw guess t
    Hs Hg Hg' Hm Hot Hot' Hd (Hd31 & Lp & Fp) Hgl Lm Hi Lg Ht Hk.
  assert (Lpwi : length pw = l) by (rewrite Forall_forall in Fp; apply Fp; eapply nth_error_In; eauto).
  assert (H1 : (1 <= l)%nat) by (destruct Hgl; lia).
  set (x := xor (xor mask pw) guess).
  assert (Lx : length x = length mask) by (unfold x; rewrite !xor_length; rewrite ?xor_length; lia).
  rewrite <- Lm in Hgl, Ht, Hk.
  destruct (C78_wrong_client_gets_key_refuted sha p p' g g' otS otR otS' otR' mask x t Hs Hg Hg' Hot Hot' Lx Hgl Ht Hk) as (key & Lk & R).
  unfold x in R at 2. rewrite distance_masked in R by lia.
  exists key. split; [exact Lk|].
  assert (Hpow : 2 ^ N.of_nat d = N.of_nat (2 ^ d)) by (now rewrite Nat2N.inj_pow).
  unfold mfpake_many, evil_single.
  destruct passwords as [|p0 rest] eqn:Epw. { destruct (N.to_nat index); discriminate. }
  assert (L0 : length p0 = l) by (inversion Fp; auto). rewrite <- Epw in *.
  eapply runs_lift_l. { rewrite Epw. reflexivity. }
  eapply runs_lift_l. { rewrite L0. apply mask_passwords_ok; auto. }
  eapply runs_lift_l. { rewrite Lp, <- Hpow. apply log2_pow2; [reflexivity|lia]. }
  rewrite Nat2N.id.
  eapply runs_bind.
  { apply (Hm d (map (xor mask) passwords) index (xor mask pw)); auto.
    - now rewrite map_length.
    - exists l. split; [exact H1|]. apply Forall_map. eapply Forall_impl; [|exact Fp]. intros y Hy. cbn beta. rewrite xor_length; congruence.
    - now apply map_nth_error. }
  eapply runs_lift_r. { apply xor_bytes_inplace_ok. rewrite xor_length; congruence. }
  exact R.
Qed.
Print Assumptions C79_wrong_single_gets_key_refuted.

(** C79: a server that knows no password ends with the client's key, and with the distance of its guess to the
    client's password. *)
Theorem C79_wrong_many_gets_key_refuted : forall sha p p' g g' dom manyS manyR otS otR otS' otR' d index password guess t,
  hash32 sha -> garbling_ok g -> garbling_ok g' ->
  many_correct dom manyS manyR -> ot_correct extension_ok otS otR -> ot_correct extension_ok otS' otR' ->
  dom d -> (d <= 31)%nat -> index < 2 ^ N.of_nat d -> good_length (length password) ->
  length guess = length password -> (t < length password * 8)%nat -> leaky (length password * 8) (g_ri g) ->
  exists key, length key = 32%nat /\
    runs (evil_many sha p' g' manyS otS' otR d guess t)
         (mfpake_single sha p g manyR otS otR' password index (N.of_nat (2 ^ d)) (N.of_nat t))
      (Ok (key, distance password guess)) (Ok key).
Proof.
  intros sha p p' g g' dom manyS manyR otS otR otS' otR' d index password guess t
    Hs Hg Hg' Hm Hot Hot' Hd Hd31 Hi Hgl Lg Ht Hk.
  assert (H1 : (1 <= length password)%nat) by (destruct Hgl; lia).
  destruct (C77_half_key_stolen_refuted sha p p' g otS otR password guess t Hs Hg Hot Lg Hgl Ht Hk) as (k1 & L1 & R1).
  destruct (own_half sha p' p g' otS' otR' password guess Hs Hg' Hot' Lg Hgl) as (k2 & L2 & R2).
  exists (combine_keys k2 k1). split; [now apply combine_length|].
  assert (Hpow : 2 ^ N.of_nat d = N.of_nat (2 ^ d)) by (now rewrite Nat2N.inj_pow).
  unfold mfpake_single, evil_many, evil_server.
  eapply runs_lift_r. { rewrite <- Hpow. apply log2_pow2; [reflexivity|lia]. }
  rewrite Nat2N.id.
  eapply runs_bind.
  { apply (Hm d (repeat (repeat 0 (length guess)) (2 ^ d)) index (repeat 0 (length guess))); auto.
    - now rewrite repeat_length.
    - exists (length guess). split; [lia|]. apply Forall_forall. intros y Hy. apply repeat_spec in Hy. subst y. apply repeat_length.
    - apply nth_error_repeat. rewrite Hpow in Hi. lia. }
  eapply runs_lift_r. { apply xor_bytes_inplace_ok. rewrite repeat_length. congruence. }
  rewrite Lg, xor_zeros.
  rewrite Lg in R2.
  eapply runs_bind; [exact R2|].
  eapply runs_bind; [apply runs_flip; exact R1|]. cbv beta iota. apply runs_ret.
Qed.
Print Assumptions C79_wrong_many_gets_key_refuted.

(** ** Examples *)
(** The garbling of [demo] leaks the offset of modulus 5: gate 4 maps wire 3, whose zero label has colour 0. *)
Definition demo_delta : wire := Eval vm_compute in match wire_delta 5 (demo_rd 5) with Ok d => d | _ => wire_empty end.
Example leak_example : exists gc ek dk s d, garble toy Debug demo_rd demo_ri demo = Ok (gc, ek, dk) /\
  garble_run toy Debug demo_rd demo_ri demo = Ok (ek, first_output demo, s) /\
  wire_delta 5 (demo_rd 5) = Ok d /\ colour_of 2 (nth 3 (gs_wires s) wire_empty) = 0 /\
  exists tbl r, alookup Nat.eqb 4%nat (gc_f gc) = Some tbl /\ nth_error tbl 0 = Some r /\
    forall j, (j < ndigits 5)%nat -> dplus 5 (digit 5 r j) (dtimes 5 (digit 5 d j) (2 mod 5)) = 0.
Proof.
  destruct (C18_garbled_evaluation toy Debug demo_rd demo_ri demo [1; 1; 3] toy_hash32 demo_samples demo_wf demo_inputs)
    as (gc & ek & dk & s & xs & zs & Eg & Er & _).
  set (d := demo_delta). assert (Ed : wire_delta 5 (demo_rd 5) = Ok d) by (vm_compute; reflexivity). clearbody d.
  exists gc, ek, dk, s, d. split; [exact Eg|]. split; [exact Er|]. split; [exact Ed|].
  assert (Hc : colour_of 2 (nth 3 (gs_wires s) wire_empty) = 0).
  { assert (Q : forall x, garble_run toy Debug demo_rd demo_ri demo = Ok x -> colour_of 2 (nth 3 (gs_wires (snd x)) wire_empty) = 0).
    { assert (E : match garble_run toy Debug demo_rd demo_ri demo with Ok x => colour_of 2 (nth 3 (gs_wires (snd x)) wire_empty) | _ => 1 end = 0) by (vm_compute; reflexivity).
      intros x Ex. rewrite Ex in E. exact E. }
    exact (Q _ Er). }
  split; [exact Hc|].
  exact (C76_projection_offset_refuted toy Debug demo_rd demo_ri demo gc ek dk s 1 _ 3 [] 5 d toy_hash32 demo_samples demo_wf Eg Er eq_refl eq_refl eq_refl ltac:(discriminate) Ed Hc).
Qed.

Lemma demo_leaky : leaky (3 * 8) (g_ri demo_garbling).
Proof. exists 0%nat. split; [lia|]. reflexivity. Qed.

(** "abc" with threshold 1 against the guess "zzz": the attacker has the key, and the distance 9. *)
Example steal_example : exists key, length key = 32%nat /\
  runs (fpake_server toy Debug demo_garbling (demo_sender Debug) (demo_receiver Debug) [97; 98; 99] 1)
       (evil_client toy Release demo_garbling (demo_sender Release) (demo_receiver Release) [122; 122; 122] 1) (Ok key) (Ok (key, 9%nat)).
Proof.
  exact (C78_wrong_client_gets_key_refuted toy Debug Release demo_garbling demo_garbling (demo_sender Debug) (demo_receiver Release)
    (demo_sender Release) (demo_receiver Debug) [97; 98; 99] [122; 122; 122] 1 toy_hash32 demo_garbling_ok demo_garbling_ok
    (demo_OT Debug Release) (demo_OT Release Debug) eq_refl ltac:(unfold good_length; cbn [length]; lia) ltac:(cbn [length]; lia) demo_leaky).
Qed.
Example recover_example : recover 3 (distance [97; 98; 99]) = [97; 98; 99].
Proof. vm_compute. reflexivity. Qed.

(** A single comparison whose input label has colour 0: its table gives away the offset of modulus 2. *)
Definition less_circuit : circuit := mkCircuit 2 1 1 [mkGate 1 5 [0]%nat (GProj (PLess 3))] [5].
Definition less_ri (i : nat) : bytes := repeat 0 32.
Lemma less_wf : wf_circuit less_circuit.
Proof.
  constructor; try reflexivity; cbn.
  - intros [|k] g Hg; cbn in Hg; [|destruct k; discriminate]. inversion Hg; subst g; cbn.
    split; [reflexivity|]. split; [repeat constructor|]. split; [|left; lia]. exists 0%nat, []. repeat split; auto. left; cbn; lia.
  - apply Forall_cons; [left; lia|apply Forall_nil].
  - intros m [<-|[]]. eexists. split; [left; reflexivity|]. now left.
Qed.
Lemma less_samples : good_samples less_circuit demo_rd less_ri.
Proof.
  split; [exact demo_rd_ok|]. intros [|i] m Hm; cbn in Hm; [|destruct i; discriminate]. inversion Hm; subst m.
  intros d Hd. rewrite (domain_new_supported 5) in Hd by (left; lia). inversion Hd; subst d. apply zeros_label. left; lia.
Qed.
Example less_example : exists gc ek dk d tbl r, garble toy Debug demo_rd less_ri less_circuit = Ok (gc, ek, dk) /\ wire_delta 2 (demo_rd 2) = Ok d /\
  alookup Nat.eqb 1%nat (gc_f gc) = Some tbl /\ nth_error tbl 0 = Some r /\ forall j, (j < 32)%nat -> N.lxor (nth j (wval r) 0) (nth j (wval d) 0) = 255.
Proof.
  destruct (C18_garbled_evaluation toy Debug demo_rd less_ri less_circuit [4] toy_hash32 less_samples less_wf) as (gc & ek & dk & s & xs & zs & Eg & Er & _).
  { split; [reflexivity|]. intros [|i] Hi; cbn in *; lia. }
  set (d := mkWire Binary (repeat 7 32)). assert (Ed : wire_delta 2 (demo_rd 2) = Ok d) by (vm_compute; reflexivity). clearbody d.
  assert (Hc : colour_of 5 (nth 0 (gs_wires s) wire_empty) = 0).
  { assert (E : match garble_run toy Debug demo_rd less_ri less_circuit with Ok x => colour_of 5 (nth 0 (gs_wires (snd x)) wire_empty) | _ => 1 end = 0) by (vm_compute; reflexivity).
    rewrite Er in E. exact E. }
  destruct (C76_comparison_offset_refuted toy Debug demo_rd less_ri less_circuit gc ek dk s 0 _ 0 [] 3 d toy_hash32 less_samples less_wf Eg Er eq_refl eq_refl eq_refl
    ltac:(cbn; lia) Ed Hc) as (tbl & r & H).
  exists gc, ek, dk, d, tbl, r. tauto.
Qed.

Lemma demo_leaky2 : leaky (2 * 8) (g_ri demo_garbling).
Proof. exists 0%nat. split; [lia|]. reflexivity. Qed.
(** The attack over the OTs of the crate, with four passwords of two bytes and threshold 1.  The client asks for entry 2. *)
Example many_steal_example : exists key, length key = 32%nat /\
  runs (mfpake_many toy Debug [200; 3] demo_garbling (demo_many Debug) (demo_sender Debug) (demo_receiver Debug) [[1; 2]; [3; 4]; [5; 6]; [7; 8]] 1)
       (evil_single toy Release demo_garbling (demo_one Release) (demo_sender Release) (demo_receiver Release) 2 2 [255; 255] 1)
    (Ok key) (Ok (key, 12%nat)).
Proof.
  apply (C79_wrong_single_gets_key_refuted toy Debug Release demo_garbling demo_garbling (fun d => d = 2%nat) (demo_many Debug) (demo_one Release)
    (demo_sender Debug) (demo_receiver Release) (demo_sender Release) (demo_receiver Debug) 2 2 [[1; 2]; [3; 4]; [5; 6]; [7; 8]] [200; 3] 2 [5; 6] [255; 255] 1
    toy_hash32 demo_garbling_ok demo_garbling_ok (demo_many_ok Debug Release) (demo_OT Debug Release) (demo_OT Release Debug) eq_refl);
    try reflexivity; try exact demo_leaky2.
  - split; [lia|]. split; [reflexivity|]. repeat constructor.
  - unfold good_length. lia.
  - lia.
Qed.
Example wrong_many_example : exists key, length key = 32%nat /\
  runs (evil_many toy Debug demo_garbling (demo_many Debug) (demo_sender Debug) (demo_receiver Debug) 2 [0; 0] 1)
       (mfpake_single toy Release demo_garbling (demo_one Release) (demo_sender Release) (demo_receiver Release) [5; 7] 2 4 1)
    (Ok (key, 5%nat)) (Ok key).
Proof.
  apply (C79_wrong_many_gets_key_refuted toy Release Debug demo_garbling demo_garbling (fun d => d = 2%nat) (demo_many Debug) (demo_one Release)
    (demo_sender Release) (demo_receiver Debug) (demo_sender Debug) (demo_receiver Release) 2 2 [5; 7] [0; 0] 1
    toy_hash32 demo_garbling_ok demo_garbling_ok (demo_many_ok Debug Release) (demo_OT Release Debug) (demo_OT Debug Release) eq_refl);
    try reflexivity; try exact demo_leaky2; try (unfold good_length; cbn [length]; lia).
Qed.
