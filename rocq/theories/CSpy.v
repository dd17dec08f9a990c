(** C93, C94: what an evaluator that follows the protocol reads off the tables of the projection gates
    (garble.rs:197-225), and what this means for the key exchanges of fpake.rs and many_fpake.rs. *)
From Coq Require Import List NArith Bool Lia Arith Permutation.
From Verif Require Import Base MUtil MWires MCircuit MGarble MPar MBincode MProc MOt MApricot MMany MFpake.
From Verif Require Import SpecUtil SpecWires SpecCircuit SpecGarble SpecBincode SpecOt SpecApricot SpecFpake SpecMany SpecMfpake SpecSteal SpecSpy.
From Verif Require Import PBase PUtil PWires PGarble PCircuit PHalf PProc POt PApricotRun PFpake PLeak PSteal PSteal2 PSpy PSpy2 PFpake3.
From Verif Require Import CCircuit CGarble COt CApricot CMany CFpake CMfpake CFpake3 CSteal.
Import ListNotations.
Open Scope N_scope.

(** *** C93 *)
(** C93 is false: in every garbling, for a projection to modulus n the first row of the gate's table has a
    colour other than 0 exactly if the colour of the label that the evaluator holds on the input wire is the
    value of this wire. *)
Theorem C93_projected_value_refuted : forall sha p rd ri c x gc ek dk xs,
  hash32 sha -> good_samples c rd ri -> wf_circuit c -> wf_inputs c x ->
  garble sha p rd ri c = Ok (gc, ek, dk) -> encode p ek x = Ok xs ->
  exists ws, all_labels sha p gc xs = Ok ws /\
    forall k g n i l, nth_error (gates c) k = Some g -> g_kind g = GProj (PMap n) -> g_inputs g = i :: l ->
      n <> 2 -> g_domain g mod n <> 0 ->
      exists w r, nth_error ws i = Some (Some w) /\ first_row gc (g_output g) = Ok r /\
        (colour_of n r <> 0 <-> colour_of (g_domain g) w = nth i (circuit_values c x) 0).
Proof.
  intros sha p rd ri c x gc ek dk xs Hsha Hsam Hwf Hx Eg Ex.
  destruct (values_read sha p rd ri c Hsha Hsam Hwf x Hx gc ek dk xs Eg Ex) as (ws & E & H & _). eauto.
Qed.
Print Assumptions C93_projected_value_refuted.

(** C93: the same for a comparison, whose first row has colour 0 in this case. *)
Theorem C93_compared_value_refuted : forall sha p rd ri c x gc ek dk xs,
  hash32 sha -> good_samples c rd ri -> wf_circuit c -> wf_inputs c x ->
  garble sha p rd ri c = Ok (gc, ek, dk) -> encode p ek x = Ok xs ->
  exists ws, all_labels sha p gc xs = Ok ws /\
    forall k g t i l, nth_error (gates c) k = Some g -> g_kind g = GProj (PLess t) -> g_inputs g = i :: l ->
      0 < t <= g_domain g ->
      exists w r, nth_error ws i = Some (Some w) /\ first_row gc (g_output g) = Ok r /\
        (colour_of 2 r = 0 <-> colour_of (g_domain g) w = nth i (circuit_values c x) 0).
Proof.
  intros sha p rd ri c x gc ek dk xs Hsha Hsam Hwf Hx Eg Ex.
  destruct (values_read sha p rd ri c Hsha Hsam Hwf x Hx gc ek dk xs Eg Ex) as (ws & E & _ & H). eauto.
Qed.
Print Assumptions C93_compared_value_refuted.

(** C93: so the evaluator computes the value of every binary wire that is projected to an odd modulus from
    what it holds. *)
Theorem C93_binary_value_refuted : forall sha p rd ri c x gc ek dk xs,
  hash32 sha -> good_samples c rd ri -> wf_circuit c -> wf_inputs c x ->
  garble sha p rd ri c = Ok (gc, ek, dk) -> encode p ek x = Ok xs ->
  exists ws, all_labels sha p gc xs = Ok ws /\
    forall k g n i l, nth_error (gates c) k = Some g -> g_kind g = GProj (PMap n) -> g_inputs g = i :: l ->
      n <> 2 -> 2 mod n <> 0 -> g_domain g = 2 ->
      exists w r, nth_error ws i = Some (Some w) /\ first_row gc (g_output g) = Ok r /\
        nth i (circuit_values c x) 0 = if peek w r then 1 else 0.
Proof.
  intros sha p rd ri c x gc ek dk xs Hsha Hsam Hwf Hx Eg Ex.
  destruct (values_state sha p rd ri c Hsha Hsam Hwf x Hx gc ek dk xs Eg Ex) as (s & HI & Same & ->).
  destruct (all_labels_ok sha p rd ri c Hsha Hsam Hwf s HI gc Same x Hx) as (es & E & Hes). exists es. split; [exact E|].
  intros k g n i l Hk Ek Ei H2 Hm Hd. destruct (gate_input sha p rd ri c Hsam Hwf s HI gc Same k g _ i l Hk Ek Ei) as (Hi & Hmod & Hs).
  destruct (row_colour sha p rd ri c Hsha Hsam Hwf s HI gc Same k g n i l Hk Ek Ei H2) as (r & Er & _ & _); [now rewrite Hd|].
  exists (L rd c x s i), r. split; [now apply Hes|]. split; [exact Er|].
  rewrite (peek_ok sha p rd ri c Hsha Hsam Hwf s HI gc Same x Hx k g n i l r Hk Ek Ei H2 Hd Hm Er).
  fold (PGarble.v c x i). assert (Hv : PGarble.v c x i < 2).
  { rewrite <- Hd, <- Hmod. assert (Hri := proj2 Hsam). pose proof (Hrd' rd ri c Hsam) as Hrd. eapply v_lt; eauto. }
  destruct (N.eqb_spec (PGarble.v c x i) 1); lia.
Qed.
Print Assumptions C93_binary_value_refuted.

(** *** C94 *)
(** C94 is false: an evaluator that follows the protocol, with any password of the right length and for any
    randomness of the garbler, reads the garbler's password off the messages.  Its half key is that of an
    evaluator that does not read. *)
Theorem C94_password_read_refuted : forall sha p p' g otS otR pw pw' t,
  hash32 sha -> garbling_ok g -> ot_correct extension_ok otS otR ->
  length pw' = length pw -> good_length (length pw) -> t <= 65534 -> bytes_ok pw -> bytes_ok pw' ->
  exists k k', runs (garbler sha p g otS pw t) (evaluator sha p' otR pw') (Ok k) (Ok k') /\
    runs (garbler sha p g otS pw t) (spying_evaluator sha p' otR pw') (Ok k) (Ok (k', pw)).
Proof. intros sha p p' g otS otR pw pw' t Hs Hg Hot Hl Hgl Ht Hb Hb'. exact (spy_run sha Hs p p' g Hg otS otR Hot pw pw' t Hl Hgl Ht Hb Hb'). Qed.
Print Assumptions C94_password_read_refuted.

(** C94: a client reads the server's password in one session, and a server the client's. *)
Theorem C94_fpake_client_reads_refuted : forall sha p p' g g' otS otR otS' otR' pw pw' t t',
  hash32 sha -> garbling_ok g -> garbling_ok g' -> ot_correct extension_ok otS otR -> ot_correct extension_ok otS' otR' ->
  length pw' = length pw -> good_length (length pw) -> t <= 65534 -> t' <= 65534 -> bytes_ok pw -> bytes_ok pw' ->
  exists k k', runs (fpake_server sha p g otS otR' pw t) (fpake_client sha p' g' otS' otR pw' t') (Ok k) (Ok k') /\
    runs (fpake_server sha p g otS otR' pw t) (spying_client sha p' g' otS' otR pw' t') (Ok k) (Ok (k', pw)).
Proof.
  intros sha p p' g g' otS otR otS' otR' pw pw' t t' Hs Hg Hg' Hot Hot' Hl Hgl Ht Ht' Hb Hb'.
  assert (Hgl' : good_length (length pw')) by now rewrite Hl.
  destruct (spy_run sha Hs p p' g Hg otS otR Hot pw pw' t Hl Hgl Ht Hb Hb') as (k1 & k1' & R1 & S1).
  destruct (spy_run sha Hs p' p g' Hg' otS' otR' Hot' pw' pw t' (eq_sym Hl) Hgl' Ht' Hb' Hb) as (k2 & k2' & R2 & _).
  exists (combine_keys k1 k2'), (combine_keys k2 k1'). split.
  - unfold fpake_server, fpake_client. eapply runs_bind; [exact R1|]. eapply runs_bind; [apply runs_flip; exact R2|]. apply runs_ret.
  - unfold fpake_server, spying_client. eapply runs_bind; [exact S1|]. cbv beta iota. eapply runs_bind; [apply runs_flip; exact R2|]. apply runs_ret.
Qed.
Print Assumptions C94_fpake_client_reads_refuted.
Theorem C94_fpake_server_reads_refuted : forall sha p p' g g' otS otR otS' otR' pw pw' t t',
  hash32 sha -> garbling_ok g -> garbling_ok g' -> ot_correct extension_ok otS otR -> ot_correct extension_ok otS' otR' ->
  length pw' = length pw -> good_length (length pw) -> t <= 65534 -> t' <= 65534 -> bytes_ok pw -> bytes_ok pw' ->
  exists k k', runs (fpake_server sha p g otS otR' pw t) (fpake_client sha p' g' otS' otR pw' t') (Ok k) (Ok k') /\
    runs (spying_server sha p g otS otR' pw t) (fpake_client sha p' g' otS' otR pw' t') (Ok (k, pw')) (Ok k').
Proof.
  intros sha p p' g g' otS otR otS' otR' pw pw' t t' Hs Hg Hg' Hot Hot' Hl Hgl Ht Ht' Hb Hb'.
  assert (Hgl' : good_length (length pw')) by now rewrite Hl.
  destruct (spy_run sha Hs p p' g Hg otS otR Hot pw pw' t Hl Hgl Ht Hb Hb') as (k1 & k1' & R1 & _).
  destruct (spy_run sha Hs p' p g' Hg' otS' otR' Hot' pw' pw t' (eq_sym Hl) Hgl' Ht' Hb' Hb) as (k2 & k2' & R2 & S2).
  exists (combine_keys k1 k2'), (combine_keys k2 k1'). split.
  - unfold fpake_server, fpake_client. eapply runs_bind; [exact R1|]. eapply runs_bind; [apply runs_flip; exact R2|]. apply runs_ret.
  - unfold spying_server, fpake_client. eapply runs_bind; [exact R1|]. eapply runs_bind; [apply runs_flip; exact S2|]. cbv beta iota. apply runs_ret.
Qed.
Print Assumptions C94_fpake_server_reads_refuted.

(** C94: over the OT of the crate. *)
Theorem C94_password_read_over_crate_OT_refuted : forall sha fill gen G p p' a a' cores cores' r rs rr g pw pw' t,
  hash32 sha -> generator fill -> generator gen -> curve_ok G -> (1 <= cores)%nat -> (1 <= cores')%nat -> coins_ok r ->
  garbling_ok g -> length pw' = length pw -> good_length (length pw) -> t <= 65534 -> bytes_ok pw -> bytes_ok pw' ->
  exists k k', 
    runs (garbler sha p g (sender_with sha fill p a cores r (co_receiver sha gen G p rs)) pw t)
         (spying_evaluator sha p' (receiver_with sha fill p' a' cores' r (co_sender sha gen G p' rr)) pw') (Ok k) (Ok (k', pw)).
Proof.
  intros sha fill gen G p p' a a' cores cores' r rs rr g pw pw' t Hs Hf Hgen HG H1 H2 Hr Hg Hl Hgl Ht Hb Hb'.
  assert (Hot : ot_correct extension_ok (sender_with sha fill p a cores r (co_receiver sha gen G p rs)) (receiver_with sha fill p' a' cores' r (co_sender sha gen G p' rr)))
    by now apply C35_extension_over_base_OT.
  destruct (C94_password_read_refuted sha p p' g _ _ pw pw' t Hs Hg Hot Hl Hgl Ht Hb Hb') as (k & k' & _ & R). eauto.
Qed.
Print Assumptions C94_password_read_over_crate_OT_refuted.

(** C94: in the one-of-many exchange a client reads the password at the index of its choice, whatever its own
    password is. *)
Theorem C94_single_reads_entry_refuted : forall sha p p' g g' dom manyS manyR otS otR otS' otR' d l passwords mask index pw password t t',
  hash32 sha -> garbling_ok g -> garbling_ok g' ->
  many_correct dom manyS manyR -> ot_correct extension_ok otS otR -> ot_correct extension_ok otS' otR' ->
  dom d -> password_list d l passwords -> good_length l -> length mask = l ->
  nth_error passwords (N.to_nat index) = Some pw -> length password = l -> t <= 65534 -> t' <= 65534 ->
  bytes_ok mask -> bytes_ok pw -> bytes_ok password ->
  exists k k', runs (mfpake_many sha p mask g manyS otS otR' passwords t)
                    (spying_single sha p' g' manyR otS' otR password index (N.of_nat (2 ^ d)) t') (Ok k) (Ok (k', pw)).
Proof.
  intros sha p p' g g' dom manyS manyR otS otR otS' otR' d l passwords mask index pw password t t'
    Hs Hg Hg' Hm Hot Hot' Hd (Hd31 & Lp & Fp) Hgl Lm Hi Lg Ht Ht' Bm Bp Bw.
  assert (Lpwi : length pw = l) by (rewrite Forall_forall in Fp; apply Fp; eapply nth_error_In; eauto).
  assert (H1 : (1 <= l)%nat) by (destruct Hgl; lia).
  set (x := xor (xor mask pw) password).
  assert (Lx : length x = length mask) by (unfold x; rewrite !xor_length; rewrite ?xor_length; lia).
  assert (Bx : bytes_ok x) by (unfold x; auto using xor_bytes_range).
  rewrite <- Lm in Hgl. assert (Hgl' : good_length (length x)) by now rewrite Lx.
  destruct (spy_run sha Hs p p' g Hg otS otR Hot mask x t Lx Hgl Ht Bm Bx) as (k1 & k1' & _ & S1).
  destruct (spy_run sha Hs p' p g' Hg' otS' otR' Hot' x mask t' (eq_sym Lx) Hgl' Ht' Bx Bm) as (k2 & k2' & R2 & _).
  exists (combine_keys k1 k2'), (combine_keys k1' k2).
  assert (Hpow : 2 ^ N.of_nat d = N.of_nat (2 ^ d)) by (now rewrite Nat2N.inj_pow).
  unfold mfpake_many, spying_single.
  destruct passwords as [|p0 rest] eqn:Epw. { destruct (N.to_nat index); discriminate. }
  assert (L0 : length p0 = l) by (inversion Fp; auto). rewrite <- Epw in *.
  eapply runs_lift_l. { rewrite Epw. reflexivity. }
  eapply runs_lift_l. { rewrite L0. apply mask_passwords_ok; auto. }
  eapply runs_lift_l. { rewrite Lp, <- Hpow. apply log2_pow2; [reflexivity|lia]. }
  eapply runs_lift_r. { rewrite <- Hpow. apply log2_pow2; [reflexivity|lia]. }
  rewrite Nat2N.id.
  eapply runs_bind.
  { apply (Hm d (map (xor mask) passwords) index (xor mask pw)); auto.
    - now rewrite map_length.
    - exists l. split; [exact H1|]. apply Forall_map. eapply Forall_impl; [|exact Fp]. intros y Hy. cbn beta. rewrite xor_length; congruence.
    - now apply map_nth_error. }
  eapply runs_lift_r. { apply xor_bytes_inplace_ok. rewrite xor_length; congruence. }
  fold (xor (xor mask pw) password). fold x.
  eapply runs_bind; [exact S1|]. cbv beta iota. eapply runs_bind; [apply runs_flip; exact R2|].
  rewrite (xor_comm' mask pw), xor_twice by congruence. apply runs_ret.
Qed.
Print Assumptions C94_single_reads_entry_refuted.

(** C94: and a server reads the difference between the client's password and the password at the index the
    client asked for.  If all its passwords are the same, it reads the client's password. *)
Theorem C94_many_reads_difference_refuted : forall sha p p' g g' dom manyS manyR otS otR otS' otR' d l passwords mask index pw password t t',
  hash32 sha -> garbling_ok g -> garbling_ok g' ->
  many_correct dom manyS manyR -> ot_correct extension_ok otS otR -> ot_correct extension_ok otS' otR' ->
  dom d -> password_list d l passwords -> good_length l -> length mask = l ->
  nth_error passwords (N.to_nat index) = Some pw -> length password = l -> t <= 65534 -> t' <= 65534 ->
  bytes_ok mask -> bytes_ok pw -> bytes_ok password ->
  exists k k', runs (spying_many sha p mask g manyS otS otR' passwords t)
                    (mfpake_single sha p' g' manyR otS' otR password index (N.of_nat (2 ^ d)) t') (Ok (k, xor pw password)) (Ok k').
Proof.
  intros sha p p' g g' dom manyS manyR otS otR otS' otR' d l passwords mask index pw password t t'
    Hs Hg Hg' Hm Hot Hot' Hd (Hd31 & Lp & Fp) Hgl Lm Hi Lg Ht Ht' Bm Bp Bw.
  assert (Lpwi : length pw = l) by (rewrite Forall_forall in Fp; apply Fp; eapply nth_error_In; eauto).
  assert (H1 : (1 <= l)%nat) by (destruct Hgl; lia).
  set (x := xor (xor mask pw) password).
  assert (Lx : length x = length mask) by (unfold x; rewrite !xor_length; rewrite ?xor_length; lia).
  assert (Bx : bytes_ok x) by (unfold x; auto using xor_bytes_range).
  assert (Ex : xor x mask = xor pw password).
  { unfold x. clear -Lm Lpwi Lg. revert mask pw password Lm Lpwi Lg. induction l as [|k IH]; intros [|z m] [|y b] [|w c] L1 L2 L3; try discriminate; [reflexivity|].
    cbn [xor zipWith]. change (N.lxor (N.lxor (N.lxor z y) w) z :: xor (xor (xor m b) c) m = N.lxor y w :: xor b c). f_equal; [|apply IH; cbn [length] in *; lia].
    rewrite (N.lxor_comm _ z), <- !N.lxor_assoc, N.lxor_nilpotent. now rewrite N.lxor_0_l. }
  rewrite <- Lm in Hgl. assert (Hgl' : good_length (length x)) by now rewrite Lx.
  destruct (spy_run sha Hs p p' g Hg otS otR Hot mask x t Lx Hgl Ht Bm Bx) as (k1 & k1' & R1 & _).
  destruct (spy_run sha Hs p' p g' Hg' otS' otR' Hot' x mask t' (eq_sym Lx) Hgl' Ht' Bx Bm) as (k2 & k2' & _ & S2).
  exists (combine_keys k1 k2'), (combine_keys k1' k2).
  assert (Hpow : 2 ^ N.of_nat d = N.of_nat (2 ^ d)) by (now rewrite Nat2N.inj_pow).
  unfold spying_many, mfpake_single.
  destruct passwords as [|p0 rest] eqn:Epw. { destruct (N.to_nat index); discriminate. }
  assert (L0 : length p0 = l) by (inversion Fp; auto). rewrite <- Epw in *.
  eapply runs_lift_l. { rewrite Epw. reflexivity. }
  eapply runs_lift_l. { rewrite L0. apply mask_passwords_ok; auto. }
  eapply runs_lift_l. { rewrite Lp, <- Hpow. apply log2_pow2; [reflexivity|lia]. }
  eapply runs_lift_r. { rewrite <- Hpow. apply log2_pow2; [reflexivity|lia]. }
  rewrite Nat2N.id.
  eapply runs_bind.
  { apply (Hm d (map (xor mask) passwords) index (xor mask pw)); auto.
    - now rewrite map_length.
    - exists l. split; [exact H1|]. apply Forall_map. eapply Forall_impl; [|exact Fp]. intros y Hy. cbn beta. rewrite xor_length; congruence.
    - now apply map_nth_error. }
  eapply runs_lift_r. { apply xor_bytes_inplace_ok. rewrite xor_length; congruence. }
  fold (xor (xor mask pw) password). fold x.
  eapply runs_bind; [exact R1|]. eapply runs_bind; [apply runs_flip; exact S2|]. cbv beta iota. rewrite Ex. apply runs_ret.
Qed.
Print Assumptions C94_many_reads_difference_refuted.

(** C94: the third version gives away the same. *)
Theorem C94_v3_client_reads_entry_refuted : forall sha p p' g dom manyS manyR ot1S ot1R ot2S ot2R d l passwords mask index pw password t,
  hash32 sha -> garbling_ok g ->
  many_correct dom manyS manyR -> ot_correct extension_ok ot1S ot1R -> ot_correct extension_ok ot2S ot2R ->
  dom d -> password_list d l passwords -> good_length l -> length mask = l ->
  nth_error passwords (N.to_nat index) = Some pw -> length password = l -> t <= 65534 ->
  bytes_ok mask -> bytes_ok pw -> bytes_ok password ->
  exists k k', runs (garbler_server_v3 sha p mask g ot1S manyS ot2S passwords t)
                    (spying_client_v3 sha p' ot1R manyR ot2R password (N.of_nat (2 ^ d)) index) (Ok (k, mask)) (Ok (k', xor mask pw, pw)).
Proof.
  intros sha p p' g dom manyS manyR ot1S ot1R ot2S ot2R d l passwords mask index pw password t
    Hs Hg Hm Hot1 Hot2 Hd Hpl Hgl Lm Hi Lg Ht Bm Bp Bw. pose proof Hpl as (_ & Lp & Fp).
  assert (Lpwi : length pw = l) by (rewrite Forall_forall in Fp; apply Fp; eapply nth_error_In; eauto).
  assert (Hp0 : exists p0, nth_error passwords 0 = Some p0 /\ length p0 = l).
  { destruct passwords as [|p0 rest]. { destruct (N.to_nat index); discriminate. } exists p0. split; [reflexivity|]. now inversion Fp. }
  destruct (spy_client_v3 sha Hs p p' g Hg l Hgl passwords mask pw password t Hp0 Lm Lpwi Lg Ht Bp Bw ot1S ot1R ot2S ot2R dom manyS manyR d index Hot1 Hot2 Hm Hd Hpl Hi)
    as (l0 & l1 & _ & R).
  eexists _, _. exact R.
Qed.
Print Assumptions C94_v3_client_reads_entry_refuted.
Theorem C94_v3_server_reads_difference_refuted : forall sha p p' g otS otR l passwords mask pw password t,
  hash32 sha -> garbling_ok g -> ot_correct extension_ok otS otR -> good_length l ->
  Forall (fun x : bytes => length x = l) passwords -> In pw passwords -> length mask = l -> length password = l -> t <= 65534 ->
  bytes_ok mask -> bytes_ok pw -> bytes_ok password ->
  exists k k', runs (garbler_client_v3 sha p g otS password (xor mask pw) t) (spying_server_v3 sha p' otR passwords mask) (Ok k) (Ok (k', xor pw password)).
Proof.
  intros sha p p' g otS otR l passwords mask pw password t Hs Hg Hot Hgl Fp Hin Lm Lg Ht Bm Bp Bw.
  assert (Lpwi : length pw = l) by (rewrite Forall_forall in Fp; auto).
  assert (Hp0 : exists p0, nth_error passwords 0 = Some p0 /\ length p0 = l).
  { destruct passwords as [|p0 rest]; [destruct Hin|]. exists p0. split; [reflexivity|]. now inversion Fp. }
  destruct (spy_server_v3 sha Hs p p' g Hg l Hgl passwords mask pw password t Hp0 Lm Lpwi Lg Ht Bm Bp Bw otS otR Hot) as (l0 & l1 & _ & R).
  eexists _, _. exact R.
Qed.
Print Assumptions C94_v3_server_reads_difference_refuted.

(** ** Examples *)
Lemma demo_run : exists gc ek dk xs, garble toy Debug demo_rd demo_ri demo = Ok (gc, ek, dk) /\ encode Debug ek [1; 1; 3] = Ok xs.
Proof.
  destruct (C18_garbled_evaluation toy Debug demo_rd demo_ri demo [1; 1; 3] toy_hash32 demo_samples demo_wf demo_inputs)
    as (gc & ek & dk & s & xs & zs & Eg & Er & Ee & _). eauto 8.
Qed.
(** Gate 4 of [demo] maps wire 3, the AND of the first two inputs, to modulus 5. *)
Example value_example : exists gc ek dk xs ws w r, garble toy Debug demo_rd demo_ri demo = Ok (gc, ek, dk) /\ encode Debug ek [1; 1; 3] = Ok xs /\
  all_labels toy Debug gc xs = Ok ws /\ nth_error ws 3 = Some (Some w) /\ first_row gc 4 = Ok r /\
  (colour_of 5 r <> 0 <-> colour_of 2 w = 1) /\ peek w r = true.
Proof.
  destruct demo_run as (gc & ek & dk & xs & Eg & Ee).
  destruct (C93_projected_value_refuted toy Debug demo_rd demo_ri demo [1; 1; 3] gc ek dk xs toy_hash32 demo_samples demo_wf demo_inputs Eg Ee) as (ws & Ew & H).
  destruct (H 1%nat _ 5 3%nat [] eq_refl eq_refl eq_refl ltac:(discriminate) ltac:(discriminate)) as (w & r & Hw & Hr & Hc).
  destruct (C93_binary_value_refuted toy Debug demo_rd demo_ri demo [1; 1; 3] gc ek dk xs toy_hash32 demo_samples demo_wf demo_inputs Eg Ee) as (ws' & Ew' & H').
  destruct (H' 1%nat _ 5 3%nat [] eq_refl eq_refl eq_refl ltac:(discriminate) ltac:(discriminate) eq_refl) as (w' & r' & Hw' & Hr' & Hv).
  assert (ws' = ws) by congruence. subst ws'. assert (w' = w) by congruence. subst w'. assert (r' = r) by congruence. subst r'.
  exists gc, ek, dk, xs, ws, w, r. split; [exact Eg|]. split; [exact Ee|]. split; [exact Ew|]. split; [exact Hw|]. split; [exact Hr|]. split; [exact Hc|].
  change (nth 3 (circuit_values demo [1; 1; 3]) 0) with 1 in Hv. destruct (peek w r); [reflexivity|discriminate].
Qed.
Example compared_example : exists gc ek dk xs ws w r, garble toy Debug demo_rd less_ri less_circuit = Ok (gc, ek, dk) /\ encode Debug ek [4] = Ok xs /\
  all_labels toy Debug gc xs = Ok ws /\ nth_error ws 0 = Some (Some w) /\ first_row gc 1 = Ok r /\ (colour_of 2 r = 0 <-> colour_of 5 w = 4).
Proof.
  assert (Hin : wf_inputs less_circuit [4]) by (split; [reflexivity|]; intros [|i] Hi; cbn in *; lia).
  destruct (C18_garbled_evaluation toy Debug demo_rd less_ri less_circuit [4] toy_hash32 less_samples less_wf Hin)
    as (gc & ek & dk & s & xs & zs & Eg & Er & Ee & _).
  destruct (C93_compared_value_refuted toy Debug demo_rd less_ri less_circuit [4] gc ek dk xs toy_hash32 less_samples less_wf Hin Eg Ee) as (ws & Ew & H).
  destruct (H 0%nat _ 3 0%nat [] eq_refl eq_refl eq_refl ltac:(cbn; lia)) as (w & r & Hw & Hr & Hc).
  exists gc, ek, dk, xs, ws, w, r. repeat (split; [assumption|]). exact Hc.
Qed.

(** A client that types "zzz" reads the server's password "abc". *)
Example spy_example : exists k k',
  runs (fpake_server toy Debug demo_garbling (demo_sender Debug) (demo_receiver Debug) [97; 98; 99] 1)
       (spying_client toy Release demo_garbling (demo_sender Release) (demo_receiver Release) [122; 122; 122] 1) (Ok k) (Ok (k', [97; 98; 99])).
Proof.
  destruct (C94_fpake_client_reads_refuted toy Debug Release demo_garbling demo_garbling (demo_sender Debug) (demo_receiver Release)
    (demo_sender Release) (demo_receiver Debug) [97; 98; 99] [122; 122; 122] 1 1 toy_hash32 demo_garbling_ok demo_garbling_ok
    (demo_OT Debug Release) (demo_OT Release Debug) eq_refl ltac:(unfold good_length; cbn [length]; lia) ltac:(lia) ltac:(lia)) as (k & k' & _ & R);
    [repeat constructor|repeat constructor|]. eauto.
Qed.
Example spying_server_example : exists k k',
  runs (spying_server toy Debug demo_garbling (demo_sender Debug) (demo_receiver Debug) [97; 98; 99] 1)
       (fpake_client toy Release demo_garbling (demo_sender Release) (demo_receiver Release) [122; 122; 122] 1) (Ok (k, [122; 122; 122])) (Ok k').
Proof.
  destruct (C94_fpake_server_reads_refuted toy Debug Release demo_garbling demo_garbling (demo_sender Debug) (demo_receiver Release)
    (demo_sender Release) (demo_receiver Debug) [97; 98; 99] [122; 122; 122] 1 1 toy_hash32 demo_garbling_ok demo_garbling_ok
    (demo_OT Debug Release) (demo_OT Release Debug) eq_refl ltac:(unfold good_length; cbn [length]; lia) ltac:(lia) ltac:(lia)) as (k & k' & _ & R);
    [repeat constructor|repeat constructor|]. eauto.
Qed.
Lemma demo_list : password_list 2 2 [[1; 2]; [3; 4]; [5; 6]; [7; 8]].
Proof. split; [lia|]. split; [reflexivity|]. repeat constructor. Qed.
Example spying_single_example : exists k k',
  runs (mfpake_many toy Debug [200; 3] demo_garbling (demo_many Debug) (demo_sender Debug) (demo_receiver Debug) [[1; 2]; [3; 4]; [5; 6]; [7; 8]] 1)
       (spying_single toy Release demo_garbling (demo_one Release) (demo_sender Release) (demo_receiver Release) [255; 255] 2 4 1) (Ok k) (Ok (k', [5; 6])).
Proof.
  apply (C94_single_reads_entry_refuted toy Debug Release demo_garbling demo_garbling (fun d => d = 2%nat) (demo_many Debug) (demo_one Release)
    (demo_sender Debug) (demo_receiver Release) (demo_sender Release) (demo_receiver Debug) 2 2 [[1; 2]; [3; 4]; [5; 6]; [7; 8]] [200; 3] 2 [5; 6] [255; 255] 1 1
    toy_hash32 demo_garbling_ok demo_garbling_ok (demo_many_ok Debug Release) (demo_OT Debug Release) (demo_OT Release Debug) eq_refl demo_list);
    try reflexivity; try (repeat constructor); try lia. all: unfold good_length; lia.
Qed.
Example spying_many_example : exists k k',
  runs (spying_many toy Debug [200; 3] demo_garbling (demo_many Debug) (demo_sender Debug) (demo_receiver Debug) [[1; 2]; [3; 4]; [5; 6]; [7; 8]] 1)
       (mfpake_single toy Release demo_garbling (demo_one Release) (demo_sender Release) (demo_receiver Release) [255; 255] 2 4 1) (Ok (k, [250; 249])) (Ok k').
Proof.
  apply (C94_many_reads_difference_refuted toy Debug Release demo_garbling demo_garbling (fun d => d = 2%nat) (demo_many Debug) (demo_one Release)
    (demo_sender Debug) (demo_receiver Release) (demo_sender Release) (demo_receiver Debug) 2 2 [[1; 2]; [3; 4]; [5; 6]; [7; 8]] [200; 3] 2 [5; 6] [255; 255] 1 1
    toy_hash32 demo_garbling_ok demo_garbling_ok (demo_many_ok Debug Release) (demo_OT Debug Release) (demo_OT Release Debug) eq_refl demo_list);
    try reflexivity; try (repeat constructor); try lia. all: unfold good_length; lia.
Qed.
Example spying_client_v3_example : exists k k',
  runs (garbler_server_v3 toy Debug [200; 3] demo_garbling (demo_sender Debug) (demo_many Debug) (demo_sender Debug) [[1; 2]; [3; 4]; [5; 6]; [7; 8]] 1)
       (spying_client_v3 toy Release (demo_receiver Release) (demo_one Release) (demo_receiver Release) [255; 255] 4 2) (Ok (k, [200; 3])) (Ok (k', [205; 5], [5; 6])).
Proof.
  apply (C94_v3_client_reads_entry_refuted toy Debug Release demo_garbling (fun d => d = 2%nat) (demo_many Debug) (demo_one Release)
    (demo_sender Debug) (demo_receiver Release) (demo_sender Debug) (demo_receiver Release) 2 2 [[1; 2]; [3; 4]; [5; 6]; [7; 8]] [200; 3] 2 [5; 6] [255; 255] 1
    toy_hash32 demo_garbling_ok (demo_many_ok Debug Release) (demo_OT Debug Release) (demo_OT Debug Release) eq_refl demo_list);
    try reflexivity; try (repeat constructor); try lia. all: unfold good_length; lia.
Qed.
Example spying_server_v3_example : exists k k',
  runs (garbler_client_v3 toy Release demo_garbling (demo_sender Release) [255; 255] [205; 5] 1)
       (spying_server_v3 toy Debug (demo_receiver Debug) [[1; 2]; [3; 4]; [5; 6]; [7; 8]] [200; 3]) (Ok k) (Ok (k', [250; 249])).
Proof.
  apply (C94_v3_server_reads_difference_refuted toy Release Debug demo_garbling (demo_sender Release) (demo_receiver Debug) 2
    [[1; 2]; [3; 4]; [5; 6]; [7; 8]] [200; 3] [5; 6] [255; 255] 1 toy_hash32 demo_garbling_ok (demo_OT Release Debug));
    try (right; right; left; reflexivity); try reflexivity; try (repeat constructor); try lia.
Qed.
