(** C48, C49, C50: the fourth version of the one-of-many key exchange, many_fpake.rs:434-512. *)
From Coq Require Import List NArith Bool Lia Arith Permutation.
From Verif Require Import Base MUtil MWires MCircuit MGarble MPar MBincode MProc MOt MApricot MMany MFpake.
From Verif Require Import SpecUtil SpecWires SpecCircuit SpecGarble SpecBincode SpecOt SpecApricot SpecFpake SpecMany SpecMfpake.
From Verif Require Import PBase PUtil PWires PGarble PCircuit PHalf PProc POt PApricotRun PFpake CCircuit CGarble COt CApricot CMany CUtil CFpake.
Import ListNotations.
Open Scope N_scope.

(** ** Masks *)
Lemma lxor_move a b c : N.lxor (N.lxor a b) c = N.lxor a (N.lxor b c).
Proof. apply N.lxor_assoc. Qed.
Lemma distance_masked m : forall a b, length a = length m -> length b = length m ->
  distance m (xor (xor m a) b) = distance a b.
Proof.
  induction m as [|x m IH]; intros [|y a] [|z b] H H'; try discriminate; auto.
  unfold xor in *. cbn [zipWith distance]. rewrite IH by (cbn in *; lia). f_equal. f_equal.
  now rewrite <- !N.lxor_assoc, N.lxor_nilpotent, N.lxor_0_l.
Qed.
Lemma xor_zeros m : xor (repeat 0 (length m)) m = m.
Proof. unfold xor. induction m as [|x m IH]; cbn [length repeat zipWith]; auto. now rewrite IH, N.lxor_0_l. Qed.
Lemma xor_length a b : length a = length b -> length (xor a b) = length a.
Proof. intros H. unfold xor. rewrite zipWith_length. lia. Qed.
Lemma mask_passwords_ok p mask passwords l : length mask = l -> Forall (fun pw : bytes => length pw = l) passwords ->
  mask_passwords p mask passwords l = Ok (map (xor mask) passwords).
Proof.
  intros Hm Hp. unfold mask_passwords. apply mapM_Ok. intros pw Hin. rewrite Forall_forall in Hp. specialize (Hp pw Hin).
  rewrite xor_bytes_inplace_ok by (rewrite repeat_length; lia). cbn [obind]. rewrite <- Hm, xor_zeros.
  apply xor_bytes_inplace_ok. lia.
Qed.

Lemma log2_pow2 p w d : w < 2 ^ 32 -> d < w -> log2_ p w (2 ^ d) = Ok d.
Proof.
  intros Hw Hd. destruct (log2_correct p w (2 ^ d) Hw) as (k & E & H1 & H2).
  - pose proof (N.pow_nonzero 2 d). lia.
  - apply N.pow_lt_mono_r; lia.
  - rewrite E. f_equal. apply N.le_antisymm; [apply H2; lia|]. apply N.pow_le_mono_r_iff in H1; lia.
Qed.

(** *** C49 *)
(** C49: with the client's password at distance e of the password at its index, each half key of a
    side is the digest of the label for 1 where it garbled, and of the label for [e <= threshold]
    where it evaluated.  The labels are those of the two garblings, which do not depend on any
    password. *)
Theorem C49_half_keys : forall sha p p' g g' dom manyS manyR otS otR otS' otR' d l passwords mask index pw password t t',
  hash32 sha -> garbling_ok g -> garbling_ok g' ->
  many_correct dom manyS manyR -> ot_correct extension_ok otS otR -> ot_correct extension_ok otS' otR' ->
  dom d -> password_list d l passwords -> good_length l -> length mask = l ->
  nth_error passwords (N.to_nat index) = Some pw -> length password = l -> t <= 65534 -> t' <= 65534 ->
  let o := fpake_output l in let e := N.of_nat (distance pw password) in
  exists ek s l0 l1 ek' s' m0 m1,
    garble_run sha p (g_rd g) (g_ri g) (fpake_circuit l t) = Ok (ek, o, s) /\
    genuine (fpake_circuit l t) (g_rd g) (gs_wires s) o 0 l0 /\ genuine (fpake_circuit l t) (g_rd g) (gs_wires s) o 1 l1 /\
    garble_run sha p' (g_rd g') (g_ri g') (fpake_circuit l t') = Ok (ek', o, s') /\
    genuine (fpake_circuit l t') (g_rd g') (gs_wires s') o 0 m0 /\ genuine (fpake_circuit l t') (g_rd g') (gs_wires s') o 1 m1 /\
    wval l0 <> wval l1 /\ wval m0 <> wval m1 /\
    runs (mfpake_many sha p mask g manyS otS otR' passwords t)
         (mfpake_single sha p' g' manyR otS' otR password index (N.of_nat (2 ^ d)) t')
      (Ok (xor (sha (dec_string o 1 l1)) (sha (dec_string o 1 (if e <=? t' then m1 else m0)))))
      (Ok (xor (sha (dec_string o 1 (if e <=? t then l1 else l0))) (sha (dec_string o 1 m1)))).
Proof.
  intros sha p p' g g' dom manyS manyR otS otR otS' otR' d l passwords mask index pw password t t'
    Hs Hg Hg' Hm Hot Hot' Hd (Hd31 & Lp & Fp) Hgl Lm Hi Lpw Ht Ht' o e.
  assert (Lpwi : length pw = l) by (rewrite Forall_forall in Fp; apply Fp; eapply nth_error_In; eauto).
  assert (H1 : (1 <= l)%nat) by (destruct Hgl; lia).
  set (x := xor (xor mask pw) password).
  assert (Lx : length x = length mask) by (unfold x; rewrite !xor_length; rewrite ?xor_length; lia).
  assert (Ex : distance mask x = distance pw password) by (apply distance_masked; lia).
  rewrite <- Lm in Hgl.
  destruct (fpake_run sha Hs p p' g Hg otS otR Hot mask x t Lx Hgl Ht) as (ek & s & l0 & l1 & Er & G0 & G1 & Hne & R).
  assert (Hgl' : good_length (length x)) by now rewrite Lx.
  destruct (fpake_run sha Hs p' p g' Hg' otS' otR' Hot' x mask t' (eq_sym Lx) Hgl' Ht') as (ek' & s' & m0 & m1 & Er' & G0' & G1' & Hne' & R').
  rewrite Lx in *. rewrite (distance_comm x mask), Ex in R'. rewrite Ex in R. rewrite Lm in *.
  exists ek, s, l0, l1, ek', s', m0, m1.
  do 8 (split; [assumption|]). fold o in R, R'. fold e in R, R'.
  assert (Hpow : 2 ^ N.of_nat d = N.of_nat (2 ^ d)) by (now rewrite Nat2N.inj_pow).
  assert (Hlt32 : N.of_nat (2 ^ d) < 2 ^ 32) by (rewrite <- Hpow; apply N.pow_lt_mono_r; lia).
  assert (Hlog : forall q w, 32 <= w <= 64 -> log2_ q w (N.of_nat (2 ^ d)) = Ok (N.of_nat d)).
  { intros q w Hw. rewrite <- Hpow. apply log2_pow2; [apply N.le_lt_trans with 64; [lia|reflexivity]|lia]. }
  unfold mfpake_many, mfpake_single.
  destruct passwords as [|p0 rest] eqn:Epw. { destruct (N.to_nat index); discriminate. }
  assert (L0 : length p0 = l) by (inversion Fp; auto). rewrite <- Epw in *.
  eapply runs_lift_l. { rewrite Epw. reflexivity. }
  eapply runs_lift_l. { rewrite L0. apply mask_passwords_ok; auto. }
  eapply runs_lift_l. { rewrite Lp. apply Hlog. lia. }
  eapply runs_lift_r. { apply Hlog. lia. }
  rewrite Nat2N.id.
  eapply runs_bind.
  { apply (Hm d (map (xor mask) passwords) index (xor mask pw)); auto.
    - now rewrite map_length.
    - exists l. split; [exact H1|]. apply Forall_map. eapply Forall_impl; [|exact Fp]. intros y Hy. cbn beta. rewrite xor_length; congruence.
    - now apply map_nth_error. }
  eapply runs_lift_r. { apply xor_bytes_inplace_ok. rewrite xor_length; congruence. }
  eapply runs_bind; [exact R|].
  eapply runs_bind; [apply runs_flip; exact R'|].
  apply runs_ret.
Qed.
Print Assumptions C49_half_keys.

(** C49: so if exactly one threshold is exceeded the keys differ, unless the digest collides on the
    strings of that garbler's two output labels. *)
Theorem C49_keys_differ : forall sha p p' g g' dom manyS manyR otS otR otS' otR' d l passwords mask index pw password t t',
  hash32 sha -> garbling_ok g -> garbling_ok g' ->
  many_correct dom manyS manyR -> ot_correct extension_ok otS otR -> ot_correct extension_ok otS' otR' ->
  dom d -> password_list d l passwords -> good_length l -> length mask = l ->
  nth_error passwords (N.to_nat index) = Some pw -> length password = l -> t <= 65534 -> t' <= 65534 ->
  let o := fpake_output l in let e := N.of_nat (distance pw password) in
  exists key key',
    runs (mfpake_many sha p mask g manyS otS otR' passwords t)
         (mfpake_single sha p' g' manyR otS' otR password index (N.of_nat (2 ^ d)) t') (Ok key) (Ok key') /\
    (t < e <= t' -> exists ek s l0 l1,
       garble_run sha p (g_rd g) (g_ri g) (fpake_circuit l t) = Ok (ek, o, s) /\
       genuine (fpake_circuit l t) (g_rd g) (gs_wires s) o 0 l0 /\ genuine (fpake_circuit l t) (g_rd g) (gs_wires s) o 1 l1 /\
       (key <> key' \/ clash sha (dec_string o 1 l0) (dec_string o 1 l1))) /\
    (t' < e <= t -> exists ek s l0 l1,
       garble_run sha p' (g_rd g') (g_ri g') (fpake_circuit l t') = Ok (ek, o, s) /\
       genuine (fpake_circuit l t') (g_rd g') (gs_wires s) o 0 l0 /\ genuine (fpake_circuit l t') (g_rd g') (gs_wires s) o 1 l1 /\
       (key <> key' \/ clash sha (dec_string o 1 l0) (dec_string o 1 l1))).
Proof.
  intros sha p p' g g' dom manyS manyR otS otR otS' otR' d l passwords mask index pw password t t'
    Hs Hg Hg' Hm Hot Hot' Hd Hpl Hgl Lm Hi Lpw Ht Ht' o e.
  destruct (C49_half_keys sha p p' g g' dom manyS manyR otS otR otS' otR' d l passwords mask index pw password t t')
    as (ek & s & l0 & l1 & ek' & s' & m0 & m1 & Er & G0 & G1 & Er' & G0' & G1' & Hne & Hne' & R); auto.
  fold o e in R, Er, G0, G1, Er', G0', G1'.
  assert (Hl : forall y, length (sha y) = 32%nat) by (intros y; apply Hs).
  assert (Hcl : forall a b : wire, wval a <> wval b -> sha (dec_string o 1 a) = sha (dec_string o 1 b) -> clash sha (dec_string o 1 a) (dec_string o 1 b)).
  { intros a b Hab E. split; [|exact E]. intros Q. apply Hab. exact (dec_string_inj _ _ _ _ Q). }
  do 2 eexists. split; [exact R|]. split; intros [H1 H2].
  - rewrite (proj2 (N.leb_gt _ _) H1), (proj2 (N.leb_le _ _) H2). exists ek, s, l0, l1. do 3 (split; [assumption|]).
    destruct (list_eq_dec N.eq_dec (sha (dec_string o 1 l0)) (sha (dec_string o 1 l1))) as [E|E]; [right; auto|left].
    intros Q. apply E. symmetry. fold (combine_keys (sha (dec_string o 1 l1)) (sha (dec_string o 1 m1))) in Q.
    fold (combine_keys (sha (dec_string o 1 l0)) (sha (dec_string o 1 m1))) in Q.
    rewrite (C46_combine_commutes (sha (dec_string o 1 l1))), (C46_combine_commutes (sha (dec_string o 1 l0))) in Q.
    eapply C46_combine_injective; [| |exact Q]; now rewrite !Hl.
  - rewrite (proj2 (N.leb_gt _ _) H1), (proj2 (N.leb_le _ _) H2). exists ek', s', m0, m1. do 3 (split; [assumption|]).
    destruct (list_eq_dec N.eq_dec (sha (dec_string o 1 m0)) (sha (dec_string o 1 m1))) as [E|E]; [right; auto|left].
    intros Q. apply E. eapply C46_combine_injective; [| |exact Q]; now rewrite !Hl.
Qed.
Print Assumptions C49_keys_differ.

(** *** C48 *)
Theorem C48_keys_agree : forall sha p p' g g' dom manyS manyR otS otR otS' otR' d l passwords mask index pw password t t',
  hash32 sha -> garbling_ok g -> garbling_ok g' ->
  many_correct dom manyS manyR -> ot_correct extension_ok otS otR -> ot_correct extension_ok otS' otR' ->
  dom d -> password_list d l passwords -> good_length l -> length mask = l ->
  nth_error passwords (N.to_nat index) = Some pw -> length password = l -> t <= 65534 -> t' <= 65534 ->
  N.of_nat (distance pw password) <= t -> N.of_nat (distance pw password) <= t' ->
  exists key, length key = 32%nat /\
    runs (mfpake_many sha p mask g manyS otS otR' passwords t)
         (mfpake_single sha p' g' manyR otS' otR password index (N.of_nat (2 ^ d)) t') (Ok key) (Ok key).
Proof.
  intros sha p p' g g' dom manyS manyR otS otR otS' otR' d l passwords mask index pw password t t'
    Hs Hg Hg' Hm Hot Hot' Hd Hpl Hgl Lm Hi Lpw Ht Ht' H1 H2.
  destruct (C49_half_keys sha p p' g g' dom manyS manyR otS otR otS' otR' d l passwords mask index pw password t t')
    as (ek & s & l0 & l1 & ek' & s' & m0 & m1 & _ & _ & _ & _ & _ & _ & _ & _ & R); auto.
  rewrite (proj2 (N.leb_le _ _) H1), (proj2 (N.leb_le _ _) H2) in R. eexists. split; [|exact R].
  rewrite xor_length; [apply Hs|]. now rewrite !(proj1 (Hs _)).
Qed.
Print Assumptions C48_keys_agree.

(** C48 with everything the crate uses: the OTs of ot/apricot.rs and ot/one_of_many.rs over
    ot/chou_orlandi.rs.  [keys] are the key pairs drawn by the 1-out-of-n OT. *)
Theorem C48_keys_agree_over_crate_OT : forall sha fill gen G p p' g g' a a' cores cores' r r' rs rr rs' rr' rm rm' keys
    d l passwords mask index pw password t t',
  hash32 sha -> generator fill -> generator gen -> curve_ok G -> (1 <= cores)%nat -> (1 <= cores')%nat -> coins_ok r -> coins_ok r' ->
  garbling_ok g -> garbling_ok g' -> key_pairs keys -> length keys = d -> fits cores d ->
  password_list d l passwords -> good_length l -> length mask = l ->
  nth_error passwords (N.to_nat index) = Some pw -> length password = l -> t <= 65534 -> t' <= 65534 ->
  N.of_nat (distance pw password) <= t -> N.of_nat (distance pw password) <= t' ->
  exists key, length key = 32%nat /\
    runs (mfpake_many sha p mask g (fun d ms => many_sender sha fill p cores keys (co_sender sha gen G p rm) ms d)
            (sender_with sha fill p a cores r (co_receiver sha gen G p rs))
            (receiver_with sha fill p a cores r' (co_sender sha gen G p rr)) passwords t)
         (mfpake_single sha p' g' (fun d i => many_receiver sha fill p' (co_receiver sha gen G p' rm') i d)
            (sender_with sha fill p' a' cores' r' (co_receiver sha gen G p' rr'))
            (receiver_with sha fill p' a' cores' r (co_sender sha gen G p' rs')) password index (N.of_nat (2 ^ d)) t')
      (Ok key) (Ok key).
Proof.
  intros sha fill gen G p p' g g' a a' cores cores' r r' rs rr rs' rr' rm rm' keys
    d l passwords mask index pw password t t' Hs Hf Hge HG Hc Hc' Hr Hr' Hg Hg' Hk Lk Hfit Hpl Hgl Lm Hi Lpw Ht Ht' H1 H2.
  eapply (C48_keys_agree sha p p' g g' (fun x => x = d)); eauto.
  - intros d' ms i m -> Lms Hsl Hn.
    destruct (C42_one_of_many_over_base_OT sha fill gen G p p' cores keys rm rm' ms d i) as (m' & Em & R); auto.
    + assert (Hlt : (N.to_nat i < length ms)%nat) by (apply nth_error_Some; congruence). rewrite Lms in Hlt. lia.
    + rewrite Hn in Em. inversion Em; subst. exact R.
  - now apply C35_extension_over_base_OT.
  - now apply C35_extension_over_base_OT.
Qed.
Print Assumptions C48_keys_agree_over_crate_OT.

Example mfpake_example :
  let many p := (fun d ms => many_sender toy toy_gen p 4 (toy_keys 2) (co_sender toy toy_gen toy_curve p (fun _ => 1)) ms d) in
  let one p := (fun d i => many_receiver toy toy_gen p (co_receiver toy toy_gen toy_curve p (fun _ => 1)) i d) in
  exists key, length key = 32%nat /\
    runs (mfpake_many toy Debug [200; 3] demo_garbling (many Debug) (demo_sender Debug) 
            (receiver_with toy toy_gen Debug X86 4 toy_coins (co_sender toy toy_gen toy_curve Debug (fun _ => 1))) [[1; 2]; [3; 4]; [5; 6]; [7; 8]] 1)
         (mfpake_single toy Release demo_garbling (one Release)
            (sender_with toy toy_gen Release ARM64 2 toy_coins (co_receiver toy toy_gen toy_curve Release (fun _ => 1)))
            (demo_receiver Release) [5; 7] 2 4 1) (Ok key) (Ok key).
Proof.
  intros many one. subst many one.
  apply (C48_keys_agree_over_crate_OT toy toy_gen toy_gen toy_curve Debug Release demo_garbling demo_garbling X86 ARM64 4 2 toy_coins toy_coins
    (fun _ => 1) (fun _ => 1) (fun _ => 1) (fun _ => 1) (fun _ => 1) (fun _ => 1) (toy_keys 2) 2 2 [[1; 2]; [3; 4]; [5; 6]; [7; 8]] [200; 3] 2 [5; 6] [5; 7] 1 1);
    [exact toy_hash32|exact toy_gen_ok|exact toy_gen_ok|exact toy_curve_ok|lia|lia|exact toy_coins_ok|exact toy_coins_ok
    |exact demo_garbling_ok|exact demo_garbling_ok|apply toy_keys_ok; lia|reflexivity|left; lia| |unfold good_length; lia|reflexivity|reflexivity|reflexivity
    |discriminate|discriminate|vm_compute; discriminate|vm_compute; discriminate].
  split; [lia|]. split; [reflexivity|]. repeat constructor.
Qed.

(** *** C50 *)
(** C50: for any two lists of l-byte passwords and any index there is a bijection of the l-byte masks
    under which the entry the client receives is the same. *)
Theorem C50_mask_hides_password : forall p l passwords passwords' i pw pw',
  Forall (fun x : bytes => length x = l /\ bytes_ok x) passwords -> Forall (fun x : bytes => length x = l /\ bytes_ok x) passwords' ->
  nth_error passwords i = Some pw -> nth_error passwords' i = Some pw' ->
  exists f : bytes -> bytes,
    (forall m, length m = l -> bytes_ok m -> length (f m) = l /\ bytes_ok (f m) /\ f (f m) = m) /\
    (forall m, length m = l -> bytes_ok m -> exists ms ms' x,
       mask_passwords p m passwords l = Ok ms /\ mask_passwords p (f m) passwords' l = Ok ms' /\
       nth_error ms i = Some x /\ nth_error ms' i = Some x).
Proof.
  intros p l passwords passwords' i pw pw' F F' E E'.
  assert (A : length pw = l /\ bytes_ok pw) by (rewrite Forall_forall in F; apply F; eapply nth_error_In; eauto).
  assert (A' : length pw' = l /\ bytes_ok pw') by (rewrite Forall_forall in F'; apply F'; eapply nth_error_In; eauto).
  destruct A as [La Ba]. destruct A' as [La' Ba'].
  assert (Fl : Forall (fun x : bytes => length x = l) passwords) by (eapply Forall_impl; [|exact F]; intros ? []; assumption).
  assert (Fl' : Forall (fun x : bytes => length x = l) passwords') by (eapply Forall_impl; [|exact F']; intros ? []; assumption).
  set (f := fun m => xor (xor m pw) pw'). exists f.
  assert (Lf : forall m, length m = l -> length (f m) = l). { intros m Hm. unfold f. rewrite !xor_length; rewrite ?xor_length; congruence. }
  assert (Bx : forall a b, bytes_ok a -> bytes_ok b -> bytes_ok (xor a b)). { intros a b Ha Hb. now apply xor_bytes_okay. }
  split.
  - intros m Hm Bm. split; [now apply Lf|]. split; [unfold f; auto|].
    unfold f. clear -Hm La La'. revert pw pw' l Hm La La'. induction m as [|x m IH]; intros [|y a] [|z b] l Hm La La'; cbn in *; try congruence; auto.
    unfold xor in *. cbn [zipWith]. f_equal.
    + apply N.bits_inj. intros k. rewrite !N.lxor_spec. destruct (N.testbit x k), (N.testbit y k), (N.testbit z k); reflexivity.
    + eapply (IH a b (length m)); lia.
  - intros m Hm Bm. exists (map (xor m) passwords), (map (xor (f m)) passwords'), (xor m pw).
    split; [now apply mask_passwords_ok|]. split; [apply mask_passwords_ok; auto|]. split; [now apply map_nth_error|].
    rewrite (map_nth_error _ _ _ E'). f_equal. unfold f. apply C04_mask_twice. rewrite xor_length; congruence.
Qed.
Print Assumptions C50_mask_hides_password.

(** C50 for the program: up to and including the 1-of-n OT the client's view with one list of passwords and
    uniform masks is its view with the other list. *)
Theorem C50_client_view : forall sha p g otS otR l passwords passwords' t i pw pw',
  Forall (fun x : bytes => length x = l /\ bytes_ok x) passwords -> Forall (fun x : bytes => length x = l /\ bytes_ok x) passwords' ->
  length passwords = length passwords' -> nth_error passwords i = Some pw -> nth_error passwords' i = Some pw' ->
  exists f : bytes -> bytes,
    (forall m, length m = l -> bytes_ok m -> length (f m) = l /\ bytes_ok (f m) /\ f (f m) = m) /\
    (forall m ins, length m = l -> bytes_ok m ->
       feed (mfpake_many sha p m g (reveal i) otS otR passwords t) ins =
       feed (mfpake_many sha p (f m) g (reveal i) otS otR passwords' t) ins).
Proof.
  intros sha p g otS otR l passwords passwords' t i pw pw' F F' EL E E'.
  destruct (C50_mask_hides_password p l passwords passwords' i pw pw' F F' E E') as (f & Hf & Hv).
  exists f. split; [exact Hf|]. intros m ins Hm Bm. destruct (Hv m Hm Bm) as (ms & ms' & x & E1 & E2 & E3 & E4).
  assert (H0 : forall ps : list bytes, Forall (fun x : bytes => length x = l /\ bytes_ok x) ps -> nth_error ps i <> None ->
    exists p0, idx ps 0 = Ok p0 /\ length p0 = l).
  { intros [|p0 ps] Hps Hn; [destruct i; cbn in Hn; congruence|]. exists p0. split; [reflexivity|]. inversion Hps as [|? ? [? ?] ?]; auto. }
  destruct (H0 passwords F ltac:(congruence)) as (p0 & I0 & L0). destruct (H0 passwords' F' ltac:(congruence)) as (p0' & I0' & L0').
  unfold mfpake_many. rewrite I0, I0'. cbn [lift pbind]. rewrite L0, L0', E1, E2. cbn [lift pbind]. rewrite EL.
  destruct (log2_ p 64 (N.of_nat (length passwords'))) as [d| | |]; cbn [lift pbind]; try reflexivity.
  assert (R : reveal i (N.to_nat d) ms = reveal i (N.to_nat d) ms').
  { assert (R : nth i ms [] = nth i ms' []) by exact (eq_trans (nth_error_nth _ _ ([] : bytes) E3) (eq_sym (nth_error_nth _ _ ([] : bytes) E4))).
    exact (f_equal (fun y => let! _ := send (be_bytes 8 (N.of_nat (N.to_nat d))) in let! _ := send y in Done (Err EClosed)) R). }
  rewrite R. reflexivity.
Qed.
Print Assumptions C50_client_view.
Example client_view_example :
  feed (mfpake_many toy Debug [200; 3] demo_garbling (reveal 1) (demo_sender Debug) (demo_receiver Debug) [[1; 2]; [3; 4]] 1) [] =
  (Err EClosed, [[0;0;0;0;0;0;0;1]; [203; 7]]) /\
  feed (mfpake_many toy Debug (xor (xor [200; 3] [3; 4]) [9; 9]) demo_garbling (reveal 1) (demo_sender Debug) (demo_receiver Debug) [[77; 77]; [9; 9]] 1) [] =
  (Err EClosed, [[0;0;0;0;0;0;0;1]; [203; 7]]).
Proof. split; vm_compute; reflexivity. Qed.

Example mask_example : mask_passwords Debug [200; 3] [[1; 2]; [3; 4]] 2 = Ok [[201; 1]; [203; 7]] /\
  mask_passwords Debug (xor (xor [200; 3] [3; 4]) [9; 9]) [[77; 77]; [9; 9]] 2 = Ok [[143; 67]; [203; 7]].
Proof. split; reflexivity. Qed.
