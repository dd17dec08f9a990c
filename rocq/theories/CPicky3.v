(** C123: failures that tell the passwords of a one-of-many exchange. *)
From Coq Require Import List NArith Bool Arith Lia.
From Verif Require Import Base MUtil MWires MCircuit MGarble MBincode MProc MOt MApricot MMany MFpake.
From Verif Require Import SpecUtil SpecWires SpecCircuit SpecGarble SpecBincode SpecOt SpecApricot SpecFpake SpecMany SpecMfpake SpecPicky SpecPicky3.
From Verif Require Import PBase PProc PFpake PUtil PApricotA PHostile PPicky PFpake3 PPicky3 CUtil CCircuit CGarble COt CApricot CMany CFpake CMfpake CFpake3.
Import ListNotations.
Open Scope N_scope.

Lemma runs_stop_after {A B C D} (p : proc A) (q : proc B) (f : A -> C) (h : B -> proc D) a r :
  runs p q (Ok a) (Panic r) -> runs (pbind p (fun x => ret (f x))) (pbind q h) (Ok (f a)) (Panic r).
Proof. intros H. exact (reach_map (fun x => ret (f x)) h _ _ H). Qed.

(** C123 is false for the server of the third version: a client picks an index and a position, knows no password, and
    makes the server panic or end with a key.  With the masked password it was sent, this tells it the bit at this
    position of the password at this index. *)
Theorem C123_server_v3_refuted : forall sha p p' g dom manyS manyR ot1S ot1R ot2S ot2R ot3S ot3R d l passwords mask index pw guess t i,
  hash32 sha -> garbling_ok g -> many_correct dom manyS manyR ->
  ot_correct extension_ok ot1S ot1R -> ot_correct extension_ok ot2S ot2R -> ot_correct extension_ok ot3S ot3R ->
  dom d -> password_list d l passwords -> good_length l -> length mask = l ->
  nth_error passwords (N.to_nat index) = Some pw -> length guess = l -> t <= 65534 -> (i < l * 8)%nat ->
  exists key masked, length masked = l /\
    runs (server_v3 sha p mask g ot1S manyS ot2S ot3R passwords t)
         (picky_client_v3 sha p' ot1R manyR ot2R ot3S guess d index i)
      (if xorb (bit_of masked i) (bit_of pw i) then Panic PIndex else Ok key) (Ok masked).
Proof.
  intros sha p p' g dom manyS manyR ot1S ot1R ot2S ot2R ot3S ot3R d l passwords mask index pw guess t i
    Hs Hg Hm H1 H2 H3 Hd Hpl Hgl Lm Hx Lg Ht Hi.
  assert (Lpw : length pw = l) by (destruct Hpl as (_ & _ & Fp); rewrite Forall_forall in Fp; apply Fp; eapply nth_error_In; eauto).
  pose proof (list_first _ _ _ Hpl) as Hp0.
  assert (Hl1 : (1 <= l <= 4095)%nat) by (unfold good_length in Hgl; lia).
  destruct (v3_server_garbles sha Hs p p' g Hg l Hgl passwords mask pw guess t Hp0 Lm Lpw Lg Ht ot1S ot1R ot2S ot2R dom manyS manyR d index
    H1 H2 Hm Hd Hpl Hx) as (l0 & l1 & _ & R).
  destruct Hp0 as (p0 & E0 & L0).
  pose proof (picky_client_runs sha Hs p mask ltac:(lia) i ltac:(lia) ot3S ot3R passwords p0 H3 E0 ltac:(congruence)) as R2.
  assert (Eb : bit_of mask i = xorb (bit_of (xor mask pw) i) (bit_of pw i)).
  { unfold xor. rewrite bit_of_zip by congruence. now rewrite xorb_assoc, xorb_nilpotent, xorb_false_r. }
  rewrite Eb in R2. eexists. exists (xor mask pw). split; [rewrite xor_length; congruence|].
  unfold server_v3, picky_client_v3. eapply runs_bind; [exact R|]. cbv beta iota.
  replace (length guess * 8)%nat with (length mask * 8)%nat by congruence.
  apply runs_flip. destruct (xorb (bit_of (xor mask pw) i) (bit_of pw i)).
  - exact (runs_stop_after _ _ (fun _ => xor mask pw) _ tt PIndex R2).
  - eapply runs_bind; [exact R2|]. apply runs_ret.
Qed.
Print Assumptions C123_server_v3_refuted.

(** The same for the server [mfpake_many] (many_fpake.rs:470-512). *)
Theorem C123_one_of_many_server_refuted : forall sha p p' g dom manyS manyR otS otR otS' otR' d l passwords mask index pw guess t i,
  hash32 sha -> garbling_ok g -> many_correct dom manyS manyR ->
  ot_correct extension_ok otS otR -> ot_correct extension_ok otS' otR' ->
  dom d -> password_list d l passwords -> good_length l -> length mask = l ->
  nth_error passwords (N.to_nat index) = Some pw -> length guess = l -> t <= 65534 -> (i < l * 8)%nat ->
  exists key masked, length masked = l /\
    runs (mfpake_many sha p mask g manyS otS otR' passwords t)
         (picky_single sha p' manyR otR otS' guess d index i)
      (if xorb (bit_of masked i) (bit_of pw i) then Panic PIndex else Ok key) (Ok masked).
Proof.
  intros sha p p' g dom manyS manyR otS otR otS' otR' d l passwords mask index pw guess t i
    Hs Hg Hm Hot Hot' Hd Hpl Hgl Lm Hx Lg Ht Hi.
  assert (Lpw : length pw = l) by (destruct Hpl as (_ & _ & Fp); rewrite Forall_forall in Fp; apply Fp; eapply nth_error_In; eauto).
  destruct (list_first _ _ _ Hpl) as (p0 & E0 & L0). destruct Hpl as (Hd31 & Lp & Fp).
  assert (Hl1 : (1 <= l)%nat) by (destruct Hgl; lia).
  assert (Hu : usize_ok (length mask * 8 + 1)).
  { destruct (good_supported _ Hgl) as (_ & Hn & _). apply usize_small. apply N.le_lt_trans with 65535; [lia|reflexivity]. }
  assert (Hpow : 2 ^ N.of_nat d = N.of_nat (2 ^ d)) by (now rewrite Nat2N.inj_pow).
  destruct (fpake_run sha Hs p p' g Hg _ _ Hot mask guess t) as (_ & _ & l0 & l1 & _ & _ & _ & _ & R); [congruence|now rewrite Lm|exact Ht|].
  pose proof (picky_run sha p _ _ mask i Hs Hot' ltac:(lia) Hu) as R2.
  assert (Eb : bit_of mask i = xorb (bit_of (xor mask pw) i) (bit_of pw i)).
  { unfold xor. rewrite bit_of_zip by congruence. now rewrite xorb_assoc, xorb_nilpotent, xorb_false_r. }
  rewrite Eb in R2. eexists. exists (xor mask pw). split; [rewrite xor_length; congruence|].
  unfold mfpake_many, picky_single.
  destruct passwords as [|q rest]; [discriminate|]. cbn [nth_error] in E0. injection E0 as ->. eapply runs_lift_l; [reflexivity|]. cbv beta. rewrite L0.
  eapply runs_lift_l. { apply mask_passwords_ok; [exact Lm|exact Fp]. }
  eapply runs_lift_l. { rewrite Lp, <- Hpow. apply log2_pow2; [reflexivity|lia]. }
  rewrite Nat2N.id. eapply runs_bind.
  { apply (Hm d (map (xor mask) (p0 :: rest)) index (xor mask pw)); auto.
    - now rewrite map_length.
    - exists l. split; [exact Hl1|]. apply Forall_map. eapply Forall_impl; [|exact Fp]. intros y Hy. cbn beta. rewrite xor_length; congruence.
    - now apply map_nth_error. }
  eapply runs_bind; [exact R|]. cbv beta.
  replace (length guess * 8)%nat with (length mask * 8)%nat by congruence.
  apply runs_flip. destruct (xorb (bit_of (xor mask pw) i) (bit_of pw i)).
  - exact (runs_stop_after _ _ (fun _ => xor mask pw) _ tt PIndex R2).
  - eapply runs_bind; [exact R2|]. apply runs_ret.
Qed.
Print Assumptions C123_one_of_many_server_refuted.

(** As many sessions as a password has bits tell the whole password at an index, although the server draws a new mask
    (and new labels, and both sides other randomness for the transfers) for each: what the client decodes depends on the
    masked passwords and on which sessions failed only. *)
Lemma decoded (l : nat) pw seen : length pw = l -> bytes_ok pw -> length seen = (l * 8)%nat ->
  (forall i, (i < l * 8)%nat -> told_bit seen i = bit_of pw i) ->
  map bits_value (chunks8 l (map (told_bit seen) (seq 0 (l * 8)))) = pw.
Proof.
  intros <- Hb Ls H. transitivity (map bits_value (chunks8 (length pw) (u8_vec_to_bool_vec pw))); [|exact (repack pw Hb)]. do 2 f_equal. destruct (C02_unpack_bits pw) as [L Nt].
  apply (nth_ext _ _ false false); [rewrite map_length, seq_length; lia|]. intros i Hi. rewrite map_length, seq_length in Hi.
  rewrite Nt by lia. rewrite (nth_indep _ false (told_bit seen 0)) by (rewrite map_length, seq_length; exact Hi). rewrite map_nth, seq_nth by exact Hi. now apply H.
Qed.
Lemma collect (l : nat) (P : nat -> bytes -> Prop) : (forall i, (i < l)%nat -> exists m, P i m) -> exists ms, length ms = l /\ forall i, (i < l)%nat -> P i (nth i ms []).
Proof.
  induction l as [|l IH]; intros H; [exists []; split; [reflexivity|lia]|].
  destruct IH as (ms & L & F); [intros i Hi; apply H; lia|]. destruct (H l ltac:(lia)) as (m & Hm). exists (ms ++ [m]). split; [rewrite app_length; cbn; lia|].
  intros i Hi. destruct (Nat.eq_dec i l) as [->|Hne].
  - rewrite app_nth2, L, Nat.sub_diag by lia. exact Hm.
  - rewrite app_nth1 by lia. apply F. lia.
Qed.
Lemma gathered (l : nat) pw (S : nat -> bytes -> outcome bytes -> Prop) : length pw = l -> bytes_ok pw ->
  (forall i, (i < l * 8)%nat -> exists key masked, S i masked (if xorb (bit_of masked i) (bit_of pw i) then Panic PIndex else Ok key)) ->
  exists seen, length seen = (l * 8)%nat /\ map bits_value (chunks8 l (map (told_bit seen) (seq 0 (l * 8)))) = pw /\
    forall i, (i < l * 8)%nat -> exists masked (failed : bool) key, nth_error seen i = Some (masked, failed) /\ S i masked (if failed then Panic PIndex else Ok key).
Proof.
  intros Lp Hb H.
  destruct (collect (l * 8) (fun i m => exists key, S i m (if xorb (bit_of m i) (bit_of pw i) then Panic PIndex else Ok key))) as (ms & L & F).
  { intros i Hi. destruct (H i Hi) as (key & masked & Q). exists masked, key. exact Q. }
  set (f := fun i => (nth i ms [], xorb (bit_of (nth i ms []) i) (bit_of pw i))).
  assert (E : forall i, (i < l * 8)%nat -> nth_error (map f (seq 0 (l * 8))) i = Some (f i)).
  { intros i Hi. apply map_nth_error. rewrite (nth_error_nth_lt _ i 0%nat) by (rewrite seq_length; exact Hi). now rewrite seq_nth. }
  exists (map f (seq 0 (l * 8))). split; [now rewrite map_length, seq_length|]. split.
  - apply decoded; auto; [now rewrite map_length, seq_length|]. intros i Hi. unfold told_bit. rewrite E by exact Hi. unfold f.
    now rewrite <- xorb_assoc, xorb_nilpotent, xorb_false_l.
  - intros i Hi. destruct (F i Hi) as (key & Q). exists (nth i ms []), (xorb (bit_of (nth i ms []) i) (bit_of pw i)), key. split; [exact (E i Hi)|exact Q].
Qed.
Theorem C123_sessions_tell_a_password_refuted : forall sha p p' g dom manyS manyR ot1S ot1R ot2S ot2R ot3S ot3R d l passwords (masks : nat -> bytes) index pw guess t,
  hash32 sha -> (forall i, garbling_ok (g i)) -> (forall i : nat, many_correct dom (manyS i) (manyR i)) ->
  (forall i : nat, ot_correct extension_ok (ot1S i) (ot1R i)) -> (forall i : nat, ot_correct extension_ok (ot2S i) (ot2R i)) ->
  (forall i : nat, ot_correct extension_ok (ot3S i) (ot3R i)) ->
  dom d -> password_list d l passwords -> good_length l -> (forall i, length (masks i) = l) ->
  nth_error passwords (N.to_nat index) = Some pw -> bytes_ok pw -> length guess = l -> t <= 65534 ->
  let decode seen := map bits_value (chunks8 l (map (told_bit seen) (seq 0 (l * 8)))) in
  (exists seen, length seen = (l * 8)%nat /\ decode seen = pw /\
     forall i, (i < l * 8)%nat -> exists masked (failed : bool) key, nth_error seen i = Some (masked, failed) /\
       runs (server_v3 sha p (masks i) (g i) (ot1S i) (manyS i) (ot2S i) (ot3R i) passwords t)
            (picky_client_v3 sha p' (ot1R i) (manyR i) (ot2R i) (ot3S i) guess d index i)
         (if failed then Panic PIndex else Ok key) (Ok masked)) /\
  (exists seen, length seen = (l * 8)%nat /\ decode seen = pw /\
     forall i, (i < l * 8)%nat -> exists masked (failed : bool) key, nth_error seen i = Some (masked, failed) /\
       runs (mfpake_many sha p (masks i) (g i) (manyS i) (ot1S i) (ot3R i) passwords t)
            (picky_single sha p' (manyR i) (ot1R i) (ot3S i) guess d index i)
         (if failed then Panic PIndex else Ok key) (Ok masked)).
Proof.
  intros sha p p' g dom manyS manyR ot1S ot1R ot2S ot2R ot3S ot3R d l passwords masks index pw guess t
    Hs Hg Hm H1 H2 H3 Hd Hpl Hgl Lm Hx Hb Lg Ht decode.
  assert (Lpw : length pw = l) by (destruct Hpl as (_ & _ & Fp); rewrite Forall_forall in Fp; apply Fp; eapply nth_error_In; eauto).
  split.
  - apply (gathered l pw (fun i masked o => runs (server_v3 sha p (masks i) (g i) (ot1S i) (manyS i) (ot2S i) (ot3R i) passwords t)
      (picky_client_v3 sha p' (ot1R i) (manyR i) (ot2R i) (ot3S i) guess d index i) o (Ok masked))); auto.
    intros i Hi. destruct (C123_server_v3_refuted sha p p' (g i) dom (manyS i) (manyR i) (ot1S i) (ot1R i) (ot2S i) (ot2R i) (ot3S i) (ot3R i)
      d l passwords (masks i) index pw guess t i) as (key & masked & _ & R); auto. exists key, masked. exact R.
  - apply (gathered l pw (fun i masked o => runs (mfpake_many sha p (masks i) (g i) (manyS i) (ot1S i) (ot3R i) passwords t)
      (picky_single sha p' (manyR i) (ot1R i) (ot3S i) guess d index i) o (Ok masked))); auto.
    intros i Hi. destruct (C123_one_of_many_server_refuted sha p p' (g i) dom (manyS i) (manyR i) (ot1S i) (ot1R i) (ot3S i) (ot3R i)
      d l passwords (masks i) index pw guess t i) as (key & masked & _ & R); auto. exists key, masked. exact R.
Qed.
Print Assumptions C123_sessions_tell_a_password_refuted.

(** And the client of the third version panics or goes on to its second half and ends with a key, by a bit of its
    password that the server picks. *)
Theorem C123_client_v3_refuted : forall sha p p' g dom manyS manyR ot1S ot1R ot2S ot2R ot3S ot3R d index password t i,
  hash32 sha -> garbling_ok g -> many_correct dom manyS manyR ->
  ot_correct extension_ok ot1S ot1R -> ot_correct extension_ok ot2S ot2R -> ot_correct extension_ok ot3S ot3R ->
  dom d -> (d <= 31)%nat -> index < 2 ^ N.of_nat d -> good_length (length password) -> t <= 65534 -> (i < length password * 8)%nat ->
  let l := length password in
  let first := picky_garbler_server ot1S manyS ot2S (l * 8) i d in
  let second := evaluator_server_v3 sha p' ot3R [repeat 0 l] (repeat 0 l) in
  let client := client_v3 sha p g ot1R manyR ot2R ot3S password (N.of_nat (2 ^ d)) index t in
  if bit_of password i then runs first client (Ok tt) (Panic PIndex)
  else exists k key, runs (let! _ := first in second) client (Ok k) (Ok key).
Proof.
  intros sha p p' g dom manyS manyR ot1S ot1R ot2S ot2R ot3S ot3R d index password t i
    Hs Hg Hm H1 H2 H3 Hd Hd31 Hx Hgl Ht Hi l first second client.
  assert (Hl1 : (1 <= l <= 4095)%nat) by (unfold good_length in Hgl; fold l in Hgl; lia).
  pose proof (picky_server_runs sha Hs p password Hl1 i Hi ot1S ot1R ot2S ot2R dom manyS manyR d index H1 H2 Hm Hd Hd31 Hx) as R.
  fold l in R. fold first in R. unfold client, client_v3. destruct (bit_of password i).
  - apply runs_stop_r. exact R.
  - set (z := repeat 0 l). assert (Lz : length z = l) by apply repeat_length.
    assert (Ez : xor z z = z) by (unfold z at 1; rewrite <- Lz at 1; apply xor_zeros).
    assert (Hp0 : exists p0, nth_error [z] 0 = Some p0 /\ length p0 = l) by (exists z; auto).
    destruct (v3_client_garbles sha Hs p p' g Hg l Hgl [z] z z password t Hp0 Lz Lz eq_refl Ht ot3S ot3R H3) as (l0 & l1 & _ & R2).
    rewrite Ez in R2. eexists. eexists. eapply runs_bind; [exact R|]. cbv beta iota. fold z.
    apply (runs_peq_l (pbind second ret)); [apply pbind_ret|].
    eapply runs_bind; [apply runs_flip; exact R2|]. apply runs_ret.
Qed.
Print Assumptions C123_client_v3_refuted.

(** ** Examples *)
(** Four passwords of two bytes; the client guesses zeros.  Bit 1 of the password [5; 6] at index 2 is 0 and bit 2 is 1;
    whether the session fails depends on the mask, whose bits 1 and 2 are 0. *)
Example picky_v3_example : forall i, (i < 16)%nat -> exists key masked, length masked = 2%nat /\
  runs (server_v3 toy Debug [200; 3] demo_garbling (demo_sender Debug) (demo_many Debug) (demo_sender Debug) (demo_receiver Debug)
          [[1; 2]; [3; 4]; [5; 6]; [7; 8]] 1)
       (picky_client_v3 toy Release (demo_receiver Release) (demo_one Release) (demo_receiver Release) (demo_sender Release) [0; 0] 2 2 i)
    (if xorb (bit_of masked i) (bit_of [5; 6] i) then Panic PIndex else Ok key) (Ok masked).
Proof.
  intros i Hi.
  apply (C123_server_v3_refuted toy Debug Release demo_garbling (fun d => d = 2%nat) (demo_many Debug) (demo_one Release)
    (demo_sender Debug) (demo_receiver Release) (demo_sender Debug) (demo_receiver Release) (demo_sender Release) (demo_receiver Debug)
    2 2 [[1; 2]; [3; 4]; [5; 6]; [7; 8]] [200; 3] 2 [5; 6] [0; 0] 1 i);
    [exact toy_hash32|exact demo_garbling_ok|apply demo_many_ok|apply demo_OT|apply demo_OT|apply demo_OT|reflexivity|
    |unfold good_length; lia|reflexivity|reflexivity|reflexivity|discriminate|lia].
  split; [lia|]. split; [reflexivity|]. repeat constructor.
Qed.
Example picky_sessions_example :
  let decode seen := map bits_value (chunks8 2 (map (told_bit seen) (seq 0 16))) in
  exists seen, length seen = 16%nat /\ decode seen = [5; 6] /\
    forall i, (i < 16)%nat -> exists masked (failed : bool) key, nth_error seen i = Some (masked, failed) /\
      runs (mfpake_many toy Debug [N.of_nat i; 3] demo_garbling (demo_many Debug) (demo_sender Debug) (demo_receiver Debug) [[1; 2]; [3; 4]; [5; 6]; [7; 8]] 1)
           (picky_single toy Release (demo_one Release) (demo_receiver Release) (demo_sender Release) [0; 0] 2 2 i)
        (if failed then Panic PIndex else Ok key) (Ok masked).
Proof.
  apply (C123_sessions_tell_a_password_refuted toy Debug Release (fun _ => demo_garbling) (fun d => d = 2%nat) (fun _ => demo_many Debug) (fun _ => demo_one Release)
    (fun _ => demo_sender Debug) (fun _ => demo_receiver Release) (fun _ => demo_sender Debug) (fun _ => demo_receiver Release)
    (fun _ => demo_sender Release) (fun _ => demo_receiver Debug) 2 2 [[1; 2]; [3; 4]; [5; 6]; [7; 8]] (fun i => [N.of_nat i; 3]) 2 [5; 6] [0; 0] 1);
    [exact toy_hash32|intros; exact demo_garbling_ok|intros; apply demo_many_ok|intros; apply demo_OT|intros; apply demo_OT|intros; apply demo_OT|reflexivity|
    |unfold good_length; lia|reflexivity|reflexivity|repeat constructor|reflexivity|discriminate].
  split; [lia|]. split; [reflexivity|]. repeat constructor.
Qed.
(** Decoding what two sessions of one byte each tell: masked passwords and failures. *)
Example told_bits_example : map (told_bit [([1], true); ([3], false); ([0], true)]) [0; 1; 2; 3]%nat = [false; true; true; false].
Proof. reflexivity. Qed.
Example picky_client_v3_example :
  runs (picky_garbler_server (demo_sender Debug) (demo_many Debug) (demo_sender Debug) 16 0 2)
       (client_v3 toy Release demo_garbling (demo_receiver Release) (demo_one Release) (demo_receiver Release) (demo_sender Release) [5; 7] 4 3 1) (Ok tt) (Panic PIndex) /\
  exists k key, runs (let! _ := picky_garbler_server (demo_sender Debug) (demo_many Debug) (demo_sender Debug) 16 1 2 in
                      evaluator_server_v3 toy Debug (demo_receiver Debug) [[0; 0]] [0; 0])
       (client_v3 toy Release demo_garbling (demo_receiver Release) (demo_one Release) (demo_receiver Release) (demo_sender Release) [5; 7] 4 3 1) (Ok k) (Ok key).
Proof.
  assert (H : forall i, (i < 2 * 8)%nat -> _) by (intros i Hi;
    refine (C123_client_v3_refuted toy Release Debug demo_garbling (fun d => d = 2%nat) (demo_many Debug) (demo_one Release)
      (demo_sender Debug) (demo_receiver Release) (demo_sender Debug) (demo_receiver Release) (demo_sender Release) (demo_receiver Debug)
      2 3 [5; 7] 1 i toy_hash32 demo_garbling_ok (demo_many_ok _ _) (demo_OT _ _) (demo_OT _ _) (demo_OT _ _) eq_refl ltac:(lia) ltac:(reflexivity)
      ltac:(unfold good_length; cbn [length]; lia) ltac:(discriminate) Hi)).
  split; [exact (H 0%nat ltac:(lia))|exact (H 1%nat ltac:(lia))].
Qed.
