(** C30-C34, C65: negotiation, coin flip, base OT. *)
From Coq Require Import List NArith Bool Lia Arith.
From Verif Require Import Base MUtil MBincode MProc MOt SpecBincode SpecOt SpecUtil PBase PUtil PBincode PProc POt POtHide.
Import ListNotations.
Open Scope N_scope.

(** C30. *)
Theorem C30_negotiation : forall a b,
  props_ok a -> props_ok b ->
  (pr_size a = pr_size b /\ pr_protocol a = pr_protocol b ->
    runs (validate_properties a) (validate_properties b) (Ok tt) (Ok tt)) /\
  (~ (pr_size a = pr_size b /\ pr_protocol a = pr_protocol b) ->
    runs (validate_properties a) (validate_properties b) (Err EBadProperties) (Err EBadProperties)).
Proof.
  intros a b Ha Hb. pose proof (validate_runs a b Ha Hb) as H. cbv zeta in H.
  destruct (props_eqb a b) eqn:E.
  - apply props_eqb_eq in E. subst. split; [auto|intros N; exfalso; auto].
  - split; auto. intros [E1 E2]. exfalso.
    assert (a = b) by (destruct a, b; cbn in *; congruence). subst.
    rewrite (proj2 (props_eqb_eq b b) eq_refl) in E. discriminate.
Qed.
Print Assumptions C30_negotiation.

Example negotiation_example :
  props_ok (mkProps 3 chou_orlandi) /\ props_ok (mkProps 4 apricot_name) /\
  runs (validate_properties (mkProps 3 chou_orlandi)) (validate_properties (mkProps 4 apricot_name))
    (Err EBadProperties) (Err EBadProperties).
Proof.
  assert (P : props_ok (mkProps 4 apricot_name)).
  { split; [reflexivity|]. split; [|reflexivity]. split; [reflexivity|]. cbn. repeat constructor. }
  split; [apply name_ok; reflexivity|]. split; [exact P|].
  apply C30_negotiation; [apply name_ok; reflexivity|exact P|]. cbn. intros [E _]; discriminate.
Qed.

(** C31: both ends of an honest coin flip return the XOR of the two contributions. *)
Theorem C31_coin_flip_agreement : forall sha n v u,
  length v = n -> length u = n ->
  exists w, is_xor v u w /\
    runs (coinflip_sender sha n v) (coinflip_receiver sha n u) (Ok w) (Ok w).
Proof.
  intros sha n v u Lv Lu. exists (xor_arrays v u). split; [|now apply coinflip_runs].
  apply zipWith_xor_spec. congruence.
Qed.
Print Assumptions C31_coin_flip_agreement.

(** C31: for a fixed contribution of the peer, every result comes from exactly one own
    contribution; a uniform contribution thus makes the result uniform.  Stated against an
    arbitrary peer: for the receiver, [commit] and [v] are whatever the peer sent. *)
Theorem C31_uniform_for_the_receiver : forall sha n commit v rest w,
  array_ok n v -> array_ok n w -> commit = sha v ->
  exists u, array_ok n u /\ fst (feed (coinflip_receiver sha n u) (commit :: v :: rest)) = Ok w /\
    forall u', array_ok n u' -> fst (feed (coinflip_receiver sha n u') (commit :: v :: rest)) = Ok w -> u' = u.
Proof.
  intros sha n commit v rest w [Lv Bv] [Lw Bw] ->.
  exists (zipWith N.lxor w v). split; [|split].
  - split; [rewrite zipWith_length; lia|now apply xor_bytes_okay].
  - rewrite coinflip_receiver_feed, Lv, Nat.eqb_refl, bytes_eqb_refl. f_equal.
    apply zipWith_xor_twice. congruence.
  - intros u' [Lu Bu] H. rewrite coinflip_receiver_feed, Lv, Nat.eqb_refl, bytes_eqb_refl in H.
    injection H as <-. unfold xor_arrays. symmetry. apply zipWith_xor_twice. congruence.
Qed.
Print Assumptions C31_uniform_for_the_receiver.

Theorem C31_uniform_for_the_sender : forall sha n u rest w,
  array_ok n u -> array_ok n w ->
  exists v, array_ok n v /\ fst (feed (coinflip_sender sha n v) (u :: rest)) = Ok w /\
    forall v', array_ok n v' -> fst (feed (coinflip_sender sha n v') (u :: rest)) = Ok w -> v' = v.
Proof.
  intros sha n u rest w [Lu Bu] [Lw Bw].
  exists (zipWith N.lxor w u). split; [|split].
  - split; [rewrite zipWith_length; lia|now apply xor_bytes_okay].
  - rewrite coinflip_sender_feed, Lu, Nat.eqb_refl. cbn [fst]. f_equal.
    apply zipWith_xor_twice. congruence.
  - intros v' [Lv Bv] H. rewrite coinflip_sender_feed, Lu, Nat.eqb_refl in H. cbn [fst] in H.
    injection H as <-. unfold xor_arrays. symmetry. apply zipWith_xor_twice. congruence.
Qed.
Print Assumptions C31_uniform_for_the_sender.

Example coin_flip_example : forall sha,
  runs (coinflip_sender sha 2 [1; 2]) (coinflip_receiver sha 2 [3; 255]) (Ok [2; 253]) (Ok [2; 253]).
Proof. intros sha. exact (coinflip_runs sha 2 [1; 2] [3; 255] eq_refl eq_refl). Qed.

(** C32: exactly the behaviours that open the commitment are accepted; all others give an error. *)
Theorem C32_accepts_only_openings : forall sha n u ins,
  (exists w, fst (feed (coinflip_receiver sha n u) ins) = Ok w /\
     exists commit v rest, ins = commit :: v :: rest /\ length v = n /\ sha v = commit /\
       (length u = n -> is_xor u v w)) \/
  (exists e, fst (feed (coinflip_receiver sha n u) ins) = Err e).
Proof.
  intros sha n u ins. rewrite coinflip_receiver_feed.
  destruct ins as [|c [|v r]]; [right; eauto|right; eauto|].
  destruct (Nat.eqb_spec (length v) n) as [L|L]; [|right; eauto].
  destruct (bytes_eqb c (sha v)) eqn:E; [|right; eauto].
  left. eexists; split; [reflexivity|]. exists c, v, r. apply bytes_eqb_eq in E.
  repeat split; auto; try (unfold xor_arrays; apply zipWith_xor_spec; congruence).
Qed.
Print Assumptions C32_accepts_only_openings.

(** C32: after the commitment only one opening is accepted, up to an explicit collision; whatever
    the receiver contributed and whatever else was sent. *)
Theorem C32_commitment_is_binding : forall sha n u u' commit v v' rest rest' w w',
  fst (feed (coinflip_receiver sha n u) (commit :: v :: rest)) = Ok w ->
  fst (feed (coinflip_receiver sha n u') (commit :: v' :: rest')) = Ok w' ->
  v = v' \/ clash sha v v'.
Proof.
  intros sha n u u' commit v v' rest rest' w w' H H'.
  rewrite coinflip_receiver_feed in H, H'.
  destruct (Nat.eqb (length v) n); [|discriminate]. destruct (Nat.eqb (length v') n); [|discriminate].
  destruct (bytes_eqb commit (sha v)) eqn:E; [|discriminate].
  destruct (bytes_eqb commit (sha v')) eqn:E'; [|discriminate].
  apply bytes_eqb_eq in E, E'. destruct (list_eq_dec N.eq_dec v v') as [|N]; auto.
  right. split; [exact N|congruence].
Qed.
Print Assumptions C32_commitment_is_binding.
Example coin_flip_binding_example : forall sha,
  fst (feed (coinflip_receiver sha 1 [9]) (sha [5] :: [5] :: [])) = Ok [12].
Proof. intros sha. rewrite coinflip_receiver_feed. now rewrite bytes_eqb_refl. Qed.

(** C33. *)
Theorem C33_base_OT_correct : forall sha gen G p p' ra rb,
  generator gen -> curve_ok G ->
  ot_correct payload_ok (co_sender sha gen G p ra) (co_receiver sha gen G p' rb).
Proof. intros sha gen G p p' ra rb Hg HG msgs cs L H. exact (co_runs sha gen G Hg HG p p' ra rb msgs cs L H). Qed.
Print Assumptions C33_base_OT_correct.

(** A curve to instantiate the hypotheses: Z/2 x Z/2, base point of order 2. *)
Definition toy_point := (bool * bool)%type.
Definition tb (b : bool) : N := if b then 1 else 0.
Definition toy_curve : curve := {|
  point := toy_point;
  padd := fun a b => (xorb (fst a) (fst b), xorb (snd a) (snd b));
  pneg := fun a => a;
  pzero := (false, false);
  base := (true, false);
  compress := fun a => tb (fst a) :: tb (snd a) :: repeat 0 30;
  decompress := fun b => match b with x :: y :: _ => Some (x =? 1, y =? 1) | _ => None end |}.
Lemma toy_curve_ok : curve_ok toy_curve.
Proof.
  constructor; cbn.
  - intros [[] []] [[] []] [[] []]; reflexivity.
  - intros [[] []] [[] []]; reflexivity.
  - intros [[] []]; reflexivity.
  - intros [[] []]; reflexivity.
  - intros [[] []]; reflexivity.
  - reflexivity.
Qed.
Definition toy_gen (s : bytes) (n : nat) : bytes := repeat (N.modulo (hd 0 s + 90) 256) n.
Lemma toy_gen_ok : generator toy_gen.
Proof.
  intros s n. split; [apply repeat_length|]. apply Forall_repeat. apply N.mod_lt. discriminate.
Qed.
Lemma toy_order : base_order toy_curve 2.
Proof. split; reflexivity. Qed.

Example base_OT_example : forall sha,
  exists out, runs (co_sender sha toy_gen toy_curve Debug (fun _ => 1) [([1; 2], [3]); ([4], [])])
                   (co_receiver sha toy_gen toy_curve Debug (fun _ => 1) [true; false]) (Ok tt) (Ok out) /\
              is_selection [([1; 2], [3]); ([4], [])] [true; false] out.
Proof.
  intros sha. apply C33_base_OT_correct; [exact toy_gen_ok|exact toy_curve_ok|reflexivity|].
  split; [reflexivity|]. repeat constructor.
Qed.

(** C34: whatever the sender sends, as long as its points are multiples of the base point, the
    messages of the receiver are the same for all choices, up to a bijection of its secrets. *)
Theorem C34_choices_perfectly_hidden : forall sha gen G ord p ins cs cs',
  curve_ok G -> base_order G ord ->
  length cs = length cs' ->
  (forall i m P, (i < length cs)%nat -> nth_error ins (S i) = Some m -> decompress G m = Some P ->
     exists a, P = smul G a (base G)) ->
  exists f g : nat -> N -> N,
    (forall i x, x < ord -> f i x < ord /\ g i x < ord /\ g i (f i x) = x /\ f i (g i x) = x) /\
    forall rs, snd (feed (co_receiver sha gen G p rs cs) ins) =
               snd (feed (co_receiver sha gen G p (fun i => f i (rs i)) cs') ins).
Proof.
  intros sha gen G ord p ins cs cs' HG Ho L M. exact (co_hides sha gen G HG ord Ho p ins cs cs' L M).
Qed.
Print Assumptions C34_choices_perfectly_hidden.

(** The messages in question are really sent. *)
Example hidden_example : forall sha,
  snd (feed (co_receiver sha toy_gen toy_curve Debug (fun _ => 1) [true])
         [enc_props (mkProps 1 chou_orlandi); compress toy_curve (smul toy_curve 1 (base toy_curve))]) =
  [enc_props (mkProps 1 chou_orlandi); compress toy_curve (false, false)].
Proof. intros sha. vm_compute. reflexivity. Qed.

(** C65 is false: nothing checks that received points lie in the subgroup of the base point.  On
    every curve with a point T outside that subgroup (curve25519 has cofactor 8, hence such
    points) a sender that sends T learns the choice bit from the reply, for all secrets. *)
Theorem C65_choices_hidden_from_any_points_refuted : forall sha gen G ord p T,
  curve_ok G -> base_order G ord -> (forall k, T <> smul G k (base G)) ->
  exists ins, forall rs rs',
    snd (feed (co_receiver sha gen G p rs [false]) ins) <>
    snd (feed (co_receiver sha gen G p rs' [true]) ins).
Proof.
  intros sha gen G ord p T HG Ho HT. exists (attack G T). intros rs rs'.
  exact (torsion_distinguishes sha gen G HG p T HT ord Ho rs rs').
Qed.
Print Assumptions C65_choices_hidden_from_any_points_refuted.
Example toy_has_torsion : forall k, (false, true) <> smul toy_curve k (base toy_curve).
Proof.
  intros k E. assert (H : snd (smul toy_curve k (base toy_curve)) = false).
  { clear E. induction k as [|k IH] using N.peano_ind; [reflexivity|].
    rewrite smul_succ. cbn in IH |- *. now rewrite IH. }
  rewrite <- E in H. discriminate.
Qed.
