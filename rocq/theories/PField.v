(** The quotient ring of polynomial.rs is a field. *)
From Coq Require Import List NArith Bool Arith Lia.
From Verif Require Import Base MPoly SpecPoly PBase PPoly.
Import ListNotations.
Open Scope N_scope.

Notation el a := (a < 2 ^ 128).

Opaque gmul N.pow.
(** ** Squaring *)
Fixpoint spread_pos (a : positive) : positive :=
  match a with xH => xH | xO a' => xO (xO (spread_pos a')) | xI a' => xI (xO (spread_pos a')) end.
Definition spread (a : N) : N := match a with 0 => 0 | Npos a' => Npos (spread_pos a') end.
Lemma pm_square a : pmulx a a = spread a.
Proof.
  induction a as [|a IH|a IH] using N_bin_ind; [reflexivity| |].
  - rewrite pm_double, pm_comm, pm_double, IH, !shl1_double. now destruct a.
  - rewrite pm_sdouble, pm_comm, pm_sdouble, IH, !shl1_double. rewrite (sdouble_lxor a).
    replace (spread (N.lxor 1 (N.double a))) with (N.lxor 1 (N.double (N.double (spread a)))).
    + rewrite <- !shl1_double, N.shiftl_lxor. rewrite <- !N.lxor_assoc, (N.lxor_assoc 1), N.lxor_nilpotent, N.lxor_0_r. reflexivity.
    + rewrite <- !sdouble_lxor. now destruct a.
Qed.
Definition sq (a : N) : N := gmul a a.
Definition sq_fast (a : N) : N := let s := spread a in gf128_reduce (N.shiftr s 128) (s mod 2 ^ 128).
Lemma sq_lt a : el a -> el (sq a).
Proof. intros H. unfold sq. apply gmul_lt; exact H. Qed.
Lemma sq_fast_ok a : el a -> sq a = sq_fast a.
Proof.
  intros H. apply gmul_unique; auto. rewrite pm_square. rewrite (split_pow2 (spread a) 128). unfold sq_fast.
  apply reduce_ok; [|apply N.mod_lt; discriminate]. apply (shiftr_lt _ 128 128). rewrite <- pm_square. apply (pm_lt a a 128 128); auto.
Qed.
Lemma sq_lxor a b : el a -> el b -> sq (N.lxor a b) = N.lxor (sq a) (sq b).
Proof.
  intros Ha Hb. unfold sq. assert (Hx : el (N.lxor a b)) by now apply lxor_lt2.
  rewrite gmul_lxor_l, !gmul_lxor_r by auto. rewrite (gmul_comm b a) by auto.
  rewrite <- !N.lxor_assoc, (N.lxor_assoc (gmul a a) (gmul a b)), N.lxor_nilpotent, N.lxor_0_r. reflexivity.
Qed.
Lemma gmul_swap a b c d : el a -> el b -> el c -> el d -> gmul (gmul a b) (gmul c d) = gmul (gmul a c) (gmul b d).
Proof.
  intros. rewrite !gmul_assoc by auto using gmul_lt. f_equal. rewrite <- !gmul_assoc by auto using gmul_lt. f_equal. now apply gmul_comm.
Qed.
Lemma sq_gmul a b : el a -> el b -> sq (gmul a b) = gmul (sq a) (sq b).
Proof. intros. unfold sq. now apply gmul_swap. Qed.

(** ** Additive functions are determined by the powers of x *)
Definition additive (f : N -> N) : Prop := forall a b, el a -> el b -> f (N.lxor a b) = N.lxor (f a) (f b).
Lemma additive_0 f : additive f -> f 0 = 0.
Proof. intros H. assert (E : f (N.lxor 0 0) = N.lxor (f 0) (f 0)) by (apply H; reflexivity). rewrite (N.lxor_nilpotent (f 0)) in E. exact E. Qed.
Lemma additive_eq f g : additive f -> additive g -> (forall i, i < 128 -> f (2 ^ i) = g (2 ^ i)) -> forall a, el a -> f a = g a.
Proof.
  intros Hf Hg Hb a Ha. rewrite <- (N.mod_small a (2 ^ 128)) by exact Ha.
  enough (G : forall n, n <= 128 -> f (a mod 2 ^ n) = g (a mod 2 ^ n)) by (apply G; lia).
  intros n. induction n as [|n IH] using N.peano_ind; intros Hn.
  - rewrite N.pow_0_r, N.mod_1_r, !additive_0; auto.
  - rewrite <- N.add_1_r, mod_succ_bit.
    assert (E1 : el (a mod 2 ^ n)).
    { apply N.lt_le_trans with (2 ^ n); [apply N.mod_lt, N.pow_nonzero; lia|apply N.pow_le_mono_r; lia]. }
    assert (E2 : el (if N.testbit a n then 2 ^ n else 0)).
    { destruct (N.testbit a n); [apply N.pow_lt_mono_r; lia|reflexivity]. }
    rewrite Hf, Hg by assumption. f_equal; [apply IH; lia|].
    destruct (N.testbit a n); [apply Hb; lia|now rewrite !additive_0].
Qed.

(** ** a^(2^128) = a *)
Fixpoint frob (k : nat) (a : N) : N := match k with O => a | S k' => sq (frob k' a) end.
Fixpoint frob_fast (k : nat) (a : N) : N := match k with O => a | S k' => frob_fast k' (sq_fast a) end.
Lemma frob_lt k a : el a -> el (frob k a).
Proof. intros H. induction k; cbn [frob]; auto using sq_lt. Qed.
Lemma frob_comm k a : frob k (sq a) = sq (frob k a).
Proof. induction k; cbn [frob]; congruence. Qed.
Lemma frob_fast_ok k : forall a, el a -> frob k a = frob_fast k a.
Proof.
  induction k as [|k IH]; intros a Ha; [reflexivity|]. cbn [frob frob_fast].
  rewrite <- frob_comm, <- sq_fast_ok by exact Ha. apply IH. now apply sq_lt.
Qed.
Lemma frob_lxor k : additive (frob k).
Proof. induction k as [|k IH]; intros a b Ha Hb; cbn [frob]; [reflexivity|]. rewrite IH by auto. apply sq_lxor; now apply frob_lt. Qed.
Lemma frob_gmul k a b : el a -> el b -> frob k (gmul a b) = gmul (frob k a) (frob k b).
Proof. intros Ha Hb. induction k as [|k IH]; cbn [frob]; [reflexivity|]. rewrite IH. apply sq_gmul; now apply frob_lt. Qed.
Lemma frob_x : frob 128 2 = 2.
Proof. rewrite frob_fast_ok by reflexivity. vm_compute. reflexivity. Qed.
Lemma frob_1 k : frob k 1 = 1.
Proof. induction k as [|k IH]; cbn [frob]; [reflexivity|]. rewrite IH. reflexivity. Qed.
Lemma gmul_x n : n + 1 < 128 -> gmul (2 ^ n) 2 = 2 ^ (n + 1).
Proof.
  intros Hn. assert (H1 : el (2 ^ n)) by (apply N.pow_lt_mono_r; lia).
  apply gmul_unique; [exact H1|reflexivity|]. rewrite pm_pow2, N.shiftl_mul_pow2.
  replace (2 * 2 ^ n) with (2 ^ (n + 1)) by (rewrite N.pow_add_r; lia). apply rem_small. apply N.pow_lt_mono_r; lia.
Qed.
Lemma frob_id a : el a -> frob 128 a = a.
Proof.
  apply (additive_eq (frob 128) (fun a => a)); [apply frob_lxor|intros ? ? _ _; reflexivity|].
  intros i. induction i as [|i IH] using N.peano_ind; intros Hi; [apply frob_1|].
  rewrite <- N.add_1_r. rewrite <- gmul_x by lia. rewrite frob_gmul; [|apply N.pow_lt_mono_r; lia|reflexivity].
  now rewrite IH, frob_x by lia.
Qed.

(** ** The only idempotents are 0 and 1: a left inverse of the map from a to a^2 + a *)
Definition inverse_rows : list N :=
  [0x295ac0b1f4731af9676aac9fa4b20b08; 0xe5da5595ee970b89929959af766af404;
   0xe5da5595ee970b89929959af766af406; 0x4e9826c74350bfe67783f7333404a20c;
   0xe5da5595ee970b89929959af766af402; 0x2aaea79ad7da34b07dc714cb83074e6a;
   0x4e9826c74350bfe67783f7333404a204; 0xcc8095241ae41171f5f3f531d2d9fe18;
   0xe5da5595ee970b89929959af766af412; 0x4e983687d159ce9677cb862e8ac85b44;
   0x2aaea79ad7da34b07dc714cb83074e4a; 0xaae2ab6aaf144aaff73fcb3c06aaff56;
   0x4e9826c74350bfe67783f7333404a244; 0xe62f327ccd5792dd893fe9ca40603f62;
   0xcc8095241ae41171f5f3f531d2d9fe98; 0xab52f0323f47c90be1336bc7d453b626;
   0xe5da5595ee970b89929959af766af512; 0x2abe34bad75338b479a6a089abf4573a;
   0x4e983687d159ce9677cb862e8ac85944; 0x1e8ccb9dcc72f2e1a9cbef8232562fc;
   0x2aaea79ad7da34b07dc714cb83074a4a; 0x2442c3221f3dc1a0ce869b24a80e48c;
   0xaae2ab6aaf144aaff73fcb3c06aaf756; 0xcf64612f39c4323deb3ff936dd9aa228;
   0x4e9826c74350bfe67783f7333404b244; 0xcc911696880d4909f0d5382a57572458;
   0xe62f327ccd5792dd893fe9ca40601f62; 0x4d7cd7cc29d28cf2697f6478e5db2834;
   0xcc8095241ae41171f5f3f531d2d9be98; 0xccc99127569146a7fc0956ca1a5b86a4;
   0xab52f0323f47c90be1336bc7d4533626; 0x65cece94dacd5b1c14f5986b001eeb82;
   0xe5da5595ee970b89929959af766bf512; 0x2b0e7fa2d509ca746fe27169c7c3e73a;
   0x2abe34bad75338b479a6a089abf6573a; 0x65df4d264824132411d3553885980142;
   0x4e983687d159ce9677cb862e8acc5944; 0xcf74f70e70ef2af7ef6fd21d2af671a4;
   0x1e8ccb9dcc72f2e1a9cbef8232d62fc; 0xcec4b9173b16cdf9f91a9d8499490f58;
   0x2aaea79ad7da34b07dc714cb83174a4a; 0x83f16f99175f624799a6cf206b513bdc;
   0x2442c3221f3dc1a0ce869b24aa0e48c; 0x3f562a96a2aa9081b9e27ebe84671c0;
   0xaae2ab6aaf144aaff73fcb3c06eaf756; 0xccc9c07ae11bcce3fcd6d526cddeebd4;
   0xcf64612f39c4323deb3ff936dd1aa228; 0xa95fc803c09556f7e461dfebe8467196;
   0x4e9826c74350bfe67783f7333504b244; 0x4cdc1ab0f0ab5b2e7b20ee03c15c7384;
   0xcc911696880d4909f0d5382a55572458; 0xaaba68961da11d79fb48c8c7fe68cf6a;
   0xe62f327ccd5792dd893fe9ca44601f62; 0xe5db5416ee209847938b5c70638d3bee;
   0x4d7cd7cc29d28cf2697f6478eddb2834; 0x6437818b95e2e76e0b49fa26a7e512ce;
   0xcc8095241ae41171f5f3f531c2d9be98; 0x4cd9020746184ba27868a299022ddf34;
   0xccc99127569146a7fc0956ca3a5b86a4; 0x824171dcefbe4a8b8f1d24e407e8e76c;
   0xab52f0323f47c90be1336bc794533626; 0xe62e22af1f6bf32b88711e202cdc3b5e;
   0x65cece94dacd5b1c14f5986b801eeb82; 0x83f4672b23a92e499aadb85427b54520;
   0xe5da5595ee970b89929959ae766bf512; 0x1040920971720048711dbeccf94c;
   0x2b0e7fa2d509ca746fe2716bc7c3e73a; 0x81edd40a7a7437cb99d6b267d0d7976c;
   0x2abe34bad75338b479a6a08dabf6573a; 0xe46a1e8deccdf96d84dd884d1a5d4462;
   0x65df4d264824132411d3553085980142; 0x804c1cb1eac70f698ab1aeeb3a605920;
   0x4e983687d159ce9677cb863e8acc5944; 0xa94f4b3252499e01e04514377dbd55aa;
   0xcf74f70e70ef2af7ef6fd23d2af671a4; 0xe7d77da5831189d3978a93f3f56f619e;
   0x1e8ccb9dcc72f2e1a9cbeb8232d62fc; 0x4cdd0f362b68e52a7a5109eab0a16ef4;
   0xcec4b9173b16cdf9f91a9d0499490f58; 0xe4329c3d7bf233698830781e88d05912;
   0x2aaea79ad7da34b07dc715cb83174a4a; 0x82082082597387418618bcbfcff334e0;
   0x83f16f99175f624799a6cd206b513bdc; 0x294b124ed1181a846297e291f4adcc3a;
   0x2442c3221f3dc1a0ce86db24aa0e48c; 0xe78fff41144664939b696b666550119e;
   0x3f562a96a2aa9081b9e2febe84671c0; 0xcd78dbfd54a1436beb568d9e63d55a14;
   0xaae2ab6aaf144aaff73fdb3c06eaf756; 0xccdd4e7b1ce38d0ffacabbbeed722b64;
   0xccc9c07ae11bcce3fcd6f526cddeebd4; 0x3e5e1ccb1bf89c61fb4754fa43bbf3c;
   0xcf64612f39c4323deb3fb936dd1aa228; 0xe5da00893461b455926f68f4172caea2;
   0xa95fc803c09556f7e4615febe8467196; 0xe78ae2a77b3e87b1981cf1dccb9d1fd2;
   0x4e9826c74350bfe67782f7333504b244; 0x2912d4222a675b0a6fd777b6c15f72c6;
   0x4cdc1ab0f0ab5b2e7b22ee03c15c7384; 0xe7d6682e58d237f196f8740f85956fd2;
   0xcc911696880d4909f0d1382a55572458; 0xab4366b0764a0b4be46143c933474626;
   0xaaba68961da11d79fb40c8c7fe68cf6a; 0xe7d77d718378aeb397849bb7f7de0d9e;
   0xe62f327ccd5792dd892fe9ca44601f62; 0x64231d9efb5729d60d13f9bd382e380e;
   0xe5db5416ee20984793ab5c70638d3bee; 0x81b51ab7a5fe1499959811bd9a557220;
   0x4d7cd7cc29d28cf2693f6478eddb2834; 0x295ab4bb43072c12678a4ee975a08406;
   0x6437818b95e2e76e0bc9fa26a7e512ce; 0xab0eead38eb165ebef9e1acd25989a26;
   0xcc8095241ae41171f4f3f531c2d9be98; 0x3ba7996db230c0010185b9b29b00000;
   0x4cd9020746184ba27a68a299022ddf34; 0x8210932010890d058261f45338765990;
   0xccc99127569146a7f80956ca3a5b86a4; 0x2a88e0fbb92f0c2c7f14722e3db361fa;
   0x824171dcefbe4a8b871d24e407e8e76c; 0x29b11e87b8989fd86fb067f47d17578a;
   0xab52f0323f47c90bf1336bc794533626; 0x0;
   0xe62e22af1f6bf32ba8711e202cdc3b5e; 0x862e22af1f6bf32ba8711e202cdc3b6c;
   0x65cece94dacd5b1c54f5986b801eeb82; 0x8e8cbdc6770aef73b1ef36f7c270bdac;
   0x83f4672b23a92e491aadb85427b54520; 0x38b21c09fae1613c0db7ed8c3891e6fa].
Fixpoint combine_rows (rows : list N) (a : N) : N :=
  match rows with [] => 0 | r :: rows' => N.lxor (if N.odd a then r else 0) (combine_rows rows' (N.div2 a)) end.
Definition unsquare (a : N) : N := combine_rows inverse_rows a.
Lemma odd_lxor a b : N.odd (N.lxor a b) = xorb (N.odd a) (N.odd b).
Proof. rewrite <- !N.bit0_odd. apply N.lxor_spec. Qed.
Lemma div2_lxor a b : N.div2 (N.lxor a b) = N.lxor (N.div2 a) (N.div2 b).
Proof. rewrite !N.div2_spec. apply N.shiftr_lxor. Qed.
Lemma combine_lxor rows : forall a b, combine_rows rows (N.lxor a b) = N.lxor (combine_rows rows a) (combine_rows rows b).
Proof.
  induction rows as [|r rows IH]; intros a b; [reflexivity|]. cbn [combine_rows]. rewrite odd_lxor, div2_lxor, IH.
  destruct (N.odd a), (N.odd b); cbn [xorb]; rewrite ?N.lxor_0_l.
  - rewrite (N.lxor_comm r (combine_rows rows (N.div2 b))), <- N.lxor_assoc, (N.lxor_assoc r), (N.lxor_comm r), !N.lxor_assoc, N.lxor_nilpotent, N.lxor_0_r. reflexivity.
  - now rewrite N.lxor_assoc.
  - rewrite <- !N.lxor_assoc. f_equal. apply N.lxor_comm.
  - reflexivity.
Qed.
Definition even_part (a : N) : N := N.double (N.div2 a).
Lemma even_part_additive : additive even_part.
Proof. intros a b _ _. unfold even_part. rewrite div2_lxor, <- !shl1_double. apply N.shiftl_lxor. Qed.
Lemma check_rows : forallb (fun i => unsquare (N.lxor (sq_fast (2 ^ i)) (2 ^ i)) =? even_part (2 ^ i)) (map N.of_nat (seq 0 128)) = true.
Proof. vm_compute. reflexivity. Qed.
Lemma unsquare_ok a : el a -> unsquare (N.lxor (sq a) a) = even_part a.
Proof.
  apply (additive_eq (fun a => unsquare (N.lxor (sq a) a)) even_part).
  - intros x y Hx Hy. rewrite sq_lxor by auto. unfold unsquare. rewrite <- combine_lxor. f_equal.
    rewrite <- !N.lxor_assoc. f_equal. rewrite !N.lxor_assoc. f_equal. apply N.lxor_comm.
  - apply even_part_additive.
  - intros i Hi. assert (He : el (2 ^ i)) by (apply N.pow_lt_mono_r; lia). rewrite sq_fast_ok by exact He.
    pose proof check_rows as C. rewrite forallb_forall in C. specialize (C i). apply N.eqb_eq, C.
    rewrite <- (N2Nat.id i). apply in_map. apply in_seq. lia.
Qed.
Lemma idempotent a : el a -> gmul a a = a -> a = 0 \/ a = 1.
Proof.
  intros Ha E. pose proof (unsquare_ok a Ha) as U. unfold sq in U. rewrite E, N.lxor_nilpotent in U.
  change (unsquare 0) with 0 in U. unfold even_part in U. destruct a as [|[q|q|]]; cbn in U; auto; discriminate.
Qed.

(** ** Inverses *)
Fixpoint norm (k : nat) (a : N) : N := match k with O => 1 | S k' => gmul (norm k' a) (frob k' a) end.
Lemma norm_lt k a : el a -> el (norm k a).
Proof. intros H. induction k; cbn [norm]; [reflexivity|]. apply gmul_lt; auto using frob_lt. Qed.
Lemma norm_frob k a : el a -> gmul a (norm k a) = frob k a.
Proof.
  intros H. induction k as [|k IH]; cbn [norm frob]; [now apply gmul_1|].
  rewrite <- gmul_assoc by auto using norm_lt, frob_lt. now rewrite IH.
Qed.
Definition ginv (a : N) : N := sq (norm 127 a).
Lemma ginv_lt a : el a -> el (ginv a).
Proof. intros H. now apply sq_lt, norm_lt. Qed.
Lemma ginv_ok a : el a -> a <> 0 -> gmul a (ginv a) = 1.
Proof.
  intros Ha H0. assert (Hi := ginv_lt a Ha).
  assert (E1 : gmul a (gmul a (ginv a)) = a).
  { rewrite <- gmul_assoc by auto. unfold ginv. change (gmul a a) with (sq a). rewrite <- sq_gmul; [|exact Ha|apply norm_lt; exact Ha].
    rewrite norm_frob by exact Ha. now apply (frob_id a). }
  destruct (idempotent (gmul a (ginv a))) as [E|E]; [now apply gmul_lt| | |exact E].
  - set (c := ginv a) in *. assert (Hac : el (gmul a c)) by now apply gmul_lt.
    rewrite (gmul_assoc a c (gmul a c)), (gmul_comm c (gmul a c)), <- gmul_assoc by assumption. now rewrite E1.
  - exfalso. apply H0. rewrite <- E1, E. now apply gmul_0_r.
Qed.
Lemma gmul_integral a b : el a -> el b -> gmul a b = 0 -> a = 0 \/ b = 0.
Proof.
  intros Ha Hb E. destruct (N.eq_dec a 0) as [|H0]; [now left|]. right. assert (Hi := ginv_lt a Ha).
  rewrite <- (gmul_1 b) by exact Hb. rewrite <- (ginv_ok a Ha H0). rewrite <- gmul_assoc, (gmul_comm b a), E by auto. now apply gmul_0_l.
Qed.
