(** C83: GF(2^128) is a field, and what that means for the correlation check. *)
From Coq Require Import List NArith Bool Lia Arith.
From Verif Require Import Base MPoly MBincode MProc MOt MApricot SpecPoly SpecBincode SpecOt SpecApricot SpecEvil.
From Verif Require Import PBase PPoly PField PProc PApricotRun PApricotEvil PApricotField POt CPoly COt CApricot CCircuit.
Import ListNotations.
Open Scope N_scope.

(** x^128+x^7+x^2+x+1 has no factors but 1 and itself. *)
Theorem C83_modulus_irreducible : forall a b, pmulx a b = gf_modulus -> a = 1 \/ b = 1.
Proof.
  intros a b E.
  assert (Ha : a <> 0) by (intros ->; discriminate E).
  assert (Hb : b <> 0) by (intros ->; rewrite pm_0_r in E; discriminate E).
  destruct (pm_degree a b Ha Hb) as [D _]. rewrite E, gfm_log in D.
  assert (one : forall c, c <> 0 -> N.log2 c = 0 -> c = 1).
  { intros c Hc H. apply N.log2_null in H. lia. }
  destruct (N.eq_dec (N.log2 a) 0) as [Za|Za]; [left; auto|]. destruct (N.eq_dec (N.log2 b) 0) as [Zb|Zb]; [right; auto|].
  exfalso. assert (La : a < 2 ^ 128) by (apply N.log2_lt_pow2; lia). assert (Lb : b < 2 ^ 128) by (apply N.log2_lt_pow2; lia).
  destruct (gmul_integral a b La Lb) as [|]; auto. apply gmul_unique; auto. rewrite E, <- (pm_1_l gf_modulus). apply rem_multiple.
Qed.
Print Assumptions C83_modulus_irreducible.

(** Multiplication as the crate computes it has inverses, and so no zero divisors. *)
Theorem C83_inverses : forall a, elem a -> a <> repeat 0 16 -> exists b, elem b /\ mul0 a b = Ok (1 :: repeat 0 15).
Proof.
  intros a Ha Na. exists (le_bytes 16 (ginv (le_value a))). split; [apply elem_bytes|].
  assert (La : le_value a < 2 ^ 128) by now apply elem_lt.
  rewrite mul0_ok; [|exact Ha|apply elem_bytes]. rewrite le_value16 by (now apply ginv_lt). rewrite ginv_ok; [reflexivity|exact La|].
  intros E. apply Na. rewrite <- (elem_eta a Ha), E. reflexivity.
Qed.
Print Assumptions C83_inverses.
Theorem C83_no_zero_divisors : forall a b, elem a -> elem b -> mul0 a b = Ok (repeat 0 16) -> a = repeat 0 16 \/ b = repeat 0 16.
Proof.
  intros a b Ha Hb. rewrite mul0_ok by assumption. intros E.
  apply (f_equal (fun o => match o with Ok v => le_value v | _ => 1 end)) in E. cbv beta iota in E.
  assert (La := elem_lt a Ha). assert (Lb := elem_lt b Hb).
  assert (Z : gmul (le_value a) (le_value b) = 0).
  { rewrite le_value16 in E by (now apply gmul_lt). exact E. }
  destruct (gmul_integral _ _ La Lb Z) as [H|H]; [left; rewrite <- (elem_eta a Ha)|right; rewrite <- (elem_eta b Hb)]; rewrite H; reflexivity.
Qed.
Print Assumptions C83_no_zero_divisors.

(** A receiver that sends a consistent matrix has one pair of sums that the sender always accepts.  With any other
    t_sum it is turned away; with another x_sum it is accepted for exactly one delta, which it then knows. *)
Theorem C83_wrong_sums_fit_one_delta : forall sha fill p a cores cu cv seed0 seed1 bootS bootR msgs s u,
  generator fill -> (1 <= cores)%nat -> array_ok 32 cu -> array_ok 32 cv -> seeds_ok seed0 -> seeds_ok seed1 ->
  ot_correct seed_pairs bootS bootR ->
  usize_ok (length msgs) -> (1 <= length msgs)%nat -> (length msgs mod 8 = 0)%nat -> (1 <= s)%nat -> equal_sized s msgs ->
  let w := ((length msgs + 256) / 8)%nat in
  length u = (w * 128)%nat -> bytes_ok u -> consistent_u fill seed0 seed1 w u ->
  let sender delta := ap_sender sha fill p a cores cu delta bootR msgs in
  let evil x t := evil_receiver sha cv seed0 seed1 bootS (length msgs) (fun _ => (u, x, t)) in
  let accepted delta x t := exists d, runs (sender delta) (evil x t) (Ok tt) (Ok d) in
  let turned_away delta x t := reach (initial (sender delta) (evil x t)) (Cfg (Done (Err ECorrelation)) recv [] []) in
  exists x t, array_ok 16 x /\ array_ok 16 t /\
  (forall delta, array_ok 16 delta -> accepted delta x t) /\
  (forall t' delta, array_ok 16 t' -> t' <> t -> array_ok 16 delta -> turned_away delta x t') /\
  (forall x' t', array_ok 16 x' -> array_ok 16 t' -> x' <> x ->
    exists delta0, array_ok 16 delta0 /\ accepted delta0 x' t' /\
    forall delta, array_ok 16 delta -> delta <> delta0 -> turned_away delta x' t').
Proof.
  intros sha fill p a cores cu cv seed0 seed1 bootS bootR msgs s u Hf Hc H1 H2 H5 H6 Hb Un Hn H8 Hs Sz w Lu Bu Hu.
  exact (wrong_sums sha fill Hf p a cores Hc cu cv seed0 seed1 H1 H2 H5 H6 bootS bootR Hb msgs s Un Hn H8 Hs Sz u Lu Bu Hu).
Qed.
Print Assumptions C83_wrong_sums_fit_one_delta.

Example C83_inverse_of_x : mul0 (2 :: repeat 0 15) (67 :: repeat 0 14 ++ [128]) = Ok (1 :: repeat 0 15).
Proof. vm_compute. reflexivity. Qed.
(** With one term less, x^128 + x^7 + x^2 + 1, the modulus has the factor x + 1. *)
Example C83_reducible_neighbour : exists b, b <> 1 /\ pmulx 3 b = N.lxor gf_modulus 2.
Proof.
  exists (N.lxor (N.ones 128) 124). split; [vm_compute; discriminate|vm_compute; reflexivity].
Qed.
Lemma toy_consistent : consistent_u toy_gen (coin_seed0 toy_coins) (coin_seed1 toy_coins) 33 (repeat 2 (33 * 128)).
Proof.
  exists (repeat 0 33). split; [reflexivity|]. intros j Hj. unfold u_row_of. cbn [toy_coins coin_seed0 coin_seed1].
  assert (E : forall s : bytes, nth j (repeat s 128) [] = s) by (intros s; rewrite (nth_indep _ [] s) by (now rewrite repeat_length); apply nth_repeat).
  rewrite !E. change (zipWith N.lxor _ _) with (repeat 2 33).
  replace (33 * 128)%nat with (33 * j + (33 + 33 * (127 - j)))%nat by lia. rewrite !repeat_app.
  rewrite skipn_app, repeat_length, Nat.sub_diag, skipn_all2 by (rewrite repeat_length; lia). cbn [app skipn].
  rewrite firstn_app, repeat_length, Nat.sub_diag, firstn_all2 by (rewrite repeat_length; lia). cbn [firstn]. apply app_nil_r.
Qed.
Example C83_session_example :
  let sender delta := ap_sender toy toy_gen Release X86 4 (coin_s toy_coins) delta (co_receiver toy toy_gen toy_curve Release (fun _ => 1)) (repeat ([1], [2]) 8) in
  let evil x t := evil_receiver toy (coin_r toy_coins) (coin_seed0 toy_coins) (coin_seed1 toy_coins) (co_sender toy toy_gen toy_curve Release (fun _ => 1)) 8
    (fun _ => (repeat 2 (33 * 128), x, t)) in
  exists x t : bytes, forall x' t', array_ok 16 x' -> array_ok 16 t' -> x' <> x -> exists delta0, (exists d, runs (sender delta0) (evil x' t') (Ok tt) (Ok d)) /\
    forall delta, array_ok 16 delta -> delta <> delta0 -> reach (initial (sender delta) (evil x' t')) (Cfg (Done (Err ECorrelation)) recv [] []).
Proof.
  intros sender evil. destruct toy_coins_ok as (H1 & H2 & H3 & H4 & H5 & H6).
  destruct (C83_wrong_sums_fit_one_delta toy toy_gen Release X86 4 (coin_s toy_coins) (coin_r toy_coins) (coin_seed0 toy_coins) (coin_seed1 toy_coins)
    (co_sender toy toy_gen toy_curve Release (fun _ => 1)) (co_receiver toy toy_gen toy_curve Release (fun _ => 1)) (repeat ([1], [2]) 8) 1 (repeat 2 (33 * 128)))
    as (x & t & _ & _ & _ & _ & K).
  - exact toy_gen_ok.
  - lia.
  - exact H1.
  - exact H2.
  - exact H5.
  - exact H6.
  - intros msgs cs L H. exact (co_runs toy toy_gen toy_curve toy_gen_ok toy_curve_ok Release Release (fun _ => 1) (fun _ => 1) msgs cs L (seed_pairs_payload msgs H)).
  - reflexivity.
  - cbn; lia.
  - reflexivity.
  - lia.
  - repeat constructor.
  - apply repeat_length.
  - now apply repeat_ok.
  - exact toy_consistent.
  - exists x, t. intros x' t' Hx Ht Nx. destruct (K x' t' Hx Ht Nx) as (delta0 & _ & A & R). exists delta0. split; [exact A|exact R].
Qed.
