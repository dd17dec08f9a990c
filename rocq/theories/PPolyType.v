(** Proofs about MPolyType.v. *)
From Coq Require Import List NArith Bool Lia Arith.
From Verif Require Import Base MPoly MBitMatrix MPolyType SpecPoly PBase PUtil PPoly PClassic.
Import ListNotations.
Open Scope N_scope.

Lemma new_elem : elem poly_new /\ le_value poly_new = 0.
Proof. split; [split; [reflexivity|repeat constructor]|reflexivity]. Qed.

Lemma from_elem p v : elem v -> poly_from p v = Ok v.
Proof.
  intros [L _]. unfold poly_from, bv_len. rewrite L. destruct p; reflexivity.
Qed.
Lemma add_elem a b : elem a -> elem b -> elem (poly_add a b) /\ le_value (poly_add a b) = N.lxor (le_value a) (le_value b).
Proof.
  intros [La Ha] [Lb Hb]. unfold poly_add, bv_xor. destruct (le_value_xor a b) as [E O]; auto; [congruence|].
  split; [|exact E]. split; [|exact O]. rewrite zipWith_length, La, Lb. reflexivity.
Qed.
Lemma adds_agree p a b : length a = length b -> poly_add_assign_ref p a b = Ok (poly_add a b) /\ poly_add_assign a b = poly_add a b.
Proof.
  intros L. split.
  - unfold poly_add_assign_ref. now apply bv_xor_ref_ok.
  - unfold poly_add_assign, bv_xor_assign, poly_add, bv_xor. rewrite <- L, skipn_all, app_nil_r. reflexivity.
Qed.
Lemma mul_add_ok t p s a b : elem s -> elem a -> elem b ->
  poly_mul_add_assign t p s a b = Ok (le_bytes 16 (N.lxor (le_value s) (gmul (le_value a) (le_value b)))).
Proof.
  intros [Ls Hs] [La Ha] [Lb Hb]. unfold poly_mul_add_assign, gf128_mul_acc.
  destruct t; [apply mul_acc_x86_ok|apply mul_acc_arm64_ok|apply mul_acc_generic_ok]; auto.
Qed.
Lemma elem_inj a b : elem a -> elem b -> le_value a = le_value b -> a = b.
Proof. intros Ha Hb E. rewrite <- (elem_eta a Ha), <- (elem_eta b Hb). now rewrite E. Qed.

Lemma add_group a b c : elem a -> elem b -> elem c ->
  poly_add a b = poly_add b a /\ poly_add (poly_add a b) c = poly_add a (poly_add b c) /\
  poly_add a poly_new = a /\ poly_add a a = poly_new.
Proof.
  intros Ha Hb Hc. destruct (add_elem a b Ha Hb) as [Hab Eab]. destruct (add_elem b a Hb Ha) as [Hba Eba].
  destruct (add_elem b c Hb Hc) as [Hbc Ebc]. destruct new_elem as [Hn En].
  repeat split.
  - apply elem_inj; auto. rewrite Eab, Eba. apply N.lxor_comm.
  - apply elem_inj; [now apply add_elem|now apply add_elem|].
    rewrite (proj2 (add_elem _ _ Hab Hc)), (proj2 (add_elem _ _ Ha Hbc)), Eab, Ebc. apply N.lxor_assoc.
  - apply elem_inj; [now apply add_elem|auto|]. rewrite (proj2 (add_elem _ _ Ha Hn)), En. apply N.lxor_0_r.
  - apply elem_inj; [now apply add_elem|auto|]. rewrite (proj2 (add_elem _ _ Ha Ha)), En. apply N.lxor_nilpotent.
Qed.

Lemma mul_add_spec t p s a b : elem s -> elem a -> elem b ->
  exists r m, poly_mul_add_assign t p s a b = Ok r /\ elem r /\ is_rem (pmulx (le_value a) (le_value b)) (le_value m) /\ elem m /\
    r = poly_add s m.
Proof.
  intros Hs Ha Hb. pose proof (elem_lt a Ha) as A. pose proof (elem_lt b Hb) as B. pose proof (elem_lt s Hs) as S.
  pose proof (gmul_lt (le_value a) (le_value b) A B) as G.
  exists (le_bytes 16 (N.lxor (le_value s) (gmul (le_value a) (le_value b)))), (le_bytes 16 (gmul (le_value a) (le_value b))).
  split; [now apply mul_add_ok|]. split; [apply elem_bytes|].
  split. { rewrite le_value16 by exact G. now apply gmul_rem. }
  split; [apply elem_bytes|].
  assert (Hm : elem (le_bytes 16 (gmul (le_value a) (le_value b)))) by apply elem_bytes.
  apply elem_inj; [apply elem_bytes|now apply add_elem|].
  rewrite (proj2 (add_elem _ _ Hs Hm)), !le_value16; auto. now apply lxor_lt2.
Qed.

Lemma mul_add_distributes t p s a b c r : elem s -> elem a -> elem b -> elem c ->
  poly_mul_add_assign t p s a (poly_add b c) = Ok r <->
  exists m, poly_mul_add_assign t p s a b = Ok m /\ poly_mul_add_assign t p m a c = Ok r.
Proof.
  intros Hs Ha Hb Hc. destruct (add_elem b c Hb Hc) as [Hbc E].
  pose proof (elem_lt a Ha) as A. pose proof (elem_lt b Hb) as B. pose proof (elem_lt c Hc) as C. pose proof (elem_lt s Hs) as S.
  pose proof (gmul_lt (le_value a) (le_value b) A B) as G.
  rewrite (mul_add_ok t p s a (poly_add b c)), (mul_add_ok t p s a b) by auto. rewrite E, gmul_lxor_r by auto.
  set (m := le_bytes 16 (N.lxor (le_value s) (gmul (le_value a) (le_value b)))).
  assert (X : poly_mul_add_assign t p m a c = Ok (le_bytes 16 (N.lxor (le_value s) (N.lxor (gmul (le_value a) (le_value b)) (gmul (le_value a) (le_value c)))))).
  { rewrite mul_add_ok; auto; [|apply elem_bytes]. unfold m. rewrite le_value16 by (now apply lxor_lt2). now rewrite N.lxor_assoc. }
  split.
  - intros R. exists m. split; [reflexivity|]. now rewrite X.
  - intros (m' & Em & R). assert (m' = m) as -> by congruence. now rewrite X in R.
Qed.
