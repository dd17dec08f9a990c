(** More than k numbers below 2^k are linearly dependent under exclusive or. *)
From Coq Require Import List NArith Bool Lia Arith.
From Verif Require Import Base PBase PPoly.
Import ListNotations.
Open Scope N_scope.

Fixpoint selxor (es : list bool) (vs : list N) : N :=
  match es, vs with
  | e :: es', v :: vs' => N.lxor (if e then v else 0) (selxor es' vs')
  | _, _ => 0
  end.
Lemma lxor_swap a b c : N.lxor a (N.lxor b c) = N.lxor b (N.lxor a c).
Proof. rewrite <- !N.lxor_assoc. f_equal. apply N.lxor_comm. Qed.
Lemma selxor_app e1 e2 v1 v2 : length e1 = length v1 ->
  selxor (e1 ++ e2) (v1 ++ v2) = N.lxor (selxor e1 v1) (selxor e2 v2).
Proof.
  revert v1. induction e1 as [|e e1 IH]; intros [|v v1] L; try discriminate; cbn [app selxor].
  - now rewrite N.lxor_0_l.
  - rewrite IH by (cbn in L; lia). now rewrite N.lxor_assoc.
Qed.
(** Cancelling bit k with v. *)
Definition elim (k v w : N) : N := if N.testbit w k then N.lxor w v else w.
Lemma selxor_elim k v es : forall l, selxor es (map (elim k v) l) =
  N.lxor (selxor es l) (if N.testbit (selxor es l) k then v else 0).
Proof.
  induction es as [|e es IH]; intros [|w l]; cbn [selxor map]; try (now rewrite N.bits_0).
  rewrite IH. rewrite N.lxor_spec.
  set (s := selxor es l). unfold elim. destruct e.
  - destruct (N.testbit w k), (N.testbit s k); cbn [xorb]; rewrite ?N.lxor_0_r; auto.
    + rewrite N.lxor_assoc. f_equal. rewrite (N.lxor_comm s v), <- N.lxor_assoc, N.lxor_nilpotent. apply N.lxor_0_l.
    + rewrite N.lxor_assoc. rewrite (N.lxor_comm v s). now rewrite N.lxor_assoc.
    + now rewrite N.lxor_assoc.
  - rewrite N.bits_0. cbn [xorb]. rewrite !N.lxor_0_l. now destruct (N.testbit s k).
Qed.
Lemma lt_bit k v : v < 2 ^ (k + 1) -> N.testbit v k = false -> v < 2 ^ k.
Proof.
  intros H B. destruct (N.eq_dec v 0) as [->|N0]. { apply N.neq_0_lt_0. now apply N.pow_nonzero. }
  apply N.log2_lt_pow2; [lia|]. apply N.log2_lt_pow2 in H; [|lia].
  assert (N.log2 v <> k). { intros E. pose proof (N.bit_log2 v N0) as T. rewrite E in T. congruence. } lia.
Qed.

Lemma dependent k : forall vs, Forall (fun v => v < 2 ^ N.of_nat k) vs -> (k < length vs)%nat ->
  exists es, length es = length vs /\ In true es /\ selxor es vs = 0.
Proof.
  induction k as [|k IH]; intros vs H L.
  - destruct vs as [|v vs]; [cbn in L; lia|]. inversion H as [|? ? Hv _]; subst.
    assert (v = 0) by (cbn in Hv; lia). subst v.
    exists (true :: repeat false (length vs)). split; [cbn; now rewrite repeat_length|]. split; [now left|].
    cbn. clear. induction vs; cbn; auto.
  - replace (N.of_nat (S k)) with (N.of_nat k + 1) in H by lia.
    destruct (find (fun v => N.testbit v (N.of_nat k)) vs) as [v|] eqn:F.
    + apply find_some in F. destruct F as [Fi Fb]. apply in_split in Fi. destruct Fi as (l1 & l2 & ->).
      apply Forall_app in H. destruct H as [H1 H2]. inversion H2 as [|? ? Hv H2']; subst.
      assert (He : forall w, w < 2 ^ (N.of_nat k + 1) -> elim (N.of_nat k) v w < 2 ^ N.of_nat k).
      { intros w Hw. apply lt_bit; unfold elim; destruct (N.testbit w (N.of_nat k)) eqn:B; auto.
        - now apply lxor_lt2. - rewrite N.lxor_spec, B, Fb. reflexivity. }
      destruct (IH (map (elim (N.of_nat k) v) (l1 ++ l2))) as (es & Le & T & Z).
      * apply Forall_forall. intros x Hx. apply in_map_iff in Hx. destruct Hx as (w & <- & Hw). apply He.
        apply in_app_or in Hw. destruct Hw as [Hw|Hw]; [apply (proj1 (Forall_forall _ _) H1)|apply (proj1 (Forall_forall _ _) H2')]; auto.
      * rewrite map_length, app_length. rewrite app_length in L. cbn in L. lia.
      * rewrite map_length, app_length in Le.
        set (e1 := firstn (length l1) es). set (e2 := skipn (length l1) es).
        assert (Ees : es = e1 ++ e2) by (symmetry; apply firstn_skipn).
        assert (L1 : length e1 = length l1) by (unfold e1; rewrite firstn_length; lia).
        rewrite Ees in Z, T. rewrite map_app, selxor_app in Z by (now rewrite map_length).
        rewrite !selxor_elim in Z.
        set (s1 := selxor e1 l1) in *. set (s2 := selxor e2 l2) in *.
        exists (e1 ++ xorb (N.testbit s1 (N.of_nat k)) (N.testbit s2 (N.of_nat k)) :: e2).
        split. { rewrite !app_length. cbn. unfold e2. rewrite skipn_length. lia. }
        split. { apply in_app_or in T. apply in_or_app. destruct T; [left|right; right]; auto. }
        rewrite selxor_app by auto. fold s1. cbn [selxor]. fold s2.
        etransitivity; [|exact Z]. destruct (N.testbit s1 (N.of_nat k)), (N.testbit s2 (N.of_nat k)); cbn [xorb].
        -- rewrite N.lxor_0_l, N.lxor_assoc. f_equal.
           rewrite (N.lxor_comm s2 v), <- N.lxor_assoc, N.lxor_nilpotent. symmetry. apply N.lxor_0_l.
        -- now rewrite N.lxor_0_r, N.lxor_assoc.
        -- rewrite N.lxor_0_r. f_equal. apply N.lxor_comm.
        -- now rewrite !N.lxor_0_r, N.lxor_0_l.
    + apply IH; [|lia]. apply Forall_forall. intros v Hv. apply lt_bit.
      * now apply (proj1 (Forall_forall _ _) H).
      * apply (find_none _ _ F v Hv).
Qed.
