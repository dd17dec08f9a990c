(** Labels of modulus 0 in release builds. *)
From Coq Require Import List NArith Bool Arith Lia.
From Verif Require Import Base MUtil MWires PBase PWires PWiresSpec SpecWires0.
Import ListNotations.
Open Scope N_scope.

Lemma nth_to_u16s v : forall n, length v = (2 * n)%nat -> forall i, (i < n)%nat ->
  nth i (to_u16s v) 0 = nth (2 * i) v 0 + 256 * nth (2 * i + 1) v 0.
Proof.
  intros n; revert v; induction n as [|n IH]; intros v Hv i Hi; [lia|].
  destruct v as [|a [|b v]]; simpl in Hv; try lia. destruct i as [|i]; [reflexivity|].
  cbn [to_u16s nth]. rewrite (IH v) by lia. replace (2 * S i)%nat with (S (S (2 * i))) by lia. reflexivity.
Qed.

Lemma length_u16s v : forall n, length v = (2 * n)%nat -> length (to_u16s v) = n.
Proof.
  intros n; revert v; induction n as [|n IH]; intros v Hv.
  - destruct v; [reflexivity|simpl in Hv; lia].
  - destruct v as [|a [|b v]]; simpl in Hv; try lia. cbn [to_u16s length]. rewrite IH by lia. reflexivity.
Qed.

Lemma length_of_u16s l : length (of_u16s l) = (2 * length l)%nat.
Proof. induction l as [|x l IH]; [reflexivity|]. unfold of_u16s in *. simpl. rewrite IH. lia. Qed.

Lemma nth_of_u16s l : Forall (fun x => x < 65536) l -> forall i, (i < length l)%nat ->
  nth (2 * i) (of_u16s l) 0 + 256 * nth (2 * i + 1) (of_u16s l) 0 = nth i l 0.
Proof.
  induction l as [|x l IH]; intros H i Hi; [simpl in Hi; lia|]. inversion H; subst.
  destruct i as [|i].
  - unfold of_u16s. cbn [flat_map app nth Nat.mul Nat.add].
    rewrite (N.mod_small (x / 256)) by (apply N.div_lt_upper_bound; lia).
    pose proof (N.div_mod x 256). lia.
  - replace (2 * S i)%nat with (S (S (2 * i))) by lia. unfold of_u16s in *. cbn [flat_map app nth Nat.add].
    apply IH; [assumption|]. simpl in Hi. lia.
Qed.

Lemma bytes_of_u16s l : Forall (fun x => x < 256) (of_u16s l).
Proof.
  induction l as [|x l IH]; [constructor|]. unfold of_u16s in *. cbn [flat_map app].
  constructor; [apply N.mod_lt; lia|]. constructor; [apply N.mod_lt; lia|]. exact IH.
Qed.

Lemma holds_build l f : length l = 16%nat -> Forall (fun x => x < 65536) l ->
  (forall i, (i < 16)%nat -> nth i l 0 = f i) -> holds_words (Ok (mkWire U16MAX (of_u16s l))) f.
Proof.
  intros Hl HF Hf. eexists; split; [reflexivity|]. split.
  - repeat split; [|apply bytes_of_u16s]. cbn [wval]. rewrite length_of_u16s, Hl. reflexivity.
  - intros i Hi. unfold word. cbn [wval]. rewrite nth_of_u16s by (assumption || lia). apply Hf, Hi.
Qed.

Lemma nth_zipWith {A B C} (f : A -> B -> C) da db dc : forall l m i, (i < length l)%nat -> (i < length m)%nat ->
  nth i (zipWith f l m) dc = f (nth i l da) (nth i m db).
Proof.
  induction l as [|x l IH]; intros m i Hl Hm; [simpl in Hl; lia|].
  destruct m as [|y m]; [simpl in Hm; lia|]. destruct i; [reflexivity|]. simpl. apply IH; simpl in *; lia.
Qed.

Lemma length_zipWith {A B C} (f : A -> B -> C) : forall l m, length (zipWith f l m) = Nat.min (length l) (length m).
Proof. induction l; intros [|y m]; simpl; auto. Qed.

Lemma forall_zipWith {A B C} (P : C -> Prop) (f : A -> B -> C) : (forall a b, P (f a b)) -> forall l m, Forall P (zipWith f l m).
Proof. intros H; induction l; intros [|y m]; simpl; constructor; auto. Qed.

Lemma release_words a b k : word_label a -> word_label b -> k < 65536 ->
  holds_words (wadd Release a b) (fun i => (word a i + word b i) mod 65536) /\
  holds_words (wsub Release a b) (fun i => (word a i + (65536 - word b i)) mod 65536) /\
  holds_words (wneg Release a) (fun i => (65536 - word a i) mod 65536) /\
  holds_words (wmul Release a k) (fun i => (k * word a i) mod 65536).
Proof.
  intros (_ & Da & La & Fa) (_ & Db & Lb & Fb) Hk.
  pose proof (length_u16s (wval a) 16 La) as La'. pose proof (length_u16s (wval b) 16 Lb) as Lb'.
  assert (Wb : forall i, (i < 16)%nat -> word b i < 65536).
  { intros i Hi. unfold word. rewrite Forall_forall in Fb.
    assert (nth (2 * i) (wval b) 0 < 256) by (apply Fb, nth_In; lia).
    assert (nth (2 * i + 1) (wval b) 0 < 256) by (apply Fb, nth_In; lia). lia. }
  unfold wadd, wsub, wneg, wmul. rewrite Da.
  unfold wmap2_16, wmap16, wire_domain. rewrite Da, !zipM_total, !mapM_total. cbn [obind].
  unfold debug_assert. cbn [is_debug obind]. unfold wrapping_add, wrapping_sub, wrapping_neg, wrapping_mul.
  change (2 ^ 16) with 65536.
  repeat split.
  - apply holds_build.
    + rewrite length_zipWith, La', Lb'. reflexivity.
    + apply forall_zipWith. intros; apply N.mod_lt; lia.
    + intros i Hi. rewrite (nth_zipWith _ 0 0) by lia. rewrite !(nth_to_u16s _ 16) by assumption. reflexivity.
  - apply holds_build.
    + rewrite length_zipWith, La', Lb'. reflexivity.
    + apply forall_zipWith. intros; apply N.mod_lt; lia.
    + intros i Hi. rewrite (nth_zipWith _ 0 0) by lia. rewrite !(nth_to_u16s _ 16) by assumption.
      change (nth (2 * i) (wval b) 0 + 256 * nth (2 * i + 1) (wval b) 0) with (word b i).
      change (nth (2 * i) (wval a) 0 + 256 * nth (2 * i + 1) (wval a) 0) with (word a i).
      f_equal. specialize (Wb i Hi). lia.
  - apply holds_build.
    + rewrite map_length. exact La'.
    + apply Forall_forall. intros x Hx. apply in_map_iff in Hx. destruct Hx as (y & <- & _). apply N.mod_lt; lia.
    + intros i Hi. rewrite (nth_indep _ 0 ((65536 - 0) mod 65536)) by (rewrite map_length; lia).
      rewrite (map_nth (fun x => (65536 - x) mod 65536)). rewrite (nth_to_u16s _ 16) by assumption. reflexivity.
  - destruct (65536 <=? k) eqn:E; [apply N.leb_le in E; lia|].
    apply holds_build.
    + rewrite map_length. exact La'.
    + apply Forall_forall. intros x Hx. apply in_map_iff in Hx. destruct Hx as (y & <- & _). apply N.mod_lt; lia.
    + intros i Hi. rewrite (nth_indep _ 0 ((k * 0) mod 65536)) by (rewrite map_length; lia).
      rewrite (map_nth (fun x => (k * x) mod 65536)). rewrite (nth_to_u16s _ 16) by assumption. reflexivity.
Qed.
