(** Basic lemmas about outcomes, lists and encodings. *)
From Coq Require Import List NArith Bool Arith Lia ZifyBool ZifyNat ZifyN.
From Verif Require Import Base.
Import ListNotations.
Open Scope N_scope.

(** ** Lists *)
Lemma zipWith_length {A B C} (f : A -> B -> C) l m :
  length (zipWith f l m) = Nat.min (length l) (length m).
Proof. revert m; induction l; destruct m; simpl; auto. Qed.

Lemma zipWith_nth {A B C} (f : A -> B -> C) l m i da db dc :
  (i < length l)%nat -> (i < length m)%nat ->
  nth i (zipWith f l m) dc = f (nth i l da) (nth i m db).
Proof.
  revert m i; induction l; destruct m; simpl; intros; try lia.
  destruct i; auto. apply IHl; lia.
Qed.

Lemma zipWith_comm {A C} (f : A -> A -> C) l m :
  (forall x y, f x y = f y x) -> zipWith f l m = zipWith f m l.
Proof. intros H; revert m; induction l; destruct m; simpl; auto. rewrite H, IHl; auto. Qed.

Lemma zipWith_app {A B C} (f : A -> B -> C) l1 l2 m1 m2 :
  length l1 = length m1 -> zipWith f (l1 ++ l2) (m1 ++ m2) = zipWith f l1 m1 ++ zipWith f l2 m2.
Proof. revert m1; induction l1; destruct m1; simpl; intros; try discriminate; auto.
  rewrite IHl1; auto. Qed.

Lemma zipWith_nil_r {A B C} (f : A -> B -> C) l : zipWith f l [] = [].
Proof. destruct l; auto. Qed.

Lemma firstn_zipWith {A B C} (f : A -> B -> C) n l m :
  firstn n (zipWith f l m) = zipWith f (firstn n l) (firstn n m).
Proof. revert l m; induction n; destruct l, m; simpl; auto. rewrite IHn; auto. Qed.

Lemma skipn_zipWith {A B C} (f : A -> B -> C) n l m :
  skipn n (zipWith f l m) = zipWith f (skipn n l) (skipn n m).
Proof. revert l m; induction n; destruct l, m; simpl; auto.
  now rewrite zipWith_nil_r. Qed.

Lemma zipWith_map_lr {A B C A' B'} (f : A -> B -> C) (g : A' -> A) (h : B' -> B) l m :
  zipWith f (map g l) (map h m) = zipWith (fun x y => f (g x) (h y)) l m.
Proof. revert m; induction l; destruct m; simpl; auto. now rewrite IHl. Qed.

Lemma map_zipWith {A B C D} (h : C -> D) (f : A -> B -> C) l m :
  map h (zipWith f l m) = zipWith (fun x y => h (f x y)) l m.
Proof. revert m; induction l; destruct m; simpl; auto. now rewrite IHl. Qed.

Lemma zipWith_ext_in {A B C} (f g : A -> B -> C) l m :
  (forall x y, In x l -> In y m -> f x y = g x y) -> zipWith f l m = zipWith g l m.
Proof.
  revert m; induction l; destruct m; simpl; intros H; auto.
  f_equal; auto.
Qed.

Lemma zipWith_same {A C} (f : A -> A -> C) l : zipWith f l l = map (fun x => f x x) l.
Proof. induction l; simpl; auto. now rewrite IHl. Qed.

Lemma Forall_zipWith {A B C} (P : A -> Prop) (Q : B -> Prop) (R : C -> Prop) (f : A -> B -> C) l m :
  (forall x y, P x -> Q y -> R (f x y)) -> Forall P l -> Forall Q m -> Forall R (zipWith f l m).
Proof.
  intros H Hl; revert m; induction Hl; simpl; intros m Hm; auto.
  destruct Hm; constructor; auto.
Qed.

Lemma Forall_nth_in {A} (P : A -> Prop) l i d : Forall P l -> (i < length l)%nat -> P (nth i l d).
Proof. intros H Hi. rewrite Forall_forall in H. apply H, nth_In; auto. Qed.

Lemma Forall_repeat {A} (P : A -> Prop) x n : P x -> Forall P (repeat x n).
Proof. induction n; simpl; auto. Qed.

Lemma nth_ext_eq {A} (l m : list A) d :
  length l = length m -> (forall i, (i < length l)%nat -> nth i l d = nth i m d) -> l = m.
Proof. intros; eapply nth_ext; eauto. Qed.

Lemma set_nth_length {A} (l : list A) i x : length (set_nth l i x) = length l.
Proof. revert i; induction l; destruct i; simpl; auto. Qed.

Lemma set_nth_nth {A} (l : list A) i j x d :
  (i < length l)%nat -> nth j (set_nth l i x) d = if Nat.eqb j i then x else nth j l d.
Proof.
  revert i j; induction l; simpl; intros; try lia.
  destruct i, j; simpl; auto. apply IHl; lia.
Qed.

Lemma set_nth_nth_error {A} (l : list A) i j x :
  (i < length l)%nat -> nth_error (set_nth l i x) j = if Nat.eqb j i then Some x else nth_error l j.
Proof.
  revert i j; induction l; simpl; intros; try lia.
  destruct i, j; simpl; auto. apply IHl; lia.
Qed.

Lemma set_nth_app_l {A} (l m : list A) i x :
  (i < length l)%nat -> set_nth (l ++ m) i x = set_nth l i x ++ m.
Proof. revert i; induction l; simpl; intros; try lia. destruct i; simpl; auto.
  rewrite IHl; auto; lia. Qed.

Lemma set_nth_app_r {A} (l m : list A) i x :
  (length l <= i)%nat -> set_nth (l ++ m) i x = l ++ set_nth m (i - length l) x.
Proof. revert i; induction l; simpl; intros. - now rewrite Nat.sub_0_r.
  - destruct i; simpl; try lia. rewrite IHl; auto; lia. Qed.

Lemma nth_set_nth_same {A} (l : list A) i x d : (i < length l)%nat -> nth i (set_nth l i x) d = x.
Proof. intros. rewrite set_nth_nth by auto. now rewrite Nat.eqb_refl. Qed.
Lemma nth_set_nth_other {A} (l : list A) i j x d : j <> i -> nth j (set_nth l i x) d = nth j l d.
Proof.
  revert i j. induction l; intros i j H; destruct i, j; simpl; auto; try congruence.
Qed.
Lemma firstn_set_nth {A} (l : list A) i x : (i < length l)%nat ->
  firstn (S i) (set_nth l i x) = firstn i l ++ [x].
Proof. revert i. induction l; intros [|i] H; simpl in *; auto; try lia. f_equal. apply IHl. lia. Qed.
Lemma set_nth_In {A} (l : list A) i x y : In y (set_nth l i x) -> y = x \/ In y l.
Proof. revert i; induction l; destruct i; simpl; intuition. apply IHl in H0; intuition. Qed.

Lemma Forall_set_nth {A} (P : A -> Prop) l i x : Forall P l -> P x -> Forall P (set_nth l i x).
Proof. intros Hl Hx; revert i; induction Hl; destruct i; simpl; auto. Qed.

Lemma Forall_firstn {A} (P : A -> Prop) n l : Forall P l -> Forall P (firstn n l).
Proof. revert l; induction n; simpl; intros; auto. destruct H; auto. Qed.
Lemma Forall_skipn {A} (P : A -> Prop) n l : Forall P l -> Forall P (skipn n l).
Proof. revert l; induction n; simpl; intros; auto. destruct H; auto. Qed.

Lemma firstn_S {A} (l : list A) k a : nth_error l k = Some a -> firstn (S k) l = firstn k l ++ [a].
Proof.
  revert l; induction k; destruct l; intros H; try discriminate.
  - now inversion H.
  - change (a0 :: firstn (S k) l = a0 :: (firstn k l ++ [a])). f_equal. apply IHk. exact H.
Qed.

Lemma firstn_app_le {A} (l m : list A) n : (n <= length l)%nat -> firstn n (l ++ m) = firstn n l.
Proof. intros. rewrite firstn_app. replace (n - length l)%nat with 0%nat by lia. simpl. apply app_nil_r. Qed.

Lemma nth_skipn {A} (l : list A) n i d : nth i (skipn n l) d = nth (n + i) l d.
Proof. revert l; induction n; destruct l; simpl; auto. destruct i; auto. Qed.
Lemma nth_firstn {A} (l : list A) n i d : (i < n)%nat -> nth i (firstn n l) d = nth i l d.
Proof. revert l i; induction n; destruct l, i; simpl; intros; auto; try lia. apply IHn; lia. Qed.

Lemma nth_error_nth_lt {A} (l : list A) i d : (i < length l)%nat -> nth_error l i = Some (nth i l d).
Proof. intros; apply nth_error_nth'; auto. Qed.

Lemma idx_lt {A} (l : list A) i d : (i < length l)%nat -> idx l i = Ok (nth i l d).
Proof. intros; unfold idx. rewrite (nth_error_nth' l d); auto. Qed.
Lemma idx_inv {A} (l : list A) i a : idx l i = Ok a -> nth_error l i = Some a.
Proof. unfold idx, unwrap. destruct nth_error; congruence. Qed.
Lemma idx_ge {A} (l : list A) i : (length l <= i)%nat -> idx l i = Panic PIndex.
Proof. intros; unfold idx. apply nth_error_None in H. now rewrite H. Qed.

Lemma set_idx_lt {A} (l : list A) i x : (i < length l)%nat -> set_idx l i x = Ok (set_nth l i x).
Proof. intros; unfold set_idx. apply Nat.ltb_lt in H. now rewrite H. Qed.

(** ** Outcomes *)
Lemma obind_Ok {A B} (x : outcome A) (k : A -> outcome B) b :
  obind x k = Ok b -> exists a, x = Ok a /\ k a = Ok b.
Proof. destruct x; simpl; try discriminate; eauto. Qed.

Lemma mapM_Ok {A B} (f : A -> outcome B) (g : A -> B) l :
  (forall a, In a l -> f a = Ok (g a)) -> mapM f l = Ok (map g l).
Proof.
  induction l; simpl; intros H; auto.
  rewrite H, IHl; simpl; auto.
Qed.

Lemma mapM_length {A B} (f : A -> outcome B) l m : mapM f l = Ok m -> length m = length l.
Proof.
  revert m; induction l; simpl; intros m H.
  - now inversion H.
  - apply obind_Ok in H as (b & _ & H). apply obind_Ok in H as (bs & Hb & H).
    inversion H; subst; simpl; auto.
Qed.

Lemma mapM_nth_error {A B} (f : A -> outcome B) l m i a :
  mapM f l = Ok m -> nth_error l i = Some a -> exists b, nth_error m i = Some b /\ f a = Ok b.
Proof.
  revert m i; induction l; simpl; intros m i H Hi.
  - destruct i; discriminate.
  - apply obind_Ok in H as (b & Hb & H). apply obind_Ok in H as (bs & Hbs & H).
    inversion H; subst. destruct i; simpl in *.
    + inversion Hi; subst; eauto.
    + eauto.
Qed.

Lemma mapM_app {A B} (f : A -> outcome B) l1 l2 :
  mapM f (l1 ++ l2) = (let* a := mapM f l1 in let* b := mapM f l2 in Ok (a ++ b)).
Proof.
  induction l1; simpl.
  - destruct (mapM f l2); auto.
  - destruct (f a); simpl; auto. rewrite IHl1.
    destruct (mapM f l1); simpl; auto. destruct (mapM f l2); simpl; auto.
Qed.

Lemma mapM_map {A B C} (f : B -> outcome C) (g : A -> B) l : mapM f (map g l) = mapM (fun a => f (g a)) l.
Proof. induction l; simpl; auto. now rewrite IHl. Qed.

Lemma mapM_ext {A B} (f g : A -> outcome B) l :
  (forall a, In a l -> f a = g a) -> mapM f l = mapM g l.
Proof. induction l; simpl; intros H; auto. rewrite H, IHl; auto. Qed.

Lemma zipM_Ok {A B C} (f : A -> B -> outcome C) (g : A -> B -> C) l m :
  (forall a b, In a l -> In b m -> f a b = Ok (g a b)) -> zipM f l m = Ok (zipWith g l m).
Proof.
  revert m; induction l; destruct m; simpl; intros H; auto.
  rewrite H; simpl; auto. rewrite IHl; simpl; auto.
Qed.

Lemma zipM_seq {A B C} (f : A -> B -> outcome C) (h : nat -> C) da db l m :
  length l = length m ->
  (forall i, (i < length l)%nat -> f (nth i l da) (nth i m db) = Ok (h i)) ->
  zipM f l m = Ok (map h (seq 0 (length l))).
Proof.
  intros Hl H.
  assert (G : forall l m off, length l = length m ->
    (forall i, (i < length l)%nat -> f (nth i l da) (nth i m db) = Ok (h (off + i)%nat)) ->
    zipM f l m = Ok (map h (seq off (length l)))).
  { clear. induction l; destruct m; intros off Hl H; try discriminate; auto.
    cbn [zipM length seq map]. pose proof (H 0%nat ltac:(simpl; lia)) as H0. cbn [nth] in H0.
    rewrite Nat.add_0_r in H0. rewrite H0. cbn [obind].
    rewrite (IHl m (S off)); auto. intros i Hi. specialize (H (S i) ltac:(simpl; lia)). cbn [nth] in H.
    replace (S off + i)%nat with (off + S i)%nat by lia. auto. }
  apply (G l m 0%nat); auto.
Qed.

Lemma foldM_app {A S} (f : S -> A -> outcome S) l1 l2 s :
  foldM f (l1 ++ l2) s = (let* s' := foldM f l1 s in foldM f l2 s').
Proof. revert s; induction l1; simpl; intros; auto. destruct (f s a); simpl; auto. Qed.

Lemma foldM_Ok {A S} (f : S -> A -> outcome S) (g : S -> A -> S) l s :
  (forall s a, In a l -> f s a = Ok (g s a)) -> foldM f l s = Ok (fold_left g l s).
Proof. revert s; induction l; simpl; intros; auto. rewrite H; simpl; auto. Qed.

(** Invariant rule for [foldM]: the invariant may mention the number of processed elements. *)
Lemma foldM_inv {A S} (f : S -> A -> outcome S) (I : nat -> S -> Prop) (l : list A) s0 :
  I 0%nat s0 ->
  (forall k a s, nth_error l k = Some a -> I k s -> exists s', f s a = Ok s' /\ I (Datatypes.S k) s') ->
  exists s', foldM f l s0 = Ok s' /\ I (length l) s'.
Proof.
  revert s0 I; induction l; simpl; intros s0 I H0 Hs.
  - eauto.
  - destruct (Hs 0%nat a s0 eq_refl H0) as (s1 & E1 & I1). rewrite E1; simpl.
    apply (IHl s1 (fun k => I (Datatypes.S k))); auto.
Qed.

(** ** Byte strings *)
Lemma bytes_eqb_eq a b : bytes_eqb a b = true <-> a = b.
Proof.
  revert b; induction a; destruct b; simpl; split; intros; try congruence.
  - apply andb_true_iff in H as [H1 H2]. apply N.eqb_eq in H1. apply IHa in H2. congruence.
  - inversion H; subst. rewrite N.eqb_refl. simpl. now apply IHa.
Qed.

Lemma bytes_eqb_refl a : bytes_eqb a a = true.
Proof. now apply bytes_eqb_eq. Qed.

Lemma bytes_eqb_neq a b : bytes_eqb a b = false <-> a <> b.
Proof. rewrite <- bytes_eqb_eq. destruct (bytes_eqb a b); split; congruence. Qed.

Lemma be_bytes_length k n : length (be_bytes k n) = k.
Proof. induction k; simpl; auto. Qed.
Lemma le_bytes_length k n : length (le_bytes k n) = k.
Proof. revert n; induction k; simpl; auto. Qed.

Lemma be_bytes_ok k n : bytes_ok (be_bytes k n).
Proof. induction k; simpl; constructor; auto. apply N.mod_lt; lia. Qed.
Lemma le_bytes_ok k n : bytes_ok (le_bytes k n).
Proof. revert n; induction k; simpl; constructor. - apply N.mod_lt; lia. - apply IHk. Qed.

Lemma le_value_bytes k n : n < 2 ^ (8 * N.of_nat k) -> le_value (le_bytes k n) = n.
Proof.
  revert n; induction k; intros n H.
  - simpl in *. change (8 * N.of_nat 0) with 0 in H. rewrite N.pow_0_r in H. lia.
  - cbn [le_bytes le_value]. rewrite IHk.
    + pose proof (N.div_mod n 256). lia.
    + replace (8 * N.of_nat (S k)) with (8 + 8 * N.of_nat k) in H by lia.
      rewrite N.pow_add_r in H. change (2 ^ 8) with 256 in H.
      apply N.div_lt_upper_bound; lia.
Qed.

Lemma le_value_lt l : bytes_ok l -> le_value l < 2 ^ (8 * N.of_nat (length l)).
Proof.
  induction 1; cbn [le_value length].
  - change (8 * N.of_nat 0) with 0. rewrite N.pow_0_r. lia.
  - replace (8 * N.of_nat (S (length l))) with (8 + 8 * N.of_nat (length l)) by lia.
    rewrite N.pow_add_r. change (2 ^ 8) with 256. unfold byte_ok in H. nia.
Qed.

Lemma le_bytes_value l : bytes_ok l -> le_bytes (length l) (le_value l) = l.
Proof.
  induction 1; cbn [le_value length le_bytes]; auto.
  unfold byte_ok in H.
  replace ((x + 256 * le_value l) mod 256) with x.
  - replace ((x + 256 * le_value l) / 256) with (le_value l).
    + now rewrite IHForall.
    + apply N.div_unique with x; lia.
  - apply N.mod_unique with (le_value l); lia.
Qed.

Lemma be_bytes_inj k a b :
  a < 2 ^ (8 * N.of_nat k) -> b < 2 ^ (8 * N.of_nat k) -> be_bytes k a = be_bytes k b -> a = b.
Proof.
  revert a b.
  assert (G : forall k a b, be_bytes k a = be_bytes k b -> a mod 2 ^ (8 * N.of_nat k) = b mod 2 ^ (8 * N.of_nat k)).
  { clear. induction k; intros a b H.
    - change (8 * N.of_nat 0) with 0. rewrite N.pow_0_r, !N.mod_1_r. reflexivity.
    - cbn [be_bytes] in H. inversion H as [[H1 H2]].
      replace (8 * N.of_nat (S k)) with (8 * N.of_nat k + 8) by lia.
      rewrite N.pow_add_r. change (2 ^ 8) with 256.
      rewrite !N.mod_mul_r by (try apply N.pow_nonzero; lia).
      rewrite H1, (IHk a b); auto. }
  intros a b Ha Hb H. apply G in H. rewrite !N.mod_small in H; auto.
Qed.

Lemma app_inj_len {A} (a b c d : list A) : length a = length c -> a ++ b = c ++ d -> a = c /\ b = d.
Proof.
  revert c; induction a; destruct c; simpl; intros; try discriminate; auto.
  inversion H0; subst. destruct (IHa c); auto. subst; auto.
Qed.

(** ** Association lists *)
Lemma alookup_ainsert_same {K V} (eqb : K -> K -> bool) k (v : V) m :
  eqb k k = true -> alookup eqb k (ainsert eqb k v m) = Some v.
Proof. intros H. unfold ainsert; simpl. now rewrite H. Qed.

Lemma alookup_ainsert_other {K V} (eqb : K -> K -> bool) k k' (v : V) m :
  (forall x y, eqb x y = true <-> x = y) -> k <> k' ->
  alookup eqb k (ainsert eqb k' v m) = alookup eqb k m.
Proof.
  intros He Hn. unfold ainsert; simpl.
  destruct (eqb k k') eqn:E. { apply He in E; congruence. }
  induction m as [|[k2 v2] m IH]; simpl; auto.
  destruct (eqb k' k2) eqn:E2; simpl.
  - apply He in E2; subst. rewrite E. auto.
  - destruct (eqb k k2); auto.
Qed.
