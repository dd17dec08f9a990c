(** No undefined behaviour in the oblivious transfers, for all frames of the peer (C100). *)
From Coq Require Import List NArith Bool Arith Lia.
From Verif Require Import Base MUtil MWires MBitMatrix MPoly MPar MBincode MProc MOt MApricot MClassic MMany SpecOt SpecBounds PBase PPar PEnds SpecEnds.
Import ListNotations.
Open Scope N_scope.

(** ** Outcomes *)
Definition keeps {A} (P : A -> Prop) (o : outcome A) : Prop :=
  match o with Ok a => P a | UB => False | _ => True end.
Lemma keeps_bind {A B} (P : A -> Prop) (Q : B -> Prop) o f : keeps P o -> (forall a, P a -> keeps Q (f a)) -> keeps Q (obind o f).
Proof. destruct o; cbn; auto. Qed.
Lemma keeps_weak {A} (P Q : A -> Prop) o : keeps P o -> (forall a, P a -> Q a) -> keeps Q o.
Proof. destruct o; cbn; auto. Qed.
Lemma keeps_not_UB {A} (P : A -> Prop) o : keeps P o -> o <> UB.
Proof. now intros H ->. Qed.
Lemma keeps_any {A} (o : outcome A) : o <> UB -> keeps (fun _ => True) o.
Proof. destruct o; cbn; auto; congruence. Qed.
Lemma keeps_assert p b : keeps (fun _ => True) (debug_assert p b).
Proof. destruct p, b; cbn; auto. Qed.
Lemma keeps_assert_ b : keeps (fun _ => True) (assert_ b).
Proof. destruct b; cbn; auto. Qed.
Lemma keeps_idx {A} (l : list A) i : keeps (fun a => nth_error l i = Some a) (idx l i).
Proof. unfold idx. destruct (nth_error l i); cbn; auto. Qed.
Lemma set_nth_len {A} (l : list A) : forall i x, length (set_nth l i x) = length l.
Proof. induction l; intros [|i] x; cbn; auto. Qed.
Lemma keeps_set {A} (l : list A) i x : keeps (fun l' => l' = set_nth l i x) (set_idx l i x).
Proof. unfold set_idx. destruct (Nat.ltb i (length l)); cbn; auto. Qed.
Lemma keeps_udiv a b : keeps (fun q => q = (a / b)%nat) (udiv a b).
Proof. unfold udiv. destruct (Nat.eqb b 0); cbn; auto. Qed.
Lemma keeps_foldM {A S} (f : S -> A -> outcome S) (I : S -> Prop) l : forall s, I s ->
  (forall s a, In a l -> I s -> keeps I (f s a)) -> keeps I (foldM f l s).
Proof.
  induction l as [|a l IH]; intros s Hs H; [exact Hs|].
  cbn [foldM]. apply (keeps_bind I); [apply H; [now left|exact Hs]|].
  intros s' Hs'. apply IH; [exact Hs'|]. intros; apply H; [now right|assumption].
Qed.
Lemma keeps_mapM {A B} (f : A -> outcome B) (R : A -> B -> Prop) l :
  (forall a, In a l -> keeps (R a) (f a)) -> keeps (Forall2 R l) (mapM f l).
Proof.
  induction l as [|a l IH]; intros H; [cbn; auto|].
  cbn [mapM]. apply (keeps_bind (R a)); [apply H; now left|]. intros b Hb.
  apply (keeps_bind (Forall2 R l)); [apply IH; intros; apply H; now right|].
  intros m Hm. cbn. auto.
Qed.
Lemma keeps_zipM {A B C} (f : A -> B -> outcome C) l : forall m,
  (forall a b, keeps (fun _ => True) (f a b)) -> keeps (fun _ => True) (zipM f l m).
Proof.
  induction l as [|a l IH]; intros [|b m] H; cbn [zipM]; try exact I.
  apply (keeps_bind (fun _ => True)); [apply H|]. intros c _.
  apply (keeps_bind (fun _ => True)); [now apply IH|]. intros; exact I.
Qed.

Lemma zip_len {A B C} (f : A -> B -> C) l : forall m, length (zipWith f l m) = Nat.min (length l) (length m).
Proof. induction l; intros [|b m]; cbn; auto. Qed.
Lemma keeps_xor_inplace p d r : keeps (fun x => length x = length d) (xor_inplace p d r).
Proof.
  unfold xor_inplace. apply (keeps_bind (fun _ => True)); [apply keeps_assert|]. intros _ _.
  destruct (Nat.ltb_spec (length d) (length r)); cbn; [exact I|].
  rewrite app_length, zip_len, skipn_length. lia.
Qed.
Lemma keeps_ap_xor p d l r : keeps (fun x => length x = length d) (ap_xor p d l r).
Proof.
  unfold ap_xor. do 2 (apply (keeps_bind (fun _ => True)); [apply keeps_assert|]; intros _ _).
  destruct (Nat.ltb_spec (length r) (length l)), (Nat.ltb_spec (length d) (length l)); cbn; try exact I.
  rewrite app_length, zip_len, skipn_length. lia.
Qed.
Lemma keeps_xor_bytes p l r : keeps (fun x => length x = length l) (xor_bytes p l r).
Proof.
  unfold xor_bytes. apply (keeps_bind (fun _ => True)); [apply keeps_assert|]. intros _ _.
  destruct (Nat.ltb_spec (length r) (length l)); cbn; [exact I|]. rewrite zip_len. lia.
Qed.
Lemma keeps_vector_row v i w : (w * i + w <= length v)%nat -> keeps (fun r => length r = w) (vector_row v i w).
Proof. intros H. rewrite vector_row_ok by exact H. cbn. now apply frow_length. Qed.
Lemma keeps_rows v h w f n : length v = n -> (w * h <= n)%nat ->
  (forall i row, (i < h)%nat -> length row = w -> keeps (fun r => length r = w) (f i row)) ->
  keeps (fun v' => length v' = n) (update_rows v h w f).
Proof.
  intros Lv Hn Hf. unfold update_rows. apply keeps_foldM; [exact Lv|].
  intros s i Hi Ls. apply in_seq in Hi. unfold row_step.
  assert (B : (w * i + w <= length s)%nat).
  { rewrite <- Nat.mul_succ_r. transitivity (w * h)%nat; [apply Nat.mul_le_mono_l|]; lia. }
  apply (keeps_bind (fun r => length r = w)); [now apply keeps_vector_row|]. intros row Lr.
  apply (keeps_bind (fun r => length r = w)); [apply Hf; [lia|exact Lr]|]. intros new Ln.
  rewrite vector_row_set_ok by exact B. cbn. rewrite !app_length, firstn_length, skipn_length. lia.
Qed.

Lemma chunk_place {A} k : (1 <= k)%nat -> forall fuel (l : list A) ci c, nth_error (chunks_fuel fuel k l) ci = Some c ->
  (ci * k + length c <= length l)%nat.
Proof.
  intros Hk. induction fuel as [|fuel IH]; intros l ci c H; [destruct ci; discriminate|].
  cbn [chunks_fuel] in H. destruct l as [|x l]; [destruct ci; discriminate|]. remember (x :: l) as l0.
  destruct ci as [|ci]; cbn in H; [injection H as <-; rewrite firstn_length; lia|].
  pose proof (IH _ _ _ H) as B. rewrite skipn_length in B.
  destruct (Nat.le_gt_cases k (length l0)); [cbn [Nat.mul]; lia|].
  rewrite skipn_all2 in H by lia. rewrite chunks_nil in H. destruct ci; discriminate.
Qed.
Lemma chunks_total {A} k : (1 <= k)%nat -> forall fuel (l : list A), (length l <= fuel)%nat -> concat (chunks_fuel fuel k l) = l.
Proof.
  intros Hk. induction fuel as [|fuel IH]; intros l Hl; [destruct l; [reflexivity|cbn in Hl; lia]|].
  cbn [chunks_fuel]. destruct l as [|x l]; [reflexivity|]. remember (x :: l) as l0. cbn [concat].
  rewrite IH; [apply firstn_skipn|]. rewrite skipn_length. pose proof (f_equal (@length A) Heql0) as E; cbn [length] in E; lia.
Qed.
Lemma in_enumerate {A} (l : list A) i a : In (i, a) (enumerate l) -> nth_error l i = Some a.
Proof.
  intros H. apply In_nth_error in H. destruct H as [j H]. unfold enumerate in H.
  apply enum_from in H as H'. cbn in H'. destruct H' as [H1 H2]. subst. cbn in *. now rewrite ?Nat.add_0_l in *.
Qed.
Lemma keeps_chunks {A} k (l : list A) : keeps (fun cs => (1 <= k)%nat /\ cs = chunks_fuel (length l) k l) (chunks_mut k l).
Proof. unfold chunks_mut. destruct (Nat.eqb_spec k 0); cbn; [exact I|]. split; [lia|reflexivity]. Qed.
Lemma map_snd_enum {A} (l : list A) : map snd (enumerate l) = l.
Proof. unfold enumerate. assert (G : forall s, map snd (combine (seq s (length l)) l) = l); [|apply G].
  induction l; intros s; cbn; f_equal; auto. Qed.
Lemma forall2_lengths {A B} (R : A -> list B -> Prop) (g : A -> nat) l m : Forall2 R l m ->
  (forall a b, R a b -> length b = g a) -> length (concat m) = list_sum (map g l).
Proof. intros H G. induction H; cbn; [reflexivity|]. rewrite app_length, (G _ _ H). now f_equal. Qed.
Lemma concat_sum {A} (l : list (list A)) : length (concat l) = list_sum (map (@length A) l).
Proof. induction l; cbn; [reflexivity|]. rewrite app_length. now f_equal. Qed.

Lemma keeps_par_rows width ric buf work rows : length buf = (rows * width)%nat ->
  (forall r row, (r < rows)%nat -> length row = width -> keeps (fun x => length x = width) (work r row)) ->
  keeps (fun b => length b = length buf) (par_rows width ric buf work).
Proof.
  intros Lb Hw. unfold par_rows. eapply keeps_bind; [apply keeps_chunks|]. intros cs [Hk ->].
  apply (keeps_bind (Forall2 (fun c x => length x = length (snd c)) (enumerate (chunks_fuel (length buf) (ric * width) buf)))).
  - apply keeps_mapM. intros [ci c] Hin. cbn [fst snd]. apply in_enumerate in Hin.
    pose proof (chunk_place _ Hk _ _ _ _ Hin) as Hp.
    assert (W : (1 <= width)%nat) by nia.
    pose proof (Nat.div_mod (length c) width ltac:(lia)) as D.
    apply keeps_rows; [reflexivity|nia|]. intros i row Hi Lr. apply Hw; [|exact Lr]. nia.
  - intros rs HF. cbn. rewrite (forall2_lengths _ (fun c => length (snd c)) _ _ HF) by auto.
    rewrite <- map_map. rewrite map_snd_enum, <- concat_sum. now rewrite chunks_total.
Qed.
Lemma keeps_par_items {A} ric (l : list A) work :
  (forall r a, (r < length l)%nat -> In a l -> keeps (fun _ => True) (work r a)) -> keeps (fun _ => True) (par_items ric l work).
Proof.
  intros Hw. unfold par_items. eapply keeps_bind; [apply keeps_chunks|]. intros cs [Hk ->].
  eapply keeps_bind; [|intros; exact I].
  apply (keeps_weak (Forall2 (fun _ _ => True) (enumerate (chunks_fuel (length l) ric l)))); [|intros; exact I].
  apply keeps_mapM. intros [ci c] Hin. cbn [fst snd]. apply in_enumerate in Hin.
  pose proof (chunk_place _ Hk _ _ _ _ Hin) as Hp.
  eapply keeps_weak; [apply (keeps_mapM _ (fun _ _ => True))|intros; exact I].
  intros [i a] Hia. cbn [fst snd]. apply in_enumerate in Hia.
  assert (i < length c)%nat by (apply nth_error_Some; congruence).
  apply Hw; [nia|].
  rewrite <- (chunks_total ric Hk (length l) l (le_n _)). apply in_concat. exists c.
  split; [eapply nth_error_In; eassumption|eapply nth_error_In; eassumption].
Qed.

(** ** Processes: [i] counts the frames received so far, [C i] is known of frame [i]. *)
Fixpoint holds {A} (C : nat -> bytes -> Prop) (i : nat) (p : proc A) (Q : nat -> A -> Prop) : Prop :=
  match p with
  | Done o => keeps (Q i) o
  | Snd _ k => holds C i k Q
  | Rcv k => (forall m, C i m -> holds C (S i) (k (Some m)) Q) /\ holds C i (k None) Q
  end.
Lemma holds_bind {A B} C (p : proc A) (f : A -> proc B) R Q : forall i, holds C i p R ->
  (forall j a, R j a -> holds C j (f a) Q) -> holds C i (pbind p f) Q.
Proof.
  induction p as [o|m k IH|k IH]; intros i H F; cbn in *.
  - destruct o; cbn in *; auto.
  - auto.
  - destruct H as [H1 H2]. split; [intros m Hm|]; apply IH; auto.
Qed.
Lemma holds_weak {A} C (p : proc A) (R Q : nat -> A -> Prop) : forall i, holds C i p R -> (forall j a, R j a -> Q j a) -> holds C i p Q.
Proof.
  induction p as [o|m k IH|k IH]; intros i H F; cbn in *.
  - eapply keeps_weak; eauto.
  - auto.
  - destruct H as [H1 H2]. split; [intros m Hm|]; apply IH; auto.
Qed.
Lemma holds_feed {A} C (p : proc A) Q : forall i ins, holds C i p Q ->
  (forall j m, nth_error ins j = Some m -> C (i + j)%nat m) -> fst (feed p ins) <> UB.
Proof.
  induction p as [o|m k IH|k IH]; intros i ins H F; cbn [feed holds] in *.
  - now apply keeps_not_UB in H.
  - specialize (IH i ins H F). now destruct (feed k ins).
  - destruct H as [H1 H2]. destruct ins as [|m ins].
    + apply (IH None i); auto.
    + apply (IH (Some m) (S i)).
      * apply H1. rewrite <- (Nat.add_0_r i). now apply F.
      * intros j m' Hj. replace (S i + j)%nat with (i + S j)%nat by lia. now apply F.
Qed.
Lemma holds_lift {A} C i (o : outcome A) (P : A -> Prop) : keeps P o -> holds C i (lift o) (fun j a => j = i /\ P a).
Proof. intros H. cbn. eapply keeps_weak; eauto. Qed.
Lemma holds_send C i m : holds C i (send m) (fun j _ => j = i).
Proof. reflexivity. Qed.
Lemma holds_recv C i : holds C i recv (fun j m => j = S i /\ C i m).
Proof. cbn. auto. Qed.
Lemma holds_recv_unwrap C i : holds C i recv_unwrap (fun j m => j = S i /\ C i m).
Proof. cbn. auto. Qed.
Lemma holds_send_all C ms i : holds C i (send_all ms) (fun j _ => j = i).
Proof. induction ms; cbn; auto. Qed.
Lemma holds_recv_each {A} C (rx : proc bytes) (f : bytes -> outcome A) (P : A -> Prop) :
  (forall i, holds C i rx (fun j m => j = S i /\ C i m)) -> (forall m, keeps P (f m)) ->
  forall n i, holds C i (recv_each rx f n) (fun j l => j = (i + n)%nat /\ Forall P l /\ length l = n).
Proof.
  intros Hr Hf. induction n as [|n IH]; intros i; cbn [recv_each].
  - cbn. split; [lia|auto].
  - eapply holds_bind; [apply Hr|]. intros j m [-> Hm].
    eapply holds_bind; [apply holds_lift, Hf|]. intros j a [-> Ha].
    eapply holds_bind; [apply IH|]. intros j l (-> & Hl & Ll). cbn. repeat split; [lia|auto|lia].
Qed.

Lemma mild_keeps {A} (o : outcome A) : mild o -> keeps (fun a => o = Ok a) o.
Proof. intros [[a ->]|[e ->]]; cbn; auto. Qed.
Lemma keeps_deserialize {A} (d : parser A) m : gentle d -> keeps (fun a => deserialize d m = Ok a) (deserialize d m).
Proof. intros G. now apply mild_keeps, mild_deserialize. Qed.

Lemma holds_validate C i pb : holds C i (validate_properties pb) (fun j _ => j = S i).
Proof.
  unfold validate_properties. eapply holds_bind; [apply holds_send|]. intros ? _ ->.
  eapply holds_bind; [apply holds_recv|]. intros ? m [-> _].
  eapply holds_bind; [apply holds_lift, keeps_deserialize, gentle_props|]. intros ? pb2 [-> _].
  destruct (props_eqb pb2 pb); cbn; auto.
Qed.
Lemma holds_coin_sender C sha n v i : holds C i (coinflip_sender sha n v) (fun j _ => j = S i).
Proof.
  unfold coinflip_sender. eapply holds_bind; [apply holds_send|]. intros ? _ ->.
  eapply holds_bind; [apply holds_recv|]. intros ? m [-> _].
  destruct (negb _); cbn; auto.
Qed.
Lemma holds_coin_receiver C sha n v i : holds C i (coinflip_receiver sha n v) (fun j _ => j = S (S i)).
Proof.
  unfold coinflip_receiver. eapply holds_bind; [apply holds_recv|]. intros ? m [-> _].
  eapply holds_bind; [apply holds_send|]. intros ? _ ->.
  eapply holds_bind; [apply holds_recv|]. intros ? m' [-> _].
  destruct (negb _); cbn; auto. destruct (negb _); cbn; auto.
Qed.

Lemma keeps_unwrap {A} r (o : option A) : keeps (fun _ => True) (unwrap r o).
Proof. destruct o; cbn; auto. Qed.
Lemma keeps_from_slice m : keeps (fun _ => True) (from_slice m).
Proof. unfold from_slice. destruct (Nat.eqb _ _); cbn; auto. Qed.

Section Base.
Variable sha : bytes -> bytes.
Variable gen : bytes -> nat -> bytes.
Variable G : curve.
Variable p : profile.

Lemma keeps_encrypt R A k m : keeps (fun _ => True) (co_encrypt sha gen G p R A k m).
Proof.
  unfold co_encrypt. eapply keeps_bind; [apply keeps_unwrap|]. intros ? _.
  eapply keeps_bind; [apply keeps_unwrap|]. intros ? _. cbv zeta.
  eapply keeps_bind; [apply keeps_xor_bytes|]. intros ? _.
  eapply keeps_bind; [apply keeps_xor_bytes|]. intros ? _. exact I.
Qed.
Lemma holds_co_sender C rs msgs i : holds C i (co_sender sha gen G p rs msgs) (fun j _ => j = (i + 1 + length msgs)%nat).
Proof.
  unfold co_sender. cbv zeta. eapply holds_bind; [apply holds_validate|]. intros ? _ ->.
  eapply holds_bind; [apply holds_send_all|]. intros ? _ ->.
  eapply holds_bind; [apply holds_recv_each; [apply holds_recv_unwrap|apply keeps_from_slice]|]. intros ? theirs (-> & _ & _).
  eapply holds_bind; [apply holds_lift, keeps_assert_|]. intros ? _ [-> _].
  eapply holds_bind; [apply holds_lift, (keeps_mapM _ (fun _ _ => True))|].
  - intros [k m] _. eapply keeps_bind; [apply keeps_idx|]. intros ? _.
    eapply keeps_bind; [apply keeps_idx|]. intros ? _. apply keeps_encrypt.
  - intros ? pay [-> _]. eapply holds_weak; [apply holds_send|]. cbn. intros; lia.
Qed.
Lemma keeps_answer k c P : keeps (fun _ => True) (co_answer sha G k c P).
Proof. unfold co_answer. eapply keeps_bind; [apply keeps_unwrap|]. intros ? _. exact I. Qed.
Lemma holds_co_receiver (C : nat -> bytes -> Prop) rs cs i b :
  (forall m pay, C (i + 1 + length cs)%nat m -> deserialize dec_payload m = Ok pay -> forall c0 c1, In (c0, c1) pay -> (b <= length c0 /\ b <= length c1)%nat) ->
  holds C i (co_receiver sha gen G p rs cs) (fun j l => j = (i + 2 + length cs)%nat /\ Forall (fun x : bytes => b <= length x)%nat l).
Proof.
  intros HC. unfold co_receiver. cbv zeta. eapply holds_bind; [apply holds_validate|]. intros ? _ ->.
  eapply holds_bind; [apply holds_recv_each; [apply holds_recv_unwrap|apply keeps_from_slice]|]. intros ? theirs (-> & _ & _).
  eapply holds_bind; [apply holds_lift, keeps_assert|]. intros ? _ [-> _].
  eapply holds_bind; [apply holds_lift, (keeps_mapM _ (fun _ _ => True))|].
  { intros [k P] _. eapply keeps_bind; [apply keeps_idx|]. intros ? _. apply keeps_answer. }
  intros ? answers [-> _].
  eapply holds_bind; [apply holds_send_all|]. intros ? _ ->.
  eapply holds_bind; [apply holds_recv|]. intros ? m [-> Cm].
  eapply holds_bind; [apply holds_lift, keeps_deserialize, gentle_payload|]. intros ? pay [-> Dm].
  eapply holds_weak; [apply holds_lift, (keeps_mapM _ (fun _ x => (b <= length x)%nat))|].
  - intros [k [c0 c1]] Hin. apply in_combine_r in Hin.
    replace (S i + length cs)%nat with (i + 1 + length cs)%nat in Cm by lia.
    destruct (HC m pay Cm Dm _ _ Hin) as [B0 B1].
    eapply keeps_bind; [apply keeps_idx|]. intros c _. cbv zeta.
    eapply keeps_bind; [apply keeps_idx|]. intros key _.
    eapply keeps_weak; [apply keeps_xor_bytes|]. cbn. intros x ->. destruct c; assumption.
  - cbn beta. intros j l [-> HF]. split; [lia|]. clear - HF. induction HF; auto.
Qed.
End Base.

(** ** The polynomial products *)
Lemma le_len k : forall n, length (le_bytes k n) = k.
Proof. induction k; intros n; cbn; auto. Qed.
Lemma keeps_read128 v : (16 <= length v)%nat -> keeps (fun _ => True) (read128 v).
Proof. intros H. unfold read128. apply Nat.leb_le in H. now rewrite H. Qed.
Lemma keeps_read64 v l : (16 <= length v)%nat -> (l <= 1)%nat -> keeps (fun _ => True) (read64 v l).
Proof. intros H Hl. unfold read64. replace (Nat.leb _ _) with true by (symmetry; apply Nat.leb_le; lia). exact I. Qed.
Lemma keeps_xor128 v x : length v = 16%nat -> keeps (fun r => length r = 16%nat) (xor128 v x).
Proof.
  intros H. unfold xor128. eapply keeps_bind; [apply keeps_read128; lia|]. intros old _. unfold write128.
  replace (Nat.leb _ _) with true by (symmetry; apply Nat.leb_le; lia). cbn [keeps].
  rewrite app_length, le_len, skipn_length. lia.
Qed.
Lemma keeps_ap_mul a acc l r : length acc = 16%nat -> (16 <= length l)%nat -> (16 <= length r)%nat ->
  keeps (fun x => length x = 16%nat) (ap_mul_acc a acc l r).
Proof.
  intros Ha Hl Hr. destruct a; cbn [ap_mul_acc]; [unfold ap_mul_acc_x86|unfold ap_mul_acc_arm64];
  (eapply keeps_bind; [now apply keeps_read128|]; intros ? _; eapply keeps_bind; [now apply keeps_read128|]; intros ? _; cbv zeta; now apply keeps_xor128).
Qed.
Lemma keeps_clmul la lb x y : (16 <= length x)%nat -> (16 <= length y)%nat -> (la <= 1)%nat -> (lb <= 1)%nat ->
  keeps (fun _ => True) (clmul_generic la lb x y).
Proof.
  intros Hx Hy Ha Hb. unfold clmul_generic. eapply keeps_bind; [now apply keeps_read64|]. intros ? _.
  eapply keeps_bind; [now apply keeps_read64|]. intros ? _. destruct (clmul_loop _ _ _ _); exact I.
Qed.
Lemma keeps_gf_mul a p acc l r : length acc = 16%nat -> (16 <= length l)%nat -> (16 <= length r)%nat ->
  keeps (fun x => length x = 16%nat) (gf128_mul_acc a p acc l r).
Proof.
  intros Ha Hl Hr. destruct a as [[|]|]; cbn [gf128_mul_acc]; [unfold mul_acc_x86|unfold mul_acc_arm64|unfold mul_acc_generic].
  - eapply keeps_bind; [now apply keeps_read128|]; intros ? _; eapply keeps_bind; [now apply keeps_read128|]; intros ? _; cbv zeta; now apply keeps_xor128.
  - do 2 (eapply keeps_bind; [apply keeps_assert|]; intros _ _).
    eapply keeps_bind; [now apply keeps_read128|]; intros ? _; eapply keeps_bind; [now apply keeps_read128|]; intros ? _; cbv zeta; now apply keeps_xor128.
  - do 2 (eapply keeps_bind; [apply keeps_assert|]; intros _ _).
    do 4 (eapply keeps_bind; [apply keeps_clmul; auto|]; intros ? _). cbv zeta. now apply keeps_xor128.
Qed.

(** ** Transpositions *)
Lemma keeps_or_at t i v : keeps (fun t' => length t' = length t) (or_at t i v).
Proof.
  unfold or_at. eapply keeps_bind; [apply keeps_idx|]. intros ? _.
  eapply keeps_weak; [apply keeps_set|]. cbn. intros ? ->. apply set_nth_len.
Qed.
Lemma keeps_transpose_matrix src t th tw ow : keeps (fun t' => length t' = length t) (transpose_matrix src t th tw ow).
Proof.
  unfold transpose_matrix. apply keeps_foldM; [reflexivity|]. intros t1 r _ L1.
  apply keeps_foldM; [exact L1|]. intros t2 c _ L2.
  eapply keeps_bind; [apply keeps_idx|]. intros b _. unfold transpose_flat_byte.
  apply keeps_foldM; [exact L2|]. intros t3 k _ L3. cbv zeta.
  eapply keeps_weak; [apply keeps_or_at|]. cbn. intros ? ->. exact L3.
Qed.
Lemma Forall_set {A} (P : A -> Prop) l : forall i x, Forall P l -> P x -> Forall P (set_nth l i x).
Proof. induction l as [|a l IH]; intros [|i] x H Hx; cbn; auto; inversion H; subst; auto. Qed.
Lemma keeps_or_at2 raw r c v w : Forall (fun row : bytes => length row = w) raw ->
  keeps (fun raw' => Forall (fun row : bytes => length row = w) raw' /\ length raw' = length raw) (or_at2 raw r c v).
Proof.
  intros H. unfold or_at2. eapply keeps_bind; [apply keeps_idx|]. intros row Hr.
  eapply keeps_bind; [apply keeps_idx|]. intros old _.
  eapply keeps_bind; [apply keeps_set|]. intros row' ->.
  eapply keeps_weak; [apply keeps_set|]. cbn. intros ? ->. split; [|apply set_nth_len].
  apply Forall_set; [exact H|]. rewrite set_nth_len. apply nth_error_In in Hr. rewrite Forall_forall in H. now apply H.
Qed.
Lemma keeps_transpose m : keeps (fun t => Forall (fun row : bytes => length row = (length m / 8)%nat) t) (transpose m).
Proof.
  unfold transpose, dims. eapply (keeps_bind (fun d => fst d = length m)).
  { eapply keeps_bind; [apply keeps_idx|]. intros ? _. reflexivity. }
  intros [rows cols] E. cbn in E. subst rows.
  apply keeps_foldM; [now apply Forall_forall; intros x Hx; apply repeat_spec in Hx; subst; apply repeat_length|].
  intros raw r _ L1. unfold transpose_row. apply keeps_foldM; [exact L1|]. intros raw2 c _ L2.
  eapply keeps_bind; [apply keeps_idx|]. intros srow _. eapply keeps_bind; [apply keeps_idx|]. intros b _.
  unfold transpose_byte. apply keeps_foldM; [exact L2|]. intros raw3 k _ L3. cbv zeta.
  eapply keeps_weak; [apply (keeps_or_at2 _ _ _ _ _ L3)|]. cbn. tauto.
Qed.

Lemma bits_len d : length (u8_vec_to_bool_vec d) = (8 * length d)%nat.
Proof. induction d; [reflexivity|]. unfold u8_vec_to_bool_vec in *. cbn [flat_map]. rewrite app_length, IHd. cbn [length]. unfold byte_bits. rewrite map_length, seq_length. lia. Qed.
Lemma inside w i h n : (i < h)%nat -> (w * h <= n)%nat -> (w * i + w <= n)%nat.
Proof. intros H Hn. rewrite <- Nat.mul_succ_r. transitivity (w * h)%nat; [apply Nat.mul_le_mono_l|]; lia. Qed.
Section Extension.
Variable sha : bytes -> bytes.
Variable fill : bytes -> nat -> bytes.
Hypothesis Hf : generator fill.
Variable p : profile.
Variable a : arch.
Variable cores : nat.

Lemma fill_len s n : length (fill s n) = n. Proof. apply (Hf s n). Qed.
Lemma keeps_array v : (32 <= length v)%nat -> keeps (fun _ => True) (array_from_slice v).
Proof. intros H. unfold array_from_slice. apply Nat.leb_le in H. now rewrite H. Qed.
Lemma keeps_expand_payloads pays h w : Forall (fun x : bytes => 32 <= length x)%nat pays ->
  keeps (fun t => length t = (w * h)%nat) (expand_payloads fill pays h w).
Proof.
  intros H. unfold expand_payloads. apply keeps_rows; [apply repeat_length|lia|]. intros i row Hi Lr.
  eapply keeps_bind; [apply keeps_idx|]. intros s Hs. apply nth_error_In in Hs. rewrite Forall_forall in H.
  eapply keeps_bind; [apply keeps_array; now apply H|]. intros s' _. cbn. now rewrite fill_len.
Qed.
Lemma keeps_expand_seeds seeds h w : keeps (fun t => length t = (w * h)%nat) (expand_seeds fill seeds h w).
Proof.
  unfold expand_seeds. apply keeps_rows; [apply repeat_length|lia|]. intros i row Hi Lr.
  eapply keeps_bind; [apply keeps_idx|]. intros s _. cbn. now rewrite fill_len.
Qed.
Lemma keeps_q delta t u h w : (w * h <= length t)%nat -> (w * h <= length u)%nat ->
  keeps (fun q => length q = (w * h)%nat) (compute_q p delta t u h w).
Proof.
  intros Ht Hu. unfold compute_q. apply keeps_rows; [apply repeat_length|lia|]. intros i row Hi Lr.
  eapply keeps_bind; [apply keeps_idx|]. intros db _.
  apply (keeps_bind (fun r => length r = w)).
  { destruct (_ =? _); [|exact Lr].
    eapply keeps_bind; [apply keeps_vector_row; eapply inside; eassumption|]. intros ur _.
    eapply keeps_weak; [apply keeps_xor_inplace|]. cbn. congruence. }
  intros row' Lr'. eapply keeps_bind; [apply keeps_vector_row; eapply inside; eassumption|]. intros tr _.
  eapply keeps_weak; [apply keeps_xor_inplace|]. cbn. congruence.
Qed.
Lemma keeps_row_sum m chi h : (16 * h <= length m)%nat -> (16 * h <= length chi)%nat ->
  keeps (fun s => length s = 16%nat) (row_sum a m chi 16 h).
Proof.
  intros Hm Hc. unfold row_sum. apply keeps_foldM; [apply repeat_length|]. intros acc i Hi La. apply in_seq in Hi.
  eapply keeps_bind; [apply keeps_vector_row; apply (inside _ _ h); [lia|assumption]|]. intros r Lr.
  eapply keeps_bind; [apply keeps_vector_row; apply (inside _ _ h); [lia|assumption]|]. intros c Lc.
  cbn beta in *; apply keeps_ap_mul; lia.
Qed.
Lemma keeps_eq_loop l : forall r, keeps (fun _ => True) (eq_loop l r).
Proof. induction l as [|x l IH]; intros [|y r]; cbn [eq_loop]; try exact I. destruct (x =? y); [apply IH|exact I]. Qed.
Lemma keeps_check q delta x t : length q = 16%nat -> length delta = 16%nat -> (16 <= length x)%nat ->
  keeps (fun _ => True) (sender_check p a q delta x t 16).
Proof.
  intros Hq Hd Hx. unfold sender_check. do 2 (eapply keeps_bind; [apply keeps_assert|]; intros _ _).
  eapply keeps_bind; [apply keeps_ap_mul; lia|]. intros q' _.
  eapply (keeps_bind (fun _ => True)).
  { unfold ap_eq. eapply keeps_bind; [apply keeps_assert|]. intros _ _. apply keeps_eq_loop. }
  intros same _. destruct (negb same); exact I.
Qed.
Lemma keeps_threads rows : keeps (fun _ => True) (pick_suitable_thread_count cores rows).
Proof. unfold pick_suitable_thread_count. destruct (Nat.ltb rows cores), (Nat.eqb cores 0), (Nat.eqb (rows mod cores) 0); exact I. Qed.
Lemma keeps_slice v o n : (o + n <= length v)%nat -> keeps (fun r => length r = n) (vector_slice v o n).
Proof.
  intros H. unfold vector_slice. pose proof H as H'. apply Nat.leb_le in H'. rewrite H'. cbn.
  rewrite firstn_length, skipn_length. lia.
Qed.
Lemma keeps_randomize qt delta ms msg : (16 * length msg <= length qt)%nat ->
  keeps (fun _ => True) (randomize sha fill p cores qt delta 16 ms msg).
Proof.
  intros Hq. unfold randomize. cbv zeta. eapply keeps_bind; [apply keeps_threads|]. intros tc _.
  eapply keeps_bind; [apply keeps_udiv|]. intros ric _.
  eapply keeps_weak; [apply (keeps_par_rows _ _ _ _ (length msg)); [apply repeat_length|]|intros; exact I].
  intros r row Hr Lr. unfold randomize_row.
  eapply keeps_bind; [apply keeps_vector_row; eapply inside; eassumption|]. intros qr _. cbv zeta.
  eapply keeps_bind; [apply keeps_idx|]. intros m _.
  eapply keeps_bind; [apply keeps_slice; lia|]. intros p0 L0.
  eapply keeps_bind; [apply keeps_xor_inplace|]. intros e0 E0. rewrite fill_len, L0 in E0.
  eapply keeps_bind; [apply keeps_ap_xor|]. intros qb _.
  eapply keeps_bind; [apply keeps_slice; lia|]. intros p1 L1.
  eapply keeps_bind; [apply keeps_xor_inplace|]. intros e1 E1. rewrite fill_len, L1 in E1.
  cbn. rewrite app_length. lia.
Qed.

Definition ap_cond (n : nat) (i : nat) (m : bytes) : Prop :=
  (i = 132%nat -> forall pay, deserialize dec_payload m = Ok pay -> forall c0 c1, In (c0, c1) pay -> (32 <= length c0 /\ 32 <= length c1)%nat) /\
  (i = 133%nat -> (128 * ((n + 256) / 8) <= length m)%nat) /\
  (i = 134%nat -> (16 <= length m)%nat).


Lemma holds_ap_sender gen G rs cu delta msgs : length delta = 16%nat ->
  holds (ap_cond (length msgs)) 0 (ap_sender sha fill p a cores cu delta (co_receiver sha gen G p rs) msgs) (fun j _ => j = 136%nat).
Proof.
  intros Ld. unfold ap_sender. cbv zeta.
  eapply holds_bind; [apply holds_lift, keeps_assert|]. intros ? _ [-> _].
  eapply holds_bind; [apply holds_validate|]. intros ? _ ->.
  eapply holds_bind; [apply holds_coin_receiver|]. intros ? seed ->.
  eapply holds_bind; [apply holds_lift, keeps_idx|]. intros ? m0 [-> _].
  eapply holds_bind; [apply holds_send|]. intros ? _ ->.
  eapply holds_bind.
  { apply (holds_co_receiver sha gen G p _ rs (u8_vec_to_bool_vec delta) 3 32).
    intros m pay Cm. rewrite bits_len, Ld in Cm. destruct Cm as [Cm _]. exact (Cm eq_refl pay). }
  rewrite bits_len, Ld. change (3 + 2 + 8 * 16)%nat with 133%nat. intros ? pays [-> Hp].
  change K with 128%nat. change S_ with 128%nat. change K_BYTES with 16%nat.
  replace (length msgs + 128 + 128)%nat with (length msgs + 256)%nat by lia.
  set (h := (length msgs + 256)%nat). change (16 * 8)%nat with 128%nat.
  eapply holds_bind; [apply holds_lift; apply keeps_expand_payloads; exact Hp|]. intros ? t [-> Lt].
  eapply holds_bind; [apply holds_recv|]. intros ? u [-> (_ & Cu & _)]. specialize (Cu eq_refl). fold h in Cu.
  eapply holds_bind; [apply holds_lift; apply keeps_q; lia|]. intros ? q [-> Lq].
  eapply holds_bind; [apply holds_lift; apply keeps_transpose_matrix|]. intros ? qt [-> Lqt]. rewrite repeat_length in Lqt.
  eapply holds_bind; [apply holds_lift, keeps_assert|]. intros ? _ [-> _].
  eapply holds_bind; [apply holds_lift; apply keeps_row_sum; [|rewrite fill_len]; lia|]. intros ? qs [-> Lqs].
  eapply holds_bind; [apply holds_recv|]. intros ? x [-> (_ & _ & Cx)]. specialize (Cx eq_refl).
  eapply holds_bind; [apply holds_recv|]. intros ? ts [-> _].
  eapply holds_bind; [apply holds_lift; now apply keeps_check|]. intros ? _ [-> _].
  eapply holds_bind; [apply holds_lift; apply keeps_randomize; unfold h in *; lia|]. intros ? d [-> _].
  reflexivity.
Qed.

Lemma keeps_u t0 t1 packed h w : (w * h <= length t0)%nat -> (w * h <= length t1)%nat ->
  keeps (fun _ => True) (compute_u p t0 t1 packed h w).
Proof.
  intros H0 H1. unfold compute_u. eapply keeps_weak; [apply (keeps_rows _ h w _ (w * h)); [apply repeat_length|lia|]|intros; exact I].
  intros i row Hi Lr.
  eapply keeps_bind; [apply keeps_vector_row; eapply inside; eassumption|]. intros r0 _.
  eapply keeps_bind; [apply keeps_vector_row; eapply inside; eassumption|]. intros r1 _.
  eapply keeps_bind; [apply keeps_ap_xor|]. intros r L.
  eapply keeps_weak; [apply keeps_xor_inplace|]. cbn. congruence.
Qed.
Lemma keeps_sums t chi padded h : (16 * h <= length t)%nat -> (16 * h <= length chi)%nat ->
  keeps (fun _ => True) (receiver_sums p a t chi padded 16 h).
Proof.
  intros Ht Hc. unfold receiver_sums.
  eapply keeps_weak; [apply (keeps_foldM _ (fun xt => length (snd xt) = 16%nat)); [apply repeat_length|]|intros; exact I].
  intros [x ts] i Hi L. apply in_seq in Hi. cbn in L.
  eapply keeps_bind; [apply keeps_vector_row; apply (inside _ _ h); [lia|assumption]|]. intros c Lc.
  eapply keeps_bind; [apply keeps_idx|]. intros b _.
  eapply (keeps_bind (fun _ => True)).
  { destruct b; [eapply keeps_weak; [apply keeps_xor_inplace|intros; exact I]|exact I]. }
  intros x' _. eapply keeps_bind; [apply keeps_vector_row; apply (inside _ _ h); [lia|assumption]|]. intros tr Lr.
  eapply keeps_bind; [cbn beta in *; apply keeps_ap_mul; lia|]. intros ts' Lts. exact Lts.
Qed.
Lemma keeps_v t h : (16 * h <= length t)%nat -> keeps (fun v => length v = (32 * h)%nat) (compute_v sha p cores t 16 h).
Proof.
  intros Ht. unfold compute_v. eapply keeps_bind; [apply keeps_threads|]. intros tc _.
  eapply keeps_bind; [apply keeps_udiv|]. intros ric _.
  eapply keeps_weak; [apply (keeps_par_rows _ _ _ _ h); [rewrite repeat_length; lia|]|cbn; intros v Lv; rewrite Lv; apply repeat_length].
  intros r row Hr Lr. eapply keeps_bind; [apply keeps_vector_row; eapply inside; eassumption|]. intros tr _.
  eapply keeps_weak; [apply keeps_xor_inplace|]. cbn. congruence.
Qed.
Lemma keeps_derandomize v packed d ms n h : (n <= h)%nat -> length v = (32 * h)%nat ->
  keeps (fun _ => True) (derandomize fill p cores v packed d ms n).
Proof.
  intros Hn Lv. unfold derandomize. eapply keeps_bind; [apply keeps_udiv|]. intros msd Emsd. cbn beta in Emsd.
  eapply keeps_bind; [apply keeps_threads|]. intros tc _. eapply keeps_bind; [apply keeps_udiv|]. intros ric _.
  apply keeps_par_items. rewrite repeat_length. intros r y Hr _. unfold derandomize_row. cbv zeta.
  eapply keeps_bind; [apply keeps_vector_row; apply (inside _ _ h); lia|]. intros vr Lvr.
  eapply keeps_bind; [cbn beta in *; apply keeps_array; lia|]. intros seed _.
  eapply keeps_bind; [apply keeps_idx|]. intros pc _.
  eapply keeps_bind; [apply keeps_slice|intros ds _; eapply keeps_weak; [apply keeps_xor_inplace|intros; exact I]].
  assert (B : (N.to_nat (N.land (N.shiftr pc (N.of_nat (r mod 8))) 1) <= 1)%nat).
  { change 1 with (N.ones 1). rewrite N.land_ones. pose proof (N.mod_lt (N.shiftr pc (N.of_nat (r mod 8))) (2 ^ 1) ltac:(discriminate)) as B.
    change (2 ^ 1) with 2 in *. lia. }
  set (c := N.to_nat _) in *.
  assert (D : (n * msd <= length d / 2)%nat) by (subst msd; apply Nat.mul_div_le; lia).
  assert (D2 : (2 * (length d / 2) <= length d)%nat) by (apply Nat.mul_div_le; lia).
  assert (E : (S r * msd <= n * msd)%nat) by (apply Nat.mul_le_mono_r; lia).
  assert (E2 : (c * msd <= msd)%nat) by (destruct c as [|[|c]]; cbn; lia).
  cbn [Nat.mul] in E. lia.
Qed.

Lemma holds_ap_receiver C gen G rs cv bonus seed0 seed1 cs i :
  holds C i (ap_receiver sha fill p a cores cv bonus seed0 seed1 (co_sender sha gen G p rs) cs)
    (fun j _ => j = (i + 5 + length (combine seed0 seed1))%nat).
Proof.
  unfold ap_receiver. cbv zeta.
  eapply holds_bind; [apply holds_lift, keeps_assert|]. intros ? _ [-> _].
  eapply holds_bind; [apply holds_validate|]. intros ? _ ->.
  eapply holds_bind; [apply holds_coin_sender|]. intros ? seed ->.
  eapply holds_bind; [apply holds_recv|]. intros ? m [-> _].
  eapply holds_bind; [apply holds_lift|].
  { unfold announced_size. eapply (keeps_bind (fun _ => True)); [eapply keeps_weak; [apply keeps_idx|intros; exact I]|]. intros b0 _.
    eapply (keeps_bind (fun _ => True)); [eapply keeps_weak; [apply keeps_idx|intros; exact I]|]. intros b1 _. instantiate (1 := fun _ => True). exact I. }
  intros ? ms [-> _].
  eapply holds_bind; [apply holds_co_sender|]. intros ? _ ->.
  change K with 128%nat. change S_ with 128%nat. change K_BYTES with 16%nat.
  set (h := (length cs + 128 + 128)%nat). change (16 * 8)%nat with 128%nat.
  eapply holds_bind; [apply holds_lift; apply keeps_expand_seeds|]. intros ? t0 [-> L0].
  eapply holds_bind; [apply holds_lift; apply keeps_expand_seeds|]. intros ? t1 [-> L1].
  eapply holds_bind; [apply holds_lift; apply keeps_u; lia|]. intros ? u [-> _].
  eapply holds_bind; [apply holds_send|]. intros ? _ ->.
  eapply holds_bind; [apply holds_lift; apply keeps_transpose_matrix|]. intros ? t [-> Lt]. rewrite repeat_length in Lt.
  eapply holds_bind; [apply holds_lift; apply keeps_sums; [|rewrite fill_len]; lia|]. intros ? [xs ts] [-> _].
  eapply holds_bind; [apply holds_send|]. intros ? _ ->.
  eapply holds_bind; [apply holds_send|]. intros ? _ ->.
  eapply holds_bind; [apply holds_lift; apply keeps_v; lia|]. intros ? v [-> Lv].
  eapply holds_bind; [apply holds_recv|]. intros ? d [-> _].
  eapply holds_weak; [apply holds_lift; apply (keeps_derandomize _ _ _ _ _ h); [unfold h; lia|exact Lv]|cbn beta; intros j' l [-> _]; lia].
Qed.
End Extension.

Lemma Forall2_length {A B} (R : A -> B -> Prop) l m : Forall2 R l m -> length l = length m.
Proof. induction 1; cbn; auto. Qed.

Section Classics.
Variable sha : bytes -> bytes.
Variables gen20 gen8 : bytes -> nat -> bytes.
Hypothesis H20 : generator gen20.
Variable p : profile.
Variable a : option arch.

Lemma keeps_copy pay : keeps (fun s => length s = 128%nat) (copy_seeds pay).
Proof.
  unfold copy_seeds. apply keeps_foldM; [apply repeat_length|]. intros s [i v] _ L.
  eapply keeps_bind; [apply keeps_idx|]. intros ? _. destruct (Nat.eqb _ _); [|exact I].
  eapply keeps_weak; [apply keeps_set|]. cbn. intros ? ->. rewrite set_nth_len. exact L.
Qed.
Lemma keeps_classic_q delta u t : keeps (fun q => length q = (8 * length delta)%nat) (classic_q delta u t).
Proof.
  unfold classic_q. cbv zeta. eapply keeps_weak; [apply (keeps_mapM _ (fun _ _ => True))|].
  - intros [i d] _. destruct d; [|eapply keeps_weak; [apply keeps_idx|intros; exact I]].
    eapply keeps_bind; [apply keeps_idx|]. intros ? _. eapply keeps_bind; [apply keeps_idx|]. intros ? _. exact I.
  - cbn beta. intros q HF. apply Forall2_length in HF. rewrite <- HF, combine_length, seq_length, Nat.min_id. apply bits_len.
Qed.
Lemma chi_rows seed l : Forall (fun c : bytes => length c = 16%nat) (classic_chi gen20 seed l).
Proof.
  unfold classic_chi. apply Forall_forall. intros c Hc. apply in_map_iff in Hc. destruct Hc as (i & <- & Hi). apply in_seq in Hi.
  rewrite firstn_length, skipn_length, (proj1 (H20 _ _)). lia.
Qed.
Lemma keeps_poly v : keeps (fun w => w = v) (poly_from p v).
Proof. unfold poly_from. eapply keeps_bind; [apply keeps_assert|]. intros _ _. reflexivity. Qed.
Lemma keeps_classic_sum q chi : Forall (fun c : bytes => length c = 16%nat) q -> Forall (fun c : bytes => length c = 16%nat) chi ->
  keeps (fun s => length s = 16%nat) (classic_row_sum p a q chi).
Proof.
  intros Hq Hc. rewrite Forall_forall in Hq, Hc. unfold classic_row_sum. apply keeps_foldM; [reflexivity|].
  intros s [x c] Hin L. cbn [fst snd]. pose proof (in_combine_l _ _ _ _ Hin) as I1. pose proof (in_combine_r _ _ _ _ Hin) as I2.
  apply Hq in I1. apply Hc in I2.
  eapply keeps_bind; [apply keeps_poly|]. intros ? ->. eapply keeps_bind; [apply keeps_poly|]. intros ? ->.
  cbn beta in *. apply keeps_gf_mul; lia.
Qed.
Lemma keeps_verdict q delta x t : length q = 16%nat -> length delta = 16%nat -> (16 <= length x)%nat ->
  keeps (fun _ => True) (classic_verdict p a q delta x t).
Proof.
  intros Hq Hd Hx. unfold classic_verdict. eapply keeps_bind; [apply keeps_poly|]. intros ? ->.
  eapply keeps_bind; [apply keeps_gf_mul; lia|]. intros q' _. destruct (negb _); exact I.
Qed.
Lemma gentle_rows : gentle dec_rows.
Proof. apply gentle_vec, gentle_bytes. Qed.

Definition classic_cond (i : nat) (m : bytes) : Prop :=
  i = 134%nat -> forall v, deserialize dec_bytes m = Ok v -> (16 <= length v)%nat.

Lemma holds_classic_sender gen G rs cu delta msgs : length delta = 16%nat ->
  holds classic_cond 0 (classic_sender sha gen20 gen8 p a cu delta (co_receiver sha gen G p rs) msgs) (fun _ _ => True).
Proof.
  intros Ld. unfold classic_sender. cbv zeta.
  eapply holds_bind; [apply holds_lift, keeps_assert_|]. intros ? _ [-> _].
  eapply holds_bind; [apply holds_lift, keeps_assert_|]. intros ? _ [-> _].
  eapply holds_bind; [apply holds_validate|]. intros ? _ ->.
  eapply (holds_bind _ _ _ (fun j q => j = 132%nat /\ Forall (fun c : bytes => length c = 16%nat) q)).
  { unfold sender_cote. eapply holds_bind.
    { apply (holds_co_receiver sha gen G p _ rs (u8_vec_to_bool_vec delta) 1 0). intros; lia. }
    rewrite bits_len, Ld. change (1 + 2 + 8 * 16)%nat with 131%nat. intros ? pays [-> _].
    eapply holds_bind; [apply holds_lift, keeps_copy|]. intros ? seeds [-> _]. cbv zeta.
    eapply holds_bind; [apply holds_recv|]. intros ? m [-> _].
    eapply holds_bind; [apply holds_lift, keeps_deserialize, gentle_rows|]. intros ? u [-> _].
    eapply holds_bind; [apply holds_lift, keeps_classic_q|]. intros ? q [-> Lq]. rewrite Ld in Lq.
    eapply holds_weak; [apply holds_lift, keeps_transpose|]. cbn beta. rewrite Lq. intros j r [-> HF]. auto. }
  intros ? q [-> Hq].
  eapply (holds_bind _ _ _ (fun _ _ => True)).
  { unfold sender_correlation. eapply holds_bind; [apply holds_coin_receiver|]. intros ? seed ->. cbv zeta.
    eapply holds_bind; [apply holds_lift, keeps_classic_sum; [exact Hq|apply chi_rows]|]. intros ? qs [-> Lqs].
    eapply holds_bind; [apply holds_recv|]. intros ? m [-> Cm].
    eapply holds_bind; [apply holds_lift, keeps_deserialize, gentle_bytes|]. intros ? x [-> Dx]. specialize (Cm eq_refl x Dx).
    eapply holds_bind; [apply holds_recv|]. intros ? m' [-> _].
    eapply holds_bind; [apply holds_lift, keeps_deserialize, gentle_bytes|]. intros ? t [-> _].
    eapply holds_weak; [apply holds_lift; now apply keeps_verdict|intros; exact I]. }
  intros j _ _. unfold sender_de_rot.
  eapply (holds_bind _ _ _ (fun _ _ => True)); [unfold lift; cbn [holds]; destruct (Nat.ltb (length q) (length msgs)); exact I|]. intros ? _ _. cbv zeta.
  eapply (holds_bind _ _ _ (fun _ _ => True)).
  { eapply holds_weak; [apply holds_lift, keeps_zipM|intros; exact I]. intros m v. unfold classic_encrypt.
    eapply keeps_bind; [apply keeps_xor_bytes|]. intros ? _. eapply keeps_bind; [apply keeps_xor_bytes|]. intros ? _. exact I. }
  intros ? d _. exact I.
Qed.

Lemma keeps_xor_ref x y : keeps (fun r => length r = length x) (bv_xor_assign_ref p x y).
Proof.
  unfold bv_xor_assign_ref. eapply keeps_bind; [apply keeps_assert|]. intros _ _.
  destruct (Nat.ltb_spec (length y) (length x)); cbn; [exact I|]. rewrite zip_len. lia.
Qed.
Lemma holds_classic_receiver gen G rs cv bonus seed0 seed1 cs : length seed0 = 128%nat ->
  holds (fun _ _ => True) 0 (classic_receiver sha gen20 gen8 p a cv bonus seed0 seed1 (co_sender sha gen G p rs) cs) (fun _ _ => True).
Proof.
  intros L0. unfold classic_receiver. cbv zeta.
  eapply holds_bind; [apply holds_validate|]. intros ? _ ->.
  eapply holds_bind; [apply holds_lift, keeps_assert_|]. intros ? _ [-> _].
  eapply holds_bind; [apply holds_lift, keeps_assert_|]. intros ? _ [-> _].
  eapply (holds_bind _ _ _ (fun j t => Forall (fun c : bytes => length c = 16%nat) t)).
  { unfold receiver_cote. cbv zeta. eapply holds_bind; [apply holds_co_sender|]. intros ? _ ->.
    eapply holds_bind.
    { apply holds_lift. unfold classic_u. apply (keeps_mapM _ (fun _ _ => True)). intros [x [y z]] _. cbn [fst snd].
      eapply keeps_bind; [apply keeps_xor_ref|]. intros ? _. eapply keeps_weak; [apply keeps_xor_ref|intros; exact I]. }
    intros ? u [-> _]. eapply holds_bind; [apply holds_send|]. intros ? _ ->.
    eapply holds_weak; [apply holds_lift, keeps_transpose|]. cbn beta. unfold expand_rows. rewrite map_length, L0. intros j t [-> HF]. exact HF. }
  intros j t Ht.
  eapply (holds_bind _ _ _ (fun _ _ => True)).
  { unfold receiver_correlation. eapply holds_bind; [apply holds_coin_sender|]. intros ? seed ->. cbv zeta.
    eapply (holds_bind _ _ _ (fun _ _ => True)).
    { eapply holds_weak; [apply holds_lift|intros; exact I]. unfold classic_receiver_sums.
      apply (keeps_foldM _ (fun s => length (snd s) = 16%nat)); [reflexivity|].
      intros [xs ts] [c [r w]] Hin L. cbn [fst snd] in *. pose proof (chi_rows seed (length (cs ++ bonus))) as Hc.
      rewrite Forall_forall in Ht, Hc. apply in_combine_r in Hin. pose proof (in_combine_l _ _ _ _ Hin) as I1. pose proof (in_combine_r _ _ _ _ Hin) as I2.
      apply Ht in I1. apply Hc in I2.
      eapply keeps_bind; [apply keeps_poly|]. intros ? ->. eapply keeps_bind; [apply keeps_poly|]. intros ? ->.
      eapply (keeps_bind (fun _ => True)).
      { destruct c; [eapply keeps_weak; [apply keeps_xor_ref|intros; exact I]|exact I]. }
      intros xs' _. eapply keeps_bind; [apply keeps_gf_mul; lia|]. intros ts' L'. exact L'. }
    intros ? [xs ts] _. exact I. }
  intros ? _ _. unfold receiver_de_rot. cbv zeta.
  eapply holds_bind; [apply holds_recv|]. intros ? m [-> _].
  eapply holds_bind; [apply holds_lift, keeps_deserialize, gentle_rows|]. intros ? d0 [-> _].
  eapply holds_bind; [apply holds_recv|]. intros ? m' [-> _].
  eapply holds_bind; [apply holds_lift, keeps_deserialize, gentle_rows|]. intros ? d1 [-> _].
  eapply holds_weak; [apply holds_lift; unfold classic_decrypt; apply (keeps_mapM _ (fun _ _ => True))|intros; exact I].
  intros [v [c [x y]]] _. cbv zeta. eapply keeps_weak; [apply keeps_xor_bytes|intros; exact I].
Qed.
End Classics.

(** ** One out of many *)
Lemma keeps_xor_bytes_inplace p l r : keeps (fun x => length x = length l) (xor_bytes_inplace p l r).
Proof.
  unfold xor_bytes_inplace. eapply keeps_bind; [apply keeps_assert|]. intros _ _.
  destruct (Nat.ltb_spec (length r) (length l)); cbn; [exact I|]. rewrite zip_len. lia.
Qed.
Lemma holds_many_receiver sha fill gen G p p' rs choice domain : (domain < 64)%nat -> choice < 2 ^ N.of_nat domain ->
  holds (fun _ _ => True) 0 (many_receiver sha fill p (co_receiver sha gen G p' rs) choice domain) (fun j _ => j = (domain + 3)%nat).
Proof.
  intros Hd Hc. unfold many_receiver.
  eapply holds_bind.
  { apply holds_lift; unfold many_choices; apply (keeps_mapM _ (fun _ _ => True)).
    intros i _. destruct (Nat.ltb i 32); [exact I|]. destruct (is_debug p); exact I. }
  intros ? cs [-> Fc]. apply Forall2_length in Fc. rewrite seq_length in Fc. eapply holds_bind; [apply holds_recv|]. intros ? y [-> _].
  eapply holds_bind; [apply (holds_co_receiver sha gen G p' _ rs cs _ 0); intros; lia|]. intros ? ms [-> _].
  eapply holds_bind; [apply holds_lift, (keeps_mapM _ (fun _ _ => True))|].
  { intros i _. eapply keeps_bind; [apply keeps_idx|]. intros ? _. eapply keeps_bind; [apply keeps_assert|]. intros _ _. exact I. }
  intros ? keys [-> _].
  eapply holds_bind; [apply holds_lift; instantiate (1 := fun k => k = (2 ^ domain)%nat); unfold shl_one; apply Nat.ltb_lt in Hd; now rewrite Hd|].
  intros ? dm [-> ->].
  eapply holds_bind; [apply holds_lift, keeps_udiv|]. intros ? bl [-> Ebl].
  eapply holds_bind; [apply holds_lift, keeps_vector_row|].
  { apply (inside _ _ (2 ^ domain)%nat).
    - assert (E : N.of_nat (2 ^ domain) = 2 ^ N.of_nat domain) by (rewrite Nnat.Nat2N.inj_pow; reflexivity). rewrite <- E in Hc. lia.
    - subst bl. rewrite Nat.mul_comm. apply Nat.mul_div_le. apply Nat.pow_nonzero. discriminate. }
  intros ? x [-> _].
  eapply holds_weak; [apply holds_lift, (keeps_foldM _ (fun _ => True)); [exact I|]|cbn beta; rewrite <- Fc; intros; lia].
  intros x' i _ _. eapply keeps_bind; [apply keeps_idx|]. intros ? _.
  eapply keeps_weak; [apply keeps_xor_bytes_inplace|intros; exact I].
Qed.

(** ** For all frames *)
Lemma feed_holds {A} (q : proc A) : holds (fun _ _ => True) 0 q (fun _ _ => True) -> forall ins, fst (feed q ins) <> UB.
Proof. intros H ins. now apply (holds_feed (fun _ _ => True) q (fun _ _ => True) 0). Qed.
Lemma ap_sender_bounds sha fill gen G p a cores rs cu delta msgs ins : generator fill -> length delta = 16%nat ->
  apricot_frames (length msgs) ins ->
  fst (feed (ap_sender sha fill p a cores cu delta (co_receiver sha gen G p rs) msgs) ins) <> UB.
Proof.
  intros Hf Ld (H1 & H2 & H3). eapply holds_feed; [now apply holds_ap_sender|].
  cbn [Nat.add]. intros j m Hj. split; [|split]; intros ->; [intros pay Hp; now apply (H1 m pay)|now apply H2|now apply H3].
Qed.
Lemma classic_sender_bounds sha gen20 gen8 gen G p a rs cu delta msgs ins : generator gen20 -> length delta = 16%nat ->
  classic_frames ins -> fst (feed (classic_sender sha gen20 gen8 p a cu delta (co_receiver sha gen G p rs) msgs) ins) <> UB.
Proof.
  intros Hf Ld H1. eapply holds_feed; [now apply holds_classic_sender|].
  cbn [Nat.add]. intros j m Hj -> v Hv. now apply (H1 m v).
Qed.
Lemma ap_receiver_bounds sha fill gen G p a cores rs cv bonus seed0 seed1 cs ins : generator fill ->
  fst (feed (ap_receiver sha fill p a cores cv bonus seed0 seed1 (co_sender sha gen G p rs) cs) ins) <> UB.
Proof. intros Hf. apply feed_holds. eapply holds_weak; [now apply holds_ap_receiver|intros; exact I]. Qed.
Lemma classic_receiver_bounds sha gen20 gen8 gen G p a rs cv bonus seed0 seed1 cs ins : generator gen20 -> length seed0 = 128%nat ->
  fst (feed (classic_receiver sha gen20 gen8 p a cv bonus seed0 seed1 (co_sender sha gen G p rs) cs) ins) <> UB.
Proof. intros Hf L. apply feed_holds. now apply holds_classic_receiver. Qed.
Lemma many_receiver_bounds sha fill gen G p p' rs choice domain ins : (domain < 64)%nat -> choice < 2 ^ N.of_nat domain ->
  fst (feed (many_receiver sha fill p (co_receiver sha gen G p' rs) choice domain) ins) <> UB.
Proof. intros H1 H2. apply feed_holds. eapply holds_weak; [now apply holds_many_receiver|intros; exact I]. Qed.
