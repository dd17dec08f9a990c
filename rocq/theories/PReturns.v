(** How many messages a receiver returns. *)
From Coq Require Import List NArith Bool Lia Arith.
From Verif Require Import Base MUtil MPar MBincode MProc MOt MApricot MClassic.
From Verif Require Import SpecUtil SpecBincode SpecOt SpecApricot SpecClassic PBase PPar PBincode PProc POt.
Import ListNotations.
Open Scope N_scope.

Lemma feed_bind_ok {A B} (p : proc A) (f : A -> proc B) ins b : fst (feed (pbind p f) ins) = Ok b ->
  exists a rest, fst (feed (f a) rest) = Ok b /\ fst (feed p ins) = Ok a.
Proof.
  rewrite feed_bind, feed_feedr. destruct (feedr p ins) as [[o out] rest]. destruct o as [a|e|r|]; cbn; intros H; try discriminate.
  exists a, rest. split; [|reflexivity]. destruct (feed (f a) rest). exact H.
Qed.

Lemma mapM_total {A B} (f : A -> outcome B) l : (forall a, In a l -> exists b, f a = Ok b) -> exists m, mapM f l = Ok m.
Proof.
  induction l as [|a l IH]; intros H; cbn; [eauto|]. destruct (H a (or_introl eq_refl)) as [b ->]. cbn.
  destruct (IH (fun x Hx => H x (or_intror Hx))) as [m ->]. cbn. eauto.
Qed.
Lemma mapM_lengths {A B} (f : nat * list A -> outcome (list B)) : (forall x y, f x = Ok y -> length y = length (snd x)) ->
  forall cs k r, mapM f (combine (seq k (length cs)) cs) = Ok r -> length (concat r) = length (concat cs).
Proof.
  intros Hf. induction cs as [|c cs IH]; intros k r H; cbn in H.
  - now injection H as <-.
  - destruct (f (k, c)) as [y|e|q|] eqn:Ef; try discriminate. cbn in H.
    destruct (mapM f (combine (seq (S k) (length cs)) cs)) as [ys|e|q|] eqn:E; try discriminate. cbn in H.
    injection H as <-. cbn. rewrite !app_length. f_equal; [exact (Hf _ _ Ef)|]. exact (IH _ _ E).
Qed.
Lemma chunks_concat {A} k : (1 <= k)%nat -> forall fuel (l : list A), (length l <= fuel)%nat -> concat (chunks_fuel fuel k l) = l.
Proof.
  intros Hk. induction fuel as [|f IH]; intros l H; cbn.
  - destruct l; [reflexivity|cbn in H; lia].
  - destruct l as [|x l]; [reflexivity|]. cbn [concat]. rewrite IH; [apply firstn_skipn|]. rewrite skipn_length. cbn [length] in *. lia.
Qed.
Lemma par_items_length {A} k (l : list A) work r : par_items k l work = Ok r -> length r = length l.
Proof.
  unfold par_items, chunks_mut. destruct (Nat.eqb k 0) eqn:E; [discriminate|]. apply Nat.eqb_neq in E. cbn [obind].
  destruct (mapM _ _) as [rs|e|q|] eqn:M; try discriminate. cbn [obind]. intros H. injection H as <-.
  transitivity (length (concat (chunks_fuel (length l) k l))); [|now rewrite chunks_concat by lia].
  eapply mapM_lengths; [|exact M].
  intros [i c] y Hy. cbn [fst snd] in *. apply mapM_length in Hy. rewrite Hy. unfold enumerate. rewrite combine_length, seq_length. apply Nat.min_id.
Qed.

Lemma ap_receiver_returns sha fill p a cores cv bonus seed0 seed1 bootS cs :
  always_returns (length cs) (ap_receiver sha fill p a cores cv bonus seed0 seed1 bootS cs).
Proof.
  intros ins out H. unfold ap_receiver in H. cbv zeta in H.
  do 16 (apply feed_bind_ok in H; destruct H as (? & ? & H & _); repeat match type of H with context [let (_, _) := ?x in _] => destruct x end).
  cbn [lift feed fst] in H. unfold derandomize in H.
  destruct (udiv _ _) as [k|e|r|]; try discriminate. cbn [obind] in H.
  destruct (pick_suitable_thread_count _ _) as [k'|e|r|]; try discriminate. cbn [obind] in H.
  destruct (udiv _ _) as [k''|e|r|]; try discriminate. cbn [obind] in H.
  apply par_items_length in H. now rewrite repeat_length in H.
Qed.

(** The base OT and the classic extension return as many messages as the peer likes. *)
Lemma feedr_recv_each {A} rx (f : bytes -> outcome A) m x rest : (forall m r, feedr rx (m :: r) = (Ok m, [], r)) -> f m = Ok x ->
  forall n, feedr (recv_each rx f n) (repeat m n ++ rest) = (Ok (repeat x n), [], rest).
Proof.
  intros Hr Hf. induction n as [|n IH]; [reflexivity|]. cbn [recv_each repeat app]. rewrite feedr_bind, Hr. cbn [fst snd].
  rewrite feedr_bind. cbn [lift feedr]. rewrite Hf. rewrite feedr_bind, IH. reflexivity.
Qed.
Lemma feedr_validate a rest : props_ok a -> feedr (validate_properties a) (enc_props a :: rest) = (Ok tt, [enc_props a], rest).
Proof.
  intros H. cbn [validate_properties pbind send recv ret lift feedr].
  rewrite (deserialize_reads props_ok enc_props dec_props a rt_props H). cbn [pbind lift].
  rewrite (proj2 (props_eqb_eq a a) eq_refl). reflexivity.
Qed.
Lemma feed_after {A B} (p : proc A) (f : A -> proc B) ins a out rest o : feedr p ins = (Ok a, out, rest) ->
  fst (feed (f a) rest) = o -> fst (feed (pbind p f) ins) = o.
Proof. intros E H. rewrite feed_bind, E. cbn [after]. destruct (feed (f a) rest). exact H. Qed.

Lemma co_receiver_short sha gen G p rs cs : curve_ok G -> usize_ok (length cs) ->
  fst (feed (co_receiver sha gen G p rs cs)
    (enc_props (mkProps (length cs) chou_orlandi) :: repeat (compress G (base G)) (length cs) ++ [enc_payload []])) = Ok [].
Proof.
  intros HG U. unfold co_receiver. set (n := length cs).
  eapply feed_after; [apply feedr_validate, name_ok, U|].
  eapply feed_after.
  { apply feedr_recv_each with (x := compress G (base G)); [reflexivity|]. unfold from_slice. now rewrite (co_len G HG). }
  rewrite repeat_length. eapply feed_after; [cbn [lift feedr]; unfold debug_assert, assert_; rewrite Nat.eqb_refl; destruct p; reflexivity|].
  assert (E : exists l, mapM (fun ip : nat * bytes => let (i, P) := ip in
      let* c := idx cs i in co_answer sha G (rs i) c P) (combine (seq 0 n) (repeat (compress G (base G)) n)) = Ok l).
  { apply mapM_total. intros [i P] Hi. pose proof (in_combine_l _ _ _ _ Hi) as Hs. apply in_combine_r, repeat_spec in Hi. subst P. apply in_seq in Hs.
    rewrite (idx_lt cs i false) by (unfold n in Hs; lia). cbn [obind]. unfold co_answer. rewrite (co_enc G HG). cbn [unwrap obind]. eauto. }
  destruct E as [l E]. eapply feed_after; [cbn [lift feedr]; rewrite E; reflexivity|].
  eapply feed_after; [apply feedr_send_all|]. cbv zeta. cbn [pbind recv ret lift feed].
  rewrite (deserialize_reads payload_ok enc_payload dec_payload [] rt_payload) by (split; [reflexivity|constructor]). reflexivity.
Qed.
