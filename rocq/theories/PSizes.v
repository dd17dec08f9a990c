(** Sizes of the frames the programs send (C107). *)
From Coq Require Import List NArith Bool Arith Lia Permutation.
From Verif Require Import Base MUtil MWires MCircuit MGarble MBitMatrix MPoly MPar MBincode MProc MOt MApricot MMany MFpake MChannel MMain.
From Verif Require Import SpecWires SpecCircuit SpecGarble SpecBincode SpecOt SpecApricot SpecMany SpecMfpake SpecFpake SpecWhole SpecSizes.
From Verif Require Import PBase PUtil PWires PWiresSpec PGarble PGarbleSpec PBinKey PBincode PCircuit PHalf PFpake PPar PProc PEnds PHang PBounds PWhole.
Import ListNotations.
Open Scope N_scope.

(** ** Outcomes and protocols *)
Definition oks {A} (P : A -> Prop) (o : outcome A) : Prop := match o with Ok a => P a | _ => True end.
Lemma keeps_oks {A} (P : A -> Prop) o : keeps P o -> oks P o.
Proof. destruct o; cbn; auto. Qed.
Lemma oks_any {A} (o : outcome A) : oks (fun _ => True) o.
Proof. destruct o; exact I. Qed.

(** With frames as [C] says, the program sends frames of the sizes in [L]; [Q] gets the sizes left over. *)
Fixpoint sized {A} (C : nat -> bytes -> Prop) (i : nat) (L : list nat) (p : proc A) (Q : list nat -> A -> Prop) : Prop :=
  match p with
  | Done o => oks (Q L) o
  | Snd m k => match L with n :: L' => length m = n /\ sized C i L' k Q | [] => False end
  | Rcv k => (forall m, C i m -> sized C (S i) L (k (Some m)) Q) /\ sized C i L (k None) Q
  end.
Lemma sized_bind {A B} C (p : proc A) (f : A -> proc B) R Q : forall i L, sized C i L p R ->
  (forall j M a, R M a -> sized C j M (f a) Q) -> sized C i L (pbind p f) Q.
Proof.
  induction p as [o|m k IH|k IH]; intros i L H Hf; cbn in *.
  - destruct o; cbn in *; auto.
  - destruct L as [|n L]; [exact H|]. destruct H as [H1 H2]. split; auto.
  - destruct H as [H1 H2]. split; [intros m Hm|]; apply IH; auto.
Qed.
Lemma sized_weak {A} C (p : proc A) (R Q : list nat -> A -> Prop) : forall i L, sized C i L p R -> (forall M a, R M a -> Q M a) -> sized C i L p Q.
Proof.
  induction p as [o|m k IH|k IH]; intros i L H Hf; cbn in *.
  - destruct o; cbn in *; auto.
  - destruct L as [|n L]; [exact H|]. destruct H as [H1 H2]. split; auto.
  - destruct H as [H1 H2]. split; [intros m Hm|]; eapply IH; eauto.
Qed.
Lemma sized_lift {A} C i L (o : outcome A) (P : A -> Prop) : oks P o -> sized C i L (lift o) (fun M a => M = L /\ P a).
Proof. destruct o; cbn; auto. Qed.
Lemma sized_any {A} C i L (o : outcome A) : sized C i L (lift o) (fun M _ => M = L).
Proof. destruct o; cbn; auto. Qed.
Lemma sized_send C i L n m : length m = n -> sized C i (n :: L) (send m) (fun M _ => M = L).
Proof. intros H. cbn. auto. Qed.
Lemma sized_recv C i L : sized C i L recv (fun M _ => M = L).
Proof. cbn. auto. Qed.
Lemma sized_recv_unwrap C i L : sized C i L recv_unwrap (fun M _ => M = L).
Proof. cbn. auto. Qed.
Lemma sized_send_all C n ms : forall i L, Forall (fun m : bytes => length m = n) ms ->
  sized C i (repeat n (length ms) ++ L) (send_all ms) (fun M _ => M = L).
Proof.
  induction ms as [|m ms IH]; intros i L H; [reflexivity|]. inversion H; subst. cbn. split; [reflexivity|]. now apply IH.
Qed.
Lemma sized_recv_each {A} C (rx : proc bytes) (f : bytes -> outcome A) : (forall i L, sized C i L rx (fun M _ => M = L)) ->
  forall n i L, sized C i L (recv_each rx f n) (fun M l => M = L /\ length l = n).
Proof.
  intros Hr. induction n as [|n IH]; intros i L; [cbn; auto|]. cbn [recv_each].
  eapply sized_bind; [apply Hr|]. intros j M m ->. eapply sized_bind; [apply sized_any|]. intros j' M a ->.
  eapply sized_bind; [apply IH|]. intros j'' M l [-> Hl]. cbn. auto.
Qed.
Lemma sized_feed {A} C (p : proc A) : forall i L ins, sized C i L p (fun M _ => M = []) ->
  (forall j m, nth_error ins j = Some m -> C (i + j)%nat m) -> sends_sizes p L ins.
Proof.
  unfold sends_sizes. induction p as [o|m k IH|k IH]; intros i L ins H Hi.
  - cbn in *. exists L. split; [reflexivity|]. intros a ->. exact H.
  - cbn in *. destruct L as [|n L]; [contradiction|]. destruct H as [H1 H2].
    destruct (IH i L ins H2 Hi) as (rest & E1 & E2). destruct (feed k ins) as [o out]. cbn in *.
    exists rest. split; [now rewrite H1, E1|exact E2].
  - cbn [feed] in *. cbn [sized] in H. destruct H as [H1 H2]. destruct ins as [|m ins].
    + apply (IH None i L [] H2). intros j m. now destruct j.
    + apply (IH (Some m) (S i) L ins).
      * apply H1. rewrite <- (Nat.add_0_r i). apply (Hi 0%nat). reflexivity.
      * intros j x Hj. rewrite Nat.add_succ_l, plus_n_Sm. now apply (Hi (S j)).
Qed.

(** ** Encodings *)
Lemma flat_size {A} (e : A -> bytes) n l : Forall (fun a => length (e a) = n) l -> length (flat_map e l) = (length l * n)%nat.
Proof. induction 1 as [|a l H _ IH]; [reflexivity|]. cbn [flat_map length Nat.mul]. now rewrite app_length, H, IH. Qed.
Lemma flat_map_sum {A} (e : A -> bytes) (f : A -> nat) l : (forall a, In a l -> length (e a) = f a) -> length (flat_map e l) = list_sum (map f l).
Proof.
  induction l as [|a l IH]; intros H; [reflexivity|]. cbn [flat_map map list_sum fold_right]. rewrite app_length, H by now left.
  f_equal. apply IH. intros x Hx. apply H. now right.
Qed.
Lemma vec_size {A} (e : A -> bytes) n l : Forall (fun a => length (e a) = n) l -> length (enc_vec e l) = (8 + length l * n)%nat.
Proof. intros H. unfold enc_vec. now rewrite app_length, len_usize, (flat_size e n). Qed.
Lemma bytes_size b : length (enc_bytes b) = (8 + length b)%nat.
Proof. unfold enc_bytes. rewrite (vec_size _ 1); [lia|]. apply Forall_forall. intros. apply len_uint. Qed.
Lemma props_size n s : length (enc_props (mkProps n s)) = (16 + length s)%nat.
Proof. unfold enc_props. cbn [pr_size pr_protocol]. rewrite app_length, len_usize, bytes_size. lia. Qed.
Lemma payload_size s pay : Forall (fun c : bytes * bytes => length (fst c) = s /\ length (snd c) = s) pay ->
  length (enc_payload pay) = (8 + length pay * (16 + 2 * s))%nat.
Proof.
  intros H. unfold enc_payload. apply vec_size. eapply Forall_impl; [|exact H]. intros c [H1 H2].
  unfold enc_pair. rewrite app_length, !bytes_size. lia.
Qed.

(** ** Properties and coin flips *)
Lemma sized_validate C i L n s k : (16 + length s = k)%nat -> sized C i (k :: L) (validate_properties (mkProps n s)) (fun M _ => M = L).
Proof.
  intros H. unfold validate_properties. eapply sized_bind; [apply sized_send; rewrite props_size; exact H|]. intros j M _ ->.
  eapply sized_bind; [apply sized_recv|]. intros j' M m ->. eapply sized_bind; [apply sized_any|]. intros j'' M pb ->.
  destruct (props_eqb _ _); cbn; auto.
Qed.
Lemma sized_coin_sender C i L sha v n : hash32 sha -> length v = n -> sized C i (32 :: n :: L)%nat (coinflip_sender sha n v) (fun M _ => M = L).
Proof.
  intros Hh Hv. unfold coinflip_sender. eapply sized_bind; [apply sized_send; apply Hh|]. intros j M _ ->.
  eapply sized_bind; [apply sized_recv|]. intros j' M u ->. destruct (negb _); [exact I|].
  eapply sized_bind; [apply sized_send; exact Hv|]. intros j'' M _ ->. reflexivity.
Qed.
Lemma sized_coin_receiver C i L sha v n : length v = n -> sized C i (n :: L)%nat (coinflip_receiver sha n v) (fun M _ => M = L).
Proof.
  intros Hv. unfold coinflip_receiver. eapply sized_bind; [apply sized_recv|]. intros j M m ->.
  eapply sized_bind; [apply sized_send; exact Hv|]. intros j' M _ ->. eapply sized_bind; [apply sized_recv|]. intros j'' M u ->.
  destruct (negb _); [exact I|]. destruct (negb _); [exact I|]. reflexivity.
Qed.

(** ** Base OT *)
Section Base.
Variable sha : bytes -> bytes.
Variable gen : bytes -> nat -> bytes.
Variable G : curve.
Variable p : profile.
Hypothesis HG : curve_ok G.
Lemma encrypt_size R A k m : oks (fun c => length (fst c) = length (fst m) /\ length (snd c) = length (snd m)) (co_encrypt sha gen G p R A k m).
Proof.
  apply keeps_oks. unfold co_encrypt. do 2 (eapply keeps_bind; [apply keeps_unwrap|]; intros ? _). cbv zeta.
  eapply keeps_bind; [apply keeps_xor_bytes|]. intros e0 E0. eapply keeps_bind; [apply keeps_xor_bytes|]. intros e1 E1. cbn. auto.
Qed.
Lemma oks_mapM {A B} (R : A -> B -> Prop) (f : A -> outcome B) l : (forall a, In a l -> oks (R a) (f a)) -> oks (Forall2 R l) (mapM f l).
Proof.
  induction l as [|a l IH]; intros H; [constructor|]. cbn [mapM]. pose proof (H a (or_introl eq_refl)) as Ha.
  assert (Hl : oks (Forall2 R l) (mapM f l)) by (apply IH; intros x Hx; apply H; now right).
  destruct (f a); cbn [obind oks] in *; auto. destruct (mapM f l); cbn [obind oks] in *; auto.
Qed.
Lemma sized_co_sender C i L rs msgs s : Forall (fun m : bytes * bytes => length (fst m) = s /\ length (snd m) = s) msgs ->
  sized C i (base_sender_sizes (length msgs) s ++ L) (co_sender sha gen G p rs msgs) (fun M _ => M = L).
Proof.
  intros Hm. unfold base_sender_sizes. cbn [app]. unfold co_sender. cbv zeta.
  eapply sized_bind; [apply sized_validate; reflexivity|]. intros j M _ ->. rewrite <- app_assoc.
  eapply sized_bind.
  { replace (length msgs) with (length (map (fun i => compress G (smul G (rs i) (base G))) (seq 0 (length msgs)))) at 1 by now rewrite map_length, seq_length.
    apply sized_send_all. apply Forall_forall. intros x Hx. apply in_map_iff in Hx as (q & <- & _). apply (co_len G HG). }
  intros j1 M _ ->. eapply sized_bind; [apply sized_recv_each; intros; apply sized_recv_unwrap|]. intros j2 M theirs [-> _].
  eapply sized_bind; [apply sized_any|]. intros j3 M _ ->.
  eapply sized_bind.
  { apply sized_lift, (oks_mapM (fun _ c => length (fst c) = s /\ length (snd c) = s)). intros [q m] Hin.
    apply in_combine_r in Hin. rewrite Forall_forall in Hm. destruct (Hm m Hin) as [H1 H2].
    destruct (idx theirs q) as [R| | |]; cbn [obind]; try exact I. destruct (idx _ q) as [A0| | |]; cbn [obind]; try exact I.
    pose proof (encrypt_size R A0 (rs q) m) as E. destruct (co_encrypt _ _ _ _ _ _ _ _); cbn [oks] in *; auto. destruct E as [-> ->]. auto. }
  intros j4 M pay [-> Hp]. pose proof (Forall2_length _ _ _ Hp) as Lp. rewrite combine_length, seq_length, Nat.min_id in Lp.
  cbn [app]. apply sized_send. rewrite (payload_size s); [do 2 f_equal; symmetry; exact Lp|].
  clear -Hp. induction Hp; constructor; auto.
Qed.
Lemma answer_size k c P : oks (fun a => length (fst a) = 32%nat) (co_answer sha G k c P).
Proof. unfold co_answer. destruct (decompress G P); cbn; [|exact I]. apply (co_len G HG). Qed.
Lemma sized_co_receiver C i L rs cs :
  sized C i (base_receiver_sizes (length cs) ++ L) (co_receiver sha gen G p rs cs) (fun M _ => M = L).
Proof.
  unfold base_receiver_sizes. cbn [app]. unfold co_receiver. cbv zeta.
  eapply sized_bind; [apply sized_validate; reflexivity|]. intros j M _ ->.
  eapply sized_bind; [apply sized_recv_each; intros; apply sized_recv_unwrap|]. intros j1 M theirs [-> Lt].
  eapply sized_bind; [apply sized_any|]. intros j2 M _ ->.
  eapply sized_bind.
  { apply sized_lift, (oks_mapM (fun _ c => length (fst c) = 32%nat)). intros [q P] Hin.
    destruct (idx cs q) as [b| | |]; cbn [obind]; try exact I. apply answer_size. }
  intros j3 M ans [-> Ha]. pose proof (Forall2_length _ _ _ Ha) as La. rewrite combine_length, seq_length, Nat.min_id, Lt in La.
  eapply sized_bind.
  { replace (length cs) with (length (map fst ans)) by (rewrite map_length; symmetry; exact La). apply sized_send_all. clear -Ha. induction Ha; cbn; constructor; auto. }
  intros j4 M _ ->. eapply sized_bind; [apply sized_recv|]. intros j5 M m ->.
  eapply sized_bind; [apply sized_any|]. intros j6 M pay ->. apply sized_any.
Qed.
End Base.

(** ** The extension *)
Section Ext.
Variable sha : bytes -> bytes.
Variable fill : bytes -> nat -> bytes.
Variable p : profile.
Variable a : arch.
Variable cores : nat.
Hypothesis Hf : generator fill.
Hypothesis Hh : hash32 sha.
Variable gen : bytes -> nat -> bytes.
Variable G : curve.
Hypothesis HG : curve_ok G.
Let fill_size s n : length (fill s n) = n. Proof. apply (Hf s n). Qed.
Lemma randomize_size qt delta ms msg : (16 * length msg <= length qt)%nat ->
  oks (fun d => length d = (length msg * (2 * ms))%nat) (randomize sha fill p cores qt delta 16 ms msg).
Proof.
  intros Hq. apply keeps_oks. unfold randomize. cbv zeta. eapply keeps_bind; [apply keeps_threads|]. intros tc _.
  eapply keeps_bind; [apply keeps_udiv|]. intros ric _.
  eapply keeps_weak; [apply (keeps_par_rows _ _ _ _ (length msg)); [apply repeat_length|]|intros d Hd; cbn beta in Hd; rewrite repeat_length in Hd; rewrite Hd; f_equal; lia].
  intros r row Hr Lr. unfold randomize_row.
  eapply keeps_bind; [apply keeps_vector_row; eapply inside; eassumption|]. intros qr _. cbv zeta.
  eapply keeps_bind; [apply keeps_idx|]. intros m _.
  eapply keeps_bind; [apply (keeps_slice sha); lia|]. intros p0 L0.
  eapply keeps_bind; [apply keeps_xor_inplace|]. intros e0 E0. rewrite fill_size, L0 in E0.
  eapply keeps_bind; [apply keeps_ap_xor|]. intros qb _.
  eapply keeps_bind; [apply (keeps_slice sha); lia|]. intros p1 L1.
  eapply keeps_bind; [apply keeps_xor_inplace|]. intros e1 E1. rewrite fill_size, L1 in E1.
  cbn. rewrite app_length. lia.
Qed.
Lemma u_size t0 t1 packed h w : (w * h <= length t0)%nat -> (w * h <= length t1)%nat ->
  oks (fun u => length u = (w * h)%nat) (compute_u p t0 t1 packed h w).
Proof.
  intros H0 H1. apply keeps_oks. unfold compute_u. apply (keeps_rows _ h w _ (w * h)); [apply repeat_length|lia|].
  intros i row Hi Lr.
  eapply keeps_bind; [apply keeps_vector_row; eapply inside; eassumption|]. intros r0 _.
  eapply keeps_bind; [apply keeps_vector_row; eapply inside; eassumption|]. intros r1 _.
  eapply keeps_bind; [apply keeps_ap_xor|]. intros r L.
  eapply keeps_weak; [apply keeps_xor_inplace|]. cbn. congruence.
Qed.
Lemma sums_size t chi padded h : (16 * h <= length t)%nat -> (16 * h <= length chi)%nat ->
  oks (fun xt => length (fst xt) = 16%nat /\ length (snd xt) = 16%nat) (receiver_sums p a t chi padded 16 h).
Proof.
  intros Ht Hc. apply keeps_oks. unfold receiver_sums.
  apply (keeps_foldM _ (fun xt => length (fst xt) = 16%nat /\ length (snd xt) = 16%nat)); [split; apply repeat_length|].
  intros [x ts] i Hi [Lx L]. apply in_seq in Hi. cbn in L, Lx.
  eapply keeps_bind; [apply keeps_vector_row; apply (inside _ _ h); [lia|assumption]|]. intros c Lc.
  eapply keeps_bind; [apply keeps_idx|]. intros b _.
  eapply (keeps_bind (fun x => length x = 16%nat)).
  { destruct b; [eapply keeps_weak; [apply keeps_xor_inplace|cbn; congruence]|exact Lx]. }
  intros x' Lx'. eapply keeps_bind; [apply keeps_vector_row; apply (inside _ _ h); [lia|assumption]|]. intros tr Lr.
  eapply keeps_bind; [cbn beta in *; apply keeps_ap_mul; lia|]. intros ts' Lts. split; [exact Lx'|exact Lts].
Qed.
Lemma sized_ap_sender C i L rs cu delta msgs s : length cu = 32%nat -> length delta = 16%nat ->
  (forall m, nth_error msgs 0 = Some m -> length (fst m) = s) ->
  sized C i (ext_sender_sizes (length msgs) s ++ L) (ap_sender sha fill p a cores cu delta (co_receiver sha gen G p rs) msgs) (fun M _ => M = L).
Proof.
  intros Lc Ld Hs. unfold ext_sender_sizes. rewrite <- !app_assoc. cbn [app]. unfold ap_sender.
  eapply sized_bind; [apply sized_any|]. intros ? ? _ ->.
  eapply sized_bind; [apply sized_validate; reflexivity|]. intros ? ? _ ->. cbv zeta.
  eapply sized_bind; [apply sized_coin_receiver; exact Lc|]. intros ? ? seed ->.
  eapply sized_bind; [apply sized_lift, keeps_oks, keeps_idx|]. intros ? ? m0 [-> Hm]. pose proof (Hs _ Hm) as Em. subst s.
  eapply sized_bind; [apply sized_send; reflexivity|]. intros ? ? _ ->.
  eapply sized_bind.
  { replace 128%nat with (length (u8_vec_to_bool_vec delta)) at 1 by (rewrite bits_length; lia). apply sized_co_receiver; exact HG. }
  intros ? ? pay ->. eapply sized_bind; [apply sized_any|]. intros ? ? t ->.
  eapply sized_bind; [apply sized_recv|]. intros ? ? u ->. eapply sized_bind; [apply sized_any|]. intros ? ? q ->.
  eapply sized_bind; [apply sized_lift, keeps_oks, keeps_transpose_matrix|]. intros ? ? qt [-> Lq]. rewrite repeat_length in Lq.
  eapply sized_bind; [apply sized_any|]. intros ? ? _ ->. eapply sized_bind; [apply sized_any|]. intros ? ? qs ->.
  eapply sized_bind; [apply sized_recv|]. intros ? ? xs ->. eapply sized_bind; [apply sized_recv|]. intros ? ? ts ->.
  eapply sized_bind; [apply sized_any|]. intros ? ? _ ->.
  eapply sized_bind; [apply sized_lift, randomize_size; unfold K_BYTES, K, S_ in Lq; lia|]. intros ? ? d [-> Hd].
  apply sized_send. exact Hd.
Qed.
Lemma sized_ap_receiver C i L rs cv bonus seed0 seed1 cs : length cv = 32%nat -> seeds_ok seed0 -> seeds_ok seed1 ->
  sized C i (ext_receiver_sizes (length cs) ++ L) (ap_receiver sha fill p a cores cv bonus seed0 seed1 (co_sender sha gen G p rs) cs) (fun M _ => M = L).
Proof.
  intros Lc [L0 F0] [L1 F1]. unfold ext_receiver_sizes. rewrite <- !app_assoc. cbn [app]. unfold ap_receiver.
  eapply sized_bind; [apply sized_any|]. intros ? ? _ ->.
  eapply sized_bind; [apply sized_validate; reflexivity|]. intros ? ? _ ->. cbv zeta.
  eapply sized_bind; [apply sized_coin_sender; [exact Hh|exact Lc]|]. intros ? ? seed ->.
  eapply sized_bind; [apply sized_recv|]. intros ? ? m ->. eapply sized_bind; [apply sized_any|]. intros ? ? ms ->.
  eapply sized_bind.
  { replace 128%nat with (length (combine seed0 seed1)) at 1 by (rewrite combine_length; lia). apply sized_co_sender; [exact HG|].
    apply Forall_forall. intros [x y] Hxy. rewrite Forall_forall in F0, F1. split;
      [apply (F0 x (in_combine_l _ _ _ _ Hxy))|apply (F1 y (in_combine_r _ _ _ _ Hxy))]. }
  intros ? ? _ ->.
  eapply sized_bind; [apply sized_lift, keeps_oks, keeps_expand_seeds; exact Hf|]. intros ? ? t0 [-> Ht0].
  eapply sized_bind; [apply sized_lift, keeps_oks, keeps_expand_seeds; exact Hf|]. intros ? ? t1 [-> Ht1].
  eapply sized_bind; [apply sized_lift, u_size; cbn beta in *; lia|]. intros ? ? u [-> Hu]. cbn beta in Hu.
  eapply sized_bind; [apply sized_send; rewrite Hu; unfold K_BYTES, K, S_; rewrite <- Nat.add_assoc; change (16 * 8)%nat with 128%nat; apply Nat.mul_comm|]. intros ? ? _ ->.
  eapply sized_bind; [apply sized_lift, keeps_oks, keeps_transpose_matrix|]. intros ? ? t [-> Lt]. cbn beta in Lt. rewrite repeat_length in Lt.
  eapply sized_bind; [apply sized_lift, sums_size; unfold K_BYTES in *; [lia|rewrite fill_size; lia]|]. intros ? ? [x ts] [-> [Lx Lts]].
  eapply sized_bind; [apply sized_send; exact Lx|]. intros ? ? _ ->. eapply sized_bind; [apply sized_send; exact Lts|]. intros ? ? _ ->.
  eapply sized_bind; [apply sized_any|]. intros ? ? v ->. eapply sized_bind; [apply sized_recv|]. intros ? ? d ->. apply sized_any.
Qed.
End Ext.
