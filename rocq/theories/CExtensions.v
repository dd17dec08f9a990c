(** C143: a party of the classic OT extension against a party of the other one. *)
From Coq Require Import List NArith Bool Arith Lia.
From Verif Require Import Base MUtil MBitMatrix MPoly MBincode MProc MOt MApricot MClassic.
From Verif Require Import SpecUtil SpecBincode SpecOt SpecApricot SpecClassic SpecKinds.
From Verif Require Import PBase PUtil PProc POt PHang PKinds PSizes PVersions CCircuit COt CApricot CClassic.
Import ListNotations.
Open Scope N_scope.

(** Properties, whoever announced them. *)
Lemma kept_validate {B} pb m (f : unit -> proc B) ins ci outs co : kept failing (f tt) ins ci outs co ->
  kept failing (pbind (validate_properties pb) f) (m :: ins) ci (enc_props pb :: outs) co.
Proof.
  intros H. unfold validate_properties. apply kept_a, kept_send, kept_a, kept_recv; [cbn; auto|]. apply kept_a, failing_lift. intros pb2 _.
  destruct (props_eqb _ _); [exact H|exact I].
Qed.

(** C143, classic sender and new receiver: whatever their inputs are, under no schedule does either end with a result. *)
Theorem C143_classic_sender : forall sha sha' gen20 gen8 gen fill gen' G G' p p' a a' cores r r' rs rs' msgs choices,
  classic_coins_ok r ->
  no_result (classic_sender_with sha gen20 gen8 p a r (co_receiver sha gen G p rs) msgs)
    (receiver_with sha' fill p' a' cores r' (co_sender sha' gen' G' p' rs') choices).
Proof.
  intros sha sha' gen20 gen8 gen fill gen' G G' p p' a a' cores r r' rs rs' msgs choices (_ & _ & [Ld _] & _). apply ends_in_no_result.
  exists [enc_props (mkProps (length choices) apricot_name); sha' (coin_r r')], true.
  exists [enc_props (mkProps (length msgs) apricot_name); enc_props (mkProps (length (u8_vec_to_bool_vec (coin_delta r))) chou_orlandi)], true.
  split.
  - unfold classic_sender_with, classic_sender. apply failing_lift. intros _ _. apply failing_lift. intros _ _. apply kept_validate. cbv zeta.
    unfold sender_cote. apply kept_a. unfold co_receiver. cbv zeta. apply kept_a, kept_validate, kept_a, kept_recv_each.
    rewrite bits_length, Ld. cbn. lia.
  - unfold receiver_with, ap_receiver. apply failing_lift. intros _ _. apply kept_validate. cbv zeta.
    unfold coinflip_sender. apply kept_a, kept_send, kept_a, kept_recv; [cbn; auto|]. rewrite props_size. exact I.
Qed.
Print Assumptions C143_classic_sender.

(** C143, new sender and classic receiver: the same. *)
Theorem C143_classic_receiver : forall sha sha' gen20 gen8 gen fill gen' G G' p p' a a' cores r r' rs rs' msgs choices,
  hash32 sha -> classic_coins_ok r' ->
  no_result (sender_with sha fill p a cores r (co_receiver sha gen G p rs) msgs)
    (classic_receiver_with sha' gen20 gen8 p' a' r' (co_sender sha' gen' G' p' rs') choices).
Proof.
  intros sha sha' gen20 gen8 gen fill gen' G G' p p' a a' cores r r' rs rs' msgs choices Hh (_ & _ & _ & _ & [L0 _] & [L1 _]). apply ends_in_no_result.
  set (seeds := combine (coin_seed0 r') (coin_seed1 r')). assert (Ls : length seeds = 128%nat) by (unfold seeds; rewrite combine_length, L0, L1; reflexivity).
  set (publics := map (fun i => compress G' (smul G' (rs' i) (base G'))) (seq 0 (length seeds))).
  assert (Lp : length publics = 128%nat) by (unfold publics; now rewrite map_length, seq_length).
  exists (enc_props (mkProps (length choices) apricot_name) :: enc_props (mkProps (length seeds) chou_orlandi) :: publics), true.
  exists [enc_props (mkProps (length msgs) apricot_name); coin_s r], true. split.
  - unfold sender_with, ap_sender. apply failing_lift. intros _ _. apply kept_validate. cbv zeta.
    unfold coinflip_receiver. apply kept_a, kept_recv; [cbn; auto|]. apply kept_a, kept_send. destruct publics as [|P publics']; [discriminate|].
    apply kept_a, kept_recv; [cbn; auto|]. destruct (negb (Nat.eqb (length P) 32)); [exact I|].
    destruct (bytes_eqb _ (sha P)) eqn:E; [|exact I]. apply bytes_eqb_eq in E. apply (f_equal (@length N)) in E. rewrite props_size in E. destruct (Hh P) as [Lh _]. rewrite Lh in E. discriminate.
  - unfold classic_receiver_with, classic_receiver. apply kept_validate. apply failing_lift. intros _ _. apply failing_lift. intros _ _. cbv zeta.
    unfold receiver_cote. cbv zeta. apply kept_a. fold seeds. unfold co_sender. cbv zeta. apply kept_a, kept_validate, kept_a.
    apply kept_sends, kept_a, kept_recv_each. rewrite Ls. cbn. lia.
Qed.
Print Assumptions C143_classic_receiver.

(** ** Example *)
(** The name does not tell them apart: each party goes on and sends its second frame after the properties of the other. *)
Example C143_case :
  let greeting := [enc_props (mkProps 8 apricot_name)] in
  let msgs := repeat ([1], [2]) 8 in let cs := repeat true 8 in
  length (snd (feed (classic_sender_with toy toy_gen toy_gen Debug None classic_toy (co_receiver toy toy_gen toy_curve Debug (fun _ => 1)) msgs) greeting)) = 2%nat /\
  length (snd (feed (receiver_with toy toy_gen Debug X86 1 toy_coins (co_sender toy toy_gen toy_curve Debug (fun _ => 1)) cs) greeting)) = 2%nat /\
  length (snd (feed (classic_receiver_with toy toy_gen toy_gen Debug None classic_toy (co_sender toy toy_gen toy_curve Debug (fun _ => 1)) cs) greeting)) = 2%nat /\
  classic_coins_ok classic_toy /\ hash32 toy.
Proof.
  split; [vm_compute; reflexivity|]. split; [vm_compute; reflexivity|]. split; [vm_compute; reflexivity|].
  split; [exact classic_toy_ok|exact toy_hash32].
Qed.
