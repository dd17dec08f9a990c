(** C135: how the one-out-of-many OT over the base OT ends. *)
From Coq Require Import List NArith Bool Lia Arith.
From Verif Require Import Base MUtil MPar MBincode MProc MOt MMany.
From Verif Require Import SpecBincode SpecOt SpecMany SpecEnds SpecEnds3 PBase PProc PEnds PEnds3 CCircuit COt CMany.
Import ListNotations.
Open Scope N_scope.

(** The property is false: a list of another number of pairs makes the receiver panic, whatever its index. *)
Theorem C135_list_length_refuted : forall sha fill gen G p rs choice d y m l m' rest pay,
  generator fill -> generator gen -> (d <= 32)%nat -> choice < N.of_nat (2 ^ d) ->
  agrees d m -> points G d l -> skipn d l = m' :: rest -> deserialize dec_payload m' = Ok pay -> length pay <> d ->
  crashes (fst (feed (many_receiver sha fill p (co_receiver sha gen G p rs) choice d) (y :: m :: l))).
Proof.
  intros sha fill gen G p rs choice d y m l m' rest pay Hf Hg Hd Hc A Hp El Ed Ne.
  apply (many_receiver_ends sha gen Hg G p rs fill Hf choice d _ Hd Hc). exists y, m, l. split; [reflexivity|]. split; [exact A|].
  intros _. exists m', rest, pay. split; [exact El|]. split; [exact Ed|]. rewrite index_bits_length. tauto.
Qed.
Print Assumptions C135_list_length_refuted.

(** For any frames of the peer: the receiver ends with a value exactly if the peer sends a first frame (of any
    length), agrees to [d] pairs, sends [d] points and one pair of ciphertexts for each bit of the index; in debug
    builds the chosen ciphertexts must have whole numbers of 32 bytes.  It panics exactly if the peer agrees but
    sends something else than [d] points, or another list; otherwise it returns an error.  The value has the
    2^d-th part of the length of the first frame. *)
Theorem C135_receiver_ends : forall sha fill gen G, generator fill -> generator gen ->
  forall p rs choice d ins, (d <= 32)%nat -> choice < N.of_nat (2 ^ d) ->
  let cs := index_bits choice d in
  let o := fst (feed (many_receiver sha fill p (co_receiver sha gen G p rs) choice d) ins) in
  (succeeds o <-> exists y m l, ins = y :: m :: l /\ agrees d m /\ points G d l /\ complete p cs (skipn d l)) /\
  (crashes o <-> exists y m l, ins = y :: m :: l /\ agrees d m /\ (points G d l -> incomplete p cs (skipn d l))) /\
  (fails o <-> forall y m l, ins = y :: m :: l -> agrees d m -> points G d l /\ unreadable (skipn d l)) /\
  o <> UB /\
  (forall x, o = Ok x -> exists y l, ins = y :: l /\ length x = (length y / 2 ^ d)%nat).
Proof. intros sha fill gen G Hf Hg p rs choice d ins. exact (many_receiver_ends sha gen Hg G p rs fill Hf choice d ins). Qed.
Print Assumptions C135_receiver_ends.

(** The sender ends like the base OT's sender of [d] pairs. *)
Theorem C135_sender_ends : forall sha fill gen G, generator fill -> generator gen -> curve_ok G ->
  forall p rs cores keys messages d ins, key_pairs keys -> length keys = d -> length messages = (2 ^ d)%nat ->
  same_length messages -> fits cores d ->
  let o := fst (feed (many_sender sha fill p cores keys (co_sender sha gen G p rs) messages d) ins) in
  (succeeds o <-> exists m l, ins = m :: l /\ agrees d m /\ points G d l) /\
  (crashes o <-> exists m l, ins = m :: l /\ agrees d m /\ ~ points G d l) /\
  (fails o <-> ~ exists m l, ins = m :: l /\ agrees d m) /\
  o <> UB.
Proof.
  intros sha fill gen G Hf Hg HG p rs cores keys messages d ins Hk Lk Lm Hs Hfit.
  exact (many_sender_ends sha gen Hg G p rs fill Hf cores keys messages d ins HG Hk Lk Lm Hs Hfit).
Qed.
Print Assumptions C135_sender_ends.

(** *** Examples: an index of two bits. *)
Example C135_case : let hello := enc_props (mkProps 2 chou_orlandi) in let pt := repeat 0 32 in let k := repeat 7 32 in
  let end_ p ins := fst (feed (many_receiver toy toy_gen p (co_receiver toy toy_gen toy_curve p (fun _ => 1)) 2 2) ins) in
  agrees 2 hello /\ points toy_curve 2 [pt; pt] /\ index_bits 2 2 = [false; true] /\
  succeeds (end_ Debug [repeat 9 8; hello; pt; pt; enc_payload [(k, [1]); ([2; 3], k)]]) /\
  crashes (end_ Debug [repeat 9 8; hello; pt; pt; enc_payload [([1], k); (k, [2; 3])]]) /\
  succeeds (end_ Release [repeat 9 8; hello; pt; pt; enc_payload [([1], k); (k, [2; 3])]]) /\
  crashes (end_ Release [repeat 9 8; hello; pt; pt; enc_payload [(k, k)]]) /\
  crashes (end_ Release [repeat 9 8; hello; pt; [1]]) /\
  fails (end_ Release [repeat 9 8; hello; pt; pt; [9]]) /\ fails (end_ Release [repeat 9 8; [1]]).
Proof.
  assert (F : point_frame toy_curve (repeat 0 32)) by (split; [reflexivity|vm_compute; discriminate]).
  intros hello pt k end_. split; [vm_compute; reflexivity|].
  split; [split; [cbn; lia|apply Forall_cons; [exact F|apply Forall_cons; [exact F|apply Forall_nil]]]|]. split; [reflexivity|].
  repeat split; eexists; vm_compute; reflexivity.
Qed.
Example C135_sender_case : let end_ ins := fst (feed (many_sender toy toy_gen Debug 4 (toy_keys 1) (co_sender toy toy_gen toy_curve Debug (fun _ => 1)) [[1]; [2]] 1) ins) in
  key_pairs (toy_keys 1) /\ same_length [[1]; [2]] /\ fits 4 1 /\
  succeeds (end_ [enc_props (mkProps 1 chou_orlandi); repeat 0 32]) /\ crashes (end_ [enc_props (mkProps 1 chou_orlandi); [1]]) /\ fails (end_ []).
Proof.
  split; [apply toy_keys_ok; lia|]. split; [exists 1%nat; split; [lia|repeat constructor]|]. split; [left; lia|].
  repeat split; eexists; vm_compute; reflexivity.
Qed.
