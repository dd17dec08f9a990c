(** C98: transfers of no messages and of empty messages. *)
From Coq Require Import List NArith Bool Lia Arith.
From Verif Require Import Base MUtil MBincode MProc MPoly MOt MApricot MClassic.
From Verif Require Import SpecBincode SpecOt SpecApricot SpecClassic SpecNothing PNothing CCircuit COt CApricot CClassic.
Import ListNotations.
Open Scope N_scope.

(** C98: the base OT transfers any number of empty messages, including no message at all. *)
Theorem C98_base_OT_transfers_nothing : forall sha gen G p p' ra rb n cs,
  generator gen -> curve_ok G -> usize_ok n -> length cs = n ->
  runs (co_sender sha gen G p ra (empty_pairs n)) (co_receiver sha gen G p' rb cs) (Ok tt) (Ok (repeat [] n)).
Proof. exact co_nothing. Qed.
Print Assumptions C98_base_OT_transfers_nothing.

Example C98_base_OT_example :
  runs (co_sender toy toy_gen toy_curve Debug (fun _ => 1) []) (co_receiver toy toy_gen toy_curve Release (fun _ => 1) []) (Ok tt) (Ok []) /\
  runs (co_sender toy toy_gen toy_curve Debug (fun _ => 1) [([], []); ([], [])]) (co_receiver toy toy_gen toy_curve Release (fun _ => 1) [true; false]) (Ok tt) (Ok [[]; []]).
Proof.
  split.
  - exact (C98_base_OT_transfers_nothing toy toy_gen toy_curve Debug Release (fun _ => 1) (fun _ => 1) 0 [] toy_gen_ok toy_curve_ok eq_refl eq_refl).
  - exact (C98_base_OT_transfers_nothing toy toy_gen toy_curve Debug Release (fun _ => 1) (fun _ => 1) 2 [true; false] toy_gen_ok toy_curve_ok eq_refl eq_refl).
Qed.

(** C98 is false of the extension: with pairs of empty messages an honest run passes the correlation
    check, and then the sender panics while encrypting; the receiver is left with a closed channel. *)
Theorem C98_empty_messages_refuted : forall sha fill p p' a a' cores cores' r bootS bootR n cs,
  hash32 sha -> generator fill -> (1 <= cores)%nat -> (1 <= cores')%nat -> coins_ok r -> ot_correct seed_pairs bootS bootR ->
  length cs = n -> usize_ok n -> (1 <= n)%nat -> (n mod 8 = 0)%nat ->
  leaves (sender_with sha fill p a cores r bootR (empty_pairs n)) (receiver_with sha fill p' a' cores' r bootS cs) (Panic PSlice) (Err EClosed).
Proof.
  intros sha fill p p' a a' cores cores' [cu cv delta bonus seed0 seed1] bootS bootR n cs Hs Hf Hc Hc' (H1 & H2 & H3 & H4 & H5 & H6) Hb.
  exact (ap_empty sha fill Hs Hf p p' a a' cores cores' Hc Hc' cu cv delta bonus seed0 seed1 H1 H2 H3 H4 H5 H6 bootS bootR Hb n cs).
Qed.
Print Assumptions C98_empty_messages_refuted.

Example C98_empty_example :
  leaves (sender_with toy toy_gen Debug X86 4 toy_coins (co_receiver toy toy_gen toy_curve Debug (fun _ => 1)) (empty_pairs 8))
    (receiver_with toy toy_gen Release X86 2 toy_coins (co_sender toy toy_gen toy_curve Release (fun _ => 1)) (repeat true 8)) (Panic PSlice) (Err EClosed).
Proof.
  apply C98_empty_messages_refuted; try exact toy_hash32; auto using toy_gen_ok, toy_coins_ok, toy_base; try reflexivity; lia.
Qed.

(** C98 is false of the extension: with no messages, the honest sender panics after the coin flip. *)
Theorem C98_no_messages_refuted : forall sha fill p p' a a' cores cores' r bootS bootR,
  coins_ok r ->
  leaves (sender_with sha fill p a cores r bootR []) (receiver_with sha fill p' a' cores' r bootS []) (Panic PIndex) (Err EClosed).
Proof.
  intros sha fill p p' a a' cores cores' [cu cv delta bonus seed0 seed1] bootS bootR (H1 & H2 & H3 & H4 & H5 & H6).
  exact (ap_none sha fill p p' a a' cores cores' cu cv delta bonus seed0 seed1 H1 H2 bootS bootR).
Qed.
Print Assumptions C98_no_messages_refuted.

Example C98_none_example :
  leaves (sender_with toy toy_gen Debug X86 4 toy_coins (co_receiver toy toy_gen toy_curve Debug (fun _ => 1)) [])
    (receiver_with toy toy_gen Release X86 2 toy_coins (co_sender toy toy_gen toy_curve Release (fun _ => 1)) []) (Panic PIndex) (Err EClosed).
Proof. apply C98_no_messages_refuted, toy_coins_ok. Qed.

(** C98: the sender alone is not to blame: a receiver without choices returns nothing whatever it is
    sent, and panics (division by zero) even with a sender that has no messages and does not panic. *)
Theorem C98_no_choices_refuted : forall sha fill p a cores r bootS,
  (forall ins out, fst (feed (receiver_with sha fill p a cores r bootS []) ins) <> Ok out) /\
  (forall bootR d, hash32 sha -> generator fill -> (1 <= cores)%nat -> coins_ok r -> ot_correct seed_pairs bootS bootR ->
    runs (quiet_sender sha (coin_s r) (coin_delta r) bootR d) (receiver_with sha fill p a cores r bootS []) (Ok tt) (Panic PDivZero)).
Proof.
  intros sha fill p a cores [cu cv delta bonus seed0 seed1] bootS. split.
  - exact (ap_no_choices sha fill p a cores cv bonus seed0 seed1 bootS).
  - intros bootR d Hs Hf Hc (H1 & H2 & H3 & H4 & H5 & H6) Hb.
    exact (ap_quiet sha fill Hs Hf p a cores cores Hc Hc cu cv delta bonus seed0 seed1 H1 H2 H3 H4 H5 H6 bootS bootR Hb d).
Qed.
Print Assumptions C98_no_choices_refuted.

Example C98_quiet_example :
  runs (quiet_sender toy (coin_s toy_coins) (coin_delta toy_coins) (co_receiver toy toy_gen toy_curve Debug (fun _ => 1)) [])
    (receiver_with toy toy_gen Release X86 2 toy_coins (co_sender toy toy_gen toy_curve Release (fun _ => 1)) []) (Ok tt) (Panic PDivZero).
Proof.
  apply (proj2 (C98_no_choices_refuted toy toy_gen Release X86 2 toy_coins (co_sender toy toy_gen toy_curve Release (fun _ => 1)))); try exact toy_hash32;
    auto using toy_gen_ok, toy_coins_ok, toy_base.
Qed.

(** C98: the classic extension refuses to send no messages at the start, before any frame, but does
    transfer empty messages. *)
Theorem C98_classic : forall sha gen20 gen8 p p' a a' r bootS bootR,
  (forall ins, feed (classic_sender_with sha gen20 gen8 p a r bootR []) ins = (Panic PAssert, [])) /\
  (generator gen20 -> generator gen8 -> classic_coins_ok r -> ot_correct seed_pairs bootS bootR ->
   forall n cs, length cs = n -> usize_ok n -> (0 < n)%nat -> (n mod 8 = 0)%nat ->
   runs (classic_sender_with sha gen20 gen8 p a r bootR (empty_pairs n)) (classic_receiver_with sha gen20 gen8 p' a' r bootS cs) (Ok tt) (Ok (repeat [] n))).
Proof.
  intros sha gen20 gen8 p p' a a' r bootS bootR. split; [intros ins; reflexivity|].
  intros Hg Hg8 Hr Hb n cs Lc Un Hn H8.
  destruct (C36_classic_correct sha gen20 gen8 p p' a a' r bootS bootR Hg Hg8 Hr Hb (empty_pairs n) cs) as (out & R & Sel).
  - unfold empty_pairs. now rewrite repeat_length.
  - split; [exact (empty_payload n Un)|]. unfold empty_pairs. rewrite repeat_length. auto.
  - rewrite <- (empty_selection n cs out Lc Sel). exact R.
Qed.
Print Assumptions C98_classic.

Example C98_classic_example :
  feed (classic_sender_with toy toy_gen toy_gen Release (Some X86) classic_toy (co_receiver toy toy_gen toy_curve Release (fun _ => 1)) []) [] = (Panic PAssert, []) /\
  runs (classic_sender_with toy toy_gen toy_gen Release (Some X86) classic_toy (co_receiver toy toy_gen toy_curve Release (fun _ => 1)) (empty_pairs 8))
    (classic_receiver_with toy toy_gen toy_gen Release (Some X86) classic_toy (co_sender toy toy_gen toy_curve Release (fun _ => 1)) (repeat true 8)) (Ok tt) (Ok (repeat [] 8)).
Proof.
  pose proof (C98_classic toy toy_gen toy_gen Release Release (Some X86) (Some X86) classic_toy (co_sender toy toy_gen toy_curve Release (fun _ => 1)) (co_receiver toy toy_gen toy_curve Release (fun _ => 1))) as [H1 H2].
  split; [apply H1|]. apply H2; auto using toy_gen_ok, classic_toy_ok, toy_base; try reflexivity; lia.
Qed.
