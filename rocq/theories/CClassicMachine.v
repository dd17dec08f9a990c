(** C141: the classic OT extension on different processors. *)
From Coq Require Import List NArith Bool Lia Arith.
From Verif Require Import Base MUtil MBitMatrix MPoly MBincode MProc MOt MApricot MClassic.
From Verif Require Import SpecUtil SpecBitMatrix SpecBincode SpecOt SpecApricot SpecClassic SpecMachine.
From Verif Require Import PBase PBitMatrix PProc POt PClassicMachine PMachine2 CCircuit COt CApricot CClassic.
Import ListNotations.
Open Scope N_scope.

(** C141, receiver: whatever frames come in, the receiver sends the same frames and ends in the same way on x86, on ARM64
    and on other processors, in debug builds and in release builds. *)
Theorem C141_receiver : forall sha gen20 gen8 p a a' r bootS choices, generator gen20 -> classic_coins_ok r ->
  same_party (classic_receiver_with sha gen20 gen8 p a r bootS choices) (classic_receiver_with sha gen20 gen8 p a' r bootS choices).
Proof.
  intros sha gen20 gen8 p a a' r bootS choices Hg (_ & _ & _ & _ & [L0 _] & _). apply peq_party. now apply classic_receiver_any.
Qed.
Print Assumptions C141_receiver.

(** C141, sender in a release build: the same, for all frames that consist of bytes. *)
Theorem C141_sender_release : forall sha gen20 gen8 a a' r bootR msgs ins, generator gen20 -> classic_coins_ok r -> Forall bytes_ok ins ->
  feed (classic_sender_with sha gen20 gen8 Release a r bootR msgs) ins = feed (classic_sender_with sha gen20 gen8 Release a' r bootR msgs) ins.
Proof.
  intros sha gen20 gen8 a a' r bootR msgs ins Hg (_ & _ & Hd & _) Hi. now apply classic_sender_any.
Qed.
Print Assumptions C141_sender_release.

(** C141, sender over the base OT of the code, in any build: the same, as long as the frame with the x sum (frame 134) does not
    decode to a sum of another length than 16 bytes. *)
Theorem C141_sender : forall sha gen20 gen gen8 G p a a' r rs msgs ins, generator gen20 -> classic_coins_ok r -> Forall bytes_ok ins ->
  (forall v, deserialize dec_bytes (nth 134 ins []) = Ok v -> length v = 16%nat) ->
  feed (classic_sender_with sha gen20 gen8 p a r (co_receiver sha gen G p rs) msgs) ins =
  feed (classic_sender_with sha gen20 gen8 p a' r (co_receiver sha gen G p rs) msgs) ins.
Proof.
  intros sha gen20 gen gen8 G p a a' r rs msgs ins Hg (_ & _ & Hd & _) Hi Hx. apply classic_sender_same; auto.
Qed.
Print Assumptions C141_sender.

(** C141 is false for the sender in a debug build: given a sum x of more than 16 bytes (and a sum t that is not 16 bytes long)
    it ends with the error of the check on x86, where the surplus is ignored, and panics on all other processors.  In a
    release build it ends with the error everywhere. *)
Theorem C141_sender_debug_refuted : forall sha gen20 gen8 a r bootS bootR msgs u x_sum t_sum,
  generator gen20 -> classic_coins_ok r -> ot_correct seed_pairs bootS bootR ->
  classic_ok msgs -> shaped 128 ((length msgs + 192) / 8) u -> blob_ok x_sum -> blob_ok t_sum ->
  (16 < length x_sum)%nat -> length t_sum <> 16%nat ->
  let evil := evil_classic sha (coin_r r) (coin_seed0 r) (coin_seed1 r) bootS (length msgs) u x_sum t_sum in
  runs (classic_sender_with sha gen20 gen8 Debug (Some X86) r bootR msgs) evil (Err ECorrelation) (Ok tt) /\
  (a <> Some X86 -> runs (classic_sender_with sha gen20 gen8 Debug a r bootR msgs) evil (Panic PAssert) (Ok tt)) /\
  runs (classic_sender_with sha gen20 gen8 Release a r bootR msgs) evil (Err ECorrelation) (Ok tt).
Proof.
  intros sha gen20 gen8 a [cu cv delta bonus seed0 seed1] bootS bootR msgs u x_sum t_sum Hg (H1 & H2 & H3 & H4 & H5 & H6) Hb Hm Su Hx Ht Lx Lt evil.
  destruct (classic_any_sums sha gen20 gen8 Hg Debug cu cv delta seed0 seed1 H1 H2 H3 H5 H6 bootS bootR Hb msgs u x_sum t_sum Hm Su Hx Ht) as (qs & Lq & RD).
  destruct (classic_any_sums sha gen20 gen8 Hg Release cu cv delta seed0 seed1 H1 H2 H3 H5 H6 bootS bootR Hb msgs u x_sum t_sum Hm Su Hx Ht) as (qs' & Lq' & RR).
  split; [|split].
  - apply RD. split; [|exact I]. exact (proj1 (long_verdict (Some X86) qs delta x_sum t_sum Lq H3 (proj2 Hx) Lx Lt)).
  - intros Ha. apply RD. split; [|exact I]. destruct (long_verdict a qs delta x_sum t_sum Lq H3 (proj2 Hx) Lx Lt) as [E _]. rewrite E.
    destruct a as [[|]|]; [now destruct Ha|reflexivity|reflexivity].
  - apply RR. split; [|exact I]. exact (proj2 (long_verdict a qs' delta x_sum t_sum Lq' H3 (proj2 Hx) Lx Lt)).
Qed.
Print Assumptions C141_sender_debug_refuted.

(** ** Examples *)
Example C141_parties : forall ins,
  feed (classic_receiver_with toy toy_gen toy_gen Debug (Some X86) classic_toy (co_sender toy toy_gen toy_curve Debug (fun _ => 1)) (repeat true 8)) ins =
  feed (classic_receiver_with toy toy_gen toy_gen Debug None classic_toy (co_sender toy toy_gen toy_curve Debug (fun _ => 1)) (repeat true 8)) ins.
Proof. exact (C141_receiver toy toy_gen toy_gen Debug (Some X86) None classic_toy _ _ toy_gen_ok classic_toy_ok). Qed.
Example C141_senders : feed (classic_sender_with toy toy_gen toy_gen Debug (Some X86) classic_toy (co_receiver toy toy_gen toy_curve Debug (fun _ => 1)) (repeat ([1], [2]) 8)) (repeat (enc_bytes (repeat 3 16)) 136) =
  feed (classic_sender_with toy toy_gen toy_gen Debug None classic_toy (co_receiver toy toy_gen toy_curve Debug (fun _ => 1)) (repeat ([1], [2]) 8)) (repeat (enc_bytes (repeat 3 16)) 136).
Proof.
  apply C141_sender; [exact toy_gen_ok|exact classic_toy_ok| |].
  - apply Forall_forall. intros y Hy. apply repeat_spec in Hy. subst. repeat constructor.
  - intros v E. cbn [nth repeat] in E. vm_compute in E. injection E as <-. reflexivity.
Qed.
Example C141_case : let evil := evil_classic toy (coin_r classic_toy) (coin_seed0 classic_toy) (coin_seed1 classic_toy) (co_sender toy toy_gen toy_curve Debug (fun _ => 1)) 8
       (repeat (repeat 77 25) 128) (repeat 3 17) [] in
  let sender a := classic_sender_with toy toy_gen toy_gen Debug a classic_toy (co_receiver toy toy_gen toy_curve Debug (fun _ => 1)) (repeat ([1], [2]) 8) in
  runs (sender (Some X86)) evil (Err ECorrelation) (Ok tt) /\ runs (sender (Some ARM64)) evil (Panic PAssert) (Ok tt).
Proof.
  destruct (C141_sender_debug_refuted toy toy_gen toy_gen (Some ARM64) classic_toy _ _ (repeat ([1], [2]) 8) (repeat (repeat 77 25) 128) (repeat 3 17) []
    toy_gen_ok classic_toy_ok (toy_boot Debug Debug)) as (R1 & R2 & _).
  - split; [|split; [cbn; lia|reflexivity]]. split; [reflexivity|]. repeat constructor.
  - split; [reflexivity|]. apply Forall_forall. intros y Hy. apply repeat_spec in Hy. subst. split; [reflexivity|now apply repeat_ok].
  - split; [reflexivity|now apply repeat_ok].
  - split; [reflexivity|constructor].
  - cbn. lia.
  - discriminate.
  - split; [exact R1|]. apply R2. discriminate.
Qed.
