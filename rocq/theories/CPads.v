(** C73-C75: the messages of the OT senders only leave under pads. *)
From Coq Require Import List NArith Bool Lia Arith.
From Verif Require Import Base MUtil MBitMatrix MPoly MPar MBincode MProc MOt MApricot MClassic MMany.
From Verif Require Import SpecUtil SpecBincode SpecOt SpecApricot SpecClassic SpecMany SpecPads SpecManyHide.
From Verif Require Import PBase PProc POt PMany PPads PPads2 PManyHide CCircuit COt CApricot CClassic CMany.
Import ListNotations.
Open Scope N_scope.

(** C73: the base OT sender, whatever it receives: what it sends depends on the messages only through
    the last frame, where each message is under a pad generated from a hash of a point.  With [R] the
    point received and [A = a.B] the point sent for a pair, the two points of the pair are [a.R] and
    one that differs from it by [a.A]. *)
Theorem C73_base_OT_pads : forall sha gen G p rs sz ins, generator gen -> curve_ok G ->
  sends_padded sz (co_sender sha gen G p rs) (fun c => [enc_payload c]) ins
    (fun pre i s k => exists m R K1, let A := smul G (rs i) (base G) in
       nth_error ins (S i) = Some m /\ decompress G m = Some R /\ nth_error pre (S i) = Some (compress G A) /\
       psub G (smul G (rs i) R) K1 = smul G (rs i) A /\
       k = (gen (sha (compress G (smul G (rs i) R))) (fst s), gen (sha (compress G K1)) (snd s))).
Proof. intros sha gen G p rs sz ins Hg HG. exact (co_sender_padded sha gen G Hg HG p rs sz ins). Qed.
Print Assumptions C73_base_OT_pads.

(** The sender does send the messages, for instance here. *)
Example C73_example : forall m0 m1,
  fst (feed (co_sender toy toy_gen toy_curve Debug (fun _ => 1) [([m0], [m1])])
         [enc_props (mkProps 1 chou_orlandi); compress toy_curve (true, true)]) = Ok tt.
Proof. intros m0 m1. vm_compute. reflexivity. Qed.

(** C74: the same for both OT extensions: the pads of a row come from hashes of its number and of two
    16-byte keys which differ by delta. *)
Theorem C74_extension_pads : forall sha fill p a cores cu delta boot n s ins,
  generator fill -> (1 <= cores)%nat -> (1 <= n)%nat -> (1 <= s)%nat -> array_ok 16 delta ->
  sends_padded (repeat (s, s) n) (ap_sender sha fill p a cores cu delta boot)
    (fun c => [concat (map (fun m => fst m ++ snd m) c)]) ins
    (fun _ i s k => exists q, length q = 16%nat /\
       k = (fill (sha (be_bytes 8 (N.of_nat i) ++ q)) (fst s), fill (sha (be_bytes 8 (N.of_nat i) ++ xored q delta)) (snd s))).
Proof.
  intros sha fill p a cores cu delta boot n s ins Hf Hc Hn Hs Hd.
  exact (ap_sender_padded sha fill Hf p a cores Hc cu delta boot n s ins Hn Hs Hd).
Qed.
Print Assumptions C74_extension_pads.

Theorem C74_classic_pads : forall sha gen20 gen8 p a cu delta boot sz ins, generator gen8 -> array_ok 16 delta ->
  sends_padded sz (classic_sender sha gen20 gen8 p a cu delta boot)
    (fun c => [enc_rows (map fst c); enc_rows (map snd c)]) ins
    (fun _ i s k => exists q, length q = 16%nat /\
       k = (gen8 (sha (le_bytes 8 (N.of_nat i) ++ q)) (fst s), gen8 (sha (le_bytes 8 (N.of_nat i) ++ xored q delta)) (snd s))).
Proof.
  intros sha gen20 gen8 p a cu delta boot sz ins Hg Hd.
  exact (classic_sender_padded sha gen20 gen8 Hg p a cu delta boot sz ins Hd).
Qed.
Print Assumptions C74_classic_pads.

Example C74_example :
  (exists ins, fst (feed (sender_with toy toy_gen Release X86 5 toy_coins (co_receiver toy toy_gen toy_curve Release (fun _ => 1)) (repeat ([1; 2], [3; 4]) 8)) ins) = Ok tt) /\
  (exists ins, fst (feed (classic_sender_with toy toy_gen toy_gen Release (Some X86) classic_toy (co_receiver toy toy_gen toy_curve Release (fun _ => 1)) (repeat ([1; 2], [3]) 8)) ins) = Ok tt).
Proof.
  split.
  - destruct (C35_extension_over_base_OT toy toy_gen toy_gen toy_curve Release Debug X86 ARM64 5 3 toy_coins (fun _ => 1) (fun _ => 1)
      toy_hash32 toy_gen_ok toy_gen_ok toy_curve_ok ltac:(lia) ltac:(lia) toy_coins_ok (repeat ([1; 2], [3; 4]) 8) (repeat true 8) eq_refl) as (out & R & _).
    { split; [reflexivity|]. split; [cbn; lia|]. split; [reflexivity|]. exists 2%nat. split; [lia|]. split; [reflexivity|]. repeat constructor. }
    apply runs_feed in R. destruct R as (o & i & R & _). exists i. now rewrite R.
  - destruct (C36_classic_over_base_OT toy toy_gen toy_gen toy_curve Release Debug (Some X86) None classic_toy (fun _ => 1) (fun _ => 1)
      toy_gen_ok toy_gen_ok toy_curve_ok classic_toy_ok (repeat ([1; 2], [3]) 8) (repeat true 8) eq_refl) as (out & R & _).
    { split; [|split; [cbn; lia|reflexivity]]. split; [reflexivity|]. repeat constructor. }
    apply runs_feed in R. destruct R as (o & i & R & _). exists i. now rewrite R.
Qed.

(** C75: 1-of-n OT: for two lists of messages which agree at [c], whatever the sender with the first
    list sends is sent with the other list when the generator is changed on some seeds, all of which
    need a key that a receiver of the message [c] does not get. *)
Theorem C75_other_messages_hidden : forall sha fill p cores keys boot messages messages' s c,
  generator fill -> (length keys <= 32)%nat -> keys_differ keys -> seeds_differ sha keys -> (1 <= s)%nat ->
  let d := length keys in
  length messages = (2 ^ d)%nat -> length messages' = (2 ^ d)%nat ->
  Forall (array_ok s) messages -> Forall (array_ok s) messages' -> fits cores d ->
  (c < 2 ^ d)%nat -> nth c messages' [] = nth c messages [] ->
  exists fill', generator fill' /\ differs_out_of_sight sha keys c fill fill' /\
    many_sender sha fill' p cores keys boot messages' d = many_sender sha fill p cores keys boot messages d.
Proof.
  intros sha fill p cores keys boot messages messages' s c Hf Hd Hk Hs Hsp d L L' A A' Hfit Hc Same.
  assert (X : forall l, Forall (array_ok s) l -> Forall (fun m : bytes => length m = s) l /\ Forall bytes_ok l).
  { intros l Hl. split; (eapply Forall_impl; [|exact Hl]); intros ? []; auto. }
  destruct (X _ A) as [A1 A2]. destruct (X _ A') as [B1 B2].
  exists (other_fill sha fill keys messages messages' s c). split; [|split].
  - now apply other_fill_ok.
  - now apply other_fill_sight.
  - apply same_rows; auto. now apply fits_guard.
Qed.
Print Assumptions C75_other_messages_hidden.

(** Keys and a hash function without coincidences. *)
Example C75_example : let keys := [(repeat 1 32, repeat 2 32); (repeat 3 32, repeat 4 32)] in
  keys_differ keys /\ seeds_differ (fun x => x) keys /\
  exists fill', differs_out_of_sight (fun x => x) keys 2 toy_gen fill' /\
    forall boot, many_sender (fun x => x) fill' Debug 4 keys boot [[9]; [8]; [12]; [7]] 2 = many_sender (fun x => x) toy_gen Debug 4 keys boot [[10]; [11]; [12]; [13]] 2.
Proof.
  intros keys.
  assert (K : keys_differ keys).
  { intros j j' b b' Hj Hj'. cbn [keys length] in Hj, Hj'. destruct j as [|[|j]]; [| |lia]; destruct j' as [|[|j']]; try lia; destruct b, b'; cbn; intros E; try discriminate E; auto. }
  assert (S : seeds_differ (fun x => x) keys) by (intros ? ? ? ? _ _ _ _ E; exact E).
  split; [exact K|]. split; [exact S|].
  exists (other_fill (fun x => x) toy_gen keys [[10]; [11]; [12]; [13]] [[9]; [8]; [12]; [7]] 1 2).
  assert (A : Forall bytes_ok [[10]; [11]; [12]; [13]] /\ Forall bytes_ok [[9]; [8]; [12]; [7]]) by (split; repeat constructor).
  split.
  - apply other_fill_sight; auto; cbn; lia.
  - intros boot. apply same_rows; auto using toy_gen_ok; try (cbn; lia); try (repeat constructor); try apply A.
Qed.
