(** C68-C70: the programs. *)
From Coq Require Import List NArith Bool Lia Arith.
From Verif Require Import Base MUtil MWires MCircuit MGarble MPar MBincode MProc MOt MApricot MMany MFpake MChannel MMain.
From Verif Require Import SpecUtil SpecWires SpecCircuit SpecGarble SpecBincode SpecOt SpecApricot SpecFpake SpecMany SpecMfpake SpecMain.
From Verif Require Import PBase PProc POt PChannel PFpake COt CApricot CMany CFpake CMfpake CChannel PMany PUtil CCircuit.
Import ListNotations.
Open Scope N_scope.

(** Every schedule of [p] against [q] comes to an end, with these outcomes and nothing in flight. *)
Definition always {A B} (p : proc A) (q : proc B) (oa : outcome A) (ob : outcome B) : Prop :=
  exists n, forall k c, steps k (initial p q) c ->
    (k <= n)%nat /\ steps (n - k) c (final oa ob) /\ ((forall c', ~ step c c') -> c = final oa ob).
Lemma always_runs {A B} (p : proc A) (q : proc B) oa ob : runs p q oa ob -> always p q oa ob.
Proof. apply schedule_independent. Qed.

Lemma serve_runs hmac xpub xdh a b A B (p : proc A) (q : proc B) oa ob : dh_ok xpub xdh ->
  runs p q oa ob -> runs (serve hmac xpub xdh a p) (connect hmac xpub xdh b q) oa ob.
Proof. intros [L E] H. apply C57_session; auto. Qed.

(** C68: main.rs as server against main.rs as client, over the crate's OT. *)
Theorem C68_programs_agree : forall hmac xpub xdh sha fill gen G p p' sec sec' a a' cores cores' r rs rr r' rs' rr' g g' pw pw' t t',
  dh_ok xpub xdh -> hash32 sha -> generator fill -> generator gen -> curve_ok G ->
  (1 <= cores)%nat -> (1 <= cores')%nat -> coins_ok r -> coins_ok r' -> garbling_ok g -> garbling_ok g' ->
  length pw' = length pw -> good_length (length pw) -> t <= 65534 -> t' <= 65534 ->
  N.of_nat (distance pw pw') <= t -> N.of_nat (distance pw pw') <= t' ->
  exists key, length key = 32%nat /\
    always (main_server hmac xpub xdh sha p sec g (sender_with sha fill p a cores r (co_receiver sha gen G p rs))
              (receiver_with sha fill p a cores r' (co_sender sha gen G p rr)) pw t)
           (main_client hmac xpub xdh sha p' sec' g' (sender_with sha fill p' a' cores' r' (co_receiver sha gen G p' rr'))
              (receiver_with sha fill p' a' cores' r (co_sender sha gen G p' rs')) pw' t') (Ok key) (Ok key).
Proof.
  intros hmac xpub xdh sha fill gen G p p' sec sec' a a' cores cores' r rs rr r' rs' rr' g g' pw pw' t t'
    Hdh Hs Hf Hge HG Hc Hc' Hr Hr' Hg Hg' Hl Hgl Ht Ht' Hd Hd'.
  destruct (C46_keys_agree sha p p' g g'
    (sender_with sha fill p a cores r (co_receiver sha gen G p rs)) (receiver_with sha fill p' a' cores' r (co_sender sha gen G p' rs'))
    (sender_with sha fill p' a' cores' r' (co_receiver sha gen G p' rr')) (receiver_with sha fill p a cores r' (co_sender sha gen G p rr))
    pw pw' t t') as (key & L & R); auto.
  - now apply C35_extension_over_base_OT.
  - now apply C35_extension_over_base_OT.
  - now rewrite distance_comm.
  - exists key. split; [exact L|]. apply always_runs. now apply serve_runs.
Qed.
Print Assumptions C68_programs_agree.

(** *** Reading the password file *)
Lemma chunks_of_concat size (pws : list bytes) : (0 < size)%nat -> Forall (fun x : bytes => length x = size) pws ->
  forall rest : bytes, (length rest < size)%nat -> chunks_exact size (concat pws ++ rest) = Ok pws.
Proof.
  intros Hs F rest Hr. unfold chunks_exact. destruct (Nat.eqb_spec size 0) as [E|_]; [lia|]. f_equal.
  assert (L : length (concat pws) = (length pws * size)%nat).
  { induction F as [|x l E F IH]; cbn; auto. rewrite app_length, IH, E. lia. }
  rewrite app_length, L, Nat.add_comm, Nat.div_add by lia. rewrite (Nat.div_small _ _ Hr). cbn [Nat.add].
  clear L. induction F as [|x l E F IH]; [reflexivity|]. cbn [length seq map concat]. f_equal.
  - cbn [Nat.mul skipn]. rewrite <- app_assoc, firstn_app, E, Nat.sub_diag, firstn_O, app_nil_r. apply firstn_all2. lia.
  - rewrite <- seq_shift, map_map. etransitivity; [|exact IH]. apply map_ext. intros i. f_equal.
    cbn [Nat.mul]. rewrite <- app_assoc, skipn_app, (skipn_all2 x) by lia. rewrite E.
    cbn [app]. f_equal. lia.
Qed.

(** C68: server/main.rs against client/main.rs; the file holds 2^d passwords of l bytes, perhaps followed by a
    shorter rest, and the server is started with size l. *)
Theorem C68_many_programs_agree : forall hmac xpub xdh sha fill gen G p p' sec sec' g g' a a' cores cores' r r' rs rr rs' rr' rm rm' keys
    d l passwords rest mask index pw password t t',
  dh_ok xpub xdh -> hash32 sha -> generator fill -> generator gen -> curve_ok G -> (1 <= cores)%nat -> (1 <= cores')%nat -> coins_ok r -> coins_ok r' ->
  garbling_ok g -> garbling_ok g' -> key_pairs keys -> length keys = d -> fits cores d ->
  password_list d l passwords -> (length rest < l)%nat -> good_length l -> length mask = l ->
  nth_error passwords (N.to_nat index) = Some pw -> length password = l -> t <= 65534 -> t' <= 65534 ->
  N.of_nat (distance pw password) <= t -> N.of_nat (distance pw password) <= t' ->
  exists key, length key = 32%nat /\
    always (many_server_main hmac xpub xdh sha p sec mask g (fun d ms => many_sender sha fill p cores keys (co_sender sha gen G p rm) ms d)
            (sender_with sha fill p a cores r (co_receiver sha gen G p rs))
            (receiver_with sha fill p a cores r' (co_sender sha gen G p rr)) (concat passwords ++ rest) l t)
         (many_client_main hmac xpub xdh sha p' sec' g' (fun d i => many_receiver sha fill p' (co_receiver sha gen G p' rm') i d)
            (sender_with sha fill p' a' cores' r' (co_receiver sha gen G p' rr'))
            (receiver_with sha fill p' a' cores' r (co_sender sha gen G p' rs')) password index (N.of_nat (2 ^ d)) t')
      (Ok key) (Ok key).
Proof.
  intros hmac xpub xdh sha fill gen G p p' sec sec' g g' a a' cores cores' r r' rs rr rs' rr' rm rm' keys
    d l passwords rest mask index pw password t t' Hdh Hs Hf Hge HG Hc Hc' Hr Hr' Hg Hg' Hk Lk Hfit Hpl Hrest Hgl Lm Hi Lpw Ht Ht' H1 H2.
  destruct (C48_keys_agree_over_crate_OT sha fill gen G p p' g g' a a' cores cores' r r' rs rr rs' rr' rm rm' keys
    d l passwords mask index pw password t t') as (key & L & R); auto.
  exists key. split; [exact L|]. apply always_runs. unfold many_server_main, many_client_main.
  apply runs_lift_l with (a := passwords).
  - apply chunks_of_concat; [destruct Hgl; lia|apply Hpl|exact Hrest].
  - now apply serve_runs.
Qed.
Print Assumptions C68_many_programs_agree.

Lemma toy_dh_ok : dh_ok toy_pub toy_dh.
Proof.
  split; [intros; apply repeat_length|]. intros a b. unfold toy_dh, toy_pub.
  change (hd 0 (repeat (hd 0 b) 32)) with (hd 0 b). change (hd 0 (repeat (hd 0 a) 32)) with (hd 0 a). now rewrite N.mul_comm.
Qed.
Example programs_example : exists key, length key = 32%nat /\
  always (main_server toy_mac toy_pub toy_dh toy Debug [7] demo_garbling (demo_sender Debug)
            (receiver_with toy toy_gen Debug X86 4 toy_coins (co_sender toy toy_gen toy_curve Debug (fun _ => 1))) [97; 98; 99] 3)
         (main_client toy_mac toy_pub toy_dh toy Release [8] demo_garbling
            (sender_with toy toy_gen Release ARM64 2 toy_coins (co_receiver toy toy_gen toy_curve Release (fun _ => 1)))
            (demo_receiver Release) [97; 106; 98] 5) (Ok key) (Ok key).
Proof.
  apply (C68_programs_agree toy_mac toy_pub toy_dh toy toy_gen toy_gen toy_curve Debug Release [7] [8] X86 ARM64 4 2 toy_coins
    (fun _ => 1) (fun _ => 1) toy_coins (fun _ => 1) (fun _ => 1));
    [exact toy_dh_ok|exact toy_hash32|exact toy_gen_ok|exact toy_gen_ok|exact toy_curve_ok|lia|lia|exact toy_coins_ok|exact toy_coins_ok
    |exact demo_garbling_ok|exact demo_garbling_ok|reflexivity|unfold good_length; cbn; lia|discriminate|discriminate|vm_compute; discriminate|vm_compute; discriminate].
Qed.

(** *** C69 *)
(** C69: for passwords typed as bit strings, the distance the exchange measures is the number of
    differing bits. *)
Theorem C69_typed_bits_distance : forall a b, length a = length b ->
  distance (typed a) (typed b) = differing a b.
Proof.
  induction a as [|x a IH]; intros [|y b] L; try discriminate; [reflexivity|]. cbn [typed map distance differing].
  f_equal; [destruct x, y; reflexivity|]. apply IH. now injection L.
Qed.
Print Assumptions C69_typed_bits_distance.
Example C69_example : distance (typed [true; false; true]) (typed [true; true; false]) = 2%nat.
Proof. reflexivity. Qed.

(** *** C70 *)
(** C70: the option is documented as a size in bits.  A server started with that number of bits for a file
    of eight passwords sees a single password eight times as long, and the honest client of any of the
    eight is turned away. *)
Theorem C70_size_in_bits_refuted : forall hmac xpub xdh sha fill gen G p p' sec sec' g g' cores rm rm' keys
    (ot1 ot1' : list (bytes * bytes) -> proc unit) (ot2 ot2' : list bool -> proc (list bytes)) l passwords mask index password t t',
  dh_ok xpub xdh -> generator fill -> (0 < l)%nat -> length mask = (l * 8)%nat ->
  length passwords = 8%nat -> Forall (fun x : bytes => length x = l) passwords ->
  nth_error passwords (N.to_nat index) = Some password -> length keys = 0%nat ->
  chunks_exact (l * 8) (concat passwords) = Ok [concat passwords] /\
  always (many_server_main hmac xpub xdh sha p sec mask g (fun d ms => many_sender sha fill p cores keys (co_sender sha gen G p rm) ms d)
            ot1 ot2 (concat passwords) (l * 8) t)
         (many_client_main hmac xpub xdh sha p' sec' g' (fun d i => many_receiver sha fill p' (co_receiver sha gen G p' rm') i d)
            ot1' ot2' password index 8 t')
      (Err EBadProperties) (Err EBadProperties).
Proof.
  intros hmac xpub xdh sha fill gen G p p' sec sec' g g' cores rm rm' keys ot1 ot1' ot2 ot2' l passwords mask index password t t'
    Hdh Hf Hl Lm L8 F Hi Lk.
  assert (Lc : length (concat passwords) = (l * 8)%nat).
  { rewrite <- L8. clear - F. induction F as [|x ps E F IH]; cbn; [lia|]. rewrite app_length, IH, E. lia. }
  assert (Ch : chunks_exact (l * 8) (concat passwords) = Ok [concat passwords]).
  { assert (E := chunks_of_concat (l * 8) [concat passwords] ltac:(lia)). cbn in E. rewrite app_nil_r in E.
    specialize (E ltac:(auto) [] ltac:(cbn; lia)). now rewrite app_nil_r in E. }
  split; [exact Ch|]. apply always_runs. unfold many_server_main, many_client_main.
  apply runs_lift_l with (a := [concat passwords]); [exact Ch|]. apply serve_runs; [exact Hdh|].
  unfold mfpake_many, mfpake_single. apply runs_lift_l with (a := concat passwords); [reflexivity|].
  apply runs_lift_l with (a := [xor mask (concat passwords)]).
  { rewrite Lc. apply (mask_passwords_ok p mask [concat passwords] (l * 8)); [exact Lm|]. constructor; [exact Lc|constructor]. }
  apply runs_lift_l with (a := 0); [apply (log2_pow2 p 64 0); lia|].
  apply runs_lift_r with (a := 3); [apply (log2_pow2 p' 32 3); lia|].
  apply runs_bind_err. unfold many_sender, many_receiver.
  change (N.to_nat 0) with 0%nat. change (N.to_nat 3) with 3%nat.
  apply runs_lift_l with (a := xor mask (concat passwords)); [reflexivity|].
  eapply runs_lift_l.
  { apply y_ok; [exact Hf|lia|exact Lk|rewrite xor_length; lia| |cbn; lia|lia]. constructor; [reflexivity|constructor]. }
  eapply runs_lift_r. { apply (choices_ok sha fill p p' cores (repeat ([], []) 3) [] 3 1); [lia|reflexivity|lia]. }
  apply runs_send_recv.
  apply (runs_peq_l (pbind (co_sender sha gen G p rm keys) ret)); [apply pbind_ret|].
  apply runs_bind_err. unfold co_sender, co_receiver. apply runs_bind_err.
  rewrite Lk, map_length, seq_length.
  assert (Ok : forall n, (n < 10)%nat -> props_ok (mkProps n chou_orlandi)).
  { intros n Hn. split; [unfold usize_ok; cbn [pr_size]; lia|]. split; [split; [reflexivity|repeat constructor]|reflexivity]. }
  apply C30_negotiation; [apply Ok; lia|apply Ok; lia|]. intros [E _]. discriminate.
Qed.
Print Assumptions C70_size_in_bits_refuted.
Example C70_example : let l := 2%nat in let passwords := [[1; 2]; [3; 4]; [5; 6]; [7; 8]; [9; 10]; [11; 12]; [13; 14]; [15; 16]] in
  Forall (fun x : bytes => length x = l) passwords /\ nth_error passwords (N.to_nat 3) = Some [7; 8] /\
  chunks_exact (l * 8) (concat passwords) = Ok [concat passwords] /\
  chunks_exact l (concat passwords ++ [99]) = Ok passwords.
Proof. cbn. repeat split; repeat constructor. Qed.
