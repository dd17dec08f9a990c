(** C80, C81: what the keys rest on. *)
From Coq Require Import List NArith Bool Lia Arith Permutation.
From Verif Require Import Base MUtil MWires MCircuit MGarble MPar MBincode MProc MOt MApricot MMany MFpake.
From Verif Require Import SpecUtil SpecWires SpecCircuit SpecGarble SpecBincode SpecOt SpecApricot SpecFpake SpecMany SpecMfpake SpecProc SpecKey.
From Verif Require Import PBase PUtil PWires PGarble PCircuit PHalf PProc POt PApricotRun PFpake PFpake3 PKey PKey2 PKey3 PKey4.
From Verif Require Import CCircuit CGarble COt CApricot CMany CFpake CMfpake CFpake3.
Import ListNotations.
Open Scope N_scope.

(** The OTs of the crate hash no strings of 42 bytes, whatever the peer sends. *)
Lemma crate_sender_ignores fill gen G p a cores r rs ms : curve_ok G ->
  ignores42 (fun h => sender_with h fill p a cores r (co_receiver h gen G p rs) ms).
Proof. intros HG h h' _ _ L. apply ap_sender_same; auto. intros bs. now apply co_receiver_same. Qed.
Lemma crate_receiver_ignores fill gen G p a cores r rs bs : curve_ok G -> coins_ok r ->
  ignores42 (fun h => receiver_with h fill p a cores r (co_sender h gen G p rs) bs).
Proof.
  intros HG (_ & [L _] & _) h h' _ _ H. apply ap_receiver_same; auto; [rewrite L; discriminate|]. intros ms. now apply co_sender_same.
Qed.

(** *** C80 *)
(** C80: the half key of a garbler is the hash of a string of 42 bytes.  Its frames do not depend on the hashes of
    such strings, so they do not depend on the half key; [ins] are the frames of any peer. *)
Theorem C80_garbler_frames_do_not_tell_the_half_key : forall sha p g ot pw t ins k out,
  hash32 sha -> samples32 g -> (forall ms, ignores42 (fun h => ot h ms)) ->
  feed (garbler sha p g (ot sha) pw t) ins = (Ok k, out) ->
  exists x, length x = 42%nat /\ k = sha x /\
    forall sha', hash32 sha' -> off42 sha sha' -> feed (garbler sha' p g (ot sha') pw t) ins = (Ok (sha' x), out).
Proof.
  intros sha p g ot pw t ins k out Hs Hg Hot F.
  exact (kp_single_key sha Hs is42 (fun h => garbler h p g (ot h) pw t) (kp_garbler sha Hs p g Hg ot pw t Hot) ins k out F).
Qed.
Print Assumptions C80_garbler_frames_do_not_tell_the_half_key.

(** C80: the same of an evaluator. *)
Theorem C80_evaluator_frames_do_not_tell_the_half_key : forall sha p ot pw ins k out,
  hash32 sha -> (forall bs, ignores42 (fun h => ot h bs)) ->
  feed (evaluator sha p (ot sha) pw) ins = (Ok k, out) ->
  exists x, length x = 42%nat /\ k = sha x /\
    forall sha', hash32 sha' -> off42 sha sha' -> feed (evaluator sha' p (ot sha') pw) ins = (Ok (sha' x), out).
Proof.
  intros sha p ot pw ins k out Hs Hot F.
  exact (kp_single_key sha Hs is42 (fun h => evaluator h p (ot h) pw) (kp_evaluator sha Hs p ot pw Hot) ins k out F).
Qed.
Print Assumptions C80_evaluator_frames_do_not_tell_the_half_key.

(** The garbler's half key for passwords of a good length, with any hash function like [sha]. *)
Lemma garbler_label sha p g ot pw t : hash32 sha -> garbling_ok g -> samples32 g -> good_length (length pw) -> t <= 65534 ->
  (forall ms, ignores42 (fun h => ot h ms)) ->
  exists l0 l1, labels_of sha p g (fpake_circuit (length pw) t) (fpake_output (length pw)) l0 l1 /\ length (wval l1) = 32%nat /\
    kp sha hashed (fun x => x = dec_string (fpake_output (length pw)) 1 l1) (fun h => garbler h p g (ot h) pw t).
Proof.
  intros Hs Hg Hg32 Hl Ht Hot. destruct (good_supported _ Hl) as (Hsu & Hn & H1).
  assert (Hc : forall sha', hash32 sha' -> exists gc ek dk zs l0 l1, half_key sha' p (g_rd g) (g_ri g) (circ1 (length pw * 8) t) gc ek dk zs l0 l1)
    by (intros; now apply circ1_half).
  destruct (Hc sha Hs) as (gc & ek & dk & zs & l0 & l1 & H).
  assert (Eo : first_output (circ1 (length pw * 8) t) = fpake_output (length pw)) by (unfold first_output; cbn [circ1 num_wires num_outputs]; lia).
  exists l0, l1. split.
  { destruct (hk_genuine _ _ _ _ _ _ _ _ _ _ _ H) as (s & Er & G0 & G1). rewrite Eo in *. exists ek, s.
    split; [exact Er|]. split; [exact G0|]. split; [exact G1|]. exact (hk_differ _ _ _ _ _ _ _ _ _ _ _ H). }
  split; [exact (hk_len1 _ _ _ _ _ _ _ _ _ _ _ H)|]. rewrite <- Eo.
  apply kp_refine; [exact Hs|now apply kp_garbler|]. intros sha' ins k out rest L F.
  eapply garbler_string; eauto. rewrite bits_length8. now apply build_circuit_eq.
Qed.

(** C80: for passwords of 1 to 15 or 32 to 4095 bytes that string is made of the garbler's label for 1 on the
    output wire of its circuit. *)
Theorem C80_half_key_rests_on_the_label_for_1 : forall sha p g ot pw t ins k out,
  hash32 sha -> garbling_ok g -> samples32 g -> good_length (length pw) -> t <= 65534 -> (forall ms, ignores42 (fun h => ot h ms)) ->
  feed (garbler sha p g (ot sha) pw t) ins = (Ok k, out) ->
  exists l0 l1, labels_of sha p g (fpake_circuit (length pw) t) (fpake_output (length pw)) l0 l1 /\
    let x := dec_string (fpake_output (length pw)) 1 l1 in
    k = sha x /\
    forall sha', hash32 sha' -> off42 sha sha' -> feed (garbler sha' p g (ot sha') pw t) ins = (Ok (sha' x), out).
Proof.
  intros sha p g ot pw t ins k out Hs Hg Hg32 Hl Ht Hot F.
  destruct (garbler_label sha p g ot pw t Hs Hg Hg32 Hl Ht Hot) as (l0 & l1 & Hlab & _ & HK). exists l0, l1. split; [exact Hlab|].
  destruct (kp_single_key sha Hs _ (fun h => garbler h p g (ot h) pw t) HK ins k out F) as (x & -> & H). exact H.
Qed.
Print Assumptions C80_half_key_rests_on_the_label_for_1.

(** C80: all of this holds over the OTs of the crate. *)
Theorem C80_over_crate_OT : forall sha fill gen G p a cores r rs rr g pw t ins k out,
  hash32 sha -> curve_ok G -> coins_ok r -> samples32 g ->
  let otS := fun h => sender_with h fill p a cores r (co_receiver h gen G p rs) in
  let otR := fun h => receiver_with h fill p a cores r (co_sender h gen G p rr) in
  (feed (garbler sha p g (otS sha) pw t) ins = (Ok k, out) ->
   exists x, length x = 42%nat /\ k = sha x /\
    forall sha', hash32 sha' -> off42 sha sha' -> feed (garbler sha' p g (otS sha') pw t) ins = (Ok (sha' x), out)) /\
  (feed (evaluator sha p (otR sha) pw) ins = (Ok k, out) ->
   exists x, length x = 42%nat /\ k = sha x /\
    forall sha', hash32 sha' -> off42 sha sha' -> feed (evaluator sha' p (otR sha') pw) ins = (Ok (sha' x), out)).
Proof.
  intros sha fill gen G p a cores r rs rr g pw t ins k out Hs HG Hr Hg otS otR. split; intros F.
  - exact (C80_garbler_frames_do_not_tell_the_half_key sha p g otS pw t ins k out Hs Hg (fun ms => crate_sender_ignores fill gen G p a cores r rs ms HG) F).
  - exact (C80_evaluator_frames_do_not_tell_the_half_key sha p otR pw ins k out Hs (fun bs => crate_receiver_ignores fill gen G p a cores r rr bs HG Hr) F).
Qed.
Print Assumptions C80_over_crate_OT.

(** *** C81 *)
(** C81: a side of fPAKE that ends with a key, over the OTs of the crate and against any peer: the key is all
    zeros, or it could be any key.  Changing the hash function at one string makes it any key without changing a
    frame that the side sends. *)
Theorem C81_fpake_keys_can_be_anything : forall sha fill gen G p a cores r rs rr g pw t ins key out,
  hash32 sha -> curve_ok G -> coins_ok r -> samples32 g ->
  let otS := fun h => sender_with h fill p a cores r (co_receiver h gen G p rs) in
  let otR := fun h => receiver_with h fill p a cores r (co_sender h gen G p rr) in
  forall P, P = (fun h => fpake_server h p g (otS h) (otR h) pw t) \/ P = (fun h => fpake_client h p g (otS h) (otR h) pw t) ->
  feed (P sha) ins = (Ok key, out) ->
  key = repeat 0 32 \/ exists x, length x = 42%nat /\ open_at P sha x ins out.
Proof.
  intros sha fill gen G p a cores r rs rr g pw t ins key out Hs HG Hr Hg otS otR P HP F.
  assert (HS : forall ms, ignores42 (fun h => otS h ms)) by exact (fun ms => crate_sender_ignores fill gen G p a cores r rs ms HG).
  assert (HR : forall bs, ignores42 (fun h => otR h bs)) by exact (fun bs => crate_receiver_ignores fill gen G p a cores r rr bs HG Hr).
  assert (K : kp sha combined both42 P) by (destruct HP as [-> | ->]; [now apply kp_server|now apply kp_client]).
  destruct (kp_open sha Hs both42 P K (fun xy H => H) ins key out F) as (x & y & [Lx _] & [E|[Ox _]]); [left; exact E|right].
  exists x. split; auto.
Qed.
Print Assumptions C81_fpake_keys_can_be_anything.

(** C81: the same of the four programs of many_fpake.rs, over OTs that hash no strings of 42 bytes. *)
Theorem C81_many_fpake_keys_can_be_anything : forall sha p g ot_s ot_s2 ot_r ot_r2 many_s many_r mask passwords pw index n t ins key out,
  hash32 sha -> samples32 g ->
  (forall ms, ignores42 (fun h => ot_s h ms)) -> (forall ms, ignores42 (fun h => ot_s2 h ms)) ->
  (forall bs, ignores42 (fun h => ot_r h bs)) -> (forall bs, ignores42 (fun h => ot_r2 h bs)) ->
  (forall d ms, ignores42 (fun h => many_s h d ms)) -> (forall d i, ignores42 (fun h => many_r h d i)) ->
  forall P,
    P = (fun h => mfpake_many h p mask g (many_s h) (ot_s h) (ot_r h) passwords t) \/
    P = (fun h => mfpake_single h p g (many_r h) (ot_s h) (ot_r h) pw index n t) \/
    P = (fun h => server_v3 h p mask g (ot_s h) (many_s h) (ot_s2 h) (ot_r h) passwords t) \/
    P = (fun h => client_v3 h p g (ot_r h) (many_r h) (ot_r2 h) (ot_s h) pw n index t) ->
  feed (P sha) ins = (Ok key, out) ->
  key = repeat 0 32 \/ exists x, length x = 42%nat /\ open_at P sha x ins out.
Proof.
  intros sha p g ot_s ot_s2 ot_r ot_r2 many_s many_r mask passwords pw index n t ins key out Hs Hg Hs1 Hs2 Hr1 Hr2 Hms Hmr P HP F.
  assert (K : kp sha combined both42 P).
  { destruct HP as [-> |[-> |[-> | ->]]]; [now apply kp_many|now apply kp_single|now apply kp_server_v3|now apply kp_client_v3]. }
  destruct (kp_open sha Hs both42 P K (fun xy H => H) ins key out F) as (x & y & [Lx _] & [E|[Ox _]]); [left; exact E|right].
  exists x. split; auto.
Qed.
Print Assumptions C81_many_fpake_keys_can_be_anything.

(** C81: the servers of many_fpake.rs over the OTs of the crate; [many] hides the passwords behind fresh [keys]. *)
Theorem C81_many_fpake_over_crate_OT : forall sha fill gen G p a cores r rs rr keys mask g passwords t ins key out,
  hash32 sha -> curve_ok G -> coins_ok r -> samples32 g -> Forall (fun k => array_ok 32 (fst k) /\ array_ok 32 (snd k)) keys ->
  let otS := fun h => sender_with h fill p a cores r (co_receiver h gen G p rs) in
  let otR := fun h => receiver_with h fill p a cores r (co_sender h gen G p rr) in
  let many := fun h d ms => many_sender h fill p cores keys (co_sender h gen G p rr) ms d in
  forall P,
    P = (fun h => mfpake_many h p mask g (many h) (otS h) (otR h) passwords t) \/
    P = (fun h => server_v3 h p mask g (otS h) (many h) (otS h) (otR h) passwords t) ->
  feed (P sha) ins = (Ok key, out) ->
  key = repeat 0 32 \/ exists x, length x = 42%nat /\ open_at P sha x ins out.
Proof.
  intros sha fill gen G p a cores r rs rr keys mask g passwords t ins key out Hs HG Hr Hg Hk otS otR many P HP F.
  assert (HS : forall ms, ignores42 (fun h => otS h ms)) by exact (fun ms => crate_sender_ignores fill gen G p a cores r rs ms HG).
  assert (HR : forall bs, ignores42 (fun h => otR h bs)) by exact (fun bs => crate_receiver_ignores fill gen G p a cores r rr bs HG Hr).
  assert (HM : forall d ms, ignores42 (fun h => many h d ms)).
  { intros d ms h h' _ _ L. apply many_sender_same; [exact L|exact Hk|]. intros ms'. now apply co_sender_same. }
  assert (K : kp sha combined both42 P).
  { destruct HP as [-> | ->]; [now apply kp_many|now apply kp_server_v3]. }
  destruct (kp_open sha Hs both42 P K (fun xy H => H) ins key out F) as (x & y & [Lx _] & [E|[Ox _]]); [left; exact E|right].
  exists x. split; auto.
Qed.
Print Assumptions C81_many_fpake_over_crate_OT.

(** C81: for good password lengths the string is the one of the own label for 1. *)
Theorem C81_key_rests_on_the_own_label : forall sha fill gen G p a cores r rs rr g pw t ins key out,
  hash32 sha -> curve_ok G -> coins_ok r -> garbling_ok g -> samples32 g -> good_length (length pw) -> t <= 65534 ->
  let otS := fun h => sender_with h fill p a cores r (co_receiver h gen G p rs) in
  let otR := fun h => receiver_with h fill p a cores r (co_sender h gen G p rr) in
  exists l0 l1, labels_of sha p g (fpake_circuit (length pw) t) (fpake_output (length pw)) l0 l1 /\
  forall P, P = (fun h => fpake_server h p g (otS h) (otR h) pw t) \/ P = (fun h => fpake_client h p g (otS h) (otR h) pw t) ->
  feed (P sha) ins = (Ok key, out) ->
  key = repeat 0 32 \/ open_at P sha (dec_string (fpake_output (length pw)) 1 l1) ins out.
Proof.
  intros sha fill gen G p a cores r rs rr g pw t ins key out Hs HG Hr Hg Hg32 Hl Ht otS otR.
  assert (HS : forall ms, ignores42 (fun h => otS h ms)) by exact (fun ms => crate_sender_ignores fill gen G p a cores r rs ms HG).
  assert (HR : forall bs, ignores42 (fun h => otR h bs)) by exact (fun bs => crate_receiver_ignores fill gen G p a cores r rr bs HG Hr).
  destruct (garbler_label sha p g otS pw t Hs Hg Hg32 Hl Ht HS) as (l0 & l1 & Hlab & L1 & HK). exists l0, l1. split; [exact Hlab|].
  intros P HP F. set (ds := dec_string (fpake_output (length pw)) 1 l1) in *.
  assert (Lds : length ds = 42%nat). { unfold ds, dec_string. rewrite !app_length, !be_bytes_length, L1. reflexivity. }
  pose proof (kp_evaluator sha Hs p otR pw HR) as HE.
  assert (K : kp sha combined (fun xy => fst xy = ds /\ is42 (snd xy)) P).
  { destruct HP as [-> | ->].
    - exact (proj1 (kp_combine_any sha _ _ _ _ HK HE)).
    - exact (proj2 (kp_combine_any sha _ _ _ _ HE HK)). }
  destruct (kp_open sha Hs _ P K) with (ins := ins) (key := key) (out := out) as (x & y & [Ex _] & [E|[Ox _]]); [|exact F|left; exact E|].
  - intros [x y] [Ex Hy]. cbn [fst snd] in Ex, Hy. subst x. exact (conj Lds Hy).
  - cbn [fst] in Ex. subst x. right. exact Ox.
Qed.
Print Assumptions C81_key_rests_on_the_own_label.

(** C81: somebody who records an honest session sees frames that fit every key: [la] are the server's frames, [lb]
    the client's, and with a hash function that differs at one string both sides send the same and end with K. *)
Theorem C81_recorded_session_fits_every_key : forall sha fill gen G p p' a a' cores cores' r r' rs rr rs' rr' g g' pw pw' t t',
  hash32 sha -> generator fill -> generator gen -> curve_ok G -> (1 <= cores)%nat -> (1 <= cores')%nat -> coins_ok r -> coins_ok r' ->
  garbling_ok g -> samples32 g -> garbling_ok g' -> samples32 g' ->
  length pw' = length pw -> good_length (length pw) -> t <= 65534 -> t' <= 65534 ->
  N.of_nat (distance pw pw') <= t -> N.of_nat (distance pw' pw) <= t' ->
  let server := fun h => fpake_server h p g (sender_with h fill p a cores r (co_receiver h gen G p rs))
      (receiver_with h fill p a cores r' (co_sender h gen G p rr)) pw t in
  let client := fun h => fpake_client h p' g' (sender_with h fill p' a' cores' r' (co_receiver h gen G p' rs'))
      (receiver_with h fill p' a' cores' r (co_sender h gen G p' rr')) pw' t' in
  exists key la lb, runs (server sha) (client sha) (Ok key) (Ok key) /\
    feed (server sha) lb = (Ok key, la) /\ feed (client sha) la = (Ok key, lb) /\
    (key = repeat 0 32 \/ exists x, length x = 42%nat /\
      forall K, array_ok 32 K -> exists sha', hash32 sha' /\ off_point x sha sha' /\
        runs (server sha') (client sha') (Ok K) (Ok K) /\
        feed (server sha') lb = (Ok K, la) /\ feed (client sha') la = (Ok K, lb)).
Proof.
  intros sha fill gen G p p' a a' cores cores' r r' rs rr rs' rr' g g' pw pw' t t' Hs Hf Hgen HG Hc Hc' Hr Hr' Hg Hg32 Hg' Hg32' Hl Hgl Ht Ht' Hd Hd' server client.
  assert (Runs : forall h, hash32 h -> exists key, runs (server h) (client h) (Ok key) (Ok key)).
  { intros h Hh. destruct (C46_keys_agree h p p' g g' (sender_with h fill p a cores r (co_receiver h gen G p rs))
      (receiver_with h fill p' a' cores' r (co_sender h gen G p' rr')) (sender_with h fill p' a' cores' r' (co_receiver h gen G p' rs'))
      (receiver_with h fill p a cores r' (co_sender h gen G p rr)) pw pw' t t') as (key & _ & R); auto; try now apply C35_extension_over_base_OT.
    exists key. exact R. }
  assert (Ks : kp sha combined both42 server).
  { apply kp_server; [exact Hs|exact Hg32|exact (fun ms => crate_sender_ignores fill gen G p a cores r rs ms HG)|exact (fun bs => crate_receiver_ignores fill gen G p a cores r' rr bs HG Hr')]. }
  assert (Kc : kp sha combined both42 client).
  { apply kp_client; [exact Hs|exact Hg32'|exact (fun ms => crate_sender_ignores fill gen G p' a' cores' r' rs' ms HG)|exact (fun bs => crate_receiver_ignores fill gen G p' a' cores' r rr' bs HG Hr)]. }
  destruct (Runs sha Hs) as (key & R). destruct (runs_feed _ _ _ _ R) as (la & lb & FL & FR).
  exists key, la, lb. split; [exact R|]. split; [exact FL|]. split; [exact FR|].
  destruct (kp_open sha Hs both42 server Ks (fun xy H => H) lb key la FL) as (x & y & [Lx _] & [E|[Ox _]]); [left; exact E|right].
  exists x. split; [exact Lx|]. intros K HK. destruct (Ox K HK) as (sha' & Hh & Off & FL').
  exists sha'. split; [exact Hh|]. split; [exact Off|]. destruct (Runs sha' Hh) as (key' & R').
  pose proof (off_point_42 x sha sha' Lx Off) as O42. destruct (feed (client sha') la) as [oc lb'] eqn:FR'.
  assert (lb' = lb).
  { pose proof (kp_frames sha Hs combined both42 client Kc sha' la Hh O42) as EF. rewrite FR', FR in EF. exact EF. }
  subst lb'. destruct (fit_runs _ _ _ _ _ _ _ _ FL' FR' R') as [[= <-] ->]. auto.
Qed.
Print Assumptions C81_recorded_session_fits_every_key.

(** *** Instances *)
Lemma demo_samples32 : samples32 demo_garbling.
Proof. split; [|intros i; apply repeat_length]. intros m. unfold demo_garbling, g_rd, demo_rd. repeat destruct (_ =? _); try reflexivity; apply repeat_length. Qed.
(** Another garbling, whose labels for 0 differ. *)
Definition other_garbling : garbling := mkGarbling demo_rd (fun i => repeat ((N.of_nat i + 1) mod 256) 32) (fun gc => gc).
Lemma other_garbling_ok : garbling_ok other_garbling.
Proof.
  split; [exact demo_rd_ok|]. split.
  - intros i d E. inversion E. subst. apply byte_row. apply N.mod_lt. discriminate.
  - intros gc. split; [reflexivity|]. split; apply Permutation_refl.
Qed.
(** A garbler's half key is the one in the decoding information. *)
Lemma half_key_of sha p g ot pw t ins k out : feed (garbler sha p g ot pw t) ins = (Ok k, out) ->
  exists c gc z d, build_circuit p (length (u8_vec_to_bool_vec pw)) t = Ok c /\ garble_zipped sha p g c = Ok (gc, z, d) /\ garbler_half_key d = Ok k.
Proof.
  intros F. rewrite feed_feedr in F. destruct (feedr (garbler sha p g ot pw t) ins) as [[o out'] rest] eqn:E. cbn [fst] in F. injection F as -> ->.
  unfold garbler in E. cbv zeta in E.
  apply PPads2.feedr_bind_ok in E. destruct E as (c & ? & ? & ? & Ec & E).
  apply PPads2.feedr_bind_ok in E. destruct E as ([[gc z] d] & ? & ? & ? & Ez & E).
  do 6 (apply PPads2.feedr_bind_ok in E; destruct E as (? & ? & ? & ? & _ & E)).
  cbn [lift feedr] in E, Ez, Ec. injection E as E _ _. injection Ez as Ez _ _. injection Ec as Ec _ _. exists c, gc, z, d. auto.
Qed.
Definition demo_half_key g : outcome bytes := let* c := build_circuit Debug 8 3 in let* r := garble_zipped toy Debug g c in garbler_half_key (snd r).
Lemma demo_half_key_of g ot ins k out : feed (garbler toy Debug g ot [97] 3) ins = (Ok k, out) -> demo_half_key g = Ok k.
Proof.
  intros F. apply half_key_of in F. destruct F as (c & gc & z & d & Ec & Ez & Ek). unfold demo_half_key.
  change (length (u8_vec_to_bool_vec [97])) with 8%nat in Ec. rewrite Ec. cbn [obind]. rewrite Ez. exact Ek.
Qed.
Notation key_sender := (sender_with toy toy_gen Debug X86 4 toy_coins (co_receiver toy toy_gen toy_curve Debug (fun _ => 1))).
Notation key_receiver := (receiver_with toy toy_gen Debug X86 4 toy_coins (co_sender toy toy_gen toy_curve Debug (fun _ => 1))).
Lemma key_OT : ot_correct extension_ok key_sender key_receiver.
Proof.
  apply C35_extension_over_base_OT; try lia; auto using toy_gen_ok, toy_coins_ok.
  - exact toy_hash32.
  - exact toy_curve_ok.
Qed.
(** A garbler and an evaluator that end with half keys. *)
Lemma demo_half g : garbling_ok g -> exists k, demo_half_key g = Ok k /\
    runs (garbler toy Debug g key_sender [97] 3) (evaluator toy Debug key_receiver [97]) (Ok k) (Ok k).
Proof.
  intros Hg. destruct (C44_half_keys_agree toy Debug Debug g key_sender key_receiver [97] [97] 3) as (k & _ & R);
    [exact toy_hash32|exact Hg|exact key_OT|reflexivity|unfold good_length; cbn [length]; lia|discriminate|vm_compute; discriminate|].
  exists k. split; [|exact R]. destruct (runs_feed _ _ _ _ R) as (la & lb & F & _). eapply demo_half_key_of; eauto.
Qed.
Example half_key_example : exists k la lb,
  feed (garbler toy Debug demo_garbling key_sender [97] 3) lb = (Ok k, la) /\
  feed (evaluator toy Debug key_receiver [97]) la = (Ok k, lb).
Proof.
  destruct (demo_half _ demo_garbling_ok) as (k & _ & R). destruct (runs_feed _ _ _ _ R) as (la & lb & F). exists k, la, lb. exact F.
Qed.
(** A session whose key is not all zeros. *)
Example nonzero_session : exists key, key <> repeat 0 32 /\
  runs (fpake_server toy Debug demo_garbling key_sender key_receiver [97] 3)
       (fpake_client toy Debug other_garbling key_sender key_receiver [97] 3) (Ok key) (Ok key).
Proof.
  destruct (demo_half _ demo_garbling_ok) as (k1 & E1 & R1). destruct (demo_half _ other_garbling_ok) as (k2 & E2 & R2).
  exists (combine_keys k1 k2). split.
  - assert (V : (let* a := demo_half_key demo_garbling in let* b := demo_half_key other_garbling in Ok (bytes_eqb (combine_keys a b) (repeat 0 32))) = Ok false) by (vm_compute; reflexivity).
    rewrite E1, E2 in V. cbn [obind] in V. intros E. rewrite E in V. discriminate.
  - unfold fpake_server, fpake_client. eapply runs_bind; [exact R1|]. eapply runs_bind; [apply runs_flip; exact R2|].
    rewrite (C46_combine_commutes k2 k1). apply runs_ret.
Qed.
(** So the frames of that session fit every key. *)
Example open_session : exists key la lb, key <> repeat 0 32 /\
  feed (fpake_server toy Debug demo_garbling key_sender key_receiver [97] 3) lb = (Ok key, la) /\
  exists x, length x = 42%nat /\ forall K, array_ok 32 K -> exists sha', hash32 sha' /\ off_point x toy sha' /\
    feed (fpake_server sha' Debug demo_garbling (sender_with sha' toy_gen Debug X86 4 toy_coins (co_receiver sha' toy_gen toy_curve Debug (fun _ => 1)))
      (receiver_with sha' toy_gen Debug X86 4 toy_coins (co_sender sha' toy_gen toy_curve Debug (fun _ => 1))) [97] 3) lb = (Ok K, la).
Proof.
  destruct nonzero_session as (key & Hne & R). destruct (runs_feed _ _ _ _ R) as (la & lb & F & _). exists key, la, lb.
  split; [exact Hne|]. split; [exact F|].
  destruct (C81_fpake_keys_can_be_anything toy toy_gen toy_gen toy_curve Debug X86 4 toy_coins (fun _ => 1) (fun _ => 1) demo_garbling [97] 3 lb key la
    toy_hash32 toy_curve_ok toy_coins_ok demo_samples32 _ (or_introl eq_refl) F) as [E|(x & Lx & Ox)]; [contradiction|].
  exists x. split; [exact Lx|]. exact Ox.
Qed.
(** A server of many_fpake.rs that ends with a key. *)
Example many_session :
  let many p := (fun d ms => many_sender toy toy_gen p 4 (toy_keys 2) (co_sender toy toy_gen toy_curve p (fun _ => 1)) ms d) in
  exists key la lb, feed (mfpake_many toy Debug [200; 3] demo_garbling (many Debug) key_sender key_receiver [[1; 2]; [3; 4]; [5; 6]; [7; 8]] 1) lb = (Ok key, la) /\
  Forall (fun k => array_ok 32 (fst k) /\ array_ok 32 (snd k)) (toy_keys 2).
Proof.
  destruct mfpake_example as (key & _ & R). destruct (runs_feed _ _ _ _ R) as (la & lb & F & _). exists key, la, lb.
  split; [exact F|]. apply toy_keys_ok. lia.
Qed.
