(** C125: programs that do not belong together. *)
From Coq Require Import List NArith Bool Lia Arith.
From Verif Require Import Base MUtil MWires MCircuit MGarble MPar MBincode MProc MOt MApricot MMany MFpake MChannel MMain.
From Verif Require Import SpecUtil SpecWires SpecCircuit SpecGarble SpecBincode SpecOt SpecApricot SpecFpake SpecLong SpecMany SpecMfpake SpecMain SpecRole SpecKinds.
From Verif Require Import PBase PUtil PWires PGarble PCircuit PHalf PProc PBincode POt PChannel PFpake PLong PKinds.
From Verif Require Import CCircuit COt CApricot CMany CUtil CFpake CMfpake CFpake3 CChannel CMain CLong CUneven CRole.
Import ListNotations.
Open Scope N_scope.

(** ** The two names *)
Lemma props_name n s pb : blob_ok s -> utf8 s = true -> deserialize dec_props (enc_props (mkProps n s)) = Ok pb -> pr_protocol pb = s.
Proof.
  intros H U E. unfold deserialize, enc_props, dec_props, enc_usize, enc_uint in E. cbn [pr_size pr_protocol] in E.
  destruct (dec_usize (le_bytes 8 (N.of_nat n) ++ enc_bytes s)) as [[v rest]| | |] eqn:D; try discriminate.
  assert (Er : rest = enc_bytes s).
  { unfold dec_usize, dec_uint in D. rewrite take_app in D by apply le_bytes_length. cbn [obind] in D. injection D; intros; subst; reflexivity. }
  subst rest. cbn [obind] in E. rewrite <- (app_nil_r (enc_bytes s)), rt_string in E by auto. cbn [obind] in E.
  injection E as <-. reflexivity.
Qed.
Lemma co_named n pb : deserialize dec_props (enc_props (mkProps n chou_orlandi)) = Ok pb -> pr_protocol pb = chou_orlandi.
Proof. apply props_name; [split; [reflexivity|repeat constructor]|reflexivity]. Qed.
Lemma apricot_named n pb : deserialize dec_props (enc_props (mkProps n apricot_name)) = Ok pb -> pr_protocol pb = apricot_name.
Proof. apply props_name; [split; [reflexivity|repeat constructor]|reflexivity]. Qed.
Lemma named_apart pb n s : bytes_eqb (pr_protocol pb) s = false -> props_eqb pb (mkProps n s) = false.
Proof. intros E. unfold props_eqb. cbn [pr_protocol]. rewrite E. apply andb_false_r. Qed.
Lemma co_not_apricot n n' pb : deserialize dec_props (enc_props (mkProps n chou_orlandi)) = Ok pb -> props_eqb pb (mkProps n' apricot_name) = false.
Proof. intros E. apply named_apart. rewrite (co_named _ _ E). reflexivity. Qed.
Lemma apricot_not_co n n' pb : deserialize dec_props (enc_props (mkProps n apricot_name)) = Ok pb -> props_eqb pb (mkProps n' chou_orlandi) = false.
Proof. intros E. apply named_apart. rewrite (apricot_named _ _ E). reflexivity. Qed.
Lemma co_props_length n : length (enc_props (mkProps n chou_orlandi)) = 28%nat.
Proof. unfold enc_props, enc_usize, enc_uint. cbn [pr_size pr_protocol]. rewrite app_length. reflexivity. Qed.

(** ** Negotiation *)
Lemma doomed_validate {A} pb (f : unit -> proc A) m ins ci outs co :
  (forall pb2, deserialize dec_props m = Ok pb2 -> props_eqb pb2 pb = true -> doomed (f tt) ins ci outs co) ->
  doomed (pbind (validate_properties pb) f) (m :: ins) ci (enc_props pb :: outs) co.
Proof.
  intros H. cbn -[deserialize props_eqb enc_props]. split; [reflexivity|]. split; [exact I|].
  destruct (deserialize dec_props m) as [pb2| | |] eqn:E; cbn -[props_eqb]; auto.
  destruct (props_eqb pb2 pb) eqn:Q; cbn; [|exact I]. eapply H; eauto.
Qed.
Lemma doomed_validate_closed {A} pb (f : unit -> proc A) outs co :
  doomed (pbind (validate_properties pb) f) [] true (enc_props pb :: outs) co.
Proof. cbn -[deserialize props_eqb enc_props]. auto. Qed.

(** ** The handshake *)
Lemma doomed_serve {A} hmac xpub xdh sec theirs (q : proc A) ins ci outs co :
  doomed q ins ci outs co ->
  doomed (serve hmac xpub xdh sec q) (theirs :: with_codes hmac (xdh sec theirs) ins) ci (xpub sec :: with_codes hmac (xdh sec theirs) outs) co.
Proof.
  intros H. unfold serve, auth_server. cbn -[x_public with_codes over_auth]. split; [reflexivity|]. split; [exact I|].
  destruct (x_public theirs) as [th| | |] eqn:E; cbn -[with_codes over_auth]; auto.
  unfold x_public in E. destruct (Nat.eqb (length theirs) 32); [|discriminate]. injection E as <-. apply doomed_auth. exact H.
Qed.
Lemma doomed_connect {A} hmac xpub xdh sec theirs (q : proc A) ins ci outs co :
  doomed q ins ci outs co ->
  doomed (connect hmac xpub xdh sec q) (theirs :: with_codes hmac (xdh sec theirs) ins) ci (xpub sec :: with_codes hmac (xdh sec theirs) outs) co.
Proof.
  intros H. unfold connect, auth_client. cbn -[x_public with_codes over_auth]. split; [exact I|].
  destruct (x_public theirs) as [th| | |] eqn:E; cbn -[with_codes over_auth]; auto.
  unfold x_public in E. destruct (Nat.eqb (length theirs) 32); [|discriminate]. injection E as <-. split; [reflexivity|]. apply doomed_auth. exact H.
Qed.

(** ** The first steps of the programs *)
Definition ended {A} (q : proc A) : Prop := exists o, q = Done o /\ forall a, o <> Ok a.
Lemma ended_doomed {A} (q : proc A) ins ci outs co : ended q -> doomed q ins ci outs co.
Proof. intros (o & -> & H). destruct o as [a| | |]; cbn; auto. exact (H a eq_refl). Qed.
Lemma garbler_form sha p g ot pw t : ended (garbler sha p g ot pw t) \/ exists msgs f, garbler sha p g ot pw t = pbind (ot msgs) f.
Proof.
  unfold garbler. destruct (build_circuit _ _ _) as [c| | |]; try (left; eexists; split; [reflexivity|discriminate]).
  cbn [lift pbind]. destruct (garble_zipped _ _ _ _) as [[[gc e] d]| | |]; try (left; eexists; split; [reflexivity|discriminate]).
  cbn [lift pbind]. destruct (slice_to _ _) as [eo| | |]; try (left; eexists; split; [reflexivity|discriminate]).
  cbn [lift pbind]. destruct (slice_from _ _) as [et| | |]; try (left; eexists; split; [reflexivity|discriminate]).
  cbn [lift pbind]. right. eexists _, _. reflexivity.
Qed.
Lemma many_form sha fill p cores keys internal mask g otS otR passwords t :
  let q := mfpake_many sha p mask g (fun d ms => many_sender sha fill p cores (keys d) internal ms d) otS otR passwords t in
  ended q \/ exists y d f, q = Snd y (pbind (internal (keys d)) (fun _ => pbind (garbler sha p g otS mask t) f)).
Proof.
  intros q. subst q. unfold mfpake_many.
  destruct (idx passwords 0) as [p0| | |]; try (left; eexists; split; [reflexivity|discriminate]).
  cbn [lift pbind]. destruct (mask_passwords _ _ _ _) as [ms| | |]; try (left; eexists; split; [reflexivity|discriminate]).
  cbn [lift pbind]. destruct (log2_ _ _ _) as [d| | |]; try (left; eexists; split; [reflexivity|discriminate]).
  cbn [lift pbind]. unfold many_sender. destruct (idx ms 0) as [m0| | |]; try (left; eexists; split; [reflexivity|discriminate]).
  cbn [lift pbind]. destruct (many_y _ _ _ _ _ _ _ _) as [y| | |]; try (left; eexists; split; [reflexivity|discriminate]).
  cbn [lift pbind send ret]. right. eexists y, _, _. reflexivity.
Qed.

(** *** C125 *)
Section Kinds.
Variables (hmac : bytes -> bytes -> bytes) (xpub : bytes -> bytes) (xdh : bytes -> bytes -> bytes).
Hypothesis Hdh : dh_ok xpub xdh.
Variables (sec sec' : bytes) (p p' : profile).

Lemma main_server_with_many_client sha sha' fill fill' gen' G' a cores r bootR otR g g' otS' otR' pw t rm' index number password t' :
  no_result (main_server hmac xpub xdh sha p sec g (sender_with sha fill p a cores r bootR) otR pw t)
            (many_client_main hmac xpub xdh sha' p' sec' g' (fun d i => many_receiver sha' fill' p' (co_receiver sha' gen' G' p' rm') i d)
               otS' otR' password index number t').
Proof.
  destruct Hdh as [_ Hx]. unfold main_server, many_client_main, fpake_server.
  set (key := xdh sec (xpub sec')).
  set (n := match log2_ p' 32 number with Ok domain => match many_choices p' index (N.to_nat domain) with Ok choices => length choices | _ => 0%nat end | _ => 0%nat end).
  assert (C : forall y, (length y <= 1)%nat -> doomed (mfpake_single sha' p' g' (fun d i => many_receiver sha' fill' p' (co_receiver sha' gen' G' p' rm') i d)
      otS' otR' password index number t') y true [enc_props (mkProps n chou_orlandi)] false).
  { intros y Ly. subst n. unfold mfpake_single. destruct (log2_ p' 32 number) as [domain| | |]; cbn [lift pbind]; try exact I.
    apply doomed_bind. unfold many_receiver. destruct (many_choices p' index (N.to_nat domain)) as [choices| | |]; cbn [lift pbind]; try exact I.
    cbn [recv pbind ret doomed]. split; [exact I|]. destruct y as [|y0 [|y1 rest]]; [exact I| |cbn in Ly; lia].
    apply doomed_bind. unfold co_receiver. cbv zeta. apply doomed_validate_closed. }
  clearbody n.
  destruct (garbler_form sha p g (sender_with sha fill p a cores r bootR) pw t) as [E|(msgs & f & E)].
  - apply (doomed_pair _ _ (xpub sec' :: with_codes hmac key [enc_props (mkProps n chou_orlandi)]) false (xpub sec :: with_codes hmac key []) true).
    + apply doomed_serve. apply doomed_bind. now apply ended_doomed.
    + unfold key. rewrite Hx. apply doomed_connect. apply C. cbn; lia.
  - rewrite E. apply (doomed_pair _ _ (xpub sec' :: with_codes hmac key [enc_props (mkProps n chou_orlandi)]) false
      (xpub sec :: with_codes hmac key [enc_props (mkProps (length msgs) apricot_name)]) true).
    + apply doomed_serve. apply doomed_bind, doomed_bind. unfold sender_with, ap_sender. apply doomed_lift. intros _ _.
      apply doomed_validate. intros pb D Q. rewrite (co_not_apricot _ _ _ D) in Q. discriminate.
    + unfold key. rewrite Hx. apply doomed_connect. apply C. cbn; lia.
Qed.

Lemma many_server_with_main_client sha sha' fill fill' gen G a' cores cores' r' bootS otR g g' keys rm mask otS otS' passwords t password t' :
  no_result (serve hmac xpub xdh sec (mfpake_many sha p mask g (fun d ms => many_sender sha fill p cores (keys d) (co_sender sha gen G p rm) ms d) otS otR passwords t))
            (main_client hmac xpub xdh sha' p' sec' g' otS' (receiver_with sha' fill' p' a' cores' r' bootS) password t').
Proof.
  destruct Hdh as [_ Hx]. unfold main_client, fpake_client.
  set (key := xdh sec (xpub sec')). set (n := length (u8_vec_to_bool_vec password)).
  destruct (many_form sha fill p cores keys (co_sender sha gen G p rm) mask g otS otR passwords t) as [E|(y & d & f & E)].
  - apply (doomed_pair _ _ (xpub sec' :: with_codes hmac key [enc_props (mkProps n apricot_name)]) false (xpub sec :: with_codes hmac key []) true).
    + apply doomed_serve. now apply ended_doomed.
    + unfold key. rewrite Hx. apply doomed_connect. apply doomed_bind. unfold evaluator. apply doomed_bind. unfold receiver_with, ap_receiver.
      apply doomed_lift. intros _ _. apply doomed_validate_closed.
  - cbv zeta in E. rewrite E.
    apply (doomed_pair _ _ (xpub sec' :: with_codes hmac key [enc_props (mkProps n apricot_name)]) false
      (xpub sec :: with_codes hmac key [y; enc_props (mkProps (length (keys d)) chou_orlandi)]) true).
    + apply doomed_serve. cbn [doomed]. split; [reflexivity|]. apply doomed_bind. unfold co_sender. cbv zeta.
      apply doomed_validate. intros pb D Q. rewrite (apricot_not_co _ _ _ D) in Q. discriminate.
    + unfold key. rewrite Hx. apply doomed_connect. apply doomed_bind. unfold evaluator. apply doomed_bind. unfold receiver_with, ap_receiver.
      apply doomed_lift. intros _ _. apply doomed_validate. intros pb D Q. cbv zeta. apply doomed_bind. unfold coinflip_sender.
      cbn -[enc_props]. split; [exact I|]. rewrite co_props_length. exact I.
Qed.
End Kinds.

(** C125: main.rs as server and client/main.rs, whatever they were given: under no schedule a side gets a key. *)
Theorem C125_main_server_many_client : forall hmac xpub xdh sec sec' p p' sha sha' fill fill' gen' G' a cores r bootR
    (otR otR' : list bool -> proc (list bytes)) (otS' : list (bytes * bytes) -> proc unit) g g' pw t rm' index number password t',
  dh_ok xpub xdh ->
  no_result (main_server hmac xpub xdh sha p sec g (sender_with sha fill p a cores r bootR) otR pw t)
            (many_client_main hmac xpub xdh sha' p' sec' g' (fun d i => many_receiver sha' fill' p' (co_receiver sha' gen' G' p' rm') i d)
               otS' otR' password index number t').
Proof. intros. now apply main_server_with_many_client. Qed.
Print Assumptions C125_main_server_many_client.

(** C125: server/main.rs and main.rs as client. *)
Theorem C125_many_server_main_client : forall hmac xpub xdh sec sec' p p' sha sha' fill fill' gen G a' cores cores' r' bootS
    (otR : list bool -> proc (list bytes)) (otS otS' : list (bytes * bytes) -> proc unit) g g' keys rm mask file size t password t',
  dh_ok xpub xdh ->
  no_result (many_server_main hmac xpub xdh sha p sec mask g (fun d ms => many_sender sha fill p cores (keys d) (co_sender sha gen G p rm) ms d) otS otR file size t)
            (main_client hmac xpub xdh sha' p' sec' g' otS' (receiver_with sha' fill' p' a' cores' r' bootS) password t').
Proof.
  intros hmac xpub xdh sec sec' p p' sha sha' fill fill' gen G a' cores cores' r' bootS otR otS otS' g g' keys rm mask file size t password t' Hdh.
  unfold many_server_main. destruct (chunks_exact size file) as [pws|e|rs|] eqn:E; cbn [lift pbind].
  - now apply many_server_with_main_client.
  - apply (doomed_pair _ _ [] false [] true); cbn; auto.
  - apply (doomed_pair _ _ [] false [] true); cbn; auto.
  - apply (doomed_pair _ _ [] false [] true); cbn; auto.
Qed.
Print Assumptions C125_many_server_main_client.

(** ** Mirrors *)
Lemma mirrored_lift {A B} q (o : outcome A) (f : A -> proc B) a : o = Ok a -> mirrored q (pbind (lift o) f) = mirrored q (f a).
Proof. intros ->. reflexivity. Qed.
Lemma mirrored_bind_waits {A B} (x : proc A) (f : A -> proc B) : forall q, mirrored q x = None -> mirrored q (pbind x f) = None.
Proof.
  induction x as [o|m k IH|k IH]; intros q H; cbn in *; [discriminate|now apply IH|].
  destruct q; [reflexivity|now apply IH].
Qed.
Lemma mirrored_auth {A} hmac key (x : proc A) : forall q, mirrored q x = None -> mirrored (with_codes hmac key q) (over_auth hmac key key x) = None.
Proof.
  induction x as [o|m k IH|k IH]; intros q H; cbn [mirrored over_auth] in *; [discriminate| |].
  - rewrite <- app_assoc. cbn [app]. replace (with_codes hmac key q ++ [m; hmac key m]) with (with_codes hmac key (q ++ [m])); [now apply IH|].
    unfold with_codes. rewrite flat_map_app. reflexivity.
  - destruct q as [|m q]; [reflexivity|]. cbn [with_codes flat_map app mirrored]. rewrite bytes_eqb_refl. now apply IH.
Qed.
Lemma mirrored_sender sha fill p a cores r bootR msg : usize_ok (length msg) -> (length msg mod 8 = 0)%nat ->
  mirrored [] (sender_with sha fill p a cores r bootR msg) = None.
Proof.
  intros Hu H8. unfold sender_with, ap_sender. rewrite H8. change (Nat.eqb 0 0) with true.
  erewrite mirrored_lift by apply debug_assert_true. cbn -[deserialize enc_props props_eqb coinflip_receiver].
  rewrite (deserialize_reads props_ok enc_props dec_props _ rt_props) by now apply apricot_props.
  cbn -[props_eqb coinflip_receiver]. replace (props_eqb _ _) with true; [reflexivity|].
  unfold props_eqb. cbn [pr_size pr_protocol]. rewrite Nat.eqb_refl, bytes_eqb_refl. reflexivity.
Qed.

Lemma doomed_sends {A} l (f : unit -> proc A) ins ci : doomed (f tt) ins ci [] false -> doomed (pbind (send_all l) f) ins ci [] false.
Proof. intros H. induction l as [|m l IH]; [exact H|]. cbn. exact IH. Qed.
Lemma pbind_lift_ok {A B} (o : outcome A) (f : A -> proc B) a : o = Ok a -> pbind (lift o) f = f a.
Proof. intros ->. reflexivity. Qed.
Lemma doomed_open_validate {A} pb (f : unit -> proc A) m ins ci :
  (forall pb2, deserialize dec_props m = Ok pb2 -> props_eqb pb2 pb = true -> doomed (f tt) ins ci [] false) ->
  doomed (pbind (validate_properties pb) f) (m :: ins) ci [] false.
Proof.
  intros H. cbn -[deserialize props_eqb enc_props]. split; [exact I|].
  destruct (deserialize dec_props m) as [pb2| | |] eqn:E; cbn -[props_eqb]; auto.
  destruct (props_eqb pb2 pb) eqn:Q; cbn; [|exact I]. eapply H; eauto.
Qed.

(** C125: the server of main.rs takes its own public key for the key of a peer, and then waits for itself to start the coin flip. *)
Theorem C125_mirrored_server_waits : forall hmac xpub xdh sec sha fill p a cores r bootR (otR : list bool -> proc (list bytes)) g pw t,
  (forall s, length (xpub s) = 32%nat) -> hash32 sha -> garbling_ok g -> workable_length (length pw) -> t <= 65534 ->
  among_mirrors (main_server hmac xpub xdh sha p sec g (sender_with sha fill p a cores r bootR) otR pw t) = None.
Proof.
  intros hmac xpub xdh sec sha fill p a cores r bootR otR g pw t Hx Hs Hg Hw Ht.
  unfold among_mirrors, main_server, serve, auth_server. cbn -[x_public over_auth fpake_server].
  unfold x_public. rewrite Hx. cbn -[over_auth fpake_server]. apply (mirrored_auth hmac _ _ []).
  unfold fpake_server. apply mirrored_bind_waits.
  destruct (workable _ Hw) as (H1 & Hsup & H2 & Hlt & Hun & Hnw).
  destruct (circL_half sha p g (length pw * 8) (sum_modulus (length pw)) t Hs Hg Ht H1 Hsup Hnw) as (gc & ek & dk & zs & l0 & l1 & H).
  pose proof (hk_length _ _ _ _ _ _ _ _ _ _ _ H) as Lz. cbn [circL num_inputs] in Lz.
  unfold garbler. rewrite !bits_length8.
  erewrite mirrored_lift by exact (build_circuit_long p (length pw * 8) t Hlt Ht).
  change (N.of_nat (length pw * 8) mod 65536 + 1) with (sum_modulus (length pw)).
  erewrite mirrored_lift by exact (garble_zipped_ok _ _ _ _ _ _ _ _ _ _ H). cbv beta iota.
  erewrite mirrored_lift by (unfold slice_to; rewrite (proj2 (Nat.leb_le _ _)) by lia; reflexivity).
  erewrite mirrored_lift by (unfold slice_from; rewrite (proj2 (Nat.leb_le _ _)) by lia; reflexivity).
  apply mirrored_bind_waits.
  assert (Lt : length (label_messages (skipn (length pw * 8) zs)) = (length pw * 8)%nat)
    by (unfold label_messages; rewrite map_length, skipn_length; lia).
  apply mirrored_sender; rewrite Lt; auto. apply Nat.mod_mul. lia.
Qed.
Print Assumptions C125_mirrored_server_waits.

(** C125: whatever the server of main.rs was given, it gets no key from its own frames. *)
Theorem C125_mirrored_server : forall hmac xpub xdh sec sha fill p a cores r bootR (otR : list bool -> proc (list bytes)) g pw t key,
  among_mirrors (main_server hmac xpub xdh sha p sec g (sender_with sha fill p a cores r bootR) otR pw t) <> Some (Ok key).
Proof.
  intros hmac xpub xdh sec sha fill p a cores r bootR otR g pw t.
  unfold main_server, fpake_server. set (key := xdh sec (xpub sec)).
  destruct (garbler_form sha p g (sender_with sha fill p a cores r bootR) pw t) as [E|(msgs & f & E)].
  - apply (doomed_mirrors _ (xpub sec :: with_codes hmac key []) true). apply doomed_serve. apply doomed_bind. now apply ended_doomed.
  - rewrite E. apply (doomed_mirrors _ (xpub sec :: with_codes hmac key [enc_props (mkProps (length msgs) apricot_name)]) true).
    apply doomed_serve. apply doomed_bind, doomed_bind. unfold sender_with, ap_sender. apply doomed_lift. intros _ _.
    apply doomed_validate. intros pb D Q. cbv zeta. apply doomed_bind. unfold coinflip_receiver. cbn. auto.
Qed.
Print Assumptions C125_mirrored_server.

(** C125: the same for server/main.rs. *)
Theorem C125_mirrored_many_server : forall hmac xpub xdh sec sha fill gen G p cores keys rm a r bootR (otR : list bool -> proc (list bytes)) g mask file size t key,
  among_mirrors (many_server_main hmac xpub xdh sha p sec mask g (fun d ms => many_sender sha fill p cores (keys d) (co_sender sha gen G p rm) ms d)
    (sender_with sha fill p a cores r bootR) otR file size t) <> Some (Ok key).
Proof.
  intros hmac xpub xdh sec sha fill gen G p cores keys rm a r bootR otR g mask file size t.
  unfold many_server_main. destruct (chunks_exact size file) as [pws|e|rs|] eqn:E; cbn [lift pbind]; try (cbn; discriminate).
  set (key := xdh sec (xpub sec)).
  destruct (many_form sha fill p cores keys (co_sender sha gen G p rm) mask g (sender_with sha fill p a cores r bootR) otR pws t) as [F|(y & d & f & F)]; cbv zeta in F.
  - apply (doomed_mirrors _ (xpub sec :: with_codes hmac key []) true). apply doomed_serve. now apply ended_doomed.
  - rewrite F. apply (doomed_mirrors _ (xpub sec :: with_codes hmac key [y; enc_props (mkProps (length (keys d)) chou_orlandi)]) false).
    apply doomed_serve. cbn [doomed]. split; [reflexivity|]. apply doomed_assoc with (p := validate_properties _).
    apply doomed_validate. intros pb _ _. apply doomed_assoc, doomed_sends. destruct (keys d) as [|k ks].
    + cbn [length recv_each pbind ret]. rewrite pbind_lift_ok with (a := tt) by reflexivity. cbn [seq combine mapM lift pbind send ret].
      cbn [doomed]. destruct (garbler_form sha p g (sender_with sha fill p a cores r bootR) mask t) as [H|(msgs & h & H)].
      * apply doomed_bind. now apply ended_doomed.
      * rewrite H. apply doomed_bind, doomed_bind. unfold sender_with, ap_sender. apply doomed_lift. intros _ _.
        apply doomed_open_validate. intros pb2 D Q. rewrite (co_not_apricot _ _ _ D) in Q. discriminate.
    + cbn [length recv_each pbind ret recv_unwrap]. cbn [doomed]. split; [exact I|].
      unfold from_slice. cbn [ret pbind]. rewrite co_props_length. exact I.
Qed.
Print Assumptions C125_mirrored_many_server.

(** C125: a client waits for the public key of its peer, which it never sends first. *)
Theorem C125_mirrored_clients : forall hmac xpub xdh sec sha p g otS otR manyR pw t index number,
  among_mirrors (main_client hmac xpub xdh sha p sec g otS otR pw t) = None /\
  among_mirrors (many_client_main hmac xpub xdh sha p sec g manyR otS otR pw index number t) = None.
Proof. intros. split; reflexivity. Qed.
Print Assumptions C125_mirrored_clients.

(** ** Examples *)
Example kinds_example : no_result
  (main_server toy_mac toy_pub toy_dh toy Debug [7] demo_garbling (demo_sender Debug) (demo_receiver Debug) [97; 98; 99] 1)
  (many_client_main toy_mac toy_pub toy_dh toy Release [9] demo_garbling
     (fun d i => many_receiver toy toy_gen Release (co_receiver toy toy_gen toy_curve Release (fun _ => 5)) i d)
     (demo_sender Release) (demo_receiver Release) [97; 98; 99] 2 4 1).
Proof. apply C125_main_server_many_client. exact toy_dh_ok. Qed.
Example mirrored_example :
  among_mirrors (main_server toy_mac toy_pub toy_dh toy Debug [7] demo_garbling (demo_sender Debug) (demo_receiver Debug) [97; 98; 99] 1) = None.
Proof.
  apply C125_mirrored_server_waits; [exact (proj1 toy_dh_ok)|exact toy_hash32|exact demo_garbling_ok| |discriminate].
  apply good_workable. unfold good_length. cbn [length]. lia.
Qed.
(** Sides that do belong together get a result, and a mirror can give one. *)
Example C125_not_always : ~ no_result (send []) (let! _ := recv in ret tt) /\ among_mirrors (let! _ := send [1] in recv) = Some (Ok [1]).
Proof.
  split; [|reflexivity]. intros H.
  assert (S : steps 2 (initial (send []) (let! _ := recv in ret tt)) (final (Ok tt) (Ok tt))).
  { eapply steps_cons; [apply step_left; reflexivity|]. eapply steps_cons; [apply step_right; reflexivity|]. apply steps_refl. }
  destruct (H _ _ S) as [L _]. exact (L tt eq_refl).
Qed.
