(** Proofs for C126. *)
From Coq Require Import List NArith Bool Lia Arith.
From Verif Require Import Base MUtil MWires MCircuit MGarble MBincode MProc MOt MMany MFpake MLegacy MChannel MMain.
From Verif Require Import SpecBincode SpecFpake SpecTold.
From Verif Require Import PBase PUtil PBincode PHalf PProc PFpake PBounds.
Import ListNotations.
Open Scope N_scope.

Lemma uadd_range p w a b r : uadd p w a b = Ok r -> r < 2 ^ w.
Proof.
  unfold uadd. destruct (a + b <? 2 ^ w) eqn:E; intros H.
  - injection H as <-. now apply N.ltb_lt.
  - destruct (is_debug p); [discriminate|]. injection H as <-. apply N.mod_lt, N.pow_nonzero. discriminate.
Qed.
Lemma t1_is p t r : t <= 65534 -> uadd p 16 t 1 = Ok r -> r = t + 1.
Proof.
  intros H. unfold uadd. rewrite (proj2 (N.ltb_lt _ _)) by (change (2 ^ 16) with 65536; lia). intros E; injection E as <-; reflexivity.
Qed.

Lemma told_circuit c t nw inp rest : circuit_ok c ->
  (exists front, gates c = front ++ [mkGate nw (g_domain (last (gates c) (mkGate 0 0 [] GAdd))) inp (GProj (PLess (t + 1)))]) ->
  told (enc_circuit c ++ rest) = Some t.
Proof.
  intros H (front & E). unfold told. rewrite rt_circuit by exact H. rewrite E, rev_app_distr. cbn [rev app]. f_equal. lia.
Qed.

Lemma told_build p n t c rest : t <= 65534 -> usize_ok (n * 5 + 2) -> build_circuit p n t = Ok c ->
  told (enc_circuit c ++ rest) = Some t.
Proof.
  intros Ht Hu. unfold build_circuit. destruct (uadd p 16 (N.of_nat n mod 65536) 1) as [cd| | |] eqn:Ecd; try discriminate. cbn [obind].
  destruct (uadd p 16 t 1) as [t1| | |] eqn:Et; try discriminate. cbn [obind]. intros E; injection E as <-.
  apply uadd_range in Ecd. apply t1_is in Et; [|exact Ht]. subst t1. change (2 ^ 16) with 65536 in Ecd.
  assert (U : forall k, (k <= n * 5 + 2)%nat -> usize_ok k) by (intros k Hk; eapply usize_le; eauto).
  assert (Hcd : u16_ok cd) by exact Ecd.
  eapply told_circuit.
  - unfold circuit_ok. cbn [num_wires num_inputs num_outputs gates input_domains]. split; [apply U; lia|]. split; [apply U; lia|]. split; [apply U; lia|]. split.
    + split. { rewrite !app_length, !map_length, !seq_length. cbn [length]. apply U; lia. }
      rewrite !Forall_app. split; [|split].
      * apply Forall_forall. intros g Hg. apply in_map_iff in Hg as (i & <- & Hi). apply in_seq in Hi.
        unfold gate_ok. cbn [g_output g_domain g_inputs g_kind kind_ok].
        split; [apply U; lia|]. split; [reflexivity|]. split; [|exact I]. split; [apply U; cbn; lia|].
        repeat (apply Forall_cons; [apply U; lia|]). apply Forall_nil.
      * apply Forall_forall. intros g Hg. apply in_map_iff in Hg as (i & <- & Hi). apply in_seq in Hi.
        unfold gate_ok. cbn [g_output g_domain g_inputs g_kind kind_ok].
        split; [apply U; lia|]. split; [reflexivity|]. split; [|exact Hcd]. split; [apply U; cbn; lia|].
        repeat (apply Forall_cons; [apply U; lia|]). apply Forall_nil.
      * apply Forall_cons; [|apply Forall_cons; [|apply Forall_nil]]; unfold gate_ok; cbn [g_output g_domain g_inputs g_kind kind_ok].
        -- split; [apply U; lia|]. split; [exact Hcd|]. split; [|exact I]. split; [rewrite seq_length; apply U; lia|].
           apply Forall_forall. intros i Hi. apply in_seq in Hi. apply U; lia.
        -- split; [apply U; lia|]. split; [exact Hcd|]. split; [|unfold u16_ok; lia]. split; [apply U; cbn; lia|].
           apply Forall_cons; [apply U; lia|apply Forall_nil].
    + split; [rewrite repeat_length; apply U; lia|]. apply Forall_forall. intros x Hx. apply repeat_spec in Hx. subst x. reflexivity.
  - cbn [gates]. exists (map (fun i => mkGate (i + 2 * n) 2 [i; (i + n)%nat] GAdd) (seq 0 n) ++
      map (fun i => mkGate (i + 3 * n) 2 [(i + 2 * n)%nat] (GProj (PMap cd))) (seq 0 n) ++ [mkGate (4 * n) cd (seq (3 * n) n) GAdd]).
    rewrite <- !app_assoc. cbn [app]. f_equal. f_equal. f_equal. f_equal. f_equal.
    rewrite !app_assoc. change [?a; ?b] with ([a] ++ [b]). rewrite app_assoc, last_last. reflexivity.
Qed.
Lemma told_build2 p n t c rest : t <= 65534 -> usize_ok (n * 5 + 2) -> build_circuit_v2 p n t = Ok c ->
  told (enc_circuit c ++ rest) = Some t.
Proof.
  intros Ht Hu. unfold build_circuit_v2. destruct (uadd p 16 (N.of_nat n mod 65536) 1) as [cd| | |] eqn:Ecd; try discriminate. cbn [obind].
  destruct (uadd p 16 t 1) as [t1| | |] eqn:Et; try discriminate. cbn [obind]. intros E; injection E as <-.
  apply uadd_range in Ecd. apply t1_is in Et; [|exact Ht]. subst t1. change (2 ^ 16) with 65536 in Ecd.
  assert (U : forall k, (k <= n * 5 + 2)%nat -> usize_ok k) by (intros k Hk; eapply usize_le; eauto).
  assert (Hcd : u16_ok cd) by exact Ecd.
  eapply told_circuit.
  - unfold circuit_ok. cbn [num_wires num_inputs num_outputs gates input_domains]. split; [apply U; lia|]. split; [apply U; lia|]. split; [apply U; lia|]. split.
    + split. { rewrite !app_length, !map_length, !seq_length. cbn [length]. apply U; lia. }
      rewrite !Forall_app. split; [|split].
      * apply Forall_forall. intros g Hg. apply in_map_iff in Hg as (i & <- & Hi). apply in_seq in Hi.
        unfold gate_ok. cbn [g_output g_domain g_inputs g_kind kind_ok].
        split; [apply U; lia|]. split; [reflexivity|]. split; [|exact I]. split; [apply U; cbn; lia|].
        repeat (apply Forall_cons; [apply U; lia|]). apply Forall_nil.
      * apply Forall_forall. intros g Hg. apply in_map_iff in Hg as (i & <- & Hi). apply in_seq in Hi.
        unfold gate_ok. cbn [g_output g_domain g_inputs g_kind kind_ok].
        split; [apply U; lia|]. split; [reflexivity|]. split; [|exact Hcd]. split; [apply U; cbn; lia|].
        repeat (apply Forall_cons; [apply U; lia|]). apply Forall_nil.
      * apply Forall_cons; [|apply Forall_cons; [|apply Forall_nil]]; unfold gate_ok; cbn [g_output g_domain g_inputs g_kind kind_ok].
        -- split; [apply U; lia|]. split; [exact Hcd|]. split; [|exact I]. split; [rewrite seq_length; apply U; lia|].
           apply Forall_forall. intros i Hi. apply in_seq in Hi. apply U; lia.
        -- split; [apply U; lia|]. split; [exact Hcd|]. split; [|unfold u16_ok; lia]. split; [apply U; cbn; lia|].
           apply Forall_cons; [apply U; lia|apply Forall_nil].
    + split; [rewrite repeat_length; apply U; lia|]. apply Forall_forall. intros x Hx. apply repeat_spec in Hx. subst x. reflexivity.
  - cbn [gates]. exists (map (fun i => mkGate (i + 3 * n) 2 [i; (i + n)%nat; (i + 2 * n)%nat] GAdd) (seq 0 n) ++
      map (fun i => mkGate (i + 4 * n) 2 [(i + 3 * n)%nat] (GProj (PMap cd))) (seq 0 n) ++ [mkGate (5 * n) cd (seq (4 * n) n) GAdd]).
    rewrite <- !app_assoc. cbn [app]. f_equal. f_equal. f_equal. f_equal. f_equal.
    rewrite !app_assoc. change [?a; ?b] with ([a] ++ [b]). rewrite app_assoc, last_last. reflexivity.
Qed.

Lemma frame_tells sha p g c gc z d t : garbling_ok g -> (forall rest, told (enc_circuit c ++ rest) = Some t) ->
  garble_zipped sha p g c = Ok (gc, z, d) -> told (enc_garbled (g_order g gc)) = Some t.
Proof.
  intros (_ & _ & Ho) H E. unfold garble_zipped, garble in E.
  destruct (garble_run sha p (g_rd g) (g_ri g) c) as [[[ek start] s]| | |]; try discriminate. cbn [obind] in E.
  destruct (binary_of_ek p ek) as [bk| | |]; try discriminate. cbn [obind] in E. destruct (zipped bk); try discriminate. cbn [obind] in E.
  injection E as <- <- <-. unfold enc_garbled. rewrite (proj1 (Ho _)). cbn [gc_circuit]. apply H.
Qed.

Lemma tells_weaken {A} n t (q : proc A) : forall P Q : Prop, (P -> Q) -> tells n t P q -> tells n t Q q.
Proof.
  induction q as [o|m k IH|k IH]; intros P Q H; cbn [tells].
  - destruct o; auto.
  - apply IH. tauto.
  - intros H2 x Hx. eapply IH; eauto.
Qed.
Lemma tells_said {A} n t (P : Prop) (q : proc A) : P -> tells n t P q.
Proof.
  revert P. induction q as [o|m k IH|k IH]; intros P H; cbn [tells].
  - destruct o; auto.
  - apply IH. tauto.
  - intros x Hx. now apply IH.
Qed.
Lemma tells_bind {A B} n t (q : proc A) (f : A -> proc B) : forall P, tells n t P q -> tells n t P (pbind q f).
Proof.
  induction q as [o|m k IH|k IH]; intros P H; cbn [tells pbind] in *; auto.
  destruct o; cbn [tells]; auto. now apply tells_said.
Qed.
Lemma tells_then {A B} n t (q : proc A) (f : A -> proc B) : (forall a, tells n t False (f a)) -> forall P, tells n t P (pbind q f).
Proof.
  intros H. induction q as [o|m k IH|k IH]; intros P; cbn [tells pbind]; auto.
  destruct o; cbn [tells]; auto. eapply tells_weaken; [|apply H]. tauto.
Qed.
Lemma tells_lift {A B} n t (o : outcome A) (f : A -> proc B) P : (forall a, o = Ok a -> tells n t P (f a)) -> tells n t P (pbind (lift o) f).
Proof. intros H. destruct o; cbn [lift pbind tells]; auto. Qed.
Lemma tells_auth {A} hmac ks kr n t (q : proc A) : forall P, tells n t P q -> tells n t P (over_auth hmac ks kr q).
Proof.
  induction q as [o|m k IH|k IH]; intros P H; cbn [tells over_auth] in *; auto.
  - apply IH. eapply tells_weaken; [|exact H]. tauto.
  - intros [d|] Hd; cbn [tells]; [|apply IH, H, I]. intros [c|] Hc; [|apply IH, H, I]. destruct (bytes_eqb c (hmac kr d)); apply IH, H; auto; exact I.
Qed.
Lemma tells_recv {B} n t (f : bytes -> proc B) P : (forall m, (length m <= n)%nat -> tells n t P (f m)) -> tells n t P (pbind recv f).
Proof. intros H. cbn [recv pbind tells]. intros [m|] Hm; cbn [pbind ret tells]; auto. Qed.

(** A result only after the frame: what [feed] sees. *)
Lemma tells_feed {A} n t (q : proc A) : forall (P : Prop) ins a out, Forall (fun m => (length m <= n)%nat) ins -> tells n t P q -> feed q ins = (Ok a, out) ->
  P \/ exists f, In f out /\ told f = Some t.
Proof.
  induction q as [o|m k IH|k IH]; intros P ins a out HF H E; cbn [tells feed] in *.
  - injection E as -> <-. auto.
  - destruct (feed k ins) as [o out'] eqn:Ef. injection E as -> <-.
    destruct (IH _ _ _ _ HF H Ef) as [[HP|Hm]|(f & Hin & Hf)]; [auto| |].
    + right. exists m. split; [now left|exact Hm].
    + right. exists f. split; [now right|exact Hf].
  - destruct ins as [|x ins]; [apply (IH None P [] a out HF (H None I) E)|].
    apply Forall_inv in HF as Hx. apply Forall_inv_tail in HF. exact (IH (Some x) P ins a out HF (H (Some x) Hx) E).
Qed.

(** A byte string of at most [n] bytes, when the frames read have at most [n] bytes. *)
Fixpoint at_most (n : nat) (q : proc bytes) : Prop :=
  match q with
  | Done (Ok r) => (length r <= n)%nat
  | Done _ => True
  | Snd _ k => at_most n k
  | Rcv k => forall x, short_frame n x -> at_most n (k x)
  end.
Lemma at_most_then {B} (q : proc bytes) n t (f : bytes -> proc B) : at_most n q -> (forall a, (length a <= n)%nat -> tells n t False (f a)) ->
  forall P, tells n t P (pbind q f).
Proof.
  intros H Hf. induction q as [o|m k IH|k IH]; intros P; cbn [tells pbind at_most] in *; auto.
  destruct o; cbn [tells]; auto. eapply tells_weaken; [|apply Hf, H]. tauto.
Qed.
Lemma at_most_bind {A} n (q : proc A) f : (forall a, at_most n (f a)) -> at_most n (pbind q f).
Proof. intros H. induction q as [o|m k IH|k IH]; cbn [at_most pbind]; auto. destruct o; cbn [at_most]; auto. Qed.
Lemma at_most_lift {A} n (o : outcome A) f : (forall a, o = Ok a -> at_most n (f a)) -> at_most n (pbind (lift o) f).
Proof. intros H. destruct o; cbn [lift pbind at_most]; auto. Qed.
Lemma many_at_most sha fill p internal index d n : at_most n (many_receiver sha fill p internal index d).
Proof.
  unfold many_receiver. apply at_most_lift. intros cs _. cbn [recv pbind at_most]. intros [y|] Hy; cbn [pbind ret at_most]; auto.
  apply at_most_bind. intros ms. apply at_most_lift. intros keys _. apply at_most_lift. intros dm _. apply at_most_lift. intros bl _.
  apply at_most_lift. intros x Ex.
  assert (Hx : (length x <= n)%nat).
  { unfold vector_row in Ex. cbn in Hy. destruct (Nat.leb _ _) eqn:El; [|discriminate]. apply Nat.leb_le in El. injection Ex as <-.
    rewrite firstn_length. lia. }
  enough (K : forall l x, (length x <= n)%nat -> match foldM (fun x i => let* k := idx keys i in xor_bytes_inplace p x (fk sha fill k index bl)) l x with Ok r => (length r <= n)%nat | _ => True end).
  { specialize (K (seq 0 d) x Hx). destruct (foldM _ _ _); cbn [lift at_most]; auto. }
  clear. induction l as [|i l IH]; intros x Hx; cbn [foldM]; [exact Hx|].
  destruct (idx keys i) as [k| | |]; cbn [obind]; auto.
  pose proof (keeps_xor_bytes_inplace p x (fk sha fill k index bl)) as K. destruct (xor_bytes_inplace _ _ _) as [y| | |]; cbn [obind]; auto.
  cbn in K. apply IH. rewrite K. exact Hx.
Qed.

Section Halves.
Variables (sha : bytes -> bytes) (p : profile) (g : garbling) (n : nat) (t : N).
Hypothesis Hg : garbling_ok g.
Hypothesis Ht : t <= 65534.

Lemma room_usize m : room_for m -> usize_ok (m * 8 * 5 + 2).
Proof. exact (fun H => H). Qed.
Lemma room_le k m : (k <= m)%nat -> room_for m -> room_for k.
Proof. unfold room_for. intros. eapply N.le_lt_trans; [|eassumption]. lia. Qed.

(** The frames of [HalfKey::garbler]: those of the OT, the circuit, the labels. *)
Lemma garbler_frames ot pw ins k out : room_for (length pw) -> feed (garbler sha p g ot pw t) ins = (Ok k, out) ->
  exists msgs pre rest f l, feedr (ot msgs) ins = (Ok tt, pre, rest) /\ out = pre ++ [f; l] /\ told f = Some t.
Proof.
  intros R E. unfold garbler in E. rewrite bits_length8 in E.
  destruct (build_circuit p (length pw * 8) t) as [c| | |] eqn:Ec; cbn [lift pbind feed] in E; try discriminate.
  destruct (garble_zipped sha p g c) as [[[gc e] d]| | |] eqn:Eg; cbn [lift pbind feed] in E; try discriminate.
  destruct (slice_to e (length pw * 8)) as [eo| | |]; cbn [lift pbind feed] in E; try discriminate.
  destruct (slice_from e (length pw * 8)) as [et| | |]; cbn [lift pbind feed] in E; try discriminate.
  rewrite feed_bind in E. destruct (feedr (ot (label_messages et)) ins) as [[o pre] rest] eqn:Eo.
  destruct o as [[]| | |]; cbn [after] in E; try discriminate. cbn [send pbind ret feed] in E.
  destruct (bk_encode (unzipped eo) (u8_vec_to_bool_vec pw)) as [ws| | |]; cbn [lift send ret pbind feed] in E; try discriminate.
  injection E as _ <-. exists (label_messages et), pre, rest, (enc_garbled (g_order g gc)), (enc_wires ws).
  split; [exact Eo|]. split; [reflexivity|]. eapply frame_tells; [exact Hg| |exact Eg].
  intros r. eapply told_build; [exact Ht| |exact Ec]. exact (room_usize _ R).
Qed.

Lemma garbler_tells ot pw P : room_for (length pw) -> tells n t P (garbler sha p g ot pw t).
Proof.
  intros R. unfold garbler. rewrite bits_length8. apply tells_lift. intros c Ec. apply tells_lift. intros [[gc e] d] Eg.
  apply tells_lift. intros eo _. apply tells_lift. intros et _. apply tells_then. intros [].
  cbn [send pbind ret tells]. apply tells_said. right. eapply frame_tells; [exact Hg| |exact Eg].
  intros r. eapply told_build; [exact Ht| |exact Ec]. exact (room_usize _ R).
Qed.
Lemma garbler_server_v3_tells mask ot1 many ot2 pws P : room_for (length (nth 0 pws [])) -> tells n t P (garbler_server_v3 sha p mask g ot1 many ot2 pws t).
Proof.
  intros R. unfold garbler_server_v3. apply tells_lift. intros p0 E0.
  assert (nth 0 pws [] = p0) as Ep by (destruct pws; [discriminate|injection E0 as ->; reflexivity]). rewrite Ep in R.
  apply tells_lift. intros c Ec. apply tells_lift. intros [[gc z] d] Eg.
  cbn [send pbind ret tells]. apply tells_said. right. eapply frame_tells; [exact Hg| |exact Eg].
  intros r. eapply told_build2; [exact Ht| |exact Ec]. exact (room_usize _ R).
Qed.
Lemma garbler_client_v3_tells ot pw masked P : room_for (length pw) -> tells n t P (garbler_client_v3 sha p g ot pw masked t).
Proof.
  intros R. unfold garbler_client_v3. apply tells_lift. intros c Ec. apply tells_lift. intros [[gc z] d] Eg. apply tells_lift. intros input _.
  cbn [send pbind ret tells]. apply tells_said. left; right. eapply frame_tells; [exact Hg| |exact Eg].
  intros r. eapply told_build2; [exact Ht| |exact Ec]. exact (room_usize _ R).
Qed.
Lemma garbler_server_v1_tells ot many pws P : room_for (length (nth 0 pws [])) -> tells n t P (garbler_server_v1 sha p g ot many pws t).
Proof.
  intros R. unfold garbler_server_v1. apply tells_lift. intros p0 E0.
  assert (nth 0 pws [] = p0) as Ep by (destruct pws; [discriminate|injection E0 as ->; reflexivity]). rewrite Ep in R.
  apply tells_lift. intros c Ec. apply tells_lift. intros [[gc z] d] Eg.
  cbn [send pbind ret tells]. apply tells_said. right. eapply frame_tells; [exact Hg| |exact Eg].
  intros r. eapply told_build; [exact Ht| |exact Ec]. exact (room_usize _ R).
Qed.
Lemma garbler_client_v1_tells rand ot pw index number P : room_for (length pw) -> tells n t P (garbler_client_v1 sha p rand g ot pw index number t).
Proof.
  intros R. unfold garbler_client_v1. apply tells_lift. intros c Ec. apply tells_lift. intros [[gc z] d] Eg. apply tells_lift. intros labels _. apply tells_lift. intros encoded _.
  cbn [send pbind ret tells]. apply tells_said. left; right. eapply frame_tells; [exact Hg| |exact Eg].
  intros r. eapply told_build; [exact Ht| |exact Ec]. exact (room_usize _ R).
Qed.
Lemma garbler_client_v2_tells ot many pw index number P : room_for (length pw) -> tells n t P (garbler_client_v2 sha p g ot many pw index number t).
Proof.
  intros R. unfold garbler_client_v2. apply tells_lift. intros c Ec. apply tells_lift. intros [[gc z] d] Eg. apply tells_lift. intros input _.
  cbn [send pbind ret tells]. apply tells_said. left; right. eapply frame_tells; [exact Hg| |exact Eg].
  intros r. eapply told_build2; [exact Ht| |exact Ec]. exact (room_usize _ R).
Qed.

Lemma fpake_server_tells otS otR pw P : room_for (length pw) -> tells n t P (fpake_server sha p g otS otR pw t).
Proof. intros R. unfold fpake_server. apply tells_bind. now apply garbler_tells. Qed.
Lemma fpake_client_tells otS otR pw P : room_for (length pw) -> tells n t P (fpake_client sha p g otS otR pw t).
Proof. intros R. unfold fpake_client. apply tells_then. intros k. apply tells_bind. now apply garbler_tells. Qed.
Lemma mfpake_many_tells mask many otS otR pws P : room_for (length mask) -> tells n t P (mfpake_many sha p mask g many otS otR pws t).
Proof.
  intros R. unfold mfpake_many. apply tells_lift. intros p0 _. apply tells_lift. intros masked _. apply tells_lift. intros d _.
  apply tells_then. intros _. apply tells_bind. now apply garbler_tells.
Qed.
Lemma mfpake_single_tells sha' fill internal otS otR pw index number P : room_for n ->
  tells n t P (mfpake_single sha p g (fun d i => many_receiver sha' fill p internal i d) otS otR pw index number t).
Proof.
  intros R. unfold mfpake_single. apply tells_lift. intros d _.
  eapply (at_most_then (many_receiver sha' fill p internal index (N.to_nat d))); [apply many_at_most|]. intros m Hm.
  apply tells_lift. intros m2 E2. pose proof (keeps_xor_bytes_inplace p m pw) as K. rewrite E2 in K. cbn in K.
  apply tells_then. intros k. apply tells_bind. apply garbler_tells. eapply room_le; [|exact R]. rewrite K. exact Hm.
Qed.
Lemma server_v3_tells mask ot1 many ot2 ot3 pws P : room_for (length (nth 0 pws [])) -> tells n t P (server_v3 sha p mask g ot1 many ot2 ot3 pws t).
Proof. intros R. unfold server_v3. apply tells_bind. now apply garbler_server_v3_tells. Qed.
Lemma client_v3_tells ot1 many ot2 ot3 pw number index P : room_for (length pw) -> tells n t P (client_v3 sha p g ot1 many ot2 ot3 pw number index t).
Proof. intros R. unfold client_v3. apply tells_then. intros [k m]. apply tells_bind. now apply garbler_client_v3_tells. Qed.

Lemma serve_tells {A} hmac xpub xdh sec (q : proc A) P : tells n t False q -> tells n t P (serve hmac xpub xdh sec q).
Proof. intros H. unfold serve. apply tells_then. intros key. now apply tells_auth. Qed.
Lemma connect_tells {A} hmac xpub xdh sec (q : proc A) P : tells n t False q -> tells n t P (connect hmac xpub xdh sec q).
Proof. intros H. unfold connect. apply tells_then. intros key. now apply tells_auth. Qed.
End Halves.
