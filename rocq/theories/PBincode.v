(** Round-trip lemmas for the wire format. *)
From Coq Require Import List NArith Bool Lia Arith Permutation.
From Verif Require Import Base MUtil MWires MCircuit MGarble MBincode SpecBincode PBase.
Import ListNotations.
Open Scope N_scope.

Lemma take_app n a rest : length a = n -> take n (a ++ rest) = Ok (a, rest).
Proof. revert n; induction a as [|b a IH]; intros [|n]; cbn; try discriminate; auto. intros [= H]. now rewrite (IH n H). Qed.

Lemma take_inv n l a t : take n l = Ok (a, t) -> l = a ++ t /\ length a = n.
Proof.
  revert l a t; induction n as [|n IH]; intros l a t; cbn.
  - intros [= <- <-]; auto.
  - destruct l as [|b l]; [discriminate|].
    destruct (take n l) as [[h t']| | |] eqn:E; try discriminate. intros [= <- <-].
    destruct (IH _ _ _ E) as [-> L]. cbn. auto.
Qed.

Lemma rt_uint k : reads_back (fun n => n < 2 ^ (8 * N.of_nat k)) (enc_uint k) (dec_uint k).
Proof.
  intros n rest H. unfold dec_uint, enc_uint. rewrite take_app by apply le_bytes_length. cbn.
  now rewrite le_value_bytes.
Qed.
Lemma rt_usize : reads_back usize_ok enc_usize dec_usize.
Proof.
  intros n rest H. unfold dec_usize, enc_usize. rewrite rt_uint by exact H. cbn.
  now rewrite Nat2N.id.
Qed.
Lemma rt_u8 : reads_back byte_ok enc_u8 dec_u8.
Proof. exact (rt_uint 1). Qed.
Lemma rt_u16 : reads_back u16_ok enc_u16 dec_u16.
Proof. exact (rt_uint 2). Qed.
Lemma rt_tag t rest : t < 256 -> dec_tag (enc_tag t ++ rest) = Ok (t, rest).
Proof. intros H. apply (rt_uint 4). change (2 ^ (8 * N.of_nat 4)) with 4294967296. lia. Qed.

Lemma dec_many_app {A} (ok : A -> Prop) e d : reads_back ok e d -> forall l rest, Forall ok l ->
  dec_many d (length l) (flat_map e l ++ rest) = Ok (l, rest).
Proof.
  intros R l rest; induction 1 as [|a l Ha _ IH]; cbn; auto.
  rewrite <- app_assoc, (R a _ Ha). cbn. now rewrite IH.
Qed.

Lemma flat_map_len {A} (e : A -> bytes) l : (forall a, (1 <= length (e a))%nat) ->
  (length l <= length (flat_map e l))%nat.
Proof. intros H; induction l as [|a l IH]; cbn; auto. rewrite app_length. specialize (H a). lia. Qed.

Lemma rt_vec {A} (ok : A -> Prop) e d : reads_back ok e d -> (forall a, (1 <= length (e a))%nat) ->
  reads_back (vec_ok ok) (enc_vec e) (dec_vec d).
Proof.
  intros R L l rest [Hn Hl]. unfold dec_vec, enc_vec, enc_usize. rewrite <- app_assoc.
  rewrite rt_uint by exact Hn. cbn [obind].
  destruct (N.ltb_spec (N.of_nat (length (flat_map e l ++ rest))) (N.of_nat (length l))) as [C|_].
  - exfalso. rewrite app_length in C. pose proof (flat_map_len e l L). lia.
  - rewrite Nat2N.id. now apply (dec_many_app ok).
Qed.

Lemma len_uint k n : length (enc_uint k n) = k.
Proof. apply le_bytes_length. Qed.
Lemma len_usize n : length (enc_usize n) = 8%nat.
Proof. apply len_uint. Qed.
Lemma len_vec {A} (e : A -> bytes) l : (8 <= length (enc_vec e l))%nat.
Proof. unfold enc_vec. rewrite app_length, len_usize. lia. Qed.

Ltac lenc := intros; unfold enc_u8, enc_u16, enc_tag, enc_bytes, enc_rows, enc_wires; rewrite ?app_length, ?len_uint, ?len_usize;
  repeat match goal with |- context [length (enc_vec ?e ?l)] =>
     let H := fresh in pose proof (len_vec e l) as H; revert H; generalize (length (enc_vec e l)); intros end; lia.

Lemma rt_bytes : reads_back blob_ok enc_bytes dec_bytes.
Proof. apply rt_vec; [exact rt_u8|lenc]. Qed.
Lemma rt_rows : reads_back rows_ok enc_rows dec_rows.
Proof. apply rt_vec; [exact rt_bytes|lenc]. Qed.
Lemma rt_string s rest : blob_ok s -> utf8 s = true -> dec_string (enc_bytes s ++ rest) = Ok (s, rest).
Proof. intros H U. unfold dec_string. rewrite rt_bytes by exact H. cbn. now rewrite U. Qed.
Lemma rt_props : reads_back props_ok enc_props dec_props.
Proof.
  intros [n s] rest (Hn & Hs & U). unfold enc_props, dec_props; cbn [pr_size pr_protocol] in *.
  rewrite <- app_assoc, rt_usize by exact Hn. cbn [obind]. now rewrite rt_string.
Qed.
Lemma rt_pair : reads_back pair_ok enc_pair dec_pair.
Proof.
  intros [a b] rest [Ha Hb]. unfold enc_pair, dec_pair; cbn [fst snd] in *.
  rewrite <- app_assoc, rt_bytes by exact Ha. cbn [obind]. now rewrite rt_bytes.
Qed.
Lemma rt_payload : reads_back payload_ok enc_payload dec_payload.
Proof. apply rt_vec; [exact rt_pair|]. intros [a b]; unfold enc_pair; lenc. Qed.

Lemma rt_domain : reads_back domain_ok enc_domain dec_domain.
Proof.
  intros [ |m|m| | ] rest H; unfold enc_domain, dec_domain; rewrite <- ?app_assoc;
    (rewrite rt_tag by lia); cbn [obind N.eqb Pos.eqb]; auto.
  - now rewrite rt_u8.
  - now rewrite rt_u16.
Qed.
Lemma rt_wire : reads_back wire_ok enc_wire dec_wire.
Proof.
  intros [d v] rest (Hd & Hl & _). unfold enc_wire, dec_wire; cbn [wdom wval] in *.
  rewrite <- app_assoc, rt_domain by exact Hd. cbn [obind]. rewrite take_app by exact Hl. reflexivity.
Qed.
Lemma len_domain d : (4 <= length (enc_domain d))%nat.
Proof. destruct d; unfold enc_domain; lenc. Qed.
Lemma len_wire w : (1 <= length (enc_wire w))%nat.
Proof. unfold enc_wire. rewrite app_length. pose proof (len_domain (wdom w)). lia. Qed.
Lemma rt_wires : reads_back wires_ok enc_wires dec_wires.
Proof. apply rt_vec; [exact rt_wire|exact len_wire]. Qed.

Lemma rt_proj k rest : kind_ok (GProj k) -> dec_proj (enc_proj k ++ rest) = Ok (k, rest).
Proof.
  destruct k; cbn [kind_ok]; intros H; unfold enc_proj, dec_proj; rewrite <- app_assoc;
    (rewrite rt_tag by lia); cbn [obind N.eqb Pos.eqb]; now rewrite rt_u16.
Qed.
Lemma rt_kind : reads_back kind_ok enc_kind dec_kind.
Proof.
  intros [ |c|k| ] rest H; unfold enc_kind, dec_kind; rewrite <- ?app_assoc;
    (rewrite rt_tag by lia); cbn [obind N.eqb Pos.eqb]; auto.
  - now rewrite rt_u16.
  - now rewrite rt_proj.
Qed.
Lemma rt_gate : reads_back gate_ok enc_gate dec_gate.
Proof.
  intros [o d i k] rest (Ho & Hd & Hi & Hk). unfold enc_gate, dec_gate; cbn [g_output g_domain g_inputs g_kind] in *.
  rewrite <- !app_assoc. rewrite rt_usize by exact Ho. cbn [obind].
  rewrite rt_u16 by exact Hd. cbn [obind].
  rewrite (rt_vec usize_ok) by (exact rt_usize || exact Hi || lenc). cbn [obind].
  now rewrite rt_kind.
Qed.
Lemma len_gate g : (1 <= length (enc_gate g))%nat.
Proof. unfold enc_gate. rewrite !app_length, len_usize. lia. Qed.
Lemma rt_circuit : reads_back circuit_ok enc_circuit dec_circuit.
Proof.
  intros [w i o g d] rest (Hw & Hi & Ho & Hg & Hd). unfold enc_circuit, dec_circuit; cbn [num_wires num_inputs num_outputs gates input_domains] in *.
  rewrite <- !app_assoc. rewrite rt_usize by exact Hw. cbn [obind].
  rewrite rt_usize by exact Hi. cbn [obind]. rewrite rt_usize by exact Ho. cbn [obind].
  rewrite (rt_vec gate_ok) by (exact rt_gate || exact Hg || exact len_gate). cbn [obind].
  rewrite (rt_vec u16_ok) by (exact rt_u16 || exact Hd || lenc). reflexivity.
Qed.

(** Maps. *)
Lemma rt_entry {V} (ok : V -> Prop) e d : reads_back ok e d ->
  reads_back (fun kv : nat * V => usize_ok (fst kv) /\ ok (snd kv)) (enc_entry e) (dec_entry d).
Proof.
  intros R [k v] rest [Hk Hv]. unfold enc_entry, dec_entry; cbn [fst snd] in *.
  rewrite <- app_assoc, rt_usize by exact Hk. cbn [obind]. now rewrite R.
Qed.

Definition build {V} (es : list (nat * V)) : list (nat * V) :=
  fold_left (fun m kv => ainsert Nat.eqb (fst kv) (snd kv) m) es [].

Lemma alookup_notin {V} k (m : list (nat * V)) : ~ In k (map fst m) -> alookup Nat.eqb k m = None.
Proof.
  induction m as [|[k' v] m IH]; cbn; auto. intros H.
  destruct (Nat.eqb_spec k k') as [->|]; [exfalso; auto|auto].
Qed.
Lemma build_lookup {V} (es : list (nat * V)) : NoDup (map fst es) -> same_map (build es) es.
Proof.
  unfold build. intros ND k.
  assert (G : forall es m : list (nat * V), NoDup (map fst es) ->
    alookup Nat.eqb k (fold_left (fun m kv => ainsert Nat.eqb (fst kv) (snd kv) m) es m) =
    match alookup Nat.eqb k es with Some v => Some v | None => alookup Nat.eqb k m end).
  { clear. induction es as [|[k' v] es IH]; intros m H; cbn [fold_left alookup]; auto.
    cbn in H. inversion H as [|? ? Hn Hd]; subst. rewrite (IH _ Hd). cbn [fst snd].
    destruct (Nat.eqb_spec k k') as [->|N].
    - rewrite (alookup_notin _ _ Hn). apply alookup_ainsert_same, Nat.eqb_refl.
    - destruct (alookup Nat.eqb k es); auto. apply alookup_ainsert_other; auto. intros; apply Nat.eqb_eq. }
  rewrite (G es [] ND). now destruct (alookup Nat.eqb k es).
Qed.

Lemma rt_map {V} (ok : V -> Prop) e d m rest : reads_back ok e d -> map_ok ok m ->
  exists m', dec_map d (enc_map e m ++ rest) = Ok (m', rest) /\ same_map m' m.
Proof.
  intros R [Hm ND]. unfold dec_map, enc_map.
  rewrite (rt_vec (fun kv => usize_ok (fst kv) /\ ok (snd kv))); [|now apply rt_entry| |exact Hm].
  - cbn. eexists; split; [reflexivity|]. now apply (build_lookup m).
  - intros [k v]. unfold enc_entry. rewrite app_length, len_usize. lia.
Qed.

Lemma rt_wire2 : reads_back (fun w : wire * wire => wire_ok (fst w) /\ wire_ok (snd w)) enc_wire2 dec_wire2.
Proof.
  intros [a b] rest [Ha Hb]. unfold enc_wire2, dec_wire2; cbn [fst snd] in *.
  rewrite <- app_assoc, rt_wire by exact Ha. cbn [obind]. rewrite rt_wire by exact Hb. reflexivity.
Qed.

Lemma rt_garbled g rest : garbled_ok g ->
  exists g', dec_garbled (enc_garbled g ++ rest) = Ok (g', rest) /\ same_garbled g' g.
Proof.
  destruct g as [c f h]. intros (Hc & Hf & Hh). unfold enc_garbled, dec_garbled; cbn [gc_circuit gc_f gc_half] in *.
  rewrite <- !app_assoc. rewrite rt_circuit by exact Hc. cbn [obind].
  destruct (rt_map wires_ok enc_wires dec_wires f (enc_map enc_wire2 h ++ rest) rt_wires Hf) as (f' & -> & Sf).
  cbn [obind].
  destruct (rt_map _ enc_wire2 dec_wire2 h rest rt_wire2 Hh) as (h' & -> & Sh). cbn [obind].
  eexists; split; [reflexivity|]. repeat split; auto.
Qed.

Lemma alookup_in {V} (m : list (nat * V)) : NoDup (map fst m) ->
  forall k v, alookup Nat.eqb k m = Some v <-> In (k, v) m.
Proof.
  induction m as [|[k' v'] m IH]; cbn; intros ND k v; [split; [discriminate|tauto]|].
  inversion ND as [|? ? Hn Hd]; subst.
  destruct (Nat.eqb_spec k k') as [->|N].
  - split; [intros [= ->]; auto|]. intros [[= ->]|I]; auto. exfalso. apply Hn. now apply (in_map fst) in I.
  - rewrite (IH Hd). split; [auto|]. intros [[= -> ->]|I]; auto. congruence.
Qed.
Lemma perm_same_map {V} (m m' : list (nat * V)) : NoDup (map fst m) -> Permutation m m' -> same_map m m'.
Proof.
  intros ND P k. pose proof (Permutation_NoDup (Permutation_map fst P) ND) as ND'.
  destruct (alookup Nat.eqb k m) as [v|] eqn:E.
  - symmetry. apply (alookup_in m' ND'). eapply Permutation_in; [exact P|]. now apply (alookup_in m ND).
  - destruct (alookup Nat.eqb k m') as [v|] eqn:E'; auto.
    apply (alookup_in m' ND') in E'. apply Permutation_sym in P.
    apply (Permutation_in _ P) in E'. apply (alookup_in m ND) in E'. congruence.
Qed.
Lemma perm_map_ok {V} (P : V -> Prop) m m' : Permutation m m' -> map_ok P m -> map_ok P m'.
Proof.
  intros HP [[L F] ND]. repeat split.
  - unfold usize_ok. now rewrite <- (Permutation_length HP).
  - eapply Permutation_Forall; eauto.
  - eapply Permutation_NoDup; [apply Permutation_map; exact HP|exact ND].
Qed.

(** [HashMap] iteration order: any enumeration of the two maps. *)
Definition reordered (g g' : garbled) : Prop :=
  gc_circuit g = gc_circuit g' /\ Permutation (gc_f g) (gc_f g') /\ Permutation (gc_half g) (gc_half g').
Lemma rt_garbled_any_order g g' rest : garbled_ok g -> reordered g g' ->
  exists g2, dec_garbled (enc_garbled g' ++ rest) = Ok (g2, rest) /\ same_garbled g2 g.
Proof.
  intros (Hc & Hf & Hh) (Ec & Pf & Ph).
  destruct (rt_garbled g' rest) as (g2 & E & Sc & Sf & Sh).
  - repeat split; try (rewrite <- Ec; apply Hc).
    all: try (apply (perm_map_ok _ _ _ Pf Hf)). all: apply (perm_map_ok _ _ _ Ph Hh).
  - exists g2; split; [exact E|]. split; [congruence|]. split; intros k.
    + rewrite Sf. symmetry. apply perm_same_map; [apply Hf|exact Pf].
    + rewrite Sh. symmetry. apply perm_same_map; [apply Hh|exact Ph].
Qed.

Lemma split32_concat ps : Forall (fun q => length q = 32%nat) ps ->
  split32 (length ps) (concat ps) = ps.
Proof.
  induction 1 as [|q ps H _ IH]; cbn [split32 concat length]; auto.
  rewrite firstn_app, skipn_app, H, Nat.sub_diag, app_nil_r.
  rewrite firstn_all2 by lia. rewrite skipn_all2 by lia. cbn [app skipn]. now rewrite IH.
Qed.
Lemma rt_public ps rest : Forall (fun q => length q = 32%nat /\ bytes_ok q) ps ->
  N.of_nat (32 * length ps) < 2 ^ 64 ->
  dec_public (enc_public ps ++ rest) = Ok (ps, rest).
Proof.
  intros H L.
  assert (Hl : length (concat ps) = (32 * length ps)%nat).
  { clear L. induction H as [|q ps [E _] _ IH]; cbn [concat length]; auto. rewrite app_length, IH. lia. }
  assert (Ho : bytes_ok (concat ps)).
  { clear L Hl. induction H as [|q ps [_ E] _ IH]; cbn [concat]; [constructor|]. apply Forall_app; auto. }
  unfold dec_public, enc_public. rewrite rt_bytes.
  - cbn [obind]. rewrite Hl. replace (32 * length ps / 32)%nat with (length ps).
    + rewrite split32_concat; auto. eapply Forall_impl; [|exact H]. now intros q [].
    + rewrite Nat.mul_comm. symmetry. apply Nat.div_mul. lia.
  - split; [unfold usize_ok; now rewrite Hl|exact Ho].
Qed.

(** A decoder either succeeds or reports a decoding error. *)
Definition total_parser {A} (d : parser A) : Prop :=
  forall l, (exists a t, d l = Ok (a, t) /\ (length t <= length l)%nat) \/ d l = Err EBincode.
Lemma tp_take n : total_parser (take n).
Proof.
  induction n as [|n IH]; intros l; cbn; [left; eauto|].
  destruct l as [|b l]; [auto|]. destruct (IH l) as [(a & t & -> & L)| ->]; cbn; auto.
  left. repeat eexists. cbn; lia.
Qed.
Lemma tp_bind {A B} (d : parser A) (f : A -> parser B) :
  total_parser d -> (forall a, total_parser (f a)) ->
  total_parser (fun l => let* (a, t) := d l in f a t).
Proof.
  intros Hd Hf l. destruct (Hd l) as [(a & t & -> & L)| ->]; cbn; auto.
  destruct (Hf a t) as [(b & t' & -> & L')| ->]; auto. left. repeat eexists. lia.
Qed.
Lemma tp_ret {A} (a : A) : total_parser (fun l => Ok (a, l)).
Proof. intros l. left; eauto. Qed.
Lemma tp_err {A} : total_parser (fun l : bytes => Err EBincode : outcome (A * bytes)).
Proof. intros l; now right. Qed.
Lemma tp_uint k : total_parser (dec_uint k).
Proof. apply (tp_bind (take k)); [apply tp_take|]. intros a; apply tp_ret. Qed.
Lemma tp_usize : total_parser dec_usize.
Proof. apply (tp_bind (dec_uint 8)); [apply tp_uint|]. intros a; apply tp_ret. Qed.
Lemma tp_many {A} (d : parser A) n : total_parser d -> total_parser (dec_many d n).
Proof.
  intros Hd; induction n as [|n IH]; [apply tp_ret|].
  apply (tp_bind d (fun a l1 => let* (r, l2) := dec_many d n l1 in Ok (a :: r, l2))); [exact Hd|].
  intros a. apply (tp_bind (dec_many d n)); [exact IH|]. intros; apply tp_ret.
Qed.
Lemma tp_vec {A} (d : parser A) : total_parser d -> total_parser (dec_vec d).
Proof.
  intros Hd. apply (tp_bind (dec_uint 8) (fun n l1 => if N.of_nat (length l1) <? n then Err EBincode else dec_many d (N.to_nat n) l1)).
  - apply tp_uint.
  - intros n l. destruct (_ <? _); [now right|]. now apply tp_many.
Qed.
Lemma tp_bytes : total_parser dec_bytes.
Proof. apply tp_vec, tp_uint. Qed.
Lemma tp_rows : total_parser dec_rows.
Proof. apply tp_vec, tp_bytes. Qed.
Lemma tp_props : total_parser dec_props.
Proof.
  apply (tp_bind dec_usize (fun n l1 => let* (s, l2) := dec_string l1 in Ok (mkProps n s, l2))); [apply tp_usize|].
  intros n. apply (tp_bind dec_string).
  - apply (tp_bind dec_bytes (fun s t => if utf8 s then Ok (s, t) else Err EBincode)); [apply tp_bytes|].
    intros s l. destruct (utf8 s); [apply tp_ret|now right].
  - intros; apply tp_ret.
Qed.
Lemma tp_payload : total_parser dec_payload.
Proof.
  apply tp_vec. apply (tp_bind dec_bytes (fun a l1 => let* (b, l2) := dec_bytes l1 in Ok ((a, b), l2))); [apply tp_bytes|].
  intros a. apply (tp_bind dec_bytes); [apply tp_bytes|]. intros; apply tp_ret.
Qed.
Lemma tp_domain : total_parser dec_domain.
Proof.
  unfold dec_domain. apply (tp_bind dec_tag); [apply tp_uint|]. intros t.
  repeat match goal with |- total_parser (fun l => if ?b then _ else _) => destruct b end;
    try apply tp_ret; try apply tp_err.
  - apply (tp_bind dec_u8); [apply tp_uint|intros; apply tp_ret].
  - apply (tp_bind dec_u16); [apply tp_uint|intros; apply tp_ret].
Qed.
Lemma tp_wire : total_parser dec_wire.
Proof.
  apply (tp_bind dec_domain (fun d l1 => let* (v, l2) := take 32 l1 in Ok (mkWire d v, l2))); [apply tp_domain|].
  intros d. apply (tp_bind (take 32)); [apply tp_take|intros; apply tp_ret].
Qed.
Lemma tp_wires : total_parser dec_wires.
Proof. apply tp_vec, tp_wire. Qed.
Lemma tp_proj : total_parser dec_proj.
Proof.
  unfold dec_proj. apply (tp_bind dec_tag); [apply tp_uint|]. intros t.
  repeat match goal with |- total_parser (fun l => if ?b then _ else _) => destruct b end;
    try apply tp_err; (apply (tp_bind dec_u16); [apply tp_uint|intros; apply tp_ret]).
Qed.
Lemma tp_kind : total_parser dec_kind.
Proof.
  unfold dec_kind. apply (tp_bind dec_tag); [apply tp_uint|]. intros t.
  repeat match goal with |- total_parser (fun l => if ?b then _ else _) => destruct b end;
    try apply tp_ret; try apply tp_err.
  - apply (tp_bind dec_u16); [apply tp_uint|intros; apply tp_ret].
  - apply (tp_bind dec_proj); [apply tp_proj|intros; apply tp_ret].
Qed.
Lemma tp_gate : total_parser dec_gate.
Proof.
  unfold dec_gate. apply (tp_bind dec_usize); [apply tp_usize|intros o].
  apply (tp_bind dec_u16); [apply tp_uint|intros d].
  apply (tp_bind (dec_vec dec_usize)); [apply tp_vec, tp_usize|intros i].
  apply (tp_bind dec_kind); [apply tp_kind|intros; apply tp_ret].
Qed.
Lemma tp_circuit : total_parser dec_circuit.
Proof.
  unfold dec_circuit. do 3 (apply (tp_bind dec_usize); [apply tp_usize|intro]).
  apply (tp_bind (dec_vec dec_gate)); [apply tp_vec, tp_gate|intros].
  apply (tp_bind (dec_vec dec_u16)); [apply tp_vec, tp_uint|intros; apply tp_ret].
Qed.
Lemma tp_map {V} (d : parser V) : total_parser d -> total_parser (dec_map d).
Proof.
  intros H. unfold dec_map. apply (tp_bind (dec_vec (dec_entry d))); [|intros; apply tp_ret].
  apply tp_vec. unfold dec_entry. apply (tp_bind dec_usize); [apply tp_usize|intros k].
  apply (tp_bind d); [exact H|intros; apply tp_ret].
Qed.
Lemma tp_garbled : total_parser dec_garbled.
Proof.
  unfold dec_garbled. apply (tp_bind dec_circuit); [apply tp_circuit|intros c].
  apply (tp_bind (dec_map dec_wires)); [apply tp_map, tp_wires|intros f].
  apply (tp_bind (dec_map dec_wire2)); [|intros; apply tp_ret].
  apply tp_map. unfold dec_wire2. apply (tp_bind dec_wire); [apply tp_wire|intros a].
  apply (tp_bind dec_wire); [apply tp_wire|intros; apply tp_ret].
Qed.
Lemma deserialize_total {A} (d : parser A) m : total_parser d ->
  (exists a, deserialize d m = Ok a) \/ deserialize d m = Err EBincode.
Proof.
  intros H. unfold deserialize. destruct (H m) as [(a & t & -> & _)| ->]; cbn; eauto.
Qed.
Lemma deserialize_reads {A} ok e (d : parser A) a : reads_back ok e d -> ok a -> deserialize d (e a) = Ok a.
Proof. intros R H. unfold deserialize. rewrite <- (app_nil_r (e a)), (R a [] H). reflexivity. Qed.
