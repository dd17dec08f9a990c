(** Decoders accept only encodings. *)
From Coq Require Import List NArith Bool Lia Arith.
From Verif Require Import Base MUtil MWires MCircuit MGarble MBincode SpecBincode SpecCanon PBase PBincode.
Import ListNotations.
Open Scope N_scope.

Lemma bytes_split a b : bytes_ok (a ++ b) -> bytes_ok a /\ bytes_ok b.
Proof. intros H. now apply Forall_app in H. Qed.
Lemma value_bound l : bytes_ok l -> le_value l < 2 ^ (8 * N.of_nat (length l)).
Proof.
  induction 1 as [|b l Hb _ IH]; [reflexivity|]. cbn [le_value length]. rewrite Nat2N.inj_succ, N.mul_succ_r, N.pow_add_r.
  change (2 ^ 8) with 256. unfold byte_ok in Hb. lia.
Qed.
Lemma bytes_value l : bytes_ok l -> le_bytes (length l) (le_value l) = l.
Proof.
  induction 1 as [|b l Hb _ IH]; [reflexivity|]. cbn [length le_bytes le_value]. unfold byte_ok in Hb. f_equal.
  - rewrite N.mul_comm, N.mod_add by discriminate. now apply N.mod_small.
  - rewrite N.mul_comm, N.div_add by discriminate. rewrite N.div_small by exact Hb. exact IH.
Qed.
Lemma cn_uint k : canonical (fun n => n < 2 ^ (8 * N.of_nat k)) (enc_uint k) (dec_uint k).
Proof.
  intros l n rest Hl. unfold dec_uint, enc_uint. destruct (take k l) as [[h t]|e|r|] eqn:E; try discriminate. cbn. intros [= <- <-].
  destruct (take_inv _ _ _ _ E) as [-> L]. destruct (bytes_split _ _ Hl) as [Hh _]. rewrite <- L. split; [now apply value_bound|now rewrite bytes_value].
Qed.
Lemma cn_usize : canonical usize_ok enc_usize dec_usize.
Proof.
  intros l n rest Hl. unfold dec_usize, enc_usize. destruct (dec_uint 8 l) as [[m t]|e|r|] eqn:E; try discriminate. cbn [obind]. intros [= <- <-].
  destruct (cn_uint 8 _ _ _ Hl E) as [B ->]. unfold usize_ok. rewrite N2Nat.id. auto.
Qed.
Lemma cn_u8 : canonical byte_ok enc_u8 dec_u8. Proof. exact (cn_uint 1). Qed.
Lemma cn_u16 : canonical u16_ok enc_u16 dec_u16. Proof. exact (cn_uint 2). Qed.
Lemma cn_tag : canonical (fun t => t < 4294967296) enc_tag dec_tag. Proof. exact (cn_uint 4). Qed.

Lemma cn_bind {A B} (P : A -> Prop) e d (l : bytes) (f : A * bytes -> outcome (B * bytes)) b rest : canonical P e d -> bytes_ok l ->
  obind (d l) f = Ok (b, rest) -> exists a l', P a /\ l = e a ++ l' /\ bytes_ok l' /\ f (a, l') = Ok (b, rest).
Proof.
  intros C Hl H. destruct (d l) as [[a l']|e0|r|] eqn:E; try discriminate. destruct (C _ _ _ Hl E) as [Pa ->].
  exists a, l'. split; [exact Pa|]. split; [reflexivity|]. split; [now apply bytes_split in Hl|exact H].
Qed.
Lemma cn_many {A} (P : A -> Prop) e d n : canonical P e d -> forall l r rest, bytes_ok l -> dec_many d n l = Ok (r, rest) ->
  Forall P r /\ length r = n /\ l = flat_map e r ++ rest.
Proof.
  intros C. induction n as [|n IH]; intros l r rest Hl H; cbn [dec_many] in H.
  - injection H as <- <-. auto.
  - apply (cn_bind P e d) in H as (a & l1 & Pa & -> & Hl1 & H); auto.
    destruct (dec_many d n l1) as [[r' l2]|e0|q|] eqn:E; try discriminate. injection H as <- <-.
    destruct (IH _ _ _ Hl1 E) as (F & L & ->). cbn [length flat_map]. rewrite <- app_assoc. auto.
Qed.
Lemma cn_vec {A} (P : A -> Prop) e d : canonical P e d -> canonical (vec_ok P) (enc_vec e) (dec_vec d).
Proof.
  intros C l r rest Hl H. unfold dec_vec in H. apply (cn_bind _ _ _ _ _ _ _ (cn_uint 8)) in H as (n & l1 & Hn & -> & Hl1 & H); auto.
  destruct (N.ltb_spec (N.of_nat (length l1)) n); [discriminate|].
  destruct (cn_many P e d _ C _ _ _ Hl1 H) as (F & L & ->). unfold enc_vec, enc_usize, vec_ok, usize_ok.
  assert (E : N.of_nat (length r) = n) by (rewrite L; apply N2Nat.id). rewrite E, <- app_assoc. auto.
Qed.
Lemma cn_bytes : canonical blob_ok enc_bytes dec_bytes. Proof. apply cn_vec, cn_u8. Qed.
Lemma cn_rows : canonical rows_ok enc_rows dec_rows. Proof. apply cn_vec, cn_bytes. Qed.
Lemma cn_props : canonical props_ok enc_props dec_props.
Proof.
  intros l [n s] rest Hl H. unfold dec_props in H. apply (cn_bind _ _ _ _ _ _ _ cn_usize) in H as (m & l1 & Hm & -> & Hl1 & H); auto.
  unfold dec_string in H. destruct (dec_bytes l1) as [[s' l2]|e|r|] eqn:E; try discriminate. cbn [obind] in H.
  destruct (utf8 s') eqn:U; [|discriminate]. cbn [obind] in H. injection H as <- <- <-.
  destruct (cn_bytes _ _ _ Hl1 E) as [Hs ->]. unfold props_ok, enc_props. cbn [pr_size pr_protocol]. rewrite <- app_assoc. auto.
Qed.
Lemma cn_pair : canonical pair_ok enc_pair dec_pair.
Proof.
  intros l [x y] rest Hl H. unfold dec_pair in H. apply (cn_bind _ _ _ _ _ _ _ cn_bytes) in H as (a & l1 & Ha & -> & Hl1 & H); auto.
  apply (cn_bind _ _ _ _ _ _ _ cn_bytes) in H as (b & l2 & Hb & -> & Hl2 & H); auto. injection H as <- <- <-.
  unfold pair_ok, enc_pair. cbn [fst snd]. rewrite <- app_assoc. auto.
Qed.
Lemma cn_payload : canonical payload_ok enc_payload dec_payload. Proof. apply cn_vec, cn_pair. Qed.
Ltac tagged H := apply (cn_bind _ _ _ _ _ _ _ cn_tag) in H as (? & ? & _ & -> & ? & H); [|assumption];
  repeat match type of H with (if ?x =? ?k then _ else _) = _ => destruct (N.eqb_spec x k) as [->|] end; try discriminate.
Lemma cn_domain : canonical domain_ok enc_domain dec_domain.
Proof.
  intros l d rest Hl H. unfold dec_domain in H. tagged H.
  - injection H as <- <-. cbn; auto.
  - apply (cn_bind _ _ _ _ _ _ _ cn_u8) in H as (m & l2 & Hm & -> & _ & H); auto. injection H as <- <-. cbn [domain_ok enc_domain]. rewrite <- app_assoc. auto.
  - apply (cn_bind _ _ _ _ _ _ _ cn_u16) in H as (m & l2 & Hm & -> & _ & H); auto. injection H as <- <-. cbn [domain_ok enc_domain]. rewrite <- app_assoc. auto.
  - injection H as <- <-. cbn; auto.
  - injection H as <- <-. cbn; auto.
Qed.
Lemma cn_wire : canonical wire_ok enc_wire dec_wire.
Proof.
  intros l w rest Hl H. unfold dec_wire in H. apply (cn_bind _ _ _ _ _ _ _ cn_domain) in H as (d & l1 & Hd & -> & Hl1 & H); auto.
  destruct (take 32 l1) as [[v l2]|e|r|] eqn:E; try discriminate. injection H as <- <-. destruct (take_inv _ _ _ _ E) as [-> L].
  unfold wire_ok, enc_wire. cbn [wdom wval]. rewrite <- app_assoc. apply bytes_split in Hl1 as [Hv _]. auto.
Qed.
Lemma cn_wires : canonical wires_ok enc_wires dec_wires. Proof. apply cn_vec, cn_wire. Qed.
Lemma cn_proj : canonical (fun k => kind_ok (GProj k)) enc_proj dec_proj.
Proof.
  intros l d rest Hl H. unfold dec_proj in H. tagged H;
  (apply (cn_bind _ _ _ _ _ _ _ cn_u16) in H as (m & l2 & Hm & -> & _ & H); auto; injection H as <- <-; cbn [kind_ok enc_proj]; rewrite <- app_assoc; auto).
Qed.
Lemma cn_kind : canonical kind_ok enc_kind dec_kind.
Proof.
  intros l d rest Hl H. unfold dec_kind in H. tagged H.
  - injection H as <- <-. cbn; auto.
  - apply (cn_bind _ _ _ _ _ _ _ cn_u16) in H as (m & l2 & Hm & -> & _ & H); auto. injection H as <- <-. cbn [kind_ok enc_kind]. rewrite <- app_assoc. auto.
  - apply (cn_bind _ _ _ _ _ _ _ cn_proj) in H as (m & l2 & Hm & -> & _ & H); auto. injection H as <- <-. cbn [enc_kind]. rewrite <- app_assoc. auto.
  - injection H as <- <-. cbn; auto.
Qed.
Lemma cn_gate : canonical gate_ok enc_gate dec_gate.
Proof.
  intros l g rest Hl H. unfold dec_gate in H.
  apply (cn_bind _ _ _ _ _ _ _ cn_usize) in H as (o & l1 & Ho & -> & Hl1 & H); auto.
  apply (cn_bind _ _ _ _ _ _ _ cn_u16) in H as (d & l2 & Hd & -> & Hl2 & H); auto.
  apply (cn_bind _ _ _ _ _ _ _ (cn_vec _ _ _ cn_usize)) in H as (i & l3 & Hi & -> & Hl3 & H); auto.
  apply (cn_bind _ _ _ _ _ _ _ cn_kind) in H as (k & l4 & Hk & -> & Hl4 & H); auto. injection H as <- <-.
  unfold gate_ok, enc_gate. cbn [g_output g_domain g_inputs g_kind]. rewrite <- !app_assoc. auto.
Qed.
Lemma cn_circuit : canonical circuit_ok enc_circuit dec_circuit.
Proof.
  intros l c rest Hl H. unfold dec_circuit in H.
  apply (cn_bind _ _ _ _ _ _ _ cn_usize) in H as (w & l1 & Hw & -> & Hl1 & H); auto.
  apply (cn_bind _ _ _ _ _ _ _ cn_usize) in H as (i & l2 & Hi & -> & Hl2 & H); auto.
  apply (cn_bind _ _ _ _ _ _ _ cn_usize) in H as (o & l3 & Ho & -> & Hl3 & H); auto.
  apply (cn_bind _ _ _ _ _ _ _ (cn_vec _ _ _ cn_gate)) in H as (g & l4 & Hg & -> & Hl4 & H); auto.
  apply (cn_bind _ _ _ _ _ _ _ (cn_vec _ _ _ cn_u16)) in H as (d & l5 & Hd & -> & Hl5 & H); auto. injection H as <- <-.
  unfold circuit_ok, enc_circuit. cbn [num_wires num_inputs num_outputs gates input_domains]. rewrite <- !app_assoc. auto 8.
Qed.
Lemma cn_wire2 : canonical (fun w => wire_ok (fst w) /\ wire_ok (snd w)) enc_wire2 dec_wire2.
Proof.
  intros l w rest Hl H. unfold dec_wire2 in H.
  apply (cn_bind _ _ _ _ _ _ _ cn_wire) in H as (a & l1 & Ha & -> & Hl1 & H); auto.
  apply (cn_bind _ _ _ _ _ _ _ cn_wire) in H as (b & l2 & Hb & -> & Hl2 & H); auto. injection H as <- <-.
  unfold enc_wire2. cbn [fst snd]. rewrite <- app_assoc. auto.
Qed.
Lemma cn_entry {V} (P : V -> Prop) e d : canonical P e d -> canonical (fun kv => usize_ok (fst kv) /\ P (snd kv)) (enc_entry e) (dec_entry d).
Proof.
  intros C l kv rest Hl H. unfold dec_entry in H.
  apply (cn_bind _ _ _ _ _ _ _ cn_usize) in H as (k & l1 & Hk & -> & Hl1 & H); auto.
  apply (cn_bind _ _ _ _ _ _ _ C) in H as (v & l2 & Hv & -> & Hl2 & H); auto. injection H as <- <-.
  unfold enc_entry. cbn [fst snd]. rewrite <- app_assoc. auto.
Qed.

(** Hash maps: the entries are inserted one by one, so the last one of a key stays. *)
Lemma fold_last {V} (es : list (nat * V)) : forall m k,
  alookup Nat.eqb k (fold_left (fun m kv => ainsert Nat.eqb (fst kv) (snd kv) m) es m) =
  match last_entry k es with Some v => Some v | None => alookup Nat.eqb k m end.
Proof.
  induction es as [|[k' v] es IH]; intros m k; [reflexivity|]. cbn [fold_left last_entry fst snd]. rewrite IH.
  destruct (last_entry k es); [reflexivity|]. destruct (Nat.eqb_spec k k') as [->|Hn].
  - apply alookup_ainsert_same, Nat.eqb_refl.
  - apply alookup_ainsert_other; auto. intros; apply Nat.eqb_eq.
Qed.
Lemma cn_map {V} (P : V -> Prop) e d l m rest : canonical P e d -> bytes_ok l -> dec_map d l = Ok (m, rest) ->
  exists es, vec_ok (fun kv => usize_ok (fst kv) /\ P (snd kv)) es /\ l = enc_map e es ++ rest /\
    (forall k, alookup Nat.eqb k m = last_entry k es) /\
    m = fold_left (fun m kv => ainsert Nat.eqb (fst kv) (snd kv) m) es [].
Proof.
  intros C Hl H. unfold dec_map in H. apply (cn_bind _ _ _ _ _ _ _ (cn_vec _ _ _ (cn_entry _ _ _ C))) in H as (es & l1 & He & -> & _ & H); auto.
  injection H as <- <-. exists es. split; [exact He|]. split; [reflexivity|]. split; [|reflexivity]. intros k. rewrite fold_last. now destruct (last_entry k es).
Qed.
Lemma cn_garbled l g rest : bytes_ok l -> dec_garbled l = Ok (g, rest) ->
  exists f h, circuit_ok (gc_circuit g) /\
    vec_ok (fun kv => usize_ok (fst kv) /\ wires_ok (snd kv)) f /\
    vec_ok (fun kv => usize_ok (fst kv) /\ wire_ok (fst (snd kv)) /\ wire_ok (snd (snd kv))) h /\
    l = enc_circuit (gc_circuit g) ++ enc_map enc_wires f ++ enc_map enc_wire2 h ++ rest /\
    (forall k, alookup Nat.eqb k (gc_f g) = last_entry k f) /\
    (forall k, alookup Nat.eqb k (gc_half g) = last_entry k h) /\
    gc_f g = fold_left (fun m kv => ainsert Nat.eqb (fst kv) (snd kv) m) f [] /\
    gc_half g = fold_left (fun m kv => ainsert Nat.eqb (fst kv) (snd kv) m) h [].
Proof.
  intros Hl H. unfold dec_garbled in H. apply (cn_bind _ _ _ _ _ _ _ cn_circuit) in H as (c & l1 & Hc & -> & Hl1 & H); auto.
  destruct (dec_map dec_wires l1) as [[f l2]|e|r|] eqn:E; try discriminate. cbn [obind] in H.
  destruct (cn_map _ _ _ _ _ _ cn_wires Hl1 E) as (fs & Hf & -> & Lf & Ff). apply bytes_split in Hl1 as [_ Hl2].
  destruct (dec_map dec_wire2 l2) as [[h l3]|e|r|] eqn:E2; try discriminate. cbn [obind] in H.
  destruct (cn_map _ _ _ _ _ _ cn_wire2 Hl2 E2) as (hs & Hh & -> & Lh & Fh). injection H as <- <-.
  exists fs, hs. cbn [gc_circuit gc_f gc_half]. auto 10.
Qed.
Lemma tail_of {A} (P : A -> Prop) e d : canonical P e d -> reads_back P e d -> ignores_tail d.
Proof. intros C R l a rest junk Hl H. destruct (C _ _ _ Hl H) as [Pa ->]. rewrite <- app_assoc. now apply R. Qed.
Lemma accepts_of {A} (P : A -> Prop) e d : canonical P e d -> reads_back P e d -> accepts P e d.
Proof.
  intros C R m a Hm. split.
  - destruct (d m) as [[a' rest]|e0|r|] eqn:E; try discriminate. cbn. intros [= <-]. destruct (C _ _ _ Hm E) as [Pa ->]. eauto.
  - intros [Pa [junk ->]]. now rewrite R.
Qed.
Lemma dec_map_app {V} (P : V -> Prop) e d es rest : reads_back P e d -> vec_ok (fun kv => usize_ok (fst kv) /\ P (snd kv)) es ->
  dec_map d (enc_map e es ++ rest) = Ok (fold_left (fun m kv => ainsert Nat.eqb (fst kv) (snd kv) m) es [], rest).
Proof.
  intros R H. unfold dec_map, enc_map. rewrite (rt_vec (fun kv => usize_ok (fst kv) /\ P (snd kv))); [reflexivity|now apply rt_entry| |exact H].
  intros [k v]. unfold enc_entry. rewrite app_length, len_usize. lia.
Qed.
Lemma dec_garbled_app c f h rest : circuit_ok c ->
  vec_ok (fun kv => usize_ok (fst kv) /\ wires_ok (snd kv)) f ->
  vec_ok (fun kv => usize_ok (fst kv) /\ wire_ok (fst (snd kv)) /\ wire_ok (snd (snd kv))) h ->
  dec_garbled (enc_circuit c ++ enc_map enc_wires f ++ enc_map enc_wire2 h ++ rest) =
    Ok (mkGC c (fold_left (fun m kv => ainsert Nat.eqb (fst kv) (snd kv) m) f []) (fold_left (fun m kv => ainsert Nat.eqb (fst kv) (snd kv) m) h []), rest).
Proof.
  intros Hc Hf Hh. unfold dec_garbled. rewrite rt_circuit by exact Hc. cbn [obind].
  rewrite (dec_map_app wires_ok enc_wires dec_wires f _ rt_wires Hf). cbn [obind].
  rewrite (dec_map_app _ enc_wire2 dec_wire2 h _ rt_wire2 Hh). reflexivity.
Qed.
Lemma tail_garbled : ignores_tail dec_garbled.
Proof.
  intros l g rest junk Hl H. destruct (cn_garbled _ _ _ Hl H) as (f & h & Hc & Hf & Hh & -> & _ & _ & Ef & Eh).
  rewrite <- !app_assoc, dec_garbled_app; auto. rewrite <- Ef, <- Eh. now destruct g.
Qed.
(** A second entry for a key that is already there. *)
Lemma twice_garbled c f h k x y junk : circuit_ok c ->
  vec_ok (fun kv => usize_ok (fst kv) /\ wires_ok (snd kv)) ((k, x) :: f) -> wires_ok y -> usize_ok (S (S (length f))) ->
  vec_ok (fun kv => usize_ok (fst kv) /\ wire_ok (fst (snd kv)) /\ wire_ok (snd (snd kv))) h ->
  exists g g', dec_garbled (enc_circuit c ++ enc_map enc_wires ((k, x) :: f) ++ enc_map enc_wire2 h ++ junk) = Ok (g, junk) /\
    dec_garbled (enc_circuit c ++ enc_map enc_wires ((k, y) :: (k, x) :: f) ++ enc_map enc_wire2 h ++ junk) = Ok (g', junk) /\ same_garbled g g'.
Proof.
  intros Hc Hf Hy L Hh. do 2 eexists. split; [now apply dec_garbled_app|].
  destruct Hf as [Lf Ff]. inversion Ff as [|? ? [Hk Hx] Ff']; subst. split; [apply dec_garbled_app; auto|].
  - split; [exact L|]. constructor; [split; assumption|]. constructor; [split; assumption|assumption].
  - split; [reflexivity|]. cbn [gc_f gc_half]. split; intros i; [|reflexivity]. rewrite !fold_last. cbn [last_entry alookup].
    destruct (last_entry i f); [reflexivity|]. now destruct (Nat.eqb i k).
Qed.
