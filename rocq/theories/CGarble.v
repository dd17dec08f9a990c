(** Properties C18-C23 and C63: garbling. *)
From Coq Require Import List NArith Bool Arith Lia.
From Verif Require Import Base MUtil MWires MCircuit MGarble SpecWires SpecCircuit SpecGarble PBase PWires PWiresSpec PGarble PGarbleSpec PBinKey CCircuit.
Import ListNotations.
Open Scope N_scope.

(** C18: garble, encode, evaluate succeed; the labels are the genuine labels of the true values; both
    decoders return the circuit outputs, unless for some output wire the digest of the label presented,
    taken for a wrong value k, equals the digest of the genuine label for k. *)
Theorem C18_garbled_evaluation : forall sha256 p rd ri c x,
  hash32 sha256 -> good_samples c rd ri -> wf_circuit c -> wf_inputs c x ->
  exists gc ek dk s xs zs,
    garble sha256 p rd ri c = Ok (gc, ek, dk) /\ garble_run sha256 p rd ri c = Ok (ek, first_output c, s) /\
    encode p ek x = Ok xs /\ evaluate sha256 p gc xs = Ok zs /\
    length xs = num_inputs c /\ length zs = num_outputs c /\
    (forall i, (i < num_inputs c)%nat -> genuine c rd (gs_wires s) i (nth i x 0) (nth i xs wire_empty)) /\
    (forall j, (j < num_outputs c)%nat ->
       genuine c rd (gs_wires s) (first_output c + j) (nth j (circuit_outputs c x) 0) (nth j zs wire_empty)) /\
    ((decode sha256 dk zs = Ok (circuit_outputs c x) /\ dk_decode sha256 dk zs = Ok (circuit_outputs c x)) \/
     exists j k l, (j < num_outputs c)%nat /\ k < modulus c (first_output c + j) /\ k <> nth j (circuit_outputs c x) 0 /\
       genuine c rd (gs_wires s) (first_output c + j) k l /\
       clash sha256 (dec_string (first_output c + j) k (nth j zs wire_empty)) (dec_string (first_output c + j) k l)).
Proof. intros. eapply garbled_correct; eauto. Qed.

(** A circuit with every kind of gate, meeting the hypotheses. *)
Definition demo : circuit := mkCircuit 7 3 2
  [mkGate 3 2 [0;1]%nat GAnd; mkGate 4 2 [3]%nat (GProj (PMap 5)); mkGate 5 5 [2;4]%nat GAdd; mkGate 6 5 [5]%nat (GMul 3)]
  [2;2;5].
Definition demo_rd (m : N) : bytes := if m =? 2 then repeat 7 32 else repeat 0 32.
Definition demo_ri (i : nat) : bytes := if Nat.eqb i 2 then repeat 4 32 else repeat (N.of_nat i + 20) 32.
Lemma zeros_label m : supported m -> label m (mkWire (dom_of m) (repeat 0 32)).
Proof.
  intros Hs. apply label_WF; auto. split; auto. split; auto. split. { repeat constructor. }
  assert (Hl : 0 < lim m) by (unfold lim; destruct (m =? 2); [lia|]; unfold supported in Hs; lia).
  unfold digits_ok, dg, ndigits. destruct (wide m); (split; [reflexivity|]); cbn; repeat constructor; auto.
Qed.
Lemma demo_rd_ok m : supported m -> valid_sample m (demo_rd m).
Proof.
  intros Hs d Hd. rewrite (domain_new_supported m Hs) in Hd. inversion Hd; subst d. unfold demo_rd.
  destruct (N.eqb_spec m 2); [subst|apply zeros_label; auto].
  split; [reflexivity|]. split; [reflexivity|]. split; [repeat constructor|]. congruence.
Qed.
Lemma demo_samples : good_samples demo demo_rd demo_ri.
Proof.
  split. { exact demo_rd_ok. }
  intros [|[|[|i]]] m Hm; cbn in Hm; [| | |destruct i; discriminate]; inversion Hm; subst m;
    intros d Hd; inversion Hd; subst d; (split; [reflexivity|]); (split; [reflexivity|]); (split; [repeat constructor|]); intros Hne; try congruence.
  intros i Hi. unfold ndigits, wide in Hi. cbn in Hi. unfold digit, wide. cbn -[nth repeat].
  unfold demo_ri. cbn [Nat.eqb wval]. rewrite PCircuit.nth_repeat_lt by auto. lia.
Qed.
Lemma demo_wf : wf_circuit demo.
Proof.
  constructor; try reflexivity; cbn.
  - lia.
  - intros [|[|[|[|k]]]] g Hg; cbn in Hg; [| | | |destruct k; discriminate]; inversion Hg; subst g; cbn;
      (split; [reflexivity|]); (split; [repeat constructor|]); (split; [|left; lia]).
    + exists 0%nat, 1%nat, []; auto.
    + exists 3%nat, []. repeat split; auto. left; cbn; lia.
    + split; [discriminate|]. intros i [<-|[<-|[]]]; reflexivity.
    + exists 5%nat, []. repeat split; auto.
  - repeat (apply Forall_cons; [left; lia|]); apply Forall_nil.
  - intros m [<-|[<-|[<-|[]]]].
    + eexists; split; [left; reflexivity|]; auto.
    + eexists; split; [left; reflexivity|]; auto.
    + eexists; split; [right; right; left; reflexivity|]; auto.
Qed.
Lemma demo_inputs : wf_inputs demo [1;1;3].
Proof. split; auto. intros [|[|[|i]]] Hi; cbn in *; try reflexivity; lia. Qed.
Example C18_case : hash32 toy /\ good_samples demo demo_rd demo_ri /\ wf_circuit demo /\ wf_inputs demo [1;1;3] /\
  circuit_outputs demo [1;1;3] = [4; 2] /\
  exists gc ek dk xs zs, garble toy Debug demo_rd demo_ri demo = Ok (gc, ek, dk) /\
    encode Debug ek [1;1;3] = Ok xs /\ evaluate toy Debug gc xs = Ok zs /\ decode toy dk zs = Ok [4; 2].
Proof.
  split; [exact toy_hash32|]. split; [exact demo_samples|]. split; [exact demo_wf|]. split; [exact demo_inputs|].
  split; [reflexivity|]. do 5 eexists. split; [vm_compute; reflexivity|]. split; [vm_compute; reflexivity|].
  split; vm_compute; reflexivity.
Qed.
Print Assumptions C18_garbled_evaluation.

(** C19 is false: modulus 200 is accepted, every sample is in range, but the honest run of a single
    addition is answered with a decode error. *)
Definition c19 : circuit := mkCircuit 3 2 1 [mkGate 2 200 [0;1]%nat GAdd] [200;200].
Theorem C19_every_modulus_refuted :
  (exists d, domain_new 200 = Ok d) /\ hash32 toy /\
  (* randomness in range *)
  valid_sample 200 (repeat 90 32) /\
  (* the outputs are 3 *)
  circuit_outputs c19 [1;2] = [3] /\
  forall p, exists gc ek dk xs zs,
    garble toy p (fun _ => repeat 90 32) (fun _ => repeat 90 32) c19 = Ok (gc, ek, dk) /\
    encode p ek [1;2] = Ok xs /\ evaluate toy p gc xs = Ok zs /\ decode toy dk zs = Err EDecode.
Proof.
  split; [eexists; reflexivity|]. split; [exact toy_hash32|]. split.
  { intros d Hd. inversion Hd; subst d. split; [reflexivity|]. split; [reflexivity|]. split; [repeat constructor|].
    intros _ i Hi. unfold ndigits, wide in Hi. cbn in Hi. unfold digit, wide. cbn -[nth repeat].
    rewrite PCircuit.nth_repeat_lt by auto. lia. }
  split; [reflexivity|].
  intros [|]; do 5 eexists; (split; [vm_compute; reflexivity|]); (split; [vm_compute; reflexivity|]);
    split; vm_compute; reflexivity.
Qed.
Print Assumptions C19_every_modulus_refuted.

(** C20: whatever label vector is presented, an accepted label carries the bytes of the garbler's label
    for the returned value, or the two hashed strings collide; with the right domain tags every other
    answer is DecodeError (no panic). *)
Theorem C20_decode_genuine : forall sha256 p rd ri c,
  hash32 sha256 -> good_samples c rd ri -> wf_circuit c ->
  exists gc ek dk s,
  garble sha256 p rd ri c = Ok (gc, ek, dk) /\ garble_run sha256 p rd ri c = Ok (ek, first_output c, s) /\
  (forall z r, decode sha256 dk z = Ok r ->
    (length z <= num_outputs c)%nat /\ length r = num_outputs c /\
    forall j w, nth_error z j = Some w ->
      nth j r 0 < modulus c (first_output c + j) /\
      exists l, genuine c rd (gs_wires s) (first_output c + j) (nth j r 0) l /\
        (wval w = wval l \/
         clash sha256 (dec_string (first_output c + j) (nth j r 0) w) (dec_string (first_output c + j) (nth j r 0) l))) /\
  (forall z, (length z <= num_outputs c)%nat ->
     (forall j w, nth_error z j = Some w -> wire_domain w = modulus c (first_output c + j)) ->
     (exists r, decode sha256 dk z = Ok r) \/ decode sha256 dk z = Err EDecode).
Proof. intros. eapply decode_genuine; eauto. Qed.
(** The genuine label for a value is unique. *)
Theorem C20_genuine_unique : forall c rd zeros o k l1 l2, supported (modulus c o) ->
  genuine c rd zeros o k l1 -> genuine c rd zeros o k l2 -> l1 = l2.
Proof. exact genuine_unique. Qed.
Example C20_case : exists gc ek dk, garble toy Debug demo_rd demo_ri demo = Ok (gc, ek, dk) /\
  decode toy dk (repeat (mkWire (U8 5) (repeat 1 32)) 2) = Err EDecode.
Proof. do 3 eexists. split; vm_compute; reflexivity. Qed.
(** The tag condition is needed: a label tagged with a larger modulus makes decode panic. *)
Theorem C20_large_tag_panics : exists gc ek dk, garble toy Debug demo_rd demo_ri demo = Ok (gc, ek, dk) /\
  decode toy dk (repeat (mkWire (U8 9) (repeat 1 32)) 2) = Panic PIndex.
Proof. do 3 eexists. split; vm_compute; reflexivity. Qed.
Print Assumptions C20_decode_genuine.
Print Assumptions C20_genuine_unique.
Print Assumptions C20_large_tag_panics.

(** C21: the two decoders agree on full-length vectors, for every key (also a malformed one). *)
Theorem C21_decoders_agree : forall sha256 d z,
  length z = length (dk_hashes d) -> decode sha256 d z = dk_decode sha256 d z.
Proof. exact decoders_agree. Qed.
Example C21_case : let d := mkDK [[toy (dec_string 4 0 wire_empty); repeat 1 32]] 4 in
  length [wire_empty] = length (dk_hashes d) /\ decode toy d [wire_empty] = Ok [0].
Proof. split; vm_compute; reflexivity. Qed.
Print Assumptions C21_decoders_agree.

(** C63 is false: on a short vector the free function pads the result with zeros, so the evaluator's
    empty answer decodes to all-zero outputs; the method returns a short result. *)
Theorem C63_short_vector_refuted : forall sha256 d,
  decode sha256 d [] = Ok (repeat 0 (length (dk_hashes d))) /\ dk_decode sha256 d [] = Ok [].
Proof. intros. split; reflexivity. Qed.
Print Assumptions C63_short_vector_refuted.

(** C22: binary keys. *)
Theorem C22_binary_keys : forall p ws dl d bits,
  Forall (label 2) ws -> label 2 d -> alookup N.eqb 2 dl = Some d -> length bits = length ws ->
  exists bk, binary_of_ek p (mkEK ws dl) = Ok bk /\
    bk_zeros bk = ws /\
    bk_encode bk bits = encode p (mkEK ws dl) (bit_values bits) /\
    (exists z, zipped bk = Ok z /\ unzipped z = bk /\ length z = length ws) /\
    (ws <> [] -> exists ek', ek_of_binary p bk = Ok ek' /\ ek_wires ek' = ws /\
       alookup N.eqb 2 (ek_delta ek') = Some d /\
       encode p ek' (bit_values bits) = bk_encode bk bits /\ binary_of_ek p ek' = Ok bk) /\
    (ws = [] -> ek_of_binary p bk = Panic PIndex).
Proof.
  intros p ws dl d bits Hws Hd Hdl Hl.
  eexists. split. { apply (binary_of_ek_ok p ws dl d); auto. } cbn [bk_zeros bk_ones].
  split; auto. split. { apply (bk_encode_ok p ws dl d); auto. } split. { apply zipped_ok. } split.
  - intros Hne. destruct (ek_of_binary_ok p ws d Hws Hd Hne) as (dl' & E & E').
    exists (mkEK ws dl'). split; auto. split; auto. split; auto. split.
    + symmetry. apply (bk_encode_ok p ws dl' d); auto.
    + apply (binary_of_ek_ok p ws dl' d); auto.
  - intros ->. reflexivity.
Qed.
Example C22_case : let w := mkWire Binary (repeat 5 32) in let d := mkWire Binary (repeat 1 32) in
  label 2 w /\ label 2 d /\
  bk_encode (mkBK [w; w] [mkWire Binary (repeat 4 32); mkWire Binary (repeat 4 32)]) [true; false]
    = encode Debug (mkEK [w; w] [(2, d)]) [1; 0].
Proof.
  cbv zeta. split; [|split; [|reflexivity]]; (split; [reflexivity|]); (split; [reflexivity|]); (split; [repeat constructor|]); congruence.
Qed.
Print Assumptions C22_binary_keys.

(** C23 is false: for every well-formed circuit with an AND gate that reads the same input wire twice, and
    every randomness, an active label of colour 1 and the public table determine the offset. *)
Theorem C23_and_leak_refuted : forall sha256 p rd ri c x k g a l d,
  hash32 sha256 -> good_samples c rd ri -> wf_circuit c -> wf_inputs c x ->
  nth_error (gates c) k = Some g -> g_kind g = GAnd -> g_inputs g = a :: a :: l ->
  (a < num_inputs c)%nat -> wire_delta 2 (rd 2) = Ok d ->
  exists gc ek dk xs tg te,
    garble sha256 p rd ri c = Ok (gc, ek, dk) /\ encode p ek x = Ok xs /\
    alookup Nat.eqb (g_output g) (gc_half gc) = Some (tg, te) /\
    (color (nth a xs wire_empty) = 1 -> forall i, (i < 32)%nat ->
       N.lxor (nth i (wval (nth a xs wire_empty)) 0) (N.lxor (nth i (wval tg) 0) (nth i (wval te) 0)) = nth i (wval d) 0).
Proof. intros. eapply and_leak; eauto. Qed.
Definition c23 : circuit := mkCircuit 2 1 1 [mkGate 1 2 [0;0]%nat GAnd] [2].
Example C23_case : wf_circuit c23 /\ wf_inputs c23 [1] /\ good_samples c23 demo_rd (fun _ => repeat 20 32) /\
  exists gc ek dk xs, garble toy Debug demo_rd (fun _ => repeat 20 32) c23 = Ok (gc, ek, dk) /\
    encode Debug ek [1] = Ok xs /\ color (nth 0 xs wire_empty) = 1.
Proof.
  split.
  { constructor; try reflexivity; cbn; auto.
    - intros [|k] g Hg; cbn in Hg; [|destruct k; discriminate]; inversion Hg; subst g; cbn.
      split; auto. split; [repeat constructor|]. split; [|left; lia]. exists 0%nat, 0%nat, []; auto.
    - repeat (apply Forall_cons; [left; lia|]); apply Forall_nil.
    - intros m [<-|[]]. eexists; split; [left; reflexivity|]; auto. }
  split. { split; auto. intros [|i] Hi; cbn in *; try reflexivity; lia. }
  split. { split. exact demo_rd_ok. intros [|i] m Hm; cbn in Hm; [|destruct i; discriminate]; inversion Hm; subst m.
    intros d Hd. inversion Hd; subst d. split; [reflexivity|]. split; [reflexivity|]. split; [repeat constructor|]. congruence. }
  do 4 eexists. split; [vm_compute; reflexivity|]. split; vm_compute; reflexivity.
Qed.
Print Assumptions C23_and_leak_refuted.
