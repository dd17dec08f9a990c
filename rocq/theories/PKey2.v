(** Programs whose frames do not depend on the hashes of strings of 42 bytes, and whose result is such a hash. *)
From Coq Require Import List NArith Bool Arith Lia.
From Verif Require Import Base MUtil MWires MCircuit MGarble MBincode MProc MMany MFpake PBase PProc PBincode SpecCircuit SpecOt SpecKey PKey.
Import ListNotations.
Open Scope N_scope.

Lemma feedr_peq {A} (p p' : proc A) : peq p p' -> forall ins, feedr p ins = feedr p' ins.
Proof.
  induction 1 as [| m k k' _ IH|k k' _ IH]; intros ins; cbn; auto.
  - now rewrite IH.
  - destruct ins; auto.
Qed.
Definition omap {A B} (f : A -> B) (o : outcome A) : outcome B := let* a := o in Ok (f a).

Lemma idx_omap {A B} (f : A -> B) l i : idx (map f l) i = omap f (idx l i).
Proof. unfold idx. rewrite nth_error_map. now destruct (nth_error l i). Qed.

Section Keyed.
Variable sha : bytes -> bytes.
Hypothesis Hs : hash32 sha.
Definition like (sha' : bytes -> bytes) : Prop := hash32 sha' /\ off42 sha sha'.
Lemma like_agrees sha' : like sha' -> agrees sha sha'.
Proof. intros [_ H] m Hm. apply H. lia. Qed.
Lemma short_sha : short32 sha.
Proof. intros m _. apply Hs. Qed.

(** An outcome that is a fixed one, up to the hashes of strings of 42 bytes in it. *)
Definition ko {S A} (mk : (bytes -> bytes) -> S -> A) (good : S -> Prop) (o : (bytes -> bytes) -> outcome A) : Prop :=
  exists r, oall good r /\ forall sha', like sha' -> o sha' = omap (mk sha') r.
Definition kp {S A} (mk : (bytes -> bytes) -> S -> A) (good : S -> Prop) (P : (bytes -> bytes) -> proc A) : Prop :=
  forall ins, exists r out rest, oall good r /\ forall sha', like sha' -> feedr (P sha') ins = (omap (mk sha') r, out, rest).
Definition is {A} (_ : bytes -> bytes) (a : A) : A := a.

Lemma ko_const {A} (good : A -> Prop) (o : outcome A) : oall good o -> ko is good (fun _ => o).
Proof. intros H. exists o. split; auto. intros sha' _. now destruct o. Qed.
Lemma kp_bind {S A T B} (mk : (bytes -> bytes) -> S -> A) good (mk' : (bytes -> bytes) -> T -> B) good' P F :
  kp mk good P -> (forall s, good s -> kp mk' good' (fun h => F h (mk h s))) -> kp mk' good' (fun h => pbind (P h) (F h)).
Proof.
  intros HP HF ins. destruct (HP ins) as (r & out & rest & Hr & E). destruct r as [s|e|q|]; cbn [oall] in Hr.
  - destruct (HF s Hr rest) as (r' & out' & rest' & Hr' & E'). exists r', (out ++ out'), rest'. split; auto.
    intros sha' L. rewrite feedr_bind, E by exact L. cbn [omap obind]. now rewrite E' by exact L.
  - exists (Err e), out, rest. split; [exact I|]. intros sha' L. now rewrite feedr_bind, E by exact L.
  - exists (Panic q), out, rest. split; [exact I|]. intros sha' L. now rewrite feedr_bind, E by exact L.
  - exists UB, out, rest. split; [exact I|]. intros sha' L. now rewrite feedr_bind, E by exact L.
Qed.
Lemma kp_lift {S A} (mk : (bytes -> bytes) -> S -> A) good o : ko mk good o -> kp mk good (fun h => lift (o h)).
Proof. intros (r & Hr & E) ins. exists r, [], ins. split; auto. intros sha' L. cbn. now rewrite E by exact L. Qed.
Lemma kp_ret {S A} (mk : (bytes -> bytes) -> S -> A) (good : S -> Prop) s : good s -> kp mk good (fun h => ret (mk h s)).
Proof. intros H ins. exists (Ok s), [], ins. split; auto. Qed.
Lemma kp_ignores {A} (P : (bytes -> bytes) -> proc A) : ignores42 P -> kp is (fun _ => True) P.
Proof.
  intros H ins. destruct (feedr (P sha) ins) as [[o out] rest] eqn:E. exists o, out, rest. split; [apply oall_True|].
  intros sha' [H1 H2]. rewrite (feedr_peq _ _ (H sha sha' Hs H1 H2)), E. now destruct o.
Qed.
Lemma kp_const {A} (P : proc A) : kp is (fun _ => True) (fun _ => P).
Proof. apply kp_ignores. intros h h' _ _ _. apply peq_refl. Qed.
Lemma kp_pure {A} (good : A -> Prop) (o : outcome A) : oall good o -> kp is good (fun _ => lift o).
Proof. intros H. apply (kp_lift is good (fun _ => o)). now apply ko_const. Qed.

(** ** Garbling *)
Definition ghost (m : bytes) : bytes := if Nat.eqb (length m) 42 then m else sha m.
Lemma ghost_short : short32 ghost.
Proof. intros m Hm. unfold ghost. destruct (Nat.eqb_spec (length m) 42); [lia|]. apply Hs. Qed.
Lemma ghost_agrees sha' : like sha' -> agrees ghost sha'.
Proof. intros [_ H] m Hm. unfold ghost. destruct (Nat.eqb_spec (length m) 42); [lia|]. apply H. lia. Qed.
Lemma map_ghost strs : Forall (Forall (fun x : bytes => length x = 42%nat)) strs -> map (map ghost) strs = strs.
Proof.
  induction 1 as [|l strs Hl _ IH]; cbn; [reflexivity|]. rewrite IH. f_equal. clear - Hl.
  induction Hl as [|x l Hx _ IH]; cbn; [reflexivity|]. rewrite IH. f_equal. unfold ghost. now rewrite Hx.
Qed.
Definition with_dk {E} (h : bytes -> bytes) (r : E * decoding_key) : E * decoding_key :=
  (fst r, mkDK (map (map h) (dk_hashes (snd r))) (dk_offset (snd r))).
Definition dk42 {E} (r : E * decoding_key) : Prop := Forall (Forall (fun x : bytes => length x = 42%nat)) (dk_hashes (snd r)).
Variable p : profile.
Variable g : garbling.
Hypothesis Hg : samples32 g.
Lemma ko_garble c : ko with_dk dk42 (fun h => garble h p (g_rd g) (g_ri g) c).
Proof.
  destruct Hg as [Hrd Hri]. exists (garble ghost p (g_rd g) (g_ri g) c). split.
  - pose proof (agree_garble ghost ghost p ghost_short (fun m _ => eq_refl) _ _ Hrd Hri c) as H.
    destruct (garble ghost p (g_rd g) (g_ri g) c) as [r| | |]; cbn; auto. cbn in H. destruct H as (_ & _ & strs & Hl & E & _).
    unfold dk42. rewrite E, map_ghost; auto.
  - intros sha' L. pose proof (agree_garble ghost sha' p ghost_short (ghost_agrees sha' L) _ _ Hrd Hri c) as H.
    destruct (garble ghost p (g_rd g) (g_ri g) c) as [r|e|q|], (garble sha' p (g_rd g) (g_ri g) c) as [r'|e'|q'|]; cbn in H; try contradiction; try (subst; reflexivity).
    destruct H as (E1 & E2 & strs & Hl & E3 & E4). cbn. f_equal. unfold with_dk. destruct r as [x [hs o]], r' as [x' [hs' o']].
    cbn in *. rewrite E1, E2, E4, E3, map_ghost; auto.
Qed.
Lemma ko_zipped c : ko with_dk dk42 (fun h => garble_zipped h p g c).
Proof.
  destruct (ko_garble c) as (r & Hr & E). unfold garble_zipped.
  exists (let* (gc, e, d) := r in let* bk := binary_of_ek p e in let* z := zipped bk in Ok (gc, z, d)). split.
  - destruct r as [[[gc e] d]| | |]; cbn; auto. destruct (binary_of_ek p e); cbn; auto. destruct (zipped a); cbn; auto.
  - intros sha' L. rewrite E by exact L. destruct r as [[[gc e] d]| | |]; cbn; auto. destruct (binary_of_ek p e); cbn; auto. destruct (zipped a); cbn; auto.
Qed.
Definition hashed (h : bytes -> bytes) (x : bytes) : bytes := h x.
Definition is42 (x : bytes) : Prop := length x = 42%nat.
Lemma ko_half (E : Type) (r : E * decoding_key) : dk42 r -> ko hashed is42 (fun h => garbler_half_key (snd (with_dk h r))).
Proof.
  intros H. exists (let* hs := idx (dk_hashes (snd r)) 0 in idx hs 1). split.
  - eapply oall_bind; [apply oall_idx; exact H|]. intros hs Hh. apply oall_idx, Hh.
  - intros sha' _. unfold garbler_half_key, with_dk. cbn [snd dk_hashes].
    rewrite idx_omap. destruct (idx (dk_hashes (snd r)) 0) as [hs| | |]; [|reflexivity..].
    cbn [omap obind]. apply idx_omap.
Qed.
Theorem kp_garbler (ot : (bytes -> bytes) -> list (bytes * bytes) -> proc unit) pw t : (forall ms, ignores42 (fun h => ot h ms)) ->
  kp hashed is42 (fun h => garbler h p g (ot h) pw t).
Proof.
  intros Hot. unfold garbler. cbv zeta.
  apply (kp_bind is (fun _ => True)); [apply kp_const|]. intros c _. unfold is.
  apply (kp_bind with_dk dk42); [apply kp_lift, ko_zipped|]. intros [[gc e] d] Hd. unfold with_dk at 1. cbn [fst snd].
  apply (kp_bind is (fun _ => True)); [apply kp_const|]. intros e_own _. unfold is.
  apply (kp_bind is (fun _ => True)); [apply kp_const|]. intros e_theirs _. unfold is.
  apply (kp_bind is (fun _ => True)); [apply kp_ignores, Hot|]. intros _ _.
  apply (kp_bind is (fun _ => True)); [apply kp_const|]. intros _ _.
  apply (kp_bind is (fun _ => True)); [apply kp_const|]. intros ep _. unfold is.
  apply (kp_bind is (fun _ => True)); [apply kp_const|]. intros _ _.
  apply kp_lift. exact (ko_half _ (gc, e, d) Hd).
Qed.

(** ** Evaluation *)
Lemma oall_to_array b : oall (fun b' => length b' = 32%nat) (to_array p b).
Proof.
  unfold to_array. eapply oall_bind; [apply oall_True|]. intros _ _. destruct (Nat.eqb_spec (length b) LENGTH) as [E|]; [exact E|exact I].
Qed.
Lemma oall_from_bytes b d : oall len32 (from_bytes p b d).
Proof. unfold from_bytes. destruct (Nat.eqb_spec (length b) LENGTH) as [E|]; [now apply len_from_array|exact I]. Qed.
Lemma oall_payload_to_encoding l n : oall (Forall len32) (payload_to_encoding p l n).
Proof. apply oall_mapM. intros i _. eapply oall_bind; [apply oall_True|]. intros b _. apply oall_from_bytes. Qed.
Lemma oall_bytes_to_encoding l n k : oall (Forall len32) (bytes_to_encoding p l n k).
Proof. apply oall_mapM. intros i _. eapply oall_bind; [apply oall_True|]. intros b _. apply oall_from_bytes. Qed.
Lemma ko_evaluate gc x : tables_len gc -> Forall len32 x -> ko is (Forall len32) (fun h => evaluate h p gc x).
Proof.
  intros Ht Hx. exists (evaluate sha p gc x). split.
  - pose proof (agree_evaluate sha sha p short_sha (fun _ _ => eq_refl) gc x Ht Hx) as H. now apply orel_same_eq in H.
  - intros sha' L. pose proof (agree_evaluate sha sha' p short_sha (like_agrees sha' L) gc x Ht Hx) as H.
    apply orel_same_eq in H. destruct H as [-> _]. now destruct (evaluate sha p gc x).
Qed.
Lemma ko_eval_half gc out : Forall len32 out -> ko hashed is42 (fun h => evaluator_half_key h p gc out).
Proof.
  intros H. exists (let* o := usub p 64 (N.of_nat (num_wires (gc_circuit gc))) 1 in let* w := idx out 0 in Ok (be_bytes 8 o ++ u16_be 1 ++ wval w)). split.
  - eapply oall_bind; [apply oall_True|]. intros o _. eapply oall_bind; [apply oall_idx; exact H|]. intros w Hw.
    cbn [oall]. unfold is42, u16_be. rewrite !app_length, !be_bytes_length, Hw. reflexivity.
  - intros sha' _. unfold evaluator_half_key. destruct (usub p 64 (N.of_nat (num_wires (gc_circuit gc))) 1); cbn [obind omap]; auto.
    now destruct (idx out 0).
Qed.
Lemma kp_recv : kp is (fun _ => True) (fun _ => recv).
Proof. apply kp_const. Qed.
Theorem kp_evaluator (ot : (bytes -> bytes) -> list bool -> proc (list bytes)) pw : (forall bs, ignores42 (fun h => ot h bs)) ->
  kp hashed is42 (fun h => evaluator h p (ot h) pw).
Proof.
  intros Hot. unfold evaluator.
  apply (kp_bind is (fun _ => True)); [apply kp_ignores, Hot|]. intros ep _. unfold is.
  apply (kp_bind is (Forall len32)).
  { apply kp_pure, oall_mapM. intros b _. eapply oall_bind; [apply oall_to_array|]. intros b' Hb. now apply len_from_array. }
  intros ours Ho. unfold is.
  apply (kp_bind is (fun _ => True)); [apply kp_recv|]. intros m _. unfold is.
  apply (kp_bind is tables_len); [apply kp_pure, oall_deserialize, pall_garbled|]. intros gc Hgc. unfold is.
  apply (kp_bind is (fun _ => True)); [apply kp_recv|]. intros m' _. unfold is.
  apply (kp_bind is (Forall len32)); [apply kp_pure, oall_deserialize, pall_vec, pall_wire|]. intros theirs Ht. unfold is.
  apply (kp_bind is (Forall len32)); [apply kp_lift, ko_evaluate; auto; now apply Forall_app|]. intros output Hout. unfold is.
  apply kp_lift, ko_eval_half, Hout.
Qed.

(** ** The programs *)
Definition combined (h : bytes -> bytes) (xy : bytes * bytes) : bytes := combine_keys (h (fst xy)) (h (snd xy)).
Definition both42 (xy : bytes * bytes) : Prop := is42 (fst xy) /\ is42 (snd xy).
Definition hashed_with {B} (h : bytes -> bytes) (xb : bytes * B) : bytes * B := (h (fst xb), snd xb).
Lemma kp_combine_any (S T : bytes -> Prop) P Q : kp hashed S P -> kp hashed T Q ->
  kp combined (fun xy => S (fst xy) /\ T (snd xy)) (fun h => let! k1 := P h in let! k2 := Q h in ret (combine_keys k1 k2)) /\
  kp combined (fun xy => T (fst xy) /\ S (snd xy)) (fun h => let! k2 := P h in let! k1 := Q h in ret (combine_keys k1 k2)).
Proof.
  intros HP HQ. split.
  - apply (kp_bind hashed S); [exact HP|]. intros x Hx. apply (kp_bind hashed T); [exact HQ|]. intros y Hy.
    exact (kp_ret combined (fun xy => S (fst xy) /\ T (snd xy)) (x, y) (conj Hx Hy)).
  - apply (kp_bind hashed S); [exact HP|]. intros x Hx. apply (kp_bind hashed T); [exact HQ|]. intros y Hy.
    exact (kp_ret combined (fun xy => T (fst xy) /\ S (snd xy)) (y, x) (conj Hy Hx)).
Qed.
Lemma kp_combine P Q : kp hashed is42 P -> kp hashed is42 Q ->
  kp combined both42 (fun h => let! k1 := P h in let! k2 := Q h in ret (combine_keys k1 k2)) /\
  kp combined both42 (fun h => let! k2 := P h in let! k1 := Q h in ret (combine_keys k1 k2)).
Proof. apply kp_combine_any. Qed.
Section Programs.
Variable ot_s ot_s2 : (bytes -> bytes) -> list (bytes * bytes) -> proc unit.
Variable ot_r ot_r2 : (bytes -> bytes) -> list bool -> proc (list bytes).
Variable many_s : (bytes -> bytes) -> nat -> list bytes -> proc unit.
Variable many_r : (bytes -> bytes) -> nat -> N -> proc bytes.
Hypothesis Hot_s : forall ms, ignores42 (fun h => ot_s h ms).
Hypothesis Hot_r : forall bs, ignores42 (fun h => ot_r h bs).
Hypothesis Hot_s2 : forall ms, ignores42 (fun h => ot_s2 h ms).
Hypothesis Hot_r2 : forall bs, ignores42 (fun h => ot_r2 h bs).
Hypothesis Hmany_s : forall d ms, ignores42 (fun h => many_s h d ms).
Hypothesis Hmany_r : forall d i, ignores42 (fun h => many_r h d i).
Lemma kp_server pw t : kp combined both42 (fun h => fpake_server h p g (ot_s h) (ot_r h) pw t).
Proof. apply kp_combine; [apply kp_garbler, Hot_s|apply kp_evaluator, Hot_r]. Qed.
Lemma kp_client pw t : kp combined both42 (fun h => fpake_client h p g (ot_s h) (ot_r h) pw t).
Proof. apply kp_combine; [apply kp_evaluator, Hot_r|apply kp_garbler, Hot_s]. Qed.
Lemma kp_many mask pws t : kp combined both42 (fun h => mfpake_many h p mask g (many_s h) (ot_s h) (ot_r h) pws t).
Proof.
  unfold mfpake_many. do 3 (apply (kp_bind is (fun _ => True)); [apply kp_const|]; intros ? _; unfold is).
  apply (kp_bind is (fun _ => True)); [apply kp_ignores, Hmany_s|]. intros _ _.
  apply kp_combine; [apply kp_garbler, Hot_s|apply kp_evaluator, Hot_r].
Qed.
Lemma kp_single pw i n t : kp combined both42 (fun h => mfpake_single h p g (many_r h) (ot_s h) (ot_r h) pw i n t).
Proof.
  unfold mfpake_single. apply (kp_bind is (fun _ => True)); [apply kp_const|]. intros d _. unfold is.
  apply (kp_bind is (fun _ => True)); [apply kp_ignores, Hmany_r|]. intros m _. unfold is.
  apply (kp_bind is (fun _ => True)); [apply kp_const|]. intros m' _. unfold is.
  apply kp_combine; [apply kp_evaluator, Hot_r|apply kp_garbler, Hot_s].
Qed.
Ltac step := apply (kp_bind is (fun _ => True)); [apply kp_const|]; intros ? _; unfold is.
Lemma kp_garbler_server_v3 mask pws t :
  kp hashed_with (fun xb => is42 (fst xb)) (fun h => garbler_server_v3 h p mask g (ot_s h) (many_s h) (ot_s2 h) pws t).
Proof.
  unfold garbler_server_v3. cbv zeta. do 2 step.
  apply (kp_bind with_dk dk42); [apply kp_lift, ko_zipped|]. intros [[gc e] d] Hd. unfold with_dk at 1. cbn [fst snd].
  do 2 step. apply (kp_bind is (fun _ => True)); [apply kp_ignores, Hot_s|]. intros _ _.
  do 4 step. apply (kp_bind is (fun _ => True)); [apply kp_ignores, Hmany_s|]. intros _ _.
  step. apply (kp_bind is (fun _ => True)); [apply kp_ignores, Hot_s2|]. intros _ _.
  apply (kp_bind hashed is42); [apply kp_lift; exact (ko_half _ (gc, e, d) Hd)|]. intros x Hx.
  exact (kp_ret hashed_with (fun xb => is42 (fst xb)) (x, mask) Hx).
Qed.
Lemma kp_evaluator_client_v3 pw n i :
  kp hashed_with (fun xb => is42 (fst xb)) (fun h => evaluator_client_v3 h p (ot_r h) (many_r h) (ot_r2 h) pw n i).
Proof.
  unfold evaluator_client_v3. cbv zeta. step.
  apply (kp_bind is tables_len); [apply kp_pure, oall_deserialize, pall_garbled|]. intros gc Hgc. unfold is.
  step. apply (kp_bind is (fun _ => True)); [apply kp_ignores, Hot_r|]. intros ce _. unfold is.
  do 2 step. apply (kp_bind is (fun _ => True)); [apply kp_ignores, Hmany_r|]. intros mp _. unfold is.
  step. apply (kp_bind is (fun _ => True)); [apply kp_ignores, Hot_r2|]. intros me _. unfold is.
  step. apply (kp_bind is (Forall len32)); [apply kp_pure, oall_payload_to_encoding|]. intros client Hc. unfold is.
  apply (kp_bind is (Forall len32)); [apply kp_pure, oall_bytes_to_encoding|]. intros msk Hm. unfold is.
  apply (kp_bind is (Forall len32)); [apply kp_pure, oall_payload_to_encoding|]. intros server Hsv. unfold is.
  apply (kp_bind is (Forall len32)); [apply kp_lift, ko_evaluate; auto; apply Forall_app; split; auto; now apply Forall_app|]. intros output Hout. unfold is.
  apply (kp_bind hashed is42); [apply kp_lift, ko_eval_half, Hout|]. intros x Hx.
  exact (kp_ret hashed_with (fun xb => is42 (fst xb)) (x, mp) Hx).
Qed.
Lemma kp_garbler_client_v3 pw mp t : kp hashed is42 (fun h => garbler_client_v3 h p g (ot_s h) pw mp t).
Proof.
  unfold garbler_client_v3. cbv zeta. step.
  apply (kp_bind with_dk dk42); [apply kp_lift, ko_zipped|]. intros [[gc e] d] Hd. unfold with_dk at 1. cbn [fst snd].
  do 4 step. apply (kp_bind is (fun _ => True)); [apply kp_ignores, Hot_s|]. intros _ _.
  do 3 step. apply kp_lift. exact (ko_half _ (gc, e, d) Hd).
Qed.
Lemma kp_evaluator_server_v3 pws mask : kp hashed is42 (fun h => evaluator_server_v3 h p (ot_r h) pws mask).
Proof.
  unfold evaluator_server_v3. cbv zeta. do 2 step.
  apply (kp_bind is tables_len); [apply kp_pure, oall_deserialize, pall_garbled|]. intros gc Hgc. unfold is.
  step. apply (kp_bind is (Forall len32)); [apply kp_pure, oall_deserialize, pall_vec, pall_wire|]. intros theirs Ht. unfold is.
  step. apply (kp_bind is (fun _ => True)); [apply kp_ignores, Hot_r|]. intros em _. unfold is.
  do 2 step. apply (kp_bind is (Forall len32)); [apply kp_pure, oall_payload_to_encoding|]. intros me Hm. unfold is.
  apply (kp_bind is (Forall len32)); [apply kp_pure, oall_bytes_to_encoding|]. intros server Hsv. unfold is.
  apply (kp_bind is (Forall len32)); [apply kp_lift, ko_evaluate; auto; apply Forall_app; split; auto; now apply Forall_app|]. intros output Hout. unfold is.
  apply kp_lift, ko_eval_half, Hout.
Qed.
Lemma kp_server_v3 mask pws t : kp combined both42 (fun h => server_v3 h p mask g (ot_s h) (many_s h) (ot_s2 h) (ot_r h) pws t).
Proof.
  unfold server_v3. apply (kp_bind hashed_with (fun xb => is42 (fst xb))); [apply kp_garbler_server_v3|]. intros [x m] Hx. unfold hashed_with. cbn [fst snd] in *.
  apply (kp_bind hashed is42); [apply kp_evaluator_server_v3|]. intros y Hy. exact (kp_ret combined both42 (x, y) (conj Hx Hy)).
Qed.
Lemma kp_client_v3 pw n i t : kp combined both42 (fun h => client_v3 h p g (ot_r h) (many_r h) (ot_r2 h) (ot_s h) pw n i t).
Proof.
  unfold client_v3. apply (kp_bind hashed_with (fun xb => is42 (fst xb))); [apply kp_evaluator_client_v3|]. intros [x m] Hx. unfold hashed_with. cbn [fst snd] in *.
  apply (kp_bind hashed is42); [apply kp_garbler_client_v3|]. intros y Hy. exact (kp_ret combined both42 (x, y) (conj Hx Hy)).
Qed.
End Programs.
End Keyed.
