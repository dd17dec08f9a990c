(** Debug builds refine release builds. *)
From Coq Require Import List NArith Bool Arith Lia.
From Verif Require Import Base MUtil MWires MCircuit MGarble MPar MBitMatrix MPoly MPolyType MBincode MProc MOt MApricot MClassic MMany MFpake MLegacy MLegacy2 MChannel MMain.
From Verif Require Import SpecProfile.
Import ListNotations.
Open Scope N_scope.

(** ** Outcomes *)
Inductive ole {A} : outcome A -> outcome A -> Prop :=
| ole_refl o : ole o o
| ole_panic r o : ole (Panic r) o.

Lemma ole_bind {A B} (a a' : outcome A) (k k' : A -> outcome B) :
  ole a a' -> (forall x, ole (k x) (k' x)) -> ole (obind a k) (obind a' k').
Proof. intros H K. destruct H as [o|r o]; [|constructor]. destruct o; cbn; [apply K|constructor..]. Qed.
Lemma ole_mapM {A B} (f f' : A -> outcome B) l : (forall x, ole (f x) (f' x)) -> ole (mapM f l) (mapM f' l).
Proof.
  intros H. induction l as [|x l IH]; cbn; [constructor|].
  apply ole_bind; [apply H|]. intros y. apply ole_bind; [exact IH|]. constructor.
Qed.
Lemma ole_zipM {A B C} (f f' : A -> B -> outcome C) l : forall m, (forall x y, ole (f x y) (f' x y)) -> ole (zipM f l m) (zipM f' l m).
Proof.
  induction l as [|x l IH]; intros [|y m] H; cbn; try constructor.
  apply ole_bind; [apply H|]. intros z. apply ole_bind; [now apply IH|]. constructor.
Qed.
Lemma ole_foldM {A T} (f f' : T -> A -> outcome T) l : forall s, (forall s x, ole (f s x) (f' s x)) -> ole (foldM f l s) (foldM f' l s).
Proof. induction l as [|x l IH]; intros s H; cbn; [constructor|]. apply ole_bind; [apply H|]. intros s'. now apply IH. Qed.
Lemma ole_rows v h w (f f' : nat -> bytes -> outcome bytes) : (forall i r, ole (f i r) (f' i r)) -> ole (update_rows v h w f) (update_rows v h w f').
Proof.
  intros H. unfold update_rows. apply ole_foldM. intros s i. unfold row_step. apply ole_bind; [constructor|]. intros r.
  apply ole_bind; [apply H|]. constructor.
Qed.
Lemma ole_par_rows w n b (f f' : nat -> bytes -> outcome bytes) : (forall i r, ole (f i r) (f' i r)) -> ole (par_rows w n b f) (par_rows w n b f').
Proof.
  intros H. unfold par_rows. apply ole_bind; [constructor|]. intros cs. apply ole_bind; [|constructor].
  apply ole_mapM. intros c. apply ole_rows. intros. apply H.
Qed.
Lemma ole_par_items {A} n (l : list A) (f f' : nat -> A -> outcome A) : (forall i r, ole (f i r) (f' i r)) -> ole (par_items n l f) (par_items n l f').
Proof.
  intros H. unfold par_items. apply ole_bind; [constructor|]. intros cs. apply ole_bind; [|constructor].
  apply ole_mapM. intros c. apply ole_mapM. intros. apply H.
Qed.
Lemma ole_assert b : ole (debug_assert Debug b) (debug_assert Release b).
Proof. destruct b; constructor. Qed.
Lemma ole_uadd w a b : ole (uadd Debug w a b) (uadd Release w a b).
Proof. unfold uadd. destruct (_ <? _); constructor. Qed.
Lemma ole_usub w a b : ole (usub Debug w a b) (usub Release w a b).
Proof. unfold usub. destruct (_ <=? _); constructor. Qed.
Lemma ole_umul w a b : ole (umul Debug w a b) (umul Release w a b).
Proof. unfold umul. destruct (_ <? _); constructor. Qed.
Create HintDb ole.
#[export] Hint Resolve ole_assert ole_uadd ole_usub ole_umul : ole.

Ltac ol1 :=
  match goal with
  | |- ole ?x ?x => apply ole_refl
  | |- ole (Panic _) _ => apply ole_panic
  | |- ole (obind _ _) (obind _ _) => apply ole_bind; [|intros ?; cbv beta zeta]
  | |- ole (mapM _ ?l) (mapM _ ?l) => apply ole_mapM; intros ?; cbv beta zeta
  | |- ole (zipM _ ?l ?m) (zipM _ ?l ?m) => apply ole_zipM; intros ? ?; cbv beta zeta
  | |- ole (foldM _ ?l ?s) (foldM _ ?l ?s) => apply ole_foldM; intros ? ?; cbv beta zeta
  | |- ole (update_rows _ _ _ _) (update_rows _ _ _ _) => apply ole_rows; intros ? ?; cbv beta zeta
  | |- ole (par_rows _ _ _ _) (par_rows _ _ _ _) => apply ole_par_rows; intros ? ?; cbv beta zeta
  | |- ole (par_items _ _ _) (par_items _ _ _) => apply ole_par_items; intros ? ?; cbv beta zeta
  | |- ole (match ?x with _ => _ end) (match ?x with _ => _ end) => destruct x
  | |- context [is_debug Debug] => change (is_debug Debug) with true; change (is_debug Release) with false; cbv iota
  | |- _ => solve [auto with ole nocore]
  end.
Ltac ol := cbv beta zeta; repeat ol1.

(** ** Functions *)
Lemma ole_log2 w x : ole (log2_ Debug w x) (log2_ Release w x).
Proof. unfold log2_. ol. Qed.
Lemma ole_to_array b : ole (to_array Debug b) (to_array Release b).
Proof. unfold to_array. ol. Qed.
Lemma ole_xor_bytes a b : ole (xor_bytes Debug a b) (xor_bytes Release a b).
Proof. unfold xor_bytes. ol. Qed.
Lemma ole_xor_bytes_inplace a b : ole (xor_bytes_inplace Debug a b) (xor_bytes_inplace Release a b).
Proof. unfold xor_bytes_inplace. ol. Qed.
#[export] Hint Resolve ole_log2 ole_to_array ole_xor_bytes ole_xor_bytes_inplace : ole.

Lemma ole_wmap w f f' : (forall x, ole (f x) (f' x)) -> ole (wmap w f) (wmap w f').
Proof. intros H. unfold wmap. ol. Qed.
Lemma ole_wmap16 w f f' : (forall x, ole (f x) (f' x)) -> ole (wmap16 Debug w f) (wmap16 Release w f').
Proof. intros H. unfold wmap16. ol. Qed.
Lemma ole_wmap2 w o f f' : (forall x y, ole (f x y) (f' x y)) -> ole (wmap2 Debug w o f) (wmap2 Release w o f').
Proof. intros H. unfold wmap2. ol. Qed.
Lemma ole_wmap2_16 w o f f' : (forall x y, ole (f x y) (f' x y)) -> ole (wmap2_16 Debug w o f) (wmap2_16 Release w o f').
Proof. intros H. unfold wmap2_16. ol. Qed.
Ltac olw := cbv beta zeta; repeat first [ol1
  | apply ole_wmap; intros ?; cbv beta zeta | apply ole_wmap16; intros ?; cbv beta zeta
  | apply ole_wmap2; intros ? ?; cbv beta zeta | apply ole_wmap2_16; intros ? ?; cbv beta zeta].
Lemma ole_wadd a b : ole (wadd Debug a b) (wadd Release a b).
Proof. unfold wadd. olw. Qed.
Lemma ole_wsub a b : ole (wsub Debug a b) (wsub Release a b).
Proof. unfold wsub. olw. Qed.
Lemma ole_wneg a : ole (wneg Debug a) (wneg Release a).
Proof. unfold wneg. olw. Qed.
Lemma ole_wmul a k : ole (wmul Debug a k) (wmul Release a k).
Proof. unfold wmul. olw. Qed.
#[export] Hint Resolve ole_wadd ole_wsub ole_wneg ole_wmul : ole.
Lemma ole_wsum l : ole (wsum Debug l) (wsum Release l).
Proof. unfold wsum. olw. Qed.
Lemma ole_from_array v d : ole (from_array Debug v d) (from_array Release v d).
Proof. unfold from_array. olw. Qed.
#[export] Hint Resolve ole_wsum ole_from_array : ole.
Lemma ole_from_bytes v d : ole (from_bytes Debug v d) (from_bytes Release v d).
Proof. unfold from_bytes. olw. Qed.
Lemma ole_hash_wire sha i w t : ole (hash_wire sha Debug i w t) (hash_wire sha Release i w t).
Proof. unfold hash_wire. olw. Qed.
#[export] Hint Resolve ole_from_bytes ole_hash_wire : ole.

Lemma ole_eval_gate ws g : ole (eval_gate Debug ws g) (eval_gate Release ws g).
Proof. unfold eval_gate. ol. Qed.
#[export] Hint Resolve ole_eval_gate : ole.
Lemma ole_eval c i : ole (eval Debug c i) (eval Release c i).
Proof. unfold eval. ol. Qed.
Lemma ole_build n t : ole (build_circuit Debug n t) (build_circuit Release n t).
Proof. unfold build_circuit. ol. Qed.
Lemma ole_build2 n t : ole (build_circuit_v2 Debug n t) (build_circuit_v2 Release n t).
Proof. unfold build_circuit_v2. ol. Qed.
#[export] Hint Resolve ole_eval ole_build ole_build2 : ole.

Lemma ole_encode e x : ole (encode Debug e x) (encode Release e x).
Proof. unfold encode. ol. Qed.
Lemma ole_binary k : ole (binary_of_ek Debug k) (binary_of_ek Release k).
Proof. unfold binary_of_ek. ol. Qed.
Lemma ole_of_binary k : ole (ek_of_binary Debug k) (ek_of_binary Release k).
Proof. unfold ek_of_binary. ol. Qed.
#[export] Hint Resolve ole_encode ole_binary ole_of_binary : ole.
Section Garble.
Variable sha : bytes -> bytes.
Variable rd : N -> bytes.
Variable ri : nat -> bytes.
Lemma ole_hash_half w j : ole (hash_half sha Debug w j) (hash_half sha Release w j).
Proof. unfold hash_half. ol. Qed.
Hint Resolve ole_hash_half : ole.
Lemma ole_garble_proj dl ws g k : ole (garble_proj sha Debug dl ws g k) (garble_proj sha Release dl ws g k).
Proof. unfold garble_proj. ol. Qed.
Lemma ole_garble_and dl ws g i j : ole (garble_and sha Debug dl ws g i j) (garble_and sha Release dl ws g i j).
Proof. unfold garble_and. ol. Qed.
Lemma ole_garble_dec dl ws g : ole (garble_dec sha Debug dl ws g) (garble_dec sha Release dl ws g).
Proof. unfold garble_dec. ol. Qed.
Hint Resolve ole_garble_proj ole_garble_and ole_garble_dec : ole.
Lemma ole_garble_label dl s g : ole (garble_label sha Debug dl s g) (garble_label sha Release dl s g).
Proof. unfold garble_label. ol. Qed.
Hint Resolve ole_garble_label : ole.
Lemma ole_garble_gate dl k s g : ole (garble_gate sha Debug dl k s g) (garble_gate sha Release dl k s g).
Proof. unfold garble_gate. ol. Qed.
Hint Resolve ole_garble_gate : ole.
Lemma ole_garble_run c : ole (garble_run sha Debug rd ri c) (garble_run sha Release rd ri c).
Proof. unfold garble_run. ol. Qed.
Hint Resolve ole_garble_run : ole.
Lemma ole_garble c : ole (garble sha Debug rd ri c) (garble sha Release rd ri c).
Proof. unfold garble. ol. Qed.
Lemma ole_eval_garbled_gate gc s g : ole (eval_garbled_gate sha Debug gc s g) (eval_garbled_gate sha Release gc s g).
Proof. unfold eval_garbled_gate. ol. Qed.
Hint Resolve ole_eval_garbled_gate : ole.
Lemma ole_evaluate gc x : ole (evaluate sha Debug gc x) (evaluate sha Release gc x).
Proof. unfold evaluate. ol. Qed.
End Garble.
#[export] Hint Resolve ole_garble ole_evaluate : ole.

Lemma ole_bv_xor a b : ole (bv_xor_assign_ref Debug a b) (bv_xor_assign_ref Release a b).
Proof. unfold bv_xor_assign_ref. ol. Qed.
Lemma ole_generic acc a b : ole (mul_acc_generic Debug acc a b) (mul_acc_generic Release acc a b).
Proof. unfold mul_acc_generic. ol. Qed.
Lemma ole_arm acc a b : ole (mul_acc_arm64 Debug acc a b) (mul_acc_arm64 Release acc a b).
Proof. unfold mul_acc_arm64. ol. Qed.
#[export] Hint Resolve ole_bv_xor ole_generic ole_arm : ole.
Lemma ole_poly_from v : ole (MClassic.poly_from Debug v) (MClassic.poly_from Release v).
Proof. unfold MClassic.poly_from. ol. Qed.
Lemma ole_gf t acc a b : ole (MClassic.gf128_mul_acc t Debug acc a b) (MClassic.gf128_mul_acc t Release acc a b).
Proof. unfold MClassic.gf128_mul_acc. ol. Qed.
#[export] Hint Resolve ole_poly_from ole_gf : ole.

Lemma ole_ap_xor d l r : ole (ap_xor Debug d l r) (ap_xor Release d l r).
Proof. unfold ap_xor. ol. Qed.
Lemma ole_xor_inplace d r : ole (xor_inplace Debug d r) (xor_inplace Release d r).
Proof. unfold xor_inplace. ol. Qed.
Lemma ole_ap_eq l r : ole (ap_eq Debug l r) (ap_eq Release l r).
Proof. unfold ap_eq. ol. Qed.
#[export] Hint Resolve ole_ap_xor ole_xor_inplace ole_ap_eq : ole.

Section Ot.
Variable sha : bytes -> bytes.
Variable fill gen : bytes -> nat -> bytes.
Variable a : arch.
Variable cores : nat.
Variable G : curve.
Lemma ole_compute_q d t u h w : ole (compute_q Debug d t u h w) (compute_q Release d t u h w).
Proof. unfold compute_q. ol. Qed.
Lemma ole_randomize_row q d w m ms r row : ole (randomize_row sha fill Debug q d w m ms r row) (randomize_row sha fill Release q d w m ms r row).
Proof. unfold randomize_row. ol. Qed.
Hint Resolve ole_randomize_row : ole.
Lemma ole_randomize q d w m ms : ole (randomize sha fill Debug cores q d w m ms) (randomize sha fill Release cores q d w m ms).
Proof. unfold randomize. ol. Qed.
Lemma ole_sender_check q d x t w : ole (sender_check Debug a q d x t w) (sender_check Release a q d x t w).
Proof. unfold sender_check. ol. Qed.
Lemma ole_compute_u x y z h w : ole (compute_u Debug x y z h w) (compute_u Release x y z h w).
Proof. unfold compute_u. ol. Qed.
Lemma ole_receiver_sums t chi b w h : ole (receiver_sums Debug a t chi b w h) (receiver_sums Release a t chi b w h).
Proof. unfold receiver_sums. ol. Qed.
Lemma ole_compute_v t w h : ole (compute_v sha Debug cores t w h) (compute_v sha Release cores t w h).
Proof. unfold compute_v. ol. Qed.
Lemma ole_derandomize_row v pk d m r y : ole (derandomize_row fill Debug v pk d m r y) (derandomize_row fill Release v pk d m r y).
Proof. unfold derandomize_row. ol. Qed.
Hint Resolve ole_derandomize_row : ole.
Lemma ole_derandomize v pk d m n : ole (derandomize fill Debug cores v pk d m n) (derandomize fill Release cores v pk d m n).
Proof. unfold derandomize. ol. Qed.
Lemma ole_co_encrypt t u s m : ole (co_encrypt sha gen G Debug t u s m) (co_encrypt sha gen G Release t u s m).
Proof. unfold co_encrypt. ol. Qed.
End Ot.
#[export] Hint Resolve ole_compute_q ole_randomize ole_sender_check ole_compute_u ole_receiver_sums ole_compute_v ole_derandomize ole_co_encrypt : ole.

Section ClassicOt.
Variable gen8 : bytes -> nat -> bytes.
Variable t : option arch.
Lemma ole_row_sum q c : ole (classic_row_sum Debug t q c) (classic_row_sum Release t q c).
Proof. unfold classic_row_sum. ol. Qed.
Lemma ole_verdict q d x y : ole (classic_verdict Debug t q d x y) (classic_verdict Release t q d x y).
Proof. unfold classic_verdict. ol. Qed.
Lemma ole_classic_encrypt m v : ole (classic_encrypt gen8 Debug m v) (classic_encrypt gen8 Release m v).
Proof. unfold classic_encrypt. ol. Qed.
Lemma ole_classic_u x y z : ole (classic_u Debug x y z) (classic_u Release x y z).
Proof. unfold classic_u. ol. Qed.
Lemma ole_classic_sums c x chi : ole (classic_receiver_sums Debug t c x chi) (classic_receiver_sums Release t c x chi).
Proof. unfold classic_receiver_sums. ol. Qed.
Lemma ole_classic_decrypt v c x y : ole (classic_decrypt gen8 Debug v c x y) (classic_decrypt gen8 Release v c x y).
Proof. unfold classic_decrypt. ol. Qed.
End ClassicOt.
#[export] Hint Resolve ole_row_sum ole_verdict ole_classic_encrypt ole_classic_u ole_classic_sums ole_classic_decrypt : ole.

Section ManyOt.
Variable sha : bytes -> bytes.
Variable fill : bytes -> nat -> bytes.
Variable cores : nat.
Lemma ole_shl k : ole (shl_one Debug k) (shl_one Release k).
Proof. unfold shl_one. ol. Qed.
Hint Resolve ole_shl : ole.
Lemma ole_many_row ks ms d n i row : ole (many_row sha fill Debug ks ms d n i row) (many_row sha fill Release ks ms d n i row).
Proof. unfold many_row. ol. Qed.
Hint Resolve ole_many_row : ole.
Lemma ole_many_y ks ms d n : ole (many_y sha fill Debug cores ks ms d n) (many_y sha fill Release cores ks ms d n).
Proof.
  unfold many_y. ol. set (th := if Nat.leb _ _ then _ else _). destruct (Nat.eqb th 0); [constructor|apply ole_assert].
Qed.
Lemma ole_many_choices c d : ole (many_choices Debug c d) (many_choices Release c d).
Proof. unfold many_choices. ol. Qed.
End ManyOt.
#[export] Hint Resolve ole_shl ole_many_y ole_many_choices : ole.

Section FpakeFns.
Variable sha : bytes -> bytes.
Lemma ole_garble_zipped g c : ole (garble_zipped sha Debug g c) (garble_zipped sha Release g c).
Proof. unfold garble_zipped. ol. Qed.
Lemma ole_half_key gc o : ole (evaluator_half_key sha Debug gc o) (evaluator_half_key sha Release gc o).
Proof. unfold evaluator_half_key. ol. Qed.
Lemma ole_mask m l n : ole (mask_passwords Debug m l n) (mask_passwords Release m l n).
Proof. unfold mask_passwords. ol. Qed.
Lemma ole_payload_enc l n : ole (payload_to_encoding Debug l n) (payload_to_encoding Release l n).
Proof. unfold payload_to_encoding. ol. Qed.
Lemma ole_bytes_enc l n k : ole (bytes_to_encoding Debug l n k) (bytes_to_encoding Release l n k).
Proof. unfold bytes_to_encoding. ol. Qed.
Lemma ole_encode_flat z k n v : ole (encode_flat Debug z k n v) (encode_flat Release z k n v).
Proof. unfold encode_flat. ol. Qed.
Lemma ole_wires_from_bytes b : ole (wires_from_bytes Debug b) (wires_from_bytes Release b).
Proof. unfold wires_from_bytes. ol. Qed.
Lemma ole_random_rows r n b : ole (random_rows Debug r n b) (random_rows Release r n b).
Proof. unfold random_rows. ol. Qed.
Lemma ole_xor_all r c b : ole (xor_all Debug r c b) (xor_all Release r c b).
Proof. unfold xor_all. ol. Qed.
End FpakeFns.
#[export] Hint Resolve ole_garble_zipped ole_half_key ole_mask ole_payload_enc ole_bytes_enc ole_encode_flat ole_wires_from_bytes ole_random_rows ole_xor_all : ole.
