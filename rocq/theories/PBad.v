(** Circuits whose sum is in a modulus in which the wires cannot add. *)
From Coq Require Import List NArith Bool Arith Lia.
From Verif Require Import Base MUtil MWires MCircuit MGarble MPar MBincode MProc MMany MFpake.
From Verif Require Import SpecWires SpecCircuit SpecGarble SpecBincode SpecOt SpecApricot SpecFpake SpecLong.
From Verif Require Import PBase PUtil PWires PWiresSpec PGarble PGarbleSpec PBinKey PBincode PCircuit PHalf PProc PMany PFpake PLong PFlat.
Import ListNotations.
Open Scope N_scope.

(** ** Labels all of whose components but the last are zero *)
(** In one-byte components. *)
Section Narrow.
Variable m : N.
Hypothesis Hm : 128 < m < 255.
Definition Ln (v : N) : wire := mkWire (U8 m) (repeat 0 31 ++ [v]).
Lemma zip31 (f : N -> N -> N) u v : zipWith f (repeat 0 31 ++ [u]) (repeat 0 31 ++ [v]) = repeat (f 0 0) 31 ++ [f u v].
Proof. reflexivity. Qed.
Lemma map31 (f : N -> N) u : map f (repeat 0 31 ++ [u]) = repeat (f 0) 31 ++ [f u].
Proof. reflexivity. Qed.
Lemma in31 u x : In x (repeat 0 31 ++ [u]) -> x = 0 \/ x = u.
Proof. intros H. apply in_app_iff in H as [H|[H|[]]]; [left; now apply repeat_spec in H|now right]. Qed.
Lemma urem_m x : urem x m = Ok (x mod m).
Proof. unfold urem. destruct (N.eqb_spec m 0); [lia|reflexivity]. Qed.
Lemma Ln_add p u v : u < m -> v < m -> wadd p (Ln u) (Ln v) = Ok (Ln ((u + v) mod 256 mod m)).
Proof.
  intros Hu Hv. unfold wadd, wmap2. cbn [Ln wdom wval]. rewrite domain_eqb_refl, debug_assert_true. cbn [obind].
  rewrite (zipM_Ok _ (fun x y => (x + y) mod 256 mod m)) by (intros; apply urem_m). cbn [obind].
  rewrite zip31. change ((0 + 0) mod 256) with 0. rewrite N.mod_0_l by lia. reflexivity.
Qed.
Lemma Ln_sub p u v : u < m -> v < m -> u + (m - v) < 256 -> wsub p (Ln u) (Ln v) = Ok (Ln ((u + (m - v)) mod m)).
Proof.
  intros Hu Hv Hs. unfold wsub, wmap2. cbn [Ln wdom wval]. rewrite domain_eqb_refl, debug_assert_true. cbn [obind].
  set (l := repeat 0 31) in *.
  assert (E : zipM (fun x y => let* d := usub p 8 m y in let* s := uadd p 8 x d in urem s m) (l ++ [u]) (l ++ [v]) =
    Ok (repeat ((0 + (m - 0)) mod m) 31 ++ [(u + (m - v)) mod m])).
  { rewrite (zipM_seq _ (fun i => if Nat.ltb i 31 then (0 + (m - 0)) mod m else (u + (m - v)) mod m) 0 0);
      [reflexivity|reflexivity|intros i Hi; destruct (Nat.ltb_spec i 31) as [H|H];
       [rewrite !app_nth1 by (unfold l; rewrite repeat_length; lia); unfold l; rewrite !nth_repeat;
        unfold usub; rewrite (proj2 (N.leb_le 0 m)) by lia; cbn [obind]; unfold uadd; change (2 ^ 8) with 256;
        rewrite (proj2 (N.ltb_lt (0 + (m - 0)) 256)) by lia; cbn [obind]; apply urem_m
       |assert (i = 31%nat) by (rewrite app_length in Hi; unfold l in Hi; rewrite repeat_length in Hi; cbn [length] in Hi; lia);
        subst i; change (nth 31 (l ++ [u]) 0) with u; change (nth 31 (l ++ [v]) 0) with v;
        unfold usub; rewrite (proj2 (N.leb_le v m)) by lia; cbn [obind]; unfold uadd; change (2 ^ 8) with 256;
        rewrite (proj2 (N.ltb_lt (u + (m - v)) 256)) by lia; cbn [obind]; apply urem_m]]. }
  rewrite E. cbn [obind]. replace (0 + (m - 0)) with m by lia. rewrite N.mod_same by lia. reflexivity.
Qed.
Lemma Ln_neg p v : v < m -> wneg p (Ln v) = Ok (Ln ((m - v) mod m)).
Proof.
  intros Hv. unfold wneg, wmap. cbn [Ln wdom wval].
  rewrite (mapM_Ok _ (fun x => (m - x) mod m)).
  - cbn [obind]. rewrite map31. replace (m - 0) with m by lia. rewrite N.mod_same by lia. reflexivity.
  - intros x Hx. apply in31 in Hx. unfold usub. rewrite (proj2 (N.leb_le x m)) by lia. cbn [obind]. apply urem_m.
Qed.
Lemma Ln_mul p k : k < m -> wmul p (Ln 1) k = Ok (Ln k).
Proof.
  intros Hk. unfold wmul, wmap, wire_domain. cbn [Ln wdom wval domain_num].
  rewrite (proj2 (N.ltb_lt k m)) by lia. rewrite debug_assert_true. cbn [obind].
  rewrite (mapM_Ok _ (fun x => (x * k) mod m mod 256)).
  - cbn [obind]. rewrite map31. change (0 * k) with 0. rewrite N.mod_0_l by lia. rewrite N.mul_1_l, (N.mod_small k m) by lia.
    rewrite N.mod_small by lia. reflexivity.
  - intros x Hx. apply in31 in Hx. unfold umul. change (2 ^ 16) with 65536.
    rewrite (proj2 (N.ltb_lt (x * k) 65536)).
    + cbn [obind]. rewrite urem_m. reflexivity.
    + destruct Hx as [-> | ->]; lia.
Qed.
Lemma Ln_from p v : v < m -> from_array p (repeat 0 31 ++ [v]) (U8 m) = Ok (Ln v).
Proof.
  intros Hv. unfold from_array, wmap. cbn [wdom wval].
  rewrite (mapM_Ok _ (fun x => x mod m)) by (intros; apply urem_m). cbn [obind]. rewrite map31.
  rewrite N.mod_0_l, N.mod_small by lia. reflexivity.
Qed.
Lemma Ln_dnew : domain_new m = Ok (U8 m).
Proof.
  unfold domain_new. destruct (N.eqb_spec m 0); [lia|]. destruct (N.eqb_spec m 2); [lia|].
  rewrite (proj2 (N.ltb_lt m 255)) by lia. reflexivity.
Qed.
Lemma Ln_delta : wire_delta m (repeat 0 32) = Ok (Ln 1).
Proof. unfold wire_delta, wire_new. rewrite Ln_dnew. reflexivity. Qed.
Lemma Ln_color v : color (Ln v) = v.
Proof. reflexivity. Qed.
Lemma Ln_bytes v : v < m -> length (repeat 0 31 ++ [v]) = 32%nat /\ bytes_ok (repeat 0 31 ++ [v]).
Proof.
  intros Hv. split; [reflexivity|]. apply Forall_app. split; [apply Forall_repeat; unfold byte_ok; lia|].
  constructor; [unfold byte_ok; lia|constructor].
Qed.
Lemma Ln_ok v : v < m -> wire_ok (Ln v).
Proof. intros Hv. split; [cbn; unfold byte_ok; lia|]. now apply Ln_bytes. Qed.
End Narrow.

(** In two-byte components. *)
Section Wide.
Variable m : N.
Hypothesis Hm : 32768 < m < 65535.
Definition wb (v : N) : bytes := of_u16s (repeat 0 15 ++ [v]).
Definition Lv (v : N) : wire := mkWire (U16 m) (wb v).
Lemma zip15 (f : N -> N -> N) u v : zipWith f (repeat 0 15 ++ [u]) (repeat 0 15 ++ [v]) = repeat (f 0 0) 15 ++ [f u v].
Proof. reflexivity. Qed.
Lemma map15 (f : N -> N) u : map f (repeat 0 15 ++ [u]) = repeat (f 0) 15 ++ [f u].
Proof. reflexivity. Qed.
Lemma in15 u x : In x (repeat 0 15 ++ [u]) -> x = 0 \/ x = u.
Proof. intros H. apply in_app_iff in H as [H|[H|[]]]; [left; now apply repeat_spec in H|now right]. Qed.
Lemma urem_w x : urem x m = Ok (x mod m).
Proof. unfold urem. destruct (N.eqb_spec m 0); [lia|reflexivity]. Qed.
Lemma wb_words v : v < m -> to_u16s (wb v) = repeat 0 15 ++ [v].
Proof.
  intros Hv. apply to_u16s_of. apply Forall_app. split; [apply Forall_repeat; lia|]. constructor; [lia|constructor].
Qed.
Lemma small15 v : v < m -> forallb (fun x => x <? m) (repeat 0 15 ++ [v]) = true.
Proof.
  intros Hv. apply forallb_forall. intros x Hx. apply in15 in Hx. apply N.ltb_lt. lia.
Qed.
Lemma Lv_add p u v : u < m -> v < m -> wadd p (Lv u) (Lv v) = Ok (Lv ((u + v) mod 65536 mod m)).
Proof.
  intros Hu Hv. unfold wadd, wmap2_16. cbn [Lv wdom wval]. rewrite domain_eqb_refl, debug_assert_true. cbn [obind].
  rewrite !wb_words by auto.
  rewrite (zipM_Ok _ (fun x y => (x + y) mod 65536 mod m)) by (intros; apply urem_w). cbn [obind].
  rewrite zip15. change ((0 + 0) mod 65536) with 0. rewrite N.mod_0_l by lia.
  unfold wire_domain. cbn [wdom domain_num]. rewrite small15 by (apply N.mod_lt; lia). rewrite debug_assert_true. reflexivity.
Qed.
Lemma Lv_sub p u v : u < m -> v < m -> u + (m - v) < 65536 -> wsub p (Lv u) (Lv v) = Ok (Lv ((u + (m - v)) mod m)).
Proof.
  intros Hu Hv Hs. unfold wsub, wmap2_16. cbn [Lv wdom wval]. rewrite domain_eqb_refl, debug_assert_true. cbn [obind].
  rewrite !wb_words by auto.
  set (l := repeat 0 15) in *.
  assert (E : zipM (fun x y => let* d := usub p 16 m y in let* s := uadd p 16 x d in urem s m) (l ++ [u]) (l ++ [v]) =
    Ok (repeat ((0 + (m - 0)) mod m) 15 ++ [(u + (m - v)) mod m])).
  { rewrite (zipM_seq _ (fun i => if Nat.ltb i 15 then (0 + (m - 0)) mod m else (u + (m - v)) mod m) 0 0);
      [reflexivity|reflexivity|intros i Hi; destruct (Nat.ltb_spec i 15) as [H|H];
       [rewrite !app_nth1 by (unfold l; rewrite repeat_length; lia); unfold l; rewrite !nth_repeat;
        unfold usub; rewrite (proj2 (N.leb_le 0 m)) by lia; cbn [obind]; unfold uadd; change (2 ^ 16) with 65536;
        rewrite (proj2 (N.ltb_lt (0 + (m - 0)) 65536)) by lia; cbn [obind]; apply urem_w
       |assert (i = 15%nat) by (rewrite app_length in Hi; unfold l in Hi; rewrite repeat_length in Hi; cbn [length] in Hi; lia);
        subst i; change (nth 15 (l ++ [u]) 0) with u; change (nth 15 (l ++ [v]) 0) with v;
        unfold usub; rewrite (proj2 (N.leb_le v m)) by lia; cbn [obind]; unfold uadd; change (2 ^ 16) with 65536;
        rewrite (proj2 (N.ltb_lt (u + (m - v)) 65536)) by lia; cbn [obind]; apply urem_w]]. }
  rewrite E. cbn [obind]. replace (0 + (m - 0)) with m by lia. rewrite N.mod_same by lia.
  unfold wire_domain. cbn [wdom domain_num]. fold l. rewrite small15 by (apply N.mod_lt; lia). rewrite debug_assert_true. reflexivity.
Qed.
Lemma Lv_neg p v : v < m -> wneg p (Lv v) = Ok (Lv ((m - v) mod m)).
Proof.
  intros Hv. unfold wneg, wmap16. cbn [Lv wdom wval]. rewrite wb_words by auto.
  rewrite (mapM_Ok _ (fun x => (m - x) mod m)).
  - cbn [obind]. rewrite map15. replace (m - 0) with m by lia. rewrite N.mod_same by lia.
    unfold wire_domain. cbn [wdom domain_num]. rewrite small15 by (apply N.mod_lt; lia). rewrite debug_assert_true. reflexivity.
  - intros x Hx. apply in15 in Hx. unfold usub. rewrite (proj2 (N.leb_le x m)) by lia. cbn [obind]. apply urem_w.
Qed.
Lemma Lv_mul p k : k < m -> wmul p (Lv 1) k = Ok (Lv k).
Proof.
  intros Hk. unfold wmul, wmap16, wire_domain. cbn [Lv wdom wval domain_num].
  rewrite (proj2 (N.ltb_lt k m)) by lia. rewrite debug_assert_true. cbn [obind]. rewrite wb_words by lia.
  rewrite (mapM_Ok _ (fun x => (x * k) mod m mod 65536)).
  - cbn [obind]. rewrite map15. change (0 * k) with 0. rewrite N.mod_0_l by lia. rewrite N.mul_1_l, (N.mod_small k m) by lia.
    rewrite N.mod_small by lia. change (0 mod 65536) with 0. rewrite small15 by lia. rewrite debug_assert_true. reflexivity.
  - intros x Hx. rewrite urem_w. reflexivity.
Qed.
Lemma Lv_from p v : v < m -> from_array p (wb v) (U16 m) = Ok (Lv v).
Proof.
  intros Hv. unfold from_array, wmap16. cbn [wdom wval]. rewrite wb_words by auto.
  rewrite (mapM_Ok _ (fun x => x mod m)) by (intros; apply urem_w). cbn [obind]. rewrite map15.
  rewrite N.mod_0_l, N.mod_small by lia. unfold wire_domain. cbn [wdom domain_num]. rewrite small15 by lia. rewrite debug_assert_true. reflexivity.
Qed.
Lemma Lv_dnew : domain_new m = Ok (U16 m).
Proof.
  unfold domain_new. destruct (N.eqb_spec m 0); [lia|]. destruct (N.eqb_spec m 2); [lia|].
  rewrite (proj2 (N.ltb_ge m 255)) by lia. destruct (N.eqb_spec m 256); [lia|]. rewrite (proj2 (N.ltb_lt m 65535)) by lia. reflexivity.
Qed.
Lemma Lv_delta : wire_delta m (repeat 0 32) = Ok (Lv 1).
Proof. unfold wire_delta, wire_new. rewrite Lv_dnew. reflexivity. Qed.
Lemma Lv_color v : v < m -> color (Lv v) = v.
Proof. intros Hv. unfold color. cbn [Lv wdom wval]. rewrite wb_words by auto. reflexivity. Qed.
Lemma wb_bytes v : v < m -> length (wb v) = 32%nat /\ bytes_ok (wb v).
Proof. intros Hv. split; [unfold wb; rewrite of_u16s_length; reflexivity|apply of_u16s_ok]. Qed.
Lemma Lv_ok v : v < m -> wire_ok (Lv v).
Proof. intros Hv. split; [cbn; unfold u16_ok; lia|]. now apply wb_bytes. Qed.
End Wide.

(** ** Garbling and evaluating the circuit in such a modulus *)
Definition o2 : wire := mkWire Binary (repeat 255 32).
Definition e2 : wire := mkWire Binary (repeat 0 31 ++ [1]).
Definition t2 : wire := mkWire Binary (repeat 255 31 ++ [254]).
Lemma b_add p : wadd p wire_empty wire_empty = Ok wire_empty /\ wadd p wire_empty e2 = Ok e2 /\ wadd p e2 wire_empty = Ok e2 /\
  wadd p e2 e2 = Ok wire_empty /\ wadd p wire_empty o2 = Ok o2 /\ wadd p o2 wire_empty = Ok o2 /\ wadd p o2 e2 = Ok t2.
Proof. destruct p; repeat split; reflexivity. Qed.
Lemma b_sub p : wsub p wire_empty wire_empty = Ok wire_empty /\ wsub p o2 wire_empty = Ok o2.
Proof. destruct p; split; reflexivity. Qed.
Lemma b_mul p : wmul p e2 0 = Ok wire_empty /\ wmul p e2 1 = Ok e2.
Proof. destruct p; split; reflexivity. Qed.
Lemma b_neg p : wneg p wire_empty = Ok o2.
Proof. destruct p; reflexivity. Qed.
Definition still : garbling := mkGarbling (fun _ => repeat 0 32) (fun _ => repeat 0 32) (fun gc => gc).
Definition clean (y : bytes) : bytes := map (fun b => b mod 256) (firstn 32 (y ++ repeat 0 32)).
Lemma clean_ok y : length (clean y) = 32%nat /\ bytes_ok (clean y).
Proof.
  split.
  - unfold clean. rewrite map_length, firstn_length, app_length, repeat_length. lia.
  - unfold clean. apply Forall_forall. intros b Hb. apply in_map_iff in Hb as (x & <- & _). unfold byte_ok. apply N.mod_lt. lia.
Qed.

Section Bad.
Variables (m B : N) (dm : domain) (L : N -> wire) (hb : N -> bytes).
Hypothesis HmB : B + 2 <= 2 * m.
Hypothesis HBm : m + 1 < B.
Hypothesis Hm2 : 2 < m.
Hypothesis Hm16 : m < 65536.
Hypothesis L_dom : forall v, wdom (L v) = dm.
Hypothesis L_len : forall v, v < m -> length (wval (L v)) = 32%nat.
Hypothesis L_add : forall p u v, u < m -> v < m -> wadd p (L u) (L v) = Ok (L ((u + v) mod B mod m)).
Hypothesis L_sub : forall p u v, u < m -> v < m -> u + (m - v) < B -> wsub p (L u) (L v) = Ok (L ((u + (m - v)) mod m)).
Hypothesis L_neg : forall p v, v < m -> wneg p (L v) = Ok (L ((m - v) mod m)).
Hypothesis L_mul : forall p k, k < m -> wmul p (L 1) k = Ok (L k).
Hypothesis L_from : forall p v, v < m -> from_array p (hb v) dm = Ok (L v).
Hypothesis L_delta : wire_delta m (repeat 0 32) = Ok (L 1).
Hypothesis L_color : forall v, v < m -> color (L v) = v.
Hypothesis L_ok : forall v, v < m -> wire_ok (L v).
Hypothesis hb_ok : forall v, v < m -> length (hb v) = 32%nat /\ bytes_ok (hb v).
Variable n : nat.
Hypothesis Hn : (1 <= n)%nat.
Hypothesis Hsize : usize_ok (4 * n + 2).
Notation c := (circL n m 0).

(** The hash function: the digests of labels depend on the wire only. *)
Definition bad_sha (x : bytes) : bytes :=
  if Nat.eqb (length x) 40 then
    if bytes_eqb (firstn 8 x) (usize_be (3 * n)) then hb (m - 1)
    else if bytes_eqb (firstn 8 x) (usize_be (4 * n + 1)) then repeat 0 32
    else hb (m - 2)
  else clean (skipn 10 x).
Lemma bad_hash32 : hash32 bad_sha.
Proof using Hm2 hb_ok.
  assert (H1 : m - 1 < m) by (clear - Hm2; lia). assert (H2 : m - 2 < m) by (clear - Hm2; lia).
  intros x. unfold bad_sha. destruct (Nat.eqb (length x) 40); [|apply clean_ok].
  destruct (bytes_eqb _ _); [now apply hb_ok|]. destruct (bytes_eqb _ _); [|now apply hb_ok].
  split; [reflexivity|]. apply Forall_repeat. reflexivity.
Qed.
Lemma bad_head i y : firstn 8 (usize_be i ++ y) = usize_be i.
Proof. change 8%nat with (length (usize_be i)) at 1. rewrite firstn_app, Nat.sub_diag, firstn_all. cbn [firstn]. apply app_nil_r. Qed.
Lemma bad_first p w : length (wval w) = 32%nat -> hash_wire bad_sha p (3 * n) w (L 0) = Ok (L (m - 1)).
Proof.
  intros Hw. unfold hash_wire, bad_sha. rewrite app_length, Hw. change (length (usize_be (3 * n)) + 32)%nat with 40%nat.
  cbn [Nat.eqb]. rewrite bad_head, bytes_eqb_refl, L_dom. apply L_from. lia.
Qed.
Lemma hash_dom p o w t t' : wdom t = wdom t' -> hash_wire bad_sha p o w t = hash_wire bad_sha p o w t'.
Proof. unfold hash_wire. intros ->. reflexivity. Qed.
Lemma other_index i j : i <> j -> (i < 4 * n + 2)%nat -> (j < 4 * n + 2)%nat -> bytes_eqb (usize_be i) (usize_be j) = false.
Proof.
  intros Hne Hi Hj. destruct (bytes_eqb (usize_be i) (usize_be j)) eqn:E; [|reflexivity].
  apply bytes_eqb_eq in E. exfalso. apply Hne. unfold usize_ok in Hsize.
  apply Nat2N.inj. apply (be_bytes_inj 8) in E; [exact E| |]; cbn; lia.
Qed.
Lemma bad_other p w o : (3 * n < o < 4 * n + 1)%nat -> length (wval w) = 32%nat -> hash_wire bad_sha p o w (L 0) = Ok (L (m - 2)).
Proof.
  intros Ho Hw. unfold hash_wire, bad_sha. rewrite app_length, Hw. change (length (usize_be o) + 32)%nat with 40%nat.
  cbn [Nat.eqb]. rewrite bad_head, !other_index by lia. rewrite L_dom. apply L_from. lia.
Qed.
Lemma bad_last p w t : wdom t = Binary -> length (wval w) = 32%nat -> hash_wire bad_sha p (4 * n + 1) w t = Ok wire_empty.
Proof.
  intros Ht Hw. unfold hash_wire, bad_sha. rewrite app_length, Hw. change (length (usize_be (4 * n + 1)) + 32)%nat with 40%nat.
  cbn [Nat.eqb]. rewrite bad_head, other_index by lia. rewrite bytes_eqb_refl, Ht. reflexivity.
Qed.
Lemma bad_key o k w : length (wval w) = 32%nat -> bytes_ok (wval w) -> bad_sha (dec_string o k w) = wval w.
Proof.
  intros Hl Hb. unfold bad_sha, dec_string. change (Nat.eqb _ 40) with (Nat.eqb (10 + length (wval w)) 40). rewrite Hl. cbn [Nat.eqb Nat.add].
  change (skipn 10 _) with (wval w). unfold clean. rewrite <- Hl at 1.
  rewrite firstn_app, Nat.sub_diag, firstn_all. cbn [firstn]. rewrite app_nil_r.
  rewrite <- (map_id (wval w)) at 2. apply map_ext_in. intros b Hin. apply N.mod_small.
  unfold bytes_ok in Hb. rewrite Forall_forall in Hb. now apply Hb.
Qed.

(** Arithmetic. *)
Lemma urem_b x : urem x m = Ok (x mod m).
Proof. unfold urem. destruct (N.eqb_spec m 0); [lia|reflexivity]. Qed.
Lemma wrap_sum u v : B <= u + v -> u < m -> v < m -> (u + v) mod B mod m = u + v - B.
Proof.
  intros H Hu Hv. assert (Hlt : m < B) by lia. rewrite (N.mod_eq (u + v) B) by lia.
  assert (E : (u + v) / B = 1) by (symmetry; apply (N.div_unique _ _ _ (u + v - B)); lia).
  rewrite E, N.mul_1_r. apply N.mod_small. lia.
Qed.
Lemma plain_sum u v : u + v < m -> (u + v) mod B mod m = u + v.
Proof. intros H. rewrite (N.mod_small _ B) by lia. apply N.mod_small. lia. Qed.

(** The garbler's labels. *)
Definition Z (i : nat) : wire :=
  if Nat.ltb i (3 * n) then wire_empty
  else if Nat.eqb i (3 * n) then L (m - 1)
  else if Nat.ltb i (4 * n) then L 0
  else if Nat.eqb i (4 * n) then L (m - 1) else o2.
Lemma Z_bit i : (i < 3 * n)%nat -> Z i = wire_empty.
Proof. intros H. unfold Z. now rewrite (proj2 (Nat.ltb_lt i (3 * n))) by lia. Qed.
Lemma Z_first : Z (3 * n) = L (m - 1).
Proof. unfold Z. rewrite Nat.ltb_irrefl, Nat.eqb_refl. reflexivity. Qed.
Lemma Z_proj i : (3 * n < i < 4 * n)%nat -> Z i = L 0.
Proof.
  intros H. unfold Z. rewrite (proj2 (Nat.ltb_ge i (3 * n))), (proj2 (Nat.eqb_neq i (3 * n))), (proj2 (Nat.ltb_lt i (4 * n))) by lia. reflexivity.
Qed.
Lemma Z_sum : Z (4 * n) = L (m - 1).
Proof.
  unfold Z. rewrite (proj2 (Nat.ltb_ge (4 * n) (3 * n))), (proj2 (Nat.eqb_neq (4 * n) (3 * n))), (proj2 (Nat.ltb_ge (4 * n) (4 * n))) by lia.
  now rewrite Nat.eqb_refl.
Qed.
Lemma Z_last : Z (4 * n + 1) = o2.
Proof.
  unfold Z. rewrite (proj2 (Nat.ltb_ge (4 * n + 1) (3 * n))), (proj2 (Nat.eqb_neq (4 * n + 1) (3 * n))),
    (proj2 (Nat.ltb_ge (4 * n + 1) (4 * n))), (proj2 (Nat.eqb_neq (4 * n + 1) (4 * n))) by lia. reflexivity.
Qed.
Lemma idx_Z i k : (i < k)%nat -> idx (map Z (seq 0 k)) i = Ok (Z i).
Proof.
  intros H. rewrite (idx_lt _ i (Z 0)) by (rewrite map_length, seq_length; auto).
  rewrite map_nth, seq_nth by auto. reflexivity.
Qed.

Section GarbleBad.
Variable p : profile.
Variable dl : deltas.
Hypothesis L2 : alookup N.eqb 2 dl = Some e2.
Hypothesis Lm : alookup N.eqb m dl = Some (L 1).

Lemma e2_wf : WF 2 e2.
Proof.
  apply label_WF; [exact sup2|]. split; [reflexivity|]. split; [reflexivity|]. split; [|congruence].
  cbn [e2 wval]. apply Forall_app. split; [apply Forall_repeat|constructor; [|constructor]]; unfold byte_ok; lia.
Qed.
Lemma len_e2 : length (wval e2) = 32%nat. Proof. reflexivity. Qed.
Lemma len_empty : length (wval wire_empty) = 32%nat. Proof. reflexivity. Qed.

(** A projection, given the digest for its wire. *)
Lemma proj_bad ws i o h v :
  (i < length ws)%nat -> nth i ws wire_empty = wire_empty -> h < m -> v < m ->
  (forall w, length (wval w) = 32%nat -> hash_wire bad_sha p o w (L 0) = Ok (L h)) ->
  (m - (h + 2) mod B mod m) mod m = v ->
  exists ct, wire_ok ct /\
    garble_proj bad_sha p dl ws (mkGate o 2 [i] (GProj (PMap m))) (PMap m) =
      Ok (L v, [L ((h + v) mod B mod m); ct]).
Proof.
  intros Hi Hw Hh Hv HH Ev. unfold garble_proj. cbn [proj_domain g_inputs g_domain g_output].
  destruct (b_add p) as (A1 & A2 & A3 & A4 & A5 & A6 & A7). destruct (b_sub p) as (S1 & S2). destruct (b_mul p) as (M0 & M1).
  rewrite (idx_lt [i] 0 0%nat) by (simpl; lia). cbn [obind nth].
  rewrite (idx_lt ws i wire_empty) by auto. cbn [obind]. rewrite Hw.
  unfold dlookup. rewrite L2, Lm. cbn [unwrap obind]. change (color wire_empty) with 0.
  rewrite M0. cbn [obind]. rewrite S1. cbn [obind].
  rewrite (hash_dom p o wire_empty (L 1) (L 0)) by (now rewrite !L_dom). rewrite HH by exact len_empty. cbn [obind].
  change (usub p 16 2 0) with (Ok 2 : outcome N). cbn [obind]. unfold project at 1. rewrite urem_b. cbn [obind].
  rewrite (N.mod_small 2 m) by lia. rewrite L_mul by lia. cbn [obind].
  rewrite L_add by lia. cbn [obind]. rewrite L_neg by (apply N.mod_lt; lia). rewrite Ev. cbn [obind].
  change (N.to_nat 2) with 2%nat. cbn [seq foldM repeat]. change (N.of_nat 0) with 0. change (N.of_nat 1) with 1.
  rewrite M0. cbn [obind]. rewrite A1. cbn [obind].
  rewrite (hash_dom p o wire_empty (L v) (L 0)) by (now rewrite !L_dom). rewrite HH by exact len_empty. cbn [obind].
  assert (Hs : (h + v) mod B mod m < m) by (apply N.mod_lt; lia).
  rewrite !(L_add p h v) by lia. remember ((h + v) mod B mod m) as a eqn:Ea. clear Ev. cbn [obind]. unfold project. rewrite !urem_b. cbn [obind].
  rewrite N.mod_0_l, (N.mod_small 1 m) by lia. rewrite !L_mul by lia. cbn [obind].
  rewrite L_add by lia. cbn [obind]. rewrite N.add_0_r.
  rewrite (N.mod_small a B) by lia. rewrite (N.mod_small a m) by exact Hs.
  change (uadd p 16 0 0) with (Ok 0 : outcome N). cbn [obind]. change (urem 0 2) with (Ok 0 : outcome N). cbn [obind].
  change (set_idx [wire_empty; wire_empty] (N.to_nat 0) (L a)) with (Ok [L a; wire_empty]). cbn [obind].
  rewrite M1. cbn [obind]. rewrite A2. cbn [obind].
  rewrite (hash_dom p o e2 (L v) (L 0)) by (now rewrite !L_dom). rewrite HH by exact len_e2. cbn [obind].
  rewrite (L_add p h v) by lia. rewrite <- Ea. cbn [obind]. rewrite L_add by lia. cbn [obind].
  change (uadd p 16 1 0) with (Ok 1 : outcome N). cbn [obind]. change (urem 1 2) with (Ok 1 : outcome N). cbn [obind].
  exists (L ((a + 1) mod B mod m)). split; [apply L_ok; apply N.mod_lt; lia|]. reflexivity.
Qed.

Lemma o2_ok : wire_ok o2.
Proof. split; [exact I|]. split; [reflexivity|]. apply Forall_repeat. unfold byte_ok. lia. Qed.
Lemma t2_ok : wire_ok t2.
Proof.
  split; [exact I|]. split; [reflexivity|]. apply Forall_app. split; [apply Forall_repeat; unfold byte_ok; lia|].
  constructor; [unfold byte_ok; lia|constructor].
Qed.
Lemma empty_ok : wire_ok wire_empty.
Proof. split; [exact I|]. split; [reflexivity|]. apply Forall_repeat. unfold byte_ok. lia. Qed.
Definition rows_bad (tbl : list wire) : Prop :=
  length tbl = N.to_nat m /\ Forall wire_ok tbl /\
  forall j r, nth_error tbl j = Some r -> j <> N.to_nat (m - 1) -> r = wire_empty \/ r = o2.
Lemma nth_error_repeat_inv {A} (x y : A) k i : nth_error (repeat x k) i = Some y -> y = x.
Proof. intros H. apply nth_error_In in H. now apply repeat_spec in H. Qed.
Lemma less_bad ws i : (forall x, x < m -> exists s, uadd p 16 x (m - 1) = Ok s /\ (x = 0 -> s = m - 1)) -> (i < length ws)%nat -> nth i ws wire_empty = L (m - 1) ->
  exists tbl, rows_bad tbl /\
    garble_proj bad_sha p dl ws (mkGate (4 * n + 1) m [i] (GProj (PLess 1))) (PLess 1) = Ok (o2, tbl).
Proof.
  intros Hpos Hi Hw. unfold garble_proj. cbn [proj_domain g_inputs g_domain g_output].
  destruct (b_add p) as (A1 & A2 & A3 & A4 & A5 & A6 & A7). destruct (b_sub p) as (S1 & S2). destruct (b_mul p) as (M0 & M1).
  rewrite (idx_lt [i] 0 0%nat) by (simpl; lia). cbn [obind nth].
  rewrite (idx_lt ws i wire_empty) by auto. cbn [obind]. rewrite Hw.
  unfold dlookup. rewrite L2, Lm. cbn [unwrap obind]. rewrite L_color by lia.
  rewrite L_mul by lia. cbn [obind]. rewrite L_sub by lia. cbn [obind].
  replace (m - 1 + (m - (m - 1))) with m by lia. rewrite N.mod_same by lia.
  rewrite bad_last by (try reflexivity; apply L_len; lia). cbn [obind].
  unfold usub at 1. rewrite (proj2 (N.leb_le (m - 1) m)) by lia. cbn [obind].
  replace (m - (m - 1)) with 1 by lia. change (project (PLess 1) 1) with (Ok 0 : outcome N). cbn [obind].
  rewrite M0. cbn [obind]. rewrite A1. cbn [obind]. rewrite b_neg. cbn [obind].
  set (body := fun (tbl : list wire) (xn : nat) => _).
  assert (Hbody : forall tbl xn, (xn < N.to_nat m)%nat -> length tbl = N.to_nat m ->
     exists q, body tbl xn = Ok (set_nth tbl q (if Nat.eqb xn 0 then t2 else o2)) /\ (q < N.to_nat m)%nat /\
       (xn = 0%nat -> q = N.to_nat (m - 1))).
  { intros tbl xn Hx Hl. unfold body. assert (Hxm : N.of_nat xn < m) by lia.
    rewrite L_mul by lia. cbn [obind]. rewrite L_add by lia. cbn [obind].
    rewrite bad_last by (try reflexivity; apply L_len; apply N.mod_lt; lia). cbn [obind].
    rewrite A5. cbn [obind]. unfold project. cbn [obind].
    destruct (Hpos (N.of_nat xn) Hxm) as (s & Es & Ez).
    assert (Hq : s mod m < m) by (apply N.mod_lt; lia).
    exists (N.to_nat (s mod m)). split; [|split; [lia|]].
    - destruct xn as [|xn].
      + change (N.of_nat 0 <? 1) with true. cbv iota. rewrite M1. cbn [obind]. rewrite A7. cbn [obind].
        rewrite Es. cbn [obind]. rewrite urem_b. cbn [obind Nat.eqb]. apply set_idx_lt. lia.
      + rewrite (proj2 (N.ltb_ge (N.of_nat (S xn)) 1)) by lia. rewrite M0. cbn [obind]. rewrite A6. cbn [obind].
        rewrite Es. cbn [obind]. rewrite urem_b. cbn [obind Nat.eqb]. apply set_idx_lt. lia.
    - intros ->. rewrite Ez by reflexivity. now rewrite N.mod_small by lia. }
  destruct (foldM_inv body (fun _ tbl => rows_bad tbl) (seq 0 (N.to_nat m)) (repeat wire_empty (N.to_nat m))) as (tbl & Et & Ht).
  - split; [apply repeat_length|]. split; [apply Forall_repeat; exact empty_ok|].
    intros j r Hj _. left. now apply nth_error_repeat_inv in Hj.
  - intros q a tbl Hq (Hl & Hok & Hr).
    assert (Ha : (a < N.to_nat m)%nat) by (apply nth_error_In in Hq; apply in_seq in Hq; lia).
    destruct (Hbody tbl a Ha Hl) as (pos & E & Hp & Hz). eexists. split; [exact E|].
    split; [now rewrite set_nth_length|]. split.
    + apply Forall_forall. intros w Hin. apply In_nth_error in Hin as [j Hj].
      rewrite set_nth_nth_error in Hj by lia. destruct (Nat.eqb_spec j pos).
      * inversion Hj. destruct (Nat.eqb a 0); [exact t2_ok|exact o2_ok].
      * rewrite Forall_forall in Hok. apply Hok. eapply nth_error_In; eauto.
    + intros j r Hj Hne. rewrite set_nth_nth_error in Hj by lia. destruct (Nat.eqb_spec j pos) as [->|].
      * inversion Hj. destruct (Nat.eqb_spec a 0) as [E0|_]; [|now right]. exfalso. apply Hne. now apply Hz.
      * now apply (Hr j).
  - rewrite Et. cbn [obind]. exists tbl. split; [exact Ht|reflexivity].
Qed.

Definition row_first : wire := L (2 * m - 2 - B).
Definition GB (k : nat) (s : gstate) : Prop :=
  gs_wires s = map Z (seq 0 (2 * n + k)) /\ gs_half s = [] /\
  (forall o, (3 * n <= o < 4 * n)%nat -> (o < 2 * n + k)%nat -> exists ct,
     alookup Nat.eqb o (gs_f s) = Some [if Nat.eqb o (3 * n) then row_first else L (m - 2); ct]) /\
  Forall (fun kv => wires_ok (snd kv)) (gs_f s) /\
  ((k <= 2 * n + 1)%nat -> gs_d s = []) /\
  ((2 * n + 2 <= k)%nat -> exists tbl, rows_bad tbl /\ alookup Nat.eqb (4 * n + 1)%nat (gs_f s) = Some tbl /\
    exists h0, gs_d s = [[h0; wval t2]]).

Lemma wires_grow k s w : gs_wires s = map Z (seq 0 (2 * n + k)) -> Z (2 * n + k) = w ->
  gs_wires s ++ [w] = map Z (seq 0 (2 * n + S k)).
Proof.
  intros -> <-. replace (2 * n + S k)%nat with (2 * n + k + 1)%nat by lia.
  rewrite (seq_app (2 * n + k) 1 0), map_app. reflexivity.
Qed.
Lemma nth_Z i k : (i < k)%nat -> nth i (map Z (seq 0 k)) wire_empty = Z i.
Proof.
  intros H. rewrite (nth_indep _ wire_empty (Z 0)) by (rewrite map_length, seq_length; auto).
  rewrite map_nth, seq_nth by auto. reflexivity.
Qed.
Lemma sum_bad p' : wsum p' (map Z (seq (3 * n) n)) = Ok (L (m - 1)).
Proof.
  assert (Es : seq (3 * n) n = (3 * n)%nat :: seq (S (3 * n)) (n - 1)).
  { replace n with (S (n - 1)) at 2 by lia. reflexivity. }
  rewrite Es. cbn [map wsum]. rewrite Z_first.
  assert (H : forall l, (forall w, In w l -> w = L 0) -> foldM (wadd p') l (L (m - 1)) = Ok (L (m - 1))).
  { induction l as [|w l IH]; intros Hl; [reflexivity|]. cbn [foldM]. rewrite (Hl w) by now left.
    rewrite L_add by lia. cbn [obind]. rewrite plain_sum, N.add_0_r by lia. apply IH. intros; apply Hl; now right. }
  apply H. intros w Hw. apply in_map_iff in Hw as (i & <- & Hi). apply in_seq in Hi. apply Z_proj. lia.
Qed.
Lemma step_bad k g s :
  ((k <= 2 * n)%nat \/ forall x, x < m -> exists s, uadd p 16 x (m - 1) = Ok s /\ (x = 0 -> s = m - 1)) ->
  nth_error (gates c) k = Some g -> GB k s ->
  exists s', garble_gate bad_sha p dl (4 * n + 1) s g = Ok s' /\ GB (S k) s'.
Proof.
  intros Hpos Hk (Hws & Hh & HT & Hok & Hd & Hd').
  destruct (b_add p) as (A1 & A2 & A3 & A4 & A5 & A6 & A7). destruct (b_mul p) as (M0 & M1).
  unfold garble_gate, garble_label.
  destruct (circL_cases n m 0 k g Hk) as [[Hc ->]|[[Hc ->]|[[Hc ->]|[Hc ->]]]]; cbn [g_kind g_inputs g_output].
  - cbn [mapM]. rewrite Hws, !idx_Z by lia. cbn [obind]. rewrite !Z_bit by lia. cbn [wsum foldM]. rewrite A1. cbn [obind].
    rewrite (proj2 (Nat.leb_gt (4 * n + 1) (k + 2 * n))) by lia.
    eexists. split; [reflexivity|]. unfold GB. cbn [gs_wires gs_f gs_half gs_d].
    split. { rewrite <- Hws. apply wires_grow; [exact Hws|]. apply Z_bit. lia. }
    split; [exact Hh|]. split; [intros; lia|]. split; [exact Hok|]. split; intros; [apply Hd|]; lia.
  - assert (Eo : exists h v, h < m /\ v < m /\ (forall w, length (wval w) = 32%nat -> hash_wire bad_sha p (k + 2 * n) w (L 0) = Ok (L h)) /\
       (m - (h + 2) mod B mod m) mod m = v /\ Z (2 * n + k) = L v /\
       L ((h + v) mod B mod m) = (if Nat.eqb (k + 2 * n) (3 * n) then row_first else L (m - 2))).
    { destruct (Nat.eq_dec k n) as [->|Hne].
      - exists (m - 1), (m - 1). split; [lia|]. split; [lia|]. split.
        { intros w Hw. replace (n + 2 * n)%nat with (3 * n)%nat by lia. now apply bad_first. }
        split. { replace (m - 1 + 2) with (m + 1) by lia. rewrite (N.mod_small _ B) by lia.
          rewrite (N.mod_eq (m + 1) m) by lia. replace ((m + 1) / m) with 1 by (apply (N.div_unique _ _ _ 1); lia).
          replace (m - (m + 1 - m * 1)) with (m - 1) by lia. apply N.mod_small. lia. }
        split. { replace (2 * n + n)%nat with (3 * n)%nat by lia. apply Z_first. }
        replace (n + 2 * n)%nat with (3 * n)%nat by lia. rewrite Nat.eqb_refl. unfold row_first. f_equal.
        rewrite wrap_sum by lia. lia.
      - exists (m - 2), 0. split; [lia|]. split; [lia|]. split.
        { intros w Hw. apply bad_other; [lia|exact Hw]. }
        split. { replace (m - 2 + 2) with m by lia. rewrite (N.mod_small m B) by lia. rewrite N.mod_same by lia.
          rewrite N.sub_0_r. apply N.mod_same. lia. }
        split. { apply Z_proj. lia. }
        rewrite (proj2 (Nat.eqb_neq (k + 2 * n) (3 * n))) by lia. f_equal. rewrite plain_sum by lia. lia. }
    destruct Eo as (h & v & Hh' & Hv & HH & Ev & EZ & ER).
    destruct (proj_bad (gs_wires s) (k + n)%nat (k + 2 * n)%nat h v) as (ct & Hct & Ep); auto.
    { rewrite Hws, map_length, seq_length. lia. }
    { rewrite Hws, nth_Z by lia. apply Z_bit. lia. }
    rewrite Ep. cbn [obind]. rewrite (proj2 (Nat.leb_gt (4 * n + 1) (k + 2 * n))) by lia.
    eexists. split; [reflexivity|]. unfold GB. cbn [gs_wires gs_f gs_half gs_d].
    split. { now apply wires_grow. }
    split; [exact Hh|]. split.
    { intros o H1 H2. destruct (Nat.eq_dec o (k + 2 * n)) as [->|Hne].
      - exists ct. rewrite nat_lookup_same, ER. reflexivity.
      - rewrite nat_lookup_other by auto. apply HT; lia. }
    split. { apply ainsert_tables; auto. split; [cbn; unfold usize_ok; cbn; lia|].
      constructor; [apply L_ok; apply N.mod_lt; lia|]. constructor; [exact Hct|constructor]. }
    split; intros; [apply Hd|]; lia.
  - rewrite Hws. rewrite (mapM_Ok _ Z).
    2:{ intros i Hi. apply in_seq in Hi. apply idx_Z. lia. }
    cbn [obind]. rewrite sum_bad. cbn [obind].
    rewrite (proj2 (Nat.leb_gt (4 * n + 1) (4 * n))) by lia.
    eexists. split; [reflexivity|]. unfold GB. cbn [gs_wires gs_f gs_half gs_d].
    split. { rewrite <- Hws. apply wires_grow; [exact Hws|]. replace (2 * n + k)%nat with (4 * n)%nat by lia. apply Z_sum. }
    split; [exact Hh|]. split. { intros o H1 H2. apply HT; lia. }
    split; [exact Hok|]. split; intros; [apply Hd|]; lia.
  - destruct Hpos as [Hpos|Hpos]; [lia|].
    destruct (less_bad (gs_wires s) (4 * n)%nat Hpos) as (tbl & Ht & Ep).
    { rewrite Hws, map_length, seq_length. lia. }
    { rewrite Hws, nth_Z by lia. apply Z_sum. }
    change (0 + 1) with 1. rewrite Ep. cbn [obind]. rewrite Nat.leb_refl.
    unfold garble_dec. unfold output_domain. cbn [g_kind proj_domain g_output]. change (N.to_nat 2) with 2%nat. cbn [seq mapM gs_wires].
    rewrite (wires_grow k s o2 Hws) by (replace (2 * n + k)%nat with (4 * n + 1)%nat by lia; apply Z_last).
    rewrite idx_Z by lia. rewrite Z_last. cbn [obind]. unfold dlookup. rewrite L2. cbn [unwrap obind].
    change (N.of_nat 0) with 0. change (N.of_nat 1) with 1.
    rewrite M0. cbn [obind]. rewrite A6. cbn [obind]. rewrite M1. cbn [obind]. rewrite A7. cbn [obind].
    eexists. split; [reflexivity|]. unfold GB. cbn [gs_wires gs_f gs_half gs_d].
    split; [reflexivity|]. split; [exact Hh|]. split.
    { intros o H1 H2. rewrite nat_lookup_other by lia. apply HT; lia. }
    destruct Ht as (Ht1 & Ht2 & Ht3).
    split. { apply ainsert_tables; auto. split; [|exact Ht2]. unfold usize_ok. rewrite Ht1. lia. }
    split; intros; [lia|]. exists tbl. split; [now repeat split|]. split; [apply nat_lookup_same|].
    rewrite Hd by lia. cbn [app]. exists (hash bad_sha (4 * n + 1) 0 o2).
    rewrite <- (bad_key (4 * n + 1) 1 t2) by apply t2_ok. reflexivity.
Qed.
End GarbleBad.

Lemma proj_no_overflow sha dl ws g k r ii wi : garble_proj sha Debug dl ws g k = Ok r ->
  idx (g_inputs g) 0 = Ok ii -> idx ws ii = Ok wi -> forall x, x < g_domain g -> x + color wi < 65536.
Proof.
  intros H E1 E2 x Hx. unfold garble_proj in H. rewrite E1 in H. cbn [obind] in H. rewrite E2 in H. cbn [obind] in H.
  do 10 (apply obind_Ok in H as (? & _ & H)).
  apply obind_Ok in H as (tbl & H & _).
  assert (Eq : seq 0 (N.to_nat (g_domain g)) = seq 0 (N.to_nat x) ++ (0 + N.to_nat x)%nat :: seq (S (0 + N.to_nat x)) (N.to_nat (g_domain g) - N.to_nat x - 1)).
  { replace (N.to_nat (g_domain g)) with (N.to_nat x + S (N.to_nat (g_domain g) - N.to_nat x - 1))%nat at 1 by lia.
    now rewrite seq_app. }
  rewrite Eq in H. apply foldM_step in H as (t1 & t2' & H).
  do 7 (apply obind_Ok in H as (? & _ & H)).
  apply obind_Ok in H as (pos & H & _). rewrite Nat.add_0_l, N2Nat.id in H.
  unfold uadd in H. change (2 ^ 16) with 65536 in H. destruct (x + color wi <? 65536) eqn:E; [now apply N.ltb_lt|discriminate].
Qed.

(** ** What the evaluator gets *)
Section EvalBad.
Variable p' : profile.
Variable gc : garbled.
Hypothesis Ec : gc_circuit gc = c.
Hypothesis HT : forall o, (3 * n <= o < 4 * n)%nat -> exists ct,
  alookup Nat.eqb o (gc_f gc) = Some [if Nat.eqb o (3 * n) then row_first else L (m - 2); ct].
Variable tbl : list wire.
Hypothesis Ht : rows_bad tbl.
Hypothesis Hlast : alookup Nat.eqb (4 * n + 1)%nat (gc_f gc) = Some tbl.
Variable bits : list bool.
Hypothesis Hbits : length bits = n.
Notation lbl := (fun b : bool => if b then e2 else wire_empty).
Notation x := (map lbl (bits ++ bits)).
Notation e := (2 * m - 1 - B).

Definition Y (i : nat) : wire :=
  if Nat.ltb i (2 * n) then nth i x wire_empty
  else if Nat.ltb i (3 * n) then wire_empty
  else if Nat.eqb i (3 * n) then L e
  else if Nat.ltb i (4 * n) then L 0 else L e.
Lemma Y_in i : (i < 2 * n)%nat -> Y i = nth i x wire_empty.
Proof. intros H. unfold Y. now rewrite (proj2 (Nat.ltb_lt i (2 * n))) by lia. Qed.
Lemma Y_bit i : (2 * n <= i < 3 * n)%nat -> Y i = wire_empty.
Proof. intros H. unfold Y. rewrite (proj2 (Nat.ltb_ge i (2 * n))), (proj2 (Nat.ltb_lt i (3 * n))) by lia. reflexivity. Qed.
Lemma Y_first : Y (3 * n) = L e.
Proof. unfold Y. rewrite (proj2 (Nat.ltb_ge (3 * n) (2 * n))), Nat.ltb_irrefl, Nat.eqb_refl by lia. reflexivity. Qed.
Lemma Y_proj i : (3 * n < i < 4 * n)%nat -> Y i = L 0.
Proof.
  intros H. unfold Y. rewrite (proj2 (Nat.ltb_ge i (2 * n))), (proj2 (Nat.ltb_ge i (3 * n))), (proj2 (Nat.eqb_neq i (3 * n))),
    (proj2 (Nat.ltb_lt i (4 * n))) by lia. reflexivity.
Qed.
Lemma Y_sum : Y (4 * n) = L e.
Proof.
  unfold Y. rewrite (proj2 (Nat.ltb_ge (4 * n) (2 * n))), (proj2 (Nat.ltb_ge (4 * n) (3 * n))), (proj2 (Nat.eqb_neq (4 * n) (3 * n))),
    (proj2 (Nat.ltb_ge (4 * n) (4 * n))) by lia. reflexivity.
Qed.
Lemma x_length : length x = (2 * n)%nat.
Proof. rewrite map_length, app_length. lia. Qed.
Lemma x_twice i : (i < n)%nat -> exists b, nth i x wire_empty = lbl b /\ nth (i + n) x wire_empty = lbl b.
Proof.
  intros Hi. exists (nth i bits false).
  pose proof (map_nth lbl (bits ++ bits) false) as M. cbv beta iota in M. rewrite !M.
  rewrite app_nth1 by lia. rewrite app_nth2 by lia. replace (i + n - length bits)%nat with i by lia. auto.
Qed.
Definition EB (k : nat) (st : list (option wire) * nat * nat) : Prop :=
  let '(es, _, _) := st in length es = (4 * n + 2)%nat /\
  (forall i, (i < 2 * n + k)%nat -> (i < 4 * n + 1)%nat -> nth_error es i = Some (Some (Y i))) /\
  ((2 * n + 2 <= k)%nat -> exists r, nth_error es (4 * n + 1) = Some (Some r) /\ (r = wire_empty \/ r = o2)).
Lemma EB_set k es j0 j1 o w : EB k (es, j0, j1) -> o = (2 * n + k)%nat -> (o < 4 * n + 2)%nat ->
  ((o < 4 * n + 1)%nat -> w = Y o) -> (o = (4 * n + 1)%nat -> w = wire_empty \/ w = o2) ->
  exists es', set_idx es o (Some w) = Ok es' /\ EB (S k) (es', j0, j1).
Proof.
  intros (Hl & He & _) Eo Ho H1 H2. rewrite set_idx_lt by lia. eexists. split; [reflexivity|].
  split. { now rewrite set_nth_length. } split.
  - intros i Hi Hi'. rewrite set_nth_nth_error by lia. destruct (Nat.eqb_spec i o) as [->|Hne].
    + rewrite H1 by lia. reflexivity.
    + apply He; lia.
  - intros Hk. exists w. split; [|apply H2; lia]. rewrite set_nth_nth_error by lia.
    replace o with (4 * n + 1)%nat by lia. now rewrite Nat.eqb_refl.
Qed.
Lemma sum_eval : wsum p' (map Y (seq (3 * n) n)) = Ok (L e).
Proof.
  assert (Es : seq (3 * n) n = (3 * n)%nat :: seq (S (3 * n)) (n - 1)).
  { replace n with (S (n - 1)) at 2 by lia. reflexivity. }
  rewrite Es. cbn [map wsum]. rewrite Y_first.
  assert (H : forall l, (forall w, In w l -> w = L 0) -> foldM (wadd p') l (L e) = Ok (L e)).
  { induction l as [|w l IH]; intros Hl; [reflexivity|]. cbn [foldM]. rewrite (Hl w) by now left.
    rewrite L_add by lia. cbn [obind]. rewrite plain_sum, N.add_0_r by lia. apply IH. intros; apply Hl; now right. }
  apply H. intros w Hw. apply in_map_iff in Hw as (i & <- & Hi). apply in_seq in Hi. apply Y_proj. lia.
Qed.
Lemma eval_step_bad k g st : nth_error (gates c) k = Some g -> EB k st ->
  exists st', eval_garbled_gate bad_sha p' gc st g = Ok st' /\ EB (S k) st'.
Proof.
  intros Hk. destruct st as [[es j0] j1]. intros HE. assert (HE' := HE). destruct HE' as (Hl & He & _).
  destruct (b_add p') as (A1 & A2 & A3 & A4 & A5 & A6 & A7). destruct (b_sub p') as (S1 & S2).
  unfold eval_garbled_gate.
  destruct (circL_cases n m 0 k g Hk) as [[Hc ->]|[[Hc ->]|[[Hc ->]|[Hc ->]]]]; cbn [g_kind g_inputs g_output].
  - destruct (x_twice k) as (b & X1 & X2). lia.
    cbn [mapM]. rewrite (read_flat es k (Y k)), (read_flat es (k + n)%nat (Y (k + n))) by (apply He; lia). cbn [obind].
    rewrite !Y_in by lia. rewrite X1, X2. cbn [wsum foldM].
    assert (Ea : wadd p' (lbl b) (lbl b) = Ok wire_empty) by (destruct b; assumption). rewrite Ea. cbn [obind].
    destruct (EB_set k es j0 j1 (k + 2 * n)%nat wire_empty HE) as (es' & -> & HE'); try lia; auto.
    { intros _. symmetry. apply Y_bit. lia. }
    cbn [obind]. eauto.
  - rewrite (idx_lt [(k + n)%nat] 0 0%nat) by (simpl; lia). cbn [obind nth].
    rewrite (read_flat es (k + n)%nat (Y (k + n))) by (apply He; lia). rewrite Y_bit by lia. cbn [obind].
    destruct (HT (k + 2 * n)%nat) as (ct & ->). lia. cbn [unwrap obind].
    change (N.to_nat (color wire_empty)) with 0%nat. cbn [idx nth_error unwrap obind].
    destruct (Nat.eqb_spec (k + 2 * n) (3 * n)) as [E|E].
    + rewrite E. unfold row_first.
      rewrite (hash_dom p' (3 * n) wire_empty (L (2 * m - 2 - B)) (L 0)) by (now rewrite !L_dom).
      rewrite bad_first by reflexivity. cbn [obind]. rewrite L_sub by lia. cbn [obind].
      replace (2 * m - 2 - B + (m - (m - 1))) with e by lia. rewrite N.mod_small by lia.
      destruct (EB_set k es j0 j1 (3 * n)%nat (L e) HE) as (es' & -> & HE'); try lia; auto.
      { intros _. symmetry. apply Y_first. }
      cbn [obind]. eauto.
    + rewrite (hash_dom p' (k + 2 * n) wire_empty (L (m - 2)) (L 0)) by (now rewrite !L_dom).
      rewrite bad_other by (try reflexivity; lia). cbn [obind]. rewrite L_sub by lia. cbn [obind].
      replace (m - 2 + (m - (m - 2))) with m by lia. rewrite N.mod_same by lia.
      destruct (EB_set k es j0 j1 (k + 2 * n)%nat (L 0) HE) as (es' & -> & HE'); try lia; auto.
      { intros _. symmetry. apply Y_proj. lia. }
      cbn [obind]. eauto.
  - rewrite (mapM_Ok _ Y).
    2:{ intros i Hi. apply in_seq in Hi. apply read_flat. apply He; lia. }
    cbn [obind]. rewrite sum_eval. cbn [obind].
    destruct (EB_set k es j0 j1 (4 * n)%nat (L e) HE) as (es' & -> & HE'); try lia; auto.
    { intros _. symmetry. apply Y_sum. }
    cbn [obind]. eauto.
  - rewrite (idx_lt [(4 * n)%nat] 0 0%nat) by (simpl; lia). cbn [obind nth].
    rewrite (read_flat es (4 * n)%nat (Y (4 * n))) by (apply He; lia). rewrite Y_sum. cbn [obind].
    rewrite Hlast. cbn [unwrap obind]. rewrite L_color by lia.
    destruct Ht as (T1 & T2 & T3).
    destruct (nth_error tbl (N.to_nat e)) as [r|] eqn:Er. 2:{ apply nth_error_None in Er. lia. }
    unfold idx. rewrite Er. cbn [unwrap obind].
    assert (Hr : r = wire_empty \/ r = o2) by (apply (T3 _ _ Er); lia).
    rewrite bad_last by (try (apply L_len; lia); destruct Hr as [-> | ->]; reflexivity). cbn [obind].
    assert (Es : wsub p' r wire_empty = Ok r) by (destruct Hr as [-> | ->]; assumption). rewrite Es. cbn [obind].
    destruct (EB_set k es j0 j1 (4 * n + 1)%nat r HE) as (es' & -> & HE'); try lia; auto.
    cbn [obind]. eauto.
Qed.
Lemma evaluate_bad : exists r, evaluate bad_sha p' gc x = Ok [r] /\ (r = wire_empty \/ r = o2).
Proof.
  unfold evaluate. rewrite Ec. cbn [circL num_inputs num_wires num_outputs].
  replace (n * 2)%nat with (2 * n)%nat by lia.
  rewrite x_length, Nat.eqb_refl, debug_assert_true. cbn [obind].
  destruct (foldM_inv (fun (ws : list (option wire)) i => let* xi := idx x i in set_idx ws i (Some xi))
     (fun q es => length es = (4 * n + 2)%nat /\ forall i, (i < q)%nat -> nth_error es i = Some (Some (nth i x wire_empty)))
     (seq 0 (2 * n)) (repeat None (4 * n + 2))) as (es & Ees & Hl & Hes).
  - split. apply repeat_length. intros; lia.
  - intros q a es Hq [Hl Hes].
    assert (Hq' : (q < 2 * n)%nat). { rewrite <- (seq_length (2 * n) 0). apply nth_error_Some. congruence. }
    assert (a = q). { rewrite (nth_error_nth' _ 0%nat) in Hq by (rewrite seq_length; auto).
      rewrite seq_nth in Hq by auto. inversion Hq; auto. } subst a.
    rewrite (idx_lt x q wire_empty) by (rewrite x_length; lia). cbn [obind].
    rewrite set_idx_lt by lia. eexists; split; [reflexivity|]. split. { now rewrite set_nth_length. }
    intros i Hi. rewrite set_nth_nth_error by lia.
    destruct (Nat.eqb_spec i q) as [->|]; auto. apply Hes; lia.
  - rewrite Ees. cbn [obind]. rewrite seq_length in Hes.
    change (xors1 n ++ tail_gates (2 * n) n m (0 + 1)) with (gates c).
    destruct (foldM_inv (eval_garbled_gate bad_sha p' gc) EB (gates c) (es, 0%nat, 0%nat)) as (st & Est & HEI).
    + split; [exact Hl|]. split; [|intros; lia]. intros i Hi _. rewrite Nat.add_0_r in Hi. rewrite Y_in by lia. now apply Hes.
    + intros. eapply eval_step_bad; eauto.
    + rewrite Est. cbn [obind]. rewrite circL_glength in HEI.
      destruct st as [[es' j0] j1]. destruct HEI as (Hl' & _ & Hes'). cbn [obind].
      rewrite (proj2 (Nat.leb_le 1 (4 * n + 2))) by lia.
      destruct Hes' as (r & Ey & Hr). lia. exists r. split; [|exact Hr].
      assert (Hsk : skipn (4 * n + 2 - 1) es' = [Some r]).
      { replace (4 * n + 2 - 1)%nat with (4 * n + 1)%nat by lia.
        apply nth_error_split in Ey as (l1 & l2 & -> & L1). rewrite app_length in Hl'. cbn [length] in Hl'.
        destruct l2; [|cbn [length] in Hl'; lia].
        rewrite skipn_app, <- L1, Nat.sub_diag, skipn_all. reflexivity. }
      rewrite Hsk. reflexivity.
Qed.
End EvalBad.

(** ** All of it *)
Lemma deltas_bad : exists dl, garble_deltas (fun _ => repeat 0 32) (gates c) = Ok dl /\
  alookup N.eqb 2 dl = Some e2 /\ alookup N.eqb m dl = Some (L 1).
Proof.
  unfold garble_deltas. set (rd := fun _ : N => repeat 0 32).
  assert (E2 : wire_delta 2 (rd 2) = Ok e2) by reflexivity. assert (E1 : wire_delta m (rd m) = Ok (L 1)) by exact L_delta.
  destruct (foldM_inv (fun dl g =>
    let* dl := ensure_delta rd dl (g_domain g) in
    match g_kind g with
    | GProj (PMap t) => ensure_delta rd dl t
    | GProj (PLess _) => ensure_delta rd dl 2
    | _ => Ok dl
    end) (fun k dl => dl_flat rd dl /\ ((1 <= k)%nat -> alookup N.eqb 2 dl = Some e2) /\
      ((n + 1 <= k)%nat -> alookup N.eqb m dl = Some (L 1))) (gates c) []) as (dl & E & _ & H2 & H1).
  - split; [intros q v; discriminate|]. split; intros; lia.
  - intros k g dl Hk (Hf & H2 & H1).
    destruct (circL_cases n m 0 k g Hk) as [[Hc ->]|[[Hc ->]|[[Hc ->]|[Hc ->]]]]; cbn [g_domain g_kind].
    + destruct (ensure_flat rd dl 2 e2 Hf E2) as (dl1 & -> & F1 & L1 & M1). cbn [obind].
      exists dl1. split; [reflexivity|]. split; [exact F1|]. split; [intros; exact L1|]. intros; lia.
    + destruct (ensure_flat rd dl 2 e2 Hf E2) as (dl1 & -> & F1 & L1 & M1). cbn [obind].
      destruct (ensure_flat rd dl1 m (L 1) F1 E1) as (dl2 & -> & F2 & L2 & M2).
      exists dl2. split; [reflexivity|]. split; [exact F2|]. split; intros; auto.
    + destruct (ensure_flat rd dl m (L 1) Hf E1) as (dl1 & -> & F1 & L1 & M1). cbn [obind].
      exists dl1. split; [reflexivity|]. split; [exact F1|]. split; intros; auto. apply M1, H2. lia.
    + destruct (ensure_flat rd dl m (L 1) Hf E1) as (dl1 & -> & F1 & L1 & M1). cbn [obind].
      destruct (ensure_flat rd dl1 2 e2 F1 E2) as (dl2 & -> & F2 & L2 & M2).
      exists dl2. split; [reflexivity|]. split; [exact F2|]. split; intros; auto.
  - rewrite circL_glength in H2, H1. exists dl. split; [exact E|]. split; [apply H2|apply H1]; lia.
Qed.
Lemma inputs_bad : garble_inputs (fun _ => repeat 0 32) (repeat 2 (n * 2)) = Ok (repeat wire_empty (2 * n)).
Proof.
  unfold garble_inputs. rewrite (mapM_const _ wire_empty).
  - rewrite combine_length, seq_length, Nat.min_id, repeat_length. do 2 f_equal. lia.
  - intros [i d] Hin. apply in_combine_r in Hin. apply repeat_spec in Hin. subst d. reflexivity.
Qed.
Lemma empties : map Z (seq 0 (2 * n)) = repeat wire_empty (2 * n).
Proof.
  assert (H : forall l, (forall i, In i l -> (i < 3 * n)%nat) -> map Z l = repeat wire_empty (length l)).
  { induction l as [|i l IH]; intros Hl; [reflexivity|]. cbn [map length repeat]. rewrite Z_bit by (apply Hl; now left).
    f_equal. apply IH. intros; apply Hl; now right. }
  rewrite H by (intros i Hi; apply in_seq in Hi; lia). now rewrite seq_length.
Qed.
Lemma circL_ok_m : circuit_ok c.
Proof.
  unfold circuit_ok. cbn [circL num_wires num_inputs num_outputs]. pose proof Hsize as Hu.
  split; [exact Hu|]. split; [eapply usize_le; [|exact Hu]; lia|]. split; [eapply usize_le; [|exact Hu]; lia|]. split.
  - split. { rewrite circL_glength. eapply usize_le; [|exact Hu]; lia. }
    apply Forall_forall. intros g Hin. apply In_nth_error in Hin as [k Hk].
    pose proof (circL_gate n m 0 k g Hk) as [Ho Hi].
    assert (Hkl : (k < 2 * n + 2)%nat) by (rewrite <- (circL_glength n m 0); apply nth_error_Some; congruence).
    split; [eapply usize_le; [|exact Hu]; lia|].
    assert (Hin : vec_ok usize_ok (g_inputs g)).
    { split.
      - eapply usize_le; [|exact Hu].
        destruct (circL_cases n m 0 k g Hk) as [[? ->]|[[? ->]|[[? ->]|[? ->]]]]; cbn [g_inputs length]; rewrite ?seq_length; lia.
      - eapply Forall_impl; [|exact Hi]. intros i H. cbv beta in H. rewrite Ho in H. eapply usize_le; [|exact Hu]. lia. }
    destruct (circL_cases n m 0 k g Hk) as [[? ->]|[[? ->]|[[? ->]|[? ->]]]]; cbn [g_domain g_kind kind_ok];
      unfold u16_ok; (split; [lia|]); (split; [exact Hin|]); auto; lia.
  - cbn [circL input_domains]. split. { rewrite repeat_length. eapply usize_le; [|exact Hu]; lia. }
    apply Forall_repeat. unfold u16_ok. lia.
Qed.
Lemma garble_bad p : (forall x, x < m -> exists s, uadd p 16 x (m - 1) = Ok s /\ (x = 0 -> s = m - 1)) ->
  exists gc dk, garble_zipped bad_sha p still c = Ok (gc, repeat (wire_empty, e2) (2 * n), dk) /\
    garbled_ok gc /\ gc_circuit gc = c /\ garbler_half_key dk = Ok (wval t2) /\
    forall p' gc2 bits, same_garbled gc2 gc -> length bits = n ->
      exists r, evaluate bad_sha p' gc2 (map (fun b : bool => if b then e2 else wire_empty) (bits ++ bits)) = Ok [r] /\
        (r = wire_empty \/ r = o2).
Proof.
  intros Hpos. destruct deltas_bad as (dl & Edl & L2 & Lm).
  assert (HI : GB 0 (mkGS (repeat wire_empty (2 * n)) [] [] [] 0 0)).
  { unfold GB. cbn [gs_wires gs_f gs_half gs_d]. rewrite Nat.add_0_r. split; [now rewrite empties|]. split; [reflexivity|].
    split; [intros; lia|]. split; [constructor|]. split; intros; [reflexivity|lia]. }
  destruct (foldM_inv (garble_gate bad_sha p dl (4 * n + 1)) GB (gates c) _ HI) as (s & Es & HG).
  { intros. eapply step_bad; eauto. }
  rewrite circL_glength in HG.
  assert (Er : garble_run bad_sha p (g_rd still) (g_ri still) c = Ok (mkEK (repeat wire_empty (2 * n)) dl, (4 * n + 1)%nat, s)).
  { unfold garble_run. cbn [still g_rd g_ri]. rewrite Edl. cbn [obind]. cbn [circL input_domains num_inputs num_outputs num_wires].
    rewrite inputs_bad. cbn [obind]. rewrite repeat_length.
    rewrite (proj2 (Nat.leb_le (n * 2) (2 * n))) by lia. cbn [obind].
    rewrite (proj2 (Nat.leb_le 1 (4 * n + 2))) by lia. cbn [obind].
    replace (4 * n + 2 - 1)%nat with (4 * n + 1)%nat by lia.
    change (mkCircuit _ _ _ _ _) with c. rewrite Es. cbn [obind].
    rewrite firstn_all2 by (rewrite repeat_length; lia). reflexivity. }
  destruct (garble_run_keys _ _ _ _ _ _ _ _ Er) as (N1 & _ & K1 & _ & Len1 & _). rewrite circL_glength in Len1.
  destruct HG as (_ & Hh & HT & Hok & _ & Hlast). destruct Hlast as (tbl & Ht & Hl & h0 & Hd). lia.
  destruct (b_add p) as (A1 & A2 & _).
  exists (mkGC c (gs_f s) (gs_half s)), (mkDK (gs_d s) (4 * n + 1)).
  split.
  { unfold garble_zipped, garble. rewrite Er. cbn [obind]. unfold binary_of_ek. cbn [ek_wires ek_delta].
    replace (forallb _ _) with true.
    2:{ symmetry. apply forallb_forall. intros w Hw. apply repeat_spec in Hw. subst w. reflexivity. }
    cbn [assert_ obind]. unfold dlookup. rewrite L2. cbn [unwrap obind].
    rewrite (mapM_const _ e2).
    2:{ intros w Hw. apply repeat_spec in Hw. subst w. exact A2. }
    cbn [obind]. rewrite repeat_length. unfold zipped. cbn [bk_zeros bk_ones]. rewrite repeat_length.
    rewrite (mapM_const _ (wire_empty, e2)).
    - cbn [obind]. rewrite seq_length. reflexivity.
    - intros i Hi. apply in_seq in Hi. rewrite (idx_lt _ i wire_empty) by (rewrite repeat_length; lia). cbn [obind].
      rewrite (idx_lt _ i e2) by (rewrite repeat_length; lia). cbn [obind]. rewrite !nth_repeat. reflexivity. }
  split.
  { split; [exact circL_ok_m|]. cbn [gc_f gc_half]. pose proof Hsize as Hu. split.
    - split; [split|exact N1].
      + eapply usize_le; [|exact Hu]. lia.
      + rewrite Forall_forall in *. intros kv Hin. split; [|now apply Hok].
        destruct (K1 (fst kv)) as (g & kk & Hg & Eo & _). { apply in_map. exact Hin. }
        apply In_nth_error in Hg as [q Hq]. pose proof (circL_gate n m 0 q g Hq) as [Ho _].
        assert (q < 2 * n + 2)%nat by (rewrite <- (circL_glength n m 0); apply nth_error_Some; congruence).
        eapply usize_le; [|exact Hu]. lia.
    - rewrite Hh. split; [split; [unfold usize_ok; cbn; lia|constructor]|constructor]. }
  split; [reflexivity|]. split. { unfold garbler_half_key. cbn [dk_hashes]. rewrite Hd. reflexivity. }
  intros p' gc2 bits Same Hb. rewrite (evaluate_same bad_sha p' gc2 _ _ Same).
  apply (evaluate_bad p' (mkGC c (gs_f s) (gs_half s)) eq_refl) with (tbl := tbl); auto. cbn [gc_f]. intros o Ho. apply HT; lia.
Qed.

(** In debug builds the position of a row of the comparison's table may overflow. *)
Lemma garble_overflow : 65536 < 2 * m -> forall r, garble_zipped bad_sha Debug still c <> Ok r.
Proof.
  intros Hover r Hr. destruct deltas_bad as (dl & Edl & L2 & Lm).
  assert (HI : GB 0 (mkGS (repeat wire_empty (2 * n)) [] [] [] 0 0)).
  { unfold GB. cbn [gs_wires gs_f gs_half gs_d]. rewrite Nat.add_0_r. split; [now rewrite empties|]. split; [reflexivity|].
    split; [intros; lia|]. split; [constructor|]. split; intros; [reflexivity|lia]. }
  destruct (nth_error (gates c) (2 * n + 1)) as [g|] eqn:Eg.
  2:{ apply nth_error_None in Eg. rewrite circL_glength in Eg. lia. }
  assert (Eg' := Eg). apply nth_error_split in Eg as (l1 & l2 & El & Ll).
  destruct (foldM_inv (garble_gate bad_sha Debug dl (4 * n + 1)) GB l1 _ HI) as (s & Es & HG).
  { intros k gk sk Hk. assert (Hkl : (k < length l1)%nat) by (apply nth_error_Some; congruence).
    apply step_bad; auto; [left; lia|]. rewrite El, nth_error_app1 by exact Hkl. exact Hk. }
  rewrite Ll in HG.
  unfold garble_zipped, garble, garble_run in Hr. cbn [still g_rd g_ri] in Hr. rewrite Edl in Hr. cbn [obind] in Hr.
  cbn [circL input_domains num_inputs num_outputs num_wires] in Hr. rewrite inputs_bad in Hr. cbn [obind] in Hr.
  rewrite repeat_length in Hr. rewrite (proj2 (Nat.leb_le (n * 2) (2 * n))) in Hr by lia. cbn [obind] in Hr.
  rewrite (proj2 (Nat.leb_le 1 (4 * n + 2))) in Hr by lia. cbn [obind] in Hr.
  replace (4 * n + 2 - 1)%nat with (4 * n + 1)%nat in Hr by lia.
  change (mkCircuit _ _ _ _ _) with c in Hr. rewrite El, foldM_app, Es in Hr. cbn [obind foldM] in Hr.
  destruct (garble_gate bad_sha Debug dl (4 * n + 1) s g) as [s'| | |] eqn:Egg; cbn [obind] in Hr; try discriminate.
  destruct (circL_cases n m 0 _ g Eg') as [[Hc _]|[[Hc _]|[[Hc _]|[_ ->]]]]; try lia.
  unfold garble_gate, garble_label in Egg. cbn [g_kind] in Egg.
  destruct (garble_proj bad_sha Debug dl (gs_wires s) _ _) as [r'| | |] eqn:Ep; cbn [obind] in Egg; try discriminate.
  destruct HG as (Hws & _).
  assert (Hno := proj_no_overflow _ _ _ _ _ _ (4 * n)%nat (L (m - 1)) Ep eq_refl). cbn [g_domain] in Hno.
  rewrite Hws, idx_Z, Z_sum in Hno by lia. specialize (Hno eq_refl (m - 1)).
  rewrite L_color in Hno by lia. specialize (Hno ltac:(lia)). lia.
Qed.

(** A run of garbler and evaluator with the same password. *)
Section RunBad.
Variables p p' : profile.
Hypothesis Hpos : forall x, x < m -> exists s, uadd p 16 x (m - 1) = Ok s /\ (x = 0 -> s = m - 1).
Variable otS : list (bytes * bytes) -> proc unit.
Variable otR : list bool -> proc (list bytes).
Hypothesis Hot : ot_correct extension_ok otS otR.
Variable pw : bytes.
Hypothesis Hlen : (length pw * 8)%nat = n.
Hypothesis Hmod : sum_modulus (length pw) = m.

Lemma binary_empty_e2 : forall k, all_binary (repeat (wire_empty, e2) k).
Proof.
  intros k. apply Forall_repeat. split; [|exact (e2_wf p)].
  apply label_WF; [exact sup2|]. split; [reflexivity|]. split; [reflexivity|]. split; [|congruence].
  apply Forall_repeat. unfold byte_ok. lia.
Qed.
Lemma pick_repeat bits : zipWith pick (repeat (wire_empty, e2) (length bits)) bits = map (fun b : bool => if b then e2 else wire_empty) bits.
Proof. induction bits as [|b bits IH]; [reflexivity|]. cbn [length repeat zipWith map]. rewrite IH. destruct b; reflexivity. Qed.
Lemma fpake_run_bad : exists k k', k <> k' /\
  runs (garbler bad_sha p still otS pw 0) (evaluator bad_sha p' otR pw) (Ok k) (Ok k').
Proof.
  assert (Hun : usize_ok n) by (eapply usize_le; [|exact Hsize]; lia).
  destruct (garble_bad p Hpos) as (gc & dk & Eg & Hok & Ec & Ek & Hev).
  set (zs := repeat (wire_empty, e2) (2 * n)) in *.
  assert (Lz : length zs = (2 * n)%nat) by apply repeat_length.
  assert (Hz : all_binary zs) by apply binary_empty_e2.
  assert (Lb : length (u8_vec_to_bool_vec pw) = n) by (rewrite bits_length8; exact Hlen).
  assert (Em : N.of_nat n mod 65536 + 1 = m) by (rewrite <- Hlen; exact Hmod).
  assert (exists gc2, deserialize dec_garbled (enc_garbled (g_order still gc)) = Ok gc2 /\ same_garbled gc2 gc) as (gc2 & Egc & Same).
  { destruct (rt_garbled_any_order gc gc [] Hok) as (g2 & E & S).
    { split; [reflexivity|]. split; apply Permutation.Permutation_refl. }
    exists g2. split; [|exact S]. unfold deserialize. cbn [still g_order]. rewrite app_nil_r in E. now rewrite E. }
  destruct (Hev p' gc2 (u8_vec_to_bool_vec pw) Same Lb) as (r & Er & Hr).
  assert (Wr : length (wval r) = 32%nat /\ bytes_ok (wval r)) by (destruct Hr as [-> | ->]; (split; [reflexivity|]); apply Forall_repeat; unfold byte_ok; lia).
  exists (wval t2), (wval r). split. { destruct Hr as [-> | ->]; discriminate. }
  unfold garbler, evaluator. rewrite Lb.
  eapply runs_lift_l. { apply build_circuit_long; [rewrite Em; lia|lia]. } rewrite Em.
  eapply runs_lift_l; [exact Eg|]. cbv beta iota.
  eapply runs_lift_l. { unfold slice_to. rewrite (proj2 (Nat.leb_le _ _)) by lia. reflexivity. }
  eapply runs_lift_l. { unfold slice_from. rewrite (proj2 (Nat.leb_le _ _)) by lia. reflexivity. }
  set (own := firstn n zs). set (theirs := skipn n zs).
  assert (Lo : length own = n) by (unfold own; rewrite firstn_length; lia).
  assert (Lt : length theirs = n) by (unfold theirs; rewrite skipn_length; lia).
  assert (Hown : all_binary own) by now apply all_binary_firstn.
  assert (Hth : all_binary theirs) by now apply all_binary_skipn.
  destruct (Hot (label_messages theirs) (u8_vec_to_bool_vec pw)) as (out & R & Sel).
  { unfold label_messages. rewrite map_length. lia. }
  { apply labels_extension; [exact Hth|lia| |rewrite Lt; exact Hun]. rewrite Lt, <- Hlen. apply Nat.mod_mul. lia. }
  apply selection_labels in Sel; [|lia].
  eapply runs_bind; [exact R|].
  eapply runs_lift_r. { rewrite Sel. apply received_labels. now apply picked_labels. }
  apply runs_send_recv.
  eapply runs_lift_r; [exact Egc|].
  eapply runs_lift_l. { apply bk_encode_pick. lia. }
  apply runs_send_recv.
  eapply runs_lift_r. { apply sent_wires; [now apply picked_labels|]. rewrite zipWith_length, Lo, Lb, Nat.min_id. exact Hun. }
  eapply runs_lift_r.
  { rewrite <- zipWith_app by lia. unfold own, theirs. rewrite firstn_skipn. unfold zs.
    replace (2 * n)%nat with (length (u8_vec_to_bool_vec pw ++ u8_vec_to_bool_vec pw)) by (rewrite app_length; lia).
    rewrite pick_repeat. exact Er. }
  assert (Ek' : evaluator_half_key bad_sha p' gc2 [r] = Ok (wval r)).
  { unfold evaluator_half_key. destruct Same as (-> & _). rewrite Ec. cbn [circL num_wires].
    unfold usub. destruct (N.leb_spec 1 (N.of_nat (4 * n + 2))); [|lia]. cbn [obind idx nth_error unwrap].
    f_equal. change (bad_sha (be_bytes 8 (N.of_nat (4 * n + 2) - 1) ++ u16_be 1 ++ wval r) = wval r).
    replace (N.of_nat (4 * n + 2) - 1) with (N.of_nat (4 * n + 1)) by lia.
    exact (bad_key (4 * n + 1) 1 r (proj1 Wr) (proj2 Wr)). }
  rewrite Ek, Ek'. apply runs_done.
Qed.
End RunBad.
End Bad.
