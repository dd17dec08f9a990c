(** Property C133: what a party does depends on neither its processor nor its number of cores. *)
From Coq Require Import List NArith Bool Arith Lia.
From Verif Require Import Base MUtil MWires MCircuit MGarble MPar MBitMatrix MPoly MBincode MProc MOt MApricot MMany MFpake MLegacy MLegacy2 MChannel MMain.
From Verif Require Import SpecProc SpecOt SpecApricot SpecGarble SpecFpake SpecMachine PMachine PMachine2 CProfile COt CApricot CCircuit CFpake.
Import ListNotations.
Open Scope N_scope.

(** ** The parts that differ between machines *)
(** The two multiplications, for strings of any length, also where they read outside of them; the second operand is made of bytes. *)
Theorem C133_multiplication : forall acc x y, bytes_ok y -> ap_mul_acc_x86 acc x y = ap_mul_acc_arm64 acc x y.
Proof. exact mul_acc_any. Qed.
Print Assumptions C133_multiplication.
Example C133_multiplication_case : ap_mul_acc_x86 (repeat 0 16) (repeat 255 17) (repeat 7 16) = ap_mul_acc_arm64 (repeat 0 16) (repeat 255 17) (repeat 7 16) /\
  ap_mul_acc_x86 (repeat 0 16) [1] (repeat 7 16) = UB.
Proof. split; [apply C133_multiplication; repeat constructor|reflexivity]. Qed.

(** The workers do what one loop over the rows does, also where a row fails: the failure is that of the first row that fails. *)
Theorem C133_workers : forall w work cores rows buf,
  (forall i row r, length row = w -> work i row = Ok r -> length r = w) -> (1 <= cores)%nat -> (1 <= rows)%nat -> (1 <= w)%nat -> length buf = (w * rows)%nat ->
  (let* threads := pick_suitable_thread_count cores rows in let* k := udiv rows threads in par_rows w k buf work) = update_rows buf rows w work.
Proof.
  intros w work cores rows buf Hw Hc Hr W L.
  rewrite (chunk_any rows cores 1 (fun k => par_rows w k buf work)); [|exact Hc|apply Nat.le_refl|intros; now apply (par_rows_any w work Hw) with (rows := rows)].
  destruct (PPar.rows_in_chunk_ok 1 rows (Nat.le_refl _) Hr) as (tc & k & E & E1 & Hk). rewrite E. cbn [obind]. rewrite E1. cbn [obind].
  rewrite (par_rows_seq w work Hw k rows buf Hk W L). symmetry. exact (update_rows_seq w work Hw 0 rows buf L).
Qed.
Print Assumptions C133_workers.
(** A job that fails on the third row and on the fifth. *)
Example C133_workers_case : let work i row := if Nat.eqb i 2 then Panic PIndex else if Nat.eqb i 4 then UB else Ok (map (fun x => N.lxor x 1) row) in
  (forall i row r, length row = 2%nat -> work i row = Ok r -> length r = 2%nat) /\
  (let* threads := pick_suitable_thread_count 4 6 in let* k := udiv 6 threads in par_rows 2 k (repeat 0 12) work) = Panic PIndex.
Proof.
  cbv zeta. split; [|reflexivity]. intros i row r L. destruct (Nat.eqb i 2); [discriminate|]. destruct (Nat.eqb i 4); [discriminate|].
  intros [= <-]. now rewrite map_length.
Qed.

(** ** Oblivious transfers *)
Section Stack.
Variable sha : bytes -> bytes.
Variables fill gen : bytes -> nat -> bytes.
Variable G : curve.
Hypothesis Hf : generator fill.
Lemma pe_stack_sender a a' cores cores' r rs p ms : (1 <= cores)%nat -> (1 <= cores')%nat -> coins_ok r ->
  peq (stack_sender sha fill gen G a cores r rs p ms) (stack_sender sha fill gen G a' cores' r rs p ms).
Proof. intros Hc Hc' (_ & _ & D & _). apply ap_sender_any; auto; [apply D|]. intros. apply PProc.peq_refl. Qed.
Lemma pe_stack_receiver a a' cores cores' r rs p cs : (1 <= cores)%nat -> (1 <= cores')%nat ->
  peq (stack_receiver sha fill gen G a cores r rs p cs) (stack_receiver sha fill gen G a' cores' r rs p cs).
Proof. intros Hc Hc'. apply ap_receiver_any; auto. intros. apply PProc.peq_refl. Qed.
Lemma pe_stack_many_sender e e' keys rm p d ms :
  peq (stack_many_sender sha fill gen G (2 ^ e) keys rm p d ms) (stack_many_sender sha fill gen G (2 ^ e') keys rm p d ms).
Proof using. apply many_sender_any. intros. apply PProc.peq_refl. Qed.
End Stack.
Lemma pow2_one e : (1 <= 2 ^ e)%nat.
Proof. induction e; cbn; lia. Qed.
Ltac pe_ots := intros; first [apply pe_stack_sender; auto using pow2_one|apply pe_stack_receiver; auto using pow2_one|apply pe_stack_many_sender|apply PProc.peq_refl].
Ltac machine_done := split; [now apply peq_party|split; [now apply peq_party|now apply peq_session]].

Theorem C133_extension : forall sha fill gen G p p' a1 a2 b1 b2 n1 n2 m1 m2 r r' rs rs' ms cs,
  generator fill -> coins_ok r -> (1 <= n1)%nat -> (1 <= n2)%nat -> (1 <= m1)%nat -> (1 <= m2)%nat ->
  let s a n := stack_sender sha fill gen G a n r rs p ms in
  let c a n := stack_receiver sha fill gen G a n r' rs' p' cs in
  same_party (s a1 n1) (s a2 n2) /\ same_party (c b1 m1) (c b2 m2) /\ same_session (s a1 n1) (c b1 m1) (s a2 n2) (c b2 m2).
Proof.
  intros. assert (peq (s a1 n1) (s a2 n2)) by (unfold s; pe_ots). assert (peq (c b1 m1) (c b2 m2)) by (unfold c; pe_ots). machine_done.
Qed.
Print Assumptions C133_extension.
(** Two numbers of cores that are powers of two. *)
Theorem C133_one_of_many : forall sha fill gen G p e e' keys rm d ms,
  same_party (stack_many_sender sha fill gen G (2 ^ e) keys rm p d ms) (stack_many_sender sha fill gen G (2 ^ e') keys rm p d ms).
Proof. intros. apply peq_party. pe_ots. Qed.
Print Assumptions C133_one_of_many.
(** Other numbers of cores make a difference there: eight messages on three cores and on four (see C43). *)
Theorem C133_core_count_refuted : ~ (forall sha fill gen G p cores cores' keys rm d ms, (1 <= cores)%nat -> (1 <= cores')%nat ->
  same_party (stack_many_sender sha fill gen G cores keys rm p d ms) (stack_many_sender sha fill gen G cores' keys rm p d ms)).
Proof.
  intros H. specialize (H toy toy_gen toy_gen toy_curve Debug 3%nat 4%nat (fun d => repeat (repeat 0 32, repeat 1 32) d) (fun _ => 1) 3%nat
    (repeat [5] 8) ltac:(lia) ltac:(lia) []). vm_compute in H. discriminate H.
Qed.
Print Assumptions C133_core_count_refuted.

(** ** Key exchanges *)
Theorem C133_plain : forall sha fill gen G p p' a1 a2 b1 b2 n1 n2 m1 m2 r1 r2 r3 r4 rs1 rs2 rs3 rs4 g g' pw pw' t t',
  generator fill -> coins_ok r1 -> coins_ok r2 -> coins_ok r3 -> coins_ok r4 ->
  (1 <= n1)%nat -> (1 <= n2)%nat -> (1 <= m1)%nat -> (1 <= m2)%nat ->
  let s a n := fpake_server sha p g (stack_sender sha fill gen G a n r1 rs1 p) (stack_receiver sha fill gen G a n r2 rs2 p) pw t in
  let c a n := fpake_client sha p' g' (stack_sender sha fill gen G a n r3 rs3 p') (stack_receiver sha fill gen G a n r4 rs4 p') pw' t' in
  same_party (s a1 n1%nat) (s a2 n2%nat) /\ same_party (c b1 m1) (c b2 m2) /\ same_session (s a1 n1%nat) (c b1 m1) (s a2 n2%nat) (c b2 m2).
Proof.
  intros. assert (peq (s a1 n1%nat) (s a2 n2%nat)) by (apply pe_fpake_server; pe_ots).
  assert (peq (c b1 m1) (c b2 m2)) by (apply pe_fpake_client; pe_ots). machine_done.
Qed.
Print Assumptions C133_plain.
Theorem C133_mfpake : forall sha fill gen G p p' a1 a2 b1 b2 e1 e2 m1 m2 r1 r2 r3 r4 rs1 rs2 rs3 rs4 keys rm rm' mask g g' pws t pw i num t',
  generator fill -> coins_ok r1 -> coins_ok r2 -> coins_ok r3 -> coins_ok r4 ->
  (1 <= m1)%nat -> (1 <= m2)%nat ->
  let s a n := mfpake_many sha p mask g (stack_many_sender sha fill gen G n keys rm p)
    (stack_sender sha fill gen G a n r1 rs1 p) (stack_receiver sha fill gen G a n r2 rs2 p) pws t in
  let c a n := mfpake_single sha p' g' (stack_many_receiver sha fill gen G rm' p')
    (stack_sender sha fill gen G a n r3 rs3 p') (stack_receiver sha fill gen G a n r4 rs4 p') pw i num t' in
  same_party (s a1 (2 ^ e1)%nat) (s a2 (2 ^ e2)%nat) /\ same_party (c b1 m1) (c b2 m2) /\ same_session (s a1 (2 ^ e1)%nat) (c b1 m1) (s a2 (2 ^ e2)%nat) (c b2 m2).
Proof.
  intros. assert (peq (s a1 (2 ^ e1)%nat) (s a2 (2 ^ e2)%nat)) by (apply pe_mfpake_many; pe_ots).
  assert (peq (c b1 m1) (c b2 m2)) by (apply pe_mfpake_single; pe_ots). machine_done.
Qed.
Print Assumptions C133_mfpake.
Theorem C133_v3 : forall sha fill gen G p p' a1 a2 b1 b2 e1 e2 m1 m2 r1 r2 r3 r4 r5 r6 rs1 rs2 rs3 rs4 rs5 rs6 keys rm rm' mask g g' pws t pw num i t',
  generator fill -> coins_ok r1 -> coins_ok r2 -> coins_ok r3 -> coins_ok r4 -> coins_ok r5 -> coins_ok r6 ->
  (1 <= m1)%nat -> (1 <= m2)%nat ->
  let s a n := server_v3 sha p mask g (stack_sender sha fill gen G a n r1 rs1 p) (stack_many_sender sha fill gen G n keys rm p)
    (stack_sender sha fill gen G a n r2 rs2 p) (stack_receiver sha fill gen G a n r3 rs3 p) pws t in
  let c a n := client_v3 sha p' g' (stack_receiver sha fill gen G a n r4 rs4 p') (stack_many_receiver sha fill gen G rm' p')
    (stack_receiver sha fill gen G a n r5 rs5 p') (stack_sender sha fill gen G a n r6 rs6 p') pw num i t' in
  same_party (s a1 (2 ^ e1)%nat) (s a2 (2 ^ e2)%nat) /\ same_party (c b1 m1) (c b2 m2) /\ same_session (s a1 (2 ^ e1)%nat) (c b1 m1) (s a2 (2 ^ e2)%nat) (c b2 m2).
Proof.
  intros. assert (peq (s a1 (2 ^ e1)%nat) (s a2 (2 ^ e2)%nat)) by (apply pe_server_v3; pe_ots).
  assert (peq (c b1 m1) (c b2 m2)) by (apply pe_client_v3; pe_ots). machine_done.
Qed.
Print Assumptions C133_v3.
Theorem C133_v1 : forall sha fill gen G p p' a1 a2 b1 b2 e1 e2 m1 m2 r1 r2 r3 r4 rs1 rs2 rs3 rs4 keys rm rm' rand g g' pws t pw num i t',
  generator fill -> coins_ok r1 -> coins_ok r2 -> coins_ok r3 -> coins_ok r4 ->
  (1 <= m1)%nat -> (1 <= m2)%nat ->
  let s a n := server_v1 sha p g (stack_sender sha fill gen G a n r1 rs1 p) (stack_many_sender sha fill gen G n keys rm p)
    (stack_receiver sha fill gen G a n r2 rs2 p) pws t in
  let c a n := client_v1 sha p' rand g' (stack_receiver sha fill gen G a n r3 rs3 p') (stack_many_receiver sha fill gen G rm' p')
    (stack_sender sha fill gen G a n r4 rs4 p') pw num i t' in
  same_party (s a1 (2 ^ e1)%nat) (s a2 (2 ^ e2)%nat) /\ same_party (c b1 m1) (c b2 m2) /\ same_session (s a1 (2 ^ e1)%nat) (c b1 m1) (s a2 (2 ^ e2)%nat) (c b2 m2).
Proof.
  intros. assert (peq (s a1 (2 ^ e1)%nat) (s a2 (2 ^ e2)%nat)) by (apply pe_server_v1; pe_ots).
  assert (peq (c b1 m1) (c b2 m2)) by (apply pe_client_v1; pe_ots). machine_done.
Qed.
Print Assumptions C133_v1.
Theorem C133_v2 : forall sha fill gen G p p' a1 a2 b1 b2 e1 e2 m1 m2 r1 r2 r3 r4 r5 r6 rs1 rs2 rs3 rs4 rs5 rs6 keys keys' rm rm' rn rn' mask mask' g g' pws t pw num i t',
  generator fill -> coins_ok r1 -> coins_ok r2 -> coins_ok r3 -> coins_ok r4 -> coins_ok r5 -> coins_ok r6 ->
  (1 <= m1)%nat -> (1 <= m2)%nat ->
  let s a n := server_v2 sha p mask mask' g (stack_sender sha fill gen G a n r1 rs1 p) (stack_many_sender sha fill gen G n keys rm p)
    (stack_sender sha fill gen G a n r2 rs2 p) (stack_receiver sha fill gen G a n r3 rs3 p) (stack_many_sender sha fill gen G n keys' rn p) pws t in
  let c a n := client_v2 sha p' g' (stack_receiver sha fill gen G a n r4 rs4 p') (stack_many_receiver sha fill gen G rm' p')
    (stack_receiver sha fill gen G a n r5 rs5 p') (stack_sender sha fill gen G a n r6 rs6 p') (stack_many_receiver sha fill gen G rn' p') pw num i t' in
  same_party (s a1 (2 ^ e1)%nat) (s a2 (2 ^ e2)%nat) /\ same_party (c b1 m1) (c b2 m2) /\ same_session (s a1 (2 ^ e1)%nat) (c b1 m1) (s a2 (2 ^ e2)%nat) (c b2 m2).
Proof.
  intros. assert (peq (s a1 (2 ^ e1)%nat) (s a2 (2 ^ e2)%nat)) by (apply pe_server_v2; pe_ots).
  assert (peq (c b1 m1) (c b2 m2)) by (apply pe_client_v2; pe_ots). machine_done.
Qed.
Print Assumptions C133_v2.
Theorem C133_v12 : forall sha fill gen G p p' a1 a2 b1 b2 e1 e2 m1 m2 r1 r2 r3 r4 rs1 rs2 rs3 rs4 keys keys' rm rm' rn rn' mask g g' pws t pw num i t',
  generator fill -> coins_ok r1 -> coins_ok r2 -> coins_ok r3 -> coins_ok r4 ->
  (1 <= m1)%nat -> (1 <= m2)%nat ->
  let s a n := server_v12 sha p mask g (stack_sender sha fill gen G a n r1 rs1 p) (stack_many_sender sha fill gen G n keys rm p)
    (stack_receiver sha fill gen G a n r2 rs2 p) (stack_many_sender sha fill gen G n keys' rn p) pws t in
  let c a n := client_v12 sha p' g' (stack_receiver sha fill gen G a n r3 rs3 p') (stack_many_receiver sha fill gen G rm' p')
    (stack_sender sha fill gen G a n r4 rs4 p') (stack_many_receiver sha fill gen G rn' p') pw num i t' in
  same_party (s a1 (2 ^ e1)%nat) (s a2 (2 ^ e2)%nat) /\ same_party (c b1 m1) (c b2 m2) /\ same_session (s a1 (2 ^ e1)%nat) (c b1 m1) (s a2 (2 ^ e2)%nat) (c b2 m2).
Proof.
  intros. assert (peq (s a1 (2 ^ e1)%nat) (s a2 (2 ^ e2)%nat)) by (apply pe_server_v12; pe_ots).
  assert (peq (c b1 m1) (c b2 m2)) by (apply pe_client_v12; pe_ots). machine_done.
Qed.
Print Assumptions C133_v12.
Theorem C133_v21 : forall sha fill gen G p p' a1 a2 b1 b2 e1 e2 m1 m2 r1 r2 r3 r4 r5 r6 rs1 rs2 rs3 rs4 rs5 rs6 keys rm rm' rand mask g g' pws t pw num i t',
  generator fill -> coins_ok r1 -> coins_ok r2 -> coins_ok r3 -> coins_ok r4 -> coins_ok r5 -> coins_ok r6 ->
  (1 <= m1)%nat -> (1 <= m2)%nat ->
  let s a n := server_v21 sha p mask g (stack_sender sha fill gen G a n r1 rs1 p) (stack_many_sender sha fill gen G n keys rm p)
    (stack_sender sha fill gen G a n r2 rs2 p) (stack_receiver sha fill gen G a n r3 rs3 p) pws t in
  let c a n := client_v21 sha p' rand g' (stack_receiver sha fill gen G a n r4 rs4 p') (stack_many_receiver sha fill gen G rm' p')
    (stack_receiver sha fill gen G a n r5 rs5 p') (stack_sender sha fill gen G a n r6 rs6 p') pw num i t' in
  same_party (s a1 (2 ^ e1)%nat) (s a2 (2 ^ e2)%nat) /\ same_party (c b1 m1) (c b2 m2) /\ same_session (s a1 (2 ^ e1)%nat) (c b1 m1) (s a2 (2 ^ e2)%nat) (c b2 m2).
Proof.
  intros. assert (peq (s a1 (2 ^ e1)%nat) (s a2 (2 ^ e2)%nat)) by (apply pe_server_v21; pe_ots).
  assert (peq (c b1 m1) (c b2 m2)) by (apply pe_client_v21; pe_ots). machine_done.
Qed.
Print Assumptions C133_v21.

(** ** The programs *)
Theorem C133_main : forall hmac xpub xdh sha fill gen G p p' a1 a2 b1 b2 n1 n2 m1 m2 r1 r2 r3 r4 rs1 rs2 rs3 rs4 sec sec' g g' pw pw' t t',
  generator fill -> coins_ok r1 -> coins_ok r2 -> coins_ok r3 -> coins_ok r4 ->
  (1 <= n1)%nat -> (1 <= n2)%nat -> (1 <= m1)%nat -> (1 <= m2)%nat ->
  let s a n := main_server hmac xpub xdh sha p sec g (stack_sender sha fill gen G a n r1 rs1 p) (stack_receiver sha fill gen G a n r2 rs2 p) pw t in
  let c a n := main_client hmac xpub xdh sha p' sec' g' (stack_sender sha fill gen G a n r3 rs3 p') (stack_receiver sha fill gen G a n r4 rs4 p') pw' t' in
  same_party (s a1 n1%nat) (s a2 n2%nat) /\ same_party (c b1 m1) (c b2 m2) /\ same_session (s a1 n1%nat) (c b1 m1) (s a2 n2%nat) (c b2 m2).
Proof.
  intros. assert (peq (s a1 n1%nat) (s a2 n2%nat)) by (apply pe_serve, pe_fpake_server; pe_ots).
  assert (peq (c b1 m1) (c b2 m2)) by (apply pe_connect, pe_fpake_client; pe_ots). machine_done.
Qed.
Print Assumptions C133_main.
Theorem C133_many_main : forall hmac xpub xdh sha fill gen G p p' a1 a2 b1 b2 e1 e2 m1 m2 r1 r2 r3 r4 rs1 rs2 rs3 rs4 sec sec' keys rm rm' mask g g' file l t pw i num t',
  generator fill -> coins_ok r1 -> coins_ok r2 -> coins_ok r3 -> coins_ok r4 ->
  (1 <= m1)%nat -> (1 <= m2)%nat ->
  let s a n := many_server_main hmac xpub xdh sha p sec mask g (stack_many_sender sha fill gen G n keys rm p)
    (stack_sender sha fill gen G a n r1 rs1 p) (stack_receiver sha fill gen G a n r2 rs2 p) file l t in
  let c a n := many_client_main hmac xpub xdh sha p' sec' g' (stack_many_receiver sha fill gen G rm' p')
    (stack_sender sha fill gen G a n r3 rs3 p') (stack_receiver sha fill gen G a n r4 rs4 p') pw i num t' in
  same_party (s a1 (2 ^ e1)%nat) (s a2 (2 ^ e2)%nat) /\ same_party (c b1 m1) (c b2 m2) /\ same_session (s a1 (2 ^ e1)%nat) (c b1 m1) (s a2 (2 ^ e2)%nat) (c b2 m2).
Proof.
  intros. assert (peq (s a1 (2 ^ e1)%nat) (s a2 (2 ^ e2)%nat)) by (unfold s, many_server_main; apply PKey3.peq_bind; [apply PProc.peq_refl|intros; apply pe_serve, pe_mfpake_many; pe_ots]).
  assert (peq (c b1 m1) (c b2 m2)) by (apply pe_connect, pe_mfpake_single; pe_ots). machine_done.
Qed.
Print Assumptions C133_many_main.

(** A session between one machine and another, moved to two other machines. *)
Example C133_plain_case :
  let s a n := fpake_server toy Debug demo_garbling (stack_sender toy toy_gen toy_gen toy_curve a n toy_coins (fun _ => 1) Debug) (stack_receiver toy toy_gen toy_gen toy_curve a n toy_coins (fun _ => 1) Debug) [97; 98] 2 in
  let c a n := fpake_client toy Debug demo_garbling (stack_sender toy toy_gen toy_gen toy_curve a n toy_coins (fun _ => 1) Debug) (stack_receiver toy toy_gen toy_gen toy_curve a n toy_coins (fun _ => 1) Debug) [97; 99] 3 in
  same_session (s X86 1%nat) (c X86 1%nat) (s ARM64 7%nat) (c X86 64%nat).
Proof.
  refine (proj2 (proj2 (C133_plain toy toy_gen toy_gen toy_curve Debug Debug X86 ARM64 X86 X86 1 7 1 64 toy_coins toy_coins toy_coins toy_coins
    (fun _ => 1) (fun _ => 1) (fun _ => 1) (fun _ => 1) demo_garbling demo_garbling [97; 98] [97; 99] 2 3 _ _ _ _ _ _ _ _ _)));
    try exact toy_gen_ok; try exact toy_coins_ok; lia.
Qed.
