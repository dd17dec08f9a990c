(** Property C132: what a debug build does without a panic, a release build does as well. *)
From Coq Require Import List NArith Bool Arith Lia.
From Verif Require Import Base MUtil MWires MCircuit MGarble MPar MBitMatrix MPoly MPolyType MBincode MProc MOt MApricot MClassic MMany MFpake MLegacy MLegacy2 MChannel MMain MReserve MBuffer.
From Verif Require Import SpecOt SpecApricot SpecGarble SpecFpake SpecProfile PProfile PProfile2 CCircuit COt CApricot CClassic CFpake.
Import ListNotations.
Open Scope N_scope.

(** ** Functions *)
(** Building, garbling and evaluating circuits, in the clear and garbled, for every circuit and every input. *)
Theorem C132_build : forall n t,
  same_in_release (fun p => build_circuit p n t) /\ same_in_release (fun p => build_circuit_v2 p n t).
Proof. intros. split; apply ole_same; [apply ole_build|apply ole_build2]. Qed.
Print Assumptions C132_build.
Theorem C132_eval : forall c x, same_in_release (fun p => eval p c x).
Proof. intros. apply ole_same, ole_eval. Qed.
Print Assumptions C132_eval.
Theorem C132_garble : forall sha rd ri c, same_in_release (fun p => garble sha p rd ri c).
Proof. intros. apply ole_same, ole_garble. Qed.
Print Assumptions C132_garble.
Theorem C132_evaluate : forall sha gc x, same_in_release (fun p => evaluate sha p gc x).
Proof. intros. apply ole_same, ole_evaluate. Qed.
Print Assumptions C132_evaluate.
Theorem C132_wires : forall a b k e x d v,
  same_in_release (fun p => wadd p a b) /\ same_in_release (fun p => wsub p a b) /\ same_in_release (fun p => wneg p a) /\
  same_in_release (fun p => wmul p a k) /\ same_in_release (fun p => encode p e x) /\ same_in_release (fun p => from_bytes p v d).
Proof.
  intros. repeat split; apply ole_same; [apply ole_wadd|apply ole_wsub|apply ole_wneg|apply ole_wmul|apply ole_encode|apply ole_from_bytes].
Qed.
Print Assumptions C132_wires.

(** The smaller functions of util.rs, bitmatrix.rs, polynomial.rs, circuit.rs and garble.rs. *)
Theorem C132_helpers : forall w n x y z k bk t size gc ws sha fill cores q d m pairs,
  same_in_release (fun p => log2_ p w n) /\ same_in_release (fun p => to_array p x) /\
  same_in_release (fun p => xor_bytes p x y) /\ same_in_release (fun p => xor_bytes_inplace p x y) /\
  same_in_release (fun p => bv_xor_assign_ref p x y) /\ same_in_release (fun p => MPolyType.poly_from p x) /\
  same_in_release (fun p => MPolyType.poly_mul_add_assign t p x y z) /\
  same_in_release (fun p => binary_of_ek p k) /\ same_in_release (fun p => ek_of_binary p bk) /\
  same_in_release (fun p => evaluate_reserves p size gc ws) /\ same_in_release (fun p => randomize_buf sha fill p cores q d (N.to_nat w) m pairs).
Proof.
  intros. repeat split; apply ole_same; cbv beta; try solve [auto with ole nocore].
  - unfold MPolyType.poly_mul_add_assign, MPolyType.gf128_mul_acc. destruct t; [apply ole_refl|apply ole_arm|apply ole_generic].
  - unfold evaluate_reserves. ol.
  - unfold randomize_buf, update_rows_buf, randomize_row_buf. ol.
Qed.
Print Assumptions C132_helpers.

(** The condition matters: a threshold of 65535 makes a debug build panic and gives a circuit in a release build. *)
Example C132_panic_only_in_debug : panics (build_circuit Debug 8 65535) /\ exists c, build_circuit Release 8 65535 = Ok c.
Proof. split; [exists POverflow; reflexivity|eexists; reflexivity]. Qed.
(** And it can be met. *)
Example C132_no_panic : ~ panics (build_circuit Debug 8 3) /\ build_circuit Release 8 3 = build_circuit Debug 8 3.
Proof. split; [intros [r E]; discriminate|reflexivity]. Qed.

(** ** Oblivious transfers *)
Section Stack.
Variable sha : bytes -> bytes.
Variables fill gen gen8 : bytes -> nat -> bytes.
Variable G : curve.
(** The extension over the base OT, by profile; [r] and [rs] are the coins. *)
Definition stack_sender a cores r rs p : list (bytes * bytes) -> proc unit :=
  sender_with sha fill p a cores r (co_receiver sha gen G p rs).
Definition stack_receiver a cores r rs p : list bool -> proc (list bytes) :=
  receiver_with sha fill p a cores r (co_sender sha gen G p rs).
Definition stack_many_sender cores (keys : nat -> list (bytes * bytes)) rm p (d : nat) (ms : list bytes) : proc unit :=
  many_sender sha fill p cores (keys d) (co_sender sha gen G p rm) ms d.
Definition stack_many_receiver rm p (d : nat) (i : N) : proc bytes :=
  many_receiver sha fill p (co_receiver sha gen G p rm) i d.
Lemma ple_stack_sender a cores r rs ms : ple (stack_sender a cores r rs Debug ms) (stack_sender a cores r rs Release ms).
Proof. apply ple_ap_sender. intros. apply ple_co_receiver. Qed.
Lemma ple_stack_receiver a cores r rs cs : ple (stack_receiver a cores r rs Debug cs) (stack_receiver a cores r rs Release cs).
Proof. apply ple_ap_receiver. intros. apply ple_co_sender. Qed.
Lemma ple_stack_many_sender cores keys rm d ms : ple (stack_many_sender cores keys rm Debug d ms) (stack_many_sender cores keys rm Release d ms).
Proof. apply ple_many_sender. intros. apply ple_co_sender. Qed.
Lemma ple_stack_many_receiver rm d i : ple (stack_many_receiver rm Debug d i) (stack_many_receiver rm Release d i).
Proof. apply ple_many_receiver. intros. apply ple_co_receiver. Qed.
End Stack.

(** Both ends of every OT, alone against any peer and with each other. *)
Theorem C132_base_OT : forall sha gen G rs rs' ms cs,
  party_same_in_release (fun p => co_sender sha gen G p rs ms) /\ party_same_in_release (fun p => co_receiver sha gen G p rs' cs) /\
  session_same_in_release (fun p => co_sender sha gen G p rs ms) (fun p => co_receiver sha gen G p rs' cs).
Proof. intros. split; [|split]; [apply ple_party|apply ple_party|apply ple_session]; try apply ple_co_sender; apply ple_co_receiver. Qed.
Print Assumptions C132_base_OT.
Theorem C132_extension : forall sha fill gen G a a' cores cores' r r' rs rs' ms cs,
  party_same_in_release (fun p => stack_sender sha fill gen G a cores r rs p ms) /\
  party_same_in_release (fun p => stack_receiver sha fill gen G a' cores' r' rs' p cs) /\
  session_same_in_release (fun p => stack_sender sha fill gen G a cores r rs p ms) (fun p => stack_receiver sha fill gen G a' cores' r' rs' p cs).
Proof. intros. split; [|split]; [apply ple_party|apply ple_party|apply ple_session]; try apply ple_stack_sender; apply ple_stack_receiver. Qed.
Print Assumptions C132_extension.
Theorem C132_classic : forall sha gen20 gen8 gen G a a' r r' rs rs' ms cs,
  let s p := classic_sender_with sha gen20 gen8 p a r (co_receiver sha gen G p rs) ms in
  let c p := classic_receiver_with sha gen20 gen8 p a' r' (co_sender sha gen G p rs') cs in
  party_same_in_release s /\ party_same_in_release c /\ session_same_in_release s c.
Proof.
  intros. assert (ple (s Debug) (s Release)) by (apply ple_classic_sender; intros; apply ple_co_receiver).
  assert (ple (c Debug) (c Release)) by (apply ple_classic_receiver; intros; apply ple_co_sender).
  split; [now apply ple_party|split; [now apply ple_party|now apply ple_session]].
Qed.
Print Assumptions C132_classic.
Theorem C132_one_of_many : forall sha fill gen G cores keys rm rm' d d' ms i,
  let s p := stack_many_sender sha fill gen G cores keys rm p d ms in
  let c p := stack_many_receiver sha fill gen G rm' p d' i in
  party_same_in_release s /\ party_same_in_release c /\ session_same_in_release s c.
Proof.
  intros. assert (ple (s Debug) (s Release)) by apply ple_stack_many_sender.
  assert (ple (c Debug) (c Release)) by apply ple_stack_many_receiver.
  split; [now apply ple_party|split; [now apply ple_party|now apply ple_session]].
Qed.
Print Assumptions C132_one_of_many.

(** ** Key exchanges *)
(** The exchanges over the crate's OTs; whatever the passwords, thresholds, indices and coins of the two sides. *)
Theorem C132_plain : forall sha fill gen G a a' cores cores' r1 r2 r3 r4 rs1 rs2 rs3 rs4 g g' pw pw' t t',
  let s p := fpake_server sha p g (stack_sender sha fill gen G a cores r1 rs1 p) (stack_receiver sha fill gen G a cores r2 rs2 p) pw t in
  let c p := fpake_client sha p g' (stack_sender sha fill gen G a' cores' r3 rs3 p) (stack_receiver sha fill gen G a' cores' r4 rs4 p) pw' t' in
  party_same_in_release s /\ party_same_in_release c /\ session_same_in_release s c.
Proof.
  intros. assert (ple (s Debug) (s Release)) by (apply ple_fpake_server; intros; [apply ple_stack_sender|apply ple_stack_receiver]).
  assert (ple (c Debug) (c Release)) by (apply ple_fpake_client; intros; [apply ple_stack_sender|apply ple_stack_receiver]).
  split; [now apply ple_party|split; [now apply ple_party|now apply ple_session]].
Qed.
Print Assumptions C132_plain.
Theorem C132_mfpake : forall sha fill gen G a a' cores cores' keys rm rm' r1 r2 r3 r4 rs1 rs2 rs3 rs4 mask g g' pws t pw i n t',
  let s p := mfpake_many sha p mask g (stack_many_sender sha fill gen G cores keys rm p)
    (stack_sender sha fill gen G a cores r1 rs1 p) (stack_receiver sha fill gen G a cores r2 rs2 p) pws t in
  let c p := mfpake_single sha p g' (stack_many_receiver sha fill gen G rm' p)
    (stack_sender sha fill gen G a' cores' r3 rs3 p) (stack_receiver sha fill gen G a' cores' r4 rs4 p) pw i n t' in
  party_same_in_release s /\ party_same_in_release c /\ session_same_in_release s c.
Proof.
  intros. assert (ple (s Debug) (s Release)) by (apply ple_mfpake_many; intros; [apply ple_stack_sender|apply ple_stack_receiver|apply ple_stack_many_sender]).
  assert (ple (c Debug) (c Release)) by (apply ple_mfpake_single; intros; [apply ple_stack_sender|apply ple_stack_receiver|apply ple_stack_many_receiver]).
  split; [now apply ple_party|split; [now apply ple_party|now apply ple_session]].
Qed.
Print Assumptions C132_mfpake.
Theorem C132_v3 : forall sha fill gen G a a' cores cores' keys rm rm' r1 r2 r3 r4 r5 r6 rs1 rs2 rs3 rs4 rs5 rs6 mask g g' pws t pw n i t',
  let s p := server_v3 sha p mask g (stack_sender sha fill gen G a cores r1 rs1 p) (stack_many_sender sha fill gen G cores keys rm p)
    (stack_sender sha fill gen G a cores r2 rs2 p) (stack_receiver sha fill gen G a cores r3 rs3 p) pws t in
  let c p := client_v3 sha p g' (stack_receiver sha fill gen G a' cores' r4 rs4 p) (stack_many_receiver sha fill gen G rm' p)
    (stack_receiver sha fill gen G a' cores' r5 rs5 p) (stack_sender sha fill gen G a' cores' r6 rs6 p) pw n i t' in
  party_same_in_release s /\ party_same_in_release c /\ session_same_in_release s c.
Proof.
  intros. assert (ple (s Debug) (s Release)) by (apply ple_server_v3; intros; first [apply ple_stack_sender|apply ple_stack_receiver|apply ple_stack_many_sender]).
  assert (ple (c Debug) (c Release)) by (apply ple_client_v3; intros; first [apply ple_stack_sender|apply ple_stack_receiver|apply ple_stack_many_receiver]).
  split; [now apply ple_party|split; [now apply ple_party|now apply ple_session]].
Qed.
Print Assumptions C132_v3.
Theorem C132_v1 : forall sha fill gen G a a' cores cores' keys rm rm' r1 r2 r3 r4 rs1 rs2 rs3 rs4 rand g g' pws t pw n i t',
  let s p := server_v1 sha p g (stack_sender sha fill gen G a cores r1 rs1 p) (stack_many_sender sha fill gen G cores keys rm p)
    (stack_receiver sha fill gen G a cores r2 rs2 p) pws t in
  let c p := client_v1 sha p rand g' (stack_receiver sha fill gen G a' cores' r3 rs3 p) (stack_many_receiver sha fill gen G rm' p)
    (stack_sender sha fill gen G a' cores' r4 rs4 p) pw n i t' in
  party_same_in_release s /\ party_same_in_release c /\ session_same_in_release s c.
Proof.
  intros. assert (ple (s Debug) (s Release)) by (apply ple_server_v1; intros; first [apply ple_stack_sender|apply ple_stack_receiver|apply ple_stack_many_sender]).
  assert (ple (c Debug) (c Release)) by (apply ple_client_v1; intros; first [apply ple_stack_sender|apply ple_stack_receiver|apply ple_stack_many_receiver]).
  split; [now apply ple_party|split; [now apply ple_party|now apply ple_session]].
Qed.
Print Assumptions C132_v1.
Theorem C132_v2 : forall sha fill gen G a a' cores cores' keys keys' rm rm' rn rn' r1 r2 r3 r4 r5 r6 rs1 rs2 rs3 rs4 rs5 rs6 mask mask' g g' pws t pw n i t',
  let s p := server_v2 sha p mask mask' g (stack_sender sha fill gen G a cores r1 rs1 p) (stack_many_sender sha fill gen G cores keys rm p)
    (stack_sender sha fill gen G a cores r2 rs2 p) (stack_receiver sha fill gen G a cores r3 rs3 p) (stack_many_sender sha fill gen G cores keys' rn p) pws t in
  let c p := client_v2 sha p g' (stack_receiver sha fill gen G a' cores' r4 rs4 p) (stack_many_receiver sha fill gen G rm' p)
    (stack_receiver sha fill gen G a' cores' r5 rs5 p) (stack_sender sha fill gen G a' cores' r6 rs6 p) (stack_many_receiver sha fill gen G rn' p) pw n i t' in
  party_same_in_release s /\ party_same_in_release c /\ session_same_in_release s c.
Proof.
  intros. assert (ple (s Debug) (s Release)) by (apply ple_server_v2; intros; first [apply ple_stack_sender|apply ple_stack_receiver|apply ple_stack_many_sender]).
  assert (ple (c Debug) (c Release)) by (apply ple_client_v2; intros; first [apply ple_stack_sender|apply ple_stack_receiver|apply ple_stack_many_receiver]).
  split; [now apply ple_party|split; [now apply ple_party|now apply ple_session]].
Qed.
Print Assumptions C132_v2.

(** The sessions of the tests that mix the first two versions. *)
Theorem C132_v12 : forall sha fill gen G a a' cores cores' keys keys' rm rm' rn rn' r1 r2 r3 r4 rs1 rs2 rs3 rs4 mask g g' pws t pw n i t',
  let s p := server_v12 sha p mask g (stack_sender sha fill gen G a cores r1 rs1 p) (stack_many_sender sha fill gen G cores keys rm p)
    (stack_receiver sha fill gen G a cores r2 rs2 p) (stack_many_sender sha fill gen G cores keys' rn p) pws t in
  let c p := client_v12 sha p g' (stack_receiver sha fill gen G a' cores' r3 rs3 p) (stack_many_receiver sha fill gen G rm' p)
    (stack_sender sha fill gen G a' cores' r4 rs4 p) (stack_many_receiver sha fill gen G rn' p) pw n i t' in
  party_same_in_release s /\ party_same_in_release c /\ session_same_in_release s c.
Proof.
  intros. assert (ple (s Debug) (s Release)) by (apply ple_server_v12; intros; first [apply ple_stack_sender|apply ple_stack_receiver|apply ple_stack_many_sender]).
  assert (ple (c Debug) (c Release)) by (apply ple_client_v12; intros; first [apply ple_stack_sender|apply ple_stack_receiver|apply ple_stack_many_receiver]).
  split; [now apply ple_party|split; [now apply ple_party|now apply ple_session]].
Qed.
Print Assumptions C132_v12.
Theorem C132_v21 : forall sha fill gen G a a' cores cores' keys rm rm' r1 r2 r3 r4 r5 r6 rs1 rs2 rs3 rs4 rs5 rs6 rand mask g g' pws t pw n i t',
  let s p := server_v21 sha p mask g (stack_sender sha fill gen G a cores r1 rs1 p) (stack_many_sender sha fill gen G cores keys rm p)
    (stack_sender sha fill gen G a cores r2 rs2 p) (stack_receiver sha fill gen G a cores r3 rs3 p) pws t in
  let c p := client_v21 sha p rand g' (stack_receiver sha fill gen G a' cores' r4 rs4 p) (stack_many_receiver sha fill gen G rm' p)
    (stack_receiver sha fill gen G a' cores' r5 rs5 p) (stack_sender sha fill gen G a' cores' r6 rs6 p) pw n i t' in
  party_same_in_release s /\ party_same_in_release c /\ session_same_in_release s c.
Proof.
  intros. assert (ple (s Debug) (s Release)) by (apply ple_server_v21; intros; first [apply ple_stack_sender|apply ple_stack_receiver|apply ple_stack_many_sender]).
  assert (ple (c Debug) (c Release)) by (apply ple_client_v21; intros; first [apply ple_stack_sender|apply ple_stack_receiver|apply ple_stack_many_receiver]).
  split; [now apply ple_party|split; [now apply ple_party|now apply ple_session]].
Qed.
Print Assumptions C132_v21.

(** ** The programs *)
Theorem C132_main : forall hmac xpub xdh sha fill gen G a a' cores cores' sec sec' r1 r2 r3 r4 rs1 rs2 rs3 rs4 g g' pw pw' t t',
  let s p := main_server hmac xpub xdh sha p sec g (stack_sender sha fill gen G a cores r1 rs1 p) (stack_receiver sha fill gen G a cores r2 rs2 p) pw t in
  let c p := main_client hmac xpub xdh sha p sec' g' (stack_sender sha fill gen G a' cores' r3 rs3 p) (stack_receiver sha fill gen G a' cores' r4 rs4 p) pw' t' in
  party_same_in_release s /\ party_same_in_release c /\ session_same_in_release s c.
Proof.
  intros. assert (ple (s Debug) (s Release)) by (apply ple_serve, ple_fpake_server; intros; [apply ple_stack_sender|apply ple_stack_receiver]).
  assert (ple (c Debug) (c Release)) by (apply ple_connect, ple_fpake_client; intros; [apply ple_stack_sender|apply ple_stack_receiver]).
  split; [now apply ple_party|split; [now apply ple_party|now apply ple_session]].
Qed.
Print Assumptions C132_main.
Theorem C132_many_main : forall hmac xpub xdh sha fill gen G a a' cores cores' sec sec' keys rm rm' r1 r2 r3 r4 rs1 rs2 rs3 rs4 mask g g' file l t pw i n t',
  let s p := many_server_main hmac xpub xdh sha p sec mask g (stack_many_sender sha fill gen G cores keys rm p)
    (stack_sender sha fill gen G a cores r1 rs1 p) (stack_receiver sha fill gen G a cores r2 rs2 p) file l t in
  let c p := many_client_main hmac xpub xdh sha p sec' g' (stack_many_receiver sha fill gen G rm' p)
    (stack_sender sha fill gen G a' cores' r3 rs3 p) (stack_receiver sha fill gen G a' cores' r4 rs4 p) pw i n t' in
  party_same_in_release s /\ party_same_in_release c /\ session_same_in_release s c.
Proof.
  intros. assert (ple (s Debug) (s Release)).
  { unfold s, many_server_main. apply ple_bind; [apply ple_refl|]. intros.
    apply ple_serve, ple_mfpake_many; intros; [apply ple_stack_sender|apply ple_stack_receiver|apply ple_stack_many_sender]. }
  assert (ple (c Debug) (c Release)) by (apply ple_connect, ple_mfpake_single; intros; [apply ple_stack_sender|apply ple_stack_receiver|apply ple_stack_many_receiver]).
  split; [now apply ple_party|split; [now apply ple_party|now apply ple_session]].
Qed.
Print Assumptions C132_many_main.

(** A session between debug builds that ends with a key, and so does the one between release builds, with the same key. *)
Example C132_plain_case :
  let s p := fpake_server toy p demo_garbling (stack_sender toy toy_gen toy_gen toy_curve X86 4 toy_coins (fun _ => 1) p) (stack_receiver toy toy_gen toy_gen toy_curve X86 4 toy_coins (fun _ => 1) p) [97; 98] 2 in
  let c p := fpake_client toy p demo_garbling (stack_sender toy toy_gen toy_gen toy_curve ARM64 8 toy_coins (fun _ => 1) p) (stack_receiver toy toy_gen toy_gen toy_curve ARM64 8 toy_coins (fun _ => 1) p) [97; 99] 3 in
  exists key, runs (s Debug) (c Debug) (Ok key) (Ok key) /\ runs (s Release) (c Release) (Ok key) (Ok key).
Proof.
  cbv zeta.
  assert (Hot : forall p p' a a' n n', (1 <= n)%nat -> (1 <= n')%nat -> ot_correct extension_ok (stack_sender toy toy_gen toy_gen toy_curve a n toy_coins (fun _ => 1) p)
     (stack_receiver toy toy_gen toy_gen toy_curve a' n' toy_coins (fun _ => 1) p')).
  { intros. apply C35_extension_over_base_OT; auto using toy_gen_ok, toy_curve_ok, toy_coins_ok. exact toy_hash32. }
  destruct (C46_keys_agree toy Debug Debug demo_garbling demo_garbling
    (stack_sender toy toy_gen toy_gen toy_curve X86 4 toy_coins (fun _ => 1) Debug) (stack_receiver toy toy_gen toy_gen toy_curve ARM64 8 toy_coins (fun _ => 1) Debug)
    (stack_sender toy toy_gen toy_gen toy_curve ARM64 8 toy_coins (fun _ => 1) Debug) (stack_receiver toy toy_gen toy_gen toy_curve X86 4 toy_coins (fun _ => 1) Debug)
    [97; 98] [97; 99] 2 3) as (key & _ & R).
  - exact toy_hash32.
  - exact demo_garbling_ok.
  - exact demo_garbling_ok.
  - apply Hot; lia.
  - apply Hot; lia.
  - reflexivity.
  - left. cbn. lia.
  - lia.
  - lia.
  - vm_compute. discriminate.
  - vm_compute. discriminate.
  - exists key. split; [exact R|].
    refine (proj2 (proj2 (C132_plain toy toy_gen toy_gen toy_curve X86 ARM64 4 8 toy_coins toy_coins toy_coins toy_coins (fun _ => 1) (fun _ => 1) (fun _ => 1) (fun _ => 1)
      demo_garbling demo_garbling [97; 98] [97; 99] 2 3)) Debug Debug _ _ R _ _); intros [x E]; discriminate.
Qed.
