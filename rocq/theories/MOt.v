(** Model of src/ot/common.rs, src/ot/coinflip.rs and src/ot/chou_orlandi.rs (channel version). *)
From Coq Require Import Ascii String.
From Coq Require Import List NArith Bool Arith.
From Verif Require Import Base MUtil MBincode MProc.
Import ListNotations.
Open Scope N_scope.

(** String literals as bytes. *)
Definition str (s : string) : bytes := map N_of_ascii (list_ascii_of_string s).

(** The protocol names: chou_orlandi.rs:34, 109; apricot.rs and apricot_classic.rs (same name). *)
Definition chou_orlandi : bytes := str "Chou-Orlandi".
Definition apricot_name : bytes := str "Apricot".

(** derived PartialEq of [TransactionProperties] (ot/common.rs:6). *)
Definition props_eqb (a b : properties) : bool :=
  Nat.eqb (pr_size a) (pr_size b) && bytes_eqb (pr_protocol a) (pr_protocol b).

(** ot/common.rs:12-21 [validate_properties]. *)
Definition validate_properties (pb : properties) : proc unit :=
  let! _ := send (enc_props pb) in
  let! m := recv in
  let! pb2 := lift (deserialize dec_props m) in
  if props_eqb pb2 pb then ret tt else Done (Err EBadProperties).

(** [v[i] ^ u[i]] for i in 0..N on two arrays of N bytes. *)
Definition xor_arrays (v u : bytes) : bytes := zipWith N.lxor v u.

Section Coinflip.
(** SHA-256. *)
Variable sha : bytes -> bytes.
(** The const generic [N]. *)
Variable n : nat.

(** ot/coinflip.rs:27-44 [coinflip_sender::<N>]; [v] is the random array. *)
Definition coinflip_sender (v : bytes) : proc bytes :=
  let! _ := send (sha v) in
  let! u := recv in
  if negb (Nat.eqb (length u) n) then Done (Err ECoinflipLen) else
  let! _ := send v in
  ret (xor_arrays v u).

(** ot/coinflip.rs:50-67 [coinflip_receiver::<N>]; [u] is the random array. *)
Definition coinflip_receiver (u : bytes) : proc bytes :=
  let! commit := recv in
  let! _ := send u in
  let! v := recv in
  if negb (Nat.eqb (length v) n) then Done (Err ECoinflipLen) else
  if negb (bytes_eqb commit (sha v)) then Done (Err ECoinflipHash) else
  ret (xor_arrays u v).
End Coinflip.

(** The group of curve points (curve25519-dalek EdwardsPoint with its 32-byte encoding).  The
    crate only uses addition, subtraction, multiples and the encoding. *)
Record curve := mkCurve {
  point : Type;
  padd : point -> point -> point;
  pneg : point -> point;
  pzero : point;
  base : point;
  compress : point -> bytes;
  decompress : bytes -> option point
}.
(** Multiplication by a scalar is iterated addition. *)
Definition smul (G : curve) (k : N) (P : point G) : point G := N.iter k (padd G P) (pzero G).
Definition psub (G : curve) (P Q : point G) : point G := padd G P (pneg G Q).

(** [CompressedEdwardsY::from_slice] copies into a 32-byte array: panics on any other length. *)
Definition from_slice (b : bytes) : outcome bytes :=
  if Nat.eqb (length b) 32 then Ok b else Panic PSlice.

Section ChouOrlandi.
Variable sha : bytes -> bytes.
(** [n] bytes drawn one by one ([stream.gen::<u8>()]) from [ChaCha20Rng::from_seed(seed)]. *)
Variable gen_u8 : bytes -> nat -> bytes.
Variable G : curve.
Variable p : profile.


(** chou_orlandi.rs:72-95: one pair of ciphertexts. *)
Definition co_encrypt (their_public public : bytes) (secret : N) (m : bytes * bytes)
  : outcome (bytes * bytes) :=
  let* R := unwrap PUnwrap (decompress G their_public) in
  let* A := unwrap PUnwrap (decompress G public) in
  let k0 := sha (compress G (smul G secret R)) in
  let k1 := sha (compress G (smul G secret (psub G R A))) in
  let* e0 := xor_bytes p (fst m) (gen_u8 k0 (length (fst m))) in
  let* e1 := xor_bytes p (snd m) (gen_u8 k1 (length (snd m))) in
  Ok (e0, e1).

(** chou_orlandi.rs:31-103 [Sender::exchange]; [rs i] is the i-th secret scalar.  The rayon loops
    compute independent entries and are modelled as sequential maps. *)
Definition co_sender (rs : nat -> N) (msg : list (bytes * bytes)) : proc unit :=
  let n := length msg in
  let! _ := validate_properties (mkProps n chou_orlandi) in
  let publics := map (fun i => compress G (smul G (rs i) (base G))) (seq 0 n) in
  let! _ := send_all publics in
  let! theirs := recv_each recv_unwrap from_slice n in
  let! _ := lift (assert_ (Nat.eqb (length publics) (length theirs))) in
  let! payload := lift (mapM (fun im : nat * (bytes * bytes) =>
      let (i, m) := im in
      let* R := idx theirs i in
      let* A := idx publics i in
      co_encrypt R A (rs i) m) (combine (seq 0 n) msg)) in
  send (enc_payload payload).

(** chou_orlandi.rs:129-143: answer and key for one received point. *)
Definition co_answer (secret : N) (choice : bool) (their_public : bytes) : outcome (bytes * bytes) :=
  let* A := unwrap PUnwrap (decompress G their_public) in
  let B := smul G secret (base G) in
  let public := if choice then padd G A B else B in
  Ok (compress G public, sha (compress G (smul G secret A))).

(** chou_orlandi.rs:106-173 [Receiver::exchange]. *)
Definition co_receiver (rs : nat -> N) (choices : list bool) : proc (list bytes) :=
  let n := length choices in
  let! _ := validate_properties (mkProps n chou_orlandi) in
  let! theirs := recv_each recv_unwrap from_slice n in
  let! _ := lift (debug_assert p (Nat.eqb n (length theirs))) in
  let! answers := lift (mapM (fun ip : nat * bytes =>
      let (i, P) := ip in
      let* c := idx choices i in
      co_answer (rs i) c P) (combine (seq 0 (length theirs)) theirs)) in
  let! _ := send_all (map fst answers) in
  let keys := map snd answers in
  let! m := recv in
  let! payload := lift (deserialize dec_payload m) in
  lift (mapM (fun ie : nat * (bytes * bytes) =>
      let (i, e) := ie in
      let* c := idx choices i in
      let e := if c then snd e else fst e in
      let* k := idx keys i in
      xor_bytes p e (gen_u8 k (length e))) (combine (seq 0 (length payload)) payload)).
End ChouOrlandi.
