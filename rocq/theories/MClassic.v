(** Model of src/ot/apricot_classic.rs: the first version of the OT extension. *)
From Coq Require Import List NArith Bool Arith.
From Verif Require Import Base MUtil MWires MBitMatrix MPoly MBincode MProc MOt MApricot.
Import ListNotations.
Open Scope N_scope.

(** apricot_classic.rs:19-21 [COMP_SEC], [STAT_SEC]. *)
Definition COMP_SEC : nat := 128.
Definition STAT_SEC : nat := 64.

(** polynomial.rs:100-113 [gf128_mul_acc], by target_arch; [None] is any other architecture. *)
Definition gf128_mul_acc (a : option arch) (p : profile) (acc left right : bytes) : outcome bytes :=
  match a with
  | Some X86 => mul_acc_x86 acc left right
  | Some ARM64 => mul_acc_arm64 p acc left right
  | None => mul_acc_generic p acc left right
  end.

(** polynomial.rs:32-38 [<&Polynomial>::from(&BitVector)]: the length is only checked in debug builds. *)
Definition poly_from (p : profile) (v : bytes) : outcome bytes :=
  let* _ := debug_assert p (Nat.eqb (bv_len v) 128) in Ok v.

Section Classic.
Variable sha : bytes -> bytes.
(** [n] bytes drawn one by one ([gen::<u8>()], also as the elements of an array) from
    [ChaCha20Rng::from_seed(seed)], and the same for [ChaCha8Rng]. *)
Variables gen20 gen8 : bytes -> nat -> bytes.
Variable p : profile.
Variable a : option arch.

(** apricot_classic.rs:53-56: the seeds are copied into an array of 128 arrays of 32 bytes. *)
Definition copy_seeds (payload : list bytes) : outcome (list bytes) :=
  foldM (fun seed (iv : nat * bytes) =>
    let (i, v) := iv in
    let* _ := idx seed i in
    if Nat.eqb (length v) 32 then set_idx seed i v else Panic PSlice)
    (combine (seq 0 (length payload)) payload) (repeat (repeat 0 32) COMP_SEC).

(** apricot_classic.rs:59-66, 189-205: one row of l/8 bytes from each seed. *)
Definition expand_rows (l : nat) (seeds : list bytes) : list bytes := map (fun s => gen20 s (l / BLOCK_SIZE)) seeds.

(** apricot_classic.rs:71-75: the matrix q before it is transposed. *)
Definition classic_q (delta : bytes) (u t : list bytes) : outcome (list bytes) :=
  let bits := u8_vec_to_bool_vec delta in
  mapM (fun id : nat * bool =>
    let (i, d) := id in
    if d then
      let* u_row := idx u i in
      let* t_row := idx t i in
      Ok (bv_xor u_row t_row)
    else idx t i) (combine (seq 0 (length bits)) bits).

(** apricot_classic.rs:38-79 [Sender::cote]; [delta] is the 16 random bytes. *)
Definition sender_cote (delta : bytes) (bootstrap : list bool -> proc (list bytes)) (l : nat) : proc (list bytes) :=
  let! payload := bootstrap (u8_vec_to_bool_vec delta) in
  let! seed := lift (copy_seeds payload) in
  let t := expand_rows l seed in
  let! m := recv in
  let! u := lift (deserialize dec_rows m) in
  let! q := lift (classic_q delta u t) in
  lift (transpose q).

(** apricot_classic.rs:94-99, 231-236: [l] weights of 16 bytes each, from one stream. *)
Definition classic_chi (seed : bytes) (l : nat) : list bytes :=
  let stream := gen20 seed (16 * l) in
  map (fun i => firstn 16 (skipn (16 * i) stream)) (seq 0 l).

(** apricot_classic.rs:100-106: q_sum. *)
Definition classic_row_sum (q chi : list bytes) : outcome bytes :=
  foldM (fun q_sum (qc : bytes * bytes) =>
    let* q := poly_from p (fst qc) in
    let* chi := poly_from p (snd qc) in
    gf128_mul_acc a p q_sum q chi) (combine q chi) (bv_zeros 128).

(** apricot_classic.rs:109-114: the check; [==] on polynomials compares the vectors. *)
Definition classic_verdict (q_sum delta x_sum t_sum : bytes) : outcome unit :=
  let* delta := poly_from p delta in
  let* q_sum := gf128_mul_acc a p q_sum x_sum delta in
  if negb (bytes_eqb t_sum q_sum) then Err ECorrelation else Ok tt.

(** apricot_classic.rs:82-116 [Sender::correlation_check]; [cu] is the coin flip contribution. *)
Definition sender_correlation (cu : bytes) (l : nat) (q : list bytes) (delta : bytes) : proc unit :=
  let! seed := coinflip_receiver sha 32 cu in
  let chi := classic_chi seed l in
  let! q_sum := lift (classic_row_sum q chi) in
  let! m := recv in
  let! x_sum := lift (deserialize dec_bytes m) in
  let! m := recv in
  let! t_sum := lift (deserialize dec_bytes m) in
  lift (classic_verdict q_sum delta x_sum t_sum).

(** apricot_classic.rs:127-136: the two keys of message [j]. The digest has 32 bytes, so that
    [try_into().unwrap()] (144, 149) succeeds. *)
Definition classic_keys (delta : bytes) (j : nat) (q : bytes) : bytes * bytes :=
  (sha (le_bytes 8 (N.of_nat j) ++ q), sha (le_bytes 8 (N.of_nat j) ++ bv_xor q delta)).
(** apricot_classic.rs:141-154: the two ciphertexts of a message. *)
Definition classic_encrypt (m v : bytes * bytes) : outcome (bytes * bytes) :=
  let* c0 := xor_bytes p (fst m) (gen8 (fst v) (length (fst m))) in
  let* c1 := xor_bytes p (snd m) (gen8 (snd v) (length (snd m))) in
  Ok (c0, c1).
(** apricot_classic.rs:119-164 [Sender::de_rot]. *)
Definition sender_de_rot (q : list bytes) (delta : bytes) (msg : list (bytes * bytes)) : proc unit :=
  let! _ := lift (if Nat.ltb (length q) (length msg) then Panic PSlice else Ok tt) in
  let q := firstn (length msg) q in
  let v := map (fun jq => classic_keys delta (fst jq) (snd jq)) (combine (seq 0 (length q)) q) in
  let! d := lift (zipM classic_encrypt msg v) in
  let! _ := send (enc_rows (map fst d)) in
  send (enc_rows (map snd d)).

(** apricot_classic.rs:284-308 [Sender::exchange]. *)
Definition classic_sender (cu delta : bytes) (bootstrap : list bool -> proc (list bytes)) (msg : list (bytes * bytes)) : proc unit :=
  let! _ := lift (assert_ (Nat.leb BLOCK_SIZE (length msg))) in
  let! _ := lift (assert_ (Nat.eqb (length msg mod BLOCK_SIZE) 0)) in
  let! _ := validate_properties (mkProps (length msg) apricot_name) in
  let l := (length msg + COMP_SEC + STAT_SEC)%nat in
  let! q := sender_cote delta bootstrap l in
  let! _ := sender_correlation cu l q delta in
  sender_de_rot q delta msg.

(** apricot_classic.rs:207-214: the matrix u. *)
Definition classic_u (x t0 t1 : list bytes) : outcome (list bytes) :=
  mapM (fun xt : bytes * (bytes * bytes) =>
    let* u := bv_xor_assign_ref p (fst xt) (fst (snd xt)) in
    bv_xor_assign_ref p u (snd (snd xt))) (combine x (combine t0 t1)).

(** apricot_classic.rs:174-222 [Receiver::cote]; [seed0] and [seed1] are the 128 random seeds each. *)
Definition receiver_cote (seed0 seed1 : list bytes) (bootstrap : list (bytes * bytes) -> proc unit) (choices : list bool) : proc (list bytes) :=
  let l := length choices in
  let! _ := bootstrap (combine seed0 seed1) in
  let x := monochrome choices COMP_SEC in
  let t0 := expand_rows l seed0 in
  let t1 := expand_rows l seed1 in
  let! u := lift (classic_u x t0 t1) in
  let! _ := send (enc_rows u) in
  lift (transpose t0).

(** apricot_classic.rs:238-250: x_sum and t_sum. *)
Definition classic_receiver_sums (choices : list bool) (t chi : list bytes) : outcome (bytes * bytes) :=
  foldM (fun (sums : bytes * bytes) (xtc : bool * (bytes * bytes)) =>
    let (x_sum, t_sum) := sums in
    let* t := poly_from p (fst (snd xtc)) in
    let* chi := poly_from p (snd (snd xtc)) in
    let* x_sum := if fst xtc then bv_xor_assign_ref p x_sum chi else Ok x_sum in
    let* t_sum := gf128_mul_acc a p t_sum t chi in
    Ok (x_sum, t_sum)) (combine choices (combine t chi)) (bv_zeros 128, bv_zeros 128).

(** apricot_classic.rs:225-255 [Receiver::correlation_check]; [cv] is the coin flip contribution. *)
Definition receiver_correlation (cv : bytes) (t : list bytes) (choices : list bool) : proc unit :=
  let! seed := coinflip_sender sha 32 cv in
  let chi := classic_chi seed (length choices) in
  let! (x_sum, t_sum) := lift (classic_receiver_sums choices t chi) in
  let! _ := send (enc_bytes x_sum) in
  send (enc_bytes t_sum).

(** apricot_classic.rs:271-279: the selected messages; [izip!] stops with the shortest list. *)
Definition classic_decrypt (v : list bytes) (choices : list bool) (d0 d1 : list bytes) : outcome (list bytes) :=
  mapM (fun vcd : bytes * (bool * (bytes * bytes)) =>
    let '(v, (c, (d0, d1))) := vcd in
    let d := if c : bool then d1 else d0 in
    xor_bytes p d (gen8 v (length d))) (combine v (combine choices (combine d0 d1))).
(** apricot_classic.rs:258-281 [Receiver::de_rot]. *)
Definition receiver_de_rot (choices : list bool) (t : list bytes) : proc (list bytes) :=
  let v := map (fun jt : nat * bytes => sha (le_bytes 8 (N.of_nat (fst jt)) ++ snd jt)) (combine (seq 0 (length t)) t) in
  let! m := recv in
  let! d0 := lift (deserialize dec_rows m) in
  let! m := recv in
  let! d1 := lift (deserialize dec_rows m) in
  lift (classic_decrypt v choices d0 d1).

(** apricot_classic.rs:310-335 [Receiver::exchange]; [bonus] is the 192 random choices. *)
Definition classic_receiver (cv : bytes) (bonus : list bool) (seed0 seed1 : list bytes)
    (bootstrap : list (bytes * bytes) -> proc unit) (choices : list bool) : proc (list bytes) :=
  let! _ := validate_properties (mkProps (length choices) apricot_name) in
  let! _ := lift (assert_ (Nat.leb BLOCK_SIZE (length choices))) in
  let! _ := lift (assert_ (Nat.eqb (length choices mod BLOCK_SIZE) 0)) in
  let padded := choices ++ bonus in
  let! t := receiver_cote seed0 seed1 bootstrap padded in
  let! _ := receiver_correlation cv t padded in
  receiver_de_rot choices t.
End Classic.
