(** Model of src/ot/one_of_many.rs: 1-out-of-2^domain OT from 1-out-of-2 OTs. *)
From Coq Require Import List NArith Bool Arith.
From Verif Require Import Base MUtil MPar MProc.
Import ListNotations.
Open Scope N_scope.

(** [1usize << k] (one_of_many.rs:54, 195): shifting by 64 or more panics in debug builds and uses
    the shift amount modulo 64 in release builds. *)
Definition shl_one (p : profile) (k : nat) : outcome nat :=
  if Nat.ltb k 64 then Ok (2 ^ k)%nat
  else if is_debug p then Panic POverflow else Ok (2 ^ (k mod 64))%nat.

Section Many.
Variable sha : bytes -> bytes.
(** [ChaCha20Rng::from_seed(seed).fill_bytes] on a buffer of the given length. *)
Variable fill : bytes -> nat -> bytes.
Variable p : profile.
(** [num_cpus::get()] *)
Variable cores : nat.

(** one_of_many.rs:18-26 [fk]; the digest always has the 32 bytes [array] asks for. *)
Definition fk (key : bytes) (choice : N) (len : nat) : bytes := fill (sha (be_bytes 4 choice ++ key)) len.

(** one_of_many.rs:62-74 and 100-113: one row of y.  The index is cast to u32. *)
Definition many_row (keys : list (bytes * bytes)) (messages : list bytes) (domain byte_length i : nat) (row : bytes) : outcome bytes :=
  let* m := idx messages i in
  let* row := xor_bytes_inplace p row m in
  foldM (fun row j =>
    let bit := N.land (N.shiftr (N.of_nat i) (N.of_nat j)) 1 in
    let* k := idx keys j in
    xor_bytes_inplace p row (fk (if bit =? 1 then snd k else fst k) (N.of_nat i mod 2 ^ 32) byte_length))
    (seq 0 domain) row.

(** one_of_many.rs:53-121.  The workers own disjoint chunks and run one after the other here (C41
    treats other orders).  Every worker handles [rows_in_chunk] rows, also in a shorter last chunk. *)
Definition many_y (keys : list (bytes * bytes)) (messages : list bytes) (domain byte_length : nat) : outcome bytes :=
  let* domain_max := shl_one p domain in
  let y := repeat 0 (domain_max * byte_length) in
  if Nat.leb domain 2 then update_rows y domain_max byte_length (many_row keys messages domain byte_length)
  else
    let threads := if Nat.leb domain_max cores then domain_max else cores in
    let* _ := if is_debug p then
        (if Nat.eqb threads 0 then Panic PDivZero else debug_assert p (Nat.eqb (domain_max mod threads) 0))
      else Ok tt in
    let* rows_in_chunk := udiv domain_max threads in
    let* cs := chunks_mut (rows_in_chunk * byte_length) y in
    let* rs := mapM (fun c : nat * bytes =>
        update_rows (snd c) rows_in_chunk byte_length
          (fun i row => many_row keys messages domain byte_length (rows_in_chunk * fst c + i) row))
      (enumerate cs) in
    Ok (concat rs).

(** one_of_many.rs:33-147 [ManyOTSender::exchange]; [keys] are the random key pairs (one per domain
    bit), [internal] the 1-out-of-2 OT. *)
Definition many_sender (keys : list (bytes * bytes)) (internal : list (bytes * bytes) -> proc unit)
    (messages : list bytes) (domain : nat) : proc unit :=
  let! m0 := lift (idx messages 0) in
  let! y := lift (many_y keys messages domain (length m0)) in
  let! _ := send y in
  internal keys.

(** one_of_many.rs:160-165: [(choice & (1 << i)) >> i == 1] on u32. *)
Definition many_choices (choice : N) (domain : nat) : outcome (list bool) :=
  mapM (fun i =>
    if Nat.ltb i 32 then Ok (N.shiftr (N.land choice (N.shiftl 1 (N.of_nat i))) (N.of_nat i) =? 1)
    else if is_debug p then Panic POverflow
    else Ok (N.shiftr (N.land choice (N.shiftl 1 (N.of_nat (i mod 32)))) (N.of_nat (i mod 32)) =? 1))
    (seq 0 domain).

(** one_of_many.rs:155-206 [ManyOTReceiver::exchange]. *)
Definition many_receiver (internal : list bool -> proc (list bytes)) (choice : N) (domain : nat) : proc bytes :=
  let! choices := lift (many_choices choice domain) in
  let! y := recv in
  let! messages := internal choices in
  let! keys := lift (mapM (fun i =>
      let* m := idx messages i in
      let* _ := debug_assert p (Nat.eqb (length m mod LENGTH) 0) in
      Ok m) (seq 0 domain)) in
  let! domain_max := lift (shl_one p domain) in
  let! byte_length := lift (udiv (length y) domain_max) in
  let! x := lift (vector_row y (N.to_nat choice) byte_length) in
  lift (foldM (fun x i =>
      let* k := idx keys i in
      xor_bytes_inplace p x (fk k choice byte_length)) (seq 0 domain) x).
End Many.
