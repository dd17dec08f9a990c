(** Model of src/ot/apricot.rs: the OT extension. *)
From Coq Require Import List NArith Bool Arith.
From Verif Require Import Base MUtil MWires MBitMatrix MPoly MPar MBincode MProc MOt.
Import ListNotations.
Open Scope N_scope.

(** apricot.rs:14-16. *)
Definition K : nat := 128.
Definition S_ : nat := 128.
Definition K_BYTES : nat := 16.

(** The two implementations of [polynomial_mul_acc] (apricot.rs:599-733), by target_arch. *)
Inductive arch := X86 | ARM64.
Definition ap_mul_acc (a : arch) (acc left right : bytes) : outcome bytes :=
  match a with X86 => ap_mul_acc_x86 acc left right | ARM64 => ap_mul_acc_arm64 acc left right end.

(** apricot.rs:496-499 [array_from_slice::<32>]: the pointer is reinterpreted, so a shorter slice is
    read out of bounds and a longer one is cut. *)
Definition array_from_slice (v : bytes) : outcome bytes :=
  if Nat.leb 32 (length v) then Ok (firstn 32 v) else UB.

(** apricot.rs:517-525 [xor]: [destination[i] = left[i] ^ right[i]] for i < left.len(). *)
Definition ap_xor (p : profile) (destination left right : bytes) : outcome bytes :=
  let* _ := debug_assert p (Nat.eqb (length left) (length right)) in
  let* _ := debug_assert p (Nat.eqb (length left) (length destination)) in
  if Nat.ltb (length right) (length left) || Nat.ltb (length destination) (length left) then Panic PIndex
  else Ok (zipWith N.lxor left right ++ skipn (length left) destination).

(** apricot.rs:527-534 [xor_inplace]: [destination[i] ^= right[i]] for i < right.len(). *)
Definition xor_inplace (p : profile) (destination right : bytes) : outcome bytes :=
  let* _ := debug_assert p (Nat.eqb (length right) (length destination)) in
  if Nat.ltb (length destination) (length right) then Panic PIndex
  else Ok (zipWith N.lxor destination right ++ skipn (length right) destination).

(** apricot.rs:543-554 [eq]: loops over the bytes of [left]. *)
Fixpoint eq_loop (left right : bytes) : outcome bool :=
  match left with
  | [] => Ok true
  | a :: left' =>
      match right with
      | [] => Panic PIndex
      | b :: right' => if a =? b then eq_loop left' right' else Ok false
      end
  end.
Definition ap_eq (p : profile) (left right : bytes) : outcome bool :=
  let* _ := debug_assert p (Nat.eqb (length left) (length right)) in
  eq_loop left right.

Section Apricot.
Variable sha : bytes -> bytes.
(** [ChaCha20Rng::from_seed(seed).fill_bytes] on a buffer of the given length. *)
Variable fill : bytes -> nat -> bytes.
Variable p : profile.
Variable a : arch.
(** [num_cpus::get()] *)
Variable cores : nat.

(** apricot.rs:80-85, 275-289: a matrix of [h] rows of [w] bytes expanded from seeds.
    [fill_random_bytes_from_seed] (502-506) reads the seed through [array_from_slice]. *)
Definition expand_payloads (payloads : list bytes) (h w : nat) : outcome bytes :=
  update_rows (repeat 0 (w * h)) h w (fun i row =>
    let* seed := idx payloads i in
    let* seed := array_from_slice seed in
    Ok (fill seed (length row))).
Definition expand_seeds (seeds : list bytes) (h w : nat) : outcome bytes :=
  update_rows (repeat 0 (w * h)) h w (fun i row =>
    let* seed := idx seeds i in
    Ok (fill seed (length row))).

(** apricot.rs:102-113: the matrix q. *)
Definition compute_q (delta t u : bytes) (h w : nat) : outcome bytes :=
  update_rows (repeat 0 (w * h)) h w (fun i row =>
    let* db := idx delta (i / 8) in
    let* row :=
      if N.land (N.shiftr db (N.of_nat (i mod 8))) 1 =? 1 then
        let* u_row := vector_row u i w in xor_inplace p row u_row
      else Ok row in
    let* t_row := vector_row t i w in
    xor_inplace p row t_row).

(** apricot.rs:127-134: q_sum. *)
Definition row_sum (m chi : bytes) (w h : nat) : outcome bytes :=
  foldM (fun acc i =>
    let* row := vector_row m i w in
    let* chi_row := vector_row chi i w in
    ap_mul_acc a acc row chi_row) (seq 0 h) (repeat 0 w).

(** apricot.rs:160-185, body of the worker: row [r] of d, i.e. the two encrypted messages. *)
Definition randomize_row (q_transposed delta : bytes) (w msg_size : nat) (msg : list (bytes * bytes)) (r : nat) (row : bytes) : outcome bytes :=
  let* q_row := vector_row q_transposed r w in
  let v0 := sha (usize_be r ++ q_row) in
  let* m := idx msg r in
  let* plain := vector_slice row 0 msg_size in
  let* e0 := xor_inplace p (fill v0 (length plain)) (fst m) in
  let* q_buffer := ap_xor p (repeat 0 w) q_row delta in
  let v1 := sha (usize_be r ++ q_buffer) in
  let* plain := vector_slice row msg_size msg_size in
  let* e1 := xor_inplace p (fill v1 (length plain)) (snd m) in
  Ok (e0 ++ e1).
(** apricot.rs:144-191. *)
Definition randomize (q_transposed delta : bytes) (w msg_size : nat) (msg : list (bytes * bytes)) : outcome bytes :=
  let msg_count := length msg in
  let msg_pair_size := (msg_size * 2)%nat in
  let* thread_count := pick_suitable_thread_count cores msg_count in
  let* rows_in_chunk := udiv msg_count thread_count in
  par_rows msg_pair_size rows_in_chunk (repeat 0 (msg_count * msg_pair_size)) (randomize_row q_transposed delta w msg_size msg).

(** apricot.rs:115-142: what the sender does once u is in, up to the correlation check
    (it receives x_sum and t_sum); [Err ECorrelation] is [OTError::PolychromaticInput]. *)
Definition sender_check (q_sum delta x_sum t_sum : bytes) (w : nat) : outcome unit :=
  let* _ := debug_assert p (Nat.eqb w (length x_sum)) in
  let* _ := debug_assert p (Nat.eqb w (length t_sum)) in
  let* q_sum := ap_mul_acc a q_sum x_sum delta in
  let* same := ap_eq p t_sum q_sum in
  if negb same then Err ECorrelation else Ok tt.

(** apricot.rs:29-233 [Sender::exchange]; [cu] is the coin flip contribution, [delta] the 16 random
    bytes, [bootstrap] the base OT in the receiver's role.  [msg.0[0][0].len() as u16] truncates. *)
Definition ap_sender (cu delta : bytes) (bootstrap : list bool -> proc (list bytes)) (msg : list (bytes * bytes)) : proc unit :=
  let! _ := lift (debug_assert p (Nat.eqb (length msg mod 8) 0)) in
  let! _ := validate_properties (mkProps (length msg) apricot_name) in
  let l := (length msg + K + S_)%nat in
  let w := K_BYTES in let h := l in
  let tw := (h / 8)%nat in let th := (w * 8)%nat in
  let! seed := coinflip_receiver sha 32 cu in
  let! m0 := lift (idx msg 0) in
  let msg_size := length (fst m0) in
  let! _ := send (be_bytes 2 (N.of_nat msg_size mod 2 ^ 16)) in
  let! payloads := bootstrap (u8_vec_to_bool_vec delta) in
  let! t := lift (expand_payloads payloads th tw) in
  let chi := fill seed (w * h) in
  let! u := recv in
  let! q := lift (compute_q delta t u th tw) in
  let! q_transposed := lift (transpose_matrix q (repeat 0 (w * h)) th tw w) in
  let! _ := lift (debug_assert p (Nat.eqb (w * h) (length chi))) in
  let! q_sum := lift (row_sum q_transposed chi w h) in
  let! x_sum := recv in
  let! t_sum := recv in
  let! _ := lift (sender_check q_sum delta x_sum t_sum w) in
  let! d := lift (randomize q_transposed delta w msg_size msg) in
  send d.

(** apricot.rs:303-316: the matrix u. *)
Definition compute_u (t0 t1 packed : bytes) (h w : nat) : outcome bytes :=
  update_rows (repeat 0 (w * h)) h w (fun i row =>
    let* t0_row := vector_row t0 i w in
    let* t1_row := vector_row t1 i w in
    let* row := ap_xor p row t0_row t1_row in
    xor_inplace p row packed).

(** apricot.rs:337-347: x_sum and t_sum. *)
Definition receiver_sums (t chi : bytes) (padded : list bool) (w h : nat) : outcome (bytes * bytes) :=
  foldM (fun (xt : bytes * bytes) i =>
    let (x_sum, t_sum) := xt in
    let* chi_row := vector_row chi i w in
    let* c := idx padded i in
    let* x_sum := if c : bool then xor_inplace p x_sum chi_row else Ok x_sum in
    let* t_row := vector_row t i w in
    let* t_sum := ap_mul_acc a t_sum t_row chi_row in
    Ok (x_sum, t_sum)) (seq 0 h) (repeat 0 w, repeat 0 w).

(** apricot.rs:357-381: the hashes v. *)
Definition compute_v (t : bytes) (w h : nat) : outcome bytes :=
  let* thread_count := pick_suitable_thread_count cores h in
  let* rows_in_chunk := udiv h thread_count in
  par_rows 32 rows_in_chunk (repeat 0 (32 * h)) (fun r row =>
    let* t_row := vector_row t r w in
    xor_inplace p row (sha (usize_be r ++ t_row))).

(** apricot.rs:420-441, body of the worker. *)
Definition derandomize_row (v packed d : bytes) (msg_size r : nat) (y : bytes) : outcome bytes :=
  let b := (r mod 8)%nat in
  let i_actual := ((r - b) / 8)%nat in
  let* v_row := vector_row v r 32 in
  let* seed := array_from_slice v_row in
  let* pc := idx packed i_actual in
  let choice := N.to_nat (N.land (N.shiftr pc (N.of_nat b)) 1) in
  let d_idx := (r * msg_size * 2 + choice * msg_size)%nat in
  let* ds := vector_slice d d_idx msg_size in
  xor_inplace p (fill seed (length y)) ds.
(** apricot.rs:393-446; [msg_size] (u16) is the announced size, the size used to index d is taken
    from the length of d. *)
Definition derandomize (v packed d : bytes) (msg_size n : nat) : outcome (list bytes) :=
  let* msg_size_d := udiv (length d / 2) n in
  let* thread_count := pick_suitable_thread_count cores n in
  let* rows_in_chunk := udiv n thread_count in
  par_items rows_in_chunk (repeat (repeat 0 msg_size) n) (derandomize_row v packed d msg_size_d).

(** apricot.rs:268-272: the announced message size. *)
Definition announced_size (m : bytes) : outcome nat :=
  let* b0 := idx m 0 in
  let* b1 := idx m 1 in
  Ok (N.to_nat (N.lor (N.shiftl b0 8) b1)).

(** apricot.rs:238-479 [Receiver::exchange]; [cv] is the coin flip contribution, [bonus] the 256 random
    choices, [seed0] and [seed1] the 128 seeds each, [bootstrap] the base OT in the sender's role.
    The packing loop (apricot.rs:291-301) is [pack_choices]; its indices stay below 8*(l/8) <= l. *)
Definition ap_receiver (cv : bytes) (bonus : list bool) (seed0 seed1 : list bytes)
    (bootstrap : list (bytes * bytes) -> proc unit) (choices : list bool) : proc (list bytes) :=
  let! _ := lift (debug_assert p (Nat.eqb (length choices mod 8) 0)) in
  let! _ := validate_properties (mkProps (length choices) apricot_name) in
  let l := (length choices + K + S_)%nat in
  let w := K_BYTES in let h := l in
  let tw := (h / 8)%nat in let th := (w * 8)%nat in
  let! seed := coinflip_sender sha 32 cv in
  let! m := recv in
  let! msg_size := lift (announced_size m) in
  let! _ := bootstrap (combine seed0 seed1) in
  let! t0 := lift (expand_seeds seed0 th tw) in
  let! t1 := lift (expand_seeds seed1 th tw) in
  let padded := choices ++ bonus in
  let packed := pack_choices padded in
  let! u := lift (compute_u t0 t1 packed th tw) in
  let! _ := send u in
  let! t := lift (transpose_matrix t0 (repeat 0 (w * h)) th tw w) in
  let chi := fill seed (w * h) in
  let! (x_sum, t_sum) := lift (receiver_sums t chi padded w h) in
  let! _ := send x_sum in
  let! _ := send t_sum in
  let! v := lift (compute_v t w h) in
  let! d := recv in
  lift (derandomize v packed d msg_size (length choices)).
End Apricot.
